(** Python / numpy primitives used by every model file.
    Definitions only.  Numbers: float64 is idealised as [R] (see DESIGN.md). *)
From Coq Require Export Reals List ZArith Bool String.
From Coq Require Import Lia.
Export ListNotations.

(** ** Exceptions as values *)

(** The python exceptions the modelled code can raise. *)
Inductive exn : Type :=
| KeyError | IndexError | TypeError | ZeroDivisionError | ValueError
| AttributeError | RecursionError | NotImplementedError | StopIteration.

(** Result of a python call: a value or a raised exception. *)
Inductive res (A : Type) : Type :=
| Ok : A -> res A
| Err : exn -> res A.
Arguments Ok {A} _.
Arguments Err {A} _.

Definition bind {A B : Type} (r : res A) (f : A -> res B) : res B :=
  match r with Ok a => f a | Err e => Err e end.
Notation "'do' x <- r ; k" := (bind r (fun x => k))
  (at level 200, x pattern, r at level 100, k at level 200).

Definition rmap {A B : Type} (f : A -> B) (r : res A) : res B :=
  match r with Ok a => Ok (f a) | Err e => Err e end.

(** [[f(x) for x in l]] where [f] may raise: the first exception wins. *)
Fixpoint mapM {A B : Type} (f : A -> res B) (l : list A) : res (list B) :=
  match l with
  | [] => Ok []
  | x :: l' => do y <- f x; do ys <- mapM f l'; Ok (y :: ys)
  end.

(** [for x in l: state = f(state, x)] where [f] may raise. *)
Fixpoint foldM {A S : Type} (f : S -> A -> res S) (l : list A) (s : S) : res S :=
  match l with
  | [] => Ok s
  | x :: l' => do s' <- f s x; foldM f l' s'
  end.

(** ** Comparisons as booleans *)

Definition Rleb (x y : R) : bool := if Rle_dec x y then true else false.
Definition Rltb (x y : R) : bool := if Rlt_dec x y then true else false.
Definition Reqb (x y : R) : bool := if Req_EM_T x y then true else false.

Declare Scope rb_scope.
Delimit Scope rb_scope with rb.
Notation "x <=? y" := (Rleb x y) : rb_scope.
Notation "x <? y" := (Rltb x y) : rb_scope.
Notation "x =? y" := (Reqb x y) : rb_scope.

(** ** Rounding *)

(** [math.floor] as an integer. [Int_part] is the standard library's floor. *)
Definition Rfloor (x : R) : Z := Int_part x.

(** python [x % y] on floats (used with [y > 0] only): the representative of
    [x] modulo [y] with the sign of [y]. *)
Definition Rpymod (x y : R) : R := (x - y * IZR (Rfloor (x / y)))%R.

(** python [int(x)] on a float: truncation toward zero. *)
Definition Rtrunc (x : R) : Z :=
  if Rleb 0 x then Rfloor x else (- Rfloor (- x))%Z.

(** [np.round(x)]: nearest integer, halves to even. *)
Definition Rround_even (x : R) : Z :=
  let f := Rfloor x in
  let r := (x - IZR f)%R in
  if Rltb r (1/2) then f
  else if Rltb (1/2) r then (f + 1)%Z
  else if Z.even f then f else (f + 1)%Z.

(** [np.clip(x, a, b)] = [minimum(maximum(x, a), b)]. *)
Definition Rclip (x a b : R) : R := Rmin (Rmax x a) b.
Definition Zclip (x a b : Z) : Z := Z.min (Z.max x a) b.

(** ** Plane vectors *)

(** numpy arrays of shape (2,). *)
Definition vec : Type := (R * R)%type.
Definition vadd (a b : vec) : vec := ((fst a + fst b)%R, (snd a + snd b)%R).
Definition vsub (a b : vec) : vec := ((fst a - fst b)%R, (snd a - snd b)%R).
Definition vscal (k : R) (a : vec) : vec := ((k * fst a)%R, (k * snd a)%R).
Definition vdot (a b : vec) : R := (fst a * fst b + snd a * snd b)%R.
(** [np.linalg.norm] of a 2-vector. *)
Definition vnorm (a : vec) : R := sqrt (fst a * fst a + snd a * snd a).
(** [[[c, -s], [s, c]] @ v] for the angle [t]. *)
Definition vrot (t : R) (v : vec) : vec :=
  ((cos t * fst v - sin t * snd v)%R, (sin t * fst v + cos t * snd v)%R).

(** [np.arctan2(y, x)] (signed zeros not modelled: [arctan2(0, -x) = pi]). *)
Definition atan2 (y x : R) : R :=
  if Rltb 0 x then atan (y / x)
  else if Rltb x 0 then
    if Rleb 0 y then (atan (y / x) + PI)%R else (atan (y / x) - PI)%R
  else if Rltb 0 y then (PI / 2)%R
  else if Rltb y 0 then (- (PI / 2))%R
  else 0%R.

(** ** Lists *)

(** python [l[i]] with an integer index: negative indices count from the end. *)
Definition py_index {A : Type} (l : list A) (i : Z) : res A :=
  let n := Z.of_nat (List.length l) in
  let j := if (i <? 0)%Z then (i + n)%Z else i in
  if (0 <=? j)%Z then
    match nth_error l (Z.to_nat j) with Some x => Ok x | None => Err IndexError end
  else Err IndexError.

(** [range(n)] as integers. *)
Definition zrange (n : nat) : list Z := map Z.of_nat (seq 0 n).

(** First element of [l] with the smallest key, starting from a current best
    (python [min(l, key=...)], [np.argmin]: the first minimum wins). *)
Fixpoint first_min_from {A : Type} (key : A -> R) (best : A) (l : list A) : A :=
  match l with
  | [] => best
  | x :: l' => first_min_from key (if Rltb (key x) (key best) then x else best) l'
  end.
(** Raises [ValueError] on an empty sequence, as both python and numpy do. *)
Definition first_min {A : Type} (key : A -> R) (l : list A) : res A :=
  match l with [] => Err ValueError | x :: l' => Ok (first_min_from key x l') end.

(** python [sorted(l, key=...)]: stable; modelled by insertion sort. *)
Fixpoint insert_by {A : Type} (key : A -> R) (x : A) (l : list A) : list A :=
  match l with
  | [] => [x]
  | y :: l' => if Rleb (key x) (key y) then x :: l else y :: insert_by key x l'
  end.
Fixpoint sort_by {A : Type} (key : A -> R) (l : list A) : list A :=
  match l with
  | [] => []
  | x :: l' => insert_by key x (sort_by key l')
  end.

(** Insertion-ordered python [dict] with string keys. *)
Fixpoint assoc {A : Type} (k : string) (d : list (string * A)) : option A :=
  match d with
  | [] => None
  | (k', v) :: d' => if String.eqb k k' then Some v else assoc k d'
  end.
(** [d[k] = v]: in place if [k] is present, appended otherwise. *)
Fixpoint assoc_set {A : Type} (k : string) (v : A) (d : list (string * A)) : list (string * A) :=
  match d with
  | [] => [(k, v)]
  | (k', v') :: d' => if String.eqb k k' then (k, v) :: d' else (k', v') :: assoc_set k v d'
  end.
Definition keys {A : Type} (d : list (string * A)) : list string := map fst d.

(** Sum of a list of reals. *)
Fixpoint rsum (l : list R) : R :=
  match l with [] => 0%R | x :: l' => (x + rsum l')%R end.

(** Iterate a function [n] times. *)
Fixpoint iter {A : Type} (n : nat) (f : A -> A) (x : A) : A :=
  match n with O => x | S n' => iter n' f (f x) end.
