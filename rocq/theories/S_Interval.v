(** Specification of interval enclosures, coordinate by coordinate, independent of
    the model's list operations. *)
From Verif Require Import Prelude.
Open Scope R_scope.

(** The [i]th entry of a vector, the entry (i, j) of a matrix. *)
Definition entry (x : list R) (i : nat) : R := nth i x 0.
Definition coef (a : list (list R)) (i j : nat) : R := nth j (nth i a []) 0.
(** f 0 + ... + f (n-1) *)
Fixpoint sum_to (n : nat) (f : nat -> R) : R := match n with O => 0 | S k => sum_to k f + f k end.
(** n rows of m entries *)
Definition shape (n m : nat) (a : list (list R)) : Prop := List.length a = n /\ Forall (fun r => List.length r = m) a.
(** A vector (matrix) between two others, entry by entry. *)
Definition boxed (lo x hi : list R) : Prop :=
  List.length lo = List.length x /\ List.length hi = List.length x /\
  forall i, (i < List.length x)%nat -> entry lo i <= entry x i <= entry hi i.
Definition mboxed (n m : nat) (lo a hi : list (list R)) : Prop :=
  shape n m lo /\ shape n m a /\ shape n m hi /\
  forall i j, (i < n)%nat -> (j < m)%nat -> coef lo i j <= coef a i j <= coef hi i j.

(** [i] is exactly the range of the values in [P]: it contains them all and its
    two ends are among them. *)
Definition is_range (P : R -> Prop) (i : R * R) : Prop :=
  (forall x, P x -> fst i <= x <= snd i) /\ P (fst i) /\ P (snd i).

(** [x'] follows [x] after an Euler step of duration [dt] of
    dx = (a0 + sum_k lambda_k da_k) x + d w + b u
    for some parameters lambda_k in [0, 1] and perturbation w within [lo, hi]. *)
Definition follows (n q m : nat) (a0 : list (list R)) (da : list (list (list R))) (b d : list (list R))
    (omega : list R * list R) (u : list R) (dt : R) (x x' : list R) : Prop :=
  List.length x = n /\ List.length x' = n /\
  exists lambda w, List.length lambda = List.length da /\ (forall k, (k < List.length da)%nat -> 0 <= entry lambda k <= 1) /\
    List.length w = q /\ boxed (fst omega) w (snd omega) /\
    forall i, (i < n)%nat ->
      entry x' i = entry x i + dt * (sum_to n (fun j => (coef a0 i j + sum_to (List.length da) (fun k => entry lambda k * coef (nth k da []) i j)) * entry x j)
                                     + sum_to q (fun j => coef d i j * entry w j) + sum_to m (fun j => coef b i j * entry u j)).

(** [x] is a weighted mean of the vectors of [l]. *)
Inductive mean_of (l : list (list R)) : list R -> Prop :=
| mean_vertex : forall x, In x l -> mean_of l x
| mean_mix : forall x y z t, mean_of l x -> mean_of l y -> 0 <= t <= 1 -> List.length x = List.length y -> List.length z = List.length x ->
    (forall i, (i < List.length x)%nat -> entry z i = (1 - t) * entry x i + t * entry y i) -> mean_of l z.

(** The same around a centre: dx = (a0 + sum_k lambda_k da_k) (x - c) + d w + b u. *)
Definition follows_about (n q m : nat) (a0 : list (list R)) (da : list (list (list R))) (b d : list (list R))
    (omega : list R * list R) (u : list R) (c : list R) (dt : R) (x x' : list R) : Prop :=
  List.length x = n /\ List.length x' = n /\
  exists lambda w, List.length lambda = List.length da /\ (forall k, (k < List.length da)%nat -> 0 <= entry lambda k <= 1) /\
    List.length w = q /\ boxed (fst omega) w (snd omega) /\
    forall i, (i < n)%nat ->
      entry x' i = entry x i + dt * (sum_to n (fun j => (coef a0 i j + sum_to (List.length da) (fun k => entry lambda k * coef (nth k da []) i j)) * (entry x j - entry c j))
                                     + sum_to q (fun j => coef d i j * entry w j) + sum_to m (fun j => coef b i j * entry u j)).

(** [t] and [ti] are inverse matrices of size [n]. *)
Definition inverses (n : nat) (t ti : list (list R)) : Prop :=
  shape n n t /\ shape n n ti /\
  (forall i j, (i < n)%nat -> (j < n)%nat -> sum_to n (fun l => coef t i l * coef ti l j) = if Nat.eqb i j then 1 else 0) /\
  (forall i j, (i < n)%nat -> (j < n)%nat -> sum_to n (fun l => coef ti i l * coef t l j) = if Nat.eqb i j then 1 else 0).
