(** Model of python's object graph and of the copy of an environment:
    envs/common/abstract.py:385-395 [AbstractEnv.__deepcopy__], called by
    [copy.deepcopy] (python's standard library, which follows every reference except
    those to immutable values, functions and classes, and remembers in a memo what it
    has already copied). *)
From Verif Require Import Prelude.
Open Scope string_scope.

(** Values that [copy.deepcopy] returns as they are: None, booleans, integers, floats,
    strings, and functions and classes (named). *)
Inductive atom : Type :=
| ANone | ABool (b : bool) | AInt (z : Z) | AFloat (x : R) | AStr (s : string) | AStatic (name : string).
Inductive val : Type := VAtom (a : atom) | VRef (a : nat).

(** Objects: instances of [AbstractEnv] (which define [__deepcopy__]), ordinary objects
    (instances, lists, dicts, tuples, deques, arrays: their items are fields), and
    objects that cannot be copied, such as pygame surfaces: [copy.deepcopy] raises
    TypeError on them. *)
Inductive hkind : Type := OEnv | OPlain | OOpaque.
Record obj : Type := Obj { ob_kind : hkind; ob_class : string; ob_fields : list (string * val) }.
(** Objects are identified by their position; none is ever freed. *)
Definition heap : Type := list obj.

(** abstract.py:391 [if k not in ['viewer', 'automatic_rendering_callback']]. *)
Definition skipped (k : hkind) (name : string) : bool :=
  match k with
  | OEnv => String.eqb name "viewer" || String.eqb name "automatic_rendering_callback"
  | _ => false
  end.

(** The memo of [copy.deepcopy]: original object -> its copy. *)
Definition memo : Type := list (nat * nat).
Fixpoint memo_get (m : memo) (a : nat) : option nat :=
  match m with
  | [] => None
  | (x, y) :: m' => if Nat.eqb a x then Some y else memo_get m' a
  end.

(** [setattr(y, name, v)] / [y.append(v)] on an object under construction. *)
Definition add_field (h : heap) (b : nat) (name : string) (v : val) : heap :=
  match nth_error h b with
  | Some o => firstn b h ++ Obj (ob_kind o) (ob_class o) (ob_fields o ++ [(name, v)])%list :: skipn (S b) h
  | None => h
  end%list.

(** [copy.deepcopy(v, memo)]: an atom is returned as is; an object already copied is
    looked up; otherwise a new empty object is created and memorised first
    (abstract.py:387-389; [copy._reconstruct], [copy._deepcopy_list]), then its fields are copied one
    by one (abstract.py:390-394).  [fuel] bounds the depth of the recursion; [deepcopy] gives it enough. *)
Fixpoint deep (fuel : nat) (h : heap) (m : memo) (v : val) {struct fuel} : res (heap * memo * val) :=
  match v with
  | VAtom a => Ok (h, m, VAtom a)
  | VRef a =>
      match memo_get m a with
      | Some b => Ok (h, m, VRef b)
      | None =>
          match fuel with
          | O => Err RecursionError
          | S fuel' =>
              match nth_error h a with
              | None => Err AttributeError
              | Some o =>
                  match ob_kind o with
                  | OOpaque => Err TypeError
                  | k =>
                      let b := List.length h in
                      do (h1, m1) <- foldM (fun '(h, m) '(name, x) =>
                           if skipped k name then Ok (add_field h b name (VAtom ANone), m)
                           else do (hm, y) <- deep fuel' h m x;
                                Ok (add_field (fst hm) b name y, snd hm))
                           (ob_fields o) (h ++ [Obj k (ob_class o) []], (a, b) :: m)%list;
                      Ok (h1, m1, VRef b)
                  end
              end
          end
      end
  end.
Definition deepcopy (h : heap) (v : val) : res (heap * val) :=
  do (hm, v') <- deep (List.length h) h [] v; Ok (fst hm, v').

(** ** Programs acting on the objects they can reach *)
(** Variables of a program. *)
Definition regs : Type := nat -> val.
Definition assign (r : regs) (x : nat) (v : val) : regs := fun y => if Nat.eqb x y then v else r y.
(** Elementary actions: [x = constant]; [x = y]; [x = y.name]; [x.name = y];
    [del x.name]; [x = new object]; [x = copy.deepcopy(y)]. *)
Inductive act : Type :=
| Const (x : nat) (a : atom)
| Move (x y : nat)
| Load (x y : nat) (name : string)
| Store (x : nat) (name : string) (y : nat)
| Delete (x : nat) (name : string)
| New (x : nat) (k : hkind) (class : string)
| Copy (x y : nat).
Definition update (h : heap) (a : nat) (o : obj) : heap :=
  match nth_error h a with
  | Some _ => firstn a h ++ o :: skipn (S a) h
  | None => h
  end%list.
(** One action; an action that is impossible (raises) changes nothing. *)
Definition do_act (h : heap) (r : regs) (c : act) : heap * regs :=
  match c with
  | Const x a => (h, assign r x (VAtom a))
  | Move x y => (h, assign r x (r y))
  | Load x y name =>
      match r y with
      | VRef a =>
          match nth_error h a with
          | Some o => match assoc name (ob_fields o) with Some v => (h, assign r x v) | None => (h, r) end
          | None => (h, r)
          end
      | VAtom _ => (h, r)
      end
  | Store x name y =>
      match r x with
      | VRef a =>
          match nth_error h a with
          | Some o => (update h a (Obj (ob_kind o) (ob_class o) (assoc_set name (r y) (ob_fields o))), r)
          | None => (h, r)
          end
      | VAtom _ => (h, r)
      end
  | Delete x name =>
      match r x with
      | VRef a =>
          match nth_error h a with
          | Some o => (update h a (Obj (ob_kind o) (ob_class o)
                         (filter (fun f => negb (String.eqb name (fst f))) (ob_fields o))), r)
          | None => (h, r)
          end
      | VAtom _ => (h, r)
      end
  | New x k class => ((h ++ [Obj k class []])%list, assign r x (VRef (List.length h)))
  | Copy x y =>
      match deepcopy h (r y) with
      | Ok (h', v) => (h', assign r x v)
      | Err _ => (h, r)
      end
  end.
(** Two programs acting in turn, each with its own variables: [true] is the first one. *)
Fixpoint interleave (h : heap) (r1 r2 : regs) (cs : list (bool * act)) : heap * (regs * regs) :=
  match cs with
  | [] => (h, (r1, r2))
  | (true, c) :: cs' => let '(h', r') := do_act h r1 c in interleave h' r' r2 cs'
  | (false, c) :: cs' => let '(h', r') := do_act h r2 c in interleave h' r1 r' cs'
  end.
(** A program that only knows [v]. *)
Definition knows (v : val) : regs := fun _ => v.
