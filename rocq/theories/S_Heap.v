(** Specification vocabulary for object graphs. *)
From Verif Require Import Prelude M_Heap.
Open Scope string_scope.

(** No reference dangles. *)
Definition closed (h : heap) : Prop :=
  forall a o name b, nth_error h a = Some o -> In (name, VRef b) (ob_fields o) -> (b < List.length h)%nat.

(** Object [b] can be reached from object [a] by following attributes. *)
Inductive reaches (h : heap) : nat -> nat -> Prop :=
| reaches_here : forall a, reaches h a a
| reaches_by : forall a o name b c,
    nth_error h a = Some o -> In (name, VRef b) (ob_fields o) -> reaches h b c -> reaches h a c.

(** The attributes of an environment that a copy does not take. *)
Definition rendering_attribute (o : obj) (name : string) : Prop :=
  ob_kind o = OEnv /\ (name = "viewer" \/ name = "automatic_rendering_callback").

(** The same, without going through the rendering attributes of environments. *)
Inductive reaches_state (h : heap) : nat -> nat -> Prop :=
| state_here : forall a, reaches_state h a a
| state_by : forall a o name b c,
    nth_error h a = Some o -> In (name, VRef b) (ob_fields o) -> ~ rendering_attribute o name ->
    reaches_state h b c -> reaches_state h a c.

(** Two attributes correspond: same name, same constant or corresponding objects;
    the rendering attributes of an environment become None. *)
Definition same_value (f : nat -> nat) (v w : val) : Prop :=
  match v, w with
  | VAtom x, VAtom y => x = y
  | VRef a, VRef b => b = f a
  | _, _ => False
  end.
Definition same_attribute (f : nat -> nat) (o : obj) (x y : string * val) : Prop :=
  fst x = fst y /\
  (rendering_attribute o (fst x) -> snd y = VAtom ANone) /\
  (~ rendering_attribute o (fst x) -> same_value f (snd x) (snd y)).
Definition same_object (f : nat -> nat) (o o' : obj) : Prop :=
  ob_kind o' = ob_kind o /\ ob_class o' = ob_class o /\
  Forall2 (same_attribute f o) (ob_fields o) (ob_fields o').

(** [h'] contains, besides everything in [h] unchanged, one new object for every object
    of the state of [r], with the same class and corresponding attributes. *)
Definition holds_copy (h : heap) (r : nat) (f : nat -> nat) (h' : heap) : Prop :=
  (forall a o, nth_error h a = Some o -> nth_error h' a = Some o) /\
  (forall a, reaches_state h r a -> (List.length h <= f a < List.length h')%nat) /\
  (forall a b, reaches_state h r a -> reaches_state h r b -> f a = f b -> a = b) /\
  (forall a o, reaches_state h r a -> nth_error h a = Some o ->
     exists o', nth_error h' (f a) = Some o' /\ same_object f o o') /\
  (forall b, (List.length h <= b < List.length h')%nat -> exists a, reaches_state h r a /\ b = f a).

(** An object a program can reach from its variables. *)
Definition within_reach (h : heap) (r : regs) (a : nat) : Prop :=
  exists x b, r x = VRef b /\ reaches h b a.
