(** Specification vocabulary: lanes that continue each other. *)
From Verif Require Import Prelude M_Utils M_Lane M_Road S_Road S_Geometry.
Open Scope R_scope.

(** The direction of a heading. *)
Definition facing (t : R) : vec := (cos t, sin t).

(** [l'] starts where [l] ends, in the same direction. *)
Definition joined (l l' : lane) : Prop :=
  l_position l (l_length l) 0 = l_position l' 0 0 /\ facing (l_heading l (l_length l)) = facing (l_heading l' 0).

(** How far the end of [l] is from the start of [l']. *)
Definition gap (l l' : lane) : R := dist2 (l_position l (l_length l) 0) (l_position l' 0 0).

(** Every lane of a route exists, has a nonnegative length and continues the previous one. *)
Fixpoint unbroken (g : graph) (rt : route) : Prop :=
  match rt with
  | [] => True
  | r :: rt' => (exists l, get_lane g r = Ok l /\ 0 <= l_length l) /\ unbroken g rt' /\
      match rt' with [] => True | r' :: _ => forall l l', get_lane g r = Ok l -> get_lane g r' = Ok l' -> joined l l' end
  end.

(** The nodes of the ring of the roundabout, in the order of travel. *)
Definition ring_nodes : list string := ["se"; "ex"; "ee"; "nx"; "ne"; "wx"; "we"; "sx"]%string.

(** The outer ends of the arms of the intersection. *)
Definition outer_nodes : list string := ["o0"; "o1"; "o2"; "o3"]%string.
