(** Specification vocabulary: where chance plays a role after [reset]. *)
From Verif Require Import Prelude M_Utils M_Lane M_Road M_Vehicle M_Kinematics M_Control M_Behavior M_Action M_Env M_Scenes M_Nets M_Reset M_Obs M_Gym
  S_Road S_Env S_Reset S_Repro.
Import ListNotations.
Open Scope R_scope.

(** No node has two ways out (several lanes of the same road do not count). *)
Definition one_way_out (g : graph) : Prop :=
  forall n d, assoc n g = Some d -> (List.length d <= 1)%nat.
(** The environments whose network has no fork, and where no vehicle appears later. *)
Definition without_chance (s : scene) : Prop :=
  match s with SHighway _ | STwoWay | SMerge | SParking _ _ | SSummon _ _ => True | SRoundabout _ _ | SIntersection _ _ _ _ _ => False end.
(** The same step with other random draws, possible ones; observations are shuffled in
    the same way. *)
Inductive other_draws : one_step -> one_step -> Prop :=
| other : forall o o' d d' sh a, oracle_ok o -> oracle_ok o' -> other_draws (OneStep o d sh a) (OneStep o' d' sh a).
(** Node [n] is a fork: there are two different roads, each with a lane, out of it. *)
Definition fork (g : graph) (n n1 n2 : string) : Prop :=
  n1 <> n2 /\ n1 <> ""%string /\ n2 <> ""%string /\
  (exists ls, g_lanes g n n1 = Ok ls /\ ls <> []) /\ exists ls, g_lanes g n n2 = Ok ls /\ ls <> [].
