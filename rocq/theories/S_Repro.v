(** Specification vocabulary of reproducibility.  The only place where the order in which
    python iterates over a set of strings (which depends on PYTHONHASHSEED) matters is the
    search for a route, road.py:124. *)
From Verif Require Import Prelude M_Utils M_Lane M_Road M_Vehicle M_Control M_Behavior M_Regulation M_Action M_Env M_Scenes M_Nets M_Reset M_Ttc M_Obs M_Gym
  S_Road S_Env S_Reset S_Gym.
Import ListNotations.
Open Scope R_scope.

(** The same random draws in a process that iterates over sets in another order. *)
Definition reorder (d : draws) (ord : list string -> list string -> list string) : draws :=
  Draws (dr_unit d) (dr_normal d) (dr_int d) (dr_pair d) (dr_frame d) ord.
(** Normal draws within five deviations. *)
Definition near_draws (d : draws) : Prop := forall k, Rabs (dr_normal d k) <= 5.

(** Where the [k]-th agent of the intersection goes: the configured node, or arm 1, 2 or 3. *)
Definition agent_destination (dest : option string) (d : draws) (k : nat) : string :=
  match dest with
  | Some ""%string | None => corner_name "o" (1 + dr_int d k 3)
  | Some s => s
  end.
(** The destination is not the agent's own arm: neither its outer end, nor the node where
    the way out starts. *)
Definition goes_elsewhere (dest : option string) (d : draws) (k : nat) : Prop :=
  agent_destination dest d k <> corner_name "o" k /\ agent_destination dest d k <> corner_name "il" k.
(** The scene does not depend on the order of sets. *)
Definition order_free (s : scene) (d : draws) : Prop :=
  match s with
  | SIntersection _ n _ dest _ => near_draws d /\ (n <= 4)%nat /\ forall k, (k < n)%nat -> goes_elsewhere dest d k
  | _ => True
  end.

(** ** Two processes *)
(** An episode: reset, then the steps, each with its draws. *)
Record one_step : Type := OneStep {
  os_oracle : oracle; os_draws : draws; os_shuffle : nat -> list (list R) -> list (list R); os_action : agent_action }.
Fixpoint play_on (cs : classes) (g : gym) (l : list one_step) : res (gym * list outcome) :=
  match l with
  | [] => Ok (g, [])
  | x :: l =>
      do (g1, out) <- gym_step cs g (os_oracle x) (os_draws x) (os_shuffle x) (os_action x);
      do (g2, outs) <- play_on cs g1 l;
      Ok (g2, out :: outs)
  end.
Definition whole_episode (cs : classes) (cf : common) (s : scene) (t : observation_type) (d : draws)
  (sh : nat -> list (list R) -> list (list R)) (l : list one_step) : res (list observation * gym * list outcome) :=
  do (cg, obs) <- gym_reset cs cf s t d sh;
  do (g, outs) <- play_on (fst cg) (snd cg) l;
  Ok (obs, g, outs).
(** The same step in the other process. *)
Inductive same_step : one_step -> one_step -> Prop :=
| same_one_step : forall o d ord sh a, draws_ok d -> near_draws d -> set_order ord -> same_step (OneStep o d sh a) (OneStep o (reorder d ord) sh a).
(** The same operation on the environments of the other process. *)
Inductive same_operation : operation -> operation -> Prop :=
| same_reset : forall k cf s d ord, draws_ok d -> set_order ord -> order_free s d ->
    same_operation (OReset k cf s d) (OReset k cf s (reorder d ord))
| same_op_step : forall k o d ord a, draws_ok d -> near_draws d -> set_order ord ->
    same_operation (OStep k o d a) (OStep k o (reorder d ord) a).

(** The networks of the package, apart from the intersection. *)
Inductive shipped_network : graph -> Prop :=
| sn_highway : forall n, shipped_network (highway_net n)
| sn_two_way : forall len, shipped_network (two_way_net len)
| sn_merge : shipped_network merge_net
| sn_keeping : shipped_network lane_keeping_net
| sn_roundabout : shipped_network roundabout_net
| sn_parking : shipped_network (parking_net 15)
| sn_summon : shipped_network (summon_net 15).
(** At the intersection: from the inner end of an arm to the outer end of the same arm or
    to its way out; from the outer end to its way out. *)
Definition turns_back (a b : string) : Prop :=
  exists k, (k < 4)%nat /\
    ((a = corner_name "ir" k /\ (b = corner_name "o" k \/ b = corner_name "il" k)) \/ (a = corner_name "o" k /\ b = corner_name "il" k)).
