(** Specification vocabulary for actions and environments. *)
From Verif Require Import Prelude M_Utils M_Lane M_Road M_Vehicle M_Kinematics M_Control M_Behavior M_Regulation M_Action M_Env
  S_Road S_Control S_Behavior S_Regulation.
Open Scope R_scope.

(** The point of [lo, hi] at the relative place that [x] has in [-1, 1]. *)
Definition affine (range : R * R) (x : R) : R := (fst range + snd range) / 2 + x * (snd range - fst range) / 2.

(** Actions in the action space of a single agent: the number of one of the labels,
    or an array of the right size (any reals). *)
Definition in_space (s : single_action) (a : agent_action) : Prop :=
  match s, a with
  | Discrete lo la, ActInt k => (0 <= k < (if lo && la then 5 else 3))%Z /\ (lo = true \/ la = true)
  | Continuous c, ActVec x => List.length x = (if ca_lateral c && ca_longitudinal c then 2%nat else 1%nat) /\ (ca_lateral c = true \/ ca_longitudinal c = true)
  | _, _ => False
  end.
(** The single-agent type behind an action type. *)
Definition agent_of (t : action_type) : single_action := match t with Single s | Multi s => s end.
Definition in_action_space (t : action_type) (agents : nat) (a : agent_action) : Prop :=
  match t, a with
  | Single s, a => in_space s a
  | Multi s, ActTuple l => List.length l = agents /\ Forall (in_space s) l
  | _, _ => False
  end.

(** One simulation frame: everybody acts, everything moves for one period, the
    clock ticks. *)
Definition advances (sc : scenario) (o : oracle) (e e' : env) : Prop :=
  exists rd1 rd2, road_act (o_road o (e_time e)) (e_road e) = Ok rd1 /\
    (if sc_regulated sc then regulated_step YIELD_DURATION rd1 (1 / sc_simulation sc) else road_step rd1 (1 / sc_simulation sc)) = Ok rd2 /\
    e' = Env rd2 (e_controlled e) (e_time e + 1) (e_steps e) (e_done e).
(** [k] frames, none of which but possibly the last ends the episode. *)
Inductive runs (sc : scenario) (o : oracle) : nat -> env -> env -> Prop :=
| runs_one : forall e e', advances sc o e e' -> runs sc o 1 e e'
| runs_more : forall k e e1 e', advances sc o e e1 -> e_done e1 = false -> sc_terminal sc e1 = Ok false ->
    runs sc o k e1 e' -> runs sc o (S k) e e'.
(** The episode is over. *)
Definition over (sc : scenario) (e : env) : Prop := e_done e = true \/ sc_terminal sc e = Ok true.
(** The agent's action changes the controlled vehicles. *)
Definition applies (sc : scenario) (o : oracle) (a : agent_action) (e e' : env) : Prop :=
  exists rd, action_act (sc_action sc) (o_act o (e_time e)) (e_road e) (e_controlled e) a = Ok rd /\
    e' = Env rd (e_controlled e) (e_time e) (e_steps e) (e_done e).

(** Draws of the random generator are in range. *)
Definition oracle_ok (o : oracle) : Prop := (forall t i, draw_ok (o_act o t i)) /\ (forall t i, draw_ok (o_road o t i)).

(** Successive policy steps; [trace] lists the environment after each of them. *)
Inductive episode (sc : scenario) : env -> list agent_action -> list env -> Prop :=
| episode_nil : forall e, episode sc e [] []
| episode_cons : forall e o a acts e1 trace, oracle_ok o -> env_step sc o e a = Ok e1 -> episode sc e1 acts trace ->
    episode sc e (a :: acts) (e1 :: trace).

(** An environment that can be stepped: the road can be simulated, the controlled
    vehicles are distinct vehicles of it, of the class their actions need. *)
Definition road_ready (sc : scenario) (rd : road) : Prop := if sc_regulated sc then regulated rd else runnable rd.
Definition distinct_vehicles (rd : road) : Prop := NoDup (map v_id (rd_vehicles rd)).
Definition ready (sc : scenario) (e : env) : Prop :=
  road_ready sc (e_road e) /\ distinct_vehicles (e_road e) /\ e_controlled e <> [] /\
  forall id, In id (e_controlled e) -> exists v, In v (rd_vehicles (e_road e)) /\ v_id v = id /\ v_kind v = vehicle_class (agent_of (sc_action sc)).
(** Frequencies for which the road rules can be applied. *)
Definition frequencies_ok (sc : scenario) : Prop := sc_policy sc <> 0 /\ (sc_regulated sc = true -> 2 <= sc_simulation sc).
(** The end of the episode can be decided in every reachable situation. *)
Definition decides (sc : scenario) : Prop := forall e, ready sc e -> exists b, sc_terminal sc e = Ok b.
