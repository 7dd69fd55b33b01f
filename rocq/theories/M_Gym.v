(** Model of what [env.reset()] and [env.step(action)] return (envs/common/abstract.py:155-207
    and the [step] methods of intersection_env.py and parking_env.py): observation,
    reward, end of the episode, info. *)
From Verif Require Import Prelude M_Utils M_Lane M_Road M_Vehicle M_Kinematics M_Control M_Behavior M_Regulation M_Action M_Env M_Scenes M_Nets M_Reset M_Ttc M_Obs.
Open Scope R_scope.

(** ** Observation types *)
(** observation.py:405-421 [observation_factory], for the observations of a vehicle
    (config["observation"]); Kinematics with its features_range. *)
Inductive observer : Type :=
| Kinematics (c : kin_config) (r : option ranges)
| TimeToCollision (horizon : R)
| KinematicsGoal (names : list string) (scales : list R).
(** One observer, on [env.vehicle], or one for each controlled vehicle
    (MultiAgentObservation, observation.py:357-373). *)
Inductive observation_type : Type := OneObserver (ob : observer) | ManyObservers (ob : observer).
Definition observer_of (t : observation_type) : observer := match t with OneObserver ob | ManyObservers ob => ob end.
(** What is returned for one observer. *)
Inductive observation : Type :=
| ObsRows (rows : list (list R))
| ObsGrid (g : grid3)
| ObsGoal (go : goal_obs).
(** Observers have a state: their features_range, computed at the first observation
    (observation.py:171-178). *)
Definition fresh_state (ob : observer) : option ranges := match ob with Kinematics _ r => r | _ => None end.

(** abstract.py:35 PERCEPTION_DISTANCE, computed when the module is imported. *)
Definition PERCEPTION : R := 6 * 30.
(** One observation of the vehicle [v]; [ev] is [env.vehicle], [goal] is [env.goal],
    [cs] holds MDPVehicle.SPEED_MAX. *)
Definition observe_one (cs : classes) (policy : R) (ob : observer) (shuffle : list (list R) -> list (list R))
  (goal : option object) (rd : road) (ev v : vehicle) (r : option ranges) : res (observation * option ranges) :=
  match ob with
  | Kinematics c _ => do (rows, r') <- kin_observe c (sg_max (cl_grid cs)) PERCEPTION shuffle r (Some rd) v; Ok (ObsRows rows, r')
  | TimeToCollision horizon => do g <- ttc_observe rd ev v policy horizon; Ok (ObsGrid g, r)
  | KinematicsGoal names scales =>
      match goal with
      | None => Err AttributeError
      | Some o => do go <- goal_observe names scales (rd_net rd) (Some v) o; Ok (ObsGoal go, r)
      end
  end.
(** The vehicles observed. *)
Definition observed (t : observation_type) (e : env) : res (list vehicle) :=
  match t with OneObserver _ => do v <- ego e; Ok [v] | ManyObservers _ => Ok (controlled e) end.
(** [observation_type.observe()]: one observation per observed vehicle (a tuple for
    MultiAgentObservation, the only one otherwise), and the new states of the
    observers.  [shuffle k] is the shuffling done for the [k]-th. *)
Definition observe (cs : classes) (policy : R) (t : observation_type) (shuffle : nat -> list (list R) -> list (list R))
  (goal : option object) (e : env) (states : list (option ranges)) : res (list (observation * option ranges)) :=
  do ev <- ego e;
  do vs <- observed t e;
  mapM (fun kvr => observe_one cs policy (observer_of t) (shuffle (fst kvr)) goal (e_road e) ev (fst (snd kvr)) (snd (snd kvr)))
       (combine (seq 0 (List.length vs)) (combine vs states)).

(** ** Rewards *)
(** roundabout_env.py:41 [action == 0 or action == 2]: False for a tuple; the truth
    value of an array of several elements raises ValueError. *)
Definition is_lane_change (a : agent_action) : res bool :=
  match a with
  | ActInt k => Ok (Z.eqb k 0 || Z.eqb k 2)
  | ActTuple _ => Ok false
  | ActVec [x] => Ok (Reqb x 0 || Reqb x 2)
  | ActVec _ => Err ValueError
  end.
(** [self._reward(action)] in every environment (abstract.py:194).  In the merge, the
    key of an array or a tuple is not found (an array is not even hashable, but its
    vehicle has no speed_index, which is noticed first).  In the parking lots: the sum
    over the observations. *)
Definition scene_reward (cs : classes) (s : scene) (t : observation_type) (goal : option object) (e : env) (a : agent_action) : res R :=
  match s with
  | SHighway h => highway_env_reward (hs_cfg h) e
  | STwoWay => two_way_env_reward e
  | SMerge => merge_env_reward e (match a with ActInt k => k | _ => -1 end)%Z
  | SRoundabout _ _ => do b <- is_lane_change a; roundabout_env_reward (cl_grid cs) e (if b then 0 else 1)%Z
  | SIntersection c _ _ _ _ => intersection_reward c e
  | SParking _ _ =>
      do vs <- observed t e;
      match goal with Some o => Ok (parking_reward parking_compute o vs) | None => Err AttributeError end
  | SSummon _ _ =>
      do ev <- ego e;
      do vs <- observed t e;
      match goal with Some o => Ok (parking_reward (summon_compute (v_crashed ev)) o vs) | None => Err AttributeError end
  end.
(** [self._cost(action)] where it is defined (abstract.py:202-205): highway_env.py:101-103,
    intersection_env.py:236-238, two_way_env.py:57-59. *)
Definition scene_cost (s : scene) (v : vehicle) : option R :=
  match s with
  | SHighway _ | SIntersection _ _ _ _ _ => Some (crash_cost v)
  | STwoWay => Some (two_way_cost v)
  | _ => None
  end.

(** ** The loop *)
(** abstract.py:197-205; "agents_rewards" and "agents_dones" (intersection_env.py:95-96),
    "is_success" (parking_env.py:55-59) where they exist. *)
Record info : Type := Info {
  nf_speed : R;
  nf_crashed : bool;
  nf_action : agent_action;
  nf_cost : option R;
  nf_agents : option (list R * list bool);
  nf_success : option (list bool) }.
(** An environment with its observers. *)
Record gym : Type := Gym {
  gy_cf : common;
  gy_scene : scene;
  gy_type : observation_type;
  gy_scenario : scenario;
  gy_goal : option object;
  gy_states : list (option ranges);
  gy_env : env }.
(** What [step] returns. *)
Record outcome : Type := Outcome { ou_obs : list observation; ou_reward : R; ou_done : bool; ou_info : info }.

(** parking_env.py:79-80: [self.goal], the only object of the scene. *)
Definition goal_of (s : scene) (e : env) : option object :=
  match s with SParking _ _ | SSummon _ _ => hd_error (rd_objects (e_road e)) | _ => None end.
(** abstract.py:155-167 [reset].  [define_spaces] re-creates the observers (their space
    is not modelled here, see C46, C74, C77). *)
Definition gym_reset (cs : classes) (cf : common) (s : scene) (t : observation_type) (d : draws)
  (shuffle : nat -> list (list R) -> list (list R)) : res (classes * gym * list observation) :=
  do (cse, e) <- reset cs cf s d;
  let cs' := fst cse in
  let goal := goal_of s e in
  let n := match t with OneObserver _ => 1%nat | ManyObservers _ => List.length (e_controlled e) end in
  do os <- observe cs' (cf_policy cf) t shuffle goal e (repeat (fresh_state (observer_of t)) n);
  Ok (cs', Gym cf s t (snd cse) goal (map snd os) e, map fst os).

(** parking_env.py:53-60: [_is_success] of every observation; other observations than
    goals cannot be indexed by name. *)
Definition goal_success (s : scene) (crashed : bool) (ob : observation) : res bool :=
  match ob with
  | ObsGoal go => Ok (is_success (match s with
                                  | SSummon _ _ => summon_compute crashed (go_achieved go) (go_desired go)
                                  | _ => parking_compute (go_achieved go) (go_desired go)
                                  end))
  | _ => Err IndexError
  end.
(** [env.compute_reward(achieved_goal, desired_goal, info)], part of the GoalEnv
    interface: parking_env.py:100-111, and summon_env.py:105-117 with the crash state
    [env.vehicle] has when it is called. *)
Definition gym_compute_reward (g : gym) (achieved desired : list R) : res R :=
  match gy_scene g with
  | SParking _ _ => Ok (parking_compute achieved desired)
  | SSummon _ _ => do v <- ego (gy_env g); Ok (summon_compute (v_crashed v) achieved desired)
  | _ => Err AttributeError
  end.
(** intersection_env.py:91-97. *)
Definition agents_info (c : intersection_config) (policy : R) (e : env) : res (list R * list bool) :=
  do rs <- mapM (agent_reward c (rd_net (e_road e))) (controlled e);
  do ds <- mapM (agent_terminal c policy e) (controlled e);
  Ok (rs, ds).
(** abstract.py:177-207 [step], with what the subclasses do after it.  The class
    attributes are looked up in [cs]. *)
Definition gym_step (cs : classes) (g : gym) (o : oracle) (d : draws) (shuffle : nat -> list (list R) -> list (list R)) (a : agent_action)
  : res (gym * outcome) :=
  let cf := gy_cf g in
  let s := gy_scene g in
  let sc := gy_scenario g in
  do e1 <- env_step sc o (seen_env cs cf s (gy_env g)) a;
  do os <- observe cs (cf_policy cf) (gy_type g) shuffle (gy_goal g) e1 (gy_states g);
  do reward <- scene_reward cs s (gy_type g) (gy_goal g) e1 a;
  do terminal <- sc_terminal sc e1;
  do v <- ego e1;
  let g1 e := Gym cf s (gy_type g) sc (gy_goal g) (map snd os) e in
  let out ag su := Outcome (map fst os) reward terminal (Info (v_speed v) (v_crashed v) a (scene_cost s v) ag su) in
  match s with
  | SIntersection c _ _ _ prob =>
      do rd <- clear_vehicles (e_controlled e1) (e_road e1);
      do rd <- spawn cs (cf_traffic cf) d 0 (e_controlled e1) 0 1 1 prob false rd;
      let e2 := set_road e1 rd in
      do ag <- agents_info c (cf_policy cf) e2;
      Ok (g1 e2, out (Some ag) None)
  | SParking _ _ | SSummon _ _ =>
      do su <- mapM (goal_success s (v_crashed v)) (map fst os);
      Ok (g1 e1, out None (Some su))
  | _ => Ok (g1 e1, out None None)
  end.

(** ** Default observations *)
(** highway_env.py:33-35. *)
Definition highway_observation : observation_type := OneObserver (Kinematics kin_default None).
(** abstract.py:93-95, horizon as in observation.py:91. *)
Definition merge_observation : observation_type := OneObserver (TimeToCollision 10).
(** two_way_env.py:31-34. *)
Definition two_way_observation : observation_type := OneObserver (TimeToCollision 5).
(** roundabout_env.py:23-27. *)
Definition square_ranges (p v : R) : ranges := [("x", (- p, p)); ("y", (- p, p)); ("vx", (- v, v)); ("vy", (- v, v))]%string.
Definition roundabout_observation : observation_type :=
  OneObserver (Kinematics (KinConfig None 5 true "sorted" true true false false) (Some (square_ranges 100 15))).
(** intersection_env.py:29-41. *)
Definition intersection_features : list string := ["presence"; "x"; "y"; "vx"; "vy"; "cos_h"; "sin_h"]%string.
Definition intersection_observation : observation_type :=
  OneObserver (Kinematics (KinConfig (Some intersection_features) 15 true "sorted" true true false false) (Some (square_ranges 100 20))).
(** intersection_env.py:250-255. *)
Definition agents_observation : observation_type := ManyObservers (Kinematics kin_default None).
(** parking_env.py:32-37. *)
Definition parking_observation : observation_type :=
  OneObserver (KinematicsGoal ["x"; "y"; "vx"; "vy"; "cos_h"; "sin_h"]%string [100; 100; 5; 5; 1; 1]).
Definition default_observation (s : scene) : observation_type :=
  match s with
  | SHighway _ => highway_observation
  | STwoWay => two_way_observation
  | SMerge => merge_observation
  | SParking _ _ | SSummon _ _ => parking_observation
  | SRoundabout _ _ => roundabout_observation
  | SIntersection _ _ _ _ _ => intersection_observation
  end.
