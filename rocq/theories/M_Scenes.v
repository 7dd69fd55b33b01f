(** Model of the concrete environments: episode ends, rewards, costs.
    envs/highway_env.py, merge_env.py, two_way_env.py, roundabout_env.py,
    intersection_env.py, parking_env.py, summon_env.py, lane_keeping_env.py. *)
From Verif Require Import Prelude M_Utils M_Lane M_Road M_Vehicle M_Kinematics M_Control M_Behavior M_Regulation M_Action M_Env.
Open Scope R_scope.

(** A python bool in an arithmetic expression. *)
Definition b2R (b : bool) : R := if b then 1 else 0.
(** [i[2]] in an arithmetic expression: None raises TypeError. *)
Definition lane_number (i : lane_index) : res R := match li_id i with Some k => Ok (IZR k) | None => Err TypeError end.
(** Division of python numbers. *)
Definition pydiv (x y : R) : res R := if Reqb y 0 then Err ZeroDivisionError else Ok (x / y).

(** ** highway_env.py *)
Record highway_config : Type := HighwayCfg {
  hw_collision : R;                (* collision_reward *)
  hw_speed : R * R;                (* reward_speed_range *)
  hw_duration : R;                 (* duration *)
  hw_offroad : bool }.             (* offroad_terminal *)
Definition highway_default : highway_config := HighwayCfg (-1) (20, 30) 40 false.
(** highway_env.py:19-26. *)
Definition HW_RIGHT_LANE : R := 1/10.
Definition HW_HIGH_SPEED : R := 4/10.
(** highway_env.py:75-93 [_reward]; the action is not used. *)
Definition highway_reward (c : highway_config) (g : graph) (v : vehicle) : res R :=
  do neighbours <- all_side_lanes g (v_lane_index v);
  do lane <- lane_number (if is_controlled (v_kind v) then v_target_lane v else v_lane_index v);
  do scaled <- lmap (v_speed v) (hw_speed c) (0, 1);
  let reward := hw_collision c * b2R (v_crashed v)
                + HW_RIGHT_LANE * lane / Rmax (INR (List.length neighbours) - 1) 1
                + HW_HIGH_SPEED * Rclip scaled 0 1 in
  do reward <- lmap reward (hw_collision c, HW_HIGH_SPEED + HW_RIGHT_LANE) (0, 1);
  do on <- on_road g v;
  Ok (if negb on then 0 else reward).
(** highway_env.py:95-99 [_is_terminal]. *)
Definition highway_terminal (c : highway_config) (e : env) : res bool :=
  do v <- ego e;
  if v_crashed v then Ok true
  else if Rleb (hw_duration c) (IZR (e_steps e)) then Ok true
  else if hw_offroad c then do on <- on_road (rd_net (e_road e)) v; Ok (negb on)
  else Ok false.
(** highway_env.py:101-103, intersection_env.py:236-238 [_cost]. *)
Definition crash_cost (v : vehicle) : R := b2R (v_crashed v).

(** ** roundabout_env.py *)
(** controller.py:274-275 [get_speed_index]: [speed_index] for MDP vehicles, else
    the index of the speed in the grid [cg] of the class. *)
Definition get_speed_index (cg : speed_grid) (v : vehicle) : Z :=
  match v_kind v with KMDP => v_speed_index v | _ => speed_to_index cg (v_speed v) end.
(** roundabout_env.py:40-45 [_reward]; [cg] is the grid stored in class MDPVehicle. *)
Definition roundabout_reward (cg : speed_grid) (v : vehicle) (action : Z) : res R :=
  let lane_change := Z.eqb action 0 || Z.eqb action 2 in
  let reward := -1 * b2R (v_crashed v)
                + 2/10 * IZR (get_speed_index cg v) / Rmax (IZR (sg_count cg) - 1) 1
                + (-5/100) * b2R lane_change in
  lmap reward (-1 + -5/100, 2/10) (0, 1).
(** roundabout_env.py:47-49 [_is_terminal]. *)
Definition roundabout_terminal (duration : R) (e : env) : res bool :=
  do v <- ego e; Ok (v_crashed v || Rleb duration (IZR (e_steps e))).

(** ** merge_env.py *)
(** merge_env.py:37-41: KeyError for an unknown action. *)
Definition merge_action_reward (action : Z) : res R :=
  if Z.eqb action 0 || Z.eqb action 2 then Ok (-5/100)
  else if Z.eqb action 1 || Z.eqb action 3 || Z.eqb action 4 then Ok 0
  else Err KeyError.
(** merge_env.py:46-50: the altruistic penalty, accumulated over the vehicles. *)
Definition merging_penalty (reward : R) (w : vehicle) : res R :=
  if li_eqb (v_lane_index w) ("b", "c", Some 2%Z)%string && is_controlled (v_kind w)
  then do x <- pydiv (-5/10 * (v_target_speed w - v_speed w)) (v_target_speed w); Ok (reward + x)
  else Ok reward.
(** merge_env.py:28-55 [_reward]; [speed_index] only exists on MDP vehicles. *)
Definition merge_reward (rd : road) (v : vehicle) (action : Z) : res R :=
  do lane <- lane_number (v_lane_index v);
  match v_kind v with
  | KMDP =>
    do sp <- pydiv (2/10 * IZR (v_speed_index v)) (IZR (sg_count (v_grid v)) - 1);
    let reward := -1 * b2R (v_crashed v) + 1/10 * lane / 1 + sp in
    do reward <- foldM merging_penalty (rd_vehicles rd) reward;
    do act <- merge_action_reward action;
    lmap (act + reward) (-1 + -5/10, 2/10 + 1/10) (0, 1)
  | _ => Err AttributeError
  end.
(** merge_env.py:57-59 [_is_terminal]. *)
Definition merge_terminal (e : env) : res bool :=
  do v <- ego e; Ok (v_crashed v || Rltb 370 (fst (v_pos v))).

(** ** two_way_env.py *)
(** two_way_env.py:41-51 [_reward]. *)
Definition two_way_reward (g : graph) (v : vehicle) : res R :=
  do neighbours <- all_side_lanes g (v_lane_index v);
  match v_kind v with
  | KMDP =>
    do sp <- pydiv (8/10 * IZR (v_speed_index v)) (IZR (sg_count (v_grid v)) - 1);
    do lane <- lane_number (v_target_lane v);
    do ll <- pydiv (2/10 * (INR (List.length neighbours) - 1 - lane)) (INR (List.length neighbours) - 1);
    Ok (sp + ll)
  | _ => Err AttributeError
  end.
(** two_way_env.py:53-59 [_is_terminal], [_cost]. *)
Definition two_way_terminal (e : env) : res bool := do v <- ego e; Ok (v_crashed v).
Definition two_way_cost (v : vehicle) : R :=
  b2R (v_crashed v) + b2R (match li_id (v_lane_index v) with Some k => Z.eqb k 0 | None => false end) / 15.

(** ** intersection_env.py *)
(** python ["x" in s]. *)
Fixpoint contains (sub s : string) : bool :=
  String.prefix sub s || match s with EmptyString => false | String _ s' => contains sub s' end.
(** intersection_env.py:231-234 [has_arrived]; [lane] is [get_lane(lane_index)]. *)
Definition has_arrived (g : graph) (v : vehicle) : res bool :=
  if contains "il" (li_from (v_lane_index v)) && contains "o" (li_to (v_lane_index v))
  then do l <- get_lane g (v_lane_index v); Ok (Rleb 25 (fst (l_local l (v_pos v))))
  else Ok false.
Record intersection_config : Type := IntersectionCfg {
  is_collision : R;                (* collision_reward *)
  is_duration : R;                 (* duration *)
  is_normalize : bool }.
Definition intersection_default : intersection_config := IntersectionCfg (-5) 13 false.
(** intersection_env.py:68-74 [_agent_reward]. *)
Definition agent_reward (c : intersection_config) (g : graph) (v : vehicle) : res R :=
  match v_kind v with
  | KMDP =>
    let reward := is_collision c * b2R (v_crashed v) + 1 * b2R (Z.eqb (v_speed_index v) (sg_count (v_grid v) - 1)) in
    do arrived <- has_arrived g v;
    let reward := if arrived then 1 else reward in
    if is_normalize c then lmap reward (is_collision c, 1) (0, 1) else Ok reward
  | _ => Err AttributeError
  end.
(** intersection_env.py:63-66 [_reward]: mean over the controlled vehicles. *)
Definition intersection_reward (c : intersection_config) (e : env) : res R :=
  do rs <- mapM (agent_reward c (rd_net (e_road e))) (controlled e);
  pydiv (fold_left Rplus rs 0) (INR (List.length (e_controlled e))).
(** python [all(f(x) for x in l)] stopping at the first False. *)
Fixpoint allM {A : Type} (f : A -> res bool) (l : list A) : res bool :=
  match l with
  | [] => Ok true
  | x :: l' => do b <- f x; if b then allM f l' else Ok false
  end.
(** intersection_env.py:76-85 [_is_terminal], [_agent_is_terminal]. *)
Definition intersection_terminal (c : intersection_config) (policy : R) (e : env) : res bool :=
  if existsb v_crashed (controlled e) then Ok true
  else do arrived <- allM (has_arrived (rd_net (e_road e))) (controlled e);
       if arrived then Ok true else Ok (Rleb (is_duration c * policy) (IZR (e_steps e))).
Definition agent_terminal (c : intersection_config) (policy : R) (e : env) (v : vehicle) : res bool :=
  if v_crashed v then Ok true
  else if Rleb (is_duration c * policy) (IZR (e_steps e)) then Ok true
  else has_arrived (rd_net (e_road e)) v.

(** ** parking_env.py, summon_env.py *)
(** The goal observation (observation.py:317-332 with the features and scales of
    parking_env.py:33-36): x, y, vx, vy, cos h, sin h, each divided by its scale. *)
Definition goal_features (p : vec) (heading speed : R) : list R :=
  [fst p / 100; snd p / 100; speed * cos heading / 5; speed * sin heading / 5; cos heading / 1; sin heading / 1].
Definition REWARD_WEIGHTS : list R := [1; 3/10; 0; 0; 2/100; 2/100].
Fixpoint dot (x y : list R) : R :=
  match x, y with a :: x', b :: y' => a * b + dot x' y' | _, _ => 0 end.
(** parking_env.py:99-111 [compute_reward] with the default p = 1/2. *)
Definition parking_compute (achieved desired : list R) : R :=
  - sqrt (dot (map (fun ab => Rabs (fst ab - snd ab)) (combine achieved desired)) REWARD_WEIGHTS).
(** summon_env.py:105-117: with the crash penalty of [self.vehicle]. *)
Definition summon_compute (crashed : bool) (achieved desired : list R) : R :=
  parking_compute achieved desired + -5 * b2R crashed.
(** parking_env.py:119-120 [_is_success]. *)
Definition is_success (reward : R) : bool := Rltb (- (12/100)) reward.
(** parking_env.py:113-117 [_reward] and 122-129 [_is_terminal], for the goal object
    [goal]; [compute] is [parking_compute], or [summon_compute] of the ego. *)
Definition goal_rewards (compute : list R -> list R -> R) (goal : object) (vs : list vehicle) : list R :=
  map (fun v => compute (goal_features (v_pos v) (v_heading v) (v_speed v))
                        (goal_features (o_pos goal) (o_heading goal) (o_speed goal))) vs.
Definition parking_reward (compute : list R -> list R -> R) (goal : object) (vs : list vehicle) : R :=
  fold_left Rplus (goal_rewards compute goal vs) 0.
Definition parking_terminal (compute : list R -> list R -> R) (goal : object) (duration : R) (e : env) : res bool :=
  Ok (Rleb duration (IZR (e_steps e)) || existsb v_crashed (controlled e) || forallb is_success (goal_rewards compute goal (controlled e))).

(** ** lane_keeping_env.py *)
(** lane_keeping_env.py:71-76 [_reward], [_is_terminal]. *)
Definition lane_keeping_reward (lane : option lane) (v : vehicle) : res R :=
  match lane with
  | None => Err AttributeError
  | Some l => do x <- pydiv (snd (l_local l (v_pos v))) (l_width l); Ok (1 - x ^ 2)
  end.
Definition lane_keeping_terminal (e : env) : res bool := Ok false.

(** ** The scenarios: road class and end of the episode of each environment. *)
Definition highway_scenario (c : highway_config) (sim pol : R) (manual : bool) (act : action_type) : scenario :=
  Scenario sim pol manual act false (highway_terminal c).
Definition roundabout_scenario (duration sim pol : R) (manual : bool) (act : action_type) : scenario :=
  Scenario sim pol manual act false (roundabout_terminal duration).
Definition merge_scenario (sim pol : R) (manual : bool) (act : action_type) : scenario :=
  Scenario sim pol manual act false merge_terminal.
Definition two_way_scenario (sim pol : R) (manual : bool) (act : action_type) : scenario :=
  Scenario sim pol manual act false two_way_terminal.
(** intersection_env.py:153: a RegulatedRoad.  The clearing and spawning after
    each step (lines 91-97) are not part of the scenario, see M_Reset. *)
Definition intersection_scenario (c : intersection_config) (sim pol : R) (manual : bool) (act : action_type) : scenario :=
  Scenario sim pol manual act true (intersection_terminal c pol).
Definition parking_scenario (compute : list R -> list R -> R) (goal : object) (duration sim pol : R) (manual : bool) (act : action_type) : scenario :=
  Scenario sim pol manual act false (parking_terminal compute goal duration).

(** The reward of each environment as computed by [step] (abstract.py:194): the ego
    vehicle is [self.vehicle], the action is the one given to [step]. *)
Definition highway_env_reward (c : highway_config) (e : env) : res R :=
  do v <- ego e; highway_reward c (rd_net (e_road e)) v.
Definition roundabout_env_reward (cg : speed_grid) (e : env) (action : Z) : res R :=
  do v <- ego e; roundabout_reward cg v action.
Definition merge_env_reward (e : env) (action : Z) : res R :=
  do v <- ego e; merge_reward (e_road e) v action.
Definition two_way_env_reward (e : env) : res R :=
  do v <- ego e; two_way_reward (rd_net (e_road e)) v.
