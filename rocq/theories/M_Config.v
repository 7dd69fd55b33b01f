(** Model of the configuration of the environments: [default_config] of every class,
    [AbstractEnv.__init__] and [configure] (envs/common/abstract.py:37-71, 83-118), the
    factories of action and observation types (envs/common/action.py:226-235,
    envs/common/observation.py:376-393) and of the moments at which the configuration is
    read (abstract.py:120-127, 155-229).  Definitions only. *)
From Verif Require Import Prelude M_Utils M_Lane M_Road M_Vehicle M_Kinematics M_Control M_Behavior M_Regulation M_Action M_Env M_Scenes M_Nets M_Reset M_Ttc M_Obs M_Gym.
Open Scope R_scope.
Open Scope string_scope.

(** ** Python values that occur in configurations *)
Inductive pyval : Type :=
| VNone
| VBool (b : bool)
| VInt (z : Z)
| VFloat (x : R)
| VStr (s : string)
| VList (l : list pyval)
| VDict (d : list (string * pyval)).
Definition dict : Type := list (string * pyval).
(** [d.update(d')]: a shallow update. *)
Definition dict_update (d d' : dict) : dict := fold_left (fun acc kv => assoc_set (fst kv) (snd kv) acc) d' d.
(** [d[k]]. *)
Definition item (d : dict) (k : string) : res pyval := match assoc k d with Some v => Ok v | None => Err KeyError end.

(** Truth value. *)
Definition truthy (v : pyval) : bool :=
  match v with
  | VNone => false
  | VBool b => b
  | VInt z => negb (Z.eqb z 0)
  | VFloat x => negb (Reqb x 0)
  | VStr s => negb (String.eqb s "")
  | VList l => match l with [] => false | _ => true end
  | VDict d => match d with [] => false | _ => true end
  end.
(** As a number, where one is computed with. *)
Definition as_num (v : pyval) : res R :=
  match v with VInt z => Ok (IZR z) | VFloat x => Ok x | VBool b => Ok (if b then 1 else 0) | _ => Err TypeError end.
(** [range(v)] or an index: integers only. *)
Definition as_int (v : pyval) : res Z :=
  match v with VInt z => Ok z | VBool b => Ok (if b then 1 else 0)%Z | _ => Err TypeError end.
(** The number of iterations of [range(v)]. *)
Definition as_count (v : pyval) : res nat := do z <- as_int v; Ok (Z.to_nat z).
Definition as_opt_int (v : pyval) : res (option Z) := match v with VNone => Ok None | _ => do z <- as_int v; Ok (Some z) end.
Definition as_dict (v : pyval) : res dict := match v with VDict d => Ok d | _ => Err TypeError end.
(** [(v[0], v[1])]. *)
Definition as_pair (v : pyval) : res (R * R) :=
  match v with
  | VList (a :: b :: _) => do x <- as_num a; do y <- as_num b; Ok (x, y)
  | VList _ => Err IndexError
  | _ => Err TypeError
  end.
Definition as_str (v : pyval) : res string := match v with VStr s => Ok s | _ => Err TypeError end.
Definition as_names (v : pyval) : res (list string) := match v with VList l => mapM as_str l | _ => Err TypeError end.
Definition as_nums (v : pyval) : res (list R) := match v with VList l => mapM as_num l | _ => Err TypeError end.

(** ** Keyword arguments [f(env, **config)] *)
Definition arg (c : dict) (k : string) (default : pyval) : pyval := match assoc k c with Some v => v | None => default end.
(** An argument without default value. *)
Definition required (c : dict) (k : string) : res pyval := match assoc k c with Some v => Ok v | None => Err TypeError end.
(** [x if x else default] for a pair. *)
Definition opt_pair (v : pyval) : res (option (R * R)) := if truthy v then do p <- as_pair v; Ok (Some p) else Ok None.

(** action.py:226-235 [action_factory], for the types of one agent: unknown types raise
    ValueError, other arguments than those of the constructors are swallowed by [**kwargs].
    A multi-agent type in another one is not modelled (NotImplementedError stands for it). *)
Definition single_factory (c : dict) : res single_action :=
  do t <- item c "type";
  match t with
  | VStr name =>
      if String.eqb name "ContinuousAction" then
        do acc <- opt_pair (arg c "acceleration_range" VNone);
        do st <- opt_pair (arg c "steering_range" VNone);
        do x <- make_continuous acc st (truthy (arg c "longitudinal" (VBool true))) (truthy (arg c "lateral" (VBool true)))
                  (truthy (arg c "dynamical" (VBool false))) (truthy (arg c "clip" (VBool true)));
        Ok (Continuous x)
      else if String.eqb name "DiscreteMetaAction" then
        let lo := truthy (arg c "longitudinal" (VBool true)) in
        let la := truthy (arg c "lateral" (VBool true)) in
        do _ <- meta_table lo la; Ok (Discrete lo la)
      else if String.eqb name "MultiAgentAction" then Err NotImplementedError
      else Err ValueError
  | _ => Err ValueError
  end.
Definition is_name (v : pyval) (name : string) : bool := match v with VStr s => String.eqb s name | _ => false end.
Definition action_factory (v : pyval) : res action_type :=
  do c <- as_dict v;
  do t <- item c "type";
  if is_name t "MultiAgentAction"
  then do n <- required c "action_config"; do n <- as_dict n; do s <- single_factory n; Ok (Multi s)
  else do s <- single_factory c; Ok (Single s).

(** observation.py:128-159, KinematicObservation.  [features or FEATURES]; an unknown
    order is no shuffling. *)
Definition kin_factory (c : dict) : res observer :=
  do features <- (let v := arg c "features" VNone in if truthy v then do l <- as_names v; Ok (Some l) else Ok None);
  do count <- as_int (arg c "vehicles_count" (VInt 5));
  do rg <- (match arg c "features_range" VNone with
            | VNone => Ok None
            | v => do d <- as_dict v; do r <- mapM (fun kv => do p <- as_pair (snd kv); Ok (fst kv, p)) d; Ok (Some r)
            end);
  Ok (Kinematics (KinConfig features count (truthy (arg c "absolute" (VBool false)))
                    (match arg c "order" (VStr "sorted") with VStr s => s | _ => "" end)
                    (truthy (arg c "normalize" (VBool true))) (truthy (arg c "clip" (VBool true)))
                    (truthy (arg c "see_behind" (VBool false))) (truthy (arg c "observe_intentions" (VBool false)))) rg).
(** observation.py:376-393 [observation_factory], for the types of one agent that
    M_Gym has; the occupancy grid, the attributes (M_Obs, M_Keeping), images and a
    multi-agent type in another one are not part of it (NotImplementedError). *)
Definition observer_factory (c : dict) : res observer :=
  do t <- item c "type";
  match t with
  | VStr name =>
      if String.eqb name "TimeToCollision" then do h <- as_num (arg c "horizon" (VInt 10)); Ok (TimeToCollision h)
      else if String.eqb name "Kinematics" then kin_factory c
      else if String.eqb name "KinematicsGoal" then
        do scales <- required c "scales";
        do scales <- as_nums scales;
        do ob <- kin_factory c;
        match ob with Kinematics k _ => Ok (KinematicsGoal (kin_features k) scales) | _ => Err TypeError end
      else if existsb (String.eqb name) ["OccupancyGrid"; "GrayscaleObservation"; "AttributesObservation"; "MultiAgentObservation"]
      then Err NotImplementedError
      else Err ValueError
  | _ => Err ValueError
  end.
Definition observation_factory (v : pyval) : res observation_type :=
  do c <- as_dict v;
  do t <- item c "type";
  if is_name t "MultiAgentObservation"
  then do n <- required c "observation_config"; do n <- as_dict n; do ob <- observer_factory n; Ok (ManyObservers ob)
  else do ob <- observer_factory c; Ok (OneObserver ob).

(** utils.py:20-23 [class_from_path], for the classes of behavior.py; a path without dot
    raises ValueError, other classes are not modelled. *)
Definition class_from_path (v : pyval) : res traffic_class :=
  do path <- as_str v;
  if String.eqb path "highway_env.vehicle.behavior.IDMVehicle" then Ok CIdm
  else if String.eqb path "highway_env.vehicle.behavior.LinearVehicle" then Ok CLinear
  else if String.eqb path "highway_env.vehicle.behavior.AggressiveVehicle" then Ok CAggressive
  else if String.eqb path "highway_env.vehicle.behavior.DefensiveVehicle" then Ok CDefensive
  else if contains "." path then Err NotImplementedError else Err ValueError.

(** ** Default configurations *)
Definition ints (l : list Z) : pyval := VList (map VInt l).
Definition strs (l : list string) : pyval := VList (map VStr l).
(** abstract.py:84-110; the environment variable OFFSCREEN_RENDERING is not "1". *)
Definition abstract_config : dict :=
  [("observation", VDict [("type", VStr "TimeToCollision")]);
   ("action", VDict [("type", VStr "DiscreteMetaAction")]);
   ("simulation_frequency", VInt 15);
   ("policy_frequency", VInt 1);
   ("other_vehicles_type", VStr "highway_env.vehicle.behavior.IDMVehicle");
   ("screen_width", VInt 600);
   ("screen_height", VInt 150);
   ("centering_position", VList [VFloat (3/10); VFloat (1/2)]);
   ("scaling", VFloat (55/10));
   ("show_trajectories", VBool false);
   ("render_agent", VBool true);
   ("offscreen_rendering", VBool false);
   ("manual_control", VBool false);
   ("real_time_rendering", VBool false)].
(** highway_env.py:29-49. *)
Definition highway_entries : dict :=
  [("observation", VDict [("type", VStr "Kinematics")]);
   ("action", VDict [("type", VStr "DiscreteMetaAction")]);
   ("lanes_count", VInt 4);
   ("vehicles_count", VInt 50);
   ("controlled_vehicles", VInt 1);
   ("initial_lane_id", VNone);
   ("duration", VInt 40);
   ("ego_spacing", VInt 2);
   ("vehicles_density", VInt 1);
   ("collision_reward", VInt (-1));
   ("reward_speed_range", ints [20; 30]%Z);
   ("offroad_terminal", VBool false)].
(** two_way_env.py:28-39. *)
Definition two_way_entries : dict :=
  [("observation", VDict [("type", VStr "TimeToCollision"); ("horizon", VInt 5)]);
   ("action", VDict [("type", VStr "DiscreteMetaAction")])].
(** roundabout_env.py:21-38. *)
Definition square_entry (p v : Z) : pyval :=
  VDict [("x", ints [- p; p]%Z); ("y", ints [- p; p]%Z); ("vx", ints [- v; v]%Z); ("vy", ints [- v; v]%Z)].
Definition roundabout_entries : dict :=
  [("observation", VDict [("type", VStr "Kinematics"); ("absolute", VBool true); ("features_range", square_entry 100 15)]);
   ("action", VDict [("type", VStr "DiscreteMetaAction")]);
   ("incoming_vehicle_destination", VNone);
   ("screen_width", VInt 600);
   ("screen_height", VInt 600);
   ("centering_position", VList [VFloat (1/2); VFloat (6/10)]);
   ("duration", VInt 11)].
(** intersection_env.py:27-61; COLLISION_REWARD = -5. *)
Definition intersection_entries : dict :=
  [("observation", VDict [("type", VStr "Kinematics"); ("vehicles_count", VInt 15);
      ("features", strs ["presence"; "x"; "y"; "vx"; "vy"; "cos_h"; "sin_h"]); ("features_range", square_entry 100 20);
      ("absolute", VBool true); ("flatten", VBool false); ("observe_intentions", VBool false)]);
   ("action", VDict [("type", VStr "DiscreteMetaAction"); ("longitudinal", VBool true); ("lateral", VBool false)]);
   ("duration", VInt 13);
   ("destination", VStr "o1");
   ("controlled_vehicles", VInt 1);
   ("initial_vehicle_count", VInt 10);
   ("spawn_probability", VFloat (6/10));
   ("screen_width", VInt 600);
   ("screen_height", VInt 600);
   ("centering_position", VList [VFloat (1/2); VFloat (6/10)]);
   ("scaling", VFloat (55/10 * (13/10)));
   ("collision_reward", VInt (-5));
   ("normalize_reward", VBool false)].
(** intersection_env.py:243-262. *)
Definition agents_entries : dict :=
  [("action", VDict [("type", VStr "MultiAgentAction");
      ("action_config", VDict [("type", VStr "DiscreteMetaAction"); ("lateral", VBool false); ("longitudinal", VBool true)])]);
   ("observation", VDict [("type", VStr "MultiAgentObservation"); ("observation_config", VDict [("type", VStr "Kinematics")])]);
   ("controlled_vehicles", VInt 2)].
(** parking_env.py:30-51. *)
Definition parking_entries : dict :=
  [("observation", VDict [("type", VStr "KinematicsGoal"); ("features", strs ["x"; "y"; "vx"; "vy"; "cos_h"; "sin_h"]);
      ("scales", ints [100; 100; 5; 5; 1; 1]%Z); ("normalize", VBool false)]);
   ("action", VDict [("type", VStr "ContinuousAction")]);
   ("simulation_frequency", VInt 15);
   ("policy_frequency", VInt 5);
   ("duration", VInt 100);
   ("screen_width", VInt 600);
   ("screen_height", VInt 300);
   ("centering_position", VList [VFloat (1/2); VFloat (1/2)]);
   ("scaling", VInt 7);
   ("controlled_vehicles", VInt 1)].
(** summon_env.py:26-32. *)
Definition summon_entries : dict :=
  [("vehicles_count", VInt 10); ("other_vehicles_type", VStr "highway_env.vehicle.behavior.IDMVehicle")].

(** The classes of environments (the lane keeping environment is in M_Keeping). *)
Inductive game : Type := GHighway | GTwoWay | GMerge | GParking | GSummon | GRoundabout | GIntersection | GAgents.
(** [cls.default_config()]: each class updates the dictionary of its parent; merge_env.py
    does not define it. *)
Definition default_config (g : game) : dict :=
  match g with
  | GHighway => dict_update abstract_config highway_entries
  | GTwoWay => dict_update abstract_config two_way_entries
  | GMerge => abstract_config
  | GParking => dict_update abstract_config parking_entries
  | GSummon => dict_update (dict_update abstract_config parking_entries) summon_entries
  | GRoundabout => dict_update abstract_config roundabout_entries
  | GIntersection => dict_update abstract_config intersection_entries
  | GAgents => dict_update (dict_update abstract_config intersection_entries) agents_entries
  end.
(** abstract.py:116-118 [configure], and lines 39-41 of [__init__]: an empty
    dictionary or None is ignored. *)
Definition configure (c : dict) (d : option dict) : dict :=
  match d with Some d => dict_update c d | None => c end.

(** ** Reading a configuration *)
(** Errors due to values of the wrong type are reported here, where the value is read
    from the dictionary, rather than where it is used. *)
Definition get_num (c : dict) (k : string) : res R := do v <- item c k; as_num v.
Definition get_count (c : dict) (k : string) : res nat := do v <- item c k; as_count v.
Definition get_bool (c : dict) (k : string) : res bool := do v <- item c k; Ok (truthy v).
(** The clock: frequencies and manual control (abstract.py:211-219).  A simulation
    frequency that is not a natural number is not modelled. *)
Definition read_simulation (c : dict) : res nat :=
  do v <- item c "simulation_frequency";
  match v with VInt z => if (z <? 0)%Z then Err NotImplementedError else Ok (Z.to_nat z) | _ => Err NotImplementedError end.
Definition read_clock (c : dict) : res (nat * R * bool) :=
  do sim <- read_simulation c;
  do pol <- get_num c "policy_frequency";
  do man <- get_bool c "manual_control";
  Ok (sim, pol, man).
(** What [_reset], [_reward] and [_is_terminal] of each class read: highway_env.py:57-99,
    parking_env.py:90, 124, summon_env.py:89, roundabout_env.py:49, 155-156,
    intersection_env.py:69-94, 180-182. *)
Definition read_scene (g : game) (c : dict) : res scene :=
  match g with
  | GHighway =>
      do lanes <- get_count c "lanes_count";
      do controlled <- get_count c "controlled_vehicles";
      do lane_id <- (do v <- item c "initial_lane_id"; as_opt_int v);
      do spacing <- get_num c "ego_spacing";
      do vehicles <- get_count c "vehicles_count";
      do density <- get_num c "vehicles_density";
      do speed <- (do v <- item c "reward_speed_range"; as_pair v);
      do collision <- get_num c "collision_reward";
      do duration <- get_num c "duration";
      do offroad <- get_bool c "offroad_terminal";
      Ok (SHighway (HighwayScene lanes controlled vehicles lane_id spacing density (HighwayCfg collision speed duration offroad)))
  | GTwoWay => Ok STwoWay
  | GMerge => Ok SMerge
  | GParking => do n <- get_count c "controlled_vehicles"; do duration <- get_num c "duration"; Ok (SParking n duration)
  | GSummon => do n <- get_count c "vehicles_count"; do duration <- get_num c "duration"; Ok (SSummon n duration)
  | GRoundabout =>
      do incoming <- (do v <- item c "incoming_vehicle_destination"; as_opt_int v);
      do duration <- get_num c "duration";
      Ok (SRoundabout duration incoming)
  | GIntersection | GAgents =>
      do vehicles <- get_count c "initial_vehicle_count";
      do controlled <- get_count c "controlled_vehicles";
      do destination <- (do v <- item c "destination"; if truthy v then do s <- as_str v; Ok (Some s) else Ok None);
      do collision <- get_num c "collision_reward";
      do duration <- get_num c "duration";
      do normalize <- get_bool c "normalize_reward";
      do probability <- get_num c "spawn_probability";
      Ok (SIntersection (IntersectionCfg collision duration normalize) controlled vehicles destination probability)
  end.
(** [config["other_vehicles_type"]]; the parking lot has no other vehicles and does not look
    it up (a class is recorded, but not used). *)
Definition read_class (g : game) (c : dict) : res traffic_class :=
  match g with GParking => Ok CIdm | _ => do v <- item c "other_vehicles_type"; class_from_path v end.
(** Everything [reset] uses.  abstract.py:123-127 [define_spaces]: the observation first. *)
Record settings : Type := Settings { st_common : common; st_scene : scene; st_observation : observation_type }.
Definition read_settings (g : game) (c : dict) : res settings :=
  do ob <- (do v <- item c "observation"; observation_factory v);
  do act <- (do v <- item c "action"; action_factory v);
  do record <- get_bool c "show_trajectories";
  do cls <- read_class g c;
  do s <- read_scene g c;
  do (sp, man) <- read_clock c;
  Ok (Settings (Common (fst sp) (snd sp) man act cls record) s ob).

(** ** An environment object *)
Record player : Type := Player { pl_game : game; pl_config : dict; pl_gym : gym }.
(** abstract.py:155-167 [reset].  (The first [define_spaces], whose types serve to
    create the vehicles and are then replaced, is not distinguished from the second.) *)
Definition player_reset (cs : classes) (p : game * dict) (d : draws) (shuffle : nat -> list (list R) -> list (list R))
  : res (classes * player * list observation) :=
  do st <- read_settings (fst p) (snd p);
  do (cg, obs) <- gym_reset cs (st_common st) (st_scene st) (st_observation st) d shuffle;
  Ok (fst cg, Player (fst p) (snd p) (snd cg), obs).
(** abstract.py:37-71 [__init__]. *)
Definition make (cs : classes) (g : game) (given : option dict) (d : draws) (shuffle : nat -> list (list R) -> list (list R))
  : res (classes * player * list observation) :=
  player_reset cs (g, configure (default_config g) given) d shuffle.
(** The options of a scene that are looked up again at each step. *)
Definition live_scene (old new : scene) : scene :=
  match old, new with
  | SHighway h, SHighway h' =>
      SHighway (HighwayScene (hs_lanes h) (hs_controlled h) (hs_vehicles h) (hs_lane_id h) (hs_ego_spacing h) (hs_density h) (hs_cfg h'))
  | SParking n _, SParking _ dur => SParking n dur
  | SSummon n _, SSummon _ dur => SSummon n dur
  | SRoundabout _ inc, SRoundabout dur _ => SRoundabout dur inc
  | SIntersection _ n m dest _, SIntersection c _ _ _ prob => SIntersection c n m dest prob
  | _, _ => old
  end.
(** How the episode runs (see M_Reset.reset), for given options. *)
Definition running (cf : common) (s : scene) (goal : option object) : scenario :=
  let sim := INR (cf_simulation cf) in
  let pol := cf_policy cf in
  let man := cf_manual cf in
  let act := cf_action cf in
  let o := match goal with Some o => o | None => Object 0 KLandmark (0, 0) 0 0 false end in
  match s with
  | SHighway h => highway_scenario (hs_cfg h) sim pol man act
  | STwoWay => two_way_scenario sim pol man act
  | SMerge => merge_scenario sim pol man act
  | SParking _ dur => parking_scenario parking_compute o dur sim pol man act
  | SSummon _ dur => summon_scenario o dur sim pol man act
  | SRoundabout dur _ => roundabout_scenario dur sim pol man act
  | SIntersection c _ _ _ _ => intersection_scenario c sim pol man act
  end.
(** abstract.py:209-229 and the rewards and ends of episodes look the frequencies,
    manual control and the options of rewards and durations up in [self.config] at each
    step; the action and observation types, the vehicles and the road are those created by
    [reset].  (A new class of other vehicles for those spawned by the intersection is not
    taken into account.) *)
Definition live (p : player) : res gym :=
  let g := pl_gym p in
  do s <- read_scene (pl_game p) (pl_config p);
  do (sp, man) <- read_clock (pl_config p);
  let cf := Common (fst sp) (snd sp) man (cf_action (gy_cf g)) (cf_traffic (gy_cf g)) (cf_record (gy_cf g)) in
  let s := live_scene (gy_scene g) s in
  Ok (Gym cf s (gy_type g) (running cf s (gy_goal g)) (gy_goal g) (gy_states g) (gy_env g)).
Definition player_step (cs : classes) (p : player) (o : oracle) (d : draws) (shuffle : nat -> list (list R) -> list (list R)) (a : agent_action)
  : res (player * outcome) :=
  do g <- live p;
  do (g', out) <- gym_step cs g o d shuffle a;
  Ok (Player (pl_game p) (pl_config p) g', out).
Definition player_configure (p : player) (d : option dict) : player := Player (pl_game p) (configure (pl_config p) d) (pl_gym p).

(** parking_env.py:132-134, summon_env.py:120-123: the variants that repeat actions. *)
Definition parking_repeat (cs : classes) (d : draws) (shuffle : nat -> list (list R) -> list (list R)) : res (classes * player * list observation) :=
  make cs GParking (Some [("policy_frequency", VInt 1); ("duration", VInt 20)]) d shuffle.
Definition summon_repeat (cs : classes) (d : draws) (shuffle : nat -> list (list R) -> list (list R)) : res (classes * player * list observation) :=
  do (cp, obs) <- make cs GSummon None d shuffle;
  Ok (fst cp, player_configure (snd cp) (Some [("policy_frequency", VInt 1)]), obs).
