(** Vocabulary of the properties on configurations (C106-C109). *)
From Verif Require Import Prelude M_Utils M_Lane M_Road M_Vehicle M_Kinematics M_Control M_Behavior M_Regulation M_Action M_Env M_Scenes M_Nets M_Reset M_Ttc M_Obs M_Gym M_Config
  S_Geometry S_Road S_Vehicle S_Control S_Behavior S_Regulation S_Env S_Obs S_Ttc S_Reset S_Gym.
Open Scope R_scope.
Open Scope string_scope.

(** Python dictionaries have each key once. *)
Definition is_dict (d : dict) : Prop := NoDup (keys d).
(** Among dictionaries given one after the other, the last one that has an entry [k] has
    the value [v] for it. *)
Definition given_last (ds : list dict) (k : string) (v : pyval) : Prop :=
  exists before d after, ds = (before ++ d :: after)%list /\ In (k, v) d /\ forall d', In d' after -> ~ In k (keys d').
Definition never_given (ds : list dict) (k : string) : Prop := forall d, In d ds -> ~ In k (keys d).
(** The configuration of an environment of class [g] to which the dictionaries [ds] have
    been given one after the other (the first to its constructor). *)
Definition configured (g : game) (ds : list dict) : dict := fold_left (fun c d => configure c (Some d)) ds (default_config g).

(** The options that have an influence on what happens on the road. *)
Definition option_names (g : game) : list string :=
  ["observation"; "action"; "simulation_frequency"; "policy_frequency"; "manual_control"; "show_trajectories"] ++
  match g with
  | GHighway => ["other_vehicles_type"; "lanes_count"; "controlled_vehicles"; "initial_lane_id"; "ego_spacing"; "vehicles_count"; "vehicles_density";
                 "reward_speed_range"; "collision_reward"; "duration"; "offroad_terminal"]
  | GTwoWay | GMerge => ["other_vehicles_type"]
  | GParking => ["controlled_vehicles"; "duration"]
  | GSummon => ["other_vehicles_type"; "vehicles_count"; "duration"]
  | GRoundabout => ["other_vehicles_type"; "incoming_vehicle_destination"; "duration"]
  | GIntersection | GAgents => ["other_vehicles_type"; "initial_vehicle_count"; "controlled_vehicles"; "destination"; "collision_reward"; "duration";
                                "normalize_reward"; "spawn_probability"]
  end.
(** The values that count as off in a test. *)
Inductive counts_as_false : pyval -> Prop :=
| off_none : counts_as_false VNone
| off_false : counts_as_false (VBool false)
| off_zero : counts_as_false (VInt 0)
| off_zero_float : counts_as_false (VFloat 0)
| off_empty_string : counts_as_false (VStr "")
| off_empty_list : counts_as_false (VList [])
| off_empty_dict : counts_as_false (VDict []).
(** The arguments of the action types and of the observation types. *)
Definition action_names : list string :=
  ["type"; "acceleration_range"; "steering_range"; "longitudinal"; "lateral"; "dynamical"; "clip"; "action_config"].
Definition observation_names : list string :=
  ["type"; "horizon"; "features"; "vehicles_count"; "features_range"; "absolute"; "order"; "normalize"; "clip"; "see_behind"; "observe_intentions";
   "scales"; "observation_config"].
(** The dictionaries have the same entries with these names. *)
Definition agree (names : list string) (c d : dict) : Prop := forall k, In k names -> assoc k c = assoc k d.

(** What a user can do with an environment: any requests, with any random draws. *)
Inductive request : Type :=
| Configure (d : option dict)
| Reset (cs : classes) (d : draws) (shuffle : nat -> list (list R) -> list (list R))
| Step (cs : classes) (o : oracle) (d : draws) (shuffle : nat -> list (list R) -> list (list R)) (a : agent_action).
Definition serve (p : player) (r : request) : res player :=
  match r with
  | Configure d => Ok (player_configure p d)
  | Reset cs d sh => do (cp, _) <- player_reset cs (pl_game p, pl_config p) d sh; Ok (snd cp)
  | Step cs o d sh a => do (p', _) <- player_step cs p o d sh a; Ok p'
  end.
Definition serves (p : player) (rs : list request) : res player := foldM serve rs p.
(** The dictionaries given by requests. *)
Definition given_by (rs : list request) : list dict := flat_map (fun r => match r with Configure (Some d) => [d] | _ => [] end) rs.
Definition no_reset (rs : list request) : Prop := forall cs d sh, ~ In (Reset cs d sh) rs.
Definition just_reset (rs : list request) : Prop := rs = [] \/ exists rs' cs d sh, rs = (rs' ++ [Reset cs d sh])%list.
Definition opt_list {A : Type} (x : option A) : list A := match x with Some a => [a] | None => [] end.

(** The options suit the environment (see C82, C95). *)
Definition settings_fit (st : settings) (d : draws) : Prop :=
  classes_fit (st_common st) (st_scene st) /\ options_fit (st_common st) (st_scene st) d /\ cf_policy (st_common st) <> 0 /\
  observation_fits (st_common st) (st_scene st) (st_observation st) /\ rewards_fit (st_common st) (st_scene st) (st_observation st).
(** Successive steps, each with any random draws and any class attributes. *)
Inductive player_plays (s : scene) : player -> list agent_action -> list (player * outcome) -> Prop :=
| player_plays_nil : forall p, player_plays s p [] []
| player_plays_cons : forall cs p o d sh a p1 out acts trace,
    store_fits s cs -> oracle_ok o -> draws_ok d -> shuffles sh ->
    player_step cs p o d sh a = Ok (p1, out) -> player_plays s p1 acts trace -> player_plays s p (a :: acts) ((p1, out) :: trace).
Definition last_player (p : player) (trace : list (player * outcome)) : player := last (map fst trace) p.

(** The documented defaults (docs/source/environments and the class docstrings), in terms of
    the model's own records. *)
Definition default_settings (g : game) : settings :=
  let meta := Common 15 1 false (Single (Discrete true true)) CIdm false in
  match g with
  | GHighway => Settings meta (SHighway (HighwayScene 4 1 50 None 2 1 (HighwayCfg (-1) (20, 30) 40 false)))
                  (OneObserver (Kinematics (KinConfig None 5 false "sorted" true true false false) None))
  | GTwoWay => Settings meta STwoWay (OneObserver (TimeToCollision 5))
  | GMerge => Settings meta SMerge (OneObserver (TimeToCollision 10))
  | GParking => Settings (Common 15 5 false (Single (Continuous (ContinuousCfg (-5, 5) (- PI / 4, PI / 4) true true false true))) CIdm false) (SParking 1 100)
                  (OneObserver (KinematicsGoal goal_names goal_scales))
  | GSummon => Settings (Common 15 5 false (Single (Continuous (ContinuousCfg (-5, 5) (- PI / 4, PI / 4) true true false true))) CIdm false) (SSummon 10 100)
                  (OneObserver (KinematicsGoal goal_names goal_scales))
  | GRoundabout => Settings meta (SRoundabout 11 None)
                  (OneObserver (Kinematics (KinConfig None 5 true "sorted" true true false false) (Some (square_ranges 100 15))))
  | GIntersection => Settings (Common 15 1 false (Single (Discrete true false)) CIdm false) (SIntersection (IntersectionCfg (-5) 13 false) 1 10 (Some "o1") (6/10))
                  (OneObserver (Kinematics (KinConfig (Some ["presence"; "x"; "y"; "vx"; "vy"; "cos_h"; "sin_h"]) 15 true "sorted" true true false false) (Some (square_ranges 100 20))))
  | GAgents => Settings (Common 15 1 false (Multi (Discrete true false)) CIdm false) (SIntersection (IntersectionCfg (-5) 13 false) 2 10 (Some "o1") (6/10))
                  (ManyObservers (Kinematics (KinConfig None 5 false "sorted" true true false false) None))
  end.

(** ** Options that are not valid *)
Definition no_dict (v : pyval) : Prop := forall c, v <> VDict c.
(** What is wrong with the value of the option "action", and the exception that results. *)
Inductive bad_action : pyval -> exn -> Prop :=
| bad_no_dict : forall v, no_dict v -> bad_action v TypeError
| bad_no_type : forall c, ~ In "type" (keys c) -> bad_action (VDict c) KeyError
| bad_type : forall c t, is_dict c -> In ("type", t) c ->
    t <> VStr "ContinuousAction" -> t <> VStr "DiscreteMetaAction" -> t <> VStr "MultiAgentAction" -> bad_action (VDict c) ValueError
| bad_no_axis : forall c name lo la, is_dict c -> In ("type", VStr name) c -> In name ["ContinuousAction"; "DiscreteMetaAction"] ->
    ~ In "acceleration_range" (keys c) -> ~ In "steering_range" (keys c) ->
    In ("longitudinal", lo) c -> In ("lateral", la) c -> truthy lo = false -> truthy la = false -> bad_action (VDict c) ValueError
| bad_no_agents : forall c, is_dict c -> In ("type", VStr "MultiAgentAction") c -> ~ In "action_config" (keys c) -> bad_action (VDict c) TypeError.
Inductive bad_observation : pyval -> exn -> Prop :=
| bado_no_dict : forall v, no_dict v -> bad_observation v TypeError
| bado_no_type : forall c, ~ In "type" (keys c) -> bad_observation (VDict c) KeyError
| bado_type : forall c t, is_dict c -> In ("type", t) c ->
    (forall name, In name ["TimeToCollision"; "Kinematics"; "OccupancyGrid"; "KinematicsGoal"; "GrayscaleObservation"; "AttributesObservation"; "MultiAgentObservation"] -> t <> VStr name) ->
    bad_observation (VDict c) ValueError
| bado_no_scales : forall c, is_dict c -> In ("type", VStr "KinematicsGoal") c -> ~ In "scales" (keys c) -> bad_observation (VDict c) TypeError
| bado_no_agents : forall c, is_dict c -> In ("type", VStr "MultiAgentObservation") c -> ~ In "observation_config" (keys c) -> bad_observation (VDict c) TypeError.
