(** Model of abstract.py:382-383 [to_finite_mdp].  Definitions only. *)
From Verif Require Import Prelude M_Utils M_Lane M_Road M_Vehicle M_Kinematics M_Control M_Action M_Env M_Nets M_Reset M_Ttc M_Gym M_Config.
Open Scope R_scope.
Open Scope string_scope.

(** A class attribute that may be missing. *)
Definition attribute (x : option R) : res R := match x with Some r => Ok r | None => Err AttributeError end.
(** RIGHT_LANE_REWARD: highway_env.py:20, merge_env.py:23, roundabout_env.py:17. *)
Definition right_lane_attribute (g : game) : option R :=
  match g with GHighway => Some (1/10) | GMerge => Some (1/10) | GRoundabout => Some 0 | _ => None end.
(** HIGH_SPEED_REWARD: highway_env.py:23, merge_env.py:24, roundabout_env.py:16,
    two_way_env.py:25, intersection_env.py:16. *)
Definition high_speed_attribute (g : game) : option R :=
  match g with
  | GHighway => Some (4/10) | GMerge => Some (2/10) | GRoundabout => Some (2/10) | GTwoWay => Some (8/10) | GIntersection | GAgents => Some 1
  | GParking | GSummon => None
  end.
(** LANE_CHANGE_REWARD: highway_env.py:26, merge_env.py:26, roundabout_env.py:18. *)
Definition lane_change_attribute (g : game) : option R :=
  match g with GHighway => Some 0 | GMerge => Some (-5/100) | GRoundabout => Some (-5/100) | _ => None end.
(** [env.action_space.n]: only discrete spaces (action.py:172-173) have it. *)
Definition action_space_n (t : action_type) : res nat :=
  match t with
  | Single (Discrete longitudinal lateral) => do tb <- meta_table longitudinal lateral; Ok (List.length tb)
  | _ => Err AttributeError
  end.
(** abstract.py:383 with finite_mdp.py:14-80, up to the construction of the MDP object of the
    external module.  The grid and the current state are computed first (finite_mdp.py:38-42,
    errors of the first call below), then the action space, the configuration and the class
    attributes are looked up (lines 46, 58-64). *)
Definition to_finite_mdp (cs : classes) (p : player) : res mdp :=
  let g := pl_gym p in
  do pol <- get_num (pl_config p) "policy_frequency";
  if Reqb pol 0 then Err ZeroDivisionError
  else
    let e := seen_env cs (gy_cf g) (gy_scene g) (gy_env g) in
    do v <- ego e;
    do _ <- finite_mdp (e_road e) v (MdpRewards 0 0 0 0) 0 (1 / pol) 10;
    do n <- action_space_n (cf_action (gy_cf g));
    do collision <- get_num (pl_config p) "collision_reward";
    do on_right <- attribute (right_lane_attribute (pl_game p));
    do fast <- attribute (high_speed_attribute (pl_game p));
    do change <- attribute (lane_change_attribute (pl_game p));
    finite_mdp (e_road e) v (MdpRewards collision on_right fast change) n (1 / pol) 10.
