(** Model of envs/lane_keeping_env.py: the whole environment around one
    BicycleVehicle.  The interval predictor [self.lpv], which the environment never
    creates itself, is not modelled (it is None). *)
From Verif Require Import Prelude M_Utils M_Lane M_Road M_Vehicle M_Kinematics M_Control M_Behavior M_Regulation M_Action M_Env M_Interval M_Bicycle M_Nets M_Scenes.
Open Scope R_scope.
Open Scope string_scope.

(** lane_keeping_env.py:28-51 [default_config]: the entries that matter. *)
Record keeping_config : Type := KeepingConfig {
  kc_simulation : R;
  kc_policy : R;
  kc_record : bool;                (* show_trajectories *)
  kc_action : continuous }.
Definition keeping_default : keeping_config :=
  KeepingConfig 10 10 false (ContinuousCfg ACC_RANGE (- PI / 3, PI / 3) false true true true).
(** The environment: vehicle, current lane, lanes to come, clocks, recorded states. *)
Record keeper : Type := Keeper {
  k_ego : bicycle;
  k_lane : option lane;
  k_lanes : list lane;
  k_time : Z;
  k_steps : Z;
  k_done : bool;
  k_trajectory : list (list R) }.

(** [x[[1, 2, 4, 5]]] *)
Definition lateral_rows (x : list R) : list R := map (fun i => nth i x 0) [1; 2; 4; 5]%nat.
Record keeping_obs : Type := KeepingObs { ko_state : list R; ko_derivative : list R; ko_reference : list R }.
(** lane_keeping_env.py:129-135 [reference_state]. *)
Definition reference_state (k : keeper) : list R :=
  match k_lane k with
  | None => [0; 0; 0; 0]
  | Some l =>
      let '(longi, lat) := l_local l (v_pos (b_base (k_ego k))) in
      [nth 0 (lateral_rows (b_state (k_ego k))) 0 - lat; l_heading l longi; 0; 0]
  end.
(** lane_keeping_env.py:111-126 [state], [derivative] and observation.py:350-353:
    [n1] and [n2] are the values drawn for the two noises. *)
Definition keeping_observe (k : keeper) (n1 n2 : list R) : keeping_obs :=
  KeepingObs (map2 Rplus (lateral_rows (b_state (k_ego k))) n1)
             (map2 Rplus (lateral_rows (b_derivative (k_ego k))) n2) (reference_state k).

(** lane_keeping_env.py:78-104 [_reset] within abstract.py:156-167 [reset]; the
    trajectory is the one already recorded.  A vehicle that is not a BicycleVehicle
    has no attribute [state] to observe. *)
Definition keeping_reset (c : keeping_config) (trajectory : list (list R)) (n1 n2 : list R) : res (keeper * keeping_obs) :=
  do l <- get_lane lane_keeping_net ("c", "d", Some 0%Z);
  do b <- new_bicycle lane_keeping_net 0 (l_position l 50 (-4)) (l_heading l 0) (83/10);
  if ca_dynamical (kc_action c) then
    let k := Keeper b (Some lane_keeping_straight) [lane_keeping_sine] 0 0 false trajectory in
    Ok (k, keeping_observe k n1 n2)
  else Err AttributeError.
(** lane_keeping_env.py:19-25 [__init__]: the base class resets, then the attributes are
    overwritten. *)
Definition keeping_new (c : keeping_config) (n1 n2 : list R) : res keeper :=
  do (k, _) <- keeping_reset c [] n1 n2;
  Ok (Keeper (k_ego k) None [] (k_time k) (k_steps k) (k_done k) []).
(** abstract.py:256-265 [close]. *)
Definition keeping_close (k : keeper) : keeper :=
  Keeper (k_ego k) (k_lane k) (k_lanes k) (k_time k) (k_steps k) true (k_trajectory k).

(** abstract.py:209-229 [_simulate] without action: the vehicle keeps its command, there is
    nothing else on the road, and [_is_terminal] is False. *)
Fixpoint keeping_frames (record : bool) (dt : R) (n : nat) (k : keeper) : res keeper :=
  match n with
  | O => Ok k
  | S n' =>
      do b <- b_step lane_keeping_net record (k_ego k) dt;
      let k1 := Keeper b (k_lane k) (k_lanes k) (k_time k + 1) (k_steps k) (k_done k) (k_trajectory k) in
      if k_done k1 then Ok k1 else keeping_frames record dt n' k1
  end.
Definition keeping_simulate (c : keeping_config) (k : keeper) : res keeper :=
  do q <- pydiv (kc_simulation c) (kc_policy c);
  let n := Z.to_nat (Rfloor q) in
  if Nat.eqb n 0 then Ok k
  else do dt <- pydiv 1 (kc_simulation c); keeping_frames (kc_record c) dt n k.
(** lane_keeping_env.py:54-55: the current lane. *)
Definition next_target (k : keeper) : res keeper :=
  match k_lanes k with
  | [] => Ok k
  | l :: rest =>
      match k_lane k with
      | None => Err AttributeError
      | Some cur =>
          if on_lane cur (v_pos (b_base (k_ego k))) None None 0 then Ok k
          else Ok (Keeper (k_ego k) (Some l) rest (k_time k) (k_steps k) (k_done k) (k_trajectory k))
      end
  end.
(** lane_keeping_env.py:137-147 [store_data]. *)
Definition store_data (k : keeper) : keeper :=
  Keeper (k_ego k) (k_lane k) (k_lanes k) (k_time k) (k_steps k) (k_done k) (k_trajectory k ++ [b_state (k_ego k)])%list.
(** action.py:116-134 on the vehicle. *)
Definition keeping_act (c : keeping_config) (action : list R) (k : keeper) : res keeper :=
  do cmd <- continuous_command (kc_action c) action;
  match cmd with
  | Controls acc st => Ok (Keeper (b_act (k_ego k) st acc) (k_lane k) (k_lanes k) (k_time k) (k_steps k) (k_done k) (k_trajectory k))
  | _ => Err TypeError
  end.
(** lane_keeping_env.py:53-69 [step]: new state, observation, reward, terminal. *)
Definition keeping_step (c : keeping_config) (action : list R) (n1 n2 : list R) (k : keeper) : res (keeper * (keeping_obs * R * bool)) :=
  do k1 <- next_target k;
  do k2 <- keeping_act c action (store_data k1);
  let obs := keeping_observe k2 n1 n2 in
  do k3 <- keeping_simulate c k2;
  do r <- lane_keeping_reward (k_lane k3) (b_base (k_ego k3));
  Ok (k3, (obs, r, false)).
