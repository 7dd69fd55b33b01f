(** Model of vehicle/dynamics.py (BicycleVehicle; [simulate], [plot] and [main],
    lines 185-240, are not modelled). *)
From Verif Require Import Prelude M_Utils M_Lane M_Road M_Vehicle M_Kinematics M_Interval.
Open Scope R_scope.

(** dynamics.py:17-25 class constants. *)
Definition B_MASS : R := 1.
Definition B_LENGTH_A : R := V_LENGTH / 2.
Definition B_LENGTH_B : R := V_LENGTH / 2.
Definition B_INERTIA : R := 1 / 12 * B_MASS * (V_LENGTH * V_LENGTH + 3 * (V_WIDTH * V_WIDTH)).
Definition B_FRICTION_FRONT : R := 15 * B_MASS.
Definition B_FRICTION_REAR : R := 15 * B_MASS.
Definition B_MAX_ANGULAR : R := 2 * PI.
Definition B_MAX_SPEED : R := 15.

(** dynamics.py:27-32: a vehicle with two more attributes.  [theta], [A_lat] and
    [B_lat] are caches of constants and of [lateral_lpv_dynamics] at the last
    call; nothing modelled reads them. *)
Record bicycle : Type := Bicycle { b_base : vehicle; b_lateral : R; b_yaw : R }.
Definition set_kind (v : vehicle) (k : vkind) : vehicle :=
  Vehicle (v_id v) k (v_pos v) (v_heading v) (v_speed v) (v_lane_index v) (v_steering v) (v_accel v) (v_crashed v)
    (v_collisions v) (v_history v) (v_target_lane v) (v_target_speed v) (v_route v) (v_speed_index v)
    (v_grid v) (v_enable_lane_change v) (v_timer v) (v_par v) (v_is_yielding v) (v_yield_timer v) (v_has_color v).
Definition new_bicycle (g : graph) (id : nat) (p : vec) (heading speed : R) : res bicycle :=
  do v <- new_vehicle g id p heading speed; Ok (Bicycle (set_kind v KBicycle) 0 0).

(** dynamics.py:35-41 [state]. *)
Definition b_state (b : bicycle) : list R :=
  [fst (v_pos (b_base b)); snd (v_pos (b_base b)); v_heading (b_base b); v_speed (b_base b); b_lateral b; b_yaw b].

(** dynamics.py:50-60: lateral and yaw accelerations as functions of speed,
    lateral speed, yaw rate and steering. *)
Definition tire_forces (v vy r delta_f : R) : R * R :=
  let theta_vf := atan2 (vy + B_LENGTH_A * r) v in
  let theta_vr := atan2 (vy - B_LENGTH_B * r) v in
  if Rltb (Rabs v) 1 then
    (- B_MASS * vy - B_INERTIA / B_LENGTH_A * r, - B_MASS * vy + B_INERTIA / B_LENGTH_A * r)
  else (2 * B_FRICTION_FRONT * (delta_f - theta_vf), 2 * B_FRICTION_REAR * (0 - theta_vr)).
Definition lateral_derivative (v vy r delta_f : R) : R * R :=
  let '(f_yf, f_yr) := tire_forces v vy r delta_f in
  (1 / B_MASS * (f_yf + f_yr) - r * v,
   1 / B_INERTIA * (B_LENGTH_A * f_yf - B_LENGTH_B * f_yr)).

(** dynamics.py:44-69 [derivative]. *)
Definition b_derivative (b : bicycle) : list R :=
  let v := b_base b in
  let '(dvy, dr) := lateral_derivative (v_speed v) (b_lateral b) (b_yaw b) (v_steering v) in
  let vel := vrot (v_heading v) (v_speed v, b_lateral b) in
  [fst vel; snd vel; b_yaw b; v_accel v; dvy; dr].

(** dynamics.py:108-137 [lateral_lpv_structure]: A0, phi, B. *)
Definition lateral_lpv_structure (v : R) : lmat * list lmat * lmat :=
  let B := [[2 * B_FRICTION_FRONT / B_MASS]; [B_FRICTION_FRONT * B_LENGTH_A / B_INERTIA]] in
  let A0 := [[0; - v]; [0; 0]] in
  if Rltb (Rabs v) 1 then (A0, [[[0; 0]; [0; 0]]; [[0; 0]; [0; 0]]], lm_scale 0 B)
  else
    let phi :=
      [[[- 2 / (B_MASS * v); - 2 * B_LENGTH_A / (B_MASS * v)];
        [- 2 * B_LENGTH_A / (B_INERTIA * v); - 2 * (B_LENGTH_A * B_LENGTH_A) / (B_INERTIA * v)]];
       [[- 2 / (B_MASS * v); 2 * B_LENGTH_B / (B_MASS * v)];
        [2 * B_LENGTH_B / (B_INERTIA * v); - 2 * (B_LENGTH_B * B_LENGTH_B) / (B_INERTIA * v)]]] in
    (A0, phi, B).
(** dynamics.py:146, 180: the parameter vector. *)
Definition b_theta : list R := [B_FRICTION_FRONT; B_FRICTION_REAR].
(** [A0 + np.tensordot(theta, phi, axes=[0, 0])] *)
Definition lpv_assemble (A0 : lmat) (phi : list lmat) : lmat :=
  lm_add A0 (lm_sum (map2 lm_scale b_theta phi)).
(** dynamics.py:139-148 [lateral_lpv_dynamics]. *)
Definition lateral_lpv_dynamics (v : R) : lmat * lmat :=
  let '(A0, phi, B) := lateral_lpv_structure v in (lpv_assemble A0 phi, B).
(** dynamics.py:150-169 [full_lateral_lpv_structure]. *)
Definition full_lateral_lpv_structure (v : R) : lmat * list lmat * lmat :=
  let '(A_lat, phi_lat, B_lat) := lateral_lpv_structure v in
  let pad m := map (fun row => [0; 0] ++ row) m in
  ([0; v; 1; 0] :: [0; 0; 0; 1] :: pad A_lat,
   map (fun phi_i => [0; 0; 0; 0] :: [0; 0; 0; 0] :: pad phi_i) phi_lat,
   [0] :: [0] :: B_lat).
(** dynamics.py:171-182 [full_lateral_lpv_dynamics]. *)
Definition full_lateral_lpv_dynamics (v : R) : lmat * lmat :=
  let '(A0, phi, B) := full_lateral_lpv_structure v in (lpv_assemble A0 phi, B).

(** dynamics.py:72-89 [derivative_linear]. *)
Definition b_derivative_linear (b : bicycle) : list R :=
  let v := b_base b in
  let '(A, B) := lateral_lpv_dynamics (v_speed v) in
  let dx := lv_add (lm_apply A [b_lateral b; b_yaw b]) (lm_apply B [v_steering v]) in
  let vel := vrot (v_heading v) (v_speed v, b_lateral b) in
  [fst vel; snd vel; b_yaw b; v_accel v] ++ dx.

(** dynamics.py:102-106 [clip_actions], on top of kinematics.py:140-149 with
    [self.MAX_SPEED] = 15. *)
Definition b_clip_actions (b : bicycle) : bicycle :=
  let v := b_base b in
  let st := if v_crashed v then 0 else v_steering v in
  let ac := if v_crashed v then -1 * v_speed v else v_accel v in
  let ac' := if Rltb B_MAX_SPEED (v_speed v) then Rmin ac (1 * (B_MAX_SPEED - v_speed v))
             else if Rltb (v_speed v) (- B_MAX_SPEED) then Rmax ac (1 * (B_MAX_SPEED - v_speed v))
             else ac in
  Bicycle (set_action v (Rclip st (- (PI / 2)) (PI / 2)) ac') (b_lateral b)
          (Rclip (b_yaw b) (- B_MAX_ANGULAR) B_MAX_ANGULAR).

(** dynamics.py:91-100 [step]: the derivative is computed once, before any
    attribute is updated; the heading uses the yaw rate. *)
Definition b_step (g : graph) (record : bool) (b : bicycle) (dt : R) : res bicycle :=
  let b1 := b_clip_actions b in
  let d := b_derivative b1 in
  let v := b_base b1 in
  let v1 := set_pose v (fst (v_pos v) + nth 0 d 0 * dt, snd (v_pos v) + nth 1 d 0 * dt)
                     (v_heading v + b_yaw b1 * dt) (v_speed v + v_accel v * dt) in
  do v2 <- on_state_update g record v1;
  Ok (Bicycle v2 (b_lateral b1 + nth 4 d 0 * dt) (b_yaw b1 + nth 5 d 0 * dt)).
(** kinematics.py:111-118 [act], then [step]: one command of a user. *)
Definition b_act (b : bicycle) (steering acceleration : R) : bicycle :=
  Bicycle (set_action (b_base b) steering acceleration) (b_lateral b) (b_yaw b).
