(** Model of vehicle/behavior.py and of [Road.act] (road/road.py:270-273) *)
From Verif Require Import Prelude M_Utils M_Lane M_Road M_Vehicle M_Kinematics M_Control.
Open Scope R_scope.

(** behavior.py:294-306 LinearVehicle, 483-500 AggressiveVehicle and
    DefensiveVehicle: class constants. *)
Definition linear_default : idm_params :=
  IdmParams 6 3 (-5) (5 + V_LENGTH) (25/10) 0 (2/10) 2 1
            (3/10, 3/10, 2) (KP_HEADING, KP_HEADING * KP_LATERAL).
Definition aggressive_default : idm_params :=
  IdmParams 6 3 (-5) (5 + V_LENGTH) (25/10) 0 1 2 1
            (8/10 / ((1 - 75/100) * 30), 8/10 / (75/100 * 30), 5/10) (KP_HEADING, KP_HEADING * KP_LATERAL).
Definition defensive_default : idm_params :=
  IdmParams 6 3 (-5) (5 + V_LENGTH) (25/10) 0 1 2 1
            (12/10 / ((1 - 75/100) * 30), 12/10 / (75/100 * 30), 2) (KP_HEADING, KP_HEADING * KP_LATERAL).

(** behavior.py:301-303: ranges used to draw random behaviours.  They are computed
    once, from LinearVehicle's own constants, and inherited by its subclasses. *)
Definition ACCELERATION_RANGE : (R * R * R) * (R * R * R) :=
  ((1/2 * (3/10), 1/2 * (3/10), 1/2 * 2), (3/2 * (3/10), 3/2 * (3/10), 3/2 * 2)).
Definition STEERING_RANGE : (R * R) * (R * R) :=
  ((KP_HEADING - 7/100, KP_HEADING * KP_LATERAL - 3/2), (KP_HEADING + 7/100, KP_HEADING * KP_LATERAL + 3/2)).
(** behavior.py:328-333 [randomize_behavior] with the uniform draws [ua], [ub]. *)
Definition randomized (p : idm_params) (ua : R * R * R) (ub : R * R) : idm_params :=
  let mix lo hi u := lo + u * (hi - lo) in
  let '((l1, l2, l3), (h1, h2, h3)) := ACCELERATION_RANGE in
  let '((s1, s2), (t1, t2)) := STEERING_RANGE in
  let '(u1, u2, u3) := ua in
  IdmParams (ip_acc_max p) (ip_comfort_max p) (ip_comfort_min p) (ip_distance p) (ip_time p) (ip_politeness p)
    (ip_min_gain p) (ip_max_braking p) (ip_delay p)
    (mix l1 h1 u1, mix l2 h2 u2, mix l3 h3 u3) (mix s1 t1 (fst ub), mix s2 t2 (snd ub)).

(** behavior.py:46-58, 307-321 constructors: [timer or (sum(position)*pi) % DELAY]. *)
Definition new_idm (g : graph) (k : vkind) (par : idm_params) (id : nat) (p : vec) (heading speed : R)
  (target_lane : option lane_index) (target_speed : option R) (rt : option route)
  (enable : bool) (timer : option R) : res vehicle :=
  do v <- new_controlled g id p heading speed target_lane target_speed rt;
  Ok (Vehicle id k p heading speed (v_lane_index v) 0 0 false true [] (v_target_lane v) (v_target_speed v) rt 0%Z
        grid_default enable (float_or timer (Rpymod ((fst p + snd p) * PI) (ip_delay par))) par false 0%Z false).
(** behavior.py:64-76 [create_from]; the timer of an object without one is None. *)
Definition idm_create_from (g : graph) (k : vkind) (par : idm_params) (id : nat) (v : vehicle) : res vehicle :=
  new_idm g k par id (v_pos v) (v_heading v) (v_speed v) (Some (v_target_lane v)) (Some (v_target_speed v))
    (v_route v) true (if is_idm (v_kind v) then Some (v_timer v) else None).

(** behavior.py:147-162 [desired_gap] (projected). *)
Definition desired_gap (par : idm_params) (ego : vehicle) (front : entity) : R :=
  let ab := - ip_comfort_max par * ip_comfort_min par in
  let dv := vdot (vsub (e_velocity (EV ego)) (e_velocity front)) (e_direction (EV ego)) in
  ip_distance par + v_speed ego * ip_time par + v_speed ego * dv / (2 * sqrt ab).

(** behavior.py:137 [getattr(ego_vehicle, "target_speed", 0)]. *)
Definition target_speed_or_0 (v : vehicle) : R := if is_controlled (v_kind v) then v_target_speed v else 0.

(** behavior.py:117-145 [IDMVehicle.acceleration] of [ego] with the constants [par]
    of the deciding vehicle; DELTA = 4. *)
Definition idm_acceleration (g : graph) (par : idm_params) (ego front : option entity) : res R :=
  match ego with
  | None | Some (EO _) => Ok 0
  | Some (EV e) =>
      let ts := not_zero (target_speed_or_0 e) not_zero_eps in
      let acc := ip_comfort_max par * (1 - (Rmax (v_speed e) 0 / ts) ^ 4) in
      match front with
      | None => Ok acc
      | Some f =>
          do d <- lane_distance_to g e f;
          Ok (acc - ip_comfort_max par * (desired_gap par e f / not_zero d not_zero_eps) ^ 2)
      end
  end.

(** behavior.py:357-368 [LinearVehicle.acceleration_features]; obstacles and plain
    vehicles have no [target_speed]. *)
Definition linear_features (g : graph) (par : idm_params) (ego front : option entity) : res (R * R * R) :=
  match ego with
  | None => Ok (0, 0, 0)
  | Some (EO _) => Err AttributeError
  | Some (EV e) =>
      if negb (is_controlled (v_kind e)) then Err AttributeError
      else
        let vt := v_target_speed e - v_speed e in
        let d_safe := ip_distance par + Rmax (v_speed e) 0 * ip_time par in
        match front with
        | None => Ok (vt, 0, 0)
        | Some f =>
            do d <- lane_distance_to g e f;
            Ok (vt, Rmin (e_speed f - v_speed e) 0, Rmin (d - d_safe) 0)
        end
  end.
(** behavior.py:335-355 [LinearVehicle.acceleration]. *)
Definition linear_acceleration (g : graph) (par : idm_params) (ego front : option entity) : res R :=
  do (f12, f3) <- linear_features g par ego front;
  let '(p1, p2, p3) := ip_acc_par par in
  Ok (p1 * fst f12 + p2 * snd f12 + p3 * f3).
(** Method resolution of [self.acceleration]. *)
Definition acceleration (g : graph) (self : vehicle) (ego front : option entity) : res R :=
  match v_kind self with
  | KLinear => linear_acceleration g (v_par self) ego front
  | _ => idm_acceleration g (v_par self) ego front
  end.

(** behavior.py:381-395 [steering_features], 370-379 [steering_control]. *)
Definition linear_steering_law (par : idm_params) (l : lane) (p : vec) (heading speed : R) : R :=
  let '(s, d) := l_local l p in
  let future := l_heading l (s + speed * PURSUIT_TAU) in
  let f1 := wrap_to_pi (future - heading) * V_LENGTH / not_zero speed not_zero_eps in
  let f2 := - d * V_LENGTH / (not_zero speed not_zero_eps * not_zero speed not_zero_eps) in
  fst (ip_steer_par par) * f1 + snd (ip_steer_par par) * f2.
Definition idm_steering (g : graph) (v : vehicle) (i : lane_index) : res R :=
  match v_kind v with
  | KLinear => do l <- get_lane g i; Ok (linear_steering_law (v_par v) l (v_pos v) (v_heading v) (v_speed v))
  | _ => steering_control g v i
  end.

(** tuple equality on lane indices *)
Definition li_eqb (i j : lane_index) : bool := same_road i j && id_eqb (li_id i) (li_id j).

(** behavior.py:252 [self.route and self.route[0][2]]: the lane id of the first
    planned road when it is neither None nor 0. *)
Definition route_lane (v : vehicle) : option Z :=
  match v_route v with
  | Some ((_, _, Some k) :: _) => if Z.eqb k 0 then None else Some k
  | _ => None
  end.

(** behavior.py:231-271 [mobil]. *)
Definition mobil (rd : road) (v : vehicle) (i : lane_index) : res bool :=
  let g := rd_net rd in
  let A := acceleration g v in
  do (new_preceding, new_following) <- neighbour_vehicles rd v (Some i);
  do new_following_a <- A new_following new_preceding;
  do new_following_pred_a <- A new_following (Some (EV v));
  if Rltb new_following_pred_a (- ip_max_braking (v_par v)) then Ok false
  else
    do (old_preceding, old_following) <- neighbour_vehicles rd v None;
    do self_pred_a <- A (Some (EV v)) new_preceding;
    match route_lane v with
    | Some k =>
        match li_id i, li_id (v_target_lane v) with
        | Some c, Some t =>
            if negb (Z.eqb (Z.sgn (c - t)) (Z.sgn (k - t))) then Ok false
            else if Rltb self_pred_a (- ip_max_braking (v_par v)) then Ok false
            else Ok true
        | _, _ => Err TypeError
        end
    | None =>
        do self_a <- A (Some (EV v)) old_preceding;
        do old_following_a <- A old_following (Some (EV v));
        do old_following_pred_a <- A old_following old_preceding;
        let jerk := self_pred_a - self_a
                    + ip_politeness (v_par v) * (new_following_pred_a - new_following_a
                                                 + old_following_pred_a - old_following_a) in
        Ok (negb (Rltb jerk (ip_min_gain (v_par v))))
    end.

(** behavior.py:204-214: does another vehicle force to abort the lane change? *)
Definition aborts (rd : road) (v : vehicle) : res bool :=
  foldM (fun (b : bool) w =>
    if b then Ok true
    else if negb (Nat.eqb (v_id w) (v_id v)) && negb (li_eqb (v_lane_index w) (v_target_lane v))
            && is_controlled (v_kind w) && li_eqb (v_target_lane w) (v_target_lane v) then
      do d <- lane_distance_to (rd_net rd) v (EV w);
      Ok (Rltb 0 d && Rltb d (desired_gap (v_par v) v (EV w)))
    else Ok false) (rd_vehicles rd) false.

(** behavior.py:223-229: one candidate lane. *)
Definition try_candidate (rd : road) (v : vehicle) (i : lane_index) : res vehicle :=
  do l <- get_lane (rd_net rd) i;
  if negb (is_reachable_from l (v_pos v)) then Ok v
  else do b <- mobil rd v i; Ok (if b then set_target_lane v i else v).

(** behavior.py:192-229 [change_lane_policy]. *)
Definition change_lane_policy (rd : road) (v : vehicle) : res vehicle :=
  if negb (li_eqb (v_lane_index v) (v_target_lane v)) then
    if same_road (v_lane_index v) (v_target_lane v) then
      do b <- aborts rd v; Ok (if b then set_target_lane v (v_lane_index v) else v)
    else Ok v
  else if negb (do_every (ip_delay (v_par v)) (v_timer v)) then Ok v
  else
    do cands <- side_lanes (rd_net rd) (v_lane_index v);
    foldM (try_candidate rd) cands (set_timer v 0).

(** behavior.py:458-460 [collect_data]: only its possible exceptions matter here;
    the recorded features are not modelled. *)
Definition collect_data (rd : road) (v : vehicle) : res unit :=
  match v_kind v with
  | KLinear =>
      do (f, r) <- neighbour_vehicles rd v None;
      do _ <- linear_features (rd_net rd) (v_par v) (Some (EV v)) f;
      do _ <- idm_steering (rd_net rd) v (v_target_lane v);
      Ok tt
  | _ => Ok tt
  end.

(** behavior.py:78-104 [IDMVehicle.act] (323-326 for LinearVehicle).  [rd] is the
    road as seen during the call; [self] is [v] (its entry in [rd_vehicles] is
    only ever read for the other vehicles' sake). *)
Definition idm_act (rd : road) (draw : nat -> nat) (v : vehicle) : res vehicle :=
  do _ <- collect_data rd v;
  if v_crashed v then Ok v
  else
    let g := rd_net rd in
    do (front, rear) <- neighbour_vehicles rd v None;
    do v1 <- follow_road g draw v;
    do v2 <- (if v_enable_lane_change v1 then change_lane_policy rd v1 else Ok v1);
    do st <- idm_steering g v2 (v_target_lane v2);
    do ac <- acceleration g v2 (Some (EV v2)) front;
    Ok (set_action v2 (Rclip st (- MAX_STEERING_ANGLE) MAX_STEERING_ANGLE)
          (Rclip ac (- ip_acc_max (v_par v)) (ip_acc_max (v_par v)))).

(** [vehicle.act()] for every class (kinematics.py:111-118: a plain vehicle keeps
    its last action). *)
Definition vehicle_act (rd : road) (draw : nat -> nat) (v : vehicle) : res vehicle :=
  match v_kind v with
  | KVehicle | KBicycle => Ok v
  | KControlled => controlled_act (rd_net rd) draw v None
  | KMDP => mdp_act (rd_net rd) draw v None
  | KIDM | KLinear => idm_act rd draw v
  end.

(** road.py:270-273 [Road.act]: vehicles act in turn, each seeing the new targets
    of the previous ones.  [draws i] are the random draws made by vehicle i. *)
Definition act_one (draws : nat -> nat -> nat) (rd : road) (i : nat) : res road :=
  match nth_error (rd_vehicles rd) i with
  | Some v => do v' <- vehicle_act rd (draws i) v; Ok (set_vehicles rd (update_nth i v' (rd_vehicles rd)))
  | None => Ok rd
  end.
Definition road_act (draws : nat -> nat -> nat) (rd : road) : res road :=
  foldM (act_one draws) (seq 0 (List.length (rd_vehicles rd))) rd.

(** behavior.py:164-190 [maximum_speed]: with a front vehicle the method calls
    itself with the same argument before returning, i.e. recurses for ever. *)
Fixpoint maximum_speed (depth : nat) (v : vehicle) (front : option entity) : res R :=
  match front with
  | None => Ok (v_target_speed v)
  | Some _ =>
      match depth with
      | O => Err RecursionError
      | S d => do m <- maximum_speed d v front; Ok (Rmin m (v_target_speed v))
      end
  end.
