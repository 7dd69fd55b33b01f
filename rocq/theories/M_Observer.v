(** Model of vehicle/uncertainty/prediction.py: the interval observer of an
    IntervalVehicle (lines 81-180, 285-403).  Definitions only. *)
From Verif Require Import Prelude M_Utils M_Lane M_Road M_Vehicle M_Kinematics M_Control M_Behavior M_Interval.
Open Scope R_scope.

(** prediction.py:399-403 [VehicleInterval]: bounds on position (two corners), speed and heading. *)
Record vinterval : Type := VInterval { vi_pos : itv vec; vi_speed : itv R; vi_heading : itv R }.
Definition certain (p : vec) (speed heading : R) : vinterval := VInterval (p, p) (speed, speed) (heading, heading).

(** prediction.py:285-298 [get_front_interval]; [known id] is the interval of the
    vehicle [id] when it is an IntervalVehicle. *)
Definition get_front_interval (rd : road) (known : nat -> option vinterval) (v : vehicle) : res (option vinterval) :=
  do (front, _) <- neighbour_vehicles rd v None;
  Ok (match front with
      | None => None
      | Some e => match known (e_id e) with
                  | Some i => Some i
                  | None => Some (certain (e_pos e) (e_speed e) (e_heading e))
                  end
      end).

(** prediction.py:163-166: ranges of the cosine and the sine over a heading interval. *)
Definition cos_interval (psi : itv R) : itv R :=
  (if Rleb (fst psi) PI && Rleb PI (snd psi) then -1 else Rmin (cos (fst psi)) (cos (snd psi)),
   if Rleb (fst psi) 0 && Rleb 0 (snd psi) then 1 else Rmax (cos (fst psi)) (cos (snd psi))).
Definition sin_interval (psi : itv R) : itv R :=
  (if Rleb (fst psi) (- PI / 2) && Rleb (- PI / 2) (snd psi) then -1 else Rmin (sin (fst psi)) (sin (snd psi)),
   if Rleb (fst psi) (PI / 2) && Rleb (PI / 2) (snd psi) then 1 else Rmax (sin (fst psi)) (sin (snd psi))).

(** [np.clip] of both ends of an interval. *)
Definition clip_both (i : itv R) (lo hi : R) : itv R := (Rmin (Rmax (fst i) lo) hi, Rmin (Rmax (snd i) lo) hi).
(** x_i + d_i * dt + noise * dt * [-1, 1] *)
Definition grow (x d : itv R) (dt noise : R) : itv R :=
  (fst x + fst d * dt + noise * dt * -1, snd x + snd d * dt + noise * dt * 1).

(** prediction.py:107-120: intervals of the acceleration features. *)
Definition acceleration_box (par : idm_params) (direction : vec) (front : option vinterval) (i : vinterval) : itv lvec :=
  match front with
  | None => ([0; 0; 0], [0; 0; 0])
  | Some f =>
      let dv := interval_negative_part (intervals_diff (vi_speed f) (vi_speed i)) in
      let dx := intervals_diff (fst (fst (vi_pos f)), fst (snd (vi_pos f))) (fst (fst (vi_pos i)), fst (snd (vi_pos i))) in
      let dy := intervals_diff (snd (fst (vi_pos f)), snd (snd (vi_pos f))) (snd (fst (vi_pos i)), snd (snd (vi_pos i))) in
      let d := vector_interval_section ((fst dx, fst dy), (snd dx, snd dy)) direction in
      let d_safe := (ip_distance par + ip_time par * fst (vi_speed i), ip_distance par + ip_time par * snd (vi_speed i)) in
      let dp := interval_negative_part (intervals_diff d d_safe) in
      ([0; fst dv; fst dp], [0; snd dv; snd dp])
  end.
(** prediction.py:122-140: intervals of the steering features, for the only lane that
    [get_followed_lanes] returns by default, the target lane.  numpy divides by zero
    without an exception: only positive speeds are meaningful. *)
Definition steering_box (l : lane) (i : vinterval) : itv lvec :=
  let lat := snd (interval_absolute_to_local (vi_pos i) l) in
  let p := intervals_product (- snd lat, - fst lat) (1 / snd (vi_speed i), 1 / fst (vi_speed i)) in
  ([0; fst p], [0; snd p]).

(** prediction.py:93-180 [observer_step]: [theta_a], [theta_b] are the parameter boxes;
    [front] comes from [get_front_interval]; the lanes are those of the model vehicle. *)
Definition observer_law (par : idm_params) (target_speed : R) (theta_a theta_b : itv lvec)
    (direction : vec) (l : lane) (lane_psi : R) (front : option vinterval) (i : vinterval) (dt : R) : vinterval :=
  let v := vi_speed i in
  let psi := vi_heading i in
  let a := intervals_product_vv theta_a (acceleration_box par direction front i) in
  let b := intervals_product_vv theta_b (steering_box l i) in
  let k_a := (nth 0 (fst theta_a) 0, nth 0 (snd theta_a) 0) in
  let dv0 := intervals_product k_a (target_speed - snd v, target_speed - fst v) in
  let dv := clip_both (fst dv0 + fst a, snd dv0 + snd a) (- ip_acc_max par) (ip_acc_max par) in
  let k_b := (nth 0 (fst theta_b) 0, nth 0 (snd theta_b) 0) in
  let dpsi0 := integrator_interval (wrap_to_pi (fst psi - lane_psi), wrap_to_pi (snd psi - lane_psi)) k_b in
  let dpsi := (fst dpsi0 + fst b, snd dpsi0 + snd b) in
  let dx := intervals_product v (cos_interval psi) in
  let dy := intervals_product v (sin_interval psi) in
  let p := vi_pos i in
  let nx := grow (fst (fst p), fst (snd p)) dx dt 1 in
  let ny := grow (snd (fst p), snd (snd p)) dy dt 1 in
  VInterval ((fst nx, fst ny), (snd nx, snd ny)) (grow v dv dt 0) (grow psi dpsi dt 1).
Definition observer_step (rd : road) (known : nat -> option vinterval) (theta_a theta_b : itv lvec) (v : vehicle)
    (i : vinterval) (dt : R) : res vinterval :=
  do front <- get_front_interval rd known v;
  do own <- get_lane (rd_net rd) (v_lane_index v);
  do l <- get_lane (rd_net rd) (v_target_lane v);
  let own_psi := l_heading own (fst (l_local own (v_pos v))) in
  let lane_psi := l_heading l (fst (l_local l (v_pos v)) + v_speed v * PURSUIT_TAU) in
  Ok (observer_law (v_par v) (v_target_speed v) theta_a theta_b (cos own_psi, sin own_psi) l lane_psi front i dt).

(** prediction.py:325-359 [partial_observer_step] with the default alpha = 0: the two
    extreme corners are propagated as certain states.  The copies of the vehicle keep its
    position, speed, lanes and parameters, hence the same front vehicle. *)
Definition partial_observer_step (rd : road) (known : nat -> option vinterval) (theta_a theta_b : itv lvec) (v : vehicle)
    (i : vinterval) (dt : R) : res vinterval :=
  do lower <- observer_step rd known theta_a theta_b v (certain (fst (vi_pos i)) (fst (vi_speed i)) (fst (vi_heading i))) dt;
  do upper <- observer_step rd known theta_a theta_b v (certain (snd (vi_pos i)) (snd (vi_speed i)) (snd (vi_heading i))) dt;
  Ok (VInterval (fst (vi_pos lower), snd (vi_pos upper)) (fst (vi_speed lower), snd (vi_speed upper))
        (Rmin (fst (vi_heading lower)) (fst (vi_heading upper)), Rmax (snd (vi_heading lower)) (snd (vi_heading upper)))).

(** prediction.py:81-91 [step] in the default mode "partial": the interval, then the
    model vehicle.  A crashed vehicle's interval is its state before the step. *)
Definition interval_step (rd : road) (known : nat -> option vinterval) (theta_a theta_b : itv lvec) (v : vehicle)
    (i : vinterval) (dt : R) : res (vinterval * vehicle) :=
  do i' <- (if v_crashed v then Ok (certain (v_pos v) (v_speed v) (v_heading v))
            else partial_observer_step rd known theta_a theta_b v i dt);
  do v' <- vehicle_step (rd_net rd) (rd_record rd) v dt;
  Ok (i', v').

(** prediction.py:366-396 [check_collision] of an IntervalVehicle [v] of interval [i] with
    a vehicle [w]. *)
Definition project (p lo hi : vec) : vec := (Rmin (Rmax (fst p) (fst lo)) (fst hi), Rmin (Rmax (snd p) (snd lo)) (snd hi)).
Definition interval_check_collision (v : vehicle) (i : vinterval) (w : vehicle) : vehicle * vehicle :=
  match v_kind w with
  | KMDP =>
      if negb (v_collisions v) || v_crashed v || Nat.eqb (v_id w) (v_id v) then (v, w)
      else if negb (point_in_rectangle (v_pos w) (fst (fst (vi_pos i)) - V_LENGTH, snd (fst (vi_pos i)) - V_LENGTH)
                                                 (fst (snd (vi_pos i)) + V_LENGTH, snd (snd (vi_pos i)) + V_LENGTH)) then (v, w)
      else if rotated_rectangles_intersect (Rect (project (v_pos w) (fst (vi_pos i)) (snd (vi_pos i))) V_LENGTH V_WIDTH (v_heading v))
                (Rect (v_pos w) (9/10 * V_LENGTH) (9/10 * V_WIDTH) (v_heading w))
      then let s := Rmin (v_speed v) (v_speed w) in (set_crash v s, set_crash w s)
      else (v, w)
  | _ => check_collision v w
  end.

(** prediction.py:300-323 [get_followed_lanes]. *)
Inductive lane_change_model : Type := LModel | LAll | LRight | LOther.
Definition get_followed_lanes (g : graph) (v : vehicle) (m : lane_change_model) (squeeze : bool) : res (list lane_index) :=
  let t := v_target_lane v in
  match m with
  | LModel => Ok [t]
  | LAll => do s <- side_lanes g t; Ok (s ++ [t])%list
  | LRight =>
      do lanes <- g_lanes g (li_from t) (li_to t);
      match li_id t with
      | None => Err TypeError
      | Some k =>
          do ok <- (if Z.ltb k (Z.of_nat (List.length lanes) - 1)
                    then do l <- get_lane g (li_from t, li_to t, Some (k + 1)%Z); Ok (is_reachable_from l (v_pos v))
                    else Ok false);
          Ok (if ok then [t; (li_from t, li_to t, Some (k + 1)%Z)] else if squeeze then [t] else [t; t])
      end
  | LOther => Ok []
  end.
