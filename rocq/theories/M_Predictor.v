(** Model of the mode "predictor" of an IntervalVehicle
    (vehicle/uncertainty/prediction.py:182-283), of the structure of its linear models
    (behavior.py:397-456) and of the models estimated by a RegressionVehicle
    (vehicle/uncertainty/estimation.py:12-31).  Definitions only. *)
From Verif Require Import Prelude M_Utils M_Lane M_Road M_Vehicle M_Kinematics M_Control M_Behavior M_Interval M_Regression M_Observer M_Models.
Open Scope R_scope.

(** A nominal matrix and the matrices multiplied by the parameters. *)
Definition structure : Type := (lmat * list lmat)%type.
Definition lm_zero (n : nat) : lmat := map (fun _ => map (fun _ => 0) (seq 0 n)) (seq 0 n).

(** behavior.py:397-440 [longitudinal_structure].  A front vehicle (an object) is
    truthy; [d != ...] compares exactly. *)
Definition longitudinal_structure (rd : road) (v : vehicle) : res structure :=
  let a := [[0; 0; 1; 0]; [0; 0; 0; 1]; [0; 0; 0; 0]; [0; 0; 0; 0]] in
  let phi0 := [[0; 0; 0; 0]; [0; 0; 0; 0]; [0; 0; -1; 0]; [0; 0; 0; -1]] in
  let phi1 := [[0; 0; 0; 0]; [0; 0; 0; 0]; [0; 0; -1; 1]; [0; 0; 0; 0]] in
  let phi2 := [[0; 0; 0; 0]; [0; 0; 0; 0]; [-1; 1; - ip_time (v_par v); 0]; [0; 0; 0; 0]] in
  do (front, _) <- neighbour_vehicles rd v None;
  match front with
  | None => Ok (a, [phi0; lm_zero 4; lm_zero 4])
  | Some f =>
      do d <- lane_distance_to (rd_net rd) v f;
      Ok (a, [phi0; if Rltb (v_speed v) (e_speed f) then lm_zero 4 else phi1;
              if Reqb d (ip_distance (v_par v) + ip_time (v_par v) * v_speed v) then phi2 else lm_zero 4])
  end.
(** behavior.py:442-456 [lateral_structure]. *)
Definition lateral_structure : structure := ([[0; 1]; [0; 0]], [[[0; 0]; [0; -1]]; [[0; 0]; [-1; 0]]]).

(** [a + np.tensordot(phi, params, axes=[0, 0])]. *)
Definition at_parameters (s : structure) (params : lvec) : lmat := fold_left lm_add (map2 lm_scale params (snd s)) (fst s).
(** The rows of a flattened matrix. *)
Fixpoint rows (k n : nat) (v : lvec) : lmat := match k with O => [] | Datatypes.S k' => firstn n v :: rows k' n (skipn n v) end.
(** prediction.py:280-283 [parameter_box_to_polytope] for [n] x [n] matrices. *)
Definition parameter_box_to_polytope (n : nat) (s : structure) (box : itv lvec) : lmat * list lmat :=
  let '(a0, da) := polytope (fun p => List.concat (at_parameters s p)) (fst box) (snd box) in (rows n n a0, map (rows n n) da).

(** The data of a RegressionVehicle: None, an empty dictionary, or the two data sets. *)
Inductive knowledge : Type := NoData | EmptyData | Collected (longitudinal lateral : dataset).
(** Which class of IntervalVehicle. *)
Inductive interval_class : Type := IsInterval | IsRegression (la : linalg) (k : knowledge).
(** estimation.py:22-30 [polytope_from_estimation] with data (the lists of the two data
    sets are never empty once the dictionary has them). *)
Definition polytope_from_estimation (la : linalg) (data : dataset) (box : itv lvec) (s : structure) : lmat * list lmat :=
  let '(theta, d_theta, _, _) := confidence_polytope la data (fst box) (snd box) in
  let zero := lm_scale 0 (fst s) in
  (at_parameters s theta, map (fun d => at_parameters (zero, snd s) d) d_theta).
(** estimation.py:16-20, prediction.py:273-277: [data["longitudinal"]] of None raises
    TypeError, of an empty dictionary KeyError. *)
Definition matrix_polytope (c : interval_class) (lateral : bool) (box : itv lvec) (n : nat) (s : res structure) : res (lmat * list lmat) :=
  match c with
  | IsInterval => do s <- s; Ok (parameter_box_to_polytope n s box)
  | IsRegression _ NoData => Err TypeError
  | IsRegression _ EmptyData => Err KeyError
  | IsRegression la (Collected lo lat) => do s <- s; Ok (polytope_from_estimation la (if lateral then lat else lo) box s)
  end.

(** The two linear systems and the lane they refer to. *)
Record predictor : Type := Predictor { pr_long : option lpv; pr_lat : option lpv; pr_previous : lane_index }.
Definition new_predictor (v : vehicle) : predictor := Predictor None None (v_target_lane v).
Definition mean (i : itv R) : R := (fst i + snd i) / 2.

(** prediction.py:228-271 [predictor_init]; [self.lane] is the lane the vehicle is on. *)
Definition predictor_init (eig : lmat -> option (lmat * lmat)) (c : interval_class) (rd : road) (known : nat -> option vinterval)
    (theta_a theta_b : itv lvec) (v : vehicle) (i : vinterval) (pr : predictor) : res predictor :=
  do l <- get_lane (rd_net rd) (v_target_lane v);
  let '(longi, lat) := interval_absolute_to_local (vi_pos i) l in
  do own <- get_lane (rd_net rd) (v_lane_index v);
  let turn := l_heading own (mean longi) in
  match pr_long pr with
  | Some _ => Ok pr
  | None =>
      do front <- get_front_interval rd known v;
      let '(f_pos, f_vel) := match front with
                             | None => (0, 0)
                             | Some f => (fst (fst (interval_absolute_to_local (vi_pos f) l)), fst (vi_speed f))
                             end in
      let ts := v_target_speed v in
      let center := [- ip_distance (v_par v) - ts * ip_time (v_par v); 0; ts; ts] in
      do (a0, da) <- matrix_polytope c false theta_a 4 (longitudinal_structure rd v);
      let long := lpv_make eig [fst longi; f_pos; fst (vi_speed i); f_vel] a0 da (eye 4) [[1]; [0]; [0]; [0]] ([-1], [1])
                    [ts; ts; 0; 0] (lm_zero 4) center None in
      match pr_lat pr with
      | Some _ => Ok (Predictor (Some long) (pr_lat pr) (pr_previous pr))
      | None =>
          do (b0, db) <- matrix_polytope c true theta_b 2 (Ok lateral_structure);
          let lat_ := lpv_make eig [fst lat; fst (vi_heading i) - turn] b0 db (eye 2) [[1]; [0]] ([-(1/2)], [1/2]) [0; 0] (lm_zero 2) [0; 0] None in
          Ok (Predictor (Some long) (Some lat_) (pr_previous pr))
      end
  end.

(** [x_i_t += delta] for both bounds. *)
Definition set_xi (s : lpv) (xi : itv lvec) : lpv :=
  LPV (lp_a0 s) (lp_da s) (lp_b s) (lp_d s) (lp_omega s) (lp_u s) (lp_k s) (lp_center s) (lp_coord s) (lp_x s) xi.
Definition middle (xi : itv lvec) : lvec := lv_scale (1/2) (lv_add (fst xi) (snd xi)).
Definition recentre (s : lpv) (xi : itv lvec) : lpv :=
  let delta := lv_sub (middle xi) (middle (lp_xi s)) in set_xi s (lv_add (fst (lp_xi s)) delta, lv_add (snd (lp_xi s)) delta).
Definition set_first (x : R) (v : lvec) : lvec := match v with [] => [] | _ :: v' => x :: v' end.
(** prediction.py:191-211: the target lane has changed.  Without a change of
    coordinates [change_coordinates] returns the array [x_i_t] itself, which is then
    modified in place. *)
Definition change_lane (g : graph) (v : vehicle) (i : vinterval) (previous : lane_index) (long lat_ : lpv) : res (lpv * lpv) :=
  do l <- get_lane g (v_target_lane v);
  do p <- get_lane g previous;
  let '(longi, lat) := interval_absolute_to_local (vi_pos i) l in
  let turn := l_heading l (mean longi) - l_heading p (mean longi) in
  let psi := (fst (vi_heading i) + turn, snd (vi_heading i) + turn) in
  let lat' := recentre lat_ (change_interval (lp_coord lat_) (lp_center lat_) ([fst lat; fst psi], [snd lat; snd psi])) in
  let local := change_interval_back (lp_coord long) (lp_center long) (lp_xi long) in
  let local' := (set_first (fst longi) (fst local), set_first (snd longi) (snd local)) in
  let long' := match lp_coord long with
               | None => set_xi long local'
               | Some _ => recentre long (change_interval (lp_coord long) (lp_center long) local')
               end in
  Ok (long', lat').

(** prediction.py:182-226 [predictor_step]. *)
Definition predictor_step (eig : lmat -> option (lmat * lmat)) (c : interval_class) (rd : road) (known : nat -> option vinterval)
    (theta_a theta_b : itv lvec) (v : vehicle) (i : vinterval) (pr : predictor) (dt : R) : res (vinterval * predictor) :=
  do pr <- predictor_init eig c rd known theta_a theta_b v i pr;
  match pr_long pr, pr_lat pr with
  | Some long, Some lat_ =>
      do (long, lat_) <- (if li_eqb (v_target_lane v) (pr_previous pr) then Ok (long, lat_)
                          else change_lane (rd_net rd) v i (pr_previous pr) long lat_);
      let long := lpv_step long dt in
      let lat_ := lpv_step lat_ dt in
      let x := change_interval_back (lp_coord long) (lp_center long) (lp_xi long) in
      let y := change_interval_back (lp_coord lat_) (lp_center lat_) (lp_xi lat_) in
      do l <- get_lane (rd_net rd) (v_target_lane v);
      Ok (VInterval (interval_local_to_absolute (nth 0 (fst x) 0, nth 0 (snd x) 0) (nth 0 (fst y) 0, nth 0 (snd y) 0) l)
            (nth 2 (fst x) 0, nth 2 (snd x) 0) (nth 1 (fst y) 0, nth 1 (snd y) 0),
          Predictor (Some long) (Some lat_) (v_target_lane v))
  | _, _ => Err AttributeError
  end.
(** prediction.py:81-91 [step(dt, mode="predictor")]. *)
Definition predictor_mode_step (eig : lmat -> option (lmat * lmat)) (c : interval_class) (rd : road) (known : nat -> option vinterval)
    (theta_a theta_b : itv lvec) (v : vehicle) (i : vinterval) (pr : predictor) (dt : R) : res (vinterval * predictor * vehicle) :=
  do (i', pr') <- (if v_crashed v then Ok (certain (v_pos v) (v_speed v) (v_heading v), pr)
                   else predictor_step eig c rd known theta_a theta_b v i pr dt);
  do v' <- vehicle_step (rd_net rd) (rd_record rd) v dt;
  Ok (i', pr', v').
