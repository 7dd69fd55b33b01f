(** Model of vehicle/uncertainty/estimation.py: hypotheses on the route of a vehicle
    (MultipleModelVehicle), and of the data they are tested on (behavior.py:458-480).
    Definitions only. *)
From Verif Require Import Prelude M_Utils M_Lane M_Road M_Vehicle M_Kinematics M_Control M_Behavior M_Interval M_Regression.
Open Scope R_scope.

(** behavior.py:381-395 [steering_features]. *)
Definition steering_features (l : lane) (p : vec) (heading speed : R) : lvec :=
  let '(s, d) := l_local l p in
  let future := l_heading l (s + speed * PURSUIT_TAU) in
  [wrap_to_pi (future - heading) * V_LENGTH / not_zero speed not_zero_eps;
   - d * V_LENGTH / (not_zero speed not_zero_eps * not_zero speed not_zero_eps)].
(** Three parameters, or two, as a vector. *)
Definition vec3 (x : R * R * R) : lvec := let '(a, b, c) := x in [a; b; c].
Definition vec2 (x : R * R) : lvec := [fst x; snd x].

(** What one call of [add_features] appends to a dictionary: features and output of
    the acceleration, features and output of the steering. *)
Record sample : Type := Sample { sm_acc : lvec; sm_acc_out : R; sm_steer : lvec; sm_steer_out : R }.
(** data["longitudinal"] and data["lateral"] after the recorded samples. *)
Definition longitudinal_data (s : list sample) : dataset := Dataset (map sm_acc s) (map sm_acc_out s).
Definition lateral_data (s : list sample) : dataset := Dataset (map sm_steer s) (map sm_steer_out s).

(** behavior.py:462-480 [add_features(data, lane_index, output_lane)]: the new sample. *)
Definition add_features (rd : road) (v : vehicle) (i output : lane_index) : res sample :=
  do (front, _) <- neighbour_vehicles rd v None;
  do f <- linear_features (rd_net rd) (v_par v) (Some (EV v)) front;
  do l <- get_lane (rd_net rd) i;
  do o <- get_lane (rd_net rd) output;
  let phi := steering_features l (v_pos v) (v_heading v) (v_speed v) in
  let out := steering_features o (v_pos v) (v_heading v) (v_speed v) in
  Ok (Sample (vec3 f) (lv_dot (vec3 (ip_acc_par (v_par v))) (vec3 f)) phi (lv_dot (vec2 (ip_steer_par (v_par v))) out)).

(** A hypothesis: a list of roads and a dictionary.  Both are mutable python objects
    designated by a number; the list number 0 is the vehicle's own route.  An empty list of samples is the
    empty dictionary. *)
Record hypothesis : Type := Hypothesis_ { hy_route : nat; hy_data : nat; hy_samples : list sample }.
(** The hypotheses [self.data], the contents of the lists other than the vehicle's
    route, and the first unused number. *)
Record models : Type := Models { mm_hyps : list hypothesis; mm_lists : nat -> route; mm_next : nat }.
Definition no_models : models := Models [] (fun _ => []) 1.
Definition own_route (v : vehicle) : route := match v_route v with Some r => r | None => [] end.
Definition get_list (v : vehicle) (m : models) (r : nat) : route := if Nat.eqb r 0 then own_route v else mm_lists m r.
Definition set_list (v : vehicle) (m : models) (r : nat) (x : route) : vehicle * models :=
  if Nat.eqb r 0 then (set_route v (Some x), m)
  else (v, Models (mm_hyps m) (fun k => if Nat.eqb k r then x else mm_lists m k) (mm_next m)).
Definition set_hyps (m : models) (hs : list hypothesis) : models := Models hs (mm_lists m) (mm_next m).
(** A new list. *)
Definition new_list (m : models) (x : route) : nat * models :=
  (mm_next m, Models (mm_hyps m) (fun k => if Nat.eqb k (mm_next m) then x else mm_lists m k) (Datatypes.S (mm_next m))).

(** [route1 == route2]. *)
Fixpoint route_eqb (a b : route) : bool :=
  match a, b with
  | [], [] => true
  | x :: a', y :: b' => li_eqb x y && route_eqb a' b'
  | _, _ => false
  end.
(** estimation.py:76 [len(known) < len(route) and route[:len(known)] == known]. *)
Definition extends (known rt : route) : bool :=
  Nat.ltb (List.length known) (List.length rt) && route_eqb (firstn (List.length known) rt) known.
(** estimation.py:70-71: an unknown lane becomes the first one. *)
Definition first_lane (i : lane_index) : lane_index :=
  match li_id i with Some _ => i | None => (li_from i, li_to i, Some 0%Z) end.

(** estimation.py:73-80: the first hypothesis that is equal to the candidate or that it
    extends; [Some (Some k)] for the latter, with its contents. *)
Fixpoint find_known (v : vehicle) (m : models) (rt : route) (hs : list hypothesis) : option (option route) :=
  match hs with
  | [] => None
  | h :: hs' =>
      let k := get_list v m (hy_route h) in
      if route_eqb k rt then Some None
      else if extends k rt then Some (Some k)
      else find_known v m rt hs'
  end.
(** estimation.py:69-80: one candidate, the list number [r]. *)
Definition consider (st : vehicle * models) (r : nat) : vehicle * models :=
  let '(v, m) := st in
  let '(v, m) := set_list v m r (map first_lane (get_list v m r)) in
  let rt := get_list v m r in
  match find_known v m rt (mm_hyps m) with
  | Some None => (v, m)
  | Some (Some k) =>
      (v, set_hyps m (map (fun h => if route_eqb (get_list v m (hy_route h)) k then Hypothesis_ r (hy_data h) (hy_samples h) else h) (mm_hyps m)))
  | None =>
      let '(c, m) := new_list m rt in
      (v, Models (mm_hyps m ++ [Hypothesis_ c (mm_next m) []]) (mm_lists m) (Datatypes.S (mm_next m)))
  end.
(** controller.py:154-170 [get_routes_at_intersection]: new lists, or the vehicle's own
    route when there is no intersection ahead. *)
Definition candidates (g : graph) (v : vehicle) (m : models) : list nat * models :=
  match v_route v with
  | None | Some [] => ([], m)
  | Some rt =>
      match find_intersection g 3 [] rt with
      | None => ([O], m)
      | Some _ =>
          fold_left (fun acc x => let '(rs, m) := acc in let '(r, m) := new_list m x in ((rs ++ [r])%list, m))
            (get_routes_at_intersection g (v_route v)) ([], m)
      end
  end.
(** estimation.py:68-80. *)
Definition consider_all (g : graph) (v : vehicle) (m : models) : vehicle * models :=
  let '(rs, m) := candidates g v m in fold_left consider rs (v, m).

(** estimation.py:83-85: [route[0]] of an empty list raises IndexError. *)
Definition step_one (g : graph) (st : vehicle * models) (h : hypothesis) : res (vehicle * models) :=
  let '(v, m) := st in
  match get_list v m (hy_route h) with
  | [] => Err IndexError
  | r0 :: rest => do l <- get_lane g r0; Ok (if after_end l (v_pos v) None then set_list v m (hy_route h) rest else (v, m))
  end.

(** estimation.py:91 [self.data.remove((route, data))]: the first equal pair.  Comparing
    two different dictionaries with the same number of samples compares numpy arrays,
    which raises ValueError. *)
Fixpoint remove_hyp (v : vehicle) (m : models) (h : hypothesis) (hs : list hypothesis) : res (list hypothesis) :=
  match hs with
  | [] => Err ValueError
  | k :: hs' =>
      if route_eqb (get_list v m (hy_route k)) (get_list v m (hy_route h)) then
        if Nat.eqb (hy_data k) (hy_data h) then Ok hs'
        else if Nat.eqb (List.length (hy_samples k)) (List.length (hy_samples h)) then Err ValueError
        else do r <- remove_hyp v m h hs'; Ok (k :: r)
      else do r <- remove_hyp v m h hs'; Ok (k :: r)
  end.
(** LinearVehicle.STEERING_RANGE as a box. *)
Definition steering_range : lvec * lvec := (vec2 (fst STEERING_RANGE), vec2 (snd STEERING_RANGE)).
(** estimation.py:88-91: one hypothesis of the copy of the list. *)
Definition reject_one (la : linalg) (v : vehicle) (m : models) (h : hypothesis) : res models :=
  match hy_samples h with
  | [] => Ok m
  | _ =>
      do b <- is_consistent_dataset la (lateral_data (hy_samples h)) (Some steering_range);
      if b then Ok m else do hs <- remove_hyp v m h (mm_hyps m); Ok (set_hyps m hs)
  end.

(** estimation.py:59-91 [update_possible_routes]. *)
Definition update_possible_routes (la : linalg) (g : graph) (v : vehicle) (m : models) : res (vehicle * models) :=
  let '(v, m) := consider_all g v m in
  do (v, m) <- foldM (step_one g) (mm_hyps m) (v, m);
  do m <- foldM (reject_one la v) (mm_hyps m) m;
  Ok (v, m).

(** estimation.py:54-57 [collect_data]: one hypothesis. *)
Definition record_one (rd : road) (v : vehicle) (m : models) (h : hypothesis) : res hypothesis :=
  match get_list v m (hy_route h) with
  | [] => Err IndexError
  | r0 :: _ => do s <- add_features rd v r0 (v_target_lane v); Ok (Hypothesis_ (hy_route h) (hy_data h) (hy_samples h ++ [s]))
  end.
Definition record_all (rd : road) (v : vehicle) (m : models) : res models :=
  do hs <- mapM (record_one rd v m) (mm_hyps m); Ok (set_hyps m hs).

(** estimation.py:49-52 and behavior.py:323-326: what [act] does before the vehicle
    decides, [collecting_data] being set. *)
Definition think (la : linalg) (rd : road) (v : vehicle) (m : models) : res (vehicle * models) :=
  do (v, m) <- update_possible_routes la (rd_net rd) v m;
  do m <- record_all rd v m;
  Ok (v, m).
(** behavior.py:78-104 [IDMVehicle.act]. *)
Definition mm_decide (rd : road) (draw : nat -> nat) (v : vehicle) : res vehicle :=
  if v_crashed v then Ok v
  else
    let g := rd_net rd in
    do (front, rear) <- neighbour_vehicles rd v None;
    do v1 <- follow_road g draw v;
    do v2 <- (if v_enable_lane_change v1 then change_lane_policy rd v1 else Ok v1);
    do st <- idm_steering g v2 (v_target_lane v2);
    do ac <- acceleration g v2 (Some (EV v2)) front;
    Ok (set_action v2 (Rclip st (- MAX_STEERING_ANGLE) MAX_STEERING_ANGLE)
          (Rclip ac (- ip_acc_max (v_par v)) (ip_acc_max (v_par v)))).
(** estimation.py:49-52 [act]. *)
Definition mm_act (la : linalg) (rd : road) (draw : nat -> nat) (v : vehicle) (m : models) : res (vehicle * models) :=
  do (v, m) <- think la rd v m; do v <- mm_decide rd draw v; Ok (v, m).

(** estimation.py:93-108 [assume_model_is_valid]: the new vehicle, with the number of
    its route list and its samples when it is a RegressionVehicle.  The constants are
    those of the class LinearVehicle. *)
Definition assume_model_is_valid (g : graph) (id : nat) (v : vehicle) (m : models) (index : Z) : res (vehicle * option hypothesis) :=
  match mm_hyps m with
  | [] => do w <- idm_create_from g KLinear linear_default id v; Ok (w, None)
  | hs =>
      do h <- py_index hs (Z.min index (Z.of_nat (List.length hs) - 1));
      do w <- idm_create_from g KLinear linear_default id v;
      match get_list v m (hy_route h) with
      | [] => Err IndexError
      | r0 :: rest => Ok (set_route (set_target_lane w r0) (Some (r0 :: rest)), Some h)
      end
  end.
