(** Model of the methods of AbstractEnv that return a modified copy of the environment
    (envs/common/abstract.py:311-395).  The object graph itself is modelled in M_Heap;
    here a copy is the same environment made of other objects. *)
From Verif Require Import Prelude M_Utils M_Lane M_Road M_Vehicle M_Kinematics M_Control M_Behavior M_Regulation M_Action M_Env M_Scenes M_Nets M_Reset.
Open Scope R_scope.

(** The same state, with the identities given by [f]. *)
Definition set_id (v : vehicle) (i : nat) : vehicle :=
  Vehicle i (v_kind v) (v_pos v) (v_heading v) (v_speed v) (v_lane_index v) (v_steering v) (v_accel v) (v_crashed v)
    (v_collisions v) (v_history v) (v_target_lane v) (v_target_speed v) (v_route v) (v_speed_index v)
    (v_grid v) (v_enable_lane_change v) (v_timer v) (v_par v) (v_is_yielding v) (v_yield_timer v) (v_has_color v).
Definition ren_vehicle (f : nat -> nat) (v : vehicle) : vehicle := set_id v (f (v_id v)).
Definition ren_object (f : nat -> nat) (o : object) : object :=
  Object (f (o_id o)) (o_kind o) (o_pos o) (o_speed o) (o_heading o) (o_hit o).
Definition ren_road (f : nat -> nat) (rd : road) : road :=
  Road (rd_net rd) (map (ren_vehicle f) (rd_vehicles rd)) (map (ren_object f) (rd_objects rd)) (rd_record rd) (rd_steps rd).
Definition ren_env (f : nat -> nat) (e : env) : env :=
  Env (ren_road f (e_road e)) (map f (e_controlled e)) (e_time e) (e_steps e) (e_done e).

(** abstract.py:385-395 [copy.deepcopy(self)]: every object is a new one. *)
Definition first_free (e : env) : nat := fresh_id (e_road e) (e_controlled e).
Definition copy_env (e : env) : env := ren_env (Nat.add (first_free e)) e.

(** abstract.py:35 [6.0 * MDPVehicle.SPEED_MAX], evaluated when the class is created. *)
Definition PERCEPTION_DISTANCE : R := 6 * sg_max grid_default.
(** abstract.py:311-323 [simplify]. *)
Definition simplify (e : env) : res env :=
  let c := copy_env e in
  do v <- ego c;
  do close <- close_vehicles_to (e_road c) v PERCEPTION_DISTANCE None true;
  Ok (set_road c (set_vehicles (e_road c) (v :: close))).

(** The classes [vehicle_class_path] can name. *)
Inductive any_class : Type := AnyVehicle | AnyControlled | AnyMDP | AnyTraffic (c : traffic_class).
(** [vehicle_class.create_from(v)]: kinematics.py:98-109, controller.py:44-57 (inherited
    by MDPVehicle), behavior.py:63-76.  A plain vehicle has no [target_lane_index]. *)
Definition create_from (cs : classes) (k : any_class) (g : graph) (id : nat) (v : vehicle) : res vehicle :=
  match k with
  | AnyVehicle => new_vehicle g id (v_pos v) (v_heading v) (v_speed v)
  | AnyControlled => if is_controlled (v_kind v) then controlled_create_from g id v else Err AttributeError
  | AnyMDP => if is_controlled (v_kind v)
              then new_mdp g (cl_grid cs) id (v_pos v) (v_heading v) (v_speed v) (Some (v_target_lane v))
                     (Some (v_target_speed v)) (v_route v)
              else Err AttributeError
  | AnyTraffic c => if is_controlled (v_kind v) then idm_create_from g (kind_of c) (class_params cs c) id v else Err AttributeError
  end.
(** abstract.py:335-340: the vehicle at rank [i]; new objects are numbered from [n]. *)
Definition change_one (cs : classes) (k : any_class) (g : graph) (ego_id : option nat) (n : nat) (x : nat * vehicle) : res vehicle :=
  let '(i, v) := x in
  if (match ego_id with Some j => Nat.eqb (v_id v) j | None => false end) then Ok v
  else create_from cs k g (n + i) v.
(** abstract.py:325-340 [change_vehicles].  [env.vehicle] is the first controlled
    vehicle, if any (abstract.py:73-76). *)
Definition change_vehicles (cs : classes) (k : any_class) (e : env) : res env :=
  let c := copy_env e in
  let vs := rd_vehicles (e_road c) in
  do vs' <- mapM (change_one cs k (rd_net (e_road c)) (hd_error (e_controlled c)) (first_free c))
              (combine (seq 0 (List.length vs)) vs);
  Ok (set_road c (set_vehicles (e_road c) vs')).

(** abstract.py:347-349. *)
Definition prefer (k : Z) (v : vehicle) : res vehicle :=
  if is_idm (v_kind v) then
    match v_route v with
    | None => Err TypeError
    | Some rt =>
        let p := v_par v in
        Ok (set_par (set_route v (Some (map (fun i => (li_from i, li_to i, Some k)) rt)))
             (IdmParams (ip_acc_max p) (ip_comfort_max p) (ip_comfort_min p) (ip_distance p) (ip_time p) (ip_politeness p)
                (ip_min_gain p) 1000 (ip_delay p) (ip_acc_par p) (ip_steer_par p)))
    end
  else Ok v.
(** abstract.py:342-350 [set_preferred_lane]; [if preferred_lane] is false for None and 0. *)
Definition set_preferred_lane (k : option Z) (e : env) : res env :=
  let c := copy_env e in
  match k with
  | None => Ok c
  | Some z =>
      if Z.eqb z 0 then Ok c
      else do vs <- mapM (prefer z) (rd_vehicles (e_road c)); Ok (set_road c (set_vehicles (e_road c) vs))
  end.

(** The argument of [set_route_at_intersection]: "random", another string, or an
    integer.  [draw n] is [np_random.randint(n)] for that vehicle. *)
Inductive route_choice : Type := ToRandom | ToName (s : string) | ToIndex (k : Z).
(** controller.py:172-185: the remainder of a string is string formatting, which fails (TypeError; ValueError for a malformed
    format, not distinguished). *)
Definition choose_route (g : graph) (draw : nat -> nat) (to : route_choice) (v : vehicle) : res vehicle :=
  match get_routes_at_intersection g (v_route v) with
  | [] => Ok v
  | routes =>
      match to with
      | ToIndex k => Ok (set_route_at_intersection g v k)
      | ToRandom => Ok (set_route_at_intersection g v (Z.of_nat (draw (List.length routes))))
      | ToName _ => Err TypeError
      end
  end.
(** abstract.py:352-357 [set_route_at_intersection]; [draws i] for the vehicle of rank [i]. *)
Definition env_set_route (draws : nat -> nat -> nat) (to : route_choice) (e : env) : res env :=
  let c := copy_env e in
  let vs := rd_vehicles (e_road c) in
  do vs' <- mapM (fun '(i, v) => if is_idm (v_kind v) then choose_route (rd_net (e_road c)) (draws i) to v else Ok v)
              (combine (seq 0 (List.length vs)) vs);
  Ok (set_road c (set_vehicles (e_road c) vs')).

(** [setattr(v, field, value)] for the attributes of the model. *)
Inductive field_value : Type :=
| FPosition (p : vec) | FHeading (h : R) | FSpeed (s : R) | FTargetSpeed (s : R) | FTargetLane (i : lane_index)
| FRoute (rt : option route) | FTimer (t : R) | FPar (p : idm_params) | FGrid (g : speed_grid) | FCrashed (b : bool)
| FCollisions (b : bool) | FEnableLaneChange (b : bool).
Definition set_field (x : field_value) (v : vehicle) : vehicle :=
  match x with
  | FPosition p => set_pose v p (v_heading v) (v_speed v)
  | FHeading h => set_pose v (v_pos v) h (v_speed v)
  | FSpeed s => set_pose v (v_pos v) (v_heading v) s
  | FTargetSpeed s => set_target_speed v s
  | FTargetLane i => set_target_lane v i
  | FRoute rt => set_route v rt
  | FTimer t => set_timer v t
  | FPar p => set_par v p
  | FGrid g => set_grid v g
  | FCrashed b =>
      Vehicle (v_id v) (v_kind v) (v_pos v) (v_heading v) (v_speed v) (v_lane_index v) (v_steering v) (v_accel v) b
        (v_collisions v) (v_history v) (v_target_lane v) (v_target_speed v) (v_route v) (v_speed_index v)
        (v_grid v) (v_enable_lane_change v) (v_timer v) (v_par v) (v_is_yielding v) (v_yield_timer v) (v_has_color v)
  | FCollisions b =>
      Vehicle (v_id v) (v_kind v) (v_pos v) (v_heading v) (v_speed v) (v_lane_index v) (v_steering v) (v_accel v) (v_crashed v)
        b (v_history v) (v_target_lane v) (v_target_speed v) (v_route v) (v_speed_index v)
        (v_grid v) (v_enable_lane_change v) (v_timer v) (v_par v) (v_is_yielding v) (v_yield_timer v) (v_has_color v)
  | FEnableLaneChange b =>
      Vehicle (v_id v) (v_kind v) (v_pos v) (v_heading v) (v_speed v) (v_lane_index v) (v_steering v) (v_accel v) (v_crashed v)
        (v_collisions v) (v_history v) (v_target_lane v) (v_target_speed v) (v_route v) (v_speed_index v)
        (v_grid v) b (v_timer v) (v_par v) (v_is_yielding v) (v_yield_timer v) (v_has_color v)
  end.
(** abstract.py:359-365 [set_vehicle_field]: line 363 compares the vehicles of the copy
    with [self.vehicle], the ego vehicle of the original. *)
Definition set_vehicle_field (x : field_value) (e : env) : env :=
  let c := copy_env e in
  set_road c (set_vehicles (e_road c)
    (map (fun v => if (match hd_error (e_controlled e) with Some j => Nat.eqb (v_id v) j | None => false end)
                   then v else set_field x v) (rd_vehicles (e_road c)))).

(** abstract.py:367-373 [call_vehicle_method]: vehicles of the classes that have the
    method are replaced with what it returns, possibly None.  [run] is the method: the
    state it leaves the vehicle in, and whether it returns the vehicle. *)
Definition call_vehicle_method (has : vkind -> bool) (run : graph -> vehicle -> res (vehicle * bool)) (e : env) : res (list (option vehicle)) :=
  let c := copy_env e in
  mapM (fun v => if has (v_kind v) then do (w, returned) <- run (rd_net (e_road c)) v; Ok (if returned then Some w else None)
                 else Ok (Some v)) (rd_vehicles (e_road c)).
(** controller.py:59-73: ["plan_route_to"], which returns the vehicle. *)
Definition call_plan_route (ord : list string -> list string -> list string) (dest : string) (g : graph) (v : vehicle) : res (vehicle * bool) :=
  do w <- plan_route_to g ord v dest; Ok (w, true).
(** controller.py:105-111: ["follow_road"], which returns nothing. *)
Definition call_follow_road (draw : nat -> nat) (g : graph) (v : vehicle) : res (vehicle * bool) :=
  do w <- follow_road g draw v; Ok (w, false).

(** abstract.py:375-380 [randomize_behaviour]; [u i] are the draws of the vehicle of
    rank [i] (behavior.py:60-61, 328-333). *)
Definition randomize_behaviour (u : nat -> (R * R * R) * (R * R)) (e : env) : env :=
  let c := copy_env e in
  let vs := rd_vehicles (e_road c) in
  set_road c (set_vehicles (e_road c)
    (map (fun '(i, v) => match v_kind v with
                         | KLinear => set_par v (randomized (v_par v) (fst (u i)) (snd (u i)))
                         | _ => v
                         end) (combine (seq 0 (List.length vs)) vs))).
