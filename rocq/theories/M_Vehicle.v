(** State of the entities on a road: vehicles (all classes) and road objects.
    vehicle/kinematics.py:25-51, vehicle/controller.py:19-42, 204-218,
    vehicle/behavior.py:13-58, road/objects.py:9-33, road/road.py:237-256. *)
From Verif Require Import Prelude M_Utils M_Lane M_Road.
Open Scope R_scope.

(** Vehicle classes: kinematics.py:16 Vehicle, dynamics.py:11 BicycleVehicle,
    controller.py:11 ControlledVehicle, controller.py:200 MDPVehicle,
    behavior.py:13 IDMVehicle, behavior.py:294 LinearVehicle (Aggressive and
    Defensive only change constants). *)
Inductive vkind : Type := KVehicle | KBicycle | KControlled | KMDP | KIDM | KLinear.

(** [isinstance(v, ControlledVehicle)] *)
Definition is_controlled (k : vkind) : bool :=
  match k with KVehicle | KBicycle => false | _ => true end.
(** [isinstance(v, IDMVehicle)] *)
Definition is_idm (k : vkind) : bool :=
  match k with KIDM | KLinear => true | _ => false end.

(** kinematics.py:28-34 class constants. *)
Definition V_LENGTH : R := 5.
Definition V_WIDTH : R := 2.
Definition MAX_SPEED : R := 40.
(** kinematics.py:51 [deque(maxlen=30)]. *)
Definition HISTORY_LEN : nat := 30.

(** behavior.py:21-44, 298-305: constants of the IDM/MOBIL/linear policies as
    looked up on an instance (class attributes, possibly overridden). *)
Record idm_params : Type := IdmParams {
  ip_acc_max : R;             (* ACC_MAX *)
  ip_comfort_max : R;         (* COMFORT_ACC_MAX *)
  ip_comfort_min : R;         (* COMFORT_ACC_MIN *)
  ip_distance : R;            (* DISTANCE_WANTED *)
  ip_time : R;                (* TIME_WANTED *)
  ip_politeness : R;          (* POLITENESS *)
  ip_min_gain : R;            (* LANE_CHANGE_MIN_ACC_GAIN *)
  ip_max_braking : R;         (* LANE_CHANGE_MAX_BRAKING_IMPOSED *)
  ip_delay : R;               (* LANE_CHANGE_DELAY *)
  ip_acc_par : R * R * R;     (* ACCELERATION_PARAMETERS *)
  ip_steer_par : R * R        (* STEERING_PARAMETERS *)
}.
(** controller.py:22-29 gains. *)
Definition TAU_A : R := 6/10.
Definition TAU_DS : R := 2/10.
Definition PURSUIT_TAU : R := 1/2 * TAU_DS.
Definition KP_A : R := 1 / TAU_A.
Definition KP_HEADING : R := 1 / TAU_DS.
Definition KP_LATERAL : R := 1/3 * KP_HEADING.
Definition MAX_STEERING_ANGLE : R := PI / 3.
Definition DELTA_SPEED : R := 5.

(** behavior.py:21-44: IDMVehicle defaults. *)
Definition idm_default : idm_params :=
  IdmParams 6 3 (-5) (5 + V_LENGTH) (15/10) 0 (2/10) 2 1
            (3/10, 3/10, 2) (KP_HEADING, KP_HEADING * KP_LATERAL).

(** controller.py:204-206: SPEED_MIN, SPEED_MAX, SPEED_COUNT. *)
Record speed_grid : Type := SpeedGrid { sg_min : R; sg_max : R; sg_count : Z }.
Definition grid_default : speed_grid := SpeedGrid 20 30 3.

(** A recorded state: kinematics.py:156 stores [create_from(self)], of which we
    keep the dynamical state (kinematics.py:108). *)
Record snapshot : Type := Snapshot { sn_pos : vec; sn_heading : R; sn_speed : R }.

(** A vehicle.  [v_id] is the object identity ([is]).  Attributes that only some
    classes have are simply ignored for the others.  The attribute [lane] is
    always [get_lane(lane_index)] (kinematics.py:46-47, 153-154) and is derived. *)
Record vehicle : Type := Vehicle {
  v_id : nat;
  v_kind : vkind;
  v_pos : vec;
  v_heading : R;
  v_speed : R;
  v_lane_index : lane_index;
  v_steering : R;               (* action['steering'] *)
  v_accel : R;                  (* action['acceleration'] *)
  v_crashed : bool;
  v_collisions : bool;          (* COLLISIONS_ENABLED *)
  v_history : list snapshot;
  v_target_lane : lane_index;
  v_target_speed : R;
  v_route : option route;
  v_speed_index : Z;
  v_grid : speed_grid;
  v_enable_lane_change : bool;
  v_timer : R;
  v_par : idm_params;
  v_is_yielding : bool;         (* is_yielding, False when absent *)
  v_yield_timer : Z;
  v_has_color : bool            (* hasattr(v, "color") *)
}.

(** road/objects.py:9-33, 84-95 *)
Inductive okind : Type := KObstacle | KLandmark.
Definition O_LENGTH : R := 2.
Definition O_WIDTH : R := 2.
Record object : Type := Object {
  o_id : nat;
  o_kind : okind;
  o_pos : vec;
  o_speed : R;
  o_heading : R;
  o_hit : bool }.

(** Attribute assignments. *)
Definition set_pose (v : vehicle) (p : vec) (h s : R) : vehicle :=
  Vehicle (v_id v) (v_kind v) p h s (v_lane_index v) (v_steering v) (v_accel v) (v_crashed v)
    (v_collisions v) (v_history v) (v_target_lane v) (v_target_speed v) (v_route v) (v_speed_index v)
    (v_grid v) (v_enable_lane_change v) (v_timer v) (v_par v) (v_is_yielding v) (v_yield_timer v) (v_has_color v).
Definition set_lane_index (v : vehicle) (i : lane_index) : vehicle :=
  Vehicle (v_id v) (v_kind v) (v_pos v) (v_heading v) (v_speed v) i (v_steering v) (v_accel v) (v_crashed v)
    (v_collisions v) (v_history v) (v_target_lane v) (v_target_speed v) (v_route v) (v_speed_index v)
    (v_grid v) (v_enable_lane_change v) (v_timer v) (v_par v) (v_is_yielding v) (v_yield_timer v) (v_has_color v).
Definition set_action (v : vehicle) (st ac : R) : vehicle :=
  Vehicle (v_id v) (v_kind v) (v_pos v) (v_heading v) (v_speed v) (v_lane_index v) st ac (v_crashed v)
    (v_collisions v) (v_history v) (v_target_lane v) (v_target_speed v) (v_route v) (v_speed_index v)
    (v_grid v) (v_enable_lane_change v) (v_timer v) (v_par v) (v_is_yielding v) (v_yield_timer v) (v_has_color v).
Definition set_crash (v : vehicle) (s : R) : vehicle :=
  Vehicle (v_id v) (v_kind v) (v_pos v) (v_heading v) s (v_lane_index v) (v_steering v) (v_accel v) true
    (v_collisions v) (v_history v) (v_target_lane v) (v_target_speed v) (v_route v) (v_speed_index v)
    (v_grid v) (v_enable_lane_change v) (v_timer v) (v_par v) (v_is_yielding v) (v_yield_timer v) (v_has_color v).
Definition set_history (v : vehicle) (h : list snapshot) : vehicle :=
  Vehicle (v_id v) (v_kind v) (v_pos v) (v_heading v) (v_speed v) (v_lane_index v) (v_steering v) (v_accel v) (v_crashed v)
    (v_collisions v) h (v_target_lane v) (v_target_speed v) (v_route v) (v_speed_index v)
    (v_grid v) (v_enable_lane_change v) (v_timer v) (v_par v) (v_is_yielding v) (v_yield_timer v) (v_has_color v).
Definition set_target_lane (v : vehicle) (i : lane_index) : vehicle :=
  Vehicle (v_id v) (v_kind v) (v_pos v) (v_heading v) (v_speed v) (v_lane_index v) (v_steering v) (v_accel v) (v_crashed v)
    (v_collisions v) (v_history v) i (v_target_speed v) (v_route v) (v_speed_index v)
    (v_grid v) (v_enable_lane_change v) (v_timer v) (v_par v) (v_is_yielding v) (v_yield_timer v) (v_has_color v).
Definition set_target_speed (v : vehicle) (s : R) : vehicle :=
  Vehicle (v_id v) (v_kind v) (v_pos v) (v_heading v) (v_speed v) (v_lane_index v) (v_steering v) (v_accel v) (v_crashed v)
    (v_collisions v) (v_history v) (v_target_lane v) s (v_route v) (v_speed_index v)
    (v_grid v) (v_enable_lane_change v) (v_timer v) (v_par v) (v_is_yielding v) (v_yield_timer v) (v_has_color v).
Definition set_route (v : vehicle) (rt : option route) : vehicle :=
  Vehicle (v_id v) (v_kind v) (v_pos v) (v_heading v) (v_speed v) (v_lane_index v) (v_steering v) (v_accel v) (v_crashed v)
    (v_collisions v) (v_history v) (v_target_lane v) (v_target_speed v) rt (v_speed_index v)
    (v_grid v) (v_enable_lane_change v) (v_timer v) (v_par v) (v_is_yielding v) (v_yield_timer v) (v_has_color v).
Definition set_speed_index (v : vehicle) (k : Z) : vehicle :=
  Vehicle (v_id v) (v_kind v) (v_pos v) (v_heading v) (v_speed v) (v_lane_index v) (v_steering v) (v_accel v) (v_crashed v)
    (v_collisions v) (v_history v) (v_target_lane v) (v_target_speed v) (v_route v) k
    (v_grid v) (v_enable_lane_change v) (v_timer v) (v_par v) (v_is_yielding v) (v_yield_timer v) (v_has_color v).
Definition set_timer (v : vehicle) (t : R) : vehicle :=
  Vehicle (v_id v) (v_kind v) (v_pos v) (v_heading v) (v_speed v) (v_lane_index v) (v_steering v) (v_accel v) (v_crashed v)
    (v_collisions v) (v_history v) (v_target_lane v) (v_target_speed v) (v_route v) (v_speed_index v)
    (v_grid v) (v_enable_lane_change v) t (v_par v) (v_is_yielding v) (v_yield_timer v) (v_has_color v).
Definition set_yield (v : vehicle) (y : bool) (t : Z) (c : bool) : vehicle :=
  Vehicle (v_id v) (v_kind v) (v_pos v) (v_heading v) (v_speed v) (v_lane_index v) (v_steering v) (v_accel v) (v_crashed v)
    (v_collisions v) (v_history v) (v_target_lane v) (v_target_speed v) (v_route v) (v_speed_index v)
    (v_grid v) (v_enable_lane_change v) (v_timer v) (v_par v) y t c.
Definition set_hit (o : object) : object :=
  Object (o_id o) (o_kind o) (o_pos o) (o_speed o) (o_heading o) true.

(** Anything in [road.vehicles + road.objects] (road.py:307). *)
Inductive entity : Type := EV (v : vehicle) | EO (o : object).
Definition e_id (e : entity) : nat := match e with EV v => v_id v | EO o => o_id o end.
Definition e_pos (e : entity) : vec := match e with EV v => v_pos v | EO o => o_pos o end.
Definition e_heading (e : entity) : R := match e with EV v => v_heading v | EO o => o_heading o end.
Definition e_speed (e : entity) : R := match e with EV v => v_speed v | EO o => o_speed o end.
(** [isinstance(e, Landmark)] *)
Definition is_landmark (e : entity) : bool :=
  match e with EO o => match o_kind o with KLandmark => true | KObstacle => false end | EV _ => false end.

(** kinematics.py:207-213, objects.py:69-75 [direction], [velocity]. *)
Definition e_direction (e : entity) : vec := (cos (e_heading e), sin (e_heading e)).
Definition e_velocity (e : entity) : vec := vscal (e_speed e) (e_direction e).

(** road.py:233-256 class Road, with the step counter of RegulatedRoad
    (regulation.py:19). *)
Record road : Type := Road {
  rd_net : graph;
  rd_vehicles : list vehicle;
  rd_objects : list object;
  rd_record : bool;
  rd_steps : Z }.
Definition set_vehicles (rd : road) (vs : list vehicle) : road :=
  Road (rd_net rd) vs (rd_objects rd) (rd_record rd) (rd_steps rd).
Definition set_objects (rd : road) (os : list object) : road :=
  Road (rd_net rd) (rd_vehicles rd) os (rd_record rd) (rd_steps rd).
Definition set_steps (rd : road) (k : Z) : road :=
  Road (rd_net rd) (rd_vehicles rd) (rd_objects rd) (rd_record rd) k.
(** [self.vehicles + self.objects] *)
Definition rd_entities (rd : road) : list entity :=
  map EV (rd_vehicles rd) ++ map EO (rd_objects rd).

(** In-place update of the k-th element of a list. *)
Fixpoint update_nth {A : Type} (k : nat) (x : A) (l : list A) : list A :=
  match l, k with
  | [], _ => []
  | _ :: l', O => x :: l'
  | y :: l', S k' => y :: update_nth k' x l'
  end.
