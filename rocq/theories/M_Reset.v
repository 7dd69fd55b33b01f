(** Model of the creation of the scenes ([_reset] of every environment), of the class
    attributes they read and write, and of the traffic management of the
    intersection. *)
From Verif Require Import Prelude M_Utils M_Lane M_Road M_Vehicle M_Kinematics M_Control M_Behavior M_Regulation M_Action M_Env M_Scenes M_Nets.
Open Scope R_scope.
Open Scope string_scope.

(** ** Class attributes: mutable state shared by the whole process *)
(** The classes config["other_vehicles_type"] can name (behavior.py:13, 294, 483, 493). *)
Inductive traffic_class : Type := CIdm | CLinear | CAggressive | CDefensive.
Definition kind_of (c : traffic_class) : vkind := match c with CIdm => KIDM | _ => KLinear end.

(** The class attributes an environment assigns: DISTANCE_WANTED, COMFORT_ACC_MAX,
    COMFORT_ACC_MIN (intersection_env.py:163-166). *)
Record tuning : Type := Tuning { tn_distance : R; tn_comfort_max : R; tn_comfort_min : R }.
(** behavior.py:25-35. *)
Definition tuning_default : tuning := Tuning (5 + V_LENGTH) 3 (-5).
(** intersection_env.py:164-166. *)
Definition tuning_intersection : tuning := Tuning 7 6 (-3).

(** The class attributes of the process: MDPVehicle.SPEED_*; the three constants of
    IDMVehicle, and of its subclasses when assigned there. *)
Record classes : Type := Classes {
  cl_grid : speed_grid;
  cl_idm : tuning;
  cl_linear : option tuning;
  cl_aggressive : option tuning;
  cl_defensive : option tuning }.
(** As imported: controller.py:204-206, behavior.py:25-35. *)
Definition classes_default : classes := Classes grid_default tuning_default None None None.
(** Attribute lookup along the inheritance chain. *)
Definition or_else {A : Type} (x : option A) (y : A) : A := match x with Some a => a | None => y end.
Definition tuning_of (cs : classes) (c : traffic_class) : tuning :=
  match c with
  | CIdm => cl_idm cs
  | CLinear => or_else (cl_linear cs) (cl_idm cs)
  | CAggressive => or_else (cl_aggressive cs) (or_else (cl_linear cs) (cl_idm cs))
  | CDefensive => or_else (cl_defensive cs) (or_else (cl_linear cs) (cl_idm cs))
  end.
(** Assignment on a class. *)
Definition set_tuning (cs : classes) (c : traffic_class) (t : tuning) : classes :=
  match c with
  | CIdm => Classes (cl_grid cs) t (cl_linear cs) (cl_aggressive cs) (cl_defensive cs)
  | CLinear => Classes (cl_grid cs) (cl_idm cs) (Some t) (cl_aggressive cs) (cl_defensive cs)
  | CAggressive => Classes (cl_grid cs) (cl_idm cs) (cl_linear cs) (Some t) (cl_defensive cs)
  | CDefensive => Classes (cl_grid cs) (cl_idm cs) (cl_linear cs) (cl_aggressive cs) (Some t)
  end.
Definition set_class_grid (cs : classes) (sg : speed_grid) : classes :=
  Classes sg (cl_idm cs) (cl_linear cs) (cl_aggressive cs) (cl_defensive cs).
(** The constants an instance sees: the three assignable ones from the class store. *)
Definition tuned (p : idm_params) (t : tuning) : idm_params :=
  IdmParams (ip_acc_max p) (tn_comfort_max t) (tn_comfort_min t) (tn_distance t) (ip_time p) (ip_politeness p)
    (ip_min_gain p) (ip_max_braking p) (ip_delay p) (ip_acc_par p) (ip_steer_par p).
Definition base_params (c : traffic_class) : idm_params :=
  match c with CIdm => idm_default | CLinear => linear_default | CAggressive => aggressive_default | CDefensive => defensive_default end.
Definition class_params (cs : classes) (c : traffic_class) : idm_params := tuned (base_params c) (tuning_of cs c).

(** ** Random draws, numbered by call: [dr_unit] in [0, 1] (rand; uniform(a, b) is
    a + (b - a) * unit), [dr_normal] (randn), [dr_int k n] below n, [dr_pair] two
    distinct numbers below 4, [dr_frame] the draws of Road.act while warming up,
    [dr_ord] the order in which python iterates over sets. *)
Record draws : Type := Draws {
  dr_unit : nat -> R;
  dr_normal : nat -> R;
  dr_int : nat -> nat -> nat;
  dr_pair : nat -> nat * nat;
  dr_frame : nat -> nat -> nat -> nat;
  dr_ord : list string -> list string -> list string }.
(** [np_random.choice(l)]: ValueError on an empty list. *)
Definition choice {A : Type} (draw : nat -> nat) (l : list A) : res A :=
  match l with
  | [] => Err ValueError
  | _ => match nth_error l (draw (List.length l)) with Some x => Ok x | None => Err IndexError end
  end.
Definition uniform (d : draws) (k : nat) (a b : R) : R := a + (b - a) * dr_unit d k.

(** ** Constructors *)
(** A new object is different from every existing one. *)
Definition fresh_id (rd : road) (ctl : list nat) : nat :=
  S (list_max (map v_id (rd_vehicles rd) ++ map o_id (rd_objects rd) ++ ctl)).
Definition add_vehicle (rd : road) (v : vehicle) : road := set_vehicles rd (rd_vehicles rd ++ [v]).
Definition add_object (rd : road) (o : object) : road := set_objects rd (rd_objects rd ++ [o]).
Definition set_kind (v : vehicle) (k : vkind) : vehicle :=
  Vehicle (v_id v) k (v_pos v) (v_heading v) (v_speed v) (v_lane_index v) (v_steering v) (v_accel v) (v_crashed v)
    (v_collisions v) (v_history v) (v_target_lane v) (v_target_speed v) (v_route v) (v_speed_index v)
    (v_grid v) (v_enable_lane_change v) (v_timer v) (v_par v) (v_is_yielding v) (v_yield_timer v) (v_has_color v).
Definition set_grid (v : vehicle) (sg : speed_grid) : vehicle :=
  Vehicle (v_id v) (v_kind v) (v_pos v) (v_heading v) (v_speed v) (v_lane_index v) (v_steering v) (v_accel v) (v_crashed v)
    (v_collisions v) (v_history v) (v_target_lane v) (v_target_speed v) (v_route v) (v_speed_index v)
    sg (v_enable_lane_change v) (v_timer v) (v_par v) (v_is_yielding v) (v_yield_timer v) (v_has_color v).
Definition set_par (v : vehicle) (p : idm_params) : vehicle :=
  Vehicle (v_id v) (v_kind v) (v_pos v) (v_heading v) (v_speed v) (v_lane_index v) (v_steering v) (v_accel v) (v_crashed v)
    (v_collisions v) (v_history v) (v_target_lane v) (v_target_speed v) (v_route v) (v_speed_index v)
    (v_grid v) (v_enable_lane_change v) (v_timer v) p (v_is_yielding v) (v_yield_timer v) (v_has_color v).
(** [self.action_type.vehicle_class(road, position, heading, speed)]. *)
Definition new_ego (cs : classes) (k : vkind) (g : graph) (id : nat) (p : vec) (heading speed : R) : res vehicle :=
  match k with
  | KMDP => new_mdp g (cl_grid cs) id p heading speed None None None
  | _ => do v <- new_vehicle g id p heading speed; Ok (set_kind v k)
  end.
(** [other_vehicles_type(road, position, heading, speed, enable_lane_change=...)]. *)
Definition new_traffic (cs : classes) (c : traffic_class) (g : graph) (id : nat) (p : vec) (heading speed : R) (enable : bool) : res vehicle :=
  new_idm g (kind_of c) (class_params cs c) id p heading speed None None None enable None.
(** [other_vehicles_type.make_on_lane(road, lane_index, longitudinal, speed)] (kinematics.py:53-67). *)
Definition traffic_on_lane (cs : classes) (c : traffic_class) (g : graph) (id : nat) (i : lane_index) (s speed : R) : res vehicle :=
  do l <- get_lane g i; new_traffic cs c g id (l_position l s 0) (l_heading l s) speed true.
(** behavior.py:60-61, 328-333 [randomize_behavior]. *)
Definition randomize (d : draws) (k : nat) (c : traffic_class) (v : vehicle) : vehicle :=
  match c with
  | CIdm => v
  | _ => set_par v (randomized (v_par v) (dr_unit d k, dr_unit d (k + 1), dr_unit d (k + 2)) (dr_unit d (k + 3), dr_unit d (k + 4)))
  end.

(** kinematics.py:92-93 [np.max([...]) if len(road.vehicles) else 3*offset]. *)
Definition max_or (default : R) (l : list R) : R := match l with [] => default | x :: xs => fold_left Rmax xs x end.
(** kinematics.py:70-96 [create_random]: pose of the new vehicle, given its speed.
    Draws: [3 j], [3 j + 1], [3 j + 2] integers, [2 j] real. *)
Definition random_pose (rd : road) (d : draws) (j : nat) (speed : R) (lane_id : option Z) (spacing : R) : res (vec * R) :=
  let g := rd_net rd in
  do a <- choice (dr_int d (3 * j)) (keys g);
  do succ <- g_succ g a;
  do b <- choice (dr_int d (3 * j + 1)) (keys succ);
  do ls <- g_lanes g a b;
  do id <- (match lane_id with Some k => Ok k | None => rmap Z.of_nat (choice (dr_int d (3 * j + 2)) (seq 0 (List.length ls))) end);
  do l <- get_lane g (a, b, Some id);
  let offset := spacing * (15/10 * speed) * exp (- 5 / 30 * INR (List.length ls)) in
  let x0 := max_or (3 * offset) (map (fun v => fst (l_local l (v_pos v))) (rd_vehicles rd)) in
  let x := x0 + offset * uniform d (2 * j) (9/10) (11/10) in
  Ok (l_position l x 0, l_heading l x).
(** kinematics.py:32-33 DEFAULT_SPEEDS. *)
Definition random_speed (d : draws) (j : nat) : R := uniform d (2 * j + 1) 23 25.

(** ** Configurations *)
Record common : Type := Common {
  cf_simulation : nat;           (* simulation_frequency *)
  cf_policy : R;                 (* policy_frequency *)
  cf_manual : bool;              (* manual_control *)
  cf_action : action_type;       (* action *)
  cf_traffic : traffic_class;    (* other_vehicles_type *)
  cf_record : bool }.            (* show_trajectories *)
Definition ego_kind (cf : common) : vkind :=
  vehicle_class (match cf_action cf with Single s | Multi s => s end).
Definition empty_road (g : graph) (cf : common) : road := Road g [] [] (cf_record cf) 0%Z.
(** [env.time = env.steps = 0; env.done = False] (abstract.py:163-164). *)
Definition fresh_env (rd : road) (ctl : list nat) : env := Env rd ctl 0%Z 0%Z false.

(** ** highway_env.py:51-73 *)
Record highway_scene : Type := HighwayScene {
  hs_lanes : nat; hs_controlled : nat; hs_vehicles : nat; hs_lane_id : option Z;
  hs_ego_spacing : R; hs_density : R; hs_cfg : highway_config }.
Definition highway_ego (cs : classes) (cf : common) (h : highway_scene) (d : draws) (st : road * list nat) (j : nat) : res (road * list nat) :=
  let '(rd, ctl) := st in
  do (p, heading) <- random_pose rd d j 25 (hs_lane_id h) (hs_ego_spacing h);
  let id := fresh_id rd ctl in
  do v <- new_ego cs (ego_kind cf) (rd_net rd) id p heading 25;
  Ok (add_vehicle rd v, (ctl ++ [id])%list).
Definition highway_other (cs : classes) (cf : common) (h : highway_scene) (d : draws) (ctl : list nat) (rd : road) (j : nat) : res road :=
  do spacing <- pydiv 1 (hs_density h);
  let speed := random_speed d j in
  do (p, heading) <- random_pose rd d j speed None spacing;
  do v <- new_traffic cs (cf_traffic cf) (rd_net rd) (fresh_id rd ctl) p heading speed true;
  Ok (add_vehicle rd v).
Definition highway_reset (cs : classes) (cf : common) (h : highway_scene) (d : draws) : res env :=
  do (rd, ctl) <- foldM (highway_ego cs cf h d) (seq 0 (hs_controlled h)) (empty_road (highway_net (hs_lanes h)) cf, []);
  do rd <- foldM (highway_other cs cf h d ctl) (seq (hs_controlled h) (hs_vehicles h)) rd;
  Ok (fresh_env rd ctl).

(** ** two_way_env.py:61-115 (default length 800) *)
Definition two_way_ahead (cs : classes) (cf : common) (d : draws) (rd : road) (i : nat) : res road :=
  do l <- get_lane (rd_net rd) ("a", "b", Some 1%Z);
  do v <- new_traffic cs (cf_traffic cf) (rd_net rd) (fresh_id rd [])
            (l_position l (70 + 40 * INR i + 10 * dr_normal d (2 * i)) 0) (l_heading l (70 + 40 * INR i))
            (24 + 2 * dr_normal d (2 * i + 1)) false;
  Ok (add_vehicle rd v).
Definition two_way_oncoming (cs : classes) (cf : common) (d : draws) (rd : road) (i : nat) : res road :=
  do l <- get_lane (rd_net rd) ("b", "a", Some 0%Z);
  do v <- new_traffic cs (cf_traffic cf) (rd_net rd) (fresh_id rd [])
            (l_position l (200 + 100 * INR i + 10 * dr_normal d (6 + 2 * i)) 0) (l_heading l (200 + 100 * INR i))
            (20 + 5 * dr_normal d (6 + 2 * i + 1)) false;
  Ok (add_vehicle rd (set_target_lane v ("b", "a", Some 0%Z))).
Definition two_way_reset (cs : classes) (cf : common) (d : draws) : res env :=
  let rd := empty_road (two_way_net 800) cf in
  do l <- get_lane (rd_net rd) ("a", "b", Some 1%Z);
  let id := fresh_id rd [] in
  do e <- new_ego cs (ego_kind cf) (rd_net rd) id (l_position l 30 0) 0 30;
  do rd <- foldM (two_way_ahead cs cf d) (seq 0 3) (add_vehicle rd e);
  do rd <- foldM (two_way_oncoming cs cf d) (seq 0 2) rd;
  Ok (fresh_env rd [id]).

(** ** merge_env.py:61-118 *)
Definition merge_other (cs : classes) (cf : common) (rd : road) (x : lane_index * R * R) : res road :=
  let '(i, s, speed) := x in
  do l <- get_lane (rd_net rd) i;
  do v <- new_traffic cs (cf_traffic cf) (rd_net rd) (fresh_id rd []) (l_position l s 0) 0 speed true;
  Ok (add_vehicle rd v).
Definition merge_reset (cs : classes) (cf : common) : res env :=
  let rd := add_object (empty_road merge_net cf)
              (Object 1 KObstacle (l_position merge_lbc 80 0) 0 0 false) in
  do l <- get_lane (rd_net rd) ("a", "b", Some 1%Z);
  let id := fresh_id rd [] in
  do e <- new_ego cs (ego_kind cf) (rd_net rd) id (l_position l 30 0) 0 30;
  do rd <- foldM (merge_other cs cf)
             [(("a", "b", Some 0%Z), 90, 29); (("a", "b", Some 1%Z), 70, 31); (("a", "b", Some 0%Z), 5, 315/10)]
             (add_vehicle rd e);
  do m <- get_lane (rd_net rd) ("j", "k", Some 0%Z);
  do v <- new_traffic cs (cf_traffic cf) (rd_net rd) (fresh_id rd []) (l_position m 110 0) 0 20 true;
  Ok (fresh_env (add_vehicle rd (set_target_speed v 30)) [id]).

(** ** parking_env.py:62-97 *)
Definition parking_ego (cs : classes) (cf : common) (d : draws) (st : road * list nat) (i : nat) : res (road * list nat) :=
  let '(rd, ctl) := st in
  let id := fresh_id rd ctl in
  do v <- new_ego cs (ego_kind cf) (rd_net rd) id (INR i * 20, 0) (2 * PI * dr_unit d i) 0;
  Ok (add_vehicle rd v, (ctl ++ [id])%list).
(** The environment and its goal. *)
Definition parking_reset (cs : classes) (cf : common) (controlled : nat) (d : draws) : res (object * env) :=
  do (rd, ctl) <- foldM (parking_ego cs cf d) (seq 0 controlled) (empty_road (parking_net 15) cf, []);
  do l <- choice (dr_int d 0) (lanes_list (rd_net rd));
  let goal := Object (fresh_id rd ctl) KLandmark (l_position l (l_length l / 2) 0) 0 (l_heading l 0) false in
  Ok (goal, fresh_env (add_object rd goal) ctl).

(** ** summon_env.py:72-103 *)
(** [for v in road.vehicles: if bad(v): road.vehicles.remove(v)]: the list is
    modified while it is iterated over, so the element after a removed one is
    skipped. *)
Fixpoint purge (bad : vehicle -> bool) (l : list vehicle) : list vehicle :=
  match l with
  | [] => []
  | v :: l' => if bad v then match l' with [] => [] | w :: l'' => w :: purge bad l'' end else v :: purge bad l'
  end.
Definition too_close (e : vehicle) (v : vehicle) : bool :=
  negb (Nat.eqb (v_id v) (v_id e)) && Rltb (vnorm (vsub (v_pos v) (v_pos e))) 20.
Definition summon_other (cs : classes) (cf : common) (d : draws) (rd : road) (i : nat) : res road :=
  let id := fresh_id rd [] in
  if Rltb (75/100) (dr_unit d (2 * i + 1)) then
    let idx := dr_int d (2 * i + 1)%nat 5%nat in
    let s := INR i * 5 - summon_x_range 15 / 8 * (-1 + INR (dr_int d (2 * i + 2)%nat 2%nat)) in
    do v <- traffic_on_lane cs (cf_traffic cf) (rd_net rd) id ("d", "e", Some (Z.of_nat idx)) s 2;
    Ok (add_vehicle rd v)
  else
    let i' := if Rleb (1/2) (dr_unit d (2 * i + 2)) then ("a", "b", Some (Z.of_nat i)) else ("b", "c", Some (Z.of_nat i)) in
    do v <- make_on_lane (rd_net rd) id i' 4 (Some 0);
    Ok (add_vehicle rd v).
Definition summon_reset (cs : classes) (cf : common) (vehicles : nat) (d : draws) : res (object * env) :=
  let rd := empty_road (summon_net 15) cf in
  let id := fresh_id rd [] in
  do e <- new_ego cs (ego_kind cf) (rd_net rd) id (spot_x 15 14, 12 + 8 / 2) (2 * PI * dr_unit d 0) 0;
  let rd := add_vehicle rd e in
  let goal := Object (fresh_id rd []) KLandmark ((if Nat.eqb (dr_int d 0 2) 0 then - 2 * 15 - 10 else 2 * 15 + 10), 0) 0 0 false in
  do rd <- foldM (summon_other cs cf d) (seq 0 vehicles) (add_object rd goal);
  Ok (goal, fresh_env (set_vehicles rd (purge (too_close e) (rd_vehicles rd))) [id]).

(** ** roundabout_env.py:51-53, 122-180 *)
Definition roundabout_destinations : list string := ["exr"; "sxr"; "nxr"].
Definition roundabout_grid : speed_grid := SpeedGrid 0 16 3.
(** The other vehicles: lane, mean longitudinal position; the draws of vehicle [j]. *)
Definition roundabout_other (cs : classes) (cf : common) (d : draws) (incoming : option Z) (rd : road) (x : nat * lane_index * R) : res road :=
  let '(j, i, s) := x in
  let g := rd_net rd in
  do v <- traffic_on_lane cs (cf_traffic cf) g (fresh_id rd []) i (s + dr_normal d (2 * j) * 2) (16 + dr_normal d (2 * j + 1) * 2);
  do dest <- (match j, incoming with
              | O, Some k => py_index roundabout_destinations k
              | _, _ => choice (dr_int d j) roundabout_destinations
              end);
  do v <- plan_route_to g (dr_ord d) v dest;
  Ok (add_vehicle rd (randomize d (5 * j) (cf_traffic cf) v)).
(** [try: ego.plan_route_to("nxs") except AttributeError: pass]. *)
Definition roundabout_reset (cs : classes) (cf : common) (incoming : option Z) (d : draws) : res (classes * env) :=
  let rd := empty_road roundabout_net cf in
  let g := rd_net rd in
  do l <- get_lane g ("ser", "ses", Some 0%Z);
  let id := fresh_id rd [] in
  do e <- new_ego cs (ego_kind cf) g id (l_position l 125 0) (l_heading l 140) 8;
  do e <- (if is_controlled (ego_kind cf) then plan_route_to g (dr_ord d) e "nxs" else Ok e);
  let cs' := set_class_grid cs roundabout_grid in
  let rd := add_vehicle rd (set_grid e roundabout_grid) in
  do rd <- foldM (roundabout_other cs' cf d incoming)
             [(0%nat, ("we", "sx", Some 1%Z), 5); (1%nat, ("we", "sx", Some 0%Z), 20 * 1);
              (2%nat, ("we", "sx", Some 0%Z), 20 * - 1); (3%nat, ("eer", "ees", Some 0%Z), 50)] rd;
  Ok (cs', fresh_env rd [id]).

(** ** intersection_env.py:87-97, 156-222 *)
(** Lines 201-222 [_spawn_vehicle], with the draws of the [j]-th call. *)
Definition spawn (cs : classes) (c : traffic_class) (d : draws) (j : nat) (ctl : list nat)
  (longitudinal position_deviation speed_deviation probability : R) (go_straight : bool) (rd : road) : res road :=
  if Rltb probability (dr_unit d (6 * j)) then Ok rd
  else
    let a := fst (dr_pair d j) in
    let b := if go_straight then ((a + 2) mod 4)%nat else snd (dr_pair d j) in
    let g := rd_net rd in
    do v <- traffic_on_lane cs c g (fresh_id rd ctl) (corner_name "o" a, corner_name "ir" a, Some 0%Z)
              (longitudinal + 5 + dr_normal d (2 * j) * position_deviation) (8 + dr_normal d (2 * j + 1) * speed_deviation);
    if existsb (fun w => Rltb (vnorm (vsub (v_pos w) (v_pos v))) 15) (rd_vehicles rd) then Ok rd
    else do v <- plan_route_to g (dr_ord d) v (corner_name "o" b);
         Ok (add_vehicle rd (randomize d (6 * j + 1) c v)).
(** Lines 224-229 [_clear_vehicles]; LENGTH = 5. *)
Definition is_leaving (g : graph) (v : vehicle) : res bool :=
  if contains "il" (li_from (v_lane_index v)) && contains "o" (li_to (v_lane_index v))
  then do l <- get_lane g (v_lane_index v); Ok (Rleb (l_length l - 4 * V_LENGTH) (fst (l_local l (v_pos v))))
  else Ok false.
Definition clear_keep (g : graph) (ctl : list nat) (v : vehicle) : res bool :=
  if existsb (Nat.eqb (v_id v)) ctl then Ok true
  else do b <- is_leaving g v; Ok (negb (b || match v_route v with None => true | Some _ => false end)).
Fixpoint filterM {A : Type} (f : A -> res bool) (l : list A) : res (list A) :=
  match l with
  | [] => Ok []
  | x :: l' => do b <- f x; do r <- filterM f l'; Ok (if b then x :: r else r)
  end.
Definition clear_vehicles (ctl : list nat) (rd : road) : res road :=
  do vs <- filterM (clear_keep (rd_net rd) ctl) (rd_vehicles rd); Ok (set_vehicles rd vs).

(** Lines 172-173: three seconds of traffic. *)
Definition warm_frame (dt : R) (d : draws) (rd : road) (t : nat) : res road :=
  do rd1 <- road_act (dr_frame d t) rd; regulated_step YIELD_DURATION rd1 dt.
(** Lines 178-199: one controlled vehicle.  The speed attributes are assigned on the
    instance.  Only MDP vehicles can plan a route. *)
Definition ego_grid : speed_grid := SpeedGrid 0 9 3.
Definition intersection_ego (cs : classes) (cf : common) (destination : option string) (d : draws) (st : road * list nat) (k : nat) : res (road * list nat) :=
  let '(rd, ctl) := st in
  let g := rd_net rd in
  do l <- get_lane g (corner_name "o" k, corner_name "ir" k, Some 0%Z);
  let dest := match truthy_node destination with Some s => s | None => corner_name "o" (1 + dr_int d k 3%nat) end in
  let id := fresh_id rd ctl in
  do e <- new_ego cs (ego_kind cf) g id (l_position l (60 + 5 * dr_normal d (1000 + k)) 0) (l_heading l 60) (l_speed_limit l);
  if negb (is_controlled (ego_kind cf)) then Err AttributeError
  else
    do e <- plan_route_to g (dr_ord d) e dest;
    let e := set_grid e ego_grid in
    let idx := speed_to_index ego_grid (l_speed_limit l) in
    let e := set_target_speed (set_speed_index e idx) (index_to_speed ego_grid idx) in
    let rd := add_vehicle rd e in
    Ok (set_vehicles rd (purge (too_close e) (rd_vehicles rd)), (ctl ++ [id])%list).
(** [np.linspace(0, 80, n)[t]]. *)
Definition spawn_place (n t : nat) : R := 80 * INR t / INR (n - 1).
Definition intersection_reset (cs : classes) (cf : common) (controlled vehicles : nat) (destination : option string) (d : draws) : res (classes * env) :=
  let cs' := set_tuning cs (cf_traffic cf) tuning_intersection in
  let c := cf_traffic cf in
  do rd <- foldM (fun rd t => spawn cs' c d t [] (spawn_place vehicles t) 1 1 (6/10) false rd) (seq 0 (vehicles - 1)) (empty_road intersection_net cf);
  do rd <- foldM (warm_frame (1 / INR (cf_simulation cf)) d) (seq 0 (3 * cf_simulation cf)) rd;
  do rd <- spawn cs' c d (vehicles - 1) [] 60 (1/10) 0 1 true rd;
  do (rd, ctl) <- foldM (intersection_ego cs' cf destination d) (seq 0 controlled) (rd, []);
  Ok (cs', fresh_env rd ctl).
(** Lines 91-97 [step]: the generic step, then clearing and spawning. *)
Definition intersection_step (cs : classes) (c : traffic_class) (probability : R) (sc : scenario) (o : oracle) (d : draws) (e : env) (a : agent_action) : res env :=
  do e1 <- env_step sc o e a;
  do rd <- clear_vehicles (e_controlled e1) (e_road e1);
  do rd <- spawn cs c d 0 (e_controlled e1) 0 1 1 probability false rd;
  Ok (set_road e1 rd).

(** ** lane_keeping_env.py:78-104: the environment, its current lane and the lanes to come. *)
Definition lane_keeping_reset (cs : classes) (cf : common) : res (lane * list lane * env) :=
  let rd := empty_road lane_keeping_net cf in
  do l <- get_lane (rd_net rd) ("c", "d", Some 0%Z);
  let id := fresh_id rd [] in
  do e <- new_ego cs (ego_kind cf) (rd_net rd) id (l_position l 50 (-4)) (l_heading l 0) (83/10);
  Ok (lane_keeping_straight, [lane_keeping_sine], fresh_env (add_vehicle rd e) [id]).

(** ** All environments *)
Inductive scene : Type :=
| SHighway (h : highway_scene)
| STwoWay
| SMerge
| SParking (controlled : nat) (duration : R)
| SSummon (vehicles : nat) (duration : R)
| SRoundabout (duration : R) (incoming : option Z)
| SIntersection (c : intersection_config) (controlled vehicles : nat) (destination : option string) (probability : R).
(** summon_env.py:105-117: the end of the episode uses the current crash state of
    [self.vehicle]. *)
Definition summon_terminal (goal : object) (duration : R) (e : env) : res bool :=
  do v <- ego e; parking_terminal (summon_compute (v_crashed v)) goal duration e.
Definition summon_scenario (goal : object) (duration sim pol : R) (manual : bool) (act : action_type) : scenario :=
  Scenario sim pol manual act false (summon_terminal goal duration).
(** [env.reset()]: the class attributes of the process, how the episode runs, and the
    environment. *)
Definition reset (cs : classes) (cf : common) (s : scene) (d : draws) : res (classes * scenario * env) :=
  let sim := INR (cf_simulation cf) in
  let pol := cf_policy cf in
  let man := cf_manual cf in
  let act := cf_action cf in
  match s with
  | SHighway h => do e <- highway_reset cs cf h d; Ok (cs, highway_scenario (hs_cfg h) sim pol man act, e)
  | STwoWay => do e <- two_way_reset cs cf d; Ok (cs, two_way_scenario sim pol man act, e)
  | SMerge => do e <- merge_reset cs cf; Ok (cs, merge_scenario sim pol man act, e)
  | SParking n duration => do (goal, e) <- parking_reset cs cf n d; Ok (cs, parking_scenario parking_compute goal duration sim pol man act, e)
  | SSummon n duration => do (goal, e) <- summon_reset cs cf n d; Ok (cs, summon_scenario goal duration sim pol man act, e)
  | SRoundabout duration incoming => do (cs', e) <- roundabout_reset cs cf incoming d; Ok (cs', roundabout_scenario duration sim pol man act, e)
  | SIntersection c n m dest _ => do (cs', e) <- intersection_reset cs cf n m dest d; Ok (cs', intersection_scenario c sim pol man act, e)
  end.
(** [env.step(action)]. *)
Definition scene_step (cs : classes) (cf : common) (s : scene) (sc : scenario) (o : oracle) (d : draws) (e : env) (a : agent_action) : res env :=
  match s with
  | SIntersection _ _ _ _ prob => intersection_step cs (cf_traffic cf) prob sc o d e a
  | _ => env_step sc o e a
  end.

(** ** A process with several environments *)
(** Class attributes are looked up at every use: what the vehicles of an environment
    see when the class store is [cs].  The controlled vehicles of the intersection have
    their own speed grid. *)
Definition look_up (cs : classes) (c : traffic_class) (own_grid : bool) (v : vehicle) : vehicle :=
  match v_kind v with
  | KIDM | KLinear => set_par v (tuned (v_par v) (tuning_of cs c))
  | KMDP => if own_grid then v else set_grid v (cl_grid cs)
  | _ => v
  end.
Definition has_own_grid (s : scene) : bool := match s with SIntersection _ _ _ _ _ => true | _ => false end.
Definition seen_env (cs : classes) (cf : common) (s : scene) (e : env) : env :=
  set_road e (set_vehicles (e_road e) (map (look_up cs (cf_traffic cf) (has_own_grid s)) (rd_vehicles (e_road e)))).
(** An environment of the process, after its first reset. *)
Record instance : Type := Instance { in_cf : common; in_scene : scene; in_scenario : scenario; in_env : env }.
Inductive operation : Type :=
| OReset (k : nat) (cf : common) (s : scene) (d : draws)
| OStep (k : nat) (o : oracle) (d : draws) (a : agent_action).
Definition process : Type := (classes * list (nat * instance))%type.
Fixpoint lookup_env (k : nat) (l : list (nat * instance)) : option instance :=
  match l with [] => None | (k', i) :: l' => if Nat.eqb k k' then Some i else lookup_env k l' end.
Definition run_op (ps : process) (op : operation) : res process :=
  let '(cs, envs) := ps in
  match op with
  | OReset k cf s d => do (cse, e) <- reset cs cf s d; Ok (fst cse, (k, Instance cf s (snd cse) e) :: envs)
  | OStep k o d a =>
      match lookup_env k envs with
      | None => Err AttributeError
      | Some i =>
          do e <- scene_step cs (in_cf i) (in_scene i) (in_scenario i) o d (seen_env cs (in_cf i) (in_scene i) (in_env i)) a;
          Ok (cs, (k, Instance (in_cf i) (in_scene i) (in_scenario i) e) :: envs)
      end
  end.
Definition run_ops (ps : process) (ops : list operation) : res process := foldM run_op ops ps.
