(** Model of vehicle/controller.py *)
From Verif Require Import Prelude M_Utils M_Lane M_Road M_Vehicle M_Kinematics.
Open Scope R_scope.

(** High-level actions (action.py:143-164 labels; controller.py:85-98).  Any
    other string behaves like IDLE; a dict reaching [ControlledVehicle.act] too. *)
Inductive meta_action : Type := LANE_LEFT | IDLE | LANE_RIGHT | FASTER | SLOWER.

(** python [x or default] on an optional float: None and 0.0 are falsy. *)
Definition float_or (x : option R) (default : R) : R :=
  match x with None => default | Some v => if Reqb v 0 then default else v end.

(** controller.py:31-42 [ControlledVehicle.__init__]. *)
Definition new_controlled (g : graph) (id : nat) (p : vec) (heading speed : R)
  (target_lane : option lane_index) (target_speed : option R) (rt : option route) : res vehicle :=
  do v <- new_vehicle g id p heading speed;
  let tl := match target_lane with Some i => i | None => v_lane_index v end in
  let ts := float_or target_speed speed in
  Ok (Vehicle id KControlled p heading speed (v_lane_index v) 0 0 false true [] tl ts rt 0%Z
        grid_default true 0 idm_default false 0%Z false).

(** controller.py:45-57 [create_from]. *)
Definition controlled_create_from (g : graph) (id : nat) (v : vehicle) : res vehicle :=
  new_controlled g id (v_pos v) (v_heading v) (v_speed v) (Some (v_target_lane v))
    (Some (v_target_speed v)) (v_route v).

(** controller.py:70: consecutive pairs of a node path, with lane id None. *)
Fixpoint path_route (path : list string) : route :=
  match path with
  | a :: ((b :: _) as rest) => (a, b, None) :: path_route rest
  | _ => []
  end.
(** controller.py:59-73 [plan_route_to]; KeyError is caught. *)
Definition plan_route_to (g : graph) ord (v : vehicle) (destination : string) : res vehicle :=
  match shortest_path g ord (li_to (v_lane_index v)) destination with
  | Ok (n :: path) => Ok (set_route v (Some (v_lane_index v :: path_route (n :: path))))
  | Ok [] | Err KeyError => Ok (set_route v (Some [v_lane_index v]))
  | Err e => Err e
  end.

(** controller.py:105-111 [follow_road].  [next_lane] pops the route in place. *)
Definition follow_road (g : graph) (draw : nat -> nat) (v : vehicle) : res vehicle :=
  do l <- get_lane g (v_target_lane v);
  if after_end l (v_pos v) None then
    let '(rt', r) := next_lane g (v_target_lane v)
                       (match v_route v with Some rt => rt | None => [] end) (v_pos v) draw in
    do i <- r;
    let v1 := match v_route v with Some _ => set_route v (Some rt') | None => v end in
    Ok (set_target_lane v1 i)
  else Ok v.

(** controller.py:126-140: the steering law, given the target lane. *)
Definition steering_law (l : lane) (p : vec) (heading speed : R) : R :=
  let '(s, d) := l_local l p in
  let s_next := s + speed * PURSUIT_TAU in
  let future_heading := l_heading l s_next in
  let lateral_speed := - KP_LATERAL * d in
  let heading_command := asin (Rclip (lateral_speed / not_zero speed not_zero_eps) (-1) 1) in
  let heading_ref := future_heading + Rclip heading_command (- (PI/4)) (PI/4) in
  let heading_rate := KP_HEADING * wrap_to_pi (heading_ref - heading) in
  let steering := asin (Rclip (V_LENGTH / 2 / not_zero speed not_zero_eps * heading_rate) (-1) 1) in
  Rclip steering (- MAX_STEERING_ANGLE) MAX_STEERING_ANGLE.
(** controller.py:113-141 [steering_control]. *)
Definition steering_control (g : graph) (v : vehicle) (i : lane_index) : res R :=
  do l <- get_lane g i; Ok (steering_law l (v_pos v) (v_heading v) (v_speed v)).

(** controller.py:143-152 [speed_control]. *)
Definition speed_control (v : vehicle) (target : R) : R := KP_A * (target - v_speed v).

(** controller.py:89-98: candidate target lane for a lane change by [delta];
    [None + 1] raises TypeError. *)
Definition lane_change_candidate (g : graph) (i : lane_index) (delta : Z) : res lane_index :=
  match li_id i with
  | None => Err TypeError
  | Some k =>
      do ls <- g_lanes g (li_from i) (li_to i);
      Ok (li_from i, li_to i, Some (Zclip (k + delta) 0 (Z.of_nat (List.length ls) - 1)))
  end.
Definition try_lane_change (g : graph) (v : vehicle) (delta : Z) : res vehicle :=
  do i <- lane_change_candidate g (v_target_lane v) delta;
  do l <- get_lane g i;
  Ok (if is_reachable_from l (v_pos v) then set_target_lane v i else v).

(** controller.py:85-98: effect of the high-level action on the targets. *)
Definition apply_meta (g : graph) (v : vehicle) (a : option meta_action) : res vehicle :=
  match a with
  | Some FASTER => Ok (set_target_speed v (v_target_speed v + DELTA_SPEED))
  | Some SLOWER => Ok (set_target_speed v (v_target_speed v - DELTA_SPEED))
  | Some LANE_RIGHT => try_lane_change g v 1
  | Some LANE_LEFT => try_lane_change g v (-1)
  | _ => Ok v
  end.

(** controller.py:100-103: low-level control ([super().act(action)] stores the
    dict, which is non-empty hence truthy). *)
Definition low_level (g : graph) (v : vehicle) : res vehicle :=
  do st <- steering_control g v (v_target_lane v);
  Ok (set_action v (Rclip st (- MAX_STEERING_ANGLE) MAX_STEERING_ANGLE)
        (speed_control v (v_target_speed v))).

(** controller.py:75-103 [ControlledVehicle.act]. *)
Definition controlled_act (g : graph) (draw : nat -> nat) (v : vehicle) (a : option meta_action) : res vehicle :=
  do v1 <- follow_road g draw v;
  do v2 <- apply_meta g v1 a;
  low_level g v2.

(** controller.py:240-250 [index_to_speed]. *)
Definition index_to_speed (sg : speed_grid) (k : Z) : R :=
  if (1 <? sg_count sg)%Z
  then sg_min sg + IZR k * (sg_max sg - sg_min sg) / IZR (sg_count sg - 1)
  else sg_min sg.

(** controller.py:252-260 [speed_to_index] (= 262-271 [speed_to_index_default]).
    With SPEED_MAX = SPEED_MIN the division raises. *)
Definition speed_to_index (sg : speed_grid) (speed : R) : Z :=
  let x := (speed - sg_min sg) / (sg_max sg - sg_min sg) in
  Zclip (Rround_even (x * IZR (sg_count sg - 1))) 0 (sg_count sg - 1).

(** controller.py:208-218 [MDPVehicle.__init__]. *)
Definition new_mdp (g : graph) (sg : speed_grid) (id : nat) (p : vec) (heading speed : R)
  (target_lane : option lane_index) (target_speed : option R) (rt : option route) : res vehicle :=
  do v <- new_controlled g id p heading speed target_lane target_speed rt;
  let k := speed_to_index sg (v_target_speed v) in
  Ok (Vehicle id KMDP p heading speed (v_lane_index v) 0 0 false true [] (v_target_lane v)
        (index_to_speed sg k) rt k sg true 0 idm_default false 0%Z false).

(** controller.py:229-237: speed-level update of MDPVehicle. *)
Definition mdp_set_index (v : vehicle) (k : Z) : vehicle :=
  let k' := Zclip k 0 (sg_count (v_grid v) - 1) in
  set_target_speed (set_speed_index v k') (index_to_speed (v_grid v) k').

(** controller.py:220-238 [MDPVehicle.act]. *)
Definition mdp_act (g : graph) (draw : nat -> nat) (v : vehicle) (a : option meta_action) : res vehicle :=
  match a with
  | Some FASTER => controlled_act g draw (mdp_set_index v (speed_to_index (v_grid v) (v_speed v) + 1)%Z) None
  | Some SLOWER => controlled_act g draw (mdp_set_index v (speed_to_index (v_grid v) (v_speed v) - 1)%Z) None
  | _ => controlled_act g draw v a
  end.

(** controller.py:158-166: the first of the first three route elements whose end
    node has at least two successors, with those successors. *)
Fixpoint find_intersection (g : graph) (fuel : nat) (pre rt : route) : option (route * lane_index * list string) :=
  match fuel, rt with
  | S fuel', r0 :: rt' =>
      match assoc (li_to r0) g with
      | Some d => if Nat.leb 2 (List.length d) then Some (pre ++ [r0], r0, keys d)
                  else find_intersection g fuel' (pre ++ [r0]) rt'
      | None => find_intersection g fuel' (pre ++ [r0]) rt'
      end
  | _, _ => None
  end.
(** controller.py:154-170 [get_routes_at_intersection]. *)
Definition get_routes_at_intersection (g : graph) (rt : option route) : list route :=
  match rt with
  | None | Some [] => []
  | Some rt =>
      match find_intersection g 3 [] rt with
      | None => [rt]
      | Some (pre, r, dests) => map (fun d => pre ++ [(li_to r, d, li_id r)]) dests
      end
  end.
(** controller.py:172-185 [set_route_at_intersection] with an integer argument. *)
Definition set_route_at_intersection (g : graph) (v : vehicle) (to : Z) : vehicle :=
  let routes := get_routes_at_intersection g (v_route v) in
  match routes with
  | [] => v
  | r0 :: _ =>
      set_route v (Some (nth (Z.to_nat (to mod Z.of_nat (List.length routes))) routes r0))
  end.

(** controller.py:187-197 [predict_trajectory_constant_speed]. *)
Definition predict_constant_speed (g : graph) (v : vehicle) (times : list R) : res (list (vec * R)) :=
  do l <- get_lane g (v_lane_index v);
  let s := fst (l_local l (v_pos v)) in
  let rt := match v_route v with Some (r0 :: rt) => r0 :: rt | _ => [v_lane_index v] end in
  mapM (fun t => position_heading_along_route g rt (s + v_speed v * t) 0) times.

(** controller.py:277-299 [predict_trajectory]: one simulation tick. *)
Definition predict_tick (g : graph) draw (dt : R) (v : vehicle) : res vehicle :=
  do v1 <- mdp_act g draw v None; vehicle_step g false v1 dt.
(** controller.py:293-298: [n] remaining ticks of the current action, [save] =
    int(trajectory_timestep/dt), [t] the global tick counter.  [t % 0] raises. *)
Fixpoint predict_ticks (g : graph) draw (dt : R) (save : nat) (n : nat) (t : nat) (v : vehicle)
  : res (nat * vehicle * list vehicle) :=
  match n with
  | O => Ok (t, v, [])
  | S n' =>
      let t' := S t in
      do v1 <- predict_tick g draw dt v;
      match save with
      | O => Err ZeroDivisionError
      | _ =>
          do (tv, out) <- predict_ticks g draw dt save n' t' v1;
          Ok (tv, if Nat.eqb (t' mod save) 0 then v1 :: out else out)
      end
  end.
Fixpoint predict_actions (g : graph) draw (dt : R) (save ticks : nat) (actions : list meta_action) (t : nat) (v : vehicle)
  : res (list vehicle) :=
  match actions with
  | [] => Ok []
  | a :: rest =>
      do v1 <- mdp_act g draw v (Some a);
      do (tv, out) <- predict_ticks g draw dt save ticks t v1;
      do out2 <- predict_actions g draw dt save ticks rest (fst tv) (snd tv);
      Ok (out ++ out2)
  end.
(** controller.py:277-299 [predict_trajectory] (history recording off). *)
Definition predict_trajectory (g : graph) draw (v : vehicle) (actions : list meta_action)
  (action_duration trajectory_timestep dt : R) : res (list vehicle) :=
  predict_actions g draw dt (Z.to_nat (Rtrunc (trajectory_timestep / dt)))
    (Z.to_nat (Rtrunc (action_duration / dt))) actions 0 v.
