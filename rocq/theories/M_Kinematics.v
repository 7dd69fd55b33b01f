(** Model of vehicle/kinematics.py and of class Road, road/road.py:233-319 *)
From Verif Require Import Prelude M_Utils M_Lane M_Road M_Vehicle.
Open Scope R_scope.

(** kinematics.py:37-51 [Vehicle.__init__] on a road (the [road=None] case is not
    modelled).  [id] is the identity of the new object. *)
Definition new_vehicle (g : graph) (id : nat) (p : vec) (heading speed : R) : res vehicle :=
  do i <- get_closest_lane_index g p (Some heading);
  Ok (Vehicle id KVehicle p heading speed i 0 0 false true [] i speed None 0%Z grid_default true 0
        idm_default false 0%Z false).

(** kinematics.py:54-67 [make_on_lane]: [speed=None] means the speed limit. *)
Definition make_on_lane (g : graph) (id : nat) (i : lane_index) (s : R) (speed : option R) : res vehicle :=
  do l <- get_lane g i;
  let sp := match speed with None => l_speed_limit l | Some x => x end in
  new_vehicle g id (l_position l s 0) (l_heading l s) sp.

(** objects.py:36-46 [RoadObject.make_on_lane]: the heading is passed as third
    positional argument of [cls(road, position, speed, heading)] (objects.py:21),
    i.e. as the SPEED; the heading keeps its default 0. *)
Definition object_make_on_lane (g : graph) (id : nat) (k : okind) (i : lane_index) (s : R) : res object :=
  do l <- get_lane g i;
  Ok (Object id k (l_position l s 0) (l_heading l s) 0 false).

(** kinematics.py:140-149 [clip_actions] (mutates the stored action). *)
Definition clip_actions (v : vehicle) : vehicle :=
  let st := if v_crashed v then 0 else v_steering v in
  let ac := if v_crashed v then -1 * v_speed v else v_accel v in
  let ac' := if Rltb MAX_SPEED (v_speed v) then Rmin ac (1 * (MAX_SPEED - v_speed v))
             else if Rltb (v_speed v) (- MAX_SPEED) then Rmax ac (1 * (MAX_SPEED - v_speed v))
             else ac in
  set_action v st ac'.

(** kinematics.py:132 slip angle. *)
Definition slip (delta_f : R) : R := atan (1 / 2 * tan delta_f).

(** kinematics.py:130-137: the integration, after clipping. *)
Definition integrate (v : vehicle) (dt : R) : vehicle :=
  let beta := slip (v_steering v) in
  let vel := vscal (v_speed v) (cos (v_heading v + beta), sin (v_heading v + beta)) in
  set_pose v (vadd (v_pos v) (vscal dt vel))
    (v_heading v + v_speed v * sin beta / (V_LENGTH / 2) * dt)
    (v_speed v + v_accel v * dt).

(** [deque(maxlen=30).appendleft]. *)
Definition push_history (h : list snapshot) (x : snapshot) : list snapshot :=
  firstn HISTORY_LEN (x :: h).

(** kinematics.py:151-156 [on_state_update]. *)
Definition on_state_update (g : graph) (record : bool) (v : vehicle) : res vehicle :=
  do i <- get_closest_lane_index g (v_pos v) (Some (v_heading v));
  let v1 := set_lane_index v i in
  Ok (if record
      then set_history v1 (push_history (v_history v1) (Snapshot (v_pos v1) (v_heading v1) (v_speed v1)))
      else v1).

(** kinematics.py:120-138 [Vehicle.step] (behavior.py:106-115: IDM vehicles
    first advance their timer). *)
Definition vehicle_step (g : graph) (record : bool) (v : vehicle) (dt : R) : res vehicle :=
  let v0 := if is_idm (v_kind v) then set_timer v (v_timer v + dt) else v in
  on_state_update g record (integrate (clip_actions v0) dt).

(** kinematics.py:158-170 [lane_distance_to] with the lane given. *)
Definition lane_distance (l : lane) (p q : vec) : R := fst (l_local l q) - fst (l_local l p).
(** ... and with the default lane, [self.lane]. *)
Definition lane_distance_to (g : graph) (v : vehicle) (e : entity) : res R :=
  do l <- get_lane g (v_lane_index v);
  Ok (lane_distance l (v_pos v) (e_pos e)).

(** kinematics.py:199-205 [_is_colliding]. *)
Definition colliding (p : vec) (h : R) (q : vec) (h' len wid : R) : bool :=
  if Rltb V_LENGTH (vnorm (vsub q p)) then false
  else rotated_rectangles_intersect (Rect p (9/10 * V_LENGTH) (9/10 * V_WIDTH) h)
                                    (Rect q (9/10 * len) (9/10 * wid) h').
Definition is_colliding (v w : vehicle) : bool :=
  colliding (v_pos v) (v_heading v) (v_pos w) (v_heading w) V_LENGTH V_WIDTH.
Definition is_colliding_obj (v : vehicle) (o : object) : bool :=
  colliding (v_pos v) (v_heading v) (o_pos o) (o_heading o) O_LENGTH O_WIDTH.

(** [min([a, b], key=abs)]: the first on ties. *)
Definition min_abs (a b : R) : R := if Rltb (Rabs b) (Rabs a) then b else a.

(** kinematics.py:172-187 [check_collision] with another vehicle: new states of
    self and other. *)
Definition check_collision (v w : vehicle) : vehicle * vehicle :=
  if v_crashed v || Nat.eqb (v_id w) (v_id v) then (v, w)
  else if negb (v_collisions v) || negb (v_collisions w) then (v, w)
  else if is_colliding v w then
    let s := min_abs (v_speed v) (v_speed w) in (set_crash v s, set_crash w s)
  else (v, w).

(** kinematics.py:172-197 [check_collision] with a road object. *)
Definition check_collision_obj (v : vehicle) (o : object) : vehicle * object :=
  if v_crashed v then (v, o)
  else match o_kind o with
       | KObstacle =>
           if negb (v_collisions v) then (v, o)
           else if is_colliding_obj v o then (set_crash v (min_abs (v_speed v) 0), set_hit o)
           else (v, o)
       | KLandmark => if is_colliding_obj v o then (v, set_hit o) else (v, o)
       end.

(** road.py:284-285: self (index [i]) checks vehicle [j], in place. *)
Definition collide_pair (i : nat) (vs : list vehicle) (j : nat) : list vehicle :=
  match nth_error vs i, nth_error vs j with
  | Some v, Some w => let '(v', w') := check_collision v w in update_nth i v' (update_nth j w' vs)
  | _, _ => vs
  end.
(** road.py:286-287: self (index [i]) checks object [k], in place. *)
Definition collide_obj (i : nat) (st : list vehicle * list object) (k : nat)
  : list vehicle * list object :=
  match nth_error (fst st) i, nth_error (snd st) k with
  | Some v, Some o => let '(v', o') := check_collision_obj v o in
                      (update_nth i v' (fst st), update_nth k o' (snd st))
  | _, _ => st
  end.
(** road.py:283-287: body of the outer loop for vehicle [i]. *)
Definition collide_row (st : list vehicle * list object) (i : nat) : list vehicle * list object :=
  let vs := fold_left (collide_pair i) (seq 0 (List.length (fst st))) (fst st) in
  fold_left (collide_obj i) (seq 0 (List.length (snd st))) (vs, snd st).
(** road.py:283-287 the whole collision phase. *)
Definition collide_all (st : list vehicle * list object) : list vehicle * list object :=
  fold_left collide_row (seq 0 (List.length (fst st))) st.

(** road.py:275-287 [Road.step]. *)
Definition road_step (rd : road) (dt : R) : res road :=
  do vs <- mapM (fun v => vehicle_step (rd_net rd) (rd_record rd) v dt) (rd_vehicles rd);
  let '(vs', os') := collide_all (vs, rd_objects rd) in
  Ok (Road (rd_net rd) vs' os' (rd_record rd) (rd_steps rd)).

(** kinematics.py:216-221 [destination]. *)
Definition destination (g : graph) (v : vehicle) : res vec :=
  match v_route v with
  | Some (r0 :: rt) =>
      do l <- get_lane g (last (r0 :: rt) r0);
      Ok (l_position l (l_length l) 0)
  | _ => Ok (v_pos v)
  end.
(** kinematics.py:224-228 [destination_direction]. *)
Definition destination_direction (g : graph) (v : vehicle) : res vec :=
  do d <- destination g v;
  let diff := vsub d (v_pos v) in
  Ok (if Reqb (fst d) (fst (v_pos v)) && Reqb (snd d) (snd (v_pos v)) then (0, 0)
      else vscal (/ vnorm diff) diff).

(** kinematics.py:231-233 [on_road]. *)
Definition on_road (g : graph) (v : vehicle) : res bool :=
  do l <- get_lane g (v_lane_index v); Ok (on_lane l (v_pos v) None None 0).

(** kinematics.py:235-236 [front_distance_to]. *)
Definition front_distance_to (v w : vehicle) : R :=
  vdot (e_direction (EV v)) (vsub (v_pos w) (v_pos v)).

(** road.py:258-268 [close_vehicles_to]; [count = None] and [count = 0] do not
    truncate; a negative count drops from the end. *)
Definition close_filter (v : vehicle) (l : lane) (dist : R) (see_behind : bool) (w : vehicle) : bool :=
  Rltb (vnorm (vsub (v_pos w) (v_pos v))) dist
  && negb (Nat.eqb (v_id w) (v_id v))
  && (see_behind || Rltb (-2 * V_LENGTH) (lane_distance l (v_pos v) (v_pos w))).
Definition py_take {A : Type} (k : Z) (l : list A) : list A :=
  if (0 <=? k)%Z then firstn (Z.to_nat k) l
  else firstn (Z.to_nat (Z.of_nat (List.length l) + k)) l.
Definition close_vehicles_to (rd : road) (v : vehicle) (dist : R) (count : option Z) (see_behind : bool)
  : res (list vehicle) :=
  do l <- get_lane (rd_net rd) (v_lane_index v);
  let vs := filter (close_filter v l dist see_behind) (rd_vehicles rd) in
  let sorted := sort_by (fun w => Rabs (lane_distance l (v_pos v) (v_pos w))) vs in
  Ok (match count with
      | None => sorted
      | Some k => if Z.eqb k 0 then sorted else py_take k sorted
      end).

(** road.py:305-318 loop body of [neighbour_vehicles]: the accumulator holds the
    current front and rear with their longitudinal coordinates. *)
Definition neighbour_acc : Type := (option (R * entity) * option (R * entity))%type.
Definition neighbour_step (l : lane) (id : nat) (s : R) (acc : neighbour_acc) (e : entity) : neighbour_acc :=
  if negb (Nat.eqb (e_id e) id) && negb (is_landmark e) then
    let '(sv, dv) := l_local l (e_pos e) in
    if negb (on_lane l (e_pos e) (Some sv) (Some dv) 1) then acc
    else
      let front := match fst acc with
                   | None => if Rleb s sv then Some (sv, e) else None
                   | Some (sf, _) => if Rleb s sv && Rleb sv sf then Some (sv, e) else fst acc
                   end in
      let rear := match snd acc with
                  | None => if Rltb sv s then Some (sv, e) else None
                  | Some (sr, _) => if Rltb sv s && Rltb sr sv then Some (sv, e) else snd acc
                  end in
      (front, rear)
  else acc.
(** road.py:289-319 [neighbour_vehicles] of the vehicle with identity [id] at
    [p], projected on lane [i]. *)
Definition neighbours_on (rd : road) (id : nat) (p : vec) (i : lane_index)
  : res (option entity * option entity) :=
  do l <- get_lane (rd_net rd) i;
  let s := fst (l_local l p) in
  let '(f, r) := fold_left (neighbour_step l id s) (rd_entities rd) (None, None) in
  Ok (option_map snd f, option_map snd r).
(** [lane_index = lane_index or vehicle.lane_index] (a tuple is truthy). *)
Definition neighbour_vehicles (rd : road) (v : vehicle) (i : option lane_index)
  : res (option entity * option entity) :=
  neighbours_on rd (v_id v) (v_pos v) (match i with Some j => j | None => v_lane_index v end).
