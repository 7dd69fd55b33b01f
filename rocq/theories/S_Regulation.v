(** Specification vocabulary for regulated roads. *)
From Verif Require Import Prelude M_Utils M_Lane M_Road M_Vehicle M_Kinematics M_Control M_Behavior M_Regulation
  S_Geometry S_Road S_Control S_Behavior.
Open Scope R_scope.

(** The pose of a vehicle after [t] seconds at constant speed along its route. *)
Definition future_pose (g : graph) (v : vehicle) (t : R) (p : vec) (h : R) : Prop :=
  exists l, get_lane g (v_lane_index v) = Ok l /\
    position_heading_along_route g (match v_route v with Some (r0 :: rt) => r0 :: rt | _ => [v_lane_index v] end)
      (fst (l_local l (v_pos v)) + v_speed v * t) 0 = Ok (p, h).

(** At one of the eleven instants 0.25, 0.5, ..., 2.75 s the predicted centres are
    within 5 m and the predicted (7.5 m x 1.8 m) boxes intersect. *)
Definition conflict (g : graph) (v w : vehicle) : Prop :=
  exists k p h q h', (1 <= k <= 11)%nat /\ future_pose g v (INR k / 4) p h /\ future_pose g w (INR k / 4) q h' /\
    dist2 p q <= 5 /\ rotated_rectangles_intersect (Rect p (75/10) (18/10) h) (Rect q (75/10) (18/10) h') = true.

(** Of two conflicting vehicles, the one on the lane of lower priority yields; with
    equal priorities, the one that has the other further ahead of itself; [b_first]
    tells which of them comes first in the list of vehicles (it only matters for
    exact ties). *)
Definition yields_to (g : graph) (v w : vehicle) (v_comes_second : bool) : Prop :=
  exists lv lw, get_lane g (v_lane_index v) = Ok lv /\ get_lane g (v_lane_index w) = Ok lw /\
    ((l_priority lv < l_priority lw)%Z \/
     l_priority lv = l_priority lw /\
     (front_distance_to w v < front_distance_to v w \/
      front_distance_to w v = front_distance_to v w /\ v_comes_second = true)).

(** The vehicle at rank [i] has a conflict with some other vehicle it must yield to. *)
Definition must_yield (rd : road) (i : nat) (v : vehicle) : Prop :=
  exists j w, j <> i /\ nth_error (rd_vehicles rd) j = Some w /\ conflict (rd_net rd) v w /\ yields_to (rd_net rd) v w (Nat.ltb j i).
(** Controlled vehicles other than MDP vehicles. *)
Definition stoppable (v : vehicle) : Prop := v_kind v = KControlled \/ v_kind v = KIDM \/ v_kind v = KLinear.

(** The lanes of every planned road can be looked up. *)
Definition route_resolvable (g : graph) (v : vehicle) : Prop :=
  match v_route v with Some rt => Forall (fun i => exists l, get_lane g i = Ok l) rt | None => True end.

(** Bookkeeping of a vehicle on a regulated road. *)
Definition yield_state_ok (v : vehicle) : Prop :=
  v_is_yielding v = true -> v_has_color v = true /\ (0 <= v_yield_timer v)%Z.

(** A regulated road in which the simulation can run. *)
Definition regulated (rd : road) : Prop :=
  runnable rd /\ (forall v, In v (rd_vehicles rd) -> is_controlled (v_kind v) = true /\ route_resolvable (rd_net rd) v /\ yield_state_ok v).

(** Successive frames of a regulated road. *)
Inductive simulates_regulated (yd dt : R) : road -> list road -> Prop :=
| sr_nil : forall rd, simulates_regulated yd dt rd []
| sr_cons : forall rd draws rd1 rd2 frames,
    (forall i, draw_ok (draws i)) -> road_act draws rd = Ok rd1 -> regulated_step yd rd1 dt = Ok rd2 ->
    simulates_regulated yd dt rd2 frames -> simulates_regulated yd dt rd (rd2 :: frames).
