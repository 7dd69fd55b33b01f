(** Specification of the time-to-collision grid, in terms of time, gaps and lanes. *)
From Verif Require Import Prelude M_Lane M_Road M_Vehicle M_Kinematics M_Control.
Open Scope R_scope.

(** A numpy array of [v] layers of [l] rows of [t] numbers. *)
Definition dims (v l t : nat) (g : list (list (list R))) : Prop :=
  List.length g = v /\ Forall (fun p => List.length p = l /\ Forall (fun r => List.length r = t) p) g.

(** Rate at which a gap closes, kept away from zero: [r], or one hundredth in its direction. *)
Definition closing_rate (r k : R) : Prop :=
  (1/100 < Rabs r /\ k = r) \/ (0 < r <= 1/100 /\ k = 1/100) \/ (-1/100 <= r <= 0 /\ k = -1/100).

(** A gap closing at a constant rate vanishes at some time [t >= 0] less than a time step
    away from the [j]th time. *)
Definition vanishes (gap rate tq : R) (j : nat) : Prop :=
  exists t, 0 <= t /\ t * rate = gap /\ Rabs (t - INR j * tq) < tq.

(** Number of lanes of the road of a lane index. *)
Definition lanes_count (g : graph) (i : lane_index) (n : nat) : Prop :=
  exists d ls, assoc (li_from i) g = Some d /\ assoc (li_to i) d = Some ls /\ List.length ls = n.

(** Lane [i] of the grid may hold [other]: its own lane if its road has as many lanes as
    the observer's, any lane otherwise. *)
Definition may_occupy (g : graph) (v other : vehicle) (i : nat) : Prop :=
  exists no nv, lanes_count g (v_lane_index other) no /\ lanes_count g (v_lane_index v) nv /\
    (no = nv -> li_id (v_lane_index other) = Some (Z.of_nat i)).

(** Driving at [speed] along its lane, the observer [v] would meet [other], shifted by [m]
    along the lane and keeping its own speed, in lane [i] around time [j]. *)
Definition would_meet (net : graph) (v other : vehicle) (tq speed m : R) (i j : nat) : Prop :=
  is_connected_road net (v_lane_index v) (v_lane_index other) (match v_route v with Some r => r | None => [] end) false 3 = true /\
  may_occupy net v other i /\
  exists gap rate, lane_distance_to net v (EV other) = Ok gap /\
    closing_rate (speed - v_speed other * vdot (e_direction (EV other)) (e_direction (EV v))) rate /\ vanishes (gap + m) rate tq j.
(** A lane id that is not negative. *)
Definition proper_id (i : lane_index) : Prop := match li_id i with Some k => (0 <= k)%Z | None => True end.

(** Deterministic motion in the grid. *)
Inductive grid_move (v l t : Z) : meta_action -> (Z * Z * Z) -> (Z * Z * Z) -> Prop :=
| move_idle : forall h i j, grid_move v l t IDLE (h, i, j) (h, i, Z.min (j + 1) (t - 1))
| move_left : forall h i j, grid_move v l t LANE_LEFT (h, i, j) (h, Z.max (i - 1) 0, Z.min (j + 1) (t - 1))
| move_right : forall h i j, grid_move v l t LANE_RIGHT (h, i, j) (h, Z.min (i + 1) (l - 1), Z.min (j + 1) (t - 1))
| move_faster : forall h i, grid_move v l t FASTER (h, i, 0%Z) (Z.min (h + 1) (v - 1), i, Z.min 1 (t - 1))
| move_slower : forall h i, grid_move v l t SLOWER (h, i, 0%Z) (Z.max (h - 1) 0, i, Z.min 1 (t - 1))
| move_too_late : forall a h i j, (a = FASTER \/ a = SLOWER) -> j <> 0%Z -> grid_move v l t a (h, i, j) (h, i, Z.min (j + 1) (t - 1)).
Definition in_grid (v l t : Z) (s : Z * Z * Z) : Prop :=
  let '(h, i, j) := s in (0 <= h < v /\ 0 <= i < l /\ 0 <= j < t)%Z.
