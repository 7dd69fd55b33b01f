(** Property theorems C07-C10 (lane.py). *)
From Verif Require Import Prelude M_Utils M_Lane S_Geometry P_Base P_Utils P_Lane.
From Coq Require Import Lra.
Open Scope R_scope.

(** ** C07: straight and sine lanes *)
Theorem C07_straight_roundtrip_world : forall st en p, st <> en ->
  let g := GStraight st en in
  geom_position g (fst (geom_local g p)) (snd (geom_local g p)) = p.
Proof. intros st en p H. exact (position_of_local (GStraight st en) p H). Qed.
Print Assumptions C07_straight_roundtrip_world.
Theorem C07_straight_roundtrip_lane : forall st en s d, st <> en ->
  geom_local (GStraight st en) (geom_position (GStraight st en) s d) = (s, d).
Proof. exact local_of_position_straight. Qed.
Print Assumptions C07_straight_roundtrip_lane.
Theorem C07_sine_roundtrip_world : forall st en a pu ph p, st <> en ->
  let g := GSine st en a pu ph in
  geom_position g (fst (geom_local g p)) (snd (geom_local g p)) = p.
Proof. intros st en a pu ph p H. exact (position_of_local (GSine st en a pu ph) p H). Qed.
Print Assumptions C07_sine_roundtrip_world.
Theorem C07_sine_roundtrip_lane : forall st en a pu ph s d, st <> en ->
  geom_local (GSine st en a pu ph) (geom_position (GSine st en a pu ph) s d) = (s, d).
Proof. exact local_of_position_sine. Qed.
Print Assumptions C07_sine_roundtrip_lane.
(** Straight lane coordinates preserve Euclidean distances, start at the start
    point and reach the end point at s = length. *)
Theorem C07_straight_isometry : forall st en s d s' d', st <> en ->
  dist2 (geom_position (GStraight st en) s d) (geom_position (GStraight st en) s' d')
  = sqrt ((s - s')^2 + (d - d')^2).
Proof. exact straight_isometry. Qed.
Print Assumptions C07_straight_isometry.
Theorem C07_straight_ends : forall st en, st <> en ->
  geom_position (GStraight st en) 0 0 = st /\
  geom_position (GStraight st en) (geom_length (GStraight st en)) 0 = en.
Proof. exact straight_ends. Qed.
Print Assumptions C07_straight_ends.
Example C07_nonvacuous : ((0, 0) : vec) <> (100, 4).
Proof. intros E. injection E as E1 E2. lra. Qed.

(** ** C08: circular lanes *)
Theorem C08_circular_roundtrip_world : forall c r sp ep cw p, 0 < r ->
  let g := GCircular c r sp ep cw in
  geom_position g (fst (geom_local g p)) (snd (geom_local g p)) = p.
Proof. intros c r sp ep cw p H. exact (position_of_local (GCircular c r sp ep cw) p H). Qed.
Print Assumptions C08_circular_roundtrip_world.
(** With dir = +1 clockwise, -1 otherwise; r - d*dir is the distance to the centre. *)
Theorem C08_circular_roundtrip_lane : forall c r sp ep (cw : bool) s d, 0 < r ->
  let dir := if cw then 1 else -1 in
  0 < r - d * dir ->
  let g := GCircular c r sp ep cw in
  geom_local g (geom_position g s d) = (s, d) <-> - PI <= dir * s / r < PI.
Proof. intros c r sp ep cw s d H dir H'. exact (local_of_position_circular_iff c r sp ep cw s d H H'). Qed.
Print Assumptions C08_circular_roundtrip_lane.
(** Beyond half a turn the longitudinal coordinate is off by full turns only:
    it is the travelled phase wrapped to [-pi, pi) times the radius. *)
Theorem C08_circular_wraps : forall c r sp ep (cw : bool) s d, 0 < r ->
  let dir := if cw then 1 else -1 in
  0 < r - d * dir ->
  let g := GCircular c r sp ep cw in
  geom_local g (geom_position g s d) = (dir * wrap_to_pi (dir * s / r) * r, d).
Proof. intros c r sp ep cw s d H dir H'. exact (local_of_position_circular c r sp ep cw s d H H'). Qed.
Print Assumptions C08_circular_wraps.
(** A three-quarter-turn arc: its end point is given a NEGATIVE longitudinal
    coordinate, hence lies "before" the start of the lane. *)
Theorem C08_long_arc_wraps : exists g s,
  0 <= s <= geom_length g /\ fst (geom_local g (geom_position g s 0)) < 0.
Proof. exact long_arc_negative. Qed.
Print Assumptions C08_long_arc_wraps.
Example C08_nonvacuous : 0 < 20 /\ 0 < 20 - 2 * 1 /\ - PI <= 1 * 30 / 20 < PI.
Proof. pose proof PI2_3_2. pose proof PI_RGT_0. lra. Qed.

(** ** C09: tangents *)
Theorem C09_straight_tangent : forall st en s, st <> en ->
  let g := GStraight st en in
  derivable_pt_lim (fun t => fst (geom_position g t 0)) s (cos (geom_heading g s)) /\
  derivable_pt_lim (fun t => snd (geom_position g t 0)) s (sin (geom_heading g s)).
Proof. exact tangent_straight. Qed.
Print Assumptions C09_straight_tangent.
Theorem C09_circular_tangent : forall c r sp ep cw s, 0 < r ->
  let g := GCircular c r sp ep cw in
  derivable_pt_lim (fun t => fst (geom_position g t 0)) s (cos (geom_heading g s)) /\
  derivable_pt_lim (fun t => snd (geom_position g t 0)) s (sin (geom_heading g s)).
Proof. exact tangent_circular. Qed.
Print Assumptions C09_circular_tangent.
Theorem C09_sine_tangent : forall st en a pu ph s, st <> en ->
  let g := GSine st en a pu ph in
  exists m, 0 < m /\
  derivable_pt_lim (fun t => fst (geom_position g t 0)) s (m * cos (geom_heading g s)) /\
  derivable_pt_lim (fun t => snd (geom_position g t 0)) s (m * sin (geom_heading g s)).
Proof. exact tangent_sine. Qed.
Print Assumptions C09_sine_tangent.
(** Lateral offsets are measured along the left normal of the heading. *)
Theorem C09_straight_normal : forall st en s d, st <> en ->
  let g := GStraight st en in
  geom_position g s d = vadd (geom_position g s 0) (- d * sin (geom_heading g s), d * cos (geom_heading g s)).
Proof. exact lateral_normal_straight. Qed.
Print Assumptions C09_straight_normal.
Theorem C09_circular_normal : forall c r sp ep cw s d,
  let g := GCircular c r sp ep cw in
  geom_position g s d = vadd (geom_position g s 0) (- d * sin (geom_heading g s), d * cos (geom_heading g s)).
Proof. exact lateral_normal_circular. Qed.
Print Assumptions C09_circular_normal.

(** ** C10: lane predicates *)
(** Whatever hints are given, as long as they are absent or correct. *)
Theorem C10_on_lane : forall l p s d margin,
  (s = None \/ s = Some (fst (l_local l p))) -> (d = None \/ d = Some (snd (l_local l p))) ->
  on_lane l p s d margin = true <->
  Rabs (snd (l_local l p)) <= l_width l / 2 + margin /\
  -5 <= fst (l_local l p) < l_length l + 5.
Proof. exact on_lane_iff. Qed.
Print Assumptions C10_on_lane.
Theorem C10_reachable : forall l p,
  is_reachable_from l p = true <->
  l_forbidden l = false /\ Rabs (snd (l_local l p)) <= 2 * l_width l /\
  0 <= fst (l_local l p) < l_length l + 5.
Proof. exact reachable_iff. Qed.
Print Assumptions C10_reachable.
Theorem C10_after_end : forall l p s, (s = None \/ s = Some (fst (l_local l p))) ->
  after_end l p s = true <-> l_length l - 5/2 < fst (l_local l p).
Proof. exact after_end_iff. Qed.
Print Assumptions C10_after_end.
Theorem C10_distance : forall l p, 0 <= l_distance l p /\
  (0 <= l_length l ->
   (l_distance l p = 0 <-> snd (l_local l p) = 0 /\ 0 <= fst (l_local l p) <= l_length l)).
Proof. intros l p. exact (conj (distance_nonneg l p) (distance_zero_iff l p)). Qed.
Print Assumptions C10_distance.
(** The zero set of the distance is the centre line segment (for circular lanes,
    the part of it within half a turn of the start). *)
Theorem C10_distance_zero_on_curve : forall l p, wf_geom (l_geom l) -> 0 <= l_length l ->
  l_distance l p = 0 -> exists s, 0 <= s <= l_length l /\ p = l_position l s 0.
Proof.
  intros [g w lt fb sl pr] p Hg. exact (distance_zero_curve g w lt fb sl pr p Hg).
Qed.
Print Assumptions C10_distance_zero_on_curve.
Theorem C10_curve_at_distance_zero : forall l s, wf_geom (l_geom l) ->
  (forall c r sp ep cw, l_geom l = GCircular c r sp ep cw -> - PI <= circ_dir cw * s / r < PI) ->
  0 <= s <= l_length l -> l_distance l (l_position l s 0) = 0.
Proof. exact curve_distance_zero. Qed.
Print Assumptions C10_curve_at_distance_zero.
Theorem C10_distance_with_heading : forall l p h w, 0 <= w ->
  l_distance l p <= l_distance_with_heading l p (Some h) w <= l_distance l p + w * PI /\
  l_distance_with_heading l p None w = l_distance l p.
Proof. intros l p h w H. exact (conj (distance_heading_bounds l p h w H) eq_refl). Qed.
Print Assumptions C10_distance_with_heading.
Example C10_nonvacuous :
  let l := default_lane (GStraight (0, 0) (100, 0)) in
  wf_geom (l_geom l) /\ 0 <= l_length l /\ on_lane l (50, 1) None None 0 = true.
Proof. exact default_lane_example. Qed.
