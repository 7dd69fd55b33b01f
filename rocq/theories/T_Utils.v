(** Property theorems C01-C06 (utils.py and the collision tests). *)
From Verif Require Import Prelude M_Utils M_Lane M_Road M_Vehicle M_Kinematics S_Geometry
  P_Base P_Utils P_Collision.
From Coq Require Import Lra.
Open Scope R_scope.

(** ** C01: lmap *)

(** On every non-degenerate source range [lmap] succeeds; the result keeps the
    relative position, stays in the target range and is undone by the reverse map. *)
Theorem C01_lmap_affine_bijection : forall v x0 x1 y0 y1, x0 <> x1 ->
  exists z, lmap v (x0, x1) (y0, y1) = Ok z /\
    (z - y0) * (x1 - x0) = (v - x0) * (y1 - y0) /\
    (v = x0 -> z = y0) /\ (v = x1 -> z = y1) /\
    (x0 < x1 -> y0 <= y1 -> x0 <= v <= x1 -> y0 <= z <= y1) /\
    (y0 <> y1 -> lmap z (y0, y1) (x0, x1) = Ok v).
Proof.
  intros v x0 x1 y0 y1 H. exists (lmap_val v (x0, x1) (y0, y1)).
  exact (conj (lmap_ok v (x0,x1) (y0,y1) H) (conj (lmap_proportional v (x0,x1) (y0,y1) H)
    (conj (fun E => eq_trans (f_equal (fun a => lmap_val a (x0,x1) (y0,y1)) E) (lmap_lo (x0,x1) (y0,y1) H))
    (conj (fun E => eq_trans (f_equal (fun a => lmap_val a (x0,x1) (y0,y1)) E) (lmap_hi (x0,x1) (y0,y1) H))
    (conj (fun H1 H2 H3 => lmap_range v (x0,x1) (y0,y1) H1 H2 H3)
     (fun H' => eq_trans (lmap_ok _ (y0,y1) (x0,x1) H')
                  (f_equal Ok (lmap_inverse v (x0,x1) (y0,y1) H H')))))))).
Qed.
Print Assumptions C01_lmap_affine_bijection.

(** It is the only affine map with these end values. *)
Theorem C01_lmap_unique : forall x0 x1 y0 y1 a b, x0 <> x1 ->
  a * x0 + b = y0 -> a * x1 + b = y1 ->
  forall v, lmap v (x0, x1) (y0, y1) = Ok (a * v + b).
Proof.
  intros x0 x1 y0 y1 a b H H0 H1 v.
  exact (eq_trans (lmap_ok v (x0,x1) (y0,y1) H)
           (f_equal Ok (eq_sym (lmap_unique (x0,x1) (y0,y1) a b H H0 H1 v)))).
Qed.
Print Assumptions C01_lmap_unique.

(** The only failure is the division by zero of an empty source range. *)
Theorem C01_lmap_degenerate : forall v x0 x1 y,
  lmap v (x0, x1) y = Err ZeroDivisionError <-> x0 = x1.
Proof. intros v x0 x1 y. exact (lmap_err v (x0, x1) y). Qed.
Print Assumptions C01_lmap_degenerate.

Example C01_nonvacuous : (0 : R) <> 30 /\ (0:R) < 30 /\ 0 <= 15 <= 30 /\ (-1 : R) <> 1.
Proof. repeat split; lra. Qed.

(** ** C02: wrap_to_pi *)
Theorem C02_wrap_to_pi_canonical : forall x,
  is_wrapped x (wrap_to_pi x) /\ forall w, is_wrapped x w -> w = wrap_to_pi x.
Proof. intros x. exact (conj (wrap_is_wrapped x) (fun w => wrap_unique x w)). Qed.
Print Assumptions C02_wrap_to_pi_canonical.

Theorem C02_wrap_to_pi_turns : forall x k, wrap_to_pi (x + 2 * PI * IZR k) = wrap_to_pi x.
Proof. exact wrap_turn. Qed.
Print Assumptions C02_wrap_to_pi_turns.

Theorem C02_wrap_to_pi_idempotent : forall x, wrap_to_pi (wrap_to_pi x) = wrap_to_pi x.
Proof. intros x. exact (wrap_id _ (wrap_bounds x)). Qed.
Print Assumptions C02_wrap_to_pi_idempotent.

(** Boundary: pi is wrapped to -pi. *)
Example C02_boundary : wrap_to_pi PI = - PI.
Proof.
  symmetry. apply wrap_unique. split; [pose proof PI_RGT_0; lra|]. exists (-1)%Z. lra.
Qed.

(** ** C03: not_zero *)
Theorem C03_not_zero_safe : forall x eps, 0 < eps ->
  eps <= Rabs (not_zero x eps) /\
  (eps < Rabs x -> not_zero x eps = x) /\
  (0 < x <-> 0 < not_zero x eps) /\ (x <= 0 <-> not_zero x eps < 0) /\
  Rabs (not_zero x eps - x) <= eps.
Proof. exact not_zero_spec. Qed.
Print Assumptions C03_not_zero_safe.

Example C03_zero : not_zero 0 not_zero_eps = - (1/100) /\ 0 < not_zero_eps.
Proof.
  unfold not_zero, not_zero_eps. rewrite Rabs_R0, (Rltb_ge (1/100) 0), (Rltb_ge 0 0); lra.
Qed.

(** ** C04: symmetry of the overlap test *)
Theorem C04_intersect_symmetric : forall r1 r2,
  rotated_rectangles_intersect r1 r2 = rotated_rectangles_intersect r2 r1.
Proof. exact intersect_sym. Qed.
Print Assumptions C04_intersect_symmetric.

Theorem C04_vehicle_collision_symmetric : forall v w, is_colliding v w = is_colliding w v.
Proof. exact is_colliding_sym. Qed.
Print Assumptions C04_vehicle_collision_symmetric.

(** ** C05: geometric meaning of the overlap test *)

(** What the test decides, for all rectangles: whether one of the nine marks of
    either rectangle lies in the MIRRORED other one. *)
Theorem C05_what_is_decided : forall c1 l1 w1 a1 c2 l2 w2 a2,
  rotated_rectangles_intersect (Rect c1 l1 w1 a1) (Rect c2 l2 w2 a2) = true <->
  (exists p, mark c1 l1 w1 a1 p /\ in_rectangle c2 l2 w2 (- a2) p) \/
  (exists p, mark c2 l2 w2 a2 p /\ in_rectangle c1 l1 w1 (- a1) p).
Proof.
  intros. unfold rotated_rectangles_intersect. rewrite orb_true_iff, !has_corner_marks. reflexivity.
Qed.
Print Assumptions C05_what_is_decided.

(** Bounds for all headings: overlap is reported whenever a centre is within half
    the smaller side of the other rectangle, and never beyond the sum of the
    half diagonals. *)
Theorem C05_intersect_sandwich : forall r1 r2,
  0 <= r_length r1 -> 0 <= r_width r1 -> 0 <= r_length r2 -> 0 <= r_width r2 ->
  (dist2 (r_center r1) (r_center r2) <= Rmin (r_length r2) (r_width r2) / 2 -> rotated_rectangles_intersect r1 r2 = true) /\
  (rotated_rectangles_intersect r1 r2 = true ->
   dist2 (r_center r1) (r_center r2) <= sqrt (r_length r1 ^ 2 + r_width r1 ^ 2) / 2 + sqrt (r_length r2 ^ 2 + r_width r2 ^ 2) / 2).
Proof. intros r1 r2 A B C D. split; [exact (intersect_near r1 r2) | exact (intersect_not_far r1 r2 A B C D)]. Qed.
Print Assumptions C05_intersect_sandwich.

(** The claim "true exactly when the closed rectangles share a point" holds for
    parallel traffic (equal rectangles of heading 0, any size and offset). *)
Theorem C05_intersect_exact_aligned : forall l w c1 c2, 0 <= l -> 0 <= w ->
  rotated_rectangles_intersect (Rect c1 l w 0) (Rect c2 l w 0) = true <->
  exists p, in_rectangle c1 l w 0 p /\ in_rectangle c2 l w 0 p.
Proof. exact intersect_exact_aligned. Qed.
Print Assumptions C05_intersect_exact_aligned.

(** No false positives when both headings are multiples of a quarter turn. *)
Theorem C05_intersect_sound_quarter : forall r1 r2,
  0 <= r_length r1 -> 0 <= r_width r1 -> 0 <= r_length r2 -> 0 <= r_width r2 ->
  quarter_turns (r_angle r1) -> quarter_turns (r_angle r2) ->
  rotated_rectangles_intersect r1 r2 = true ->
  exists p, in_rectangle (r_center r1) (r_length r1) (r_width r1) (r_angle r1) p /\
            in_rectangle (r_center r2) (r_length r2) (r_width r2) (r_angle r2) p.
Proof.
  intros r1 r2 a b c d. exact (intersect_sound_quarter r1 r2 (conj a b) (conj c d)).
Qed.
Print Assumptions C05_intersect_sound_quarter.

(** What the point test really decides: membership in the MIRRORED rectangle. *)
Theorem C05_point_test_is_mirrored : forall p c l w angle,
  point_in_rotated_rectangle p c l w angle = true <-> in_rectangle c l w (- angle) p.
Proof. exact in_rect_rotated. Qed.
Print Assumptions C05_point_test_is_mirrored.

(** Failures with vehicle footprints (4.5 m x 1.8 m): a crossing overlap is
    missed ... *)
Theorem C05_overlap_missed : exists c1 c2 h1 h2 p,
  in_rectangle c1 (9/10 * 5) (9/10 * 2) h1 p /\ in_rectangle c2 (9/10 * 5) (9/10 * 2) h2 p /\
  rotated_rectangles_intersect (Rect c1 (9/10 * 5) (9/10 * 2) h1) (Rect c2 (9/10 * 5) (9/10 * 2) h2) = false.
Proof.
  exists (0, 0), (13/10, 13/10), 0, (PI/2), (13/10, 0).
  exact (conj (proj1 tbone_overlap) (conj (proj2 tbone_overlap) tbone_missed)).
Qed.
Print Assumptions C05_overlap_missed.

(** ... and two parallel vehicles that do not touch are reported as colliding. *)
Theorem C05_phantom_overlap : exists c1 c2 h,
  rotated_rectangles_intersect (Rect c1 (9/10 * 5) (9/10 * 2) h) (Rect c2 (9/10 * 5) (9/10 * 2) h) = true /\
  forall p, ~ (in_rectangle c1 (9/10 * 5) (9/10 * 2) h p /\ in_rectangle c2 (9/10 * 5) (9/10 * 2) h p).
Proof.
  exists (0, 0), (15/10, -15/10), (PI/4).
  exact (conj phantom_reported (fun p H => phantom_disjoint p (proj1 H) (proj2 H))).
Qed.
Print Assumptions C05_phantom_overlap.

Example C05_nonvacuous :
  in_rectangle (0, 0) 5 2 0 (2, 0) /\ in_rectangle (4, 1) 5 2 0 (2, 0) /\ quarter_turns (PI / 2).
Proof.
  repeat split.
  - exists 2, 0. rewrite cos_0, sin_0; simpl. repeat split; lra.
  - exists (-2), (-1). rewrite cos_0, sin_0; simpl. repeat split; lra.
  - exists 1%Z. lra.
Qed.

(** ** C06: the distance shortcut *)
Theorem C06_vehicle_precheck_sound : forall v w,
  is_colliding v w =
  rotated_rectangles_intersect (Rect (v_pos v) (9/10 * 5) (9/10 * 2) (v_heading v))
                               (Rect (v_pos w) (9/10 * 5) (9/10 * 2) (v_heading w)).
Proof. exact is_colliding_eq. Qed.
Print Assumptions C06_vehicle_precheck_sound.

Theorem C06_object_precheck_sound : forall v o,
  is_colliding_obj v o =
  rotated_rectangles_intersect (Rect (v_pos v) (9/10 * 5) (9/10 * 2) (v_heading v))
                               (Rect (o_pos o) (9/10 * 2) (9/10 * 2) (o_heading o)).
Proof. exact is_colliding_obj_eq. Qed.
Print Assumptions C06_object_precheck_sound.

(** The same 5 m shortcut with the 1.5 x longer rectangles of the yielding logic
    (regulation.py:77-82) does hide an overlap. *)
Theorem C06_yield_precheck_hides : exists p q h,
  rotated_rectangles_intersect (Rect p (15/10 * 5) (9/10 * 2) h) (Rect q (15/10 * 5) (9/10 * 2) h) = true /\
  V_LENGTH < vnorm (vsub q p).
Proof. exists (0, 0), (6, 0), 0. exact yield_precheck_unsound. Qed.
Print Assumptions C06_yield_precheck_hides.
