(** C89: worst-case collision check of an IntervalVehicle (prediction.py:376-411). *)
From Coq Require Import Lia Lra Bool.
From Verif Require Import Prelude M_Utils M_Lane M_Road M_Vehicle M_Kinematics M_Observer S_Geometry P_Base P_Utils T_Kin T_Control T_Action.
Open Scope R_scope.

(** The positions the interval allows. *)
Definition may_be_at (i : vinterval) (p : vec) : Prop :=
  fst (fst (vi_pos i)) <= fst p <= fst (snd (vi_pos i)) /\ snd (fst (vi_pos i)) <= snd p <= snd (snd (vi_pos i)).
(** Vehicles that can collide: the other is an MDPVehicle. *)
Definition may_collide (v w : vehicle) : Prop := v_kind w = KMDP /\ v_collisions v = true /\ v_crashed v = false /\ v_id w <> v_id v.
(** Both crashed, at the lower of their speeds; nothing else changes. *)
Definition crash_together (v w : vehicle) : vehicle * vehicle := (set_crash v (Rmin (v_speed v) (v_speed w)), set_crash w (Rmin (v_speed v) (v_speed w))).

Lemma worst_cases v i w : may_collide v w ->
  interval_check_collision v i w =
  if point_in_rectangle (v_pos w) (fst (fst (vi_pos i)) - V_LENGTH, snd (fst (vi_pos i)) - V_LENGTH) (fst (snd (vi_pos i)) + V_LENGTH, snd (snd (vi_pos i)) + V_LENGTH)
     && rotated_rectangles_intersect (Rect (project (v_pos w) (fst (vi_pos i)) (snd (vi_pos i))) V_LENGTH V_WIDTH (v_heading v)) (Rect (v_pos w) (9/10 * V_LENGTH) (9/10 * V_WIDTH) (v_heading w))
  then crash_together v w else (v, w).
Proof.
  intros (K & C & D & N). unfold interval_check_collision, crash_together. rewrite K, C, D. apply Nat.eqb_neq in N. rewrite N. cbn [negb orb].
  destruct (point_in_rectangle _ _ _); cbn [negb andb]; reflexivity.
Qed.

(** The projection is an allowed position, and in each direction none is closer. *)
Theorem C89_projection_is_nearest i p : (exists q, may_be_at i q) ->
  let z := project p (fst (vi_pos i)) (snd (vi_pos i)) in
  may_be_at i z /\ forall q, may_be_at i q -> Rabs (fst p - fst z) <= Rabs (fst p - fst q) /\ Rabs (snd p - snd z) <= Rabs (snd p - snd q).
Proof.
  intros [q0 (A & B)] z. unfold z, project, may_be_at. cbn [fst snd]. split; [|intros q (C & D)]; split;
    unfold Rmin, Rmax, Rabs; repeat destruct (Rle_dec _ _); repeat destruct (Rcase_abs _); lra.
Qed.
Print Assumptions C89_projection_is_nearest.

(** Overlap of parallel rectangles of heading 0, the second one not larger. *)
Lemma aligned_nested l1 w1 l2 w2 c1 c2 : 0 <= l2 <= l1 -> 0 <= w2 <= w1 ->
  rotated_rectangles_intersect (Rect c1 l1 w1 0) (Rect c2 l2 w2 0) = true <->
  (Rabs (fst c2 - fst c1) <= (l1 + l2) / 2 /\ Rabs (snd c2 - snd c1) <= (w1 + w2) / 2).
Proof.
  intros Hl Hw. split.
  - intros H. apply (intersect_sound_quarter (Rect c1 l1 w1 0) (Rect c2 l2 w2 0)) in H; cbn; try (split; cbn; lra); try (exists 0%Z; lra).
    destruct H as (p & (a & b & Ha & Hb & E1 & E2) & (a' & b' & Ha' & Hb' & E1' & E2')). cbn [r_center r_length r_width r_angle] in *. rewrite cos_0, sin_0 in *.
    unfold Rabs; repeat destruct (Rcase_abs _); lra.
  - intros [Hx Hy]. unfold rotated_rectangles_intersect. apply orb_true_iff. right.
    apply has_corner_inside_iff. cbn [r_length r_width r_center r_angle].
    exists ((if Rle_dec (fst c2) (fst c1) then l2/2 else - (l2/2)), (if Rle_dec (snd c2) (snd c1) then w2/2 else - (w2/2))).
    split.
    + unfold nine_points, vsub, vadd, vscal; cbn [fst snd].
      destruct (Rle_dec (fst c2) (fst c1)); destruct (Rle_dec (snd c2) (snd c1));
      [do 8 right; left|do 7 right; left|do 6 right; left|do 5 right; left]; cbn [fst snd]; f_equal; field.
    + unfold in_rectangle, vadd, vrot; cbn [fst snd]. rewrite Ropp_0, cos_0, sin_0.
      exists (fst c2 - fst c1 + if Rle_dec (fst c2) (fst c1) then l2 / 2 else - (l2 / 2)),
             (snd c2 - snd c1 + if Rle_dec (snd c2) (snd c1) then w2 / 2 else - (w2 / 2)).
      unfold Rabs in Hx, Hy. destruct (Rcase_abs (fst c2 - fst c1)), (Rcase_abs (snd c2 - snd c1));
      destruct (Rle_dec (fst c2) (fst c1)); destruct (Rle_dec (snd c2) (snd c1)); (split; [lra|]; split; [lra|]; split; ring).
Qed.
Lemma overlap_aligned l1 w1 l2 w2 c1 c2 : 0 <= l1 -> 0 <= w1 -> 0 <= l2 -> 0 <= w2 ->
  (exists p, in_rectangle c1 l1 w1 0 p /\ in_rectangle c2 l2 w2 0 p) <->
  (Rabs (fst c2 - fst c1) <= (l1 + l2) / 2 /\ Rabs (snd c2 - snd c1) <= (w1 + w2) / 2).
Proof.
  intros H1 H2 H3 H4. split.
  - intros (p & (a & b & Ha & Hb & E1 & E2) & (a' & b' & Ha' & Hb' & E1' & E2')). rewrite cos_0, sin_0 in *. unfold Rabs; repeat destruct (Rcase_abs _); lra.
  - intros [Hx Hy].
    assert (K : forall x y m n, 0 <= m -> 0 <= n -> Rabs (y - x) <= (m + n) / 2 -> exists a a', - (m / 2) <= a <= m / 2 /\ - (n / 2) <= a' <= n / 2 /\ x + a = y + a').
    { intros x y m n Hm Hn Hxy. destruct (Rle_dec (Rabs (y - x)) (m / 2)) as [L|L].
      - exists (y - x), 0. unfold Rabs in L. destruct (Rcase_abs _); lra.
      - unfold Rabs in *. destruct (Rcase_abs (y - x)); [exists (- (m / 2)), (x - m / 2 - y)|exists (m / 2), (x + m / 2 - y)]; lra. }
    destruct (K (fst c1) (fst c2) l1 l2 H1 H3 Hx) as (a & a' & A1 & A2 & A3). destruct (K (snd c1) (snd c2) w1 w2 H2 H4 Hy) as (b & b' & B1 & B2 & B3).
    exists (fst c1 + a, snd c1 + b). unfold in_rectangle. cbn [fst snd]. rewrite cos_0, sin_0. split; [exists a, b|exists a', b']; lra.
Qed.

(** In parallel traffic the check is exact: the two vehicles crash if and only if the
    footprint of the first at some allowed position touches the other's. *)
Theorem C89_parallel_traffic_exact v i w : may_collide v w -> v_heading v = 0 -> v_heading w = 0 -> (exists q, may_be_at i q) ->
  ((exists q p, may_be_at i q /\ in_rectangle q 5 2 0 p /\ in_rectangle (v_pos w) (9/10 * 5) (9/10 * 2) 0 p) ->
     interval_check_collision v i w = crash_together v w) /\
  (~ (exists q p, may_be_at i q /\ in_rectangle q 5 2 0 p /\ in_rectangle (v_pos w) (9/10 * 5) (9/10 * 2) 0 p) ->
     interval_check_collision v i w = (v, w)).
Proof.
  intros M Hv Hw Ne. rewrite (worst_cases v i w M), Hv, Hw. unfold V_LENGTH, V_WIDTH.
  destruct (C89_projection_is_nearest i (v_pos w) Ne) as [Pin Pnear]. set (z := project (v_pos w) (fst (vi_pos i)) (snd (vi_pos i))) in *.
  pose proof (aligned_nested 5 2 (9/10 * 5) (9/10 * 2) z (v_pos w) ltac:(lra) ltac:(lra)) as T. split.
  - intros (q & p & Hq & P1 & P2). destruct (Pnear q Hq) as [N1 N2].
    destruct (proj1 (overlap_aligned 5 2 (9/10 * 5) (9/10 * 2) q (v_pos w) ltac:(lra) ltac:(lra) ltac:(lra) ltac:(lra)) (ex_intro _ p (conj P1 P2))) as [O1 O2].
    assert (point_in_rectangle (v_pos w) (fst (fst (vi_pos i)) - 5, snd (fst (vi_pos i)) - 5) (fst (snd (vi_pos i)) + 5, snd (snd (vi_pos i)) + 5) = true) as ->.
    { apply point_in_rectangle_iff. cbn [fst snd]. destruct Hq as [Q1 Q2]. unfold Rabs in O1, O2. destruct (Rcase_abs _), (Rcase_abs _); lra. }
    assert (rotated_rectangles_intersect (Rect z 5 2 0) (Rect (v_pos w) (9/10 * 5) (9/10 * 2) 0) = true) as -> by (apply T; lra). reflexivity.
  - intros N. destruct (rotated_rectangles_intersect (Rect z 5 2 0) (Rect (v_pos w) (9/10 * 5) (9/10 * 2) 0)) eqn:E; [|now rewrite andb_false_r].
    exfalso. apply N. pose proof (proj1 T eq_refl) as E1. destruct (proj2 (overlap_aligned 5 2 (9/10 * 5) (9/10 * 2) z (v_pos w) ltac:(lra) ltac:(lra) ltac:(lra) ltac:(lra)) E1) as (p & P1 & P2).
    exists z, p. auto.
Qed.
Print Assumptions C89_parallel_traffic_exact.

(** Whatever the headings, a vehicle whose centre is at an allowed position crashes; and
    so does any vehicle whose centre is within 0.9 m of one. *)
Lemma centre_inside c1 l1 w1 a1 c2 l2 w2 a2 : 0 <= l1 -> 0 <= w1 -> 0 <= l2 -> 0 <= w2 -> (fst c1 - fst c2) ^ 2 + (snd c1 - snd c2) ^ 2 <= (Rmin l2 w2 / 2) ^ 2 ->
  rotated_rectangles_intersect (Rect c1 l1 w1 a1) (Rect c2 l2 w2 a2) = true.
Proof.
  intros H1 H2 H3 H4 D. unfold rotated_rectangles_intersect. apply orb_true_iff. left. apply has_corner_inside_iff. cbn [r_center r_length r_width r_angle].
  exists (0, 0). split; [now left|]. set (dx := fst c1 - fst c2) in *. set (dy := snd c1 - snd c2) in *. unfold in_rectangle, vadd, vrot. cbn [fst snd].
  rewrite cos_neg, sin_neg. pose proof (sin2_cos2 a2) as Q. unfold Rsqr in Q. set (s := sin a2) in *. set (c := cos a2) in *.
  exists (dx * c - dy * s), (dx * s + dy * c).
  assert (I : (dx * c - dy * s) ^ 2 + (dx * s + dy * c) ^ 2 = dx ^ 2 + dy ^ 2) by (transitivity ((dx ^ 2 + dy ^ 2) * (s * s + c * c)); [ring|rewrite Q; ring]).
  pose proof (pow2_ge_0 (dx * c - dy * s)). pose proof (pow2_ge_0 (dx * s + dy * c)).
  assert (Hm : 0 <= Rmin l2 w2 / 2) by (unfold Rmin; destruct (Rle_dec _ _); lra).
  assert (A : forall x, x ^ 2 <= (Rmin l2 w2 / 2) ^ 2 -> - (Rmin l2 w2 / 2) <= x <= Rmin l2 w2 / 2) by (intros; split; nra).
  pose proof (A (dx * c - dy * s) ltac:(lra)) as A1. pose proof (A (dx * s + dy * c) ltac:(lra)) as A2.
  pose proof (Rmin_l l2 w2). pose proof (Rmin_r l2 w2). split; [lra|]. split; [lra|]. split.
  - replace (fst c2 + (dx * c - dy * s) * c - (dx * s + dy * c) * - s) with (fst c2 + dx * (s * s + c * c)) by ring. rewrite Q. unfold dx. ring.
  - replace (snd c2 + (dx * c - dy * s) * - s + (dx * s + dy * c) * c) with (snd c2 + dy * (s * s + c * c)) by ring. rewrite Q. unfold dy. ring.
Qed.
Theorem C89_close_centres_crash v i w q : may_collide v w -> may_be_at i q ->
  (fst (v_pos w) - fst q) ^ 2 + (snd (v_pos w) - snd q) ^ 2 <= (9/10) ^ 2 ->
  interval_check_collision v i w = crash_together v w.
Proof.
  intros M Hq D. rewrite (worst_cases v i w M). destruct (C89_projection_is_nearest i (v_pos w) (ex_intro _ q Hq)) as [Pin Pnear].
  set (z := project (v_pos w) (fst (vi_pos i)) (snd (vi_pos i))) in *. destruct (Pnear q Hq) as [N1 N2]. unfold V_LENGTH, V_WIDTH.
  assert (S : forall x y, Rabs x <= Rabs y -> x ^ 2 <= y ^ 2) by (intros x y H; unfold Rabs in H; repeat destruct (Rcase_abs _); nra).
  pose proof (S _ _ N1) as S1. pose proof (S _ _ N2) as S2.
  assert (point_in_rectangle (v_pos w) (fst (fst (vi_pos i)) - 5, snd (fst (vi_pos i)) - 5) (fst (snd (vi_pos i)) + 5, snd (snd (vi_pos i)) + 5) = true) as ->.
  { apply point_in_rectangle_iff. cbn [fst snd]. destruct Hq as [Q1 Q2]. set (dx := fst (v_pos w) - fst q) in *. set (dy := snd (v_pos w) - snd q) in *.
    assert (- 1 <= dx <= 1) by (split; nra). assert (- 1 <= dy <= 1) by (split; nra). unfold dx, dy in *. lra. }
  rewrite centre_inside; [reflexivity|lra|lra|lra|lra|].
  rewrite Rmin_right by lra. replace (9 / 10 * 2 / 2) with (9 / 10) by field. nra.
Qed.
Print Assumptions C89_close_centres_crash.

(** Finding: across directions it is not a worst case.  The uncertain vehicle drives
    north, somewhere between x = -1.3 and x = -1.1; the other drives east.  At x = -1.3 the
    overlap test reports a collision, but only the nearest position, x = -1.1, is tested:
    there none of the marks of one vehicle is inside the other, and no collision is
    reported, although the footprints overlap. *)
Theorem C89_crossing_traffic_missed v i w : v_heading v = PI / 2 -> v_heading w = 0 -> v_pos w = (0, 0) -> may_collide v w ->
  vi_pos i = ((-13/10, -12/10), (-11/10, -12/10)) ->
  may_be_at i (-13/10, -12/10) /\
  rotated_rectangles_intersect (Rect (-13/10, -12/10) V_LENGTH V_WIDTH (v_heading v)) (Rect (v_pos w) (9/10 * V_LENGTH) (9/10 * V_WIDTH) (v_heading w)) = true /\
  (forall q, may_be_at i q -> exists p, in_rectangle q 5 2 (PI / 2) p /\ in_rectangle (0, 0) (9/10 * 5) (9/10 * 2) 0 p) /\
  interval_check_collision v i w = (v, w).
Proof.
  intros Hv Hw Pw M Pi. split; [unfold may_be_at; rewrite Pi; cbn [fst snd]; lra|]. rewrite (worst_cases v i w M), Hv, Hw, Pw, Pi. unfold V_LENGTH, V_WIDTH. split; [|split].
  - unfold rotated_rectangles_intersect. apply orb_true_iff. right. apply has_corner_inside_iff. cbn [r_center r_length r_width r_angle].
    exists (- (9/10 * 5 / 2), 0). split; [right; left; unfold vscal; cbn [fst snd]; f_equal; field|].
    unfold in_rectangle, vadd, vrot. cbn [fst snd]. rewrite cos_neg, sin_neg, cos_PI2, sin_PI2, cos_0, sin_0. exists (-12/10), (-95/100). lra.
  - intros q Hq. unfold may_be_at in Hq. rewrite Pi in Hq. cbn [fst snd] in Hq. exists (fst q, 0). unfold in_rectangle. cbn [fst snd]. rewrite cos_PI2, sin_PI2, cos_0, sin_0.
    split; [exists (12/10), 0|exists (fst q), 0]; lra.
  - assert (E : project (0, 0) (-13/10, -12/10) (-11/10, -12/10) = (-11/10, -12/10)).
    { unfold project. cbn [fst snd]. unfold Rmin, Rmax. repeat destruct (Rle_dec _ _); f_equal; lra. }
    cbn [fst snd]. rewrite E. 
    destruct (rotated_rectangles_intersect _ _) eqn:R; [|now rewrite andb_false_r]. exfalso.
    unfold rotated_rectangles_intersect in R. apply orb_true_iff in R. rewrite !has_corner_inside_iff in R. cbn [r_center r_length r_width r_angle] in R.
    destruct R as [(m & Hm & K)|(m & Hm & K)]; unfold in_rectangle, vadd, vrot in K; cbn [fst snd] in K; rewrite ?cos_neg, ?sin_neg, ?cos_PI2, ?sin_PI2, ?cos_0, ?sin_0, ?Ropp_0, ?cos_0, ?sin_0 in K;
    destruct K as (a & b & Ha & Hb & Ea & Eb); cbn [nine_points In] in Hm; unfold vscal, vadd, vsub in Hm; cbn [fst snd] in Hm;
    repeat (destruct Hm as [<- |Hm]; [cbn [fst snd] in *; lra|]); exact Hm.
Qed.
Print Assumptions C89_crossing_traffic_missed.

(** Vehicles of other classes are checked at the model's position only. *)
Theorem C89_other_classes v i w : v_kind w <> KMDP -> interval_check_collision v i w = check_collision v w.
Proof. intros H. unfold interval_check_collision. destruct (v_kind w); try reflexivity. now elim H. Qed.
Print Assumptions C89_other_classes.

Example C89_nonvacuous :
  let v := demo_controlled KLinear (100, 0) 20 25 0 in
  let w := with_id (demo_controlled KMDP (110, 1) 25 25 0) 1 in
  let i := VInterval ((95, -1), (106, 1)) (18, 22) (0, 0) in
  may_collide v w /\ v_heading v = 0 /\ v_heading w = 0 /\ (exists q, may_be_at i q) /\
  interval_check_collision v i w = crash_together v w /\ check_collision v w = (v, w).
Proof.
  intros v w i. assert (M : may_collide v w) by (repeat split; cbn; discriminate). split; [exact M|]. split; [reflexivity|]. split; [reflexivity|].
  assert (Hq : may_be_at i (106, 1)) by (unfold may_be_at; cbn; lra). split; [now exists (106, 1)|]. split.
  - apply (C89_parallel_traffic_exact v i w M eq_refl eq_refl (ex_intro _ _ Hq)). exists (106, 1), (108, 1). split; [exact Hq|].
    unfold in_rectangle. cbn. rewrite cos_0, sin_0. split; [exists 2, 0|exists (-2), 0]; lra.
  - unfold check_collision. change (v_crashed v || Nat.eqb (v_id w) (v_id v))%bool with false. change (negb (v_collisions v) || negb (v_collisions w))%bool with false.
    assert (is_colliding v w = false) as ->; [|reflexivity].
    unfold is_colliding, colliding. assert (Rltb V_LENGTH (vnorm (vsub (v_pos w) (v_pos v))) = true) as ->; [|reflexivity].
    apply Rltb_true. unfold V_LENGTH, vnorm, vdot, vsub. cbn. rewrite <- (sqrt_square 5) by lra. apply sqrt_lt_1; lra.
Qed.
Print Assumptions C89_nonvacuous.
