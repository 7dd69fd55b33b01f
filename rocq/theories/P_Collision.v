(** Proofs about the collision tests (kinematics.py:199-205, utils.py:89-120). *)
From Verif Require Import Prelude M_Utils M_Lane M_Road M_Vehicle M_Kinematics S_Geometry P_Base P_Utils.
From Coq Require Import Lra Lia Psatz.
Open Scope R_scope.

Lemma colliding_precheck p h q h' len wid :
  0 <= len -> 0 <= wid -> len * len + wid * wid <= 29 ->
  colliding p h q h' len wid =
  rotated_rectangles_intersect (Rect p (9/10 * 5) (9/10 * 2) h) (Rect q (9/10 * len) (9/10 * wid) h').
Proof.
  intros Hl Hw Hd. unfold colliding, V_LENGTH, V_WIDTH.
  destruct (Rltb 5 (vnorm (vsub q p))) eqn:E; [|reflexivity]. rbool.
  destruct (rotated_rectangles_intersect _ _) eqn:E2; [|reflexivity]. exfalso.
  apply intersect_dist in E2; simpl in *; try (split; simpl; lra).
  assert (sqrt ((9/10*5/2)*(9/10*5/2) + (9/10*2/2)*(9/10*2/2)) <= 5/2) by (apply sqrt_le_of_sq; lra).
  assert (sqrt ((9/10*len/2)*(9/10*len/2) + (9/10*wid/2)*(9/10*wid/2)) <= 5/2) by (apply sqrt_le_of_sq; nra).
  lra.
Qed.

Lemma is_colliding_eq v w :
  is_colliding v w =
  rotated_rectangles_intersect (Rect (v_pos v) (9/10 * 5) (9/10 * 2) (v_heading v))
                               (Rect (v_pos w) (9/10 * 5) (9/10 * 2) (v_heading w)).
Proof. unfold is_colliding. apply colliding_precheck; unfold V_LENGTH, V_WIDTH; lra. Qed.
Lemma is_colliding_obj_eq v o :
  is_colliding_obj v o =
  rotated_rectangles_intersect (Rect (v_pos v) (9/10 * 5) (9/10 * 2) (v_heading v))
                               (Rect (o_pos o) (9/10 * 2) (9/10 * 2) (o_heading o)).
Proof. unfold is_colliding_obj. apply colliding_precheck; unfold O_LENGTH, O_WIDTH; lra. Qed.
Lemma is_colliding_sym v w : is_colliding v w = is_colliding w v.
Proof. rewrite !is_colliding_eq. apply intersect_sym. Qed.

(** Missed T-bone overlap: the second car stands across the first. *)
Lemma tbone_missed :
  rotated_rectangles_intersect (Rect (0, 0) (9/10 * 5) (9/10 * 2) 0)
                               (Rect (13/10, 13/10) (9/10 * 5) (9/10 * 2) (PI/2)) = false.
Proof.
  destruct (rotated_rectangles_intersect _ _) eqn:E; [|reflexivity]. exfalso.
  unfold rotated_rectangles_intersect in E. apply orb_true_iff in E as [E|E];
    apply has_corner_inside_iff in E; simpl r_center in E; simpl r_length in E;
    simpl r_width in E; simpl r_angle in E;
    destruct E as (p & Hp & (a & b & Ha & Hb & E1 & E2)).
  - rewrite cos_neg, sin_neg, cos_PI2, sin_PI2 in *. unfold vadd, vrot in *; simpl in *.
    rewrite cos_0, sin_0 in *.
    repeat (destruct Hp as [<-|Hp]; [simpl in *; lra|]). easy.
  - rewrite Ropp_0, cos_0, sin_0 in *. unfold vadd, vrot in *; simpl in *.
    rewrite cos_PI2, sin_PI2 in *.
    repeat (destruct Hp as [<-|Hp]; [simpl in *; lra|]). easy.
Qed.
Lemma tbone_overlap :
  in_rectangle (0, 0) (9/10 * 5) (9/10 * 2) 0 (13/10, 0) /\
  in_rectangle (13/10, 13/10) (9/10 * 5) (9/10 * 2) (PI/2) (13/10, 0).
Proof.
  split.
  - exists (13/10), 0. rewrite cos_0, sin_0. simpl. repeat split; lra.
  - exists (-13/10), 0. rewrite cos_PI2, sin_PI2. simpl. repeat split; lra.
Qed.

(** Phantom collision: two parallel cars, both heading 45 degrees, side by side
    at 2.12 m (their 1.8 m wide footprints are disjoint). *)
Lemma sqrt2_bounds : 14/10 <= sqrt 2 <= 15/10.
Proof.
  split.
  - apply Rsqr_incr_0_var; [|apply sqrt_pos]. rewrite Rsqr_sqrt by lra. unfold Rsqr. lra.
  - apply sqrt_le_of_sq; lra.
Qed.
Lemma cos_PI4' : cos (PI/4) = sqrt 2 / 2.
Proof.
  rewrite cos_PI4. assert (0 < sqrt 2) by (apply sqrt_lt_R0; lra).
  pose proof (sqrt_sqrt 2). field_simplify_eq; [|lra]. replace (sqrt 2 ^ 2) with (sqrt 2 * sqrt 2) by ring. lra.
Qed.
Lemma sin_PI4' : sin (PI/4) = sqrt 2 / 2.
Proof.
  rewrite <- cos_PI4'. rewrite cos_PI4. apply sin_PI4.
Qed.
Lemma phantom_reported :
  rotated_rectangles_intersect (Rect (0, 0) (9/10 * 5) (9/10 * 2) (PI/4))
                               (Rect (15/10, -15/10) (9/10 * 5) (9/10 * 2) (PI/4)) = true.
Proof.
  unfold rotated_rectangles_intersect. apply orb_true_iff. left. apply has_corner_inside_iff. simpl.
  exists (0, 0). split; [now left|].
  unfold in_rectangle, vadd, vrot; simpl. rewrite cos_neg, sin_neg, cos_PI4', sin_PI4'.
  pose proof sqrt2_bounds. pose proof (sqrt_sqrt 2). assert (H1 : sqrt 2 * sqrt 2 = 2) by lra.
  exists (- (15/10) * sqrt 2), 0. repeat split; try lra; nra.
Qed.
Lemma phantom_disjoint p :
  in_rectangle (0, 0) (9/10 * 5) (9/10 * 2) (PI/4) p ->
  in_rectangle (15/10, -15/10) (9/10 * 5) (9/10 * 2) (PI/4) p -> False.
Proof.
  intros (a & b & Ha & Hb & E1 & E2) (a' & b' & Ha' & Hb' & E1' & E2').
  rewrite cos_PI4', sin_PI4' in *. simpl in *. pose proof sqrt2_bounds.
  pose proof (sqrt_sqrt 2). assert (H1 : sqrt 2 * sqrt 2 = 2) by lra.
  assert (sqrt 2 * (b' - b) = 3) by lra.
  assert (b' - b <= 18/10) by lra. nra.
Qed.

(** The yielding rectangles (regulation.py:77-82) collide although the 5 m
    shortcut declares them apart. *)
Lemma yield_precheck_unsound :
  rotated_rectangles_intersect (Rect (0, 0) (15/10 * 5) (9/10 * 2) 0)
                               (Rect (6, 0) (15/10 * 5) (9/10 * 2) 0) = true /\
  V_LENGTH < vnorm (vsub (6, 0) (0, 0)).
Proof.
  split.
  - apply intersect_exact_aligned; try lra. exists (3, 0). split.
    + exists 3, 0. rewrite cos_0, sin_0; simpl. repeat split; lra.
    + exists (-3), 0. rewrite cos_0, sin_0; simpl. repeat split; lra.
  - unfold vnorm, vsub, V_LENGTH; simpl.
    replace ((6 - 0) * (6 - 0) + (0 - 0) * (0 - 0)) with (6 * 6) by ring. rewrite sqrt_sq; lra.
Qed.

(** ** The overlap test for all headings *)
Lemma has_corner_marks c1 l1 w1 a1 c2 l2 w2 a2 : has_corner_inside (Rect c1 l1 w1 a1) (Rect c2 l2 w2 a2) = true <->
  exists p, mark c1 l1 w1 a1 p /\ in_rectangle c2 l2 w2 (- a2) p.
Proof.
  rewrite has_corner_inside_iff. cbn [r_center r_length r_width r_angle]. split.
  - intros (p & I & H). eexists. split; [|exact H]. unfold mark, unit_step.
    unfold nine_points, vsub, vadd, vscal in I. cbn [fst snd] in I. unfold vadd, vrot. cbn [fst snd].
    cbn [In] in I. repeat (destruct I as [<- | I]; [cbn [fst snd]|]); [..|easy].
    + exists 0, 0. repeat split; (try ring); auto.
    + exists (-1), 0. repeat split; (try ring); auto.
    + exists 1, 0. repeat split; (try ring); auto.
    + exists 0, (-1). repeat split; (try ring); auto.
    + exists 0, 1. repeat split; (try ring); auto.
    + exists (-1), (-1). repeat split; (try ring); auto.
    + exists (-1), 1. repeat split; (try ring); auto.
    + exists 1, (-1). repeat split; (try ring); auto.
    + exists 1, 1. repeat split; (try ring); auto.
  - intros (p & (i & j & Hi & Hj & X & Y) & H). exists (i * (l1 / 2), j * (w1 / 2)). split.
    + unfold nine_points, vsub, vadd, vscal. cbn [fst snd In].
      destruct Hi as [-> | [-> | ->]], Hj as [-> | [-> | ->]].
      * do 5 right; left; f_equal; ring.
      * do 1 right; left; f_equal; ring.
      * do 6 right; left; f_equal; ring.
      * do 3 right; left; f_equal; ring.
      * left; f_equal; ring.
      * do 4 right; left; f_equal; ring.
      * do 7 right; left; f_equal; ring.
      * do 2 right; left; f_equal; ring.
      * do 8 right; left; f_equal; ring.
    + replace (vadd c1 (vrot a1 (i * (l1 / 2), j * (w1 / 2)))) with p; [exact H|].
      destruct p as [px py]. unfold vadd, vrot. cbn [fst snd] in *. f_equal; rewrite ?X, ?Y; ring.
Qed.
Lemma dist2_le p q r : 0 <= r -> dist2 p q <= r <-> (fst p - fst q) ^ 2 + (snd p - snd q) ^ 2 <= r ^ 2.
Proof.
  intros Hr. unfold dist2. set (x := (fst p - fst q) ^ 2 + (snd p - snd q) ^ 2). assert (H : 0 <= x) by (unfold x; pose proof (pow2_ge_0 (fst p - fst q)); pose proof (pow2_ge_0 (snd p - snd q)); lra). pose proof (sqrt_sqrt x H). pose proof (sqrt_pos x). split; intros; nra.
Qed.
Lemma rot_norm a x y : (x * cos a - y * sin a) ^ 2 + (x * sin a + y * cos a) ^ 2 = x ^ 2 + y ^ 2.
Proof. pose proof (sin2_cos2 a) as T. unfold Rsqr in T. transitivity ((x ^ 2 + y ^ 2) * (sin a * sin a + cos a * cos a)); [ring|]. rewrite T. ring. Qed.
Lemma abs_le_sq x r : 0 <= r -> x * x <= r * r -> Rabs x <= r.
Proof. intros Hr H. unfold Rabs. destruct (Rcase_abs x); nra. Qed.
Lemma in_disc_rect c l w a p : dist2 p c <= Rmin l w / 2 -> in_rectangle c l w a p.
Proof.
  intros H. assert (N : 0 <= Rmin l w / 2) by (eapply Rle_trans; [|exact H]; apply sqrt_pos). apply dist2_le in H; [|exact N].
  set (x := fst p - fst c) in *. set (y := snd p - snd c) in *.
  pose proof (sin2_cos2 a) as T. unfold Rsqr in T.
  exists (x * cos a + y * sin a), (- x * sin a + y * cos a).
  assert (Q : (x * cos a + y * sin a) ^ 2 + (- x * sin a + y * cos a) ^ 2 = x ^ 2 + y ^ 2).
  { transitivity ((x ^ 2 + y ^ 2) * (sin a * sin a + cos a * cos a)); [ring | rewrite T; ring]. }
  assert (L : Rmin l w <= l) by apply Rmin_l. assert (W : Rmin l w <= w) by apply Rmin_r.
  set (u := x * cos a + y * sin a) in *. set (v := - x * sin a + y * cos a) in *.
  assert (Rabs u <= Rmin l w / 2). { apply abs_le_sq; [exact N | nra]. }
  assert (Rabs v <= Rmin l w / 2). { apply abs_le_sq; [exact N | nra]. }
  split; [split; unfold Rabs in *; destruct (Rcase_abs u); lra|]. split; [split; unfold Rabs in *; destruct (Rcase_abs v); lra|].
  split.
  - unfold u, v. transitivity (fst c + x * (sin a * sin a + cos a * cos a)); [rewrite T; unfold x; ring | ring].
  - unfold u, v. transitivity (snd c + y * (sin a * sin a + cos a * cos a)); [rewrite T; unfold y; ring | ring].
Qed.

Lemma intersect_near r1 r2 : dist2 (r_center r1) (r_center r2) <= Rmin (r_length r2) (r_width r2) / 2 -> rotated_rectangles_intersect r1 r2 = true.
Proof.
  destruct r1 as [c1 l1 w1 a1], r2 as [c2 l2 w2 a2]. cbn [r_center r_length r_width]. intros H. unfold rotated_rectangles_intersect.
  apply orb_true_iff. left. apply has_corner_marks. exists c1. split; [|now apply in_disc_rect].
  exists 0, 0. unfold unit_step. repeat split; auto; ring.
Qed.
Lemma in_rect_dist c l w a p : 0 <= l -> 0 <= w -> in_rectangle c l w a p -> dist2 p c <= sqrt (l ^ 2 + w ^ 2) / 2.
Proof.
  intros Hl Hw (x & y & Hx & Hy & E1 & E2). assert (N : 0 <= l ^ 2 + w ^ 2) by nra. pose proof (sqrt_pos (l ^ 2 + w ^ 2)). pose proof (sqrt_sqrt _ N).
  apply dist2_le; [lra|]. replace (fst p - fst c) with (x * cos a - y * sin a) by lra. replace (snd p - snd c) with (x * sin a + y * cos a) by lra.
  rewrite rot_norm. replace ((sqrt (l ^ 2 + w ^ 2) / 2) ^ 2) with ((sqrt (l ^ 2 + w ^ 2) * sqrt (l ^ 2 + w ^ 2)) / 4) by field. rewrite H0. nra.
Qed.
Lemma dist2_sym p q : dist2 p q = dist2 q p.
Proof. unfold dist2. f_equal. ring. Qed.
Lemma dist2_triangle p q r : dist2 p r <= dist2 p q + dist2 q r.
Proof.
  unfold dist2. pose proof (pow2_ge_0 (fst p - fst q)); pose proof (pow2_ge_0 (snd p - snd q)); pose proof (pow2_ge_0 (fst q - fst r)); pose proof (pow2_ge_0 (snd q - snd r)).
  assert (A : 0 <= (fst p - fst q) ^ 2 + (snd p - snd q) ^ 2) by lra. assert (B : 0 <= (fst q - fst r) ^ 2 + (snd q - snd r) ^ 2) by lra. clear H H0 H1 H2.
  pose proof (sqrt_sqrt _ A). pose proof (sqrt_sqrt _ B). pose proof (sqrt_pos ((fst p - fst q) ^ 2 + (snd p - snd q) ^ 2)). pose proof (sqrt_pos ((fst q - fst r) ^ 2 + (snd q - snd r) ^ 2)).
  set (u := sqrt ((fst p - fst q) ^ 2 + (snd p - snd q) ^ 2)) in *. set (v := sqrt ((fst q - fst r) ^ 2 + (snd q - snd r) ^ 2)) in *. clearbody u v.
  fold (dist2 p r). apply dist2_le; [lra|].
  set (x := fst p - fst q) in *. set (y := snd p - snd q) in *. set (z := fst q - fst r) in *. set (t := snd q - snd r) in *.
  replace (fst p - fst r) with (x + z) by (unfold x, z; ring). replace (snd p - snd r) with (y + t) by (unfold y, t; ring). clearbody x y z t.
  assert (CS : x * z + y * t <= u * v).
  { apply Rsqr_incr_0_var; [|nra]. unfold Rsqr. replace (u * v * (u * v)) with ((u * u) * (v * v)) by ring. rewrite H, H0.
    pose proof (pow2_ge_0 (x * t - y * z)). cbn [pow] in *. lra. }
  nra.
Qed.
Lemma intersect_not_far r1 r2 : 0 <= r_length r1 -> 0 <= r_width r1 -> 0 <= r_length r2 -> 0 <= r_width r2 ->
  rotated_rectangles_intersect r1 r2 = true ->
  dist2 (r_center r1) (r_center r2) <= sqrt (r_length r1 ^ 2 + r_width r1 ^ 2) / 2 + sqrt (r_length r2 ^ 2 + r_width r2 ^ 2) / 2.
Proof.
  intros A B C D H. apply intersect_mirror_sound in H as (p & [[I J] | [I J]]); [..|split; assumption|split; assumption].
  - apply in_rect_dist in I, J; try assumption. pose proof (dist2_triangle (r_center r1) p (r_center r2)). rewrite (dist2_sym (r_center r1) p) in H. lra.
  - apply in_rect_dist in I, J; try assumption. pose proof (dist2_triangle (r_center r1) p (r_center r2)). rewrite (dist2_sym (r_center r1) p) in H. lra.
Qed.
