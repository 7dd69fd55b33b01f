(** Proofs about M_Utils. *)
From Verif Require Import Prelude M_Utils S_Geometry P_Base.
From Coq Require Import Lra Lia Psatz.
Open Scope R_scope.

Lemma lmap_ok v x y : fst x <> snd x -> lmap v x y = Ok (lmap_val v x y).
Proof.
  intros H. unfold lmap, lmap_val. rewrite (proj2 (Reqb_false _ _)); [easy|].
  intros E. apply H. lra.
Qed.
Lemma lmap_err v x y : lmap v x y = Err ZeroDivisionError <-> fst x = snd x.
Proof.
  unfold lmap. destruct (Reqb _ _) eqn:E; rbool; split; intros; try easy; lra.
Qed.
Lemma lmap_proportional v x y : fst x <> snd x ->
  (lmap_val v x y - fst y) * (snd x - fst x) = (v - fst x) * (snd y - fst y).
Proof. intros H. unfold lmap_val. field. lra. Qed.
Lemma lmap_lo x y : fst x <> snd x -> lmap_val (fst x) x y = fst y.
Proof. intros H. unfold lmap_val. field. lra. Qed.
Lemma lmap_hi x y : fst x <> snd x -> lmap_val (snd x) x y = snd y.
Proof. intros H. unfold lmap_val. field. lra. Qed.
Lemma lmap_mono v w x y : fst x < snd x -> fst y <= snd y -> v <= w -> lmap_val v x y <= lmap_val w x y.
Proof.
  intros Hx Hy H. unfold lmap_val. apply Rplus_le_compat_l.
  apply Rmult_le_compat_r; [left; apply Rinv_0_lt_compat; lra|].
  apply Rmult_le_compat_r; lra.
Qed.
Lemma lmap_range v x y : fst x < snd x -> fst y <= snd y -> fst x <= v <= snd x ->
  fst y <= lmap_val v x y <= snd y.
Proof.
  intros Hx Hy [H1 H2]. split.
  - rewrite <- (lmap_lo x y) by lra. now apply lmap_mono.
  - rewrite <- (lmap_hi x y) by lra. now apply lmap_mono.
Qed.
Lemma lmap_inverse v x y : fst x <> snd x -> fst y <> snd y ->
  lmap_val (lmap_val v x y) y x = v.
Proof. intros H H'. unfold lmap_val. field. split; lra. Qed.
Lemma lmap_unique x y a b : fst x <> snd x ->
  a * fst x + b = fst y -> a * snd x + b = snd y ->
  forall v, a * v + b = lmap_val v x y.
Proof. intros H H1 H2 v. unfold lmap_val. rewrite <- H1, <- H2. field. lra. Qed.

Lemma not_zero_spec x eps : 0 < eps ->
  eps <= Rabs (not_zero x eps) /\ (eps < Rabs x -> not_zero x eps = x) /\
  (0 < x <-> 0 < not_zero x eps) /\ (x <= 0 <-> not_zero x eps < 0) /\
  Rabs (not_zero x eps - x) <= eps.
Proof.
  intros He. unfold not_zero. destruct (Rltb eps (Rabs x)) eqn:E; rbool.
  - unfold Rabs in *. destruct (Rcase_abs x); destruct (Rcase_abs (x - x)); repeat split; intros; try lra.
  - assert (Rabs x <= eps) by lra. destruct (Rltb 0 x) eqn:E2; rbool.
    + rewrite Rabs_pos_eq by lra. rewrite Rabs_pos_eq in H by lra.
      rewrite (Rabs_pos_eq (eps - x)) by lra. rewrite (Rabs_pos_eq x) in * by lra. repeat split; intros; lra.
    + rewrite Rabs_Ropp, Rabs_pos_eq by lra.
      rewrite (Rabs_left1 x) in * by lra. rewrite (Rabs_left1 (- eps - x)) by lra.
      repeat split; intros; lra.
Qed.

Lemma wrap_is_wrapped x : is_wrapped x (wrap_to_pi x).
Proof.
  unfold is_wrapped, wrap_to_pi. pose proof PI_RGT_0 as Hpi.
  assert (H : 0 < 2 * PI) by lra. pose proof (Rpymod_bounds (x + PI) (2 * PI) H). split; [lra|].
  unfold Rpymod. exists (- Rfloor ((x + PI) / (2 * PI)))%Z. rewrite opp_IZR. lra.
Qed.
Lemma wrapped_unique x w1 w2 : is_wrapped x w1 -> is_wrapped x w2 -> w1 = w2.
Proof.
  intros [H1 [k1 E1]] [H2 [k2 E2]]. pose proof PI_RGT_0 as Hpi.
  assert (Hd : 2 * PI * IZR (k1 - k2) = w1 - w2) by (rewrite minus_IZR; lra).
  assert (IZR (k1 - k2) < IZR 1) by (apply (Rmult_lt_reg_l (2*PI)); lra).
  assert (IZR (-1) < IZR (k1 - k2)) by (apply (Rmult_lt_reg_l (2*PI)); lra).
  apply lt_IZR in H, H0. replace (k1 - k2)%Z with 0%Z in Hd by lia. lra.
Qed.
Lemma wrap_unique x w : is_wrapped x w -> w = wrap_to_pi x.
Proof. intros H. eapply wrapped_unique; [exact H|apply wrap_is_wrapped]. Qed.
Lemma wrap_bounds x : - PI <= wrap_to_pi x < PI.
Proof. apply wrap_is_wrapped. Qed.
Lemma wrap_id x : - PI <= x < PI -> wrap_to_pi x = x.
Proof. intros H. symmetry. apply wrap_unique. split; auto. exists 0%Z. lra. Qed.
Lemma wrap_turn x k : wrap_to_pi (x + 2 * PI * IZR k) = wrap_to_pi x.
Proof.
  apply wrap_unique. destruct (wrap_is_wrapped (x + 2 * PI * IZR k)) as [H [j E]]. split; auto.
  exists (k + j)%Z. rewrite plus_IZR. lra.
Qed.

Lemma sin_turn x k : sin (x + 2 * PI * IZR k) = sin x.
Proof.
  destruct (Z_le_gt_dec 0 k) as [H|H].
  - rewrite <- (Z2Nat.id k) by lia. rewrite <- INR_IZR_INZ.
    replace (x + 2 * PI * INR (Z.to_nat k)) with (x + 2 * INR (Z.to_nat k) * PI) by ring. apply sin_period.
  - set (y := x + 2 * PI * IZR k). replace x with (y + 2 * INR (Z.to_nat (- k)) * PI).
    + now rewrite sin_period.
    + rewrite INR_IZR_INZ, Z2Nat.id by lia. rewrite opp_IZR. unfold y. ring.
Qed.
Lemma cos_turn x k : cos (x + 2 * PI * IZR k) = cos x.
Proof.
  destruct (Z_le_gt_dec 0 k) as [H|H].
  - rewrite <- (Z2Nat.id k) by lia. rewrite <- INR_IZR_INZ.
    replace (x + 2 * PI * INR (Z.to_nat k)) with (x + 2 * INR (Z.to_nat k) * PI) by ring. apply cos_period.
  - set (y := x + 2 * PI * IZR k). replace x with (y + 2 * INR (Z.to_nat (- k)) * PI).
    + now rewrite cos_period.
    + rewrite INR_IZR_INZ, Z2Nat.id by lia. rewrite opp_IZR. unfold y. ring.
Qed.
Lemma sin_wrap x : sin (wrap_to_pi x) = sin x.
Proof. destruct (wrap_is_wrapped x) as [_ [k ->]]. apply sin_turn. Qed.
Lemma cos_wrap x : cos (wrap_to_pi x) = cos x.
Proof. destruct (wrap_is_wrapped x) as [_ [k ->]]. apply cos_turn. Qed.

(** ** Rectangles *)
Lemma point_in_rectangle_iff p a b :
  point_in_rectangle p a b = true <->
  fst a <= fst p <= fst b /\ snd a <= snd p <= snd b.
Proof. unfold point_in_rectangle. rewrite !andb_true_iff, !Rleb_true. tauto. Qed.

Lemma vrot_inv t v : vrot (- t) (vrot t v) = v.
Proof.
  unfold vrot; simpl. rewrite cos_neg, sin_neg. pose proof (cos_sin_1 t) as H.
  destruct v as [a b]; simpl. apply f_equal2.
  - transitivity (a * (cos t * cos t + sin t * sin t)); [ring|rewrite H; ring].
  - transitivity (b * (cos t * cos t + sin t * sin t)); [ring|rewrite H; ring].
Qed.

Lemma in_rect_rotated p c l w angle :
  point_in_rotated_rectangle p c l w angle = true <-> in_rectangle c l w (- angle) p.
Proof.
  unfold point_in_rotated_rectangle, in_rectangle. rewrite point_in_rectangle_iff.
  unfold vrot, vsub; simpl. rewrite cos_neg, sin_neg. pose proof (cos_sin_1 angle) as H.
  set (C := cos angle) in *. set (S := sin angle) in *. clearbody C S. split.
  - intros [H1 H2].
    exists (C * (fst p - fst c) - S * (snd p - snd c)), (S * (fst p - fst c) + C * (snd p - snd c)).
    repeat split; try lra.
    + replace (fst p) with (fst c + (fst p - fst c) * 1) at 1 by ring. rewrite <- H. ring.
    + replace (snd p) with (snd c + (snd p - snd c) * 1) at 1 by ring. rewrite <- H. ring.
  - intros (a & b & Ha & Hb & E1 & E2).
    replace (fst p - fst c) with (a * C + b * S) by lra.
    replace (snd p - snd c) with (b * C - a * S) by lra.
    replace (C * (a * C + b * S) - S * (b * C - a * S)) with (a * (C * C + S * S)) by ring.
    replace (S * (a * C + b * S) + C * (b * C - a * S)) with (b * (C * C + S * S)) by ring.
    rewrite H. split; lra.
Qed.

Lemma nine_points_in l w p : 0 <= l -> 0 <= w -> In p (nine_points l w) ->
  - (l/2) <= fst p <= l/2 /\ - (w/2) <= snd p <= w/2.
Proof.
  intros Hl Hw H. unfold nine_points in H. simpl in H.
  repeat (destruct H as [<-|H]; [simpl; lra|]). easy.
Qed.

Lemma has_corner_inside_iff r1 r2 :
  has_corner_inside r1 r2 = true <->
  exists p, In p (nine_points (r_length r1) (r_width r1)) /\
    in_rectangle (r_center r2) (r_length r2) (r_width r2) (- r_angle r2)
      (vadd (r_center r1) (vrot (r_angle r1) p)).
Proof.
  unfold has_corner_inside. rewrite existsb_exists.
  split; intros (p & H1 & H2); exists p; split; auto; now apply in_rect_rotated.
Qed.

Lemma nine_point_in_rect r p : 0 <= r_length r -> 0 <= r_width r ->
  In p (nine_points (r_length r) (r_width r)) ->
  in_rectangle (r_center r) (r_length r) (r_width r) (r_angle r) (vadd (r_center r) (vrot (r_angle r) p)).
Proof.
  intros Hl Hw H. apply nine_points_in in H as [H1 H2]; auto.
  exists (fst p), (snd p). repeat split; try lra; unfold vadd, vrot; simpl; ring.
Qed.

Lemma has_corner_inside_sound r1 r2 : 0 <= r_length r1 -> 0 <= r_width r1 ->
  has_corner_inside r1 r2 = true ->
  exists p, in_rectangle (r_center r1) (r_length r1) (r_width r1) (r_angle r1) p /\
            in_rectangle (r_center r2) (r_length r2) (r_width r2) (- r_angle r2) p.
Proof.
  intros Hl Hw H. apply has_corner_inside_iff in H as (p & H1 & H2).
  eexists; split; [|exact H2]. now apply nine_point_in_rect.
Qed.

Definition pos_rect (r : rect) : Prop := 0 <= r_length r /\ 0 <= r_width r.

Lemma intersect_mirror_sound r1 r2 : pos_rect r1 -> pos_rect r2 ->
  rotated_rectangles_intersect r1 r2 = true ->
  exists p,
    (in_rectangle (r_center r1) (r_length r1) (r_width r1) (r_angle r1) p /\
     in_rectangle (r_center r2) (r_length r2) (r_width r2) (- r_angle r2) p) \/
    (in_rectangle (r_center r1) (r_length r1) (r_width r1) (- r_angle r1) p /\
     in_rectangle (r_center r2) (r_length r2) (r_width r2) (r_angle r2) p).
Proof.
  intros [? ?] [? ?] Hi. unfold rotated_rectangles_intersect in Hi. apply orb_true_iff in Hi as [Hc|Hc].
  - apply has_corner_inside_sound in Hc as [p Hp]; auto. exists p. now left.
  - apply has_corner_inside_sound in Hc as [p [Hp1 Hp2]]; auto. exists p. right. auto.
Qed.

Lemma intersect_sym r1 r2 : rotated_rectangles_intersect r1 r2 = rotated_rectangles_intersect r2 r1.
Proof. apply orb_comm. Qed.

(** A rectangle is invariant under negating an angle that is a multiple of a
    quarter turn. *)
Lemma quarter_cases t : quarter_turns t ->
  (cos t = 0 /\ (sin t = 1 \/ sin t = -1)) \/ (sin t = 0 /\ (cos t = 1 \/ cos t = -1)).
Proof.
  intros [k ->].
  pose proof (Z.div_mod k 4) as Hk. assert (4 <> 0)%Z as H4 by lia. specialize (Hk H4).
  pose proof (Z.mod_pos_bound k 4) as Hm. assert (0 < 4)%Z as H5 by lia. specialize (Hm H5).
  set (q := (k / 4)%Z) in *. set (r := (k mod 4)%Z) in *. clearbody q r.
  assert (E : IZR k * (PI/2) = IZR r * (PI/2) + 2 * PI * IZR q).
  { rewrite Hk, plus_IZR, mult_IZR. field. }
  rewrite E, sin_turn, cos_turn.
  assert (r = 0 \/ r = 1 \/ r = 2 \/ r = 3)%Z as [ -> | [ -> | [ -> | -> ]]] by lia.
  - replace (0 * (PI/2)) with 0 by ring. rewrite cos_0, sin_0. lra.
  - replace (1 * (PI/2)) with (PI/2) by field. rewrite cos_PI2, sin_PI2. lra.
  - replace (2 * (PI/2)) with PI by field. rewrite cos_PI, sin_PI. lra.
  - replace (3 * (PI/2)) with (3*(PI/2)) by field. rewrite sin_3PI2, cos_3PI2. lra.
Qed.
Lemma in_rect_quarter c l w t p : quarter_turns t ->
  in_rectangle c l w (- t) p <-> in_rectangle c l w t p.
Proof.
  intros Hq. apply quarter_cases in Hq. unfold in_rectangle. rewrite cos_neg, sin_neg.
  set (C := cos t) in *. set (S := sin t) in *. clearbody C S.
  destruct Hq as [[ -> HS ] | [ -> HC ]].
  - split; intros (a & b & Ha & Hb & E1 & E2); exists (- a), (- b); repeat split; try lra.
  - split; intros (a & b & Ha & Hb & E1 & E2); exists a, b; repeat split; lra.
Qed.

Lemma intersect_sound_quarter r1 r2 : pos_rect r1 -> pos_rect r2 ->
  quarter_turns (r_angle r1) -> quarter_turns (r_angle r2) ->
  rotated_rectangles_intersect r1 r2 = true ->
  exists p, in_rectangle (r_center r1) (r_length r1) (r_width r1) (r_angle r1) p /\
            in_rectangle (r_center r2) (r_length r2) (r_width r2) (r_angle r2) p.
Proof.
  intros P1 P2 Q1 Q2 H. apply intersect_mirror_sound in H as [p [[H1 H2]|[H1 H2]]]; auto;
  exists p; split; auto; now apply in_rect_quarter.
Qed.

(** Exactness for two equal rectangles with heading 0 (parallel traffic). *)
Lemma intersect_exact_aligned l w c1 c2 : 0 <= l -> 0 <= w ->
  rotated_rectangles_intersect (Rect c1 l w 0) (Rect c2 l w 0) = true <->
  exists p, in_rectangle c1 l w 0 p /\ in_rectangle c2 l w 0 p.
Proof.
  intros Hl Hw. split.
  - intros H. apply (intersect_sound_quarter (Rect c1 l w 0) (Rect c2 l w 0)) in H; simpl;
      try (split; simpl; lra); try (exists 0%Z; lra). exact H.
  - intros (p & (a & b & Ha & Hb & E1 & E2) & (a' & b' & Ha' & Hb' & E1' & E2')).
    rewrite cos_0, sin_0 in *.
    unfold rotated_rectangles_intersect. apply orb_true_iff. left.
    apply has_corner_inside_iff. simpl r_length; simpl r_width; simpl r_center; simpl r_angle.
    assert (Hx : - l <= fst c1 - fst c2 <= l) by lra.
    assert (Hy : - w <= snd c1 - snd c2 <= w) by lra.
    exists ((if Rle_dec (fst c1) (fst c2) then l/2 else - (l/2)),
            (if Rle_dec (snd c1) (snd c2) then w/2 else - (w/2))).
    split.
    + unfold nine_points, vsub, vadd, vscal; simpl.
      destruct (Rle_dec (fst c1) (fst c2)); destruct (Rle_dec (snd c1) (snd c2));
      [do 8 right; left|do 7 right; left|do 6 right; left|do 5 right; left]; f_equal; field.
    + unfold in_rectangle, vadd, vrot; simpl. rewrite Ropp_0, cos_0, sin_0.
      exists (fst c1 - fst c2 + if Rle_dec (fst c1) (fst c2) then l / 2 else - (l / 2)),
             (snd c1 - snd c2 + if Rle_dec (snd c1) (snd c2) then w / 2 else - (w / 2)).
      split; [|split; [|split; ring]].
      * destruct (Rle_dec (fst c1) (fst c2)); lra.
      * destruct (Rle_dec (snd c1) (snd c2)); lra.
Qed.

(** ** Distances *)
Lemma dist2_norm p q : dist2 p q = vnorm (vsub p q).
Proof. unfold dist2, vnorm, vsub; simpl. f_equal. ring. Qed.
Lemma vnorm_triangle u v : vnorm (vadd u v) <= vnorm u + vnorm v.
Proof.
  pose proof (vnorm_nonneg u). pose proof (vnorm_nonneg v).
  pose proof (vnorm_sq u) as E1. pose proof (vnorm_sq v) as E2.
  unfold vnorm at 1. apply sqrt_le_of_sq; [lra|]. unfold vadd; simpl.
  assert (fst u * fst v + snd u * snd v <= vnorm u * vnorm v).
  { destruct (Rle_dec (fst u * fst v + snd u * snd v) 0); [nra|].
    apply Rsqr_incr_0_var; [|nra]. unfold Rsqr.
    replace (vnorm u * vnorm v * (vnorm u * vnorm v)) with ((vnorm u * vnorm u) * (vnorm v * vnorm v)) by ring.
    rewrite E1, E2. pose proof (Rle_0_sqr (fst u * snd v - snd u * fst v)). unfold Rsqr in *. lra. }
  nra.
Qed.
Lemma in_rect_dist c l w t p : in_rectangle c l w t p ->
  vnorm (vsub p c) <= sqrt ((l/2)*(l/2) + (w/2)*(w/2)).
Proof.
  intros (a & b & Ha & Hb & E1 & E2). unfold vnorm, vsub; simpl. apply sqrt_le_1_alt.
  rewrite E1, E2. pose proof (cos_sin_1 t) as H.
  replace ((fst c + a * cos t - b * sin t - fst c) * (fst c + a * cos t - b * sin t - fst c) +
     (snd c + a * sin t + b * cos t - snd c) * (snd c + a * sin t + b * cos t - snd c))
    with (a * a * (cos t * cos t + sin t * sin t) + b * b * (cos t * cos t + sin t * sin t)) by ring.
  rewrite H. nra.
Qed.
Lemma intersect_dist r1 r2 : pos_rect r1 -> pos_rect r2 ->
  rotated_rectangles_intersect r1 r2 = true ->
  vnorm (vsub (r_center r2) (r_center r1)) <=
    sqrt ((r_length r1/2)*(r_length r1/2) + (r_width r1/2)*(r_width r1/2)) +
    sqrt ((r_length r2/2)*(r_length r2/2) + (r_width r2/2)*(r_width r2/2)).
Proof.
  intros P1 P2 H. apply intersect_mirror_sound in H; auto.
  assert (exists p, vnorm (vsub p (r_center r1)) <= sqrt ((r_length r1/2)*(r_length r1/2) + (r_width r1/2)*(r_width r1/2)) /\
           vnorm (vsub p (r_center r2)) <= sqrt ((r_length r2/2)*(r_length r2/2) + (r_width r2/2)*(r_width r2/2))) as (p & H1 & H2).
  { destruct H as [p [[H1 H2]|[H1 H2]]]; exists p; split; eapply in_rect_dist; eauto. }
  replace (vsub (r_center r2) (r_center r1)) with
    (vadd (vscal (-1) (vsub p (r_center r2))) (vsub p (r_center r1))).
  2: { unfold vadd, vscal, vsub; simpl; f_equal; ring. }
  eapply Rle_trans; [apply vnorm_triangle|]. rewrite vnorm_scal.
  replace (Rabs (-1)) with 1 by (rewrite Rabs_left1; lra). lra.
Qed.

(** Clipping of confidence regions *)
Lemma clip_confidence_in_box lo hi theta ds : lo <= hi ->
  let '(th, ds') := clip_confidence lo hi theta ds in
  lo <= th <= hi /\ (forall d, In d ds' -> lo <= th + d <= hi).
Proof.
  intros H. unfold clip_confidence. pose proof (Rclip_bounds theta lo hi H). split; auto.
  intros d Hd. apply in_map_iff in Hd as (d0 & <- & _).
  pose proof (Rclip_bounds d0 (lo - Rclip theta lo hi) (hi - Rclip theta lo hi)). lra.
Qed.
