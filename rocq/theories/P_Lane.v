(** Proofs about M_Lane. *)
From Verif Require Import Prelude M_Utils M_Lane S_Geometry P_Base P_Utils.
From Coq Require Import Lra Lia Psatz.
From Coquelicot Require Import Coquelicot.
Open Scope R_scope.

Global Arguments straight_dir : simpl never.
Global Arguments straight_local : simpl never.
Global Arguments straight_heading : simpl never.
Global Arguments atan2 : simpl never.
Global Arguments vnorm : simpl never.

(** ** atan2 *)
Lemma atan2_polar y x : (x, y) <> (0, 0) ->
  x = vnorm (x, y) * cos (atan2 y x) /\ y = vnorm (x, y) * sin (atan2 y x).
Proof.
  intros Hn. unfold atan2, vnorm; simpl.
  assert (Hcs : forall z, cos (atan z) = / sqrt (1 + z * z) /\ sin (atan z) = z / sqrt (1 + z * z)).
  { intros z. assert (0 < sqrt (1 + z * z)) by (apply sqrt_lt_R0; nra).
    assert (Hc : cos (atan z) = / sqrt (1 + z * z)).
    { rewrite cos_atan. unfold Rsqr. field. lra. }
    split; auto. pose proof (tan_atan z) as Ht. unfold tan in Ht.
    assert (cos (atan z) <> 0).
    { rewrite Hc. apply Rinv_neq_0_compat. lra. }
    replace (sin (atan z)) with (sin (atan z) / cos (atan z) * cos (atan z)) by (field; auto).
    rewrite Ht, Hc. field. lra. }
  assert (Hs : forall x, x <> 0 -> sqrt (x * x + y * y) = Rabs x * sqrt (1 + y / x * (y / x))).
  { intros u Hu. rewrite <- sqrt_Rsqr_abs, <- sqrt_mult_alt by apply Rle_0_sqr.
    f_equal. unfold Rsqr. field. auto. }
  destruct (Rltb 0 x) eqn:E1; rbool.
  - rewrite (Hs x) by lra. rewrite Rabs_pos_eq by lra. destruct (Hcs (y / x)) as [-> ->].
    assert (0 < sqrt (1 + y / x * (y / x))) by (apply sqrt_lt_R0; nra).
    split; field; lra.
  - destruct (Rltb x 0) eqn:E2; rbool.
    + rewrite (Hs x) by lra. rewrite Rabs_left by lra.
      assert (0 < sqrt (1 + y / x * (y / x))) by (apply sqrt_lt_R0; nra).
      assert (H1 : cos (if Rleb 0 y then atan (y / x) + PI else atan (y / x) - PI) = - cos (atan (y / x))).
      { destruct (Rleb 0 y); [rewrite neg_cos; lra|]. unfold Rminus. rewrite <- neg_cos.
        replace (atan (y / x) + - PI) with (atan (y/x) + PI + 2 * PI * IZR (-1)) by (simpl; ring).
        rewrite cos_turn. reflexivity. }
      assert (H2 : sin (if Rleb 0 y then atan (y / x) + PI else atan (y / x) - PI) = - sin (atan (y / x))).
      { destruct (Rleb 0 y); [rewrite neg_sin; lra|]. unfold Rminus. rewrite <- neg_sin.
        replace (atan (y / x) + - PI) with (atan (y/x) + PI + 2 * PI * IZR (-1)) by (simpl; ring).
        rewrite sin_turn. reflexivity. }
      rewrite H1, H2. destruct (Hcs (y / x)) as [-> ->]. split; field; lra.
    + assert (x = 0) by lra; subst x. replace (0 * 0 + y * y) with (y * y) by ring.
      destruct (Rltb 0 y) eqn:E3; rbool.
      * rewrite sqrt_sq, cos_PI2, sin_PI2 by lra. lra.
      * destruct (Rltb y 0) eqn:E4; rbool.
        -- rewrite cos_neg, sin_neg, cos_PI2, sin_PI2. replace (y * y) with (-y * -y) by ring.
           rewrite sqrt_sq by lra. lra.
        -- exfalso. apply Hn. f_equal. lra.
Qed.
Lemma atan2_bounds y x : - PI < atan2 y x <= PI.
Proof.
  pose proof PI_RGT_0. unfold atan2. pose proof (atan_bound (y / x)).
  destruct (Rltb 0 x) eqn:E1; [lra|]. destruct (Rltb x 0) eqn:E2; rbool.
  - destruct (Rleb 0 y) eqn:E3; rbool.
    + assert (y / x <= 0). { unfold Rdiv. assert (/ x < 0) by (apply Rinv_lt_0_compat; lra). nra. }
      assert (atan (y / x) <= 0).
      { destruct H1 as [H1|H1]; [left; rewrite <- atan_0; now apply atan_increasing|rewrite H1, atan_0; lra]. }
      lra.
    + assert (0 < y / x). { unfold Rdiv. assert (/ x < 0) by (apply Rinv_lt_0_compat; lra). nra. }
      assert (0 < atan (y / x)) by (rewrite <- atan_0; now apply atan_increasing). lra.
  - destruct (Rltb 0 y); [lra|]. destruct (Rltb y 0); lra.
Qed.
(** Two angles with equal cosine and sine differ by full turns. *)
Lemma wrap_zero_unique w : - PI <= w < PI -> cos w = 1 -> sin w = 0 -> w = 0.
Proof.
  intros Hw Hc Hs. pose proof PI_RGT_0.
  destruct (Rtotal_order w 0) as [Hlt|[->|Hgt]]; [|reflexivity|].
  - destruct (Req_dec w (-PI)) as [->|Hne]; [rewrite cos_neg, cos_PI in Hc; lra|].
    assert (0 < sin (- w)) by (apply sin_gt_0; lra). rewrite sin_neg in H0. lra.
  - assert (0 < sin w) by (apply sin_gt_0; lra). lra.
Qed.
Lemma wrap_congr a b : cos a = cos b -> sin a = sin b -> wrap_to_pi a = wrap_to_pi b.
Proof.
  intros Hc Hs. set (d := a - b).
  assert (Hd : cos d = 1 /\ sin d = 0).
  { unfold d. rewrite cos_minus, sin_minus, Hc, Hs. pose proof (cos_sin_1 b). lra. }
  assert (wrap_to_pi d = 0).
  { apply wrap_zero_unique; [apply wrap_bounds|rewrite cos_wrap|rewrite sin_wrap]; apply Hd. }
  destruct (wrap_is_wrapped d) as [_ [k Hk]]. rewrite H in Hk.
  replace a with (b + 2 * PI * IZR (- k)); [apply wrap_turn|]. rewrite opp_IZR. unfold d in Hk. lra.
Qed.
Lemma atan2_wrap_polar rho phi c : 0 < rho ->
  wrap_to_pi (atan2 (rho * sin phi) (rho * cos phi) - c) = wrap_to_pi (phi - c).
Proof.
  intros Hr.
  assert (Hn : vnorm (rho * cos phi, rho * sin phi) = rho).
  { replace (rho * cos phi, rho * sin phi) with (vscal rho (cos phi, sin phi)) by reflexivity.
    rewrite vnorm_scal, vnorm_unit, Rabs_pos_eq; lra. }
  destruct (atan2_polar (rho * sin phi) (rho * cos phi)) as [H1 H2].
  { intros E. rewrite E in Hn. rewrite (proj2 (vnorm_zero (0,0)) eq_refl) in Hn. lra. }
  rewrite Hn in H1, H2. apply Rmult_eq_reg_l in H1; [|lra]. apply Rmult_eq_reg_l in H2; [|lra].
  apply wrap_congr; rewrite !cos_minus || rewrite !sin_minus; congruence.
Qed.

(** ** Well-formed lanes *)
Definition wf_geom (g : geometry) : Prop :=
  match g with
  | GStraight st en | GSine st en _ _ _ => st <> en
  | GCircular _ r _ _ _ => 0 < r
  end.

Lemma norm_pos st en : st <> en -> 0 < vnorm (vsub en st).
Proof.
  intros H. destruct (vnorm_nonneg (vsub en st)) as [H1|H1]; auto.
  exfalso. symmetry in H1. apply (proj1 (vnorm_zero _)) in H1. apply H.
  destruct st, en; unfold vsub in H1; simpl in H1. injection H1 as H1 H2. f_equal; lra.
Qed.
Lemma straight_dir_unit st en : st <> en ->
  fst (straight_dir st en) * fst (straight_dir st en) + snd (straight_dir st en) * snd (straight_dir st en) = 1.
Proof.
  intros H. apply norm_pos in H. pose proof (vnorm_sq (vsub en st)) as E.
  unfold straight_dir, vscal. set (n := vnorm (vsub en st)) in *. clearbody n. simpl fst in *; simpl snd in *.
  replace (/ n * (fst en - fst st) * (/ n * (fst en - fst st)) + / n * (snd en - snd st) * (/ n * (snd en - snd st)))
    with (/ n * / n * (((fst en - fst st) * (fst en - fst st)) + ((snd en - snd st) * (snd en - snd st)))) by ring.
  rewrite <- E. field. lra.
Qed.
Lemma straight_dir_heading st en : st <> en ->
  straight_dir st en = (cos (straight_heading st en), sin (straight_heading st en)).
Proof.
  intros H. pose proof (norm_pos _ _ H) as Hp.
  destruct (atan2_polar (snd en - snd st) (fst en - fst st)) as [H1 H2].
  { intros E. injection E as E1 E2. apply H. destruct st, en; simpl in *; f_equal; lra. }
  unfold straight_dir, straight_heading, vscal. unfold vsub in *.
  set (n := vnorm (fst en - fst st, snd en - snd st)) in *.
  set (h := atan2 _ _) in *. simpl. apply f_equal2; [rewrite H1|rewrite H2]; field; lra.
Qed.

Lemma straight_pos_local st en p : st <> en ->
  straight_position st en (fst (straight_local st en p)) (snd (straight_local st en p)) = p.
Proof.
  intros H. apply straight_dir_unit in H. unfold straight_position, straight_local, straight_lat.
  set (d := straight_dir st en) in *. clearbody d. destruct d as [a b], p as [x y], st as [u v].
  unfold vadd, vscal, vsub, vdot; simpl in *. apply f_equal2.
  - transitivity (u + (x - u) * (a * a + b * b)); [ring|rewrite H; ring].
  - transitivity (v + (y - v) * (a * a + b * b)); [ring|rewrite H; ring].
Qed.
Lemma straight_local_pos st en s d : st <> en ->
  straight_local st en (straight_position st en s d) = (s, d).
Proof.
  intros H. apply straight_dir_unit in H. unfold straight_position, straight_local, straight_lat.
  set (k := straight_dir st en) in *. clearbody k. destruct k as [a b], st as [u v].
  unfold vadd, vscal, vsub, vdot; simpl in *. apply f_equal2.
  - transitivity (s * (a * a + b * b)); [ring|rewrite H; ring].
  - transitivity (d * (a * a + b * b)); [ring|rewrite H; ring].
Qed.

Lemma circ_dir_sq cw : circ_dir cw * circ_dir cw = 1.
Proof. destruct cw; simpl; lra. Qed.
Lemma circ_dir_cases cw : circ_dir cw = 1 \/ circ_dir cw = -1.
Proof. destruct cw; simpl; lra. Qed.

(** world -> lane -> world *)
Lemma position_of_local g p : wf_geom g ->
  geom_position g (fst (geom_local g p)) (snd (geom_local g p)) = p.
Proof.
  destruct g as [st en|st en a pu ph|c r sp ep cw]; intros H;
    cbn [geom_local geom_position wf_geom] in *.
  - now apply straight_pos_local.
  - destruct (straight_local st en p) as [s d] eqn:E. cbn [fst snd].
    replace (d - a * sin (pu * s + ph) + a * sin (pu * s + ph)) with d by ring.
    pose proof (straight_pos_local st en p H) as H'. now rewrite E in H'.
  - cbv zeta. cbn [fst snd].
    assert (Hp : p = vadd c (vsub p c)).
    { destruct p, c; unfold vadd, vsub; simpl; apply f_equal2; ring. }
    set (delta := vsub p c) in *. clearbody delta. subst p. set (w := wrap_to_pi (atan2 (snd delta) (fst delta) - sp)).
    pose proof (circ_dir_sq cw) as Hd. set (k := circ_dir cw) in *.
    replace (k * (k * (sp + w - sp) * r) / r + sp) with (k * k * w + sp) by (field; lra).
    replace (r - k * (r - vnorm delta) * k) with (r * (1 - k * k) + k * k * vnorm delta) by ring.
    rewrite Hd. replace (1 * w + sp) with (sp + w) by ring.
    replace (r * (1 - 1) + 1 * vnorm delta) with (vnorm delta) by ring.
    destruct (Req_dec (vnorm delta) 0) as [Hz|Hz].
    + rewrite Hz. apply (proj1 (vnorm_zero _)) in Hz. rewrite Hz. unfold vadd, vscal; simpl.
      apply f_equal2; ring.
    + destruct (atan2_polar (snd delta) (fst delta)) as [H1 H2].
      { intros E. apply Hz. apply vnorm_zero. rewrite (surjective_pairing delta). exact E. }
      rewrite <- (surjective_pairing delta) in H1, H2.
      assert (Hc : cos (sp + w) = cos (atan2 (snd delta) (fst delta))).
      { unfold w. rewrite cos_plus, cos_wrap, sin_wrap, <- cos_plus. f_equal. ring. }
      assert (Hs : sin (sp + w) = sin (atan2 (snd delta) (fst delta))).
      { unfold w. rewrite sin_plus, cos_wrap, sin_wrap, <- sin_plus. f_equal. ring. }
      rewrite Hc, Hs. unfold vadd, vscal; simpl. now rewrite <- H1, <- H2.
Qed.

(** lane -> world -> lane, straight and sine *)
Lemma local_of_position_straight st en s d : st <> en ->
  geom_local (GStraight st en) (geom_position (GStraight st en) s d) = (s, d).
Proof. intros H. simpl. now apply straight_local_pos. Qed.
Lemma local_of_position_sine st en a pu ph s d : st <> en ->
  geom_local (GSine st en a pu ph) (geom_position (GSine st en a pu ph) s d) = (s, d).
Proof. intros H. cbn [geom_local geom_position]. rewrite straight_local_pos by auto. apply f_equal. ring. Qed.

(** lane -> world -> lane, circular: the longitudinal coordinate is wrapped. *)
Lemma local_of_position_circular c r sp ep cw s d : 0 < r -> 0 < r - d * circ_dir cw ->
  geom_local (GCircular c r sp ep cw) (geom_position (GCircular c r sp ep cw) s d) =
  (circ_dir cw * wrap_to_pi (circ_dir cw * s / r) * r, d).
Proof.
  intros Hr Hrho. unfold geom_local, geom_position.
  pose proof (circ_dir_sq cw) as Hd. set (k := circ_dir cw) in *.
  set (rho := r - d * k) in *. set (phi := k * s / r + sp).
  assert (Hdelta : vsub (vadd c (vscal rho (cos phi, sin phi))) c = (rho * cos phi, rho * sin phi)).
  { unfold vsub, vadd, vscal; simpl. apply f_equal2; ring. }
  rewrite Hdelta. simpl fst; simpl snd. rewrite atan2_wrap_polar by auto.
  replace (phi - sp) with (k * s / r) by (unfold phi; ring).
  assert (Hn : vnorm (rho * cos phi, rho * sin phi) = rho).
  { replace (rho * cos phi, rho * sin phi) with (vscal rho (cos phi, sin phi)) by reflexivity.
    rewrite vnorm_scal, vnorm_unit, Rabs_pos_eq; lra. }
  rewrite Hn. apply f_equal2; [ring|]. unfold rho.
  replace (k * (r - (r - d * k))) with (d * (k * k)) by ring. rewrite Hd. ring.
Qed.
Lemma local_of_position_circular_iff c r sp ep cw s d : 0 < r -> 0 < r - d * circ_dir cw ->
  geom_local (GCircular c r sp ep cw) (geom_position (GCircular c r sp ep cw) s d) = (s, d) <->
  - PI <= circ_dir cw * s / r < PI.
Proof.
  intros Hr Hrho. rewrite local_of_position_circular by auto.
  pose proof (circ_dir_sq cw) as Hd. set (k := circ_dir cw) in *. split.
  - intros E. injection E as E.
    replace (k * s / r) with (wrap_to_pi (k * s / r)); [apply wrap_bounds|].
    rewrite <- E at 2. replace (k * (k * wrap_to_pi (k * s / r) * r) / r) with (k * k * wrap_to_pi (k * s / r)) by (field; lra).
    rewrite Hd. ring.
  - intros H. rewrite wrap_id by auto. apply f_equal2; [|reflexivity].
    replace (k * (k * s / r) * r) with (k * k * s) by (field; lra). rewrite Hd. ring.
Qed.

(** Straight lanes preserve distances. *)
Lemma straight_isometry st en s d s' d' : st <> en ->
  dist2 (geom_position (GStraight st en) s d) (geom_position (GStraight st en) s' d')
  = sqrt ((s - s')^2 + (d - d')^2).
Proof.
  intros H. apply straight_dir_unit in H. unfold dist2. cbn [geom_position].
  unfold straight_position, straight_lat. set (k := straight_dir st en) in *. clearbody k.
  destruct k as [a b], st as [u v]. unfold vadd, vscal; simpl in *. f_equal.
  transitivity (((s - s') * (s - s') + (d - d') * (d - d')) * (a * a + b * b)); [ring|rewrite H; ring].
Qed.

(** ** Tangents *)
Lemma tangent_straight st en s : st <> en ->
  let g := GStraight st en in
  derivable_pt_lim (fun t => fst (geom_position g t 0)) s (cos (geom_heading g s)) /\
  derivable_pt_lim (fun t => snd (geom_position g t 0)) s (sin (geom_heading g s)).
Proof.
  intros H g. unfold g; cbn [geom_position geom_heading]. pose proof (straight_dir_heading st en H) as E.
  unfold straight_position, straight_lat. rewrite E. unfold vadd, vscal; simpl.
  split; apply is_derive_Reals; auto_derive; auto; ring.
Qed.
Lemma tangent_circular c r sp ep cw s : 0 < r ->
  let g := GCircular c r sp ep cw in
  derivable_pt_lim (fun t => fst (geom_position g t 0)) s (cos (geom_heading g s)) /\
  derivable_pt_lim (fun t => snd (geom_position g t 0)) s (sin (geom_heading g s)).
Proof.
  intros H g. unfold g; simpl. unfold vadd, vscal; simpl.
  assert (Hc : forall x, cos (x + PI / 2 * circ_dir cw) = - circ_dir cw * sin x).
  { intros x. destruct cw; simpl.
    - rewrite Rmult_1_r, cos_plus, cos_PI2, sin_PI2. ring.
    - replace (PI / 2 * -1) with (- (PI/2)) by ring.
      rewrite cos_plus, cos_neg, sin_neg, cos_PI2, sin_PI2. ring. }
  assert (Hs : forall x, sin (x + PI / 2 * circ_dir cw) = circ_dir cw * cos x).
  { intros x. destruct cw; simpl.
    - rewrite Rmult_1_r, sin_plus, cos_PI2, sin_PI2. ring.
    - replace (PI / 2 * -1) with (- (PI/2)) by ring.
      rewrite sin_plus, cos_neg, sin_neg, cos_PI2, sin_PI2. ring. }
  rewrite Hc, Hs. set (k := circ_dir cw). clearbody k.
  split; apply is_derive_Reals; auto_derive; auto; unfold Rdiv; try (field; lra).
Qed.
Lemma tangent_sine st en a pu ph s : st <> en ->
  let g := GSine st en a pu ph in
  exists m, 0 < m /\
  derivable_pt_lim (fun t => fst (geom_position g t 0)) s (m * cos (geom_heading g s)) /\
  derivable_pt_lim (fun t => snd (geom_position g t 0)) s (m * sin (geom_heading g s)).
Proof.
  intros H g. unfold g; cbn [geom_position geom_heading]. pose proof (straight_dir_heading st en H) as E.
  set (z := a * pu * cos (pu * s + ph)). exists (sqrt (1 + z * z)).
  assert (Hp : 0 < sqrt (1 + z * z)) by (apply sqrt_lt_R0; nra).
  split; auto.
  unfold straight_position, straight_lat. rewrite E. unfold vadd, vscal; simpl.
  set (h := straight_heading st en). clearbody h.
  assert (Hcs : sqrt (1 + z * z) * cos (atan z) = 1 /\ sqrt (1 + z * z) * sin (atan z) = z).
  { assert (Hc : cos (atan z) = / sqrt (1 + z * z)).
    { rewrite cos_atan. unfold Rsqr. field. lra. }
    assert (Hcn : cos (atan z) <> 0) by (rewrite Hc; apply Rinv_neq_0_compat; lra).
    pose proof (tan_atan z) as Ht. unfold tan in Ht.
    split; [rewrite Hc; field; lra|].
    replace (sin (atan z)) with (sin (atan z) / cos (atan z) * cos (atan z)) by (field; auto).
    rewrite Ht, Hc. field. lra. }
  destruct Hcs as [H1 H2]. rewrite cos_plus, sin_plus. split.
  - replace (sqrt (1 + z * z) * (cos h * cos (atan z) - sin h * sin (atan z)))
      with (cos h * (sqrt (1 + z * z) * cos (atan z)) - sin h * (sqrt (1 + z * z) * sin (atan z))) by ring.
    rewrite H1, H2. apply is_derive_Reals. auto_derive; auto. unfold z. ring.
  - replace (sqrt (1 + z * z) * (sin h * cos (atan z) + cos h * sin (atan z)))
      with (sin h * (sqrt (1 + z * z) * cos (atan z)) + cos h * (sqrt (1 + z * z) * sin (atan z))) by ring.
    rewrite H1, H2. apply is_derive_Reals. auto_derive; auto. unfold z. ring.
Qed.
(** The lateral coordinate is measured along the left normal of the heading. *)
Lemma lateral_normal_straight st en s d : st <> en ->
  let g := GStraight st en in
  geom_position g s d = vadd (geom_position g s 0) (- d * sin (geom_heading g s), d * cos (geom_heading g s)).
Proof.
  intros H g. unfold g; cbn [geom_position geom_heading]. unfold straight_position, straight_lat.
  rewrite (straight_dir_heading _ _ H). unfold vadd, vscal; simpl. apply f_equal2; ring.
Qed.
Lemma lateral_normal_circular c r sp ep cw s d :
  let g := GCircular c r sp ep cw in
  geom_position g s d = vadd (geom_position g s 0) (- d * sin (geom_heading g s), d * cos (geom_heading g s)).
Proof.
  intros g. unfold g; simpl. unfold vadd, vscal; simpl.
  set (phi := circ_dir cw * s / r + sp). clearbody phi.
  destruct cw; simpl.
  - replace (PI / 2 * 1) with (PI/2) by ring. rewrite cos_plus, sin_plus, cos_PI2, sin_PI2. apply f_equal2; ring.
  - replace (PI / 2 * -1) with (- (PI/2)) by ring.
    rewrite sin_plus, cos_plus, cos_neg, sin_neg, cos_PI2, sin_PI2. apply f_equal2; ring.
Qed.

(** ** Predicates *)
Lemma on_lane_iff l p s d margin :
  (s = None \/ s = Some (fst (l_local l p))) -> (d = None \/ d = Some (snd (l_local l p))) ->
  on_lane l p s d margin = true <->
  Rabs (snd (l_local l p)) <= l_width l / 2 + margin /\
  -5 <= fst (l_local l p) < l_length l + 5.
Proof.
  intros Hs Hd. unfold on_lane.
  assert (E : match s with
     | Some sv => match d with Some dv => if Reqb sv 0 || Reqb dv 0 then l_local l p else (sv, dv)
                  | None => l_local l p end
     | None => l_local l p end = l_local l p).
  { destruct Hs as [-> | ->]; auto. destruct Hd as [-> | ->]; auto.
    destruct (_ || _); auto. now destruct (l_local l p). }
  rewrite E. destruct (l_local l p) as [s' d']; simpl. unfold l_width_at, LANE_VEHICLE_LENGTH.
  rewrite !andb_true_iff, !Rleb_true, Rltb_true. tauto.
Qed.
Lemma reachable_iff l p :
  is_reachable_from l p = true <->
  l_forbidden l = false /\ Rabs (snd (l_local l p)) <= 2 * l_width l /\
  0 <= fst (l_local l p) < l_length l + 5.
Proof.
  unfold is_reachable_from. destruct (l_forbidden l); [split; [easy|intros [? _]; easy]|].
  destruct (l_local l p) as [s d]; simpl. unfold l_width_at, LANE_VEHICLE_LENGTH.
  rewrite !andb_true_iff, !Rleb_true, Rltb_true. tauto.
Qed.
Lemma after_end_iff l p s : (s = None \/ s = Some (fst (l_local l p))) ->
  after_end l p s = true <-> l_length l - 5/2 < fst (l_local l p).
Proof.
  intros Hs. unfold after_end, LANE_VEHICLE_LENGTH.
  destruct Hs as [-> | ->]; [apply Rltb_true|]. destruct (Reqb _ 0); apply Rltb_true.
Qed.
Lemma distance_nonneg l p : 0 <= l_distance l p.
Proof.
  unfold l_distance. destruct (l_local l p) as [s r].
  pose proof (Rabs_pos r). pose proof (Rmax_r (s - l_length l) 0). pose proof (Rmax_r (0 - s) 0). lra.
Qed.
Lemma distance_zero_iff l p : 0 <= l_length l ->
  l_distance l p = 0 <-> snd (l_local l p) = 0 /\ 0 <= fst (l_local l p) <= l_length l.
Proof.
  unfold l_distance. destruct (l_local l p) as [s r]; simpl. intros Hl.
  pose proof (Rabs_pos r). pose proof (Rmax_r (s - l_length l) 0). pose proof (Rmax_r (0 - s) 0).
  pose proof (Rmax_l (s - l_length l) 0). pose proof (Rmax_l (0 - s) 0). split.
  - intros E. assert (Rabs r = 0) by lra. split; [|lra].
    destruct (Req_dec r 0); auto. now apply Rabs_no_R0 in H5.
  - intros [-> H4]. rewrite Rabs_R0, !Rmax_right by lra. lra.
Qed.
Lemma distance_heading_bounds l p h w : 0 <= w ->
  l_distance l p <= l_distance_with_heading l p (Some h) w <= l_distance l p + w * PI.
Proof.
  intros Hw. unfold l_distance_with_heading, l_distance. destruct (l_local l p) as [s r].
  pose proof (wrap_bounds (h - l_heading l s)) as Hb.
  assert (0 <= Rabs (wrap_to_pi (h - l_heading l s)) <= PI).
  { split; [apply Rabs_pos|]. apply Rabs_le. lra. }
  nra.
Qed.
Lemma distance_zero_curve g w lt fb sl pr p : wf_geom g ->
  let l := Lane g w lt fb sl pr in 0 <= l_length l ->
  l_distance l p = 0 -> exists s, 0 <= s <= l_length l /\ p = l_position l s 0.
Proof.
  intros Hg l Hl H. apply distance_zero_iff in H as [H1 H2]; auto.
  exists (fst (l_local l p)). split; auto. unfold l_position, l_local in *.
  rewrite <- (position_of_local g p Hg) at 1. simpl in *. now rewrite H1.
Qed.
Lemma curve_distance_zero l s : wf_geom (l_geom l) ->
  (forall c r sp ep cw, l_geom l = GCircular c r sp ep cw -> - PI <= circ_dir cw * s / r < PI) ->
  0 <= s <= l_length l -> l_distance l (l_position l s 0) = 0.
Proof.
  intros Hg Hc Hs. apply distance_zero_iff; [lra|].
  assert (E : l_local l (l_position l s 0) = (s, 0)).
  { unfold l_local, l_position. destruct (l_geom l) as [st en|st en a pu ph|c r sp ep cw] eqn:El.
    - now apply local_of_position_straight.
    - now apply local_of_position_sine.
    - apply local_of_position_circular_iff; simpl in Hg; eauto. rewrite Rmult_0_l. lra. }
  rewrite E. simpl. lra.
Qed.
Lemma straight_ends st en : st <> en ->
  geom_position (GStraight st en) 0 0 = st /\
  geom_position (GStraight st en) (geom_length (GStraight st en)) 0 = en.
Proof.
  intros H. pose proof (norm_pos _ _ H) as Hn. cbn [geom_position geom_length].
  unfold straight_position, straight_lat, straight_dir. set (n := vnorm (vsub en st)) in *. clearbody n.
  destruct st as [a b], en as [c d]. unfold vadd, vscal, vsub; simpl.
  split; apply f_equal2; field; lra.
Qed.
Lemma long_arc_negative : exists g s,
  0 <= s <= geom_length g /\ fst (geom_local g (geom_position g s 0)) < 0.
Proof.
  pose proof PI_RGT_0. exists (GCircular (0,0) 10 0 (3 * PI / 2) true), (10 * (3 * PI / 2)).
  split; [simpl; lra|].
  rewrite local_of_position_circular by (simpl; lra). simpl.
  replace (1 * (10 * (3 * PI / 2)) / 10) with (- (PI/2) + 2 * PI * IZR 1) by (simpl; field).
  rewrite wrap_turn, wrap_id by lra. lra.
Qed.
Lemma straight_x_local x y p :
  0 < x -> straight_local (0, y) (x, y) p = (fst p, snd p - y) /\ geom_length (GStraight (0, y) (x, y)) = x.
Proof.
  intros Hx. cbn [geom_length].
  assert (Hn : vnorm (vsub (x, y) (0, y)) = x).
  { unfold vnorm, vsub; simpl. replace ((x - 0) * (x - 0) + (y - y) * (y - y)) with (x * x) by ring.
    apply sqrt_sq; lra. }
  split; auto. unfold straight_local, straight_lat, straight_dir. rewrite Hn.
  unfold vdot, vscal, vsub; simpl. apply f_equal2; field; lra.
Qed.
Lemma default_lane_example :
  let l := default_lane (GStraight (0, 0) (100, 0)) in
  wf_geom (l_geom l) /\ 0 <= l_length l /\ on_lane l (50, 1) None None 0 = true.
Proof.
  intros l. destruct (straight_x_local 100 0 (50, 1)) as [H1 H2]; [lra|].
  unfold l_length. simpl l_geom. rewrite H2. split; [|split]; [|lra|].
  - simpl. intros E. injection E as E. lra.
  - apply on_lane_iff; auto. unfold l_local, l_length. simpl l_geom. cbn [geom_local].
    rewrite H1, H2. simpl. unfold DEFAULT_WIDTH. rewrite Rabs_pos_eq by lra. lra.
Qed.
