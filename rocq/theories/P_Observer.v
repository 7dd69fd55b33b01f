(** Lemmas about the interval observer. *)
From Coq Require Import Lia Lra.
From Verif Require Import Prelude M_Utils M_Lane M_Road M_Vehicle M_Kinematics M_Control M_Behavior M_Interval M_Observer S_Interval S_Observer P_Base P_Utils P_Interval T_Interval.
Open Scope R_scope.

(** ** Ranges of cosine and sine *)
Lemma cos_up x y : - PI <= x -> x <= y -> y <= 0 -> cos x <= cos y.
Proof.
  intros H1 H2 H3. rewrite <- (cos_neg x), <- (cos_neg y). destruct (Req_dec x y) as [-> |]; [lra|]. left. apply cos_decreasing_1; lra.
Qed.
Lemma cos_down x y : 0 <= x -> x <= y -> y <= PI -> cos y <= cos x.
Proof. intros H1 H2 H3. destruct (Req_dec x y) as [-> |]; [lra|]. left. apply cos_decreasing_1; lra. Qed.
Lemma cos_up2 x y : PI <= x -> x <= y -> y <= 2 * PI -> cos x <= cos y.
Proof. intros H1 H2 H3. destruct (Req_dec x y) as [-> |]; [lra|]. left. apply cos_increasing_1; lra. Qed.
Lemma cos_encloses psi x : - PI <= fst psi -> snd psi <= 2 * PI -> fst psi <= x <= snd psi ->
  fst (cos_interval psi) <= cos x <= snd (cos_interval psi).
Proof.
  destruct psi as [lo hi]. cbn [fst snd]. intros H1 H2 [A B]. pose proof (COS_bound x) as [C1 C2]. pose proof PI_RGT_0.
  unfold cos_interval. cbn [fst snd]. split.
  - destruct (Rleb lo PI && Rleb PI hi)%bool eqn:E; [exact C1|].
    assert (D : PI < lo \/ hi < PI).
    { apply Bool.andb_false_iff in E. destruct E as [E|E]; apply Rleb_false in E; [now left|now right]. }
    destruct D as [D|D]; [apply Rle_trans with (cos lo); [apply Rmin_l|apply cos_up2; lra]|].
    destruct (Rle_dec x 0); [apply Rle_trans with (cos lo); [apply Rmin_l|apply cos_up; lra]|apply Rle_trans with (cos hi); [apply Rmin_r|apply cos_down; lra]].
  - destruct (Rleb lo 0 && Rleb 0 hi)%bool eqn:E; [exact C2|].
    assert (D : 0 < lo \/ hi < 0).
    { apply Bool.andb_false_iff in E. destruct E as [E|E]; apply Rleb_false in E; [now left|now right]. }
    destruct D as [D|D]; [|apply Rle_trans with (cos hi); [apply cos_up; lra|apply Rmax_r]].
    destruct (Rle_dec x PI); [apply Rle_trans with (cos lo); [apply cos_down; lra|apply Rmax_l]|apply Rle_trans with (cos hi); [apply cos_up2; lra|apply Rmax_r]].
Qed.
Lemma sin_as_cos psi : sin_interval psi = cos_interval (PI / 2 - snd psi, PI / 2 - fst psi).
Proof.
  destruct psi as [lo hi]. unfold sin_interval, cos_interval. cbn [fst snd]. rewrite !cos_shift. 
  assert (B : forall a b c d : R, (a <= b <-> c <= d) -> Rleb a b = Rleb c d).
  { intros a b c d H. destruct (Rleb c d) eqn:E; [apply Rleb_true; apply Rleb_true in E; tauto|apply Rleb_false; apply Rleb_false in E].
    destruct (Rlt_or_le b a) as [|L]; [assumption|]. apply H in L. lra. }
  rewrite (B (PI / 2 - hi) PI (- PI / 2) hi) by lra. rewrite (B PI (PI / 2 - lo) lo (- PI / 2)) by lra.
  rewrite (B (PI / 2 - hi) 0 (PI / 2) hi) by lra. rewrite (B 0 (PI / 2 - lo) lo (PI / 2)) by lra.
  rewrite (Rmin_comm (sin hi)), (Rmax_comm (sin hi)), (Bool.andb_comm (Rleb (- PI / 2) hi)), (Bool.andb_comm (Rleb (PI / 2) hi)). reflexivity.
Qed.
Lemma sin_encloses psi x : - (3 * PI / 2) <= fst psi -> snd psi <= 3 * PI / 2 -> fst psi <= x <= snd psi ->
  fst (sin_interval psi) <= sin x <= snd (sin_interval psi).
Proof.
  intros H1 H2 H3. rewrite sin_as_cos, <- (cos_shift x). apply cos_encloses; cbn [fst snd]; lra.
Qed.

(** ** Boxes *)
Lemma product_in a b x y : fst a <= x <= snd a -> fst b <= y <= snd b -> fst (intervals_product a b) <= x * y <= snd (intervals_product a b).
Proof. apply product_sound. Qed.
Lemma negative_in a x : fst a <= x <= snd a -> fst (interval_negative_part a) <= Rmin x 0 <= snd (interval_negative_part a).
Proof. intros H. unfold interval_negative_part, Rmin. cbn [fst snd]. repeat destruct (Rle_dec _ _); lra. Qed.
Lemma diff_in a b x y : fst a <= x <= snd a -> fst b <= y <= snd b -> fst (intervals_diff a b) <= x - y <= snd (intervals_diff a b).
Proof. intros. unfold intervals_diff. cbn [fst snd]. lra. Qed.
Lemma clip_in i lo hi x : fst i <= x <= snd i -> lo <= hi -> fst (clip_both i lo hi) <= Rmax lo (Rmin x hi) <= snd (clip_both i lo hi).
Proof. intros. unfold clip_both, Rmin, Rmax. cbn [fst snd]. repeat destruct (Rle_dec _ _); lra. Qed.
Lemma grow_in x d dt noise y dy w : fst x <= y <= snd x -> fst d <= dy <= snd d -> 0 <= dt -> Rabs w <= noise ->
  fst (grow x d dt noise) <= y + dt * (dy + w) <= snd (grow x d dt noise).
Proof.
  intros Hx Hd Ht Hw. unfold grow. cbn [fst snd]. assert (- noise <= w <= noise) by (unfold Rabs in Hw; destruct (Rcase_abs w); lra). nra.
Qed.
Lemma inverse_in i v : 0 < fst i -> fst i <= v <= snd i -> 1 / snd i <= 1 / v <= 1 / fst i.
Proof.
  intros H [A B]. unfold Rdiv. rewrite !Rmult_1_l. split; apply Rinv_le_contravar; lra.
Qed.
Lemma section_in lo hi u p : fst lo <= fst p <= fst hi -> snd lo <= snd p <= snd hi ->
  fst (vector_interval_section (lo, hi) u) <= fst p * fst u + snd p * snd u <= snd (vector_interval_section (lo, hi) u).
Proof.
  intros H1 H2. destruct (C50_section_exact lo hi u) as [K _]; [lra|lra|]. apply K. exists p. auto.
Qed.
Lemma lateral_in l st en i p : l_geom l = GStraight st en -> fst (fst i) <= fst p <= fst (snd i) -> snd (fst i) <= snd p <= snd (snd i) ->
  fst (snd (interval_absolute_to_local i l)) <= snd (l_local l p) <= snd (snd (interval_absolute_to_local i l)).
Proof.
  destruct l as [ge w lt fb sl pr], i as [lo hi]. cbn [l_geom fst snd]. intros -> H1 H2.
  destruct (C50_straight_conversions_exact st en w lt fb sl pr lo hi) as (_ & [K _] & _); [lra|lra|]. apply K. exists p. auto.
Qed.

Lemma acceleration_features_in par u front i f s ta tha : possible i s -> possible_front front f -> 0 <= ip_time par ->
  List.length tha = 3%nat -> boxed (fst ta) tha (snd ta) ->
  let slower := match f with None => 0 | Some f => Rmin (m_speed f - m_speed s) 0 end in
  let closer := match f with None => 0 | Some f => Rmin ((fst (m_pos f) - fst (m_pos s)) * fst u + (snd (m_pos f) - snd (m_pos s)) * snd u - (ip_distance par + ip_time par * m_speed s)) 0 end in
  fst (intervals_product_vv ta (acceleration_box par u front i)) <= entry tha 1 * slower + entry tha 2 * closer <= snd (intervals_product_vv ta (acceleration_box par u front i)).
Proof.
  intros (Px & Py & Pv & _) Pf Ht La Ba slower closer.
  assert (B : boxed (fst (acceleration_box par u front i)) [0; slower; closer] (snd (acceleration_box par u front i))).
  { destruct front as [fi|], f as [f|]; cbn in Pf; try easy.
    - destruct Pf as (Fx & Fy & Fv & _). unfold acceleration_box. set (dx := intervals_diff (fst (fst (vi_pos fi)), fst (snd (vi_pos fi))) _). set (dy := intervals_diff (snd (fst (vi_pos fi)), snd (snd (vi_pos fi))) _).
      assert (Dx : fst dx <= fst (m_pos f) - fst (m_pos s) <= snd dx) by (apply diff_in; assumption).
      assert (Dy : fst dy <= snd (m_pos f) - snd (m_pos s) <= snd dy) by (apply diff_in; assumption).
      pose proof (section_in (fst dx, fst dy) (snd dx, snd dy) u (fst (m_pos f) - fst (m_pos s), snd (m_pos f) - snd (m_pos s)) Dx Dy) as Sc. cbn [fst snd] in Sc.
      pose proof (negative_in _ _ (diff_in _ _ _ _ Fv Pv)) as N1.
      set (ds := (ip_distance par + ip_time par * fst (vi_speed i), ip_distance par + ip_time par * snd (vi_speed i))).
      assert (Ds : fst ds <= ip_distance par + ip_time par * m_speed s <= snd ds) by (unfold ds; cbn [fst snd]; destruct Pv as [Pv0 Pv1]; split; apply Rplus_le_compat_l, Rmult_le_compat_l; assumption).
      pose proof (negative_in _ _ (diff_in _ _ _ _ Sc Ds)) as N2.
      split; [reflexivity|]. split; [reflexivity|]. intros [|[|[|k]]] Hk; cbn in Hk; try lia; cbn [fst snd entry nth]; [lra|exact N1|exact N2].
    - split; [reflexivity|]. split; [reflexivity|]. intros [|[|[|k]]] Hk; cbn in Hk; try lia; unfold slower, closer, entry; cbn; lra. }
  pose proof (product_vv_sound ta (acceleration_box par u front i) tha [0; slower; closer]) as K. rewrite La in K. specialize (K eq_refl Ba B).
  clearbody slower closer. cbn -[Rmult Rplus intervals_product_vv acceleration_box] in K. lra.
Qed.
Lemma steering_features_in l st en i s tb thb : l_geom l = GStraight st en -> possible i s -> 0 < fst (vi_speed i) ->
  List.length thb = 2%nat -> boxed (fst tb) thb (snd tb) ->
  fst (intervals_product_vv tb (steering_box l i)) <= entry thb 1 * (- snd (l_local l (m_pos s)) / m_speed s) <= snd (intervals_product_vv tb (steering_box l i)).
Proof.
  intros G (Px & Py & Pv & _) Hv Lb Bb. pose proof (lateral_in l st en (vi_pos i) (m_pos s) G Px Py) as La.
  set (p := - snd (l_local l (m_pos s)) / m_speed s).
  assert (B : boxed (fst (steering_box l i)) [0; p] (snd (steering_box l i))).
  { unfold steering_box. set (lat := snd (interval_absolute_to_local _ _)) in *.
    pose proof (inverse_in (vi_speed i) (m_speed s) Hv Pv) as Iv.
    pose proof (product_in (- snd lat, - fst lat) (1 / snd (vi_speed i), 1 / fst (vi_speed i)) (- snd (l_local l (m_pos s))) (1 / m_speed s)) as K.
    cbn [fst snd] in K. specialize (K ltac:(lra) Iv).
    replace (- snd (l_local l (m_pos s)) * (1 / m_speed s)) with p in K by (unfold p, Rdiv; ring).
    split; [reflexivity|]. split; [reflexivity|]. intros [|[|k]] Hk; cbn in Hk; try lia; cbn [fst snd entry nth]; [lra|exact K]. }
  pose proof (product_vv_sound tb (steering_box l i) thb [0; p]) as K. rewrite Lb in K. specialize (K eq_refl Bb B).
  clearbody p. cbn -[Rmult Rplus intervals_product_vv steering_box] in K. lra.
Qed.
Lemma boxed_nth lo x hi k n : boxed lo x hi -> List.length x = n -> (k < n)%nat -> nth k lo 0 <= entry x k <= nth k hi 0.
Proof. intros (_ & _ & B) L H. apply B. lia. Qed.

Lemma law_encloses par v0 ta tb u l st en psi_l front i dt f tha thb s s' :
  l_geom l = GStraight st en -> 0 <= dt -> 0 < fst (vi_speed i) -> 0 <= ip_time par -> 0 <= ip_acc_max par ->
  0 <= nth 0 (fst tb) 0 -> nth 0 (snd tb) 0 * dt <= 1 ->
  - PI <= fst (vi_heading i) -> snd (vi_heading i) <= 3 * PI / 2 ->
  - PI <= fst (vi_heading i) - psi_l -> snd (vi_heading i) - psi_l < PI ->
  List.length tha = 3%nat -> boxed (fst ta) tha (snd ta) -> List.length thb = 2%nat -> boxed (fst tb) thb (snd tb) ->
  possible i s -> possible_front front f ->
  drives (ip_acc_max par) (ip_distance par) (ip_time par) v0 u (fun p => snd (l_local l p)) psi_l f tha thb dt s s' ->
  possible (observer_law par v0 ta tb u l psi_l front i dt) s'.
Proof.
  intros G Hdt Hv Htm Hacc Hk Hkdt P1 P2 P3 P4 La Ba Lb Bb Ps Pf (wx & wy & wh & Wx & Wy & Wh & Ev & Eh & Ex & Ey).
  pose proof (acceleration_features_in par u front i f s ta tha Ps Pf Htm La Ba) as Fa. cbn zeta in Fa, Ev.
  pose proof (steering_features_in l st en i s tb thb G Ps Hv Lb Bb) as Fb.
  destruct Ps as (Px & Py & Pv & Ph). unfold observer_law, possible. cbn [vi_pos vi_speed vi_heading fst snd].
  set (ka := (nth 0 (fst ta) 0, nth 0 (snd ta) 0)). set (kb := (nth 0 (fst tb) 0, nth 0 (snd tb) 0)).
  assert (Ka : fst ka <= entry tha 0 <= snd ka) by (apply (boxed_nth _ _ _ 0 3 Ba La); lia).
  assert (Kb : fst kb <= entry thb 0 <= snd kb) by (apply (boxed_nth _ _ _ 0 2 Bb Lb); lia).
  split; [|split; [|split]].
  - rewrite Ex. apply grow_in; [exact Px| |exact Hdt|exact Wx]. apply product_in; [exact Pv|]. apply cos_encloses; lra.
  - rewrite Ey. apply grow_in; [exact Py| |exact Hdt|exact Wy]. apply product_in; [exact Pv|]. apply sin_encloses; lra.
  - rewrite Ev. set (a := entry tha 0 * _ + _ + _).
    replace (m_speed s + dt * Rmax (- ip_acc_max par) (Rmin a (ip_acc_max par))) with (m_speed s + dt * (Rmax (- ip_acc_max par) (Rmin a (ip_acc_max par)) + 0)) by ring.
    apply grow_in; [exact Pv| |exact Hdt|rewrite Rabs_R0; lra]. apply clip_in; [|lra]. cbn [fst snd].
    assert (K : fst (intervals_product ka (v0 - snd (vi_speed i), v0 - fst (vi_speed i))) <= entry tha 0 * (v0 - m_speed s) <= snd (intervals_product ka (v0 - snd (vi_speed i), v0 - fst (vi_speed i)))).
    { apply product_in; [exact Ka|cbn [fst snd]; lra]. }
    unfold a. lra.
  - rewrite Eh. rewrite !wrap_id by lra. set (x := (fst (vi_heading i) - psi_l, snd (vi_heading i) - psi_l)).
    pose proof (C50_integrator_encloses x kb (m_heading s - psi_l) (entry thb 0) dt Hk Kb) as K. cbn [fst snd x] in K. specialize (K ltac:(lra) Hdt Hkdt). fold x in K.
    unfold grow. cbn [fst snd]. set (ii := integrator_interval x kb) in *.
    assert (- 1 <= wh <= 1) by (unfold Rabs in Wh; destruct (Rcase_abs wh); lra). cbn zeta in Fb. clear - K Fb H Hdt. nra.
Qed.
