(** Lemmas about the car-following law. *)
From Verif Require Import Prelude M_Utils M_Lane M_Road M_Vehicle M_Kinematics M_Control M_Behavior
  S_Geometry S_Road S_Vehicle S_Control S_Behavior S_CarFollowing P_Base P_Utils P_Lane P_Graph P_Bfs P_Query P_Kin P_Crash P_Control P_Behavior P_Traffic.
From Coq Require Import Lia Lra.
Open Scope R_scope.

Lemma desired_is_wanted par e f :
  desired_gap par e f = wanted_gap (ip_distance par) (ip_time par) (ip_comfort_max par) (- ip_comfort_min par) (v_speed e) (closing_speed e f).
Proof.
  unfold desired_gap, wanted_gap, closing_speed.
  assert (Q : vdot (vsub (e_velocity (EV e)) (e_velocity f)) (e_direction (EV e)) = v_speed e - e_speed f * cos (e_heading f - v_heading e)).
  { unfold e_velocity, e_direction, vdot, vsub, vscal. cbn [e_speed e_heading fst snd].
    rewrite cos_minus. pose proof (sin2_cos2 (v_heading e)) as H. unfold Rsqr in H.
    replace (v_speed e) with (v_speed e * (sin (v_heading e) * sin (v_heading e) + cos (v_heading e) * cos (v_heading e))) at 3 by (rewrite H; ring). ring. }
  rewrite Q. replace (- ip_comfort_max par * ip_comfort_min par) with (ip_comfort_max par * - ip_comfort_min par) by ring. reflexivity.
Qed.

Lemma not_zero_big d : 1/100 < Rabs d -> not_zero d not_zero_eps = d.
Proof. intros H. unfold not_zero, not_zero_eps. rewrite Rltb_lt by exact H. reflexivity. Qed.
Lemma not_zero_ne d : not_zero d not_zero_eps <> 0.
Proof.
  unfold not_zero, not_zero_eps. destruct (Rltb (1/100) (Rabs d)) eqn:E.
  - apply Rltb_true in E. intros ->. rewrite Rabs_R0 in E. lra.
  - destruct (Rltb 0 d); lra.
Qed.

Lemma law_value g par e f l : is_controlled (v_kind e) = true -> 1/100 < v_target_speed e -> get_lane g (v_lane_index e) = Ok l -> 
  idm_acceleration g par (Some (EV e)) (Some f) =
    Ok (ip_comfort_max par * (1 - (Rmax (v_speed e) 0 / v_target_speed e) ^ 4 -
       (wanted_gap (ip_distance par) (ip_time par) (ip_comfort_max par) (- ip_comfort_min par) (v_speed e) (closing_speed e f)
          / not_zero (fst (l_local l (e_pos f)) - fst (l_local l (v_pos e))) not_zero_eps) ^ 2)).
Proof.
  intros C T G. unfold idm_acceleration. rewrite (target_pos e C T). unfold lane_distance_to. rewrite G. cbn [bind].
  rewrite desired_is_wanted. f_equal. change (v_pos e) with (e_pos (EV e)).
  set (x := Rmax _ _ / _). set (w := wanted_gap _ _ _ _ _ _ / _). ring.
Qed.

(** ** Comparing squares of quotients *)
Lemma sq_div_mono a b d : d <> 0 -> Rabs a <= Rabs b -> (a / d) ^ 2 <= (b / d) ^ 2.
Proof.
  intros D H. unfold Rdiv. rewrite !Rpow_mult_distr. apply Rmult_le_compat_r; [apply pow2_nonneg|].
  rewrite <- (pow2_abs a), <- (pow2_abs b). apply pow_incr. split; [apply Rabs_pos | exact H].
Qed.
Lemma sq_div_strict a b d : d <> 0 -> Rabs a < Rabs b -> (a / d) ^ 2 < (b / d) ^ 2.
Proof.
  intros D H. unfold Rdiv. rewrite !Rpow_mult_distr. apply Rmult_lt_compat_r.
  - assert (/ d <> 0) by now apply Rinv_neq_0_compat. pose proof (Rsqr_pos_lt _ H0). unfold Rsqr in *. cbn [pow]. rewrite Rmult_1_r. exact H1.
  - rewrite <- (pow2_abs a), <- (pow2_abs b). pose proof (Rabs_pos a). cbn [pow]. nra.
Qed.


(** With [r = 1 - (v/target)^4 > 0]: [r - (w/d)^2] has the sign of [d - w / sqrt r]. *)
Lemma gap_sign r w d : 0 < r -> 0 < w -> 0 < d ->
  (r - (w / d) ^ 2 < 0 <-> d < w / sqrt r) /\ (r - (w / d) ^ 2 = 0 <-> d = w / sqrt r) /\ (0 < r - (w / d) ^ 2 <-> w / sqrt r < d).
Proof.
  intros Hr Hw Hd. assert (Hs : 0 < sqrt r) by now apply sqrt_lt_R0. pose proof (sqrt_sqrt r ltac:(lra)) as Q.
  set (s := sqrt r) in *. set (x := w / s). assert (Ew : w = x * s) by (unfold x; field; lra).
  assert (Hx : 0 < x) by (unfold x; apply Rmult_lt_0_compat; [lra | now apply Rinv_0_lt_compat]).
  assert (E : r - (w / d) ^ 2 = r * ((d - x) * (d + x)) / (d * d)) by (rewrite Ew, <- Q; field; lra).
  rewrite E. set (k := r * ((d - x) * (d + x))). assert (I : 0 < / (d * d)) by (apply Rinv_0_lt_compat; nra).
  assert (K : k = (d - x) * (r * (d + x))) by (unfold k; ring). assert (P : 0 < r * (d + x)) by (apply Rmult_lt_0_compat; lra).
  unfold Rdiv. rewrite K. set (p := r * (d + x)) in *. set (z := / (d * d)) in *. assert (Pz : 0 < p * z) by (apply Rmult_lt_0_compat; lra).
  rewrite Rmult_assoc. set (m := p * z) in *. 
  split; [|split]; split; intros H.
  - destruct (Rlt_dec d x); [assumption|]. assert (0 <= (d - x) * m) by (apply Rmult_le_pos; lra). lra.
  - assert (0 < (x - d) * m) by (apply Rmult_lt_0_compat; lra). lra.
  - apply Rmult_integral in H as [H|H]; lra.
  - replace (d - x) with 0 by lra. ring.
  - destruct (Rlt_dec x d); [assumption|]. assert (0 <= (x - d) * m) by (apply Rmult_le_pos; lra). lra.
  - apply Rmult_lt_0_compat; lra.
Qed.

(** ** Runs *)
Lemma Rclip_mono x y a b : x <= y -> Rclip x a b <= Rclip y a b.
Proof. intros H. unfold Rclip, Rmin, Rmax. repeat destruct Rle_dec; lra. Qed.

Definition slow_idm (par : idm_params) (vt : R) (w : vehicle) : Prop :=
  v_kind w = KIDM /\ v_par w = par /\ v_target_speed w = vt /\ (v_crashed w = false -> v_speed w <= vt).

Lemma slow_frame par vt dt draws rd rd1 rd2 i v : road_act draws rd = Ok rd1 -> road_step rd1 dt = Ok rd2 ->
  nth_error (rd_vehicles rd) i = Some v -> 0 <= dt <= 1/2 -> 0 < ip_comfort_max par <= ip_acc_max par ->
  1/100 < vt <= 40 -> 4 * ip_comfort_max par * dt <= vt -> slow_idm par vt v ->
  exists w, nth_error (rd_vehicles rd2) i = Some w /\ slow_idm par vt w.
Proof.
  intros A E Nv Hd Hc Ht Hs (K & Pa & Ts & Sp).
  destruct (frame_nth _ _ _ _ _ _ _ A E Nv) as (rdm & v1 & u & w & Am & Nm & Av & Eu & Ev & Nw).
  exists w. split; [exact Nw|].
  assert (Eiu : idm_act rdm (draws i) v = Ok v1) by (unfold vehicle_act in Av; rewrite K in Av; exact Av).
  pose proof (step_fields _ _ _ _ _ Eu) as Sf. cbv zeta in Sf. destruct Sf as (_ & _ & S2 & Cr & _ & Kd & _ & _ & Tg & _ & _ & _ & Pr & _).
  destruct (v_crashed v) eqn:C.
  { assert (v1 = v).
    { unfold idm_act in Eiu. apply bind_ok in Eiu as (_ & _ & Eiu). rewrite C in Eiu. now injection Eiu as <-. }
    subst v1. unfold slow_idm. destruct Ev as [-> | (s & -> & _)].
    - repeat split; try congruence.
    - unfold set_crash. cbn. repeat split; try congruence. }
  destruct (idm_act_ok _ _ _ _ Eiu C) as (Sm & T1 & _ & _ & f & r & va & vb & st & a & Hn & Hf & Hp & _ & Ha & Hv1).
  assert (Sm' := Sm). unfold same_vehicle in Sm'. destruct Sm' as (_ & M2 & _ & _ & M5 & _ & M7 & _ & _ & _ & _ & M12 & _).
  assert (B : same_vehicle v vb /\ v_target_speed vb = v_target_speed v).
  { pose proof (follow_road_ok _ _ _ _ Hf) as (B1 & Tf & _). apply same_body_vehicle in B1.
    destruct (v_enable_lane_change v); [apply policy_only_target, only_target_vehicle in Hp | injection Hp as <-].
    - split; [eapply same_vehicle_trans; [exact B1 | tauto] | destruct Hp as (_ & -> & _); exact Tf].
    - tauto. }
  destruct B as [B Tb]. unfold same_vehicle in B. destruct B as (_ & Bk & _ & _ & Bs & _ & _ & _ & _ & _ & _ & Bp & _).
  assert (Su : v_speed u <= vt).
  { specialize (Sp eq_refl). unfold acceleration in Ha. rewrite Bk, K in Ha.
    assert (Cb : is_controlled (v_kind vb) = true) by (rewrite Bk, K; reflexivity).
    assert (La : a <= free_acc (v_par vb) vb).
    { apply idm_acc_front in Ha. destruct f as [fe|]; [|lra]. destruct Ha as (l & _ & ->). rewrite Bp, Pa.
      set (z := _ / not_zero _ _). pose proof (pow2_nonneg z). assert (0 <= ip_comfort_max par * z ^ 2) by (apply Rmult_le_pos; lra). lra. }
    assert (Lf : 0 <= free_acc (v_par vb) vb <= ip_comfort_max par /\ v_speed v + free_acc (v_par vb) vb * dt <= vt).
    { rewrite Bp, Pa in *. destruct (Rle_dec 0 (v_speed v)) as [P|P].
      - assert (W : 0 <= v_speed vb <= v_target_speed vb) by (rewrite Bs, Tb, Ts; lra).
        pose proof (free_acc_contract par vb dt ltac:(lra) Cb ltac:(rewrite Tb, Ts; lra) ltac:(lra) ltac:(rewrite Tb, Ts; lra) W) as (Q1 & Q2 & _).
        rewrite Tb, Ts, Bs in Q2. split; lra.
      - unfold free_acc. rewrite (target_pos vb Cb) by (rewrite Tb, Ts; lra). rewrite Bs, Rmax_right by lra.
        replace (0 / v_target_speed vb) with 0 by (unfold Rdiv; ring). replace (ip_comfort_max par * (1 - 0 ^ 4)) with (ip_comfort_max par) by ring.
        split; [lra|]. assert (0 <= ip_comfort_max par * dt) by (apply Rmult_le_pos; lra). lra. }
    destruct Lf as [Lf Lv]. set (fa := free_acc (v_par vb) vb) in *.
    assert (Lc : Rclip a (- ip_acc_max (v_par v)) (ip_acc_max (v_par v)) <= fa).
    { eapply Rle_trans; [apply Rclip_mono, La|]. rewrite Rclip_id; [lra|]. rewrite Pa. lra. }
    rewrite S2, clipped_cases. cbv zeta. rewrite M7, C, M5, Hv1. cbn [v_accel set_action].
    set (cl := Rclip a _ _) in *. rewrite Rltb_ge by lra. destruct (Rltb (v_speed v) (- 40)) eqn:L.
    - apply Rltb_true in L. unfold Rmax. destruct Rle_dec; [|nra].
      assert (v_speed v * (1 - dt) <= - 40 * (1 - dt)) by (apply Rmult_le_compat_r; lra). lra.
    - nra. }
  unfold slow_idm. destruct Ev as [-> | (s & -> & _)].
  - repeat split; congruence || (intros _; exact Su).
  - unfold set_crash. cbn. repeat split; congruence.
Qed.

Lemma slow_run par vt dt i : 0 <= dt <= 1/2 -> 0 < ip_comfort_max par <= ip_acc_max par ->
  1/100 < vt <= 40 -> 4 * ip_comfort_max par * dt <= vt ->
  forall rd frames, simulates dt rd frames -> forall v, nth_error (rd_vehicles rd) i = Some v -> slow_idm par vt v ->
  forall rdk, In rdk frames -> exists w, nth_error (rd_vehicles rdk) i = Some w /\ slow_idm par vt w.
Proof.
  intros Hd Hc Ht Hs rd frames Sim. induction Sim as [rd|rd draws rd1 rd2 fr D A E Sim IH]; intros v Nv Sv rdk I; [destruct I|].
  destruct (slow_frame par vt dt _ _ _ _ _ _ A E Nv Hd Hc Ht Hs Sv) as (w & Nw & Sw). destruct I as [<-|I]; [eauto|]. eapply IH; eauto.
Qed.
