(** Proofs about the dynamic bicycle model. *)
From Verif Require Import Prelude M_Utils M_Lane M_Road M_Vehicle M_Kinematics M_Interval M_Bicycle S_Geometry S_Vehicle S_Bicycle
  P_Base P_Utils P_Lane P_Graph P_Kin.
From Coq Require Import Lia Lra.
Open Scope R_scope.

Ltac cells :=
  repeat match goal with
  | |- (_ :: _) = (_ :: _) => apply f_equal2
  | |- (_, _) = (_, _) => apply f_equal2
  | |- @nil _ = @nil _ => reflexivity
  end.

(** ** atan *)
Lemma atan_slope_pos x : 0 < x -> exists t, / (1 + x * x) <= t < 1 /\ atan x = t * x.
Proof.
  intros Hx. destruct (MVT_cor2 atan (fun c => / (1 + c ^ 2)) 0 x Hx) as (c & E & Hc).
  { intros c _. rewrite <- (Rsqr_pow2 c). pose proof (derivable_pt_lim_atan c) as D. unfold Rsqr.
    replace (/ (1 + c * c)) with (/ (1 + c ^ 2)) by (f_equal; ring). exact D. }
  rewrite atan_0 in E. exists (/ (1 + c * c)). split.
  - split.
    + apply Rinv_le_contravar; nra.
    + apply (Rmult_lt_reg_r (1 + c * c)); [nra|]. rewrite Rinv_l by nra. nra.
  - replace (c * c) with (c ^ 2) by ring. lra.
Qed.
Lemma atan_slope x : exists t, / (1 + x * x) <= t <= 1 /\ (x <> 0 -> t < 1) /\ atan x = t * x.
Proof.
  destruct (Rtotal_order x 0) as [H|[H|H]].
  - destruct (atan_slope_pos (- x)) as (t & B & E); [lra|]. exists t. rewrite atan_opp in E.
    replace (- x * - x) with (x * x) in B by ring. split; [lra|]. split; [lra | lra].
  - subst. exists 1. replace (/ (1 + 0 * 0)) with 1 by field. rewrite atan_0. split; [lra|]. split; [lra | ring].
  - destruct (atan_slope_pos x H) as (t & B & E). exists t. split; [lra|]. split; [lra | easy].
Qed.
Lemma atan_near_id x : Rabs (atan x - x) <= x * x * Rabs x.
Proof.
  destruct (atan_slope x) as (t & B & _ & E). rewrite E.
  replace (t * x - x) with (- (1 - t) * x) by ring. rewrite Rabs_mult, Rabs_Ropp, (Rabs_pos_eq (1 - t)) by lra.
  apply Rmult_le_compat_r; [apply Rabs_pos|].
  assert (P : 0 < 1 + x * x) by nra.
  assert (Q : / (1 + x * x) >= 1 - x * x).
  { apply Rle_ge. apply (Rmult_le_reg_r (1 + x * x)); [easy|]. rewrite Rinv_l by lra. nra. }
  lra.
Qed.

(** ** The lateral dynamics above 1 m/s, written out *)
Lemma B_INERTIA_val : B_INERTIA = 37 / 12.
Proof. unfold B_INERTIA, B_MASS, V_LENGTH, V_WIDTH. field. Qed.
Lemma lateral_fast v vy r u : 1 <= v ->
  lateral_derivative v vy r u =
    (30 * u - 30 * atan ((vy + 5 / 2 * r) / v) - 30 * atan ((vy - 5 / 2 * r) / v) - r * v,
     12 / 37 * (5 / 2) * (30 * u - 30 * atan ((vy + 5 / 2 * r) / v) + 30 * atan ((vy - 5 / 2 * r) / v))).
Proof.
  intros H. unfold lateral_derivative, tire_forces, atan2. rewrite Rltb_ge by (rewrite Rabs_pos_eq; lra).
  rewrite !(Rltb_lt 0 v) by lra. rewrite B_INERTIA_val. unfold B_MASS, B_LENGTH_A, B_LENGTH_B, B_FRICTION_FRONT, B_FRICTION_REAR, B_MASS, V_LENGTH.
  apply f_equal2; field.
Qed.
Lemma lateral_slow v vy r u : Rabs v < 1 ->
  lateral_derivative v vy r u = (- 2 * vy - r * v, - 2 * r).
Proof.
  intros H. unfold lateral_derivative, tire_forces. rewrite Rltb_lt by easy.
  rewrite B_INERTIA_val. unfold B_MASS, B_LENGTH_A, B_LENGTH_B, V_LENGTH. apply f_equal2; field.
Qed.
Lemma lateral_reverse v vy r u : v <= - 1 -> 0 <= vy + 5 / 2 * r -> 0 <= vy - 5 / 2 * r ->
  lateral_derivative v vy r u =
    (30 * u - 30 * (atan ((vy + 5 / 2 * r) / v) + PI) - 30 * (atan ((vy - 5 / 2 * r) / v) + PI) - r * v,
     12 / 37 * (5 / 2) * (30 * u - 30 * atan ((vy + 5 / 2 * r) / v) + 30 * atan ((vy - 5 / 2 * r) / v))).
Proof.
  intros H P Q. unfold lateral_derivative, tire_forces, atan2. rewrite Rltb_ge by (rewrite Rabs_left; lra).
  rewrite !(Rltb_ge 0 v), !(Rltb_lt v 0) by lra.
  rewrite B_INERTIA_val. unfold B_MASS, B_LENGTH_A, B_LENGTH_B, B_FRICTION_FRONT, B_FRICTION_REAR, B_MASS, V_LENGTH.
  rewrite !Rleb_le by lra. apply f_equal2; field.
Qed.
Lemma lpv_fast v : 1 <= Rabs v ->
  lateral_lpv_dynamics v =
    ([[- 60 / v; - v]; [0; - (4500 / 37) / v]], [[30]; [450 / 37]]).
Proof.
  intros H. assert (v <> 0) by (intros ->; rewrite Rabs_R0 in H; lra).
  unfold lateral_lpv_dynamics, lateral_lpv_structure. rewrite Rltb_ge by easy. rewrite B_INERTIA_val.
  unfold lpv_assemble, b_theta, lm_scale, lv_scale, lm_add, lv_add. cbn [map map2 lm_sum fold_left lm_add].
  unfold lm_add, lv_add. cbn [map2].
  unfold B_MASS, B_LENGTH_A, B_LENGTH_B, B_FRICTION_FRONT, B_FRICTION_REAR, B_MASS, V_LENGTH.
  cells; field; lra.
Qed.
Lemma lpv_slow v : Rabs v < 1 -> lateral_lpv_dynamics v = ([[0; - v]; [0; 0]], [[0]; [0]]).
Proof.
  intros H. unfold lateral_lpv_dynamics, lateral_lpv_structure. rewrite Rltb_lt by easy.
  unfold lpv_assemble, b_theta, lm_scale, lv_scale. cbn [map map2 lm_sum fold_left]. unfold lm_add, lv_add. cbn [map2].
  unfold lv_add. cbn [map2].
  cells; ring.
Qed.

(** ** Derivative at zero *)
Lemma atan_small v z eps : 1 <= v -> 0 < eps <= 1 -> Rabs z <= eps -> Rabs (30 * atan (z / v) - 30 / v * z) <= 30 * eps * Rabs z.
Proof.
  intros Hv He Hz. pose proof (atan_near_id (z / v)) as N.
  assert (Hi : 0 < / v <= 1). { split; [apply Rinv_0_lt_compat; lra|]. rewrite <- Rinv_1. apply Rinv_le_contravar; lra. }
  assert (Q : Rabs (z / v) <= Rabs z). { unfold Rdiv. rewrite Rabs_mult, (Rabs_pos_eq (/ v)) by lra. pose proof (Rabs_pos z). nra. }
  replace (30 * atan (z / v) - 30 / v * z) with (30 * (atan (z / v) - z / v)) by (field; lra).
  rewrite Rabs_mult, (Rabs_pos_eq 30) by lra. rewrite Rmult_assoc. apply Rmult_le_compat_l; [lra|].
  eapply Rle_trans; [exact N|]. pose proof (Rabs_pos (z / v)). pose proof (Rabs_pos z).
  replace (z / v * (z / v)) with (Rabs (z / v) * Rabs (z / v)) by (rewrite <- Rabs_mult; apply Rabs_pos_eq; nra).
  apply Rle_trans with (Rabs (z / v) * Rabs (z / v) * Rabs z); [apply Rmult_le_compat_l; nra|].
  apply Rmult_le_compat_r; [easy|]. nra.
Qed.
Lemma lateral_linearised v : 1 <= v ->
  derivative_at_zero (lateral_derivative v) (- 60 / v, - v, 30) (0, - (4500 / 37) / v, 900 / 37).
Proof.
  intros Hv. split.
  { rewrite lateral_fast by easy. replace ((0 + 5 / 2 * 0) / v) with 0 by (field; lra).
    replace ((0 - 5 / 2 * 0) / v) with 0 by (field; lra). rewrite atan_0. apply f_equal2; ring. }
  intros eps He. set (e := Rmin 1 (eps / 1000)).
  assert (E1 : e <= 1) by apply Rmin_l. assert (E2 : e <= eps / 1000) by apply Rmin_r.
  assert (E0 : 0 < e) by (apply Rmin_glb_lt; lra).
  exists (e / 4). split; [lra|]. intros x y u Hx Hy Hu. cbv zeta. cbn [fst snd]. rewrite lateral_fast by easy. cbn [fst snd].
  pose proof (Rabs_pos x). pose proof (Rabs_pos y). pose proof (Rabs_pos u).
  assert (Z1 : Rabs (x + 5 / 2 * y) <= Rabs x + 5 / 2 * Rabs y).
  { eapply Rle_trans; [apply Rabs_triang|]. rewrite Rabs_mult, (Rabs_pos_eq (5 / 2)); lra. }
  assert (Z2 : Rabs (x - 5 / 2 * y) <= Rabs x + 5 / 2 * Rabs y).
  { unfold Rminus. eapply Rle_trans; [apply Rabs_triang|]. rewrite Rabs_Ropp, Rabs_mult, (Rabs_pos_eq (5 / 2)); lra. }
  pose proof (atan_small v (x + 5 / 2 * y) e Hv (conj E0 E1) ltac:(lra)) as A1.
  pose proof (atan_small v (x - 5 / 2 * y) e Hv (conj E0 E1) ltac:(lra)) as A2.
  set (a1 := atan ((x + 5 / 2 * y) / v)) in *. set (a2 := atan ((x - 5 / 2 * y) / v)) in *.
  assert (B1 : 30 * e * Rabs (x + 5 / 2 * y) <= 75 * e * (Rabs x + Rabs y)) by nra.
  assert (B2 : 30 * e * Rabs (x - 5 / 2 * y) <= 75 * e * (Rabs x + Rabs y)) by nra.
  set (d1 := 30 * a1 - 30 / v * (x + 5 / 2 * y)) in *. set (d2 := 30 * a2 - 30 / v * (x - 5 / 2 * y)) in *.
  assert (C1 : Rabs d1 + Rabs d2 <= eps * (Rabs x + Rabs y + Rabs u) * (150 / 1000)).
  { assert (e * (Rabs x + Rabs y) <= eps / 1000 * (Rabs x + Rabs y + Rabs u)) by (apply Rmult_le_compat; lra).
    lra. }
  assert (P : 0 <= eps * (Rabs x + Rabs y + Rabs u)) by (apply Rmult_le_pos; lra).
  split.
  - replace (30 * u - 30 * a1 - 30 * a2 - y * v - (- 60 / v * x + - v * y + 30 * u)) with (- d1 + - d2)
      by (unfold d1, d2; field; lra).
    eapply Rle_trans; [apply Rabs_triang|]. rewrite !Rabs_Ropp. lra.
  - replace (12 / 37 * (5 / 2) * (30 * u - 30 * a1 + 30 * a2) - (0 * x + - (4500 / 37) / v * y + 900 / 37 * u))
      with (30 / 37 * (- d1 + d2)) by (unfold d1, d2; field; lra).
    rewrite Rabs_mult, (Rabs_pos_eq (30 / 37)) by lra.
    pose proof (Rabs_triang (- d1) d2) as T. rewrite Rabs_Ropp in T. pose proof (Rabs_pos d1). pose proof (Rabs_pos d2).
    assert (0 <= Rabs (- d1 + d2)) by apply Rabs_pos. lra.
Qed.
(** The derivative is unique. *)
Lemma derivative_unique f r1 r2 s1 s2 : derivative_at_zero f r1 r2 -> derivative_at_zero f s1 s2 -> snd r2 = snd s2.
Proof.
  intros [_ A] [_ B]. destruct (Req_dec (snd r2) (snd s2)) as [|N]; [easy|]. exfalso.
  set (e := Rabs (snd r2 - snd s2) / 4). assert (E : 0 < Rabs (snd r2 - snd s2)) by (apply Rabs_pos_lt; lra).
  destruct (A e ltac:(unfold e; lra)) as (d & D & Ha). destruct (B e ltac:(unfold e; lra)) as (d' & D' & Hb).
  set (t := Rmin d d' / 2). assert (0 < Rmin d d') by (now apply Rmin_glb_lt).
  pose proof (Rmin_l d d'). pose proof (Rmin_r d d'). assert (T : 0 < t) by (unfold t; lra).
  assert (Rabs 0 < d) by (rewrite Rabs_R0; lra). assert (Rabs 0 < d') by (rewrite Rabs_R0; lra).
  assert (Rabs t < d) by (rewrite Rabs_pos_eq; unfold t; lra). assert (Rabs t < d') by (rewrite Rabs_pos_eq; unfold t; lra).
  destruct (Ha 0 0 t) as [_ K1]; try easy. destruct (Hb 0 0 t) as [_ K2]; try easy. cbv zeta in K1, K2.
  rewrite !Rabs_R0, (Rabs_pos_eq t) in K1, K2 by lra. set (y := snd (f 0 0 t)) in *.
  replace (y - (fst (fst r2) * 0 + snd (fst r2) * 0 + snd r2 * t)) with (y - snd r2 * t) in K1 by ring.
  replace (y - (fst (fst s2) * 0 + snd (fst s2) * 0 + snd s2 * t)) with (y - snd s2 * t) in K2 by ring.
  assert (K : Rabs ((snd r2 - snd s2) * t) <= 2 * e * t).
  { replace ((snd r2 - snd s2) * t) with ((y - snd s2 * t) - (y - snd r2 * t)) by ring.
    unfold Rminus at 1. eapply Rle_trans; [apply Rabs_triang|]. rewrite Rabs_Ropp. lra. }
  rewrite Rabs_mult, (Rabs_pos_eq t) in K by lra. unfold e in K. nra.
Qed.

(** ** One step *)
Lemma b_step_fields g rec b dt b' : b_step g rec b dt = Ok b' ->
  let v := b_base b in
  let st := Rclip (if v_crashed v then 0 else v_steering v) (- (PI / 2)) (PI / 2) in
  let r := Rclip (b_yaw b) (- (2 * PI)) (2 * PI) in
  let d := lateral_derivative (v_speed v) (b_lateral b) r st in
  fst (v_pos (b_base b')) = fst (v_pos v) + (cos (v_heading v) * v_speed v - sin (v_heading v) * b_lateral b) * dt /\
  snd (v_pos (b_base b')) = snd (v_pos v) + (sin (v_heading v) * v_speed v + cos (v_heading v) * b_lateral b) * dt /\
  v_heading (b_base b') = v_heading v + r * dt /\
  v_speed (b_base b') = v_speed v + v_accel (b_base (b_clip_actions b)) * dt /\
  b_lateral b' = b_lateral b + fst d * dt /\
  b_yaw b' = r + snd d * dt /\
  v_crashed (b_base b') = v_crashed v.
Proof.
  intros E. unfold b_step in E. apply bind_ok in E as (w & E & F). injection F as <-.
  apply on_state_update_ok in E as (i & _ & ->). cbv zeta. unfold b_derivative.
  change (v_steering (b_base (b_clip_actions b))) with (Rclip (if v_crashed (b_base b) then 0 else v_steering (b_base b)) (- (PI / 2)) (PI / 2)).
  change (b_yaw (b_clip_actions b)) with (Rclip (b_yaw b) (- (2 * PI)) (2 * PI)).
  change (v_speed (b_base (b_clip_actions b))) with (v_speed (b_base b)).
  change (b_lateral (b_clip_actions b)) with (b_lateral b).
  change (v_heading (b_base (b_clip_actions b))) with (v_heading (b_base b)).
  change (v_pos (b_base (b_clip_actions b))) with (v_pos (b_base b)).
  destruct (lateral_derivative _ _ _ _) as [dvy dr]. cbn [nth fst snd b_base b_lateral b_yaw].
  unfold vrot. cbn [fst snd]. destruct rec; cbn [v_pos v_heading v_speed v_crashed set_pose set_lane_index set_history fst snd];
    repeat (split; [reflexivity|]); reflexivity.
Qed.
Lemma b_step_total g rec b dt : wf_graph g -> g <> [] -> exists b', b_step g rec b dt = Ok b'.
Proof.
  intros W N. unfold b_step.
  destruct (on_state_update_total g rec (set_pose (b_base (b_clip_actions b))
     (fst (v_pos (b_base (b_clip_actions b))) + nth 0 (b_derivative (b_clip_actions b)) 0 * dt,
      snd (v_pos (b_base (b_clip_actions b))) + nth 1 (b_derivative (b_clip_actions b)) 0 * dt)
     (v_heading (b_base (b_clip_actions b)) + b_yaw (b_clip_actions b) * dt)
     (v_speed (b_base (b_clip_actions b)) + v_accel (b_base (b_clip_actions b)) * dt)) W N) as [v E].
  cbv zeta. rewrite E. cbn [bind]. eexists. reflexivity.
Qed.
Lemma b_accel_within b : v_crashed (b_base b) = false -> - 15 <= v_speed (b_base b) <= 15 ->
  v_accel (b_base (b_clip_actions b)) = v_accel (b_base b).
Proof.
  intros C S. unfold b_clip_actions. cbn [b_base v_accel set_action]. rewrite C. unfold B_MAX_SPEED.
  rewrite !Rltb_ge by lra. reflexivity.
Qed.
