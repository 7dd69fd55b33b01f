(** Theorems about the dynamic bicycle model (C55, C79-C81). *)
From Verif Require Import Prelude M_Utils M_Lane M_Road M_Vehicle M_Kinematics M_Interval M_Bicycle S_Geometry S_Road S_Vehicle S_Bicycle
  P_Base P_Utils P_Lane P_Graph P_Kin P_Bicycle T_Kin.
From Coq Require Import Lia Lra.
Open Scope R_scope.

(** ** C55: the linear parameter-varying model against the nonlinear one *)
(** Forward at 1 m/s or more: the state matrix is the derivative of the nonlinear
    lateral dynamics at zero, and so is the first entry of the input matrix, but
    the true second entry is twice the one returned. *)
Theorem C55_linearisation_forward : forall v, 1 <= v -> exists a11 a12 a21 a22 b1 b2,
  lateral_lpv_dynamics v = ([[a11; a12]; [a21; a22]], [[b1]; [b2]]) /\ b2 <> 0 /\
  derivative_at_zero (lateral_derivative v) (a11, a12, b1) (a21, a22, 2 * b2).
Proof.
  intros v H. exists (- 60 / v), (- v), 0, (- (4500 / 37) / v), 30, (450 / 37).
  rewrite lpv_fast by (rewrite Rabs_pos_eq; lra). split; [easy|]. split; [lra|].
  replace (2 * (450 / 37)) with (900 / 37) by field. now apply lateral_linearised.
Qed.
Print Assumptions C55_linearisation_forward.
(** So the returned pair of matrices is never the derivative. *)
Theorem C55_input_matrix_wrong : forall v a11 a12 a21 a22 b1 b2, 1 <= v ->
  lateral_lpv_dynamics v = ([[a11; a12]; [a21; a22]], [[b1]; [b2]]) ->
  ~ derivative_at_zero (lateral_derivative v) (a11, a12, b1) (a21, a22, b2).
Proof.
  intros v a11 a12 a21 a22 b1 b2 H E D. rewrite lpv_fast in E by (rewrite Rabs_pos_eq; lra). injection E as _ _ _ _ _ <-.
  pose proof (derivative_unique _ _ _ _ _ D (lateral_linearised v H)) as U. cbn in U. lra.
Qed.
Print Assumptions C55_input_matrix_wrong.
(** The linear lateral motion of a forward vehicle is stable: the state matrix is
    triangular with negative diagonal. *)
Theorem C55_linear_model_stable : forall v, 1 <= v -> exists a11 a12 a22 B,
  lateral_lpv_dynamics v = ([[a11; a12]; [0; a22]], B) /\ a11 < 0 /\ a22 < 0.
Proof.
  intros v H. exists (- 60 / v), (- v), (- (4500 / 37) / v). eexists. rewrite lpv_fast by (rewrite Rabs_pos_eq; lra).
  split; [reflexivity|]. assert (0 < / v) by (apply Rinv_0_lt_compat; lra). unfold Rdiv. split; nra.
Qed.
Print Assumptions C55_linear_model_stable.
(** Below 1 m/s the nonlinear model ignores the steering and damps both lateral
    speed and yaw rate, while the linear model has no damping (and no input). *)
Theorem C55_low_speed : forall v, Rabs v < 1 ->
  (forall vy r u, lateral_derivative v vy r u = (- 2 * vy - r * v, - 2 * r)) /\
  lateral_lpv_dynamics v = ([[0; - v]; [0; 0]], [[0]; [0]]).
Proof. intros v H. split; [intros vy r u; now apply lateral_slow | now apply lpv_slow]. Qed.
Print Assumptions C55_low_speed.
(** Reversing at 1 m/s or more: even straight, with no steering, lateral speed or
    yaw rate, the lateral acceleration is -60 pi; the linear model says zero. *)
Theorem C55_reversing : forall v, v <= - 1 ->
  lateral_derivative v 0 0 0 = (- 60 * PI, 0) /\
  (forall A B, lateral_lpv_dynamics v = (A, B) -> lv_add (lm_apply A [0; 0]) (lm_apply B [0]) = [0; 0]).
Proof.
  intros v H. split.
  - rewrite lateral_reverse by lra. replace ((0 + 5 / 2 * 0) / v) with 0 by (field; lra).
    replace ((0 - 5 / 2 * 0) / v) with 0 by (field; lra). rewrite atan_0. apply f_equal2; field.
  - intros A B E. rewrite lpv_fast in E by (rewrite Rabs_left; lra). injection E as <- <-.
    unfold lv_add, lm_apply. cbn [map map2 lv_dot]. cells; ring.
Qed.
Print Assumptions C55_reversing.
(** The four-state model contains the two-state one and linearises the motion of
    the ordinate around heading 0 for any speed. *)
Theorem C55_full_model : forall v a11 a12 a21 a22 b1 b2,
  lateral_lpv_dynamics v = ([[a11; a12]; [a21; a22]], [[b1]; [b2]]) ->
  full_lateral_lpv_dynamics v =
    ([[0; v; 1; 0]; [0; 0; 0; 1]; [0; 0; a11; a12]; [0; 0; a21; a22]], [[0]; [0]; [b1]; [b2]]).
Proof.
  intros v a11 a12 a21 a22 b1 b2 E.
  unfold lateral_lpv_dynamics, full_lateral_lpv_dynamics, full_lateral_lpv_structure in *.
  destruct (lateral_lpv_structure v) as [[A0 phi] B] eqn:S.
  unfold lateral_lpv_structure in S. destruct (Rltb (Rabs v) 1); injection S as <- <- <-;
    unfold lpv_assemble, b_theta, lm_scale, lv_scale in *; cbn [map map2 lm_sum fold_left app] in *; unfold lm_add, lv_add in *; cbn [map2] in *;
    unfold lv_add in *; cbn [map2] in *; injection E as <- <- <- <- <- <-; cells; try reflexivity; ring.
Qed.
Print Assumptions C55_full_model.
Theorem C55_ordinate : forall v eps, 0 < eps -> exists delta, 0 < delta /\ forall b, v_speed (b_base b) = v ->
  Rabs (v_heading (b_base b)) < delta -> Rabs (b_lateral b) < delta ->
  Rabs (nth 1 (b_derivative b) 0 - (v * v_heading (b_base b) + b_lateral b)) <=
    eps * (Rabs (v_heading (b_base b)) + Rabs (b_lateral b)) /\
  nth 2 (b_derivative b) 0 = b_yaw b.
Proof.
  intros v eps He. set (e := eps / (1 + Rabs v)). pose proof (Rabs_pos v) as Pv.
  assert (E0 : 0 < e) by (apply Rdiv_lt_0_compat; lra).
  assert (E1 : e * (1 + Rabs v) = eps) by (unfold e; field; lra).
  destruct (derivable_pt_lim_sin_0 e E0) as [d1 D1].
  destruct (continuity_cos 0 e E0) as (d2 & D2 & C2).
  exists (Rmin d1 d2). split; [apply Rmin_glb_lt; [apply cond_pos | easy]|].
  intros b Sv Hh Hl. unfold b_derivative. rewrite Sv. destruct (lateral_derivative _ _ _ _) as [dvy dr]. cbn [nth].
  split; [|reflexivity]. unfold vrot. cbn [fst snd]. set (h := v_heading (b_base b)) in *. set (l := b_lateral b) in *.
  assert (S1 : Rabs (sin h - h) <= e * Rabs h).
  { destruct (Req_dec h 0) as [->|N]; [rewrite sin_0, Rminus_0_r, Rabs_R0; lra|].
    specialize (D1 h N (Rlt_le_trans _ _ _ Hh (Rmin_l _ _))). rewrite Rplus_0_l, sin_0, Rminus_0_r in D1.
    replace (sin h - h) with ((sin h / h - 1) * h) by (field; easy). rewrite Rabs_mult.
    apply Rmult_le_compat_r; [apply Rabs_pos | lra]. }
  assert (S2 : Rabs (cos h - 1) <= e).
  { destruct (Req_dec h 0) as [->|N]; [rewrite cos_0, Rminus_eq_0, Rabs_R0; lra|].
    specialize (C2 h). unfold D_x, no_cond, dist in C2. cbn in C2. unfold R_dist in C2. rewrite cos_0, Rminus_0_r in C2.
    left. apply C2. split; [split; [easy | now apply not_eq_sym]|]. apply (Rlt_le_trans _ _ _ Hh (Rmin_r _ _)). }
  replace (sin h * v + cos h * l - (v * h + l)) with (v * (sin h - h) + (cos h - 1) * l) by ring.
  eapply Rle_trans; [apply Rabs_triang|]. rewrite !Rabs_mult.
  pose proof (Rabs_pos h). pose proof (Rabs_pos l).
  assert (Rabs v * Rabs (sin h - h) <= Rabs v * (e * Rabs h)) by (apply Rmult_le_compat_l; lra).
  assert (Rabs (cos h - 1) * Rabs l <= e * Rabs l) by (apply Rmult_le_compat_r; lra).
  assert (0 <= e * Rabs h) by (apply Rmult_le_pos; lra). assert (0 <= e * Rabs v) by (apply Rmult_le_pos; lra).
  assert (0 <= e * Rabs v * Rabs l) by (apply Rmult_le_pos; lra). nra.
Qed.
Print Assumptions C55_ordinate.
(** [derivative_linear] agrees with [derivative] at zero lateral state and
    steering, for every forward or slow vehicle; otherwise only in the first four
    components. *)
Theorem C55_linear_derivative : forall b,
  firstn 4 (b_derivative_linear b) = firstn 4 (b_derivative b) /\
  (- 1 < v_speed (b_base b) -> b_lateral b = 0 -> b_yaw b = 0 -> v_steering (b_base b) = 0 ->
   b_derivative_linear b = b_derivative b).
Proof.
  intros b. split.
  - unfold b_derivative_linear, b_derivative. destruct (lateral_lpv_dynamics _) as [A B]. destruct (lateral_derivative _ _ _ _). reflexivity.
  - intros S L Y T. unfold b_derivative_linear, b_derivative. rewrite L, Y, T.
    destruct (Rle_dec 1 (v_speed (b_base b))) as [F|F].
    + rewrite lpv_fast by (rewrite Rabs_pos_eq; lra). destruct (lateral_linearised _ F) as [Z _]. rewrite Z.
      unfold lv_add, lm_apply. cbn [map map2 lv_dot app]. cells; try reflexivity; ring.
    + assert (A : Rabs (v_speed (b_base b)) < 1) by (apply Rabs_def1; lra).
      rewrite lpv_slow, lateral_slow by easy. unfold lv_add, lm_apply. cbn [map map2 lv_dot app]. cells; try reflexivity; ring.
Qed.
Print Assumptions C55_linear_derivative.

Definition demo_bicycle (h s vy r st ac : R) : bicycle :=
  Bicycle (set_kind (set_action (set_pose (demo_vehicle (0, 0) s false) (0, 0) h s) st ac) KBicycle) vy r.
Example C55_nonvacuous : 1 <= 10 /\ lateral_lpv_dynamics 10 = ([[- 6; - 10]; [0; - (450 / 37)]], [[30]; [450 / 37]]) /\
  b_derivative (demo_bicycle 0 10 0 0 (1/10) 2) = [10; 0; 0; 2; 3; 90 / 37] /\
  b_derivative_linear (demo_bicycle 0 10 0 0 (1/10) 2) = [10; 0; 0; 2; 3; 45 / 37].
Proof.
  split; [lra|]. rewrite lpv_fast by (rewrite Rabs_pos_eq; lra). split; [cells; field|].
  unfold b_derivative_linear, b_derivative. cbn [b_base b_lateral b_yaw demo_bicycle set_kind set_action set_pose v_speed v_steering v_heading v_accel].
  rewrite lateral_fast, lpv_fast by (try rewrite Rabs_pos_eq; lra).
  replace ((0 + 5 / 2 * 0) / 10) with 0 by field. replace ((0 - 5 / 2 * 0) / 10) with 0 by field. rewrite atan_0.
  unfold vrot, lv_add, lm_apply. cbn [fst snd map map2 lv_dot app]. rewrite cos_0, sin_0. split; cells; field.
Qed.

(** ** C79: one step of the bicycle model *)
(** The displacement is dt times the body velocity turned by the heading before
    the step; the heading advances by the yaw rate, limited to one turn per
    second either way. *)
Theorem C79_displacement : forall g record b dt b', 0 <= dt -> b_step g record b dt = Ok b' ->
  dist2 (v_pos (b_base b)) (v_pos (b_base b')) = sqrt (v_speed (b_base b) * v_speed (b_base b) + b_lateral b * b_lateral b) * dt.
Proof.
  intros g rec b dt b' H E. apply b_step_fields in E as (X & Y & _). unfold dist2. rewrite X, Y.
  set (c := cos _). set (s := sin _). pose proof (cos_sin_1 (v_heading (b_base b))) as T. fold c s in T.
  set (v := v_speed (b_base b)). set (l := b_lateral b).
  match goal with |- sqrt ?A = _ => replace A with ((v * v + l * l) * (dt * dt)) end.
  - rewrite sqrt_mult by nra. now rewrite (sqrt_sq dt).
  - transitivity ((c * c + s * s) * ((v * v + l * l) * (dt * dt))); [rewrite T; ring | ring].
Qed.
Print Assumptions C79_displacement.
Theorem C79_turn_bounded : forall g record b dt b', 0 <= dt -> b_step g record b dt = Ok b' ->
  Rabs (v_heading (b_base b') - v_heading (b_base b)) <= 2 * PI * dt /\
  (- (2 * PI) <= b_yaw b <= 2 * PI -> v_heading (b_base b') = v_heading (b_base b) + b_yaw b * dt).
Proof.
  intros g rec b dt b' H E. apply b_step_fields in E as (_ & _ & T & _). pose proof PI_RGT_0. split.
  - rewrite T. pose proof (Rclip_bounds (b_yaw b) (- (2 * PI)) (2 * PI) ltac:(lra)).
    apply Rabs_le. split; nra.
  - intros B. rewrite T. now rewrite Rclip_id.
Qed.
Print Assumptions C79_turn_bounded.
(** Forward at 1 m/s or more, not crashed, within the limits: the slip angles are
    those of the velocities of the front and rear axles, 2.5 m from the centre. *)
Theorem C79_forward_step : forall g record b dt b', b_step g record b dt = Ok b' ->
  v_crashed (b_base b) = false -> 1 <= v_speed (b_base b) <= 15 ->
  - (PI / 2) <= v_steering (b_base b) <= PI / 2 -> - (2 * PI) <= b_yaw b <= 2 * PI ->
  exists front rear, - (PI / 2) < front < PI / 2 /\ - (PI / 2) < rear < PI / 2 /\
    tan front = (b_lateral b + 5 / 2 * b_yaw b) / v_speed (b_base b) /\
    tan rear = (b_lateral b - 5 / 2 * b_yaw b) / v_speed (b_base b) /\
    v_speed (b_base b') = v_speed (b_base b) + v_accel (b_base b) * dt /\
    b_lateral b' = b_lateral b + (30 * (v_steering (b_base b) - front - rear) - b_yaw b * v_speed (b_base b)) * dt /\
    b_yaw b' = b_yaw b + 900 / 37 * (v_steering (b_base b) - front + rear) * dt.
Proof.
  intros g rec b dt b' E C S T Y. apply b_step_fields in E as (_ & _ & _ & Sp & La & Ya & _).
  rewrite C, !Rclip_id in La, Ya by easy. rewrite lateral_fast in La, Ya by lra. cbn [fst snd] in La, Ya.
  assert (AB : forall z, - (PI / 2) < atan z < PI / 2) by (intros z; pose proof (atan_bound z); lra).
  eexists (atan _), (atan _). split; [apply AB|]. split; [apply AB|].
  rewrite !tan_atan. split; [reflexivity|]. split; [reflexivity|].
  split; [rewrite Sp, b_accel_within; [reflexivity | easy | lra]|]. split; [rewrite La; ring | rewrite Ya; field].
Qed.
Print Assumptions C79_forward_step.
(** A step never fails on a network with lanes, keeps the crashed flag, and brings
    a speed above 15 m/s down. *)
Theorem C79_step_total : forall g record b dt, built g -> g <> [] -> exists b', b_step g record b dt = Ok b'.
Proof. intros g rec b dt B N. apply b_step_total; [now apply wf_built | easy]. Qed.
Print Assumptions C79_step_total.
Theorem C79_speed_limit : forall g record b dt b', 0 <= dt <= 1 -> b_step g record b dt = Ok b' ->
  15 < v_speed (b_base b) -> v_crashed (b_base b) = false ->
  v_speed (b_base b') <= 15 + (v_speed (b_base b) - 15) * (1 - dt) /\ v_crashed (b_base b') = false.
Proof.
  intros g rec b dt b' H E S C. apply b_step_fields in E as (_ & _ & _ & Sp & _ & _ & Cr). rewrite Cr, C. split; [|easy].
  rewrite Sp. unfold b_clip_actions, B_MAX_SPEED. cbn [b_base v_accel set_action]. rewrite Rltb_lt by easy.
  pose proof (Rmin_r (if v_crashed (b_base b) then -1 * v_speed (b_base b) else v_accel (b_base b)) (1 * (15 - v_speed (b_base b)))). nra.
Qed.
Print Assumptions C79_speed_limit.
Example C79_nonvacuous : exists b', b_step demo_net true (demo_bicycle 0 10 0 0 (1/10) 2) 1 = Ok b' /\
  v_pos (b_base b') = (10, 0) /\ v_speed (b_base b') = 12 /\ b_lateral b' = 3 /\ b_yaw b' = 90 / 37.
Proof.
  destruct (C79_step_total demo_net true (demo_bicycle 0 10 0 0 (1/10) 2) 1 demo_built ltac:(discriminate)) as [b' E].
  exists b'. split; [easy|]. pose proof PI2_3_2. pose proof PI_4. pose proof E as F.
  apply b_step_fields in E as (X & Y & _). cbn in X, Y. rewrite cos_0, sin_0 in X, Y.
  destruct (C79_forward_step _ _ _ _ _ F) as (f & r & Bf & Br & Tf & Tr & Sp & La & Ya); cbn [demo_bicycle b_base b_yaw set_kind set_action set_pose v_speed v_crashed v_steering demo_vehicle]; try lra; try reflexivity.
  cbn [demo_bicycle b_base b_yaw b_lateral set_kind set_action set_pose v_speed v_accel v_steering] in *.
  assert (f = 0) by (rewrite <- (atan_tan f), Tf by lra; replace ((0 + 5 / 2 * 0) / 10) with 0 by field; apply atan_0).
  assert (r = 0) by (rewrite <- (atan_tan r), Tr by lra; replace ((0 - 5 / 2 * 0) / 10) with 0 by field; apply atan_0).
  subst f r. split; [rewrite (surjective_pairing (v_pos (b_base b'))), X, Y; apply f_equal2; ring|].
  split; [rewrite Sp; ring|]. split; [rewrite La; field | rewrite Ya; field].
Qed.

(** ** C80: straight driving and low speed *)
(** Without steering, lateral speed and yaw rate, and never backing at 1 m/s or
    more, the vehicle keeps its heading for ever and stays on its line. *)
Theorem C80_straight_for_ever : forall g record dt b cmds tr, b_drives g record dt b cmds tr ->
  (forall st ac, In (st, ac) cmds -> st = 0) -> b_lateral b = 0 -> b_yaw b = 0 ->
  (forall w, In w (b :: tr) -> - 1 < v_speed (b_base w)) ->
  forall w, In w tr -> v_heading (b_base w) = v_heading (b_base b) /\ b_lateral w = 0 /\ b_yaw w = 0 /\
    exists s, fst (v_pos (b_base w)) = fst (v_pos (b_base b)) + s * cos (v_heading (b_base b)) /\
              snd (v_pos (b_base w)) = snd (v_pos (b_base b)) + s * sin (v_heading (b_base b)).
Proof.
  intros g rec dt b cmds tr D. induction D as [b|b st ac cmds b1 tr E D IH]; intros Z L Y S w Hw; [destruct Hw|].
  assert (st = 0) by (apply (Z st ac); now left). subst st.
  apply b_step_fields in E as (X & Yy & H & _ & La & Ya & _).
  cbn [b_act b_base b_lateral b_yaw set_action v_pos v_heading v_speed v_steering v_crashed] in *.
  pose proof PI_RGT_0. rewrite L, Y in *. rewrite !(Rclip_id 0) in * by lra.
  assert (Rclip (if v_crashed (b_base b) then 0 else 0) (- (PI / 2)) (PI / 2) = 0) as St.
  { destruct (v_crashed (b_base b)); apply Rclip_id; lra. }
  rewrite St in La, Ya.
  assert (Dz : lateral_derivative (v_speed (b_base b)) 0 0 0 = (0, 0)).
  { assert (- 1 < v_speed (b_base b)) by (apply S; now left). destruct (Rle_dec 1 (v_speed (b_base b))) as [F|F].
    - now destruct (lateral_linearised _ F).
    - rewrite lateral_slow by (apply Rabs_def1; lra). apply f_equal2; ring. }
  rewrite Dz in La, Ya. cbn [fst snd] in La, Ya.
  assert (A1 : b_lateral b1 = 0) by lra. assert (A2 : b_yaw b1 = 0) by lra. assert (A3 : v_heading (b_base b1) = v_heading (b_base b)) by lra.
  destruct Hw as [<-|Hw].
  - split; [easy|]. split; [easy|]. split; [easy|]. exists (v_speed (b_base b) * dt). rewrite X, Yy. split; ring.
  - destruct (IH ltac:(intros; eapply Z; right; eassumption) A1 A2 ltac:(intros u Hu; apply S; now right) w Hw) as (Q1 & Q2 & Q3 & s & Q4 & Q5).
    split; [congruence|]. split; [easy|]. split; [easy|]. exists (v_speed (b_base b) * dt + s).
    rewrite Q4, Q5, A3, X, Yy. split; ring.
Qed.
Print Assumptions C80_straight_for_ever.
(** As long as the speed stays below 1 m/s, whatever the commands: yaw rate and
    lateral speed die out (for dt at most half a second). *)
Theorem C80_low_speed_damping : forall g record dt b cmds tr, b_drives g record dt b cmds tr -> 0 <= dt <= 1 / 2 ->
  - (2 * PI) <= b_yaw b <= 2 * PI -> (forall w, In w (b :: tr) -> Rabs (v_speed (b_base w)) < 1) ->
  forall k w, nth_error tr k = Some w ->
    b_yaw w = b_yaw b * (1 - 2 * dt) ^ (S k) /\
    Rabs (b_lateral w) <= (1 - 2 * dt) ^ (S k) * Rabs (b_lateral b) + INR (S k) * (1 - 2 * dt) ^ k * dt * Rabs (b_yaw b).
Proof.
  intros g rec dt b cmds tr D Hd. induction D as [b|b st ac cmds b1 tr E D IH]; intros Y S k w Hk; [destruct k; discriminate|].
  apply b_step_fields in E as (_ & _ & _ & _ & La & Ya & _).
  cbn [b_act b_base b_lateral b_yaw set_action v_speed v_steering v_crashed] in *.
  rewrite lateral_slow in La, Ya by (apply S; now left). cbn [fst snd] in La, Ya. rewrite !(Rclip_id (b_yaw b)) in La, Ya by easy.
  set (q := 1 - 2 * dt) in *. assert (Q : 0 <= q <= 1) by (unfold q; lra).
  assert (Y1 : b_yaw b1 = b_yaw b * q) by (rewrite Ya; unfold q; ring).
  assert (L1 : Rabs (b_lateral b1) <= q * Rabs (b_lateral b) + dt * Rabs (b_yaw b)).
  { replace (b_lateral b1) with (q * b_lateral b + dt * (b_yaw b * - v_speed (b_base b))) by (rewrite La; unfold q; ring).
    eapply Rle_trans; [apply Rabs_triang|]. rewrite !Rabs_mult, Rabs_Ropp, (Rabs_pos_eq q), (Rabs_pos_eq dt) by lra.
    assert (Rabs (v_speed (b_base b)) < 1) by (apply S; now left). pose proof (Rabs_pos (b_yaw b)). pose proof (Rabs_pos (v_speed (b_base b))).
    apply Rplus_le_compat_l. apply Rmult_le_compat_l; nra. }
  destruct k as [|k].
  - injection Hk as <-. rewrite Y1. cbn [pow INR]. split; [ring|]. lra.
  - assert (B1 : - (2 * PI) <= b_yaw b1 <= 2 * PI). { rewrite Y1. destruct Y. pose proof PI_RGT_0. split; nra. }
    destruct (IH B1 ltac:(intros u Hu; apply S; now right) k w Hk) as (Ak & Bk). split; [rewrite Ak, Y1; cbn [pow]; ring|].
    eapply Rle_trans; [exact Bk|]. rewrite Y1, Rabs_mult, (Rabs_pos_eq q), (S_INR (Datatypes.S k)) by lra.
    set (n := INR (Datatypes.S k)). assert (Pk : 0 <= q ^ k) by (apply pow_le; lra).
    change (q ^ Datatypes.S (Datatypes.S k)) with (q * (q * q ^ k)). change (q ^ Datatypes.S k) with (q * q ^ k).
    assert (q * q ^ k * Rabs (b_lateral b1) <= q * q ^ k * (q * Rabs (b_lateral b) + dt * Rabs (b_yaw b))).
    { apply Rmult_le_compat_l; [apply Rmult_le_pos; lra | exact L1]. }
    lra.
Qed.
Print Assumptions C80_low_speed_damping.
Lemma b_drives_total g record dt : built g -> g <> [] -> forall cmds b, exists tr, b_drives g record dt b cmds tr.
Proof.
  intros B N. induction cmds as [|[st ac] cmds IH]; intros b; [exists []; constructor|].
  destruct (C79_step_total g record (b_act b st ac) dt B N) as [b1 E]. destruct (IH b1) as [tr T].
  exists (b1 :: tr). econstructor; eassumption.
Qed.
(** Coasting straight. *)
Lemma coasting_step g record dt b b1 : b_step g record (b_act b 0 0) dt = Ok b1 -> v_crashed (b_base b) = false ->
  - 15 <= v_speed (b_base b) <= 15 -> v_crashed (b_base b1) = false /\ v_speed (b_base b1) = v_speed (b_base b).
Proof.
  intros E C S. apply b_step_fields in E as (_ & _ & _ & Sp & _ & _ & Cr). split; [rewrite Cr; exact C|].
  rewrite Sp, b_accel_within by easy. cbn. ring.
Qed.
Lemma coasting g record dt b n tr : b_drives g record dt b (repeat (0, 0) n) tr -> v_crashed (b_base b) = false ->
  - 15 <= v_speed (b_base b) <= 15 -> forall w, In w (b :: tr) -> v_crashed (b_base w) = false /\ v_speed (b_base w) = v_speed (b_base b).
Proof.
  intros D. remember (repeat (0, 0) n) as cmds eqn:Ec. revert n Ec. induction D as [b|b st ac cmds b1 tr E D IH]; intros n Ec C S w Hw.
  - destruct Hw as [<-|[]]. easy.
  - destruct n as [|n]; [discriminate|]. injection Ec as -> -> ->. destruct (coasting_step _ _ _ _ _ E C S) as (C1 & S1).
    destruct Hw as [<-|Hw]; [easy|]. destruct (IH n eq_refl C1 ltac:(rewrite S1; exact S) w Hw) as (? & ?). split; [easy | congruence].
Qed.
Example C80_nonvacuous : forall n, exists tr,
  b_drives demo_net true (1 / 15) (demo_bicycle 0 10 0 0 0 0) (repeat (0, 0) n) tr /\
  (forall w, In w (demo_bicycle 0 10 0 0 0 0 :: tr) -> - 1 < v_speed (b_base w)) /\
  exists tr', b_drives demo_net true (1 / 15) (demo_bicycle 0 (1/2) 3 2 0 0) (repeat (0, 0) n) tr' /\
  (forall w, In w (demo_bicycle 0 (1/2) 3 2 0 0 :: tr') -> Rabs (v_speed (b_base w)) < 1).
Proof.
  intros n. destruct (b_drives_total demo_net true (1/15) demo_built ltac:(discriminate) (repeat (0, 0) n) (demo_bicycle 0 10 0 0 0 0)) as [tr T].
  destruct (b_drives_total demo_net true (1/15) demo_built ltac:(discriminate) (repeat (0, 0) n) (demo_bicycle 0 (1/2) 3 2 0 0)) as [tr' T'].
  exists tr. split; [easy|]. split.
  - intros w Hw. destruct (coasting _ _ _ _ _ _ T) with (w := w) as (_ & ->); cbn; easy || lra.
  - exists tr'. split; [easy|]. intros w Hw. destruct (coasting _ _ _ _ _ _ T') with (w := w) as (_ & ->); try (cbn; easy || lra).
    cbn. rewrite Rabs_pos_eq; lra.
Qed.

(** ** C81: numerical stability of the lateral motion *)
(** One step of a vehicle coasting straight with a lateral speed. *)
Lemma coasting_lateral g record dt b b1 : b_step g record (b_act b 0 0) dt = Ok b1 -> b_yaw b = 0 -> 1 <= v_speed (b_base b) ->
  b_yaw b1 = 0 /\ b_lateral b1 = b_lateral b - 60 * dt * atan (b_lateral b / v_speed (b_base b)).
Proof.
  intros E Y S. apply b_step_fields in E as (_ & _ & _ & _ & La & Ya & _).
  cbn [b_act b_base b_lateral b_yaw set_action v_speed v_steering v_crashed] in *. pose proof PI_RGT_0. rewrite Y in *.
  rewrite !(Rclip_id 0) in * by lra.
  assert (Rclip (if v_crashed (b_base b) then 0 else 0) (- (PI / 2)) (PI / 2) = 0) as St.
  { destruct (v_crashed (b_base b)); apply Rclip_id; lra. }
  rewrite St, lateral_fast in La, Ya by easy. cbn [fst snd] in La, Ya.
  replace (b_lateral b + 5 / 2 * 0) with (b_lateral b) in La, Ya by ring.
  replace (b_lateral b - 5 / 2 * 0) with (b_lateral b) in La, Ya by ring.
  split; [rewrite Ya; ring | rewrite La; ring].
Qed.
(** With no commands, no yaw rate and a speed between 30 dt and 15 m/s (2 m/s at
    the default 15 Hz), any initial lateral speed decays geometrically. *)
Theorem C81_stable : forall dt v y0, 0 < dt -> 1 <= v <= 15 -> 30 * dt < v -> exists q, 0 <= q < 1 /\
  forall g record b n tr, b_drives g record dt b (repeat (0, 0) n) tr -> v_crashed (b_base b) = false ->
    v_speed (b_base b) = v -> b_yaw b = 0 -> b_lateral b = y0 ->
    forall k w, nth_error tr k = Some w -> b_yaw w = 0 /\ Rabs (b_lateral w) <= q ^ (S k) * Rabs y0.
Proof.
  intros dt v y0 Hd Hv Hs. set (x := y0 / v). set (c := 60 * dt / v).
  assert (Iv : 0 < / v) by (apply Rinv_0_lt_compat; lra).
  assert (C : 0 < c < 2). { unfold c. split; [apply Rdiv_lt_0_compat; lra|]. apply (Rmult_lt_reg_r v); [lra|]. unfold Rdiv. rewrite Rmult_assoc, Rinv_l; lra. }
  assert (Px : 0 < / (1 + x * x) <= 1). { split; [apply Rinv_0_lt_compat; nra|]. rewrite <- Rinv_1. apply Rinv_le_contravar; nra. }
  set (q := Rmax (c - 1) (1 - c * / (1 + x * x))).
  assert (Q1 : c - 1 <= q) by apply Rmax_l. assert (Q2 : 1 - c * / (1 + x * x) <= q) by apply Rmax_r.
  assert (Q3 : q < 1). { apply Rmax_lub_lt; [lra|]. assert (0 < c * / (1 + x * x)) by (apply Rmult_lt_0_compat; lra). lra. }
  assert (Q0 : 0 <= q). { destruct (Rle_dec 1 c); [lra|]. assert (c * / (1 + x * x) <= c * 1) by (apply Rmult_le_compat_l; lra). lra. }
  exists q. split; [easy|]. intros g rec b n tr D Cr Sp Y L k w Hk.
  assert (Main : forall tr b n, b_drives g rec dt b (repeat (0, 0) n) tr -> v_crashed (b_base b) = false -> v_speed (b_base b) = v -> b_yaw b = 0 ->
    Rabs (b_lateral b) <= Rabs y0 -> forall k w, nth_error tr k = Some w -> b_yaw w = 0 /\ Rabs (b_lateral w) <= q ^ (S k) * Rabs (b_lateral b)).
  { clear tr b n D Cr Sp Y L k w Hk. intros tr b n D. remember (repeat (0, 0) n) as cmds eqn:Ec. revert n Ec.
    induction D as [b|b st ac cmds b1 tr E D IH]; intros n Ec Cr Sp Y L k w Hk; [destruct k; discriminate|].
    destruct n as [|n]; [discriminate|]. injection Ec as -> -> ->.
    destruct (coasting_step _ _ _ _ _ E Cr ltac:(rewrite Sp; lra)) as (C1 & S1).
    destruct (coasting_lateral _ _ _ _ _ E Y ltac:(rewrite Sp; lra)) as (Y1 & L1). rewrite Sp in *.
    destruct (atan_slope (b_lateral b / v)) as (t & T & _ & At). rewrite At in L1.
    assert (Tx : / (1 + x * x) <= t).
    { eapply Rle_trans; [|apply T]. apply Rinv_le_contravar.
      - assert (0 <= b_lateral b / v * (b_lateral b / v)) by apply Rle_0_sqr. lra.
      - apply Rplus_le_compat_l. assert (Sq : b_lateral b * b_lateral b <= y0 * y0) by (apply Rsqr_le_abs_1; exact L).
        replace (b_lateral b / v * (b_lateral b / v)) with (b_lateral b * b_lateral b * (/ v * / v)) by (field; lra).
        replace (x * x) with (y0 * y0 * (/ v * / v)) by (unfold x; field; lra). apply Rmult_le_compat_r; [nra | easy]. }
    replace (b_lateral b - 60 * dt * (t * (b_lateral b / v))) with ((1 - c * t) * b_lateral b) in L1 by (unfold c; field; lra).
    assert (F : Rabs (1 - c * t) <= q).
    { assert (c * / (1 + x * x) <= c * t) by (apply Rmult_le_compat_l; lra). assert (c * t <= c * 1) by (apply Rmult_le_compat_l; lra).
      apply Rabs_le. split; lra. }
    assert (B1 : Rabs (b_lateral b1) <= q * Rabs (b_lateral b)).
    { rewrite L1, Rabs_mult. apply Rmult_le_compat_r; [apply Rabs_pos | easy]. }
    destruct k as [|k].
    - injection Hk as <-. split; [easy|]. rewrite pow_1. exact B1.
    - assert (B2 : Rabs (b_lateral b1) <= Rabs y0) by (pose proof (Rabs_pos (b_lateral b)); nra).
      destruct (IH n eq_refl C1 ltac:(congruence) Y1 B2 k w Hk) as (? & K). split; [easy|].
      eapply Rle_trans; [exact K|]. change (q ^ S (S k)) with (q * q ^ S k). rewrite (Rmult_comm q), Rmult_assoc.
      apply Rmult_le_compat_l; [apply pow_le; lra | exact B1]. }
  rewrite <- L. apply (Main tr b n D Cr Sp Y ltac:(rewrite L; lra) k w Hk).
Qed.
Print Assumptions C81_stable.
(** Between 1 m/s and 30 dt (1 to 2 m/s at the default 15 Hz) the integration is
    unstable: there is a threshold that any non-zero lateral speed, however
    small, eventually exceeds although the vehicle receives no command. *)
Theorem C81_unstable : forall dt v, 0 < dt -> 1 <= v <= 15 -> v < 30 * dt -> exists e, 0 < e /\
  forall g record b, v_crashed (b_base b) = false -> v_speed (b_base b) = v -> b_yaw b = 0 -> b_lateral b <> 0 ->
    exists n, forall tr, b_drives g record dt b (repeat (0, 0) n) tr ->
      exists w, In w (b :: tr) /\ e < Rabs (b_lateral w).
Proof.
  intros dt v Hd Hv Hs. set (c := 60 * dt / v). assert (Iv : 0 < / v) by (apply Rinv_0_lt_compat; lra).
  assert (C : 2 < c). { unfold c. apply (Rmult_lt_reg_r v); [lra|]. unfold Rdiv. rewrite Rmult_assoc, Rinv_l; lra. }
  set (x0 := sqrt ((c - 2) / 4)). assert (X0 : 0 < x0) by (apply sqrt_lt_R0; lra).
  assert (XX : x0 * x0 = (c - 2) / 4) by (apply sqrt_sqrt; lra).
  exists (v * x0). split; [apply Rmult_lt_0_compat; lra|].
  set (q := (3 * c - 2) / (c + 2)).
  assert (Q : 1 < q). { unfold q. apply (Rmult_lt_reg_r (c + 2)); [lra|]. unfold Rdiv. rewrite Rmult_assoc, Rinv_l; lra. }
  intros g rec b0 Cr0 Sp0 Y0 L0.
  assert (Main : forall n b tr, b_drives g rec dt b (repeat (0, 0) n) tr -> v_crashed (b_base b) = false -> v_speed (b_base b) = v -> b_yaw b = 0 ->
    (exists w, In w (b :: tr) /\ v * x0 < Rabs (b_lateral w)) \/
    (exists w, In w (b :: tr) /\ q ^ n * Rabs (b_lateral b) <= Rabs (b_lateral w))).
  { induction n as [|n IH]; intros b tr D Cr Sp Y.
    - right. exists b. split; [now left|]. rewrite pow_O. lra.
    - inversion D as [|b' st ac cmds b1 tr' E D' E1 E2 E3]. clear D. subst tr b' st ac cmds.
      destruct (coasting_step _ _ _ _ _ E Cr ltac:(lra)) as (C1 & S1).
      destruct (coasting_lateral _ _ _ _ _ E Y ltac:(lra)) as (Y1 & L1). rewrite Sp in S1, L1.
      destruct (Rlt_dec (v * x0) (Rabs (b_lateral b))) as [G|G]; [left; exists b; split; [now left | exact G]|]. apply Rnot_lt_le in G.
      destruct (atan_slope (b_lateral b / v)) as (t & T & _ & At). rewrite At in L1.
      replace (b_lateral b - 60 * dt * (t * (b_lateral b / v))) with ((1 - c * t) * b_lateral b) in L1 by (unfold c; field; lra).
      assert (Tx : / (1 + x0 * x0) <= t).
      { eapply Rle_trans; [|apply T]. apply Rinv_le_contravar.
        - assert (0 <= b_lateral b / v * (b_lateral b / v)) by apply Rle_0_sqr. lra.
        - apply Rplus_le_compat_l. apply Rsqr_le_abs_1. unfold Rdiv. rewrite Rabs_mult, (Rabs_pos_eq (/ v)), (Rabs_pos_eq x0) by lra.
          apply (Rmult_le_reg_r v); [lra|]. rewrite Rmult_assoc, Rinv_l by lra. lra. }
      assert (F : q <= Rabs (1 - c * t)).
      { assert (K : c * / (1 + x0 * x0) <= c * t) by (apply Rmult_le_compat_l; lra).
        assert (K2 : c * / (1 + x0 * x0) = q + 1) by (rewrite XX; unfold q; field; lra).
        rewrite Rabs_left by lra. lra. }
      assert (B1 : q * Rabs (b_lateral b) <= Rabs (b_lateral b1)).
      { rewrite L1, Rabs_mult. apply Rmult_le_compat_r; [apply Rabs_pos | easy]. }
      destruct (IH b1 tr' D' C1 S1 Y1) as [(w & Hw & K)|(w & Hw & K)]; [left | right]; exists w; (split; [now right|]); [easy|].
      eapply Rle_trans; [|exact K]. change (q ^ S n) with (q * q ^ n). rewrite (Rmult_comm q), Rmult_assoc.
      apply Rmult_le_compat_l; [apply pow_le; lra | exact B1]. }
  assert (P0 : 0 < Rabs (b_lateral b0)) by (now apply Rabs_pos_lt).
  destruct (Pow_x_infinity q ltac:(rewrite Rabs_pos_eq; lra) ((v * x0 + 1) / Rabs (b_lateral b0))) as [n Hn].
  exists n. intros tr D. destruct (Main n b0 tr D Cr0 Sp0 Y0) as [M|(w & Hw & K)]; [exact M|].
  exists w. split; [easy|]. specialize (Hn n (Nat.le_refl n)). rewrite Rabs_pos_eq in Hn by (apply pow_le; lra).
  apply Rge_le in Hn. apply (Rmult_le_compat_r (Rabs (b_lateral b0))) in Hn; [|lra].
  unfold Rdiv in Hn. rewrite Rmult_assoc, Rinv_l in Hn by lra. lra.
Qed.
Print Assumptions C81_unstable.
Example C81_nonvacuous : 0 < 1 / 15 /\ 1 <= 10 <= 15 /\ 30 * (1 / 15) < 10 /\ 1 <= 3 / 2 <= 15 /\ 3 / 2 < 30 * (1 / 15) /\
  forall n, exists tr, b_drives demo_net true (1 / 15) (demo_bicycle 0 (3 / 2) (1 / 1000) 0 0 0) (repeat (0, 0) n) tr.
Proof.
  repeat (split; [lra|]). intros n. apply b_drives_total; [apply demo_built | discriminate].
Qed.
