From Verif Require Import Prelude M_Utils M_Lane M_Road M_Vehicle M_Kinematics S_Geometry S_Road S_Vehicle
  P_Base P_Utils P_Lane P_Graph P_Collision.
From Coq Require Import Lia Lra Permutation.
Open Scope R_scope.

(** ** One step *)
Lemma on_state_update_ok g rec v v' : on_state_update g rec v = Ok v' ->
  exists i, get_closest_lane_index g (v_pos v) (Some (v_heading v)) = Ok i /\
  v' = (let v1 := set_lane_index v i in if rec then set_history v1 (push_history (v_history v1) (snap v1)) else v1).
Proof.
  unfold on_state_update. intros E. inv_ok. eexists. split; [eassumption|]. now subst.
Qed.
Lemma on_state_update_total g rec v : wf_graph g -> g <> [] -> exists v', on_state_update g rec v = Ok v'.
Proof.
  intros W N. unfold on_state_update.
  destruct (closest_total g (v_pos v) (Some (v_heading v)) W N) as [i Hi]. rewrite Hi. simpl. eauto.
Qed.
Lemma vehicle_step_total g rec v dt : wf_graph g -> g <> [] -> exists v', vehicle_step g rec v dt = Ok v'.
Proof. intros W N. unfold vehicle_step. now apply on_state_update_total. Qed.

(** The acceleration actually integrated. *)
Definition clipped_accel (v : vehicle) : R := v_accel (clip_actions v).

Lemma step_fields g rec v dt v' : vehicle_step g rec v dt = Ok v' ->
  let beta := slip (if v_crashed v then 0 else v_steering v) in
  v_pos v' = vadd (v_pos v) (vscal dt (vscal (v_speed v) (cos (v_heading v + beta), sin (v_heading v + beta)))) /\
  v_heading v' = v_heading v + v_speed v * sin beta / (V_LENGTH / 2) * dt /\
  v_speed v' = v_speed v + clipped_accel v * dt /\
  v_crashed v' = v_crashed v /\ v_id v' = v_id v /\ v_kind v' = v_kind v /\ v_collisions v' = v_collisions v /\
  v_target_lane v' = v_target_lane v /\ v_target_speed v' = v_target_speed v /\ v_route v' = v_route v /\
  v_speed_index v' = v_speed_index v /\ v_grid v' = v_grid v /\ v_par v' = v_par v /\
  v_enable_lane_change v' = v_enable_lane_change v /\
  v_timer v' = (if is_idm (v_kind v) then v_timer v + dt else v_timer v) /\
  v_is_yielding v' = v_is_yielding v /\ v_yield_timer v' = v_yield_timer v /\ v_has_color v' = v_has_color v /\
  v_history v' = (if rec then push_history (v_history v) (snap v') else v_history v) /\
  get_closest_lane_index g (v_pos v') (Some (v_heading v')) = Ok (v_lane_index v').
Proof.
  intros E. unfold vehicle_step in E. apply on_state_update_ok in E as (i & Ei & ->).
  unfold clipped_accel, snap. destruct (is_idm (v_kind v)), rec; cbv zeta; cbn; repeat split; try exact Ei.
Qed.

Lemma clipped_cases v :
  clipped_accel v =
    (let ac := if v_crashed v then - v_speed v else v_accel v in
     if Rltb 40 (v_speed v) then Rmin ac (40 - v_speed v)
     else if Rltb (v_speed v) (- 40) then Rmax ac (40 - v_speed v)
     else ac).
Proof.
  unfold clipped_accel, clip_actions, MAX_SPEED. cbn [v_accel set_action].
  replace (1 * (40 - v_speed v)) with (40 - v_speed v) by ring.
  replace (-1 * v_speed v) with (- v_speed v) by ring. reflexivity.
Qed.

Lemma slip_0 : slip 0 = 0.
Proof. unfold slip. rewrite tan_0, Rmult_0_r. apply atan_0. Qed.
Lemma slip_bounds d : - (PI / 2) < slip d < PI / 2.
Proof. unfold slip. pose proof (atan_bound (1/2 * tan d)). lra. Qed.
(** With |steering| <= pi/3 the slip angle satisfies sin^2 <= 3/7. *)
Lemma sin_slip_sq d : - (PI / 3) <= d <= PI / 3 -> sin (slip d) * sin (slip d) <= 3 / 7.
Proof.
  intros H. unfold slip. rewrite sin_atan. set (t := 1/2 * tan d).
  assert (Ht : t * t <= 3 / 4).
  { assert (T : tan d * tan d <= 3).
    { assert (P : 0 < PI) by apply PI_RGT_0.
      assert (U : - sqrt 3 <= tan d <= sqrt 3).
      { rewrite <- tan_PI3. split.
        - rewrite <- tan_neg. destruct (Req_dec (- (PI/3)) d) as [<-|N]; [lra|]. left. apply tan_increasing; lra.
        - destruct (Req_dec d (PI/3)) as [->|N]; [lra|]. left. apply tan_increasing; lra. }
      assert (S3 : sqrt 3 * sqrt 3 = 3) by (apply sqrt_sqrt; lra). nra. }
    unfold t. nra. }
  assert (S : 0 < 1 + t²) by (unfold Rsqr; nra).
  assert (Q : sqrt (1 + t²) * sqrt (1 + t²) = 1 + t²) by (apply sqrt_sqrt; lra).
  assert (Sp : 0 < sqrt (1 + t²)) by now apply sqrt_lt_R0.
  replace (t / sqrt (1 + t²) * (t / sqrt (1 + t²))) with (t * t / (1 + t²)).
  - apply Rmult_le_reg_r with (1 + t²); [easy|]. unfold Rdiv. rewrite Rmult_assoc, Rinv_l by lra. unfold Rsqr in *. lra.
  - rewrite <- Q at 1. field. lra.
Qed.

Lemma vnorm_dir t k : vnorm (vscal k (cos t, sin t)) = Rabs k.
Proof. rewrite vnorm_scal, vnorm_unit. ring. Qed.

Lemma step_displacement g rec v dt v' : vehicle_step g rec v dt = Ok v' -> 0 <= dt ->
  dist2 (v_pos v) (v_pos v') = Rabs (v_speed v) * dt.
Proof.
  intros E H. apply step_fields in E as (P & _). cbv zeta in P. set (b := slip _) in P.
  rewrite dist2_norm, P.
  replace (vsub (v_pos v) (vadd (v_pos v) (vscal dt (vscal (v_speed v) (cos (v_heading v + b), sin (v_heading v + b))))))
    with (vscal (- (dt * v_speed v)) (cos (v_heading v + b), sin (v_heading v + b)))
    by (unfold vsub, vadd, vscal; simpl; apply f_equal2; ring).
  rewrite vnorm_dir, Rabs_Ropp, Rabs_mult, (Rabs_pos_eq dt) by lra. ring.
Qed.

Lemma vehicle_step_set_action_crashed v st ac : v_crashed (set_action v st ac) = v_crashed v.
Proof. reflexivity. Qed.

(** ** Crashed vehicles *)
Lemma crashed_step g rec v st ac dt v' : v_crashed v = true -> - 40 <= v_speed v ->
  vehicle_step g rec (set_action v st ac) dt = Ok v' ->
  v_crashed v' = true /\ v_heading v' = v_heading v /\ v_speed v' = v_speed v * (1 - dt) /\
  v_pos v' = vadd (v_pos v) (vscal (v_speed v * dt) (cos (v_heading v), sin (v_heading v))).
Proof.
  intros C L E. apply step_fields in E as (P & H & S & Cr & _). cbv zeta in *.
  rewrite clipped_cases in S. cbn [v_crashed v_speed set_action v_heading v_pos v_accel] in *. rewrite C in *. rewrite slip_0 in *.
  split; [easy|]. split; [rewrite H, sin_0; unfold V_LENGTH; field|]. split.
  - rewrite S. destruct (Rltb 40 (v_speed v)) eqn:A; rbool.
    + rewrite Rmin_left by lra. ring.
    + rewrite (Rltb_ge (v_speed v) (-40)) by lra. ring.
  - rewrite P, Rplus_0_r. unfold vadd, vscal. simpl. apply f_equal2; ring.
Qed.

Lemma crashed_drives g rec dt v cmds tr : 0 <= dt <= 1 -> v_crashed v = true -> - 40 <= v_speed v ->
  drives g rec dt v cmds tr ->
  forall k w, nth_error tr k = Some w ->
    v_crashed w = true /\ v_heading w = v_heading v /\ v_speed w = v_speed v * (1 - dt) ^ (S k) /\
    v_pos w = vadd (v_pos v) (vscal (v_speed v * (1 - (1 - dt) ^ (S k))) (cos (v_heading v), sin (v_heading v))).
Proof.
  intros Hd C L D. induction D as [|v st ac cmds v1 tr E D IH]; intros k w Hk; [destruct k; easy|].
  destruct (crashed_step g rec v st ac dt v1 C L E) as (C1 & H1 & S1 & P1).
  destruct k as [|k]; simpl in Hk.
  - injection Hk as <-. split; [easy|]. split; [easy|]. split; [rewrite S1; simpl; ring|].
    rewrite P1. unfold vadd, vscal. simpl. apply f_equal2; ring.
  - assert (L1 : -40 <= v_speed v1) by (rewrite S1; nra).
    destruct (IH C1 L1 k w Hk) as (C2 & H2 & S2 & P2). split; [easy|]. split; [congruence|]. split.
    + rewrite S2, S1. simpl. ring.
    + rewrite P2, P1, S1, H1. unfold vadd, vscal. simpl. apply f_equal2; ring.
Qed.

Lemma pow_01 x n : 0 <= x <= 1 -> 0 <= x ^ n <= 1.
Proof. intros H. induction n; simpl; [lra|]. nra. Qed.

Lemma crashed_travel g rec dt v cmds tr : 0 <= dt <= 1 -> v_crashed v = true -> - 40 <= v_speed v ->
  drives g rec dt v cmds tr -> path_length (v_pos v) tr = Rabs (v_speed v) * (1 - (1 - dt) ^ (List.length tr)).
Proof.
  intros Hd C L D. induction D as [|v st ac cmds v1 tr E D IH]; simpl; [ring|].
  destruct (crashed_step g rec v st ac dt v1 C L E) as (C1 & H1 & S1 & P1).
  rewrite IH; [|easy|rewrite S1; nra].
  pose proof (step_displacement g rec (set_action v st ac) dt v1 E ltac:(lra)) as Q. cbn [v_pos v_speed set_action] in Q. rewrite Q, S1, Rabs_mult, (Rabs_pos_eq (1 - dt)) by lra. ring.
Qed.

(** ** Speed envelope *)
Lemma speed_step g rec v st ac dt v' a : 0 <= dt <= 1 -> Rabs ac <= a ->
  vehicle_step g rec (set_action v st ac) dt = Ok v' ->
  - 40 - a * dt <= v_speed v <= 40 + a * dt -> - 40 - a * dt <= v_speed v' <= 40 + a * dt.
Proof.
  intros Hd Ha E H. apply step_fields in E as (_ & _ & S & _). cbv zeta in S. rewrite clipped_cases in S.
  cbn [v_crashed v_speed set_action v_accel] in S. rewrite S. clear S.
  assert (A : - a <= ac <= a) by (revert Ha; unfold Rabs; destruct (Rcase_abs ac); lra).
  assert (A0 : 0 <= a) by (pose proof (Rabs_pos ac); lra).
  set (s := v_speed v) in *. destruct (v_crashed v).
  - destruct (Rltb 40 s) eqn:B; rbool; [rewrite Rmin_left by lra; nra|].
    destruct (Rltb s (-40)) eqn:B2; rbool; [rewrite Rmax_right by lra; nra|]. nra.
  - destruct (Rltb 40 s) eqn:B; rbool.
    + split.
      * unfold Rmin. destruct (Rle_dec ac (40 - s)); nra.
      * assert (Rmin ac (40 - s) <= 40 - s) by apply Rmin_r. nra.
    + destruct (Rltb s (-40)) eqn:B2; rbool; [|nra].
      unfold Rmax. destruct (Rle_dec ac (40 - s)); nra.
Qed.
Lemma speed_drives g rec dt v cmds tr a : 0 <= dt <= 1 ->
  (forall c, In c cmds -> Rabs (snd c) <= a) -> 0 <= a ->
  - 40 - a * dt <= v_speed v <= 40 + a * dt -> drives g rec dt v cmds tr ->
  forall w, In w tr -> - 40 - a * dt <= v_speed w <= 40 + a * dt.
Proof.
  intros Hd Ha A0 H D. induction D as [|v st ac cmds v1 tr E D IH]; intros w Hw; [easy|].
  assert (H1 : - 40 - a * dt <= v_speed v1 <= 40 + a * dt).
  { apply (speed_step g rec v st ac dt v1 a); try easy. apply (Ha (st, ac)). now left. }
  destruct Hw as [<-|Hw]; [easy|]. apply IH; try easy. intros c Hc. apply Ha. now right.
Qed.

(** ** History *)
Lemma push_firstn h x : push_history h x = firstn 30 (x :: h).
Proof. reflexivity. Qed.
Lemma firstn_app_firstn {A} n (a b : list A) : firstn n (a ++ firstn n b) = firstn n (a ++ b).
Proof. rewrite !firstn_app. f_equal. rewrite firstn_firstn. f_equal. lia. Qed.
Lemma history_drives g dt v cmds tr : drives g true dt v cmds tr ->
  forall w, last tr v = w -> (tr = [] -> (List.length (v_history v) <= 30)%nat) ->
  v_history w = firstn 30 (rev (map snap tr) ++ v_history v).
Proof.
  intros D. induction D as [|v st ac cmds v1 tr E D IH]; intros w Hw Hn.
  - simpl in Hw. subst w. cbn [map rev app]. rewrite firstn_all2; [easy|]. now apply Hn.
  - apply step_fields in E as E'. destruct E' as (_ & _ & _ & _ & _ & _ & _ & _ & _ & _ & _ & _ & _ & _ & _ & _ & _ & _ & HH & _).
    cbv iota in HH. cbn [v_history set_action] in HH. rewrite push_firstn in HH.
    rewrite (IH w).
    + rewrite HH, firstn_app_firstn. cbn [map rev]. rewrite <- app_assoc. reflexivity.
    + destruct tr; [easy|]. rewrite <- Hw. clear. revert v0. induction tr as [|y tr IH]; intros v0; [easy|]. simpl. apply (IH y).
    + intros ->. rewrite HH. apply firstn_le_length.
Qed.
Lemma history_off g dt v cmds tr : drives g false dt v cmds tr ->
  forall w, In w tr -> v_history w = v_history v.
Proof.
  intros D. induction D as [|v st ac cmds v1 tr E D IH]; intros w Hw; [easy|].
  apply step_fields in E as E'. destruct E' as (_ & _ & _ & _ & _ & _ & _ & _ & _ & _ & _ & _ & _ & _ & _ & _ & _ & _ & HH & _).
  cbn in HH. destruct Hw as [<-|Hw]; [easy|]. rewrite (IH w Hw). easy.
Qed.
Lemma drives_total g rec dt cmds : wf_graph g -> g <> [] -> forall v, exists tr, drives g rec dt v cmds tr.
Proof.
  intros W N. induction cmds as [|[st ac] cmds IH]; intros v; [eexists; constructor|].
  destruct (vehicle_step_total g rec (set_action v st ac) dt W N) as [v1 E].
  destruct (IH v1) as [tr D]. exists (v1 :: tr). econstructor; eassumption.
Qed.
Lemma drives_length g rec dt v cmds tr : drives g rec dt v cmds tr -> List.length tr = List.length cmds.
Proof. induction 1; simpl; congruence. Qed.
