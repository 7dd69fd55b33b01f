(** Theorems about the car-following law (C112). *)
From Verif Require Import Prelude M_Utils M_Lane M_Road M_Vehicle M_Kinematics M_Control M_Behavior
  S_Geometry S_Road S_Vehicle S_Control S_Behavior S_CarFollowing P_Base P_Utils P_Lane P_Graph P_Bfs P_Query P_Kin P_Crash P_Control P_Behavior P_Traffic
  P_CarFollowing T_Road T_Kin T_Control T_Behavior T_Action.
From Coq Require Import Lia Lra.
Open Scope R_scope.

(** ** C112: the car-following law *)
(** The acceleration is the published law, exactly, behind anything that is more
    than a centimetre away along the lane. *)
Theorem C112_exact : forall g par e f l, is_controlled (v_kind e) = true -> 1/100 < v_target_speed e -> 0 <= v_speed e ->
  get_lane g (v_lane_index e) = Ok l ->
  let gap := fst (l_local l (e_pos f)) - fst (l_local l (v_pos e)) in
  1/100 < Rabs gap ->
  idm_acceleration g par (Some (EV e)) (Some f) =
    Ok (car_following_law (ip_comfort_max par) (v_speed e) (v_target_speed e)
          (wanted_gap (ip_distance par) (ip_time par) (ip_comfort_max par) (- ip_comfort_min par) (v_speed e) (closing_speed e f)) gap).
Proof.
  intros g par e f l C T V G gap D. rewrite (law_value g par e f l C T G). fold gap. rewrite not_zero_big by exact D.
  rewrite Rmax_left by lra. reflexivity.
Qed.
Print Assumptions C112_exact.

(** Behind a leader at the same velocity there is one gap at which the follower
    keeps its speed: nearer it brakes, farther it accelerates. *)
Theorem C112_equilibrium : forall g par e f l, is_controlled (v_kind e) = true -> 1/100 < v_target_speed e ->
  0 <= v_speed e < v_target_speed e -> get_lane g (v_lane_index e) = Ok l ->
  0 < ip_comfort_max par -> 0 < ip_distance par + v_speed e * ip_time par ->
  e_speed f = v_speed e -> e_heading f = v_heading e ->
  let gap := fst (l_local l (e_pos f)) - fst (l_local l (v_pos e)) in
  1/100 < gap ->
  let gap0 := equilibrium_gap (ip_distance par) (ip_time par) (v_speed e) (v_target_speed e) in
  exists a, idm_acceleration g par (Some (EV e)) (Some f) = Ok a /\
    (a < 0 <-> gap < gap0) /\ (a = 0 <-> gap = gap0) /\ (0 < a <-> gap0 < gap).
Proof.
  intros g par e f l C T V G Hc Hw Sf Hf gap D gap0. eexists. split.
  { apply (C112_exact g par e f l C T (proj1 V) G). fold gap. rewrite Rabs_pos_eq; lra. }
  unfold car_following_law. fold gap.
  assert (W : wanted_gap (ip_distance par) (ip_time par) (ip_comfort_max par) (- ip_comfort_min par) (v_speed e) (closing_speed e f) =
              ip_distance par + v_speed e * ip_time par).
  { unfold wanted_gap, closing_speed. rewrite Sf, Hf. replace (v_heading e - v_heading e) with 0 by ring. rewrite cos_0.
    replace (v_speed e - v_speed e * 1) with 0 by ring. unfold Rdiv. ring. }
  rewrite W. unfold gap0, equilibrium_gap. set (w := ip_distance par + v_speed e * ip_time par) in *.
  assert (Hx : 0 <= v_speed e / v_target_speed e < 1).
  { split; [apply Rmult_le_pos; [lra | left; apply Rinv_0_lt_compat; lra]|].
    apply (Rmult_lt_reg_r (v_target_speed e)); [lra|]. unfold Rdiv. rewrite Rmult_assoc, Rinv_l by lra. lra. }
  apply pow4_lt1 in Hx. set (q := (v_speed e / v_target_speed e) ^ 4) in *.
  destruct (gap_sign (1 - q) w gap ltac:(lra) Hw ltac:(lra)) as (A & B & E). set (y := (1 - q - (w / gap) ^ 2)) in *.
  rewrite <- A, <- B, <- E. split; [|split]; split; intros H.
  - destruct (Rlt_dec y 0); [assumption|]. assert (0 <= ip_comfort_max par * y) by (apply Rmult_le_pos; lra). lra.
  - assert (0 < ip_comfort_max par * - y) by (apply Rmult_lt_0_compat; lra). lra.
  - apply Rmult_integral in H. lra.
  - rewrite H. ring.
  - destruct (Rlt_dec 0 y); [assumption|]. assert (0 <= ip_comfort_max par * - y) by (apply Rmult_le_pos; lra). lra.
  - apply Rmult_lt_0_compat; lra.
Qed.
Print Assumptions C112_equilibrium.
(** At the target speed, or above, nothing ahead lets the follower keep its speed:
    with anything in front, however far, it brakes. *)
Theorem C112_no_equilibrium_at_target : forall g par e f l a, is_controlled (v_kind e) = true -> 1/100 < v_target_speed e ->
  v_target_speed e <= v_speed e -> get_lane g (v_lane_index e) = Ok l -> 0 < ip_comfort_max par ->
  wanted_gap (ip_distance par) (ip_time par) (ip_comfort_max par) (- ip_comfort_min par) (v_speed e) (closing_speed e f) <> 0 ->
  idm_acceleration g par (Some (EV e)) (Some f) = Ok a -> a < 0.
Proof.
  intros g par e f l a C T V G Hc W E. rewrite (law_value g par e f l C T G) in E. injection E as <-.
  rewrite Rmax_left by lra. set (w := wanted_gap _ _ _ _ _ _) in *. set (d := not_zero _ _).
  assert (D : d <> 0) by apply not_zero_ne.
  assert (Hx : 1 <= (v_speed e / v_target_speed e) ^ 4).
  { destruct (Rle_lt_or_eq_dec _ _ V) as [H|H].
    - left. apply pow4_gt1. apply (Rmult_lt_reg_r (v_target_speed e)); [lra|]. unfold Rdiv. rewrite Rmult_assoc, Rinv_l by lra. lra.
    - rewrite <- H. replace (v_target_speed e / v_target_speed e) with 1 by (field; lra). right. ring. }
  assert (0 < (w / d) ^ 2).
  { assert (N : w / d <> 0) by (unfold Rdiv; apply Rmult_integral_contrapositive_currified; [exact W | now apply Rinv_neq_0_compat]).
    pose proof (Rsqr_pos_lt _ N) as P. unfold Rsqr in P. cbn [pow]. rewrite Rmult_1_r. exact P. }
  assert (0 < ip_comfort_max par * - (1 - (v_speed e / v_target_speed e) ^ 4 - (w / d) ^ 2)) by (apply Rmult_lt_0_compat; lra). lra.
Qed.
Print Assumptions C112_no_equilibrium_at_target.

(** Of two leaders at the same place, the one that closes faster brakes the follower
    more, as long as the wanted gap to the other is not negative. *)
Theorem C112_monotone_closing : forall g par e f1 f2 l a1 a2, is_controlled (v_kind e) = true -> 1/100 < v_target_speed e ->
  0 <= v_speed e -> get_lane g (v_lane_index e) = Ok l -> 0 < ip_comfort_max par ->
  fst (l_local l (e_pos f1)) = fst (l_local l (e_pos f2)) ->
  closing_speed e f1 <= closing_speed e f2 ->
  0 <= wanted_gap (ip_distance par) (ip_time par) (ip_comfort_max par) (- ip_comfort_min par) (v_speed e) (closing_speed e f1) ->
  idm_acceleration g par (Some (EV e)) (Some f1) = Ok a1 -> idm_acceleration g par (Some (EV e)) (Some f2) = Ok a2 ->
  a2 <= a1.
Proof.
  intros g par e f1 f2 l a1 a2 C T V G Hc P Cl W E1 E2. rewrite (law_value g par e f1 l C T G) in E1. rewrite (law_value g par e f2 l C T G) in E2. injection E1 as <-. injection E2 as <-.
  rewrite P. set (d := not_zero _ _). assert (D : d <> 0) by apply not_zero_ne.
  set (w1 := wanted_gap _ _ _ _ _ (closing_speed e f1)) in *. set (w2 := wanted_gap _ _ _ _ _ (closing_speed e f2)) in *.
  assert (L : w1 <= w2).
  { unfold w1, w2, wanted_gap. apply Rplus_le_compat_l. unfold Rdiv. apply Rmult_le_compat_r.
    - destruct (Req_dec (2 * sqrt (ip_comfort_max par * - ip_comfort_min par)) 0) as [->|N]; [rewrite Rinv_0; lra|].
      pose proof (sqrt_pos (ip_comfort_max par * - ip_comfort_min par)). left. apply Rinv_0_lt_compat. lra.
    - apply Rmult_le_compat_l; lra. }
  apply Rmult_le_compat_l; [lra|]. pose proof (sq_div_mono w1 w2 d D ltac:(rewrite !Rabs_pos_eq; lra)). lra.
Qed.
Print Assumptions C112_monotone_closing.
(** The wanted gap is not kept from being negative, and only its square counts: once a
    leader runs away fast enough, the faster it runs away the harder the follower brakes. *)
Theorem C112_runaway_leader : forall g par e f1 f2 l a1 a2, is_controlled (v_kind e) = true -> 1/100 < v_target_speed e ->
  0 < v_speed e -> get_lane g (v_lane_index e) = Ok l -> 0 < ip_comfort_max par -> ip_comfort_min par < 0 ->
  fst (l_local l (e_pos f1)) = fst (l_local l (e_pos f2)) ->
  closing_speed e f2 < closing_speed e f1 ->
  wanted_gap (ip_distance par) (ip_time par) (ip_comfort_max par) (- ip_comfort_min par) (v_speed e) (closing_speed e f1) <= 0 ->
  idm_acceleration g par (Some (EV e)) (Some f1) = Ok a1 -> idm_acceleration g par (Some (EV e)) (Some f2) = Ok a2 ->
  a2 < a1.
Proof.
  intros g par e f1 f2 l a1 a2 C T V G Hc Hb P Cl W E1 E2. rewrite (law_value g par e f1 l C T G) in E1. rewrite (law_value g par e f2 l C T G) in E2. injection E1 as <-. injection E2 as <-.
  rewrite P. set (d := not_zero _ _). assert (D : d <> 0) by apply not_zero_ne.
  set (w1 := wanted_gap _ _ _ _ _ (closing_speed e f1)) in *. set (w2 := wanted_gap _ _ _ _ _ (closing_speed e f2)) in *.
  assert (L : w2 < w1).
  { unfold w1, w2, wanted_gap. apply Rplus_lt_compat_l. unfold Rdiv. apply Rmult_lt_compat_r.
    - apply Rinv_0_lt_compat. apply Rmult_lt_0_compat; [lra|]. apply sqrt_lt_R0. apply Rmult_lt_0_compat; lra.
    - apply Rmult_lt_compat_l; lra. }
  apply Rmult_lt_compat_l; [lra|]. pose proof (sq_div_strict w1 w2 d D ltac:(rewrite !Rabs_left1; lra)). lra.
Qed.
Print Assumptions C112_runaway_leader.
(** With the default constants: at 20 m/s towards a target of 30, 10 m behind a leader,
    the follower accelerates when the leader does 35.5 m/s and brakes when it does 40. *)
Example C112_runaway_example : exists a1 a2,
  let follower := demo_controlled KIDM (0, 0) 20 30 0 in
  let leader u := EV (demo_controlled KIDM (10, 0) u 30 0) in
  idm_acceleration demo_net idm_default (Some (EV follower)) (Some (leader (355/10))) = Ok a1 /\ 2 < a1 /\
  idm_acceleration demo_net idm_default (Some (EV follower)) (Some (leader 40)) = Ok a2 /\ a2 < -1.
Proof.
  eexists _, _. cbv zeta. set (e := demo_controlled KIDM (0, 0) 20 30 0).
  assert (G : get_lane demo_net (v_lane_index e) = Ok (straight_network_lane 3 0 1000 0)) by (apply (demo_get 0); lia).
  assert (Ex : forall u, idm_acceleration demo_net idm_default (Some (EV e)) (Some (EV (demo_controlled KIDM (10, 0) u 30 0))) =
     Ok (3 * (1 - (20 / 30) ^ 4 - ((40 - 10 * (u - 20) / sqrt 15) / 10) ^ 2))).
  { intros u. pose proof (C112_exact demo_net idm_default e (EV (demo_controlled KIDM (10, 0) u 30 0)) (straight_network_lane 3 0 1000 0) eq_refl) as H.
    cbn [v_target_speed e demo_controlled v_speed] in H. specialize (H ltac:(lra) ltac:(lra) G). rewrite !demo_local in H by lia.
    cbn [e_pos v_pos e demo_controlled fst] in H. cbv zeta in H. rewrite H by (rewrite Rabs_pos_eq; lra). clear H. unfold car_following_law. f_equal.
    unfold wanted_gap, closing_speed. cbn [ip_distance ip_time ip_comfort_max ip_comfort_min idm_default v_speed v_heading e_speed e_heading e demo_controlled].
    unfold V_LENGTH. replace (0 - 0) with 0 by ring. rewrite cos_0. replace (3 * - -5) with 15 by ring.
    assert (sqrt 15 <> 0) by (apply Rgt_not_eq, sqrt_lt_R0; lra). field. assumption. }
  assert (B : 387/100 < sqrt 15 < 3873/1000).
  { split; [rewrite <- (sqrt_square (387/100)) by lra | rewrite <- (sqrt_square (3873/1000)) by lra]; apply sqrt_lt_1; lra. }
  assert (I : 1000/3873 < / sqrt 15 < 100/387).
  { split; [replace (1000/3873) with (/ (3873/1000)) by field | replace (100/387) with (/ (387/100)) by field]; apply Rinv_lt_contravar; try nra; lra. }
  split; [apply Ex|]. split; [|split; [apply Ex|]].
  - unfold Rdiv. set (z := / sqrt 15) in *.
    assert (J : -(1/10) < (40 - 10 * (355 * / 10 - 20) * z) * / 10 < 1/10) by lra. set (y := _ * / 10) in *. assert (y ^ 2 < 1/100) by nra. lra.
  - unfold Rdiv. set (z := / sqrt 15) in *.
    assert (J : (40 - 10 * (40 - 20) * z) * / 10 < -(116/100)) by lra. set (y := _ * / 10) in *. assert (13456/10000 < y ^ 2) by nra. lra.
Qed.
Print Assumptions C112_runaway_example.

(** Whatever the traffic does, an IDM vehicle that has not crashed and starts at or
    below its target speed never exceeds it, in any run of any length. *)
Theorem C112_never_above_target : forall dt rd frames i v, simulates dt rd frames -> 0 <= dt <= 1/2 ->
  nth_error (rd_vehicles rd) i = Some v -> v_kind v = KIDM ->
  0 < ip_comfort_max (v_par v) <= ip_acc_max (v_par v) ->
  1/100 < v_target_speed v <= 40 -> 4 * ip_comfort_max (v_par v) * dt <= v_target_speed v ->
  v_speed v <= v_target_speed v ->
  forall rdk, In rdk frames -> exists w, nth_error (rd_vehicles rdk) i = Some w /\
    v_target_speed w = v_target_speed v /\ (v_crashed w = false -> v_speed w <= v_target_speed v).
Proof.
  intros dt rd frames i v Sim Hd Nv K Hc Ht Hs Sp rdk I.
  destruct (slow_run (v_par v) (v_target_speed v) dt i Hd Hc Ht Hs rd frames Sim v Nv) with (rdk := rdk) as (w & Nw & _ & _ & Tw & Sw).
  - repeat split; try assumption. intros _. exact Sp.
  - exact I.
  - eauto.
Qed.
Print Assumptions C112_never_above_target.
(** Two vehicles of a road, one at its target behind one below its own. *)
Definition leader_vehicle : vehicle := with_id (demo_controlled KIDM (30, 0) 15 25 0) 1.
Example C112_nonvacuous : exists frames w v, simulates (1/15) (demo_road [demo_controlled KIDM (0, 0) 25 25 0; leader_vehicle] []) frames /\
  nth_error frames 99 = Some w /\ nth_error (rd_vehicles w) 0 = Some v /\ v_target_speed v = 25 /\ (v_crashed v = false -> v_speed v <= 25).
Proof.
  assert (Rn : runnable (demo_road [demo_controlled KIDM (0, 0) 25 25 0; leader_vehicle] [])).
  { split; [apply demo_built|]. split; [discriminate|]. split.
    - pose proof (demo_targets KIDM (0, 0) 25 25 0 ltac:(lia)) as T. pose proof (demo_targets KIDM (30, 0) 15 25 0 ltac:(lia)) as T'.
      intros v [<-|[<-|[]]]; (split; [apply (proj1 T) | intros _; assumption]).
    - left. intros v [<-|[<-|[]]]; discriminate. }
  destruct (simulates_total (1/15) 100 _ Rn) as (fr & Hl & Sim). destruct (nth_error fr 99) as [w|] eqn:N; [|apply nth_error_None in N; lia].
  destruct (C112_never_above_target (1/15) _ fr 0 _ Sim ltac:(lra) eq_refl eq_refl) with (rdk := w) as (u & Nu & Tu & Su); cbn; try lra; [eapply nth_error_In; eauto|].
  exists fr, w, u. cbn in Tu, Su. tauto.
Qed.
