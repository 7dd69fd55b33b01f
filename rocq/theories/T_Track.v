(** C99: controlled vehicles reach the lane they aim for. *)
From Verif Require Import Prelude M_Utils M_Lane M_Road M_Vehicle M_Kinematics M_Control M_Behavior S_Road S_Control S_Track
  P_Base P_Utils P_Lane P_Graph P_Kin P_Control P_Behavior P_Track T_Kin T_Control.
From Coq Require Import Lia Lra.
Open Scope R_scope.
Open Scope list_scope.

(** The measure used below really measures: both deviations are small when it is. *)
Theorem C99_drift_measures : forall y psi, y * y <= 34 / 25 * drift y psi /\ 110 * (psi * psi) <= drift y psi /\ (drift y psi = 0 <-> y = 0 /\ psi = 0).
Proof.
  intros y psi. unfold drift. pose proof (Rle_0_sqr (y + 25 / 4 * psi)) as A. pose proof (Rle_0_sqr (psi + y / 24)) as B. pose proof (Rle_0_sqr psi) as C. pose proof (Rle_0_sqr y) as D. unfold Rsqr in A, B, C, D.
  split; [nra|]. split; [nra|]. split; [|intros [-> ->]; ring]. intros E.
  assert (psi * psi = 0) by nra. assert (psi = 0) as -> by nra. split; [nra | reflexivity].
Qed.
Print Assumptions C99_drift_measures.

(** Frame by frame, at any speed between 20 and 40 m/s, whatever the speed commands: a
    vehicle that keeps its straight target lane comes closer to it. *)
Theorem C99_converges : forall act g record dt v acts tr l st en y psi, act = controlled_act \/ act = mdp_act ->
  performs act g record dt v acts tr -> l_geom l = GStraight st en -> st <> en -> 0 <= dt <= 1 / 10 ->
  v_crashed v = false -> 20 <= v_speed v <= 40 ->
  (forall w, In w tr -> get_lane g (v_target_lane w) = Ok l /\ 20 <= v_target_speed w <= 40) ->
  beside l v y psi -> drift y psi <= 25 ->
  forall j w, nth_error tr j = Some w -> exists y' psi', beside l w y' psi' /\ drift y' psi' <= (1 - 4 / 5 * dt) ^ (S j) * drift y psi.
Proof.
  intros act g rec dt v acts tr l st en y psi Ha P Gm N Hd C V F B D. apply Forall_forall in F.
  exact (run_closer act g rec dt v acts tr l st en Ha P Gm N Hd y psi C V F B D).
Qed.
Print Assumptions C99_converges.
(** Hence it ends up, and stays, as close as wanted. *)
Theorem C99_limit : forall dt eps, 0 < dt <= 1 / 10 -> 0 < eps -> exists n, forall act g record v acts tr l st en y psi, act = controlled_act \/ act = mdp_act ->
  performs act g record dt v acts tr -> l_geom l = GStraight st en -> st <> en ->
  v_crashed v = false -> 20 <= v_speed v <= 40 ->
  (forall w, In w tr -> get_lane g (v_target_lane w) = Ok l /\ 20 <= v_target_speed w <= 40) ->
  beside l v y psi -> drift y psi <= 25 ->
  forall j w, (n <= j)%nat -> nth_error tr j = Some w -> exists y' psi', beside l w y' psi' /\ Rabs y' <= eps /\ Rabs psi' <= eps.
Proof.
  intros dt eps Hd He. set (q := 1 - 4 / 5 * dt). assert (Q : 0 <= q < 1) by (unfold q; lra).
  assert (E2 : 0 < eps * eps) by nra.
  destruct (pow_lt_1_zero q) with (y := eps * eps / 34) as [n Hn]; [rewrite Rabs_right; lra | lra|].
  exists n. intros act g rec v acts tr l st en y psi Ha P Gm N C V F B D j w Hj Hw.
  destruct (C99_converges act g rec dt v acts tr l st en y psi Ha P Gm N ltac:(lra) C V F B D j w Hw) as (y' & psi' & B' & D').
  exists y', psi'. split; [exact B'|]. specialize (Hn (S j) ltac:(lia)). assert (0 <= q ^ S j) by (apply pow_le; lra). rewrite Rabs_right in Hn by lra. fold q in D'.
  destruct (C99_drift_measures y psi) as (M1 & _ & _). destruct (C99_drift_measures y' psi') as (M2 & M3 & _). pose proof (Rle_0_sqr y) as Y0. unfold Rsqr in Y0.
  assert (Z : q ^ S j * drift y psi <= eps * eps / 34 * 25) by (apply Rmult_le_compat; lra).
  split; apply Rabs_le; split; nra.
Qed.
Print Assumptions C99_limit.

(** A lane change: after the action that changes the target lane the vehicle is left
    alone; it keeps the new target lane up to the end of the road, and approaches it. *)
Theorem C99_lane_change : forall act g record dt v a acts w tr l st en y psi, act = controlled_act \/ act = mdp_act ->
  performs act g record dt v (a :: acts) (w :: tr) -> (forall b, In b acts -> b = None \/ b = Some IDLE) ->
  get_lane g (v_target_lane w) = Ok l -> l_geom l = GStraight st en -> st <> en -> 0 <= dt <= 1 / 10 ->
  v_crashed v = false -> 20 <= v_speed v <= 40 -> 20 <= v_target_speed w <= 40 ->
  fst (l_local l (v_pos v)) + 4 * INR (S (List.length acts)) <= l_length l - 5 / 2 ->
  beside l v y psi -> drift y psi <= 25 ->
  forall j u, nth_error (w :: tr) j = Some u -> v_target_lane u = v_target_lane w /\
    exists y' psi', beside l u y' psi' /\ drift y' psi' <= (1 - 4 / 5 * dt) ^ (S j) * drift y psi.
Proof.
  intros act g rec dt v a acts w tr l st en y psi Ha P Fi G Gm N Hd C V T Lg B D.
  assert (K : Forall (fun u => v_target_lane u = v_target_lane w /\ v_target_speed u = v_target_speed w) (w :: tr)).
  { inversion P as [|? ? ? draw v1 ? ? Dr A St P']; subst. constructor; [split; reflexivity|].
    destruct (act_frame act g rec dt draw v a v1 w l st en y psi Ha A St G Gm N Hd C V T B D) as (C2 & V2 & L2 & y2 & psi2 & B2 & D2).
    rewrite S_INR in Lg. assert (0 <= drift y psi) by (destruct (C99_drift_measures y psi) as (M & _); pose proof (Rle_0_sqr y) as Y0; unfold Rsqr in Y0; lra).
    apply (run_kept act g rec dt w acts tr l st en Ha P' Gm N Hd y2 psi2); try assumption; [apply Forall_forall; exact Fi | lra | nra]. }
  intros j u Hu. split; [rewrite Forall_forall in K; apply (K u), (nth_error_In _ _ Hu)|].
  refine (C99_converges act g rec dt v (a :: acts) (w :: tr) l st en y psi Ha P Gm N Hd C V _ B D j u Hu).
  intros x Hx. rewrite Forall_forall in K. destruct (K x Hx) as [-> ->]. split; assumption.
Qed.
Print Assumptions C99_lane_change.
(** With the default 15 frames per second, from the centre of the adjacent lane 4 m away:
    on the new lane after 32 frames, within half a metre after 82. *)
Theorem C99_lane_change_time : forall act g record v a acts w tr l st en side, act = controlled_act \/ act = mdp_act ->
  performs act g record (1 / 15) v (a :: acts) (w :: tr) -> (forall b, In b acts -> b = None \/ b = Some IDLE) ->
  get_lane g (v_target_lane w) = Ok l -> l_geom l = GStraight st en -> st <> en ->
  v_crashed v = false -> 20 <= v_speed v <= 40 -> 20 <= v_target_speed w <= 40 ->
  fst (l_local l (v_pos v)) + 4 * INR (S (List.length acts)) <= l_length l - 5 / 2 ->
  side = 4 \/ side = -4 -> beside l v side 0 ->
  forall j u, nth_error (w :: tr) j = Some u ->
    ((31 <= j)%nat -> Rabs (snd (l_local l (v_pos u))) <= 2) /\ ((81 <= j)%nat -> Rabs (snd (l_local l (v_pos u))) <= 1 / 2).
Proof.
  intros act g rec v a acts w tr l st en side Ha P Fi G Gm N C V T Lg Hs B j u Hu.
  assert (D : drift side 0 = 16) by (unfold drift; destruct Hs as [-> | ->]; ring).
  destruct (C99_lane_change act g rec (1/15) v a acts w tr l st en side 0 Ha P Fi G Gm N ltac:(lra) C V T Lg B ltac:(lra) j u Hu) as (_ & y' & psi' & [<- _] & D').
  rewrite D in D'. destruct (C99_drift_measures (snd (l_local l (v_pos u))) psi') as (M & _). set (y := snd (l_local l (v_pos u))) in *. set (q := 1 - 4 / 5 * (1 / 15)) in *.
  assert (Q : 0 <= q <= 1) by (unfold q; lra).
  assert (Mono : forall n, (n <= S j)%nat -> q ^ S j <= q ^ n).
  { intros n Hn. replace (S j) with (n + (S j - n))%nat by lia. rewrite pow_add. rewrite <- (Rmult_1_r (q ^ n)) at 2. apply Rmult_le_compat_l; [apply pow_le; lra|].
    rewrite <- (pow1 (S j - n)). apply pow_incr. lra. }
  assert (Q8 : q ^ 8 <= 6452 / 10000) by (unfold q; cbn [pow]; lra).
  assert (Q32 : q ^ 32 <= 175 / 1000).
  { replace (q ^ 32) with ((q ^ 8) ^ 4) by (rewrite <- pow_mult; reflexivity). eapply Rle_trans; [apply pow_incr; split; [apply pow_le; lra | exact Q8]|]. cbn [pow]. lra. }
  assert (Q82 : q ^ 82 <= 1145 / 100000).
  { replace (q ^ 82) with ((q ^ 8) ^ 10 * q ^ 2) by (rewrite <- pow_mult, <- pow_add; reflexivity).
    apply Rle_trans with ((6452 / 10000) ^ 10 * q ^ 2); [apply Rmult_le_compat_r; [apply pow_le; lra|]; apply pow_incr; split; [apply pow_le; lra | exact Q8]|]. unfold q. cbn [pow]. lra. }
  split; intros Hj.
  - specialize (Mono 32%nat ltac:(lia)). apply Rabs_le. split; nra.
  - specialize (Mono 82%nat ltac:(lia)). apply Rabs_le. split; nra.
Qed.
Print Assumptions C99_lane_change_time.

(** The vehicles of the traffic steer by the same law: one frame of an IDM vehicle. *)
Theorem C99_idm_frame : forall rd draw record dt v v1 w l st en y psi, v_kind v <> KLinear -> idm_act rd draw v = Ok v1 ->
  vehicle_step (rd_net rd) record v1 dt = Ok w -> get_lane (rd_net rd) (v_target_lane w) = Ok l -> l_geom l = GStraight st en -> st <> en -> 0 <= dt <= 1 / 10 ->
  v_crashed v = false -> 20 <= v_speed v <= 40 -> beside l v y psi -> drift y psi <= 25 ->
  exists y' psi', beside l w y' psi' /\ drift y' psi' <= (1 - 4 / 5 * dt) * drift y psi.
Proof.
  intros rd draw rec dt v v1 w l st en y psi Kd A S G Gm N Hd C V B D.
  pose proof (step_fields _ _ _ _ _ S) as SF. cbv zeta in SF. destruct SF as (_ & _ & _ & _ & _ & _ & _ & TL2 & _).
  apply idm_act_ok in A as (SV & _ & _ & _ & f & r & u1 & u2 & sa & ac & _ & Fr & Po & Id & _ & Ev); [|exact C].
  assert (B1 : beside l v1 y psi) by (unfold same_vehicle in SV; unfold beside; destruct SV as (_ & _ & -> & -> & _); exact B).
  pose proof (f_equal v_target_lane Ev) as TL. cbn [v_target_lane set_action] in TL. pose proof (f_equal v_kind Ev) as KE. cbn [v_kind set_action] in KE.
  pose proof (f_equal v_pos Ev) as PE. cbn [v_pos set_action] in PE. pose proof (f_equal v_heading Ev) as HE. cbn [v_heading set_action] in HE. pose proof (f_equal v_speed Ev) as SE. cbn [v_speed set_action] in SE.
  pose proof (f_equal v_steering Ev) as StE. cbn [v_steering set_action] in StE.
  unfold same_vehicle in SV. destruct SV as (_ & K1 & P1 & H1 & S1 & _ & C1 & _).
  assert (Sa : sa = steering_law l (v_pos v1) (v_heading v1) (v_speed v1)).
  { unfold idm_steering in Id. assert (Ks : steering_control (rd_net rd) u2 (v_target_lane u2) = Ok sa) by (destruct (v_kind u2) eqn:K2; try exact Id; exfalso; apply Kd; congruence).
    unfold steering_control in Ks. rewrite <- TL, <- TL2, G in Ks. cbn [bind] in Ks. injection Ks as <-. rewrite PE, HE, SE. reflexivity. }
  apply (frame_closer (rd_net rd) rec dt v1 w l st en); try assumption; [congruence | rewrite S1; exact V|].
  rewrite StE, Sa. apply Rclip_id. unfold MAX_STEERING_ANGLE. apply steering_law_bounds.
Qed.
Print Assumptions C99_idm_frame.

(** At any speed and any distance, crashed or not: a vehicle within 45 degrees of the
    direction of its target lane stays so. *)
Theorem C99_cone : forall act g record dt v acts tr l st en y psi, act = controlled_act \/ act = mdp_act ->
  performs act g record dt v acts tr -> l_geom l = GStraight st en -> st <> en -> 0 <= dt <= 1 / 5 ->
  (forall w, In w tr -> get_lane g (v_target_lane w) = Ok l) -> beside l v y psi -> - (PI / 4) <= psi <= PI / 4 ->
  forall w, In w tr -> exists y' psi', beside l w y' psi' /\ - (PI / 4) <= psi' <= PI / 4.
Proof.
  intros act g rec dt v acts tr l st en y psi Ha P Gm N Hd F B Hp. apply Forall_forall in F.
  exact (run_cone act g rec dt v acts tr l st en Ha P Gm N Hd y psi F B Hp).
Qed.
Print Assumptions C99_cone.

Lemma demo_geometry k p : l_length (straight_network_lane 3 k 1000 0) = 1000 /\
  l_local (straight_network_lane 3 k 1000 0) p = (fst p, snd p - 4 * INR k) /\
  forall s, l_heading (straight_network_lane 3 k 1000 0) s = 0.
Proof.
  assert (L : l_length (straight_network_lane 3 k 1000 0) = 1000).
  { unfold l_length, straight_network_lane, geom_length, l_geom, vnorm, vsub, vrot, DEFAULT_WIDTH. cbn [fst snd]. rewrite Ropp_0, cos_0, sin_0.
    match goal with |- sqrt ?x = _ => replace x with (1000 * 1000) by ring end. apply sqrt_sq. lra. }
  split; [exact L|]. split.
  - unfold l_local, straight_network_lane in L |- *. cbn [l_geom geom_local]. unfold l_length in L. cbn [l_geom geom_length] in L.
    unfold straight_local, straight_lat, straight_dir. rewrite L. unfold vdot, vscal, vsub, vrot, DEFAULT_WIDTH. cbn [fst snd].
    rewrite Ropp_0, cos_0, sin_0. apply f_equal2; field.
  - intros s. unfold l_heading, straight_network_lane. cbn [l_geom geom_heading]. unfold straight_heading, vrot, vsub, DEFAULT_WIDTH. cbn [fst snd]. rewrite Ropp_0, cos_0, sin_0.
    unfold atan2. rewrite Rltb_lt by lra. match goal with |- atan (?x / ?y) = _ => replace (x / y) with 0 by field end. exact atan_0.
Qed.

(** A lane change to the right of the demo road (three lanes of 1 km), at 25 m/s: the
    vehicle starts on the centre of lane 1, and 100 frames later it drives on lane 2. *)
Example C99_nonvacuous : exists w tr, let v := demo_controlled KMDP (0, 4) 25 25 1 in let l := straight_network_lane 3 2 1000 0 in
  performs mdp_act demo_net false (1/15) v (Some LANE_RIGHT :: repeat (Some IDLE) 99) (w :: tr) /\
  get_lane demo_net (v_target_lane w) = Ok l /\ beside l v (-4) 0 /\
  fst (l_local l (v_pos v)) + 4 * INR (S (List.length (repeat (Some IDLE) 99))) <= l_length l - 5 / 2 /\
  20 <= v_target_speed w <= 40 /\
  exists u, nth_error (w :: tr) 99 = Some u /\ v_target_lane u = v_target_lane w /\ Rabs (snd (l_local l (v_pos u))) <= 1 / 2.
Proof.
  cbv zeta. destruct (performs_total mdp_act demo_net false (1/15) (Some LANE_RIGHT :: repeat (Some IDLE) 99)
    (wf_built _ demo_built) ltac:(discriminate) (fun d v a => mdp_act_total demo_net d v a (wf_built _ demo_built))
    (demo_controlled KMDP (0, 4) 25 25 1) (demo_targets KMDP (0, 4) 25 25 1 ltac:(lia))) as [tr P].
  pose proof (performs_length _ _ _ _ _ _ _ P) as Ln. rewrite (eq_refl : List.length (Some LANE_RIGHT :: repeat (Some IDLE) 99) = 100%nat) in Ln.
  destruct tr as [|w tr]; [discriminate Ln|]. exists w, tr. split; [exact P|].
  destruct (demo_geometry 1 (0, 4)) as (L1 & Loc1 & _). destruct (demo_geometry 2 (0, 4)) as (L2 & Loc2 & Hd2). cbn [fst snd] in Loc1, Loc2.
  assert (T : v_target_lane w = ("0", "1", Some 2%Z)%string /\ v_target_speed w = 25).
  { inversion P as [|? ? ? draw v1 ? ? Dr A St P']; subst.
    pose proof (step_fields _ _ _ _ _ St) as SF. cbv zeta in SF. destruct SF as (_ & _ & _ & _ & _ & _ & _ & -> & SF).
    split; [|apply mdp_act_ok in A as (_ & (_ & TS) & _); cbn [v_target_speed demo_controlled] in TS; destruct SF as (TS2 & _); congruence].
    apply (C29_lane_change mdp_act demo_net draw (demo_controlled KMDP (0, 4) 25 25 1) (Some LANE_RIGHT) 1 "0"%string "1"%string 1 _ v1 (or_intror eq_refl) (or_introl (conj eq_refl eq_refl)) eq_refl (demo_lane 1 ltac:(lia))); [| exact A |].
    - cbn [v_pos demo_controlled]. rewrite Loc1, L1. cbn [fst]. lra.
    - exists 2%nat, (straight_network_lane 3 2 1000 0). split; [reflexivity|]. split; [exact (demo_lane 2 ltac:(lia))|].
      cbn [v_pos demo_controlled]. unfold is_reachable_from. rewrite Loc2, L2. change (l_forbidden (straight_network_lane 3 2 1000 0)) with false. unfold l_width_at. change (l_geom (straight_network_lane 3 2 1000 0)) with (GStraight (vrot (- 0) (0, INR 2 * DEFAULT_WIDTH)) (vrot (- 0) (1000, INR 2 * DEFAULT_WIDTH))). cbn [l_width straight_network_lane INR]. unfold LANE_VEHICLE_LENGTH, DEFAULT_WIDTH.
      rewrite !Rleb_le, Rltb_lt; [reflexivity | lra | lra |]. apply Rabs_le. lra. }
  destruct T as [T TS]. assert (G : get_lane demo_net (v_target_lane w) = Ok (straight_network_lane 3 2 1000 0)).
  { rewrite T. exact (get_lane_nat _ _ _ _ _ (demo_lane 2 ltac:(lia))). }
  assert (B : beside (straight_network_lane 3 2 1000 0) (demo_controlled KMDP (0, 4) 25 25 1) (-4) 0).
  { split; cbn [v_pos v_heading demo_controlled]; [rewrite Loc2; cbn [snd INR]; ring|]. exists 0%Z. rewrite Hd2. ring. }
  assert (X : fst (l_local (straight_network_lane 3 2 1000 0) (v_pos (demo_controlled KMDP (0, 4) 25 25 1))) + 4 * INR (S (List.length (repeat (Some IDLE) 99))) <= l_length (straight_network_lane 3 2 1000 0) - 5 / 2).
  { cbn [v_pos demo_controlled]. rewrite Loc2, L2, repeat_length. cbn [fst]. rewrite INR_IZR_INZ. change (Z.of_nat 100) with 100%Z. lra. }
  split; [exact G|]. split; [exact B|]. split; [exact X|]. split; [lra|].
  destruct (nth_error (w :: tr) 99) as [u|] eqn:U; [|apply nth_error_None in U; cbn [List.length] in Ln, U; lia].
  exists u. split; [reflexivity|].
  assert (Fi : forall b, In b (repeat (Some IDLE) 99) -> b = None \/ b = Some IDLE) by (intros b Hb; apply repeat_spec in Hb; right; exact Hb).
  assert (Gm : exists st en, l_geom (straight_network_lane 3 2 1000 0) = GStraight st en /\ st <> en).
  { eexists _, _. split; [reflexivity|]. unfold vrot. rewrite Ropp_0, cos_0, sin_0. intros Q. apply (f_equal fst) in Q. cbn [fst] in Q. lra. }
  destruct Gm as (st & en & Gm & N).
  split.
  - apply (C99_lane_change mdp_act demo_net false (1/15) _ (Some LANE_RIGHT) _ w tr _ st en (-4) 0 (or_intror eq_refl) P Fi G Gm N ltac:(lra) eq_refl ltac:(cbn; lra) ltac:(lra) X B ltac:(unfold drift; lra) 99%nat u U).
  - apply (C99_lane_change_time mdp_act demo_net false _ (Some LANE_RIGHT) _ w tr _ st en (-4) (or_intror eq_refl) P Fi G Gm N eq_refl ltac:(cbn; lra) ltac:(lra) X (or_intror eq_refl) B 99%nat u U). lia.
Qed.
