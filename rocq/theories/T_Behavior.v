(** Theorems about autonomous traffic (C33-C36, C63-C67). *)
From Verif Require Import Prelude M_Utils M_Lane M_Road M_Vehicle M_Kinematics M_Control M_Behavior
  S_Geometry S_Road S_Vehicle S_Control S_Behavior P_Base P_Utils P_Lane P_Graph P_Bfs P_Query P_Kin P_Crash P_Control P_Behavior P_Traffic
  T_Road T_Kin T_Control.
From Coq Require Import Lia Lra.
Open Scope R_scope.

(** ** C33: IDM acceleration *)
(** Never above the comfort acceleration, whatever is ahead. *)
Theorem C33_at_most_comfort : forall g par e front a, 0 <= ip_comfort_max par ->
  idm_acceleration g par (Some (EV e)) front = Ok a -> a <= ip_comfort_max par.
Proof.
  intros g par e f a H E. apply idm_acc_front in E. pose proof (free_acc_le par e H) as F. destruct f as [fe|]; [|lra].
  destruct E as (l & _ & ->). pose proof (pow2_nonneg (desired_gap par e fe / not_zero (fst (l_local l (e_pos fe)) - fst (l_local l (v_pos e))) not_zero_eps)). nra.
Qed.
Print Assumptions C33_at_most_comfort.
(** Anything ahead only reduces it. *)
Theorem C33_front_only_slows : forall g par e f a0 a1, 0 <= ip_comfort_max par ->
  idm_acceleration g par (Some (EV e)) None = Ok a0 -> idm_acceleration g par (Some (EV e)) (Some f) = Ok a1 -> a1 <= a0.
Proof.
  intros g par e f a0 a1 H E0 E1. apply idm_acc_front in E0, E1. destruct E1 as (l & _ & ->). rewrite E0.
  pose proof (pow2_nonneg (desired_gap par e f / not_zero (fst (l_local l (e_pos f)) - fst (l_local l (v_pos e))) not_zero_eps)). nra.
Qed.
Print Assumptions C33_front_only_slows.
(** On a free road: accelerates below the target speed, holds at it, brakes above. *)
Theorem C33_free_road_sign : forall g par e, 0 < ip_comfort_max par -> is_controlled (v_kind e) = true -> 1 / 100 < v_target_speed e ->
  exists a, idm_acceleration g par (Some (EV e)) None = Ok a /\
    (0 < a <-> v_speed e < v_target_speed e) /\ (a = 0 <-> v_speed e = v_target_speed e) /\ (a < 0 <-> v_target_speed e < v_speed e).
Proof.
  intros g par e Hc C T. exists (free_acc par e). split; [reflexivity|]. destruct (free_acc_sign par e Hc C T) as (A & B & D).
  destruct (Rtotal_order (v_speed e) (v_target_speed e)) as [H|[H|H]]; [pose proof (A H) | pose proof (B H) | pose proof (D H)];
    (split; [|split]); split; intros; lra.
Qed.
Print Assumptions C33_free_road_sign.
(** Closer to the front vehicle than the desired gap: never accelerates. *)
Theorem C33_no_acceleration_inside_gap : forall g par e f l a, 0 <= ip_comfort_max par ->
  get_lane g (v_lane_index e) = Ok l ->
  1 / 100 < fst (l_local l (e_pos f)) - fst (l_local l (v_pos e)) <= desired_gap par e f ->
  idm_acceleration g par (Some (EV e)) (Some f) = Ok a -> a <= 0.
Proof.
  intros g par e f l a H G D E. apply idm_acc_front in E as (l' & G' & ->). rewrite G in G'. injection G' as <-.
  set (d := fst (l_local l (e_pos f)) - fst (l_local l (v_pos e))) in *.
  assert (N : not_zero d not_zero_eps = d) by (unfold not_zero, not_zero_eps; rewrite Rabs_pos_eq, Rltb_lt by lra; reflexivity).
  rewrite N. set (x := desired_gap par e f / d).
  assert (1 <= x). { unfold x. apply (Rmult_le_reg_r d); [lra|]. unfold Rdiv. rewrite Rmult_assoc, Rinv_l by lra. lra. }
  pose proof (free_acc_le par e H). assert (1 <= x ^ 2) by (cbn [pow]; nra). nra.
Qed.
Print Assumptions C33_no_acceleration_inside_gap.
(** The closer the front vehicle (same velocity), the lower the acceleration. *)
Theorem C33_monotone_in_gap : forall g par e f1 f2 l a1 a2, 0 <= ip_comfort_max par ->
  get_lane g (v_lane_index e) = Ok l -> e_speed f1 = e_speed f2 -> e_heading f1 = e_heading f2 ->
  1 / 100 < fst (l_local l (e_pos f1)) - fst (l_local l (v_pos e)) ->
  fst (l_local l (e_pos f1)) <= fst (l_local l (e_pos f2)) ->
  idm_acceleration g par (Some (EV e)) (Some f1) = Ok a1 -> idm_acceleration g par (Some (EV e)) (Some f2) = Ok a2 -> a1 <= a2.
Proof.
  intros g par e f1 f2 l a1 a2 H G Es Eh D1 D12 E1 E2. apply idm_acc_front in E1 as (l1 & G1 & ->). apply idm_acc_front in E2 as (l2 & G2 & ->).
  rewrite G in G1, G2. injection G1 as <-. injection G2 as <-.
  set (x1 := fst (l_local l (e_pos f1)) - fst (l_local l (v_pos e))) in *.
  set (x2 := fst (l_local l (e_pos f2)) - fst (l_local l (v_pos e))) in *.
  assert (Hx : x1 <= x2) by (unfold x1, x2; lra).
  assert (Gp : desired_gap par e f2 = desired_gap par e f1).
  { unfold desired_gap, e_velocity, e_direction. rewrite <- Es, <- Eh. reflexivity. }
  rewrite Gp. set (s := desired_gap par e f1).
  assert (N : forall x, 1/100 < x -> not_zero x not_zero_eps = x) by (intros x Q; unfold not_zero, not_zero_eps; rewrite Rabs_pos_eq, Rltb_lt by lra; reflexivity).
  rewrite !N by lra. assert ((s / x2) ^ 2 <= (s / x1) ^ 2); [|nra].
  replace ((s / x2) ^ 2) with (s * s * (/ x2 * / x2)) by (field; lra). replace ((s / x1) ^ 2) with (s * s * (/ x1 * / x1)) by (field; lra).
  apply Rmult_le_compat_l; [nra|]. assert (0 < / x2 <= / x1); [|nra].
  split; [apply Rinv_0_lt_compat; lra | apply Rinv_le_contravar; lra].
Qed.
Print Assumptions C33_monotone_in_gap.
(** Commands sent to the dynamics are within the physical limits. *)
Theorem C33_commands_bounded : forall rd draw v v', v_crashed v = false -> 0 <= ip_acc_max (v_par v) -> idm_act rd draw v = Ok v' ->
  - (PI / 3) <= v_steering v' <= PI / 3 /\ - ip_acc_max (v_par v) <= v_accel v' <= ip_acc_max (v_par v).
Proof.
  intros rd draw v v' C H E. apply idm_act_ok in E as (_ & _ & _ & St & f & r & v1 & v2 & st & a & _ & _ & _ & _ & _ & ->); [|exact C].
  split; [exact St|]. cbn. apply Rclip_bounds. lra.
Qed.
Print Assumptions C33_commands_bounded.
(** A crashed vehicle takes no decision. *)
Theorem C33_crashed_does_nothing : forall rd draw v, v_kind v = KIDM -> v_crashed v = true -> idm_act rd draw v = Ok v.
Proof. intros rd draw v K C. unfold idm_act, collect_data. rewrite K, C. reflexivity. Qed.
Print Assumptions C33_crashed_does_nothing.
(** Obstacles, landmarks and absent vehicles have acceleration 0. *)
Theorem C33_objects_do_not_accelerate : forall g par front o,
  idm_acceleration g par None front = Ok 0 /\ idm_acceleration g par (Some (EO o)) front = Ok 0.
Proof. easy. Qed.
Print Assumptions C33_objects_do_not_accelerate.
(** A vehicle at its desired gap behind a stopped one, itself stopped, stays so. *)
Theorem C33_standstill_equilibrium : forall g e f l, v_speed e = 0 -> is_controlled (v_kind e) = true ->
  get_lane g (v_lane_index e) = Ok l -> fst (l_local l (e_pos f)) - fst (l_local l (v_pos e)) = 10 ->
  idm_acceleration g idm_default (Some (EV e)) (Some f) = Ok 0.
Proof.
  intros g e f l S0 C G D. unfold idm_acceleration, lane_distance_to, lane_distance. rewrite G. cbn [bind]. rewrite D.
  assert (Gp : desired_gap idm_default e f = 10).
  { unfold desired_gap. rewrite S0. cbn [ip_distance ip_time idm_default]. unfold V_LENGTH, Rdiv. ring. }
  rewrite Gp, S0, Rmax_left by lra. cbn [ip_comfort_max idm_default]. apply f_equal.
  replace (not_zero 10 not_zero_eps) with 10 by (unfold not_zero, not_zero_eps; rewrite Rabs_pos_eq, Rltb_lt by lra; reflexivity).
  unfold Rdiv at 1. rewrite !Rmult_0_l. cbn [pow]. field.
Qed.
Print Assumptions C33_standstill_equilibrium.
Example C33_nonvacuous : exists a, idm_acceleration demo_net idm_default (Some (EV (demo_controlled KIDM (0, 0) 20 25 0))) None = Ok a /\ 0 < a.
Proof.
  destruct (C33_free_road_sign demo_net idm_default (demo_controlled KIDM (0, 0) 20 25 0)) as (a & E & H & _); [cbn; lra | reflexivity | cbn; lra |].
  exists a. split; [exact E|]. apply H. cbn. lra.
Qed.
Lemma demo_local k p : (k < 3)%nat -> l_local (straight_network_lane 3 k 1000 0) p = (fst p, snd p - INR k * 4).
Proof.
  intros _. unfold l_local, straight_network_lane. cbn [l_geom geom_local]. unfold vrot, DEFAULT_WIDTH.
  rewrite Ropp_0, cos_0, sin_0. cbn [fst snd]. set (y := INR k * 4).
  assert (D : straight_dir (1 * 0 - 0 * y, 0 * 0 + 1 * y) (1 * 1000 - 0 * y, 0 * 1000 + 1 * y) = (1, 0)).
  { unfold straight_dir. replace (vnorm _) with 1000.
    - unfold vsub, vscal. cbn [fst snd]. apply f_equal2; field.
    - unfold vnorm, vsub. cbn [fst snd]. symmetry. replace (_ + _) with (1000 * 1000) by ring. apply sqrt_square. lra. }
  unfold straight_local, straight_lat. rewrite D. unfold vsub, vdot. cbn [fst snd]. apply f_equal2; ring.
Qed.
Lemma demo_get k : (k < 3)%nat -> get_lane demo_net ("0", "1", Some (Z.of_nat k))%string = Ok (straight_network_lane 3 k 1000 0).
Proof. intros H. apply get_lane_nat. now apply demo_lane. Qed.
Example C33_gap_nonvacuous : exists a,
  idm_acceleration demo_net idm_default (Some (EV (demo_controlled KIDM (0, 0) 20 25 0))) (Some (EV (demo_controlled KIDM (30, 0) 20 25 0))) = Ok a /\ a <= 0.
Proof.
  set (e := demo_controlled KIDM (0, 0) 20 25 0). set (f := EV (demo_controlled KIDM (30, 0) 20 25 0)).
  assert (G : get_lane demo_net (v_lane_index e) = Ok (straight_network_lane 3 0 1000 0)) by (apply (demo_get 0); lia).
  assert (exists a, idm_acceleration demo_net idm_default (Some (EV e)) (Some f) = Ok a) as [a E].
  { unfold idm_acceleration, lane_distance_to. rewrite G. cbn [bind]. eauto. }
  exists a. split; [exact E|]. eapply C33_no_acceleration_inside_gap; [| exact G | | exact E]; [cbn; lra|].
  rewrite !demo_local by lia. unfold f, e. cbn [e_pos demo_controlled v_pos fst snd]. unfold desired_gap, e_velocity, e_direction, demo_controlled.
  cbn [ip_distance ip_time idm_default v_speed e_heading e_speed v_heading]. unfold V_LENGTH, vdot, vsub, vscal. cbn [fst snd]. rewrite cos_0, sin_0.
  replace (20 * ((20 * 1 - 20 * 1) * 1 + (20 * 0 - 20 * 0) * 0) / (2 * sqrt (- ip_comfort_max idm_default * ip_comfort_min idm_default))) with 0
    by (unfold Rdiv; ring). lra.
Qed.

(** ** C34: free road runs *)
(** Whatever the other vehicles do: as long as nothing is ahead of it, an IDM
    vehicle started between 0 and its target speed speeds up monotonically,
    never passes the target, and approaches it at least geometrically. *)
Theorem C34_free_run_monotone_no_overshoot : forall dt rd frames i v, simulates dt rd frames ->
  Forall (unobstructed i) (rd :: frames) -> nth_error (rd_vehicles rd) i = Some v -> v_kind v = KIDM ->
  0 <= dt -> 0 < ip_comfort_max (v_par v) <= ip_acc_max (v_par v) -> 1 / 100 < v_target_speed v <= 40 ->
  4 * ip_comfort_max (v_par v) * dt <= v_target_speed v -> 0 <= v_speed v <= v_target_speed v ->
  forall m n rdm rdn vm vn, (m <= n)%nat -> nth_error (rd :: frames) m = Some rdm -> nth_error (rd :: frames) n = Some rdn ->
    nth_error (rd_vehicles rdm) i = Some vm -> nth_error (rd_vehicles rdn) i = Some vn ->
    v_speed vm <= v_speed vn <= v_target_speed v.
Proof.
  intros dt rd frames i v Sim. revert v. induction Sim as [rd|rd draws rd1 rd2 fr D A E S IH]; intros v Fu Nv K Hd Hc Ht Hs Hv m n rdm rdn vm vn Hmn Nm Nn Vm Vn.
  - destruct n as [|[|n]]; cbn in Nn; try discriminate. destruct m; [|lia]. cbn in Nm. injection Nn as <-. injection Nm as <-.
    rewrite Nv in Vm, Vn. injection Vm as <-. injection Vn as <-. lra.
  - pose proof (simulates_cons dt rd draws rd1 rd2 fr D A E S) as Sim.
    destruct m as [|m].
    + cbn in Nm. injection Nm as <-. rewrite Nv in Vm. injection Vm as <-.
      destruct (idm_free_run dt rd (rd2 :: fr) i v Sim Fu Nv K Hd Hc Ht Hs Hv n rdn Nn) as (w & Nw & B & _). rewrite Vn in Nw. injection Nw as <-. exact B.
    + destruct n as [|n]; [lia|]. destruct (idm_free_run dt rd (rd2 :: fr) i v Sim Fu Nv K Hd Hc Ht Hs Hv 1%nat rd2 eq_refl) as (w & Nw & B & Kw & Pw & Tw & _).
      cbn [nth_error] in Nm, Nn. inversion Fu as [|? ? _ Fu']; subst. rewrite <- Tw.
      eapply (IH w Fu' Nw Kw Hd) with (m := m) (n := n); try eassumption; try (rewrite ?Pw, ?Tw; assumption || lra). lia.
Qed.
Print Assumptions C34_free_run_monotone_no_overshoot.
Theorem C34_free_run_converges : forall dt rd frames i v, simulates dt rd frames ->
  Forall (unobstructed i) (rd :: frames) -> nth_error (rd_vehicles rd) i = Some v -> v_kind v = KIDM ->
  0 <= dt -> 0 < ip_comfort_max (v_par v) <= ip_acc_max (v_par v) -> 1 / 100 < v_target_speed v <= 40 ->
  4 * ip_comfort_max (v_par v) * dt <= v_target_speed v -> 0 <= v_speed v <= v_target_speed v ->
  forall n rdn, nth_error (rd :: frames) n = Some rdn -> exists w, nth_error (rd_vehicles rdn) i = Some w /\
    0 <= v_target_speed v - v_speed w <= (1 - ip_comfort_max (v_par v) * dt / v_target_speed v) ^ n * (v_target_speed v - v_speed v).
Proof.
  intros dt rd frames i v Sim Fu Nv K Hd Hc Ht Hs Hv n rdn Nn.
  destruct (idm_free_run dt rd frames i v Sim Fu Nv K Hd Hc Ht Hs Hv n rdn Nn) as (w & Nw & B & _ & _ & _ & C). exists w. split; [exact Nw | lra].
Qed.
Print Assumptions C34_free_run_converges.
(** A vehicle alone on a road is always unobstructed, so both apply to it. *)
Theorem C34_lone_vehicle_unobstructed : forall dt rd frames v, simulates dt rd frames -> runnable rd ->
  rd_vehicles rd = [v] -> rd_objects rd = [] -> v_crashed v = false -> Forall (unobstructed 0) (rd :: frames).
Proof. intros dt rd frames v Sim Rn Hv Ho C. eapply lone_run; eauto. Qed.
Print Assumptions C34_lone_vehicle_unobstructed.
Definition demo_road (vs : list vehicle) (os : list object) : road := Road demo_net vs os false 0.
Lemma demo_runnable k p s t n vs os : (n < 3)%nat -> vs = [demo_controlled k p s t (Z.of_nat n)] -> os = [] -> runnable (demo_road vs os).
Proof.
  intros Hn -> ->. split; [apply demo_built|]. split; [discriminate|]. split.
  - intros v [<-|[]]. pose proof (demo_targets k p s t n Hn) as T. split; [apply (proj1 T) | intros _; exact T].
  - destruct k; try (left; intros v [<-|[]]; discriminate). right. split; [intros v [<-|[]]; reflexivity | easy].
Qed.
Example C34_nonvacuous : exists frames w, simulates (1/15) (demo_road [demo_controlled KIDM (0, 0) 20 25 0] []) frames /\
  nth_error frames 99 = Some w /\ exists u, nth_error (rd_vehicles w) 0 = Some u /\ 20 <= v_speed u <= 25.
Proof.
  pose proof (demo_runnable KIDM (0, 0) 20 25 0 _ _ ltac:(lia) eq_refl eq_refl) as Rn.
  destruct (simulates_total (1/15) 100 _ Rn) as (fr & Hl & Sim). destruct (nth_error fr 99) as [w|] eqn:N; [|apply nth_error_None in N; lia].
  exists fr, w. split; [exact Sim|]. split; [exact N|].
  pose proof (C34_lone_vehicle_unobstructed _ _ _ _ Sim Rn eq_refl eq_refl eq_refl) as Fu.
  destruct (idm_free_run (1/15) _ fr 0 _ Sim Fu eq_refl eq_refl) with (k := 100%nat) (rdk := w) as (u & Nu & B & _); cbn; try lra; [exact N|].
  exists u. split; [exact Nu | exact B].
Qed.

(** ** C35: MOBIL *)
(** Without a planned lane, a lane is recommended exactly when its new follower
    would not brake harder than the imposed maximum and the total gain reaches
    the threshold. *)
Theorem C35_mobil_without_planned_lane : forall rd v i b new_front new_rear old_front old_rear a_new_rear a_new_rear' a_self a_self' a_old_rear a_old_rear',
  let acc := acceleration (rd_net rd) v in
  match v_route v with Some ((_, _, Some k) :: _) => k = 0%Z | _ => True end ->
  neighbour_vehicles rd v (Some i) = Ok (new_front, new_rear) -> neighbour_vehicles rd v None = Ok (old_front, old_rear) ->
  acc new_rear new_front = Ok a_new_rear -> acc new_rear (Some (EV v)) = Ok a_new_rear' ->
  acc (Some (EV v)) old_front = Ok a_self -> acc (Some (EV v)) new_front = Ok a_self' ->
  acc old_rear (Some (EV v)) = Ok a_old_rear -> acc old_rear old_front = Ok a_old_rear' ->
  mobil rd v i = Ok b ->
  (b = true <-> - ip_max_braking (v_par v) <= a_new_rear' /\
     ip_min_gain (v_par v) <= (a_self' - a_self) + ip_politeness (v_par v) * ((a_new_rear' - a_new_rear) + (a_old_rear' - a_old_rear))).
Proof.
  intros rd v i b nf nr of_ or_ a1 a2 a3 a4 a5 a6 acc R N1 N2 A1 A2 A3 A4 A5 A6 M.
  apply mobil_ok in M as (np & nf' & op & of' & b1 & b2 & b3 & M1 & B1 & B2 & H). rewrite N1 in M1. injection M1 as <- <-.
  unfold acc in *. rewrite A1 in B1. injection B1 as <-. rewrite A2 in B2. injection B2 as <-.
  destruct H as [[-> H] | (H & M2 & B3 & H')]; [split; [easy | lra]|].
  rewrite N2 in M2. injection M2 as <- <-. rewrite A4 in B3. injection B3 as <-.
  assert (Rl : route_lane v = None).
  { unfold route_lane. destruct (v_route v) as [[|[[x y] [k|]] rt]|]; try reflexivity. subst k. reflexivity. }
  rewrite Rl in H'. destruct H' as (c1 & c2 & c3 & B4 & B5 & B6 & H'). rewrite A3 in B4. injection B4 as <-. rewrite A5 in B5. injection B5 as <-. rewrite A6 in B6. injection B6 as <-.
  rewrite H'. split; intros Q; [split; [exact H|] | destruct Q as [_ Q]]; match goal with |- _ <= ?x => match type of Q with _ <= ?y => replace x with y by ring; exact Q end end.
Qed.
Print Assumptions C35_mobil_without_planned_lane.
(** With a planned lane (other than lane 0): exactly when it is safe for the new
    follower and for the vehicle itself, and on the side of the planned lane. *)
Theorem C35_mobil_with_planned_lane : forall rd v i b k c t rt x y new_front new_rear a_new_rear' a_self',
  let acc := acceleration (rd_net rd) v in
  v_route v = Some ((x, y, Some k) :: rt) -> k <> 0%Z -> li_id i = Some c -> li_id (v_target_lane v) = Some t ->
  neighbour_vehicles rd v (Some i) = Ok (new_front, new_rear) ->
  acc new_rear (Some (EV v)) = Ok a_new_rear' -> acc (Some (EV v)) new_front = Ok a_self' ->
  mobil rd v i = Ok b ->
  (b = true <-> - ip_max_braking (v_par v) <= a_new_rear' /\ - ip_max_braking (v_par v) <= a_self' /\
     Z.sgn (c - t) = Z.sgn (k - t)).
Proof.
  intros rd v i b k c t rt x y nf nr a2 a4 acc R Hk Hc Ht N1 A2 A4 M.
  apply mobil_ok in M as (np & nf' & op & of' & b1 & b2 & b3 & M1 & B1 & B2 & H). rewrite N1 in M1. injection M1 as <- <-.
  unfold acc in *. rewrite A2 in B2. injection B2 as <-.
  destruct H as [[-> H] | (H & M2 & B3 & H')]; [split; [easy | lra]|].
  rewrite A4 in B3. injection B3 as <-. unfold route_lane in H'. rewrite R in H'. destruct (Z.eqb_spec k 0); [easy|].
  destruct H' as (c' & t' & Ec & Et & H'). rewrite Hc in Ec. rewrite Ht in Et. injection Ec as <-. injection Et as <-. rewrite H'. tauto.
Qed.
Print Assumptions C35_mobil_with_planned_lane.
(** mobil never changes anything and always answers on a runnable road. *)
Theorem C35_mobil_answers : forall rd v i, runnable rd -> In v (rd_vehicles rd) -> is_controlled (v_kind v) = true ->
  lane_exists (rd_net rd) i -> exists b, mobil rd v i = Ok b.
Proof.
  intros rd v i Rn I C Li. destruct Rn as (B & N & P & L) eqn:ERn. destruct (P v I) as [Pl Pt]. destruct (Pt C) as [Tl _].
  apply mobil_total; try assumption. now apply runnable_road_ok.
Qed.
Print Assumptions C35_mobil_answers.

(** ** C36: lane change decisions *)
(** Every way [change_lane_policy] can end. *)
Theorem C36_policy_outcomes : forall rd v v', change_lane_policy rd v = Ok v' ->
  (* nothing *) v' = v \/
  (* ongoing change aborted because of a vehicle close ahead changing into the same lane *)
  (v_lane_index v <> v_target_lane v /\ v' = set_target_lane v (v_lane_index v) /\
   exists w l, In w (rd_vehicles rd) /\ v_id w <> v_id v /\ v_lane_index w <> v_target_lane v /\ is_controlled (v_kind w) = true /\
     v_target_lane w = v_target_lane v /\ get_lane (rd_net rd) (v_lane_index v) = Ok l /\
     0 < fst (l_local l (v_pos w)) - fst (l_local l (v_pos v)) < desired_gap (v_par v) v (EV w)) \/
  (* a decision: not already changing, timer expired and restarted *)
  (v_lane_index v = v_target_lane v /\ ip_delay (v_par v) < v_timer v /\ v_timer v' = 0 /\
   (v' = set_timer v 0 \/
    exists i l u, v' = set_target_lane (set_timer v 0) i /\ (exists sides, side_lanes (rd_net rd) (v_lane_index v) = Ok sides /\ In i sides) /\
      get_lane (rd_net rd) i = Ok l /\ is_reachable_from l (v_pos v) = true /\ (exists j, u = set_target_lane (set_timer v 0) j) /\ mobil rd u i = Ok true)).
Proof.
  intros rd v v' E. unfold change_lane_policy in E. destruct (li_eqb (v_lane_index v) (v_target_lane v)) eqn:Q; cbn [negb] in E.
  - apply li_eqb_iff in Q. destruct (do_every _ _) eqn:T; cbn [negb] in E; [|injection E as <-; now left].
    unfold do_every in T. apply Rltb_true in T. apply bind_ok in E as (cs & Ec & E). apply candidates_ok in E as (T' & Sx & H).
    right; right. split; [exact Q|]. split; [exact T|]. split; [exact T'|]. destruct H as [-> | (i & l & u & Hi & Ti & (j & t & Eu) & Tu & Gl & Rl & M)]; [now left|].
    right. exists i, l, u. split. { destruct Sx as (i' & ->). cbn in Ti. now subst. } split; [eauto|]. split; [exact Gl|]. split; [exact Rl|]. split; [|exact M].
    exists j. rewrite Eu in Tu. cbn in Tu. rewrite Eu, Tu. reflexivity.
  - assert (N : v_lane_index v <> v_target_lane v) by (intros H; apply li_eqb_iff in H; congruence).
    destruct (same_road _ _); [|injection E as <-; now left]. apply bind_ok in E as (b & A & E). injection E as <-. destruct b; [|now left].
    right; left. split; [exact N|]. split; [reflexivity|]. apply aborts_ok in A. destruct (proj1 A eq_refl) as (w & Iw & H1 & H2 & H3 & H4 & l & G & H5).
    exists w, l. tauto.
Qed.
Print Assumptions C36_policy_outcomes.
(** Conversely an ongoing change on the right road is aborted whenever such a vehicle exists. *)
Theorem C36_abort_when_contested : forall rd v v' w l, change_lane_policy rd v = Ok v' ->
  v_lane_index v <> v_target_lane v -> li_from (v_lane_index v) = li_from (v_target_lane v) -> li_to (v_lane_index v) = li_to (v_target_lane v) ->
  In w (rd_vehicles rd) -> v_id w <> v_id v -> v_lane_index w <> v_target_lane v -> is_controlled (v_kind w) = true ->
  v_target_lane w = v_target_lane v -> get_lane (rd_net rd) (v_lane_index v) = Ok l ->
  0 < fst (l_local l (v_pos w)) - fst (l_local l (v_pos v)) < desired_gap (v_par v) v (EV w) ->
  v_target_lane v' = v_lane_index v.
Proof.
  intros rd v v' w l E N R1 R2 I H1 H2 H3 H4 G H5. unfold change_lane_policy in E. destruct (li_eqb _ _) eqn:Q; [apply li_eqb_iff in Q; easy|]. cbn [negb] in E.
  replace (same_road (v_lane_index v) (v_target_lane v)) with true in E by (symmetry; now apply same_road_iff).
  apply bind_ok in E as (b & A & E). apply aborts_ok in A. assert (b = true) as ->. { apply A. exists w. split; [exact I|]. unfold blocks. do 4 (split; [assumption|]). exists l. tauto. }
  injection E as <-. reflexivity.
Qed.
Print Assumptions C36_abort_when_contested.
(** Over whole simulations: until its timer exceeds LANE_CHANGE_DELAY a vehicle
    takes no new decision: its target stays or goes back to its own lane. *)
Theorem C36_quiet_until_delay : forall dt rd frames rd2 i v w, simulates dt rd (rd2 :: frames) ->
  nth_error (rd_vehicles rd) i = Some v -> nth_error (rd_vehicles rd2) i = Some w -> v_kind v = KIDM -> v_crashed v = false ->
  v_timer v <= ip_delay (v_par v) ->
  (forall l, get_lane (rd_net rd) (v_target_lane v) = Ok l -> after_end l (v_pos v) None = false) ->
  v_timer w = v_timer v + dt /\ (v_target_lane w = v_target_lane v \/ v_target_lane w = v_lane_index v).
Proof.
  intros dt rd frames rd2 i v w Sim Nv Nw K C T Ae. inversion Sim as [|? draws rd1 ? ? D A E S]; subst.
  destruct (frame_nth _ _ _ _ _ _ _ A E Nv) as (rdm & v1 & u & w' & Am & Nm & Av & Eu & Ev & Nw'). rewrite Nw in Nw'. injection Nw' as <-.
  assert (Ei : idm_act rdm (draws i) v = Ok v1) by (unfold vehicle_act in Av; rewrite K in Av; exact Av).
  destruct (idm_act_ok _ _ _ _ Ei C) as (Sm & _ & _ & _ & f & r & va & vb & st & a & _ & Hf & Hp & _ & _ & Hv1).
  assert (va = v) as ->. { unfold follow_road in Hf. apply bind_ok in Hf as (l & Gl & Hf). destruct Am as (An & _). rewrite An in Gl. rewrite (Ae l Gl) in Hf. now injection Hf. }
  assert (Q : v_timer vb = v_timer v /\ (v_target_lane vb = v_target_lane v \/ v_target_lane vb = v_lane_index v)).
  { destruct (v_enable_lane_change v); [|injection Hp as <-; tauto]. apply C36_policy_outcomes in Hp as [-> | [(_ & -> & _) | (_ & Q & _)]]; cbn; [tauto | tauto | lra]. }
  pose proof (step_fields _ _ _ _ _ Eu) as Sf. cbv zeta in Sf. destruct Sf as (_ & _ & _ & _ & _ & Kd & _ & Tl & _ & _ & _ & _ & _ & _ & Ti & _).
  assert (Ku : v_kind v1 = KIDM) by (unfold same_vehicle in Sm; destruct Sm as (_ & -> & _); exact K).
  rewrite Ku in Ti. cbn in Ti. assert (v_timer w = v_timer u /\ v_target_lane w = v_target_lane u) as [-> ->].
  { destruct Ev as [-> | (s & -> & _)]; easy. }
  rewrite Ti, Tl, Hv1. cbn. destruct Q as [-> Q]. tauto.
Qed.
Print Assumptions C36_quiet_until_delay.

(** ** C63: target speed zero does not mean stopping *)
(** An IDM vehicle at rest whose target speed is 0 (e.g. one told to yield by a
    regulated road) is commanded the full comfort acceleration on a free road. *)
Theorem C63_zero_target_accelerates : forall g par e, is_controlled (v_kind e) = true -> v_target_speed e = 0 -> v_speed e = 0 ->
  idm_acceleration g par (Some (EV e)) None = Ok (ip_comfort_max par).
Proof.
  intros g par e C T S0. unfold idm_acceleration, target_speed_or_0. rewrite C, T, S0. apply f_equal.
  assert (N : not_zero 0 not_zero_eps = - not_zero_eps).
  { unfold not_zero, not_zero_eps. rewrite Rabs_R0, Rltb_ge by lra. rewrite Rltb_ge by lra. reflexivity. }
  rewrite N, Rmax_left by lra. unfold not_zero_eps. replace (0 / - (1/100)) with 0 by field. cbn [pow]. ring.
Qed.
Print Assumptions C63_zero_target_accelerates.
(** With the default parameters at 15 frames per second it then oscillates for
    ever: 0, 0.2, -0.2, 0, ... m/s. *)
Theorem C63_zero_target_oscillates : forall rd frames i v, simulates (1/15) rd frames ->
  Forall (unobstructed i) (rd :: frames) -> nth_error (rd_vehicles rd) i = Some v -> v_kind v = KIDM -> v_par v = idm_default ->
  v_target_speed v = 0 -> v_speed v = 0 ->
  forall n rdn, nth_error (rd :: frames) n = Some rdn -> exists w, nth_error (rd_vehicles rdn) i = Some w /\
    v_speed w = match (n mod 3)%nat with 0%nat => 0 | 1%nat => 1/5 | _ => -1/5 end.
Proof.
  intros rd frames i v Sim Fu Nv K Hp Ht Hs n rdn Nn.
  set (sp := fun n : nat => match (n mod 3)%nat with 0%nat => 0 | 1%nat => 1/5 | _ => -1/5 end).
  set (P := fun (m : nat) (w : vehicle) => v_kind w = KIDM /\ v_par w = idm_default /\ v_target_speed w = 0 /\ v_speed w = sp m).
  assert (Nz : not_zero 0 not_zero_eps = - not_zero_eps).
  { unfold not_zero, not_zero_eps. rewrite Rabs_R0, Rltb_ge by lra. rewrite Rltb_ge by lra. reflexivity. }
  assert (St3 : forall m, (sp m = 0 /\ sp (S m) = 1/5) \/ (sp m = 1/5 /\ sp (S m) = -1/5) \/ (sp m = -1/5 /\ sp (S m) = 0)).
  { intros m. unfold sp. pose proof (Nat.mod_upper_bound m 3 ltac:(lia)) as B.
    assert (Q : (S m mod 3 = (S (m mod 3)) mod 3)%nat).
    { replace (S m) with (m + 1)%nat by lia. rewrite Nat.add_mod by lia. replace (S (m mod 3)) with (m mod 3 + 1 mod 3)%nat by (cbn; lia). reflexivity. }
    rewrite Q. destruct (m mod 3)%nat as [|[|[|k]]]; [left; easy | right; left; easy | right; right; easy | lia]. }
  destruct (free_run P (1/15) i rd frames Sim Fu 0%nat v Nv) with (k := n) (rdk := rdn) as (w & Nw & _ & Pw); try assumption.
  - rewrite K. reflexivity.
  - unfold P. split; [exact K|]. split; [exact Hp|]. split; [exact Ht|]. rewrite Hs. reflexivity.
  - intros m u (_ & _ & _ & Su) _. rewrite Su. destruct (St3 m) as [[-> _]|[[-> _]|[-> _]]]; lra.
  - intros m u w a (Ku & Pu & Tu & Su) _ Sd Ha Sp. unfold stepped in Sd. cbn in Sd. destruct Sd as (_ & Kw & _ & _ & Tw & _ & _ & _ & _ & Pw & _).
    rewrite Ku in Ha. unfold P. split; [congruence|]. split; [congruence|]. split; [congruence|]. rewrite Sp, Pu. subst a.
    unfold free_acc, target_speed_or_0. rewrite Pu, Ku, Tu. cbn [is_controlled]. rewrite Nz. unfold not_zero_eps. cbn [ip_comfort_max ip_acc_max idm_default].
    rewrite Su. destruct (St3 m) as [[-> ->]|[[-> ->]|[-> ->]]].
    + rewrite Rmax_left by lra. rewrite Rclip_id; [field|]. cbn [pow]. lra.
    + rewrite Rmax_left by lra. replace (1 / 5 / - (1 / 100)) with (-20) by field. replace (Rclip _ _ _) with (-6); [field|]. unfold Rclip. rewrite Rmax_right, Rmin_left by (cbn [pow]; lra). reflexivity.
    + rewrite Rmax_right by lra. rewrite Rclip_id; [field|]. cbn [pow]. lra.
  - exists w. split; [exact Nw|]. apply Pw.
Qed.
Print Assumptions C63_zero_target_oscillates.
(** At rest closer than DISTANCE_WANTED to something stopped ahead, the command is
    negative: the vehicle starts reversing. *)
Theorem C63_reverses_when_too_close : forall g par e f l a, 0 < ip_comfort_max par -> v_speed e = 0 -> get_lane g (v_lane_index e) = Ok l ->
  1 / 100 < fst (l_local l (e_pos f)) - fst (l_local l (v_pos e)) < ip_distance par ->
  idm_acceleration g par (Some (EV e)) (Some f) = Ok a -> a < 0.
Proof.
  intros g par e f l a Hc S0 G D E. apply idm_acc_front in E as (l' & G' & ->). rewrite G in G'. injection G' as <-.
  set (d := fst (l_local l (e_pos f)) - fst (l_local l (v_pos e))) in *.
  assert (N : not_zero d not_zero_eps = d) by (unfold not_zero, not_zero_eps; rewrite Rabs_pos_eq, Rltb_lt by lra; reflexivity).
  rewrite N. assert (Gp : desired_gap par e f = ip_distance par) by (unfold desired_gap; rewrite S0; unfold Rdiv; ring). rewrite Gp.
  set (x := ip_distance par / d).
  assert (1 < x). { unfold x. apply (Rmult_lt_reg_r d); [lra|]. unfold Rdiv. rewrite Rmult_assoc, Rinv_l by lra. lra. }
  pose proof (free_acc_le par e ltac:(lra)). assert (1 < x ^ 2) by (cbn [pow]; nra). nra.
Qed.
Print Assumptions C63_reverses_when_too_close.
Example C63_nonvacuous : exists frames w u, simulates (1/15) (demo_road [demo_controlled KIDM (0, 0) 0 0 0] []) frames /\
  nth_error frames 1 = Some w /\ nth_error (rd_vehicles w) 0 = Some u /\ v_speed u < 0.
Proof.
  pose proof (demo_runnable KIDM (0, 0) 0 0 0 _ _ ltac:(lia) eq_refl eq_refl) as Rn.
  destruct (simulates_total (1/15) 2 _ Rn) as (fr & Hl & Sim). destruct (nth_error fr 1) as [w|] eqn:N; [|apply nth_error_None in N; lia].
  pose proof (C34_lone_vehicle_unobstructed _ _ _ _ Sim Rn eq_refl eq_refl eq_refl) as Fu.
  destruct (C63_zero_target_oscillates _ fr 0 _ Sim Fu eq_refl eq_refl eq_refl eq_refl eq_refl 2 w N) as (u & Nu & Su).
  exists fr, w, u. split; [exact Sim|]. split; [exact N|]. split; [exact Nu|]. cbn in Su. lra.
Qed.

(** ** C64: linear vehicles *)
(** On a free road the speed error of a linear vehicle shrinks by exactly
    1 - p1 dt per frame. *)
Theorem C64_linear_free_run : forall dt rd frames i v p1 p2 p3, simulates dt rd frames ->
  Forall (unobstructed i) (rd :: frames) -> nth_error (rd_vehicles rd) i = Some v -> v_kind v = KLinear ->
  ip_acc_par (v_par v) = (p1, p2, p3) -> 0 <= p1 -> 0 <= dt -> p1 * dt <= 1 -> 0 <= v_speed v <= 40 -> 0 <= v_target_speed v <= 40 ->
  p1 * Rabs (v_target_speed v - v_speed v) <= ip_acc_max (v_par v) ->
  forall n rdn, nth_error (rd :: frames) n = Some rdn -> exists w, nth_error (rd_vehicles rdn) i = Some w /\
    v_target_speed v - v_speed w = (1 - p1 * dt) ^ n * (v_target_speed v - v_speed v).
Proof.
  intros dt rd frames i v p1 p2 p3 Sim Fu Nv K Hp H1 Hd H2 Hv Ht Ha n rdn Nn. set (vt := v_target_speed v) in *. set (q := 1 - p1 * dt).
  assert (Hq : 0 <= q <= 1) by (unfold q; split; [lra|]; assert (0 <= p1 * dt) by (apply Rmult_le_pos; lra); lra).
  assert (Hqm : forall m, 0 <= q ^ m <= 1).
  { induction m; cbn [pow]; [lra|]. nra. }
  set (P := fun (m : nat) (w : vehicle) => v_kind w = KLinear /\ v_par w = v_par v /\ v_target_speed w = vt /\ vt - v_speed w = q ^ m * (vt - v_speed v)).
  assert (Bd : forall m, Rabs (q ^ m * (vt - v_speed v)) <= Rabs (vt - v_speed v)).
  { intros m. rewrite Rabs_mult, (Rabs_pos_eq (q ^ m)) by apply Hqm. pose proof (Rabs_pos (vt - v_speed v)). pose proof (Hqm m). nra. }
  destruct (free_run P dt i rd frames Sim Fu 0%nat v Nv) with (k := n) (rdk := rdn) as (w & Nw & _ & Pw); try assumption.
  - rewrite K. reflexivity.
  - unfold P. cbn [pow]. split; [exact K|]. split; [reflexivity|]. split; [reflexivity | ring].
  - intros m u (_ & _ & _ & Su) _. assert (Q : v_speed u = (1 - q ^ m) * vt + q ^ m * v_speed v) by lra. rewrite Q. pose proof (Hqm m) as Hm. set (z := q ^ m) in *.
    assert (0 <= (1 - z) * vt <= (1 - z) * 40) by (split; [apply Rmult_le_pos; lra | apply Rmult_le_compat_l; lra]).
    assert (0 <= z * v_speed v <= z * 40) by (split; [apply Rmult_le_pos; lra | apply Rmult_le_compat_l; lra]). lra.
  - intros m u w a (Ku & Pu & Tu & Su) _ Sd Ea Sp. unfold stepped in Sd. cbn in Sd. destruct Sd as (_ & Kw & _ & _ & Tw & _ & _ & _ & _ & Pw & _).
    rewrite Ku, Pu, Hp, Tu, Su in Ea. cbn [fst] in Ea. unfold P. split; [congruence|]. split; [congruence|]. split; [congruence|].
    rewrite Pu, Rclip_id in Sp.
    + rewrite Sp, Ea. cbn [pow]. replace (vt - (v_speed u + p1 * (q ^ m * (vt - v_speed v)) * dt)) with ((vt - v_speed u) - p1 * dt * (q ^ m * (vt - v_speed v))) by ring.
      rewrite Su. unfold q at 3. ring.
    + assert (Rabs a <= ip_acc_max (v_par v)).
      { rewrite Ea, Rabs_mult, (Rabs_pos_eq p1) by lra. pose proof (Bd m). nra. }
      unfold Rabs in H. destruct (Rcase_abs a); lra.
  - exists w. split; [exact Nw|]. apply Pw.
Qed.
Print Assumptions C64_linear_free_run.
(** Linear vehicles assume every follower has a target speed: with an obstacle or
    a plain vehicle behind on the candidate lane, [mobil] raises. *)
Theorem C64_linear_mobil_raises : forall rd v i front rear, v_kind v = KLinear ->
  neighbour_vehicles rd v (Some i) = Ok (front, Some rear) ->
  match rear with EV w => is_controlled (v_kind w) = false | EO _ => True end ->
  mobil rd v i = Err AttributeError.
Proof.
  intros rd v i f r K N H. unfold mobil. rewrite N. cbn [bind]. unfold acceleration. rewrite K. unfold linear_acceleration, linear_features.
  destruct r as [w|o]; [rewrite H|]; reflexivity.
Qed.
Print Assumptions C64_linear_mobil_raises.
Lemma demo_length k : l_length (straight_network_lane 3 k 1000 0) = 1000.
Proof.
  unfold l_length, straight_network_lane. cbn [l_geom geom_length]. unfold vrot, vsub. rewrite Ropp_0, cos_0, sin_0. unfold vnorm. cbn [fst snd].
  replace (_ + _) with (1000 * 1000) by ring. apply sqrt_square. lra.
Qed.
Example C64_nonvacuous : mobil (demo_road [demo_controlled KLinear (100, 0) 20 25 0] [Object 7 KObstacle (50, 4) 0 0 false])
    (demo_controlled KLinear (100, 0) 20 25 0) ("0", "1", Some 1%Z)%string = Err AttributeError.
Proof.
  set (v := demo_controlled KLinear (100, 0) 20 25 0). set (o := Object 7 KObstacle (50, 4) 0 0 false). set (rd := demo_road [v] [o]).
  destruct (neighbours_total rd (v_id v) (v_pos v) _ _ (demo_get 1 ltac:(lia))) as [[f r] N].
  destruct (neighbours_spec rd (v_id v) (v_pos v) _ _ _ _ (demo_get 1 ltac:(lia)) N) as (_ & _ & Hs & Hn). cbv zeta in *.
  assert (C : candidate (straight_network_lane 3 1 1000 0) (v_id v) (EO o)).
  { unfold candidate. rewrite demo_local, demo_length by lia. cbn. split; [discriminate|]. split; [reflexivity|].
    replace (4 - 1 * 4) with 0 by ring. rewrite Rabs_R0. unfold DEFAULT_WIDTH. lra. }
  destruct r as [e|].
  - apply (C64_linear_mobil_raises rd v _ f e eq_refl); [exact N|]. destruct (Hs e eq_refl) as (I & (Ni & _) & _).
    destruct I as [<- | [<- | []]]; [now elim Ni | exact Logic.I].
  - exfalso. specialize (Hn eq_refl (EO o)). rewrite !demo_local in Hn by lia. cbn in Hn.
    specialize (Hn ltac:(right; now left) C). lra.
Qed.

(** ** C65: random behaviours *)
(** [randomize_behavior] always lands in the documented ranges around the linear
    defaults (acceleration parameters +-50%, steering +-0.07 and +-1.5)... *)
Theorem C65_randomized_in_range : forall p u1 u2 u3 w1 w2, 0 <= u1 <= 1 -> 0 <= u2 <= 1 -> 0 <= u3 <= 1 -> 0 <= w1 <= 1 -> 0 <= w2 <= 1 ->
  let q := randomized p (u1, u2, u3) (w1, w2) in
  let '(a1, a2, a3) := ip_acc_par q in
  15/100 <= a1 <= 45/100 /\ 15/100 <= a2 <= 45/100 /\ 1 <= a3 <= 3 /\
  5 - 7/100 <= fst (ip_steer_par q) <= 5 + 7/100 /\ 25/3 - 3/2 <= snd (ip_steer_par q) <= 25/3 + 3/2.
Proof.
  intros p u1 u2 u3 w1 w2 H1 H2 H3 H4 H5. cbn. unfold KP_LATERAL, KP_HEADING, TAU_DS. repeat split; lra.
Qed.
Print Assumptions C65_randomized_in_range.
(** ... but the ranges are inherited: the result does not depend on the class, so
    aggressive and defensive vehicles lose their character, and their own
    parameters are outside the ranges. *)
Theorem C65_character_lost : forall ua ub,
  ip_acc_par (randomized aggressive_default ua ub) = ip_acc_par (randomized linear_default ua ub) /\
  ip_acc_par (randomized defensive_default ua ub) = ip_acc_par (randomized linear_default ua ub) /\
  snd (ip_acc_par aggressive_default) < snd (fst ACCELERATION_RANGE).
Proof. intros [[u1 u2] u3] ub. cbn. split; [reflexivity|]. split; [reflexivity | lra]. Qed.
Print Assumptions C65_character_lost.

(** ** C66: maximum_speed *)
Theorem C66_maximum_speed_never_returns : forall depth v front, maximum_speed depth v (Some front) = Err RecursionError.
Proof. induction depth as [|d IH]; intros v f; [reflexivity|]. cbn [maximum_speed]. rewrite IH. reflexivity. Qed.
Print Assumptions C66_maximum_speed_never_returns.
Theorem C66_maximum_speed_free : forall depth v, maximum_speed depth v None = Ok (v_target_speed v).
Proof. destruct depth; reflexivity. Qed.
Print Assumptions C66_maximum_speed_free.

(** ** C67: the simulation never fails *)
(** On a runnable road, act-then-step succeeds whatever is drawn and whatever the
    situation, and leads to a runnable road again. *)
Theorem C67_frame_total : forall rd draws dt, runnable rd -> (forall i, draw_ok (draws i)) ->
  exists rd1 rd2, road_act draws rd = Ok rd1 /\ road_step rd1 dt = Ok rd2 /\ runnable rd2.
Proof.
  intros rd draws dt Rn D. destruct (runnable_act draws rd D Rn) as (rd1 & A & R1). destruct (runnable_step rd1 dt R1) as (rd2 & E & R2). eauto.
Qed.
Print Assumptions C67_frame_total.
(** So it can go on for any number of frames, and every reachable road is runnable. *)
Theorem C67_any_number_of_frames : forall dt rd n, runnable rd -> exists frames, List.length frames = n /\ simulates dt rd frames.
Proof. intros dt rd n Rn. now apply simulates_total. Qed.
Print Assumptions C67_any_number_of_frames.
Theorem C67_runnable_for_ever : forall dt rd frames, simulates dt rd frames -> runnable rd -> Forall runnable frames.
Proof. intros dt rd frames S Rn. eapply simulates_runnable; eauto. Qed.
Print Assumptions C67_runnable_for_ever.
(** Vehicles neither appear, disappear, nor change place, class, identity or
    constants during a simulation, nor do the network and the objects (other than
    being hit). *)
Theorem C67_population_constant : forall dt rd frames, simulates dt rd frames ->
  Forall (fun rd' => rd_net rd' = rd_net rd /\
    Forall2 (fun v w => v_id w = v_id v /\ v_kind w = v_kind v /\ v_par w = v_par v /\ v_grid w = v_grid v /\ v_collisions w = v_collisions v)
            (rd_vehicles rd) (rd_vehicles rd') /\
    Forall2 (fun o p => o_id p = o_id o /\ o_kind p = o_kind o /\ o_pos p = o_pos o /\ o_heading p = o_heading o /\ o_speed p = o_speed o)
            (rd_objects rd) (rd_objects rd')) frames.
Proof.
  intros dt rd frames S. induction S as [|rd draws rd1 rd2 fr D A E S IH]; [constructor|].
  pose proof (road_act_acted _ _ _ A) as (A1 & A2 & _ & _ & A3). apply road_step_stepped in E as (E1 & _ & _ & E2 & E3).
  assert (H0 : rd_net rd2 = rd_net rd) by congruence.
  assert (H1 : Forall2 (fun v w => v_id w = v_id v /\ v_kind w = v_kind v /\ v_par w = v_par v /\ v_grid w = v_grid v /\ v_collisions w = v_collisions v) (rd_vehicles rd) (rd_vehicles rd2)).
  { eapply Forall2_comp; [|exact A3 | exact E2]. cbn. intros a b c Sm [St _]. unfold same_vehicle, stepped in *. intuition congruence. }
  assert (H2 : Forall2 (fun o p => o_id p = o_id o /\ o_kind p = o_kind o /\ o_pos p = o_pos o /\ o_heading p = o_heading o /\ o_speed p = o_speed o) (rd_objects rd) (rd_objects rd2)).
  { rewrite <- A2. eapply Forall2_comp; [|apply (Forall2_refl' (fun a b : object => a = b)); reflexivity | exact E3]. cbn. intros a b c -> [-> | ->]; cbn; tauto. }
  constructor; [tauto|]. eapply Forall_impl; [|exact IH]. cbn. intros rd' (Q0 & Q1 & Q2). split; [congruence|]. split.
  - eapply Forall2_comp; [|exact H1 | exact Q1]. cbn. intros a b c X Y. intuition congruence.
  - eapply Forall2_comp; [|exact H2 | exact Q2]. cbn. intros a b c X Y. intuition congruence.
Qed.
Print Assumptions C67_population_constant.
Example C67_nonvacuous : exists frames, List.length frames = 1000%nat /\ simulates (1/15) (demo_road [demo_controlled KIDM (0, 0) 20 25 0] []) frames.
Proof. apply C67_any_number_of_frames. eapply (demo_runnable KIDM (0, 0) 20 25 0); [lia | reflexivity | reflexivity]. Qed.
