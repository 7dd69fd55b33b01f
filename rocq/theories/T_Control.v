(** Theorems about controlled vehicles (C26-C30, C32, C60-C62). *)
From Verif Require Import Prelude M_Utils M_Lane M_Road M_Vehicle M_Kinematics M_Control
  S_Geometry S_Road S_Vehicle S_Control P_Base P_Utils P_Lane P_Graph P_Bfs P_Kin P_Control T_Road T_Kin.
From Coq Require Import Lia Lra.
Open Scope R_scope.

(** A controlled vehicle on the demo network, used in the examples. *)
Definition demo_controlled (k : vkind) (p : vec) (s target : R) (lane_id : Z) : vehicle :=
  Vehicle 0 k p 0 s ("0", "1", Some lane_id)%string 0 0 false true [] ("0", "1", Some lane_id)%string target None 1%Z
    grid_default true 0 idm_default false 0%Z false.
Lemma demo_lane k : (k < 3)%nat -> has_lane demo_net "0" "1" k (straight_network_lane 3 k 1000 0).
Proof.
  intros H. eexists _, _. split; [reflexivity|]. split; [reflexivity|].
  destruct k as [|[|[|k]]]; [reflexivity | reflexivity | reflexivity | lia].
Qed.
Lemma demo_targets k p s t n : (n < 3)%nat -> targets_ok demo_net (demo_controlled k p s t (Z.of_nat n)).
Proof. intros H. split; [|exact I]. exists n, (straight_network_lane 3 n 1000 0). split; [reflexivity|]. now apply demo_lane. Qed.

(** ** C26: bounded steering *)
Theorem C26_steering_control_bounded : forall g v i st, steering_control g v i = Ok st -> - (PI / 3) <= st <= PI / 3.
Proof. exact steering_control_bounds. Qed.
Print Assumptions C26_steering_control_bounded.
Theorem C26_act_steering_bounded : forall g draw v a v',
  controlled_act g draw v a = Ok v' \/ mdp_act g draw v a = Ok v' -> - (PI / 3) <= v_steering v' <= PI / 3.
Proof.
  intros g draw v a v' [E|E].
  - apply controlled_act_ok in E as (_ & _ & _ & _ & l & _ & ->). apply steering_law_bounds.
  - apply mdp_act_ok in E as (_ & _ & _ & l & _ & ->). apply steering_law_bounds.
Qed.
Print Assumptions C26_act_steering_bounded.
(** The controller steers towards the lane: a vehicle driving forward parallel to
    a straight lane, to the right of its centre line (positive lateral
    coordinate), steers left (negative angle), and conversely. *)
Theorem C26_steers_towards_lane : forall g v i l st en, get_lane g i = Ok l -> l_geom l = GStraight st en ->
  v_heading v = straight_heading st en -> 0 < v_speed v -> snd (l_local l (v_pos v)) <> 0 ->
  exists s, steering_control g v i = Ok s /\ s * snd (l_local l (v_pos v)) < 0.
Proof.
  intros g v i l st en G Gm H Sp D. unfold steering_control. rewrite G. cbn [bind]. eexists. split; [reflexivity|].
  unfold steering_law. destruct (l_local l (v_pos v)) as [a d] eqn:L. cbn [snd] in *. unfold l_heading. rewrite Gm. cbn [geom_heading]. cbv zeta.
  rewrite H. pose proof PI_RGT_0 as P0.
  assert (Np : 0 < not_zero (v_speed v) not_zero_eps).
  { unfold not_zero, not_zero_eps. destruct (Rltb _ _); [easy|]. rewrite Rltb_lt by easy. lra. }
  set (nz := not_zero (v_speed v) not_zero_eps) in *.
  assert (K1 : 0 < KP_LATERAL) by (unfold KP_LATERAL, KP_HEADING, TAU_DS; lra).
  assert (K2 : 0 < KP_HEADING) by (unfold KP_HEADING, TAU_DS; lra).
  set (x := Rclip (- KP_LATERAL * d / nz) (-1) 1).
  assert (Bx : -1 <= x <= 1) by (apply Rclip_bounds; lra).
  assert (Q : forall t m, 0 < m -> t * d < 0 -> Rclip t (- m) m * d < 0).
  { intros t m Hm Ht. unfold Rclip, Rmin, Rmax. repeat destruct Rle_dec; nra. }
  assert (Sx : x * d < 0).
  { unfold x. replace (-1) with (- (1)) by ring. apply Q; [lra|]. 
    replace (- KP_LATERAL * d / nz * d) with (- (KP_LATERAL * (d * d) * / nz)) by (unfold Rdiv; ring).
    pose proof (Rinv_0_lt_compat _ Np). assert (0 < d * d) by nra. assert (0 < KP_LATERAL * (d * d)) by nra. nra. }
  assert (Sa : forall y, -1 <= y <= 1 -> y * d < 0 -> asin y * d < 0).
  { intros y By Sy. destruct (Rtotal_order y 0) as [Y|[Y|Y]]; [|subst; lra|].
    - assert (asin y < 0) by (apply asin_neg; lra). nra.
    - assert (0 < asin y) by (apply asin_pos; lra). nra. }
  pose proof (Sa x Bx Sx) as S1. pose proof (Q (asin x) (PI/4) ltac:(lra) S1) as S2.
  set (hc := Rclip (asin x) (- (PI / 4)) (PI / 4)) in *.
  assert (Bh : - (PI/4) <= hc <= PI/4) by (apply Rclip_bounds; lra).
  replace (straight_heading st en + hc - straight_heading st en) with hc by ring. rewrite wrap_id by lra.
  set (y := Rclip (V_LENGTH / 2 / nz * (KP_HEADING * hc)) (-1) 1).
  assert (By : -1 <= y <= 1) by (apply Rclip_bounds; lra).
  assert (Sy : y * d < 0).
  { unfold y. replace (-1) with (- (1)) by ring. apply Q; [lra|].
    assert (0 < V_LENGTH / 2 / nz) by (unfold V_LENGTH; apply Rdiv_lt_0_compat; lra).
    replace (V_LENGTH / 2 / nz * (KP_HEADING * hc) * d) with (V_LENGTH / 2 / nz * KP_HEADING * (hc * d)) by ring.
    assert (0 < V_LENGTH / 2 / nz * KP_HEADING) by nra. nra. }
  pose proof (Sa y By Sy) as S3. unfold MAX_STEERING_ANGLE. apply Q; [lra | exact S3].
Qed.
Print Assumptions C26_steers_towards_lane.
Example C26_nonvacuous : exists s, steering_control demo_net (demo_controlled KControlled (0, 5) 20 20 1) ("0", "1", Some 1%Z)%string = Ok s /\ s < 0.
Proof.
  pose proof (get_lane_nat _ _ _ _ _ (demo_lane 1 ltac:(lia))) as G.
  assert (Dn : vnorm (vsub (vrot (-0) (1000, 4)) (vrot (-0) (0, 4))) = 1000).
  { unfold vnorm, vsub, vrot. cbn [fst snd]. rewrite Ropp_0, cos_0, sin_0.
    replace ((1 * 1000 - 0 * 4 - (1 * 0 - 0 * 4)) * (1 * 1000 - 0 * 4 - (1 * 0 - 0 * 4)) + (0 * 1000 + 1 * 4 - (0 * 0 + 1 * 4)) * (0 * 1000 + 1 * 4 - (0 * 0 + 1 * 4))) with (1000 * 1000) by ring.
    apply sqrt_sq. lra. }
  assert (Dd : snd (l_local (straight_network_lane 3 1 1000 0) (0, 5)) = 1).
  { unfold l_local, straight_network_lane. cbn [l_geom geom_local]. unfold straight_local, straight_lat, straight_dir, DEFAULT_WIDTH.
    cbn [INR]. replace (1 * 4) with 4 by ring. rewrite Dn. unfold vdot, vscal, vsub, vrot. cbn [fst snd]. rewrite Ropp_0, cos_0, sin_0. field. }
  destruct (C26_steers_towards_lane demo_net (demo_controlled KControlled (0, 5) 20 20 1) _ _ _ _ G eq_refl) as (s & E & Hs).
  - cbn [v_heading demo_controlled]. unfold straight_heading, vrot, atan2. cbn [fst snd]. rewrite Ropp_0, cos_0, sin_0.
    rewrite Rltb_lt by lra. unfold DEFAULT_WIDTH. cbn [INR].
    replace ((0 * 1000 + 1 * (1 * 4) - (0 * 0 + 1 * (1 * 4))) / (1 * 1000 - 0 * (1 * 4) - (1 * 0 - 0 * (1 * 4)))) with 0 by field.
    symmetry. apply atan_0.
  - cbn. lra.
  - cbn [v_pos demo_controlled]. rewrite Dd. lra.
  - cbn [v_pos demo_controlled] in Hs. rewrite Dd in Hs. exists s. split; [exact E | lra].
Qed.

(** ** C27: convergence of the speed *)
(** Whatever lane-change / idle actions are taken, for both controlled classes. *)
Theorem C27_speed_error_geometric : forall act g record dt v acts tr, act = controlled_act \/ act = mdp_act ->
  0 <= dt ->
  (dt <= 6/10 /\ Rabs (v_target_speed v) <= 40 /\ Rabs (v_speed v) <= 40 \/
   dt <= 12/10 /\ Rabs (v_target_speed v) + Rabs (v_speed v - v_target_speed v) <= 40) ->
  v_crashed v = false -> ~ In (Some FASTER) acts -> ~ In (Some SLOWER) acts -> performs act g record dt v acts tr ->
  forall j w, nth_error tr j = Some w ->
    v_target_speed w = v_target_speed v /\
    v_speed w - v_target_speed v = (1 - dt / (6/10)) ^ (S j) * (v_speed v - v_target_speed v).
Proof.
  intros act g rec dt v acts tr Ha Hd B C N1 N2 P j w Hj.
  assert (F : Forall keeps_speed acts).
  { apply Forall_forall. intros a Hin. destruct a as [[]|]; cbn; tauto. }
  assert (P' : performs controlled_act g rec dt v acts tr) by (destruct Ha as [-> | ->]; [exact P | now apply performs_mdp_controlled]).
  destruct (speed_loop g rec dt v acts tr Hd B C F P' j w Hj) as (T & _ & E). split; [exact T|]. rewrite E. ring.
Qed.
Print Assumptions C27_speed_error_geometric.
(** Without overshoot for dt <= 0.6: the speed stays between the current speed
    and the target. *)
Theorem C27_no_overshoot : forall act g record dt v acts tr, act = controlled_act \/ act = mdp_act ->
  0 <= dt <= 6/10 -> Rabs (v_target_speed v) <= 40 -> Rabs (v_speed v) <= 40 ->
  v_crashed v = false -> ~ In (Some FASTER) acts -> ~ In (Some SLOWER) acts -> performs act g record dt v acts tr ->
  forall w, In w tr ->
    (v_speed v <= v_target_speed v -> v_speed v <= v_speed w <= v_target_speed v) /\
    (v_target_speed v <= v_speed v -> v_target_speed v <= v_speed w <= v_speed v).
Proof.
  intros act g rec dt v acts tr Ha Hd Bt Bs C N1 N2 P w Hw. apply In_nth_error in Hw as [j Hj].
  destruct (C27_speed_error_geometric act g rec dt v acts tr Ha (proj1 Hd) (or_introl (conj (proj2 Hd) (conj Bt Bs))) C N1 N2 P j w Hj) as [_ E].
  pose proof (pow_01 (1 - dt / (6/10)) (S j) ltac:(lra)). split; intros H0; nra.
Qed.
Print Assumptions C27_no_overshoot.
(** Convergence: from some step on the error is as small as desired. *)
Theorem C27_converges : forall act g record dt v, act = controlled_act \/ act = mdp_act ->
  0 < dt < 12/10 ->
  (dt <= 6/10 /\ Rabs (v_target_speed v) <= 40 /\ Rabs (v_speed v) <= 40 \/
   dt <= 12/10 /\ Rabs (v_target_speed v) + Rabs (v_speed v - v_target_speed v) <= 40) ->
  v_crashed v = false -> forall eps, 0 < eps -> exists N, forall acts tr,
  ~ In (Some FASTER) acts -> ~ In (Some SLOWER) acts -> performs act g record dt v acts tr ->
  forall j w, (N <= j)%nat -> nth_error tr j = Some w -> Rabs (v_speed w - v_target_speed v) < eps.
Proof.
  intros act g rec dt v Ha Hd B C eps He. set (e := v_speed v - v_target_speed v).
  assert (Hq : Rabs (1 - dt / (6/10)) < 1) by (apply Rabs_def1; lra).
  assert (Pe : 0 < Rabs e + 1) by (pose proof (Rabs_pos e); lra).
  destruct (pow_lt_1_zero _ Hq (eps / (Rabs e + 1)) ltac:(apply Rdiv_lt_0_compat; lra)) as [N HN].
  exists N. intros acts tr N1 N2 P j w Hj Hw.
  destruct (C27_speed_error_geometric act g rec dt v acts tr Ha ltac:(lra) B C N1 N2 P j w Hw) as [_ ->]. fold e.
  rewrite Rabs_mult. specialize (HN (S j) ltac:(lia)). pose proof (Rabs_pos e).
  apply Rle_lt_trans with (eps / (Rabs e + 1) * Rabs e).
  - apply Rmult_le_compat_r; [easy | lra].
  - apply Rlt_le_trans with (eps / (Rabs e + 1) * (Rabs e + 1)); [|right; field; lra].
    apply Rmult_lt_compat_l; [apply Rdiv_lt_0_compat; lra | lra].
Qed.
Print Assumptions C27_converges.
Example C27_nonvacuous : exists tr,
  performs mdp_act demo_net true (1/15) (demo_controlled KMDP (0, 4) 20 25 1) [Some LANE_LEFT; None; Some IDLE; Some LANE_RIGHT] tr /\
  List.length tr = 4%nat.
Proof.
  destruct (performs_total mdp_act demo_net true (1/15) [Some LANE_LEFT; None; Some IDLE; Some LANE_RIGHT]
    (wf_built _ demo_built) ltac:(discriminate) (fun d v a => mdp_act_total demo_net d v a (wf_built _ demo_built))
    (demo_controlled KMDP (0, 4) 20 25 1) (demo_targets KMDP (0, 4) 20 25 1 ltac:(lia))) as [tr P].
  exists tr. split; [exact P|]. now apply performs_length in P.
Qed.

(** ** C28: straight-line equilibrium *)
Theorem C28_stays_centred : forall act g record dt v acts tr l st en k, act = controlled_act \/ act = mdp_act ->
  0 <= dt <= 6/10 -> Rabs (v_target_speed v) <= 40 -> Rabs (v_speed v) <= 40 -> v_crashed v = false ->
  get_lane g (v_target_lane v) = Ok l -> l_geom l = GStraight st en -> st <> en ->
  snd (l_local l (v_pos v)) = 0 -> v_heading v = straight_heading st en + 2 * PI * IZR k ->
  (forall a, In a acts -> a = None \/ a = Some IDLE) -> performs act g record dt v acts tr ->
  forall j w, nth_error tr j = Some w ->
  (forall i u, (i <= j)%nat -> nth_error (v :: tr) i = Some u -> fst (l_local l (v_pos u)) <= l_length l - 5/2) ->
    v_target_lane w = v_target_lane v /\ snd (l_local l (v_pos w)) = 0 /\ v_heading w = v_heading v /\
    fst (l_local l (v_pos w)) = fst (l_local l (v_pos v)) + INR (S j) * dt * v_target_speed v
      + (6/10) * (1 - (1 - dt / (6/10)) ^ (S j)) * (v_speed v - v_target_speed v).
Proof.
  intros act g rec dt v acts tr l st en k Ha Hd Bt Bs C G Gm N D H F P.
  assert (F' : Forall idle acts) by (apply Forall_forall; exact F).
  assert (P' : performs controlled_act g rec dt v acts tr)
    by (destruct Ha as [-> | ->]; [exact P | apply performs_mdp_controlled; [now apply idle_keeps | exact P]]).
  exact (equilibrium g rec dt v acts tr l st en k Hd Bt Bs C G Gm N D H F' P').
Qed.
Print Assumptions C28_stays_centred.

(** ** C29: target lanes *)
Theorem C29_target_always_exists : forall act g record dt v acts tr, act = controlled_act \/ act = mdp_act ->
  built g -> lane_exists g (v_target_lane v) -> route_on_network g (v_route v) ->
  performs act g record dt v acts tr ->
  forall w, In w tr -> lane_exists g (v_target_lane w).
Proof.
  intros act g rec dt v acts tr Ha B T R P w Hw. pose proof (wf_built _ B) as W.
  assert (F : Forall (targets_ok g) tr).
  { apply (performs_targets act g rec dt v acts tr); [|split; assumption|exact P].
    intros draw u a u' D Tu E. destruct Ha as [-> | ->].
    - destruct (controlled_act_total g draw u a W D Tu) as (x & Ex & Tx). congruence.
    - destruct (mdp_act_total g draw u a W D Tu) as (x & Ex & Tx). congruence. }
  rewrite Forall_forall in F. apply (F w Hw).
Qed.
Print Assumptions C29_target_always_exists.
(** Such runs never get stuck: no action ever raises. *)
Theorem C29_actions_never_fail : forall act g record dt v acts, act = controlled_act \/ act = mdp_act ->
  built g -> g <> [] -> lane_exists g (v_target_lane v) -> route_on_network g (v_route v) ->
  exists tr, performs act g record dt v acts tr.
Proof.
  intros act g rec dt v acts Ha B N T R. apply performs_total; [now apply wf_built | exact N | | split; assumption].
  intros draw u a D Tu. destruct Ha as [-> | ->].
  - now apply controlled_act_total; [apply wf_built | |].
  - now apply mdp_act_total; [apply wf_built | |].
Qed.
Print Assumptions C29_actions_never_fail.
(** LANE_LEFT / LANE_RIGHT before the end of the target lane: the target moves to
    the neighbour of the same road exactly when it exists and is reachable. *)
Theorem C29_lane_change : forall act g draw v a (delta : Z) x y k l v', act = controlled_act \/ act = mdp_act ->
  (a = Some LANE_RIGHT /\ delta = 1%Z \/ a = Some LANE_LEFT /\ delta = (-1)%Z) ->
  v_target_lane v = (x, y, Some (Z.of_nat k)) -> has_lane g x y k l ->
  fst (l_local l (v_pos v)) <= l_length l - 5/2 ->
  act g draw v a = Ok v' ->
  let reachable_neighbour :=
    exists k' l', Z.of_nat k' = (Z.of_nat k + delta)%Z /\ has_lane g x y k' l' /\ is_reachable_from l' (v_pos v) = true in
  (reachable_neighbour -> v_target_lane v' = (x, y, Some (Z.of_nat k + delta)%Z)) /\
  (~ reachable_neighbour -> v_target_lane v' = v_target_lane v).
Proof.
  intros act g draw v a delta x y k l v' Ha Hd T HL BE E. cbv zeta.
  assert (E' : controlled_act g draw v a = Ok v') by (destruct Ha as [-> | ->]; [exact E | destruct Hd as [[-> _]|[-> _]]; exact E]).
  clear E. unfold controlled_act in E'.
  assert (F1 : follow_road g draw v = Ok v).
  { unfold follow_road. rewrite T, (get_lane_nat _ _ _ _ _ HL). cbn [bind]. unfold after_end, LANE_VEHICLE_LENGTH. rewrite Rltb_ge by lra. reflexivity. }
  rewrite F1 in E'. cbn [bind] in E'.
  assert (X : lane_exists g (x, y, Some (Z.of_nat k))) by (exists k, l; easy).
  destruct (try_lane_change_spec g v x y k delta X T ltac:(destruct Hd as [[_ ->]|[_ ->]]; tauto)) as (v2 & E2 & _ & _ & S).
  assert (A : apply_meta g v a = Ok v2) by (destruct Hd as [[-> D]|[-> D]]; subst delta; exact E2).
  rewrite A in E'. cbn [bind] in E'. apply low_level_ok in E' as (_ & _ & _ & TL & _). rewrite TL.
  destruct S as [(l' & A1 & A2 & A3 & A4) | [A1 A2]].
  - split; [intros _; exact A4|]. intros N. exfalso. apply N. exists (Z.to_nat (Z.of_nat k + delta)), l'.
    rewrite Z2Nat.id by lia. tauto.
  - split; [|intros _; exact A1]. intros (k' & l' & B1 & B2 & B3). exfalso. apply A2. exists l'.
    rewrite <- B1, Nat2Z.id. split; [exact B2|]. split; [lia | exact B3].
Qed.
Print Assumptions C29_lane_change.
(** Other actions never change the target lane (before its end). *)
Theorem C29_other_actions_keep_lane : forall act g draw v a l v', act = controlled_act \/ act = mdp_act ->
  a <> Some LANE_RIGHT -> a <> Some LANE_LEFT ->
  get_lane g (v_target_lane v) = Ok l -> fst (l_local l (v_pos v)) <= l_length l - 5/2 ->
  act g draw v a = Ok v' -> v_target_lane v' = v_target_lane v.
Proof.
  assert (Q : forall g draw v a l v', a <> Some LANE_RIGHT -> a <> Some LANE_LEFT ->
    get_lane g (v_target_lane v) = Ok l -> fst (l_local l (v_pos v)) <= l_length l - 5/2 ->
    controlled_act g draw v a = Ok v' -> v_target_lane v' = v_target_lane v).
  { intros g draw v a l v' N1 N2 G BE E. unfold controlled_act in E.
    assert (F1 : follow_road g draw v = Ok v)
      by (unfold follow_road; rewrite G; cbn [bind]; unfold after_end, LANE_VEHICLE_LENGTH; rewrite Rltb_ge by lra; reflexivity).
    rewrite F1 in E. cbn [bind] in E. apply bind_ok in E as (v2 & E2 & E3). apply low_level_ok in E3 as (_ & _ & _ & TL & _). rewrite TL.
    destruct a as [[]|]; try easy; cbn in E2; injection E2 as <-; reflexivity. }
  intros act g draw v a l v' [-> | ->] N1 N2 G BE E; [now apply (Q g draw v a l)|].
  destruct a as [[]|]; try easy; cbn [mdp_act] in E.
  - now apply (Q g draw v (Some IDLE) l).
  - apply (Q g draw _ None l v') in E; try easy.
  - apply (Q g draw _ None l v') in E; try easy.
  - now apply (Q g draw v None l).
Qed.
Print Assumptions C29_other_actions_keep_lane.

(** ** C30: speed levels *)
Theorem C30_index_in_range : forall g record dt v acts tr,
  (1 <= sg_count (v_grid v))%Z ->
  (0 <= v_speed_index v <= sg_count (v_grid v) - 1)%Z -> v_target_speed v = index_to_speed (v_grid v) (v_speed_index v) ->
  performs mdp_act g record dt v acts tr ->
  forall w, In w tr -> v_grid w = v_grid v /\ (0 <= v_speed_index w <= sg_count (v_grid v) - 1)%Z /\
    v_target_speed w = index_to_speed (v_grid v) (v_speed_index w).
Proof.
  intros g rec dt v acts tr H K T P. assert (G : grid_ok v) by (split; assumption). clear K T. revert H G.
  induction P as [|v a acts draw v1 v2 tr D A S P IH]; intros H G w Hw; [easy|].
  pose proof (mdp_act_grid g draw v a v1 H G A) as ([K1 T1] & G1).
  apply step_fields in S. cbv zeta in S. destruct S as (_ & _ & _ & _ & _ & _ & _ & _ & T2 & _ & K2 & G2 & _).
  rewrite <- K2, <- T2, <- G2 in *. rewrite <- G1 in H |- *. destruct Hw as [<-|Hw]; [tauto|].
  apply IH; [exact H | split; assumption | exact Hw].
Qed.
Print Assumptions C30_index_in_range.
(** The constructor establishes it. *)
Theorem C30_constructor : forall g sg id p h s tl ts rt v, (1 <= sg_count sg)%Z -> new_mdp g sg id p h s tl ts rt = Ok v ->
  v_grid v = sg /\ (0 <= v_speed_index v <= sg_count sg - 1)%Z /\ v_target_speed v = index_to_speed sg (v_speed_index v).
Proof.
  intros g sg id p h s tl ts rt v H E. unfold new_mdp in E. apply bind_ok in E as (u & _ & E). injection E as <-. cbn.
  split; [reflexivity|]. split; [now apply speed_to_index_range | reflexivity].
Qed.
Print Assumptions C30_constructor.
Theorem C30_roundtrip : forall sg k, (2 <= sg_count sg)%Z -> sg_min sg < sg_max sg -> (0 <= k < sg_count sg)%Z ->
  speed_to_index sg (index_to_speed sg k) = k.
Proof. intros sg k H M K. apply index_speed_index; [exact H | exact M | lia]. Qed.
Print Assumptions C30_roundtrip.
Theorem C30_nearest_level : forall sg s, (1 <= sg_count sg)%Z -> sg_min sg < sg_max sg ->
  (0 <= speed_to_index sg s < sg_count sg)%Z /\
  forall j, (0 <= j < sg_count sg)%Z -> Rabs (s - index_to_speed sg (speed_to_index sg s)) <= Rabs (s - index_to_speed sg j).
Proof.
  intros sg s H M. split; [pose proof (speed_to_index_range sg s H); lia|]. intros j J. apply speed_to_index_nearest; [exact H | exact M | lia].
Qed.
Print Assumptions C30_nearest_level.
(** The grid is the arithmetic progression from SPEED_MIN to SPEED_MAX. *)
Theorem C30_levels : forall sg, (2 <= sg_count sg)%Z ->
  index_to_speed sg 0 = sg_min sg /\ index_to_speed sg (sg_count sg - 1) = sg_max sg /\
  forall k, index_to_speed sg (k + 1) - index_to_speed sg k = (sg_max sg - sg_min sg) / IZR (sg_count sg - 1).
Proof.
  intros sg H. assert (0 < IZR (sg_count sg - 1)) by (apply IZR_lt; lia).
  split; [rewrite index_to_speed_nat by easy; unfold Rdiv; ring|].
  split; [rewrite index_to_speed_nat by easy; field; lra|].
  intros k. rewrite !index_to_speed_nat, plus_IZR by easy. ring.
Qed.
Print Assumptions C30_levels.
(** FASTER / SLOWER are relative to the level nearest to the actual speed, not to
    the current target level. *)
Theorem C30_faster_from_actual_speed : forall g draw v v', (1 <= sg_count (v_grid v))%Z ->
  mdp_act g draw v (Some FASTER) = Ok v' ->
  v_speed_index v' = Z.min (speed_to_index (v_grid v) (v_speed v) + 1) (sg_count (v_grid v) - 1) /\
  v_target_speed v' = index_to_speed (v_grid v) (v_speed_index v').
Proof.
  intros g draw v v' H E. apply mdp_act_ok in E as (_ & M & _). cbv zeta in M. destruct M as [M1 M2].
  pose proof (speed_to_index_range (v_grid v) (v_speed v) H) as R. rewrite M2, M1. split; [|reflexivity]. unfold Zclip. lia.
Qed.
Print Assumptions C30_faster_from_actual_speed.
Theorem C30_slower_from_actual_speed : forall g draw v v', (1 <= sg_count (v_grid v))%Z ->
  mdp_act g draw v (Some SLOWER) = Ok v' ->
  v_speed_index v' = Z.max (speed_to_index (v_grid v) (v_speed v) - 1) 0 /\
  v_target_speed v' = index_to_speed (v_grid v) (v_speed_index v').
Proof.
  intros g draw v v' H E. apply mdp_act_ok in E as (_ & M & _). cbv zeta in M. destruct M as [M1 M2].
  pose proof (speed_to_index_range (v_grid v) (v_speed v) H) as R. rewrite M2, M1. split; [|reflexivity]. unfold Zclip. lia.
Qed.
Print Assumptions C30_slower_from_actual_speed.
(** The default grid: 20, 25, 30 m/s; 27 m/s is nearest to level 1. *)
Example C30_nonvacuous : index_to_speed grid_default 1 = 25 /\ speed_to_index grid_default 27 = 1%Z.
Proof.
  split; [rewrite index_to_speed_nat by (cbn; lia); cbn; field|]. unfold speed_to_index, grid_default. cbn [sg_min sg_max sg_count].
  replace ((27 - 20) / (30 - 20) * IZR (3 - 1)) with (14/10) by (cbn; field).
  assert (Rround_even (14/10) = 1)%Z as ->.
  { unfold Rround_even. assert (Rfloor (14/10) = 1)%Z as -> by (apply Rfloor_unique; lra). rewrite Rltb_lt by lra. reflexivity. }
  reflexivity.
Qed.

(** ** C32: planned routes *)
Theorem C32_planned_route : forall g ord v d, built g -> set_order ord -> lane_exists g (v_lane_index v) ->
  exists v' rt, plan_route_to g ord v d = Ok v' /\ v' = set_route v (Some rt) /\
    hd_error rt = Some (v_lane_index v) /\ chain rt /\ on_network g rt /\
    ((exists q, simple_path g (li_to (v_lane_index v)) d q) ->
       li_to (last rt (v_lane_index v)) = d /\
       forall q, walk_from_to g (li_to (v_lane_index v)) d q -> (List.length rt <= List.length q)%nat) /\
    ((~ exists q, simple_path g (li_to (v_lane_index v)) d q) -> rt = [v_lane_index v]).
Proof.
  intros g ord v d B O X. destruct (shortest_path_spec g ord (li_to (v_lane_index v)) d (wf_built _ B) O) as (p & E & N & S).
  assert (Xe : edge g (li_from (v_lane_index v)) (li_to (v_lane_index v))) by (destruct X as (k & l & _ & HL); exists k, l; exact HL).
  unfold plan_route_to. rewrite E. destruct p as [|n path].
  - eexists _, [v_lane_index v]. split; [reflexivity|]. split; [reflexivity|]. split; [reflexivity|]. split; [exact I|].
    split; [constructor; [exact Xe | constructor]|]. split; [|reflexivity]. intros Q. exfalso. now apply (proj1 N eq_refl).
  - destruct (S ltac:(discriminate)) as (SP & Min). destruct SP as ((Wk & (q & Eq & Nq) & L) & ND). injection Eq as -> <-.
    destruct path as [|b path]; [easy|].
    eexists _, (v_lane_index v :: path_route (li_to (v_lane_index v) :: b :: path)). split; [reflexivity|]. split; [reflexivity|].
    split; [reflexivity|]. split; [split; [reflexivity | apply path_route_chain]|].
    split; [constructor; [exact Xe | now apply path_route_edges]|]. split.
    + intros _. split.
      * destruct (path_route_last path (li_to (v_lane_index v)) b) as [Nn Hl].
        change (last (v_lane_index v :: ?r) ?d) with (last r d). 
        destruct (path_route (li_to (v_lane_index v) :: b :: path)) eqn:Ep; [easy|]. cbn [last] in *. rewrite Hl. exact L.
      * intros q Hq. specialize (Min q Hq). etransitivity; [|exact Min]. cbn [List.length]. 
        apply le_n_S. clear. revert b. generalize (li_to (v_lane_index v)) as a. induction path as [|c path IH]; intros a b; [cbn; lia|].
        change (path_route (a :: b :: c :: path)) with ((a, b, None) :: path_route (b :: c :: path)). cbn [List.length]. apply le_n_S. apply IH.
    + intros Q. exfalso. apply Q. exists (li_to (v_lane_index v) :: b :: path). split; [|exact ND]. split; [exact Wk|]. split; [|exact L].
      exists (b :: path). easy.
Qed.
Print Assumptions C32_planned_route.
(** Planned roads carry no lane id, so asking for the destination of a vehicle
    whose planned route ends on a road with several lanes raises TypeError. *)
Theorem C32_destination_multilane_raises : forall g ord v d v' x y ls, built g -> set_order ord ->
  lane_exists g (v_lane_index v) -> plan_route_to g ord v d = Ok v' ->
  (exists q, simple_path g (li_to (v_lane_index v)) d q) ->
  forall rt, v_route v' = Some rt -> last rt (v_lane_index v) = (x, y, None) -> g_lanes g x y = Ok ls ->
  (destination g v' = Err TypeError <-> List.length ls <> 1%nat).
Proof.
  intros g ord v d v' x y ls B O X E Q rt R L G. unfold destination. rewrite R.
  assert (Nr : rt <> []).
  { intros ->. destruct (C32_planned_route g ord v d B O X) as (w & rt & E2 & -> & H & _). rewrite E2 in E. injection E as <-.
    cbn in R. injection R as ->. easy. }
  destruct rt as [|r0 rt]; [easy|]. rewrite (last_default _ _ (v_lane_index v)) by easy. rewrite L.
  rewrite get_lane_none, G. destruct ls as [|l [|l2 ls]]; cbn; split; congruence || lia || auto.
Qed.
Print Assumptions C32_destination_multilane_raises.
Example C28_nonvacuous : exists tr, let v := demo_controlled KControlled (0, 4) 20 25 1 in
  performs controlled_act demo_net false (1/15) v [None; Some IDLE; None] tr /\
  exists l, get_lane demo_net (v_target_lane v) = Ok l /\ snd (l_local l (v_pos v)) = 0 /\ fst (l_local l (v_pos v)) = 0 /\ l_length l = 1000.
Proof.
  destruct (performs_total controlled_act demo_net false (1/15) [None; Some IDLE; None]
    (wf_built _ demo_built) ltac:(discriminate) (fun d v a => controlled_act_total demo_net d v a (wf_built _ demo_built))
    (demo_controlled KControlled (0, 4) 20 25 1) (demo_targets KControlled (0, 4) 20 25 1 ltac:(lia))) as [tr P].
  exists tr. cbv zeta. split; [exact P|]. exists (straight_network_lane 3 1 1000 0).
  split; [exact (get_lane_nat _ _ _ _ _ (demo_lane 1 ltac:(lia)))|].
  assert (L : l_length (straight_network_lane 3 1 1000 0) = 1000).
  { unfold l_length, straight_network_lane, geom_length, l_geom, vnorm, vsub, vrot, DEFAULT_WIDTH. cbn [fst snd INR]. rewrite Ropp_0, cos_0, sin_0.
    match goal with |- sqrt ?x = _ => replace x with (1000 * 1000) by ring end. apply sqrt_sq. lra. }
  assert (Q : forall A B C : Prop, (C -> A /\ B) -> C -> A /\ B /\ C) by tauto. apply Q; [|exact L]. intros _. unfold l_local, straight_network_lane in L |- *. cbn [l_geom geom_local v_pos demo_controlled]. unfold l_length in L. cbn [l_geom geom_length] in L.
  unfold straight_local, straight_lat, straight_dir. rewrite L. unfold vdot, vscal, vsub, vrot, DEFAULT_WIDTH. cbn [fst snd INR].
  rewrite Ropp_0, cos_0, sin_0. split; field.
Qed.
(** On the demo road a vehicle on lane 1 can go to both sides. *)
Example C29_nonvacuous : forall k, (k < 3)%nat -> lane_exists demo_net ("0", "1", Some (Z.of_nat k))%string /\ built demo_net.
Proof. intros k H. split; [apply (demo_targets KMDP (0,0) 0 0 k H) | exact demo_built]. Qed.
Example C32_nonvacuous : lane_exists diamond ("a", "b", Some 0%Z)%string /\
  exists q, simple_path diamond "b" "c" q.
Proof.
  split; [exact (proj1 C15_nonvacuous)|].
  destruct (C13_shortest_path diamond (fun _ l => l) "b" "c" (ex_intro _ _ eq_refl) (fun _ l => Permutation.Permutation_refl l)) as (p & E & _ & S).
  exists p. apply S. intros ->. assert (X : shortest_path diamond (fun _ l => l) "b" "c" = Ok ["b"; "d"; "a"; "c"]%string) by (vm_compute; reflexivity).
  congruence.
Qed.

(** ** C60: copies of controlled vehicles *)
(** [create_from] copies pose, speed, target lane and route; the target speed is
    copied unless it is zero, in which case the copy targets its current speed. *)
Theorem C60_create_from : forall g id v w, controlled_create_from g id v = Ok w ->
  v_pos w = v_pos v /\ v_heading w = v_heading v /\ v_speed w = v_speed v /\
  v_target_lane w = v_target_lane v /\ v_route w = v_route v /\ v_crashed w = false /\
  (v_target_speed v <> 0 -> v_target_speed w = v_target_speed v) /\
  (v_target_speed v = 0 -> v_target_speed w = v_speed v).
Proof.
  intros g id v w E. unfold controlled_create_from, new_controlled in E. apply bind_ok in E as (u & _ & E). injection E as <-. cbn [v_pos v_heading v_speed v_target_lane v_route v_crashed v_target_speed].
  unfold float_or. do 6 (split; [reflexivity|]). split; intros H.
  - apply Reqb_false in H. now rewrite H.
  - apply Reqb_true in H. now rewrite H.
Qed.
Print Assumptions C60_create_from.
(** So the copy of a moving vehicle that was braking to a stop keeps driving
    instead: its acceleration command is zero. *)
Theorem C60_zero_target_lost : forall g draw id v w w', controlled_create_from g id v = Ok w ->
  v_target_speed v = 0 -> v_speed v <> 0 -> controlled_act g draw w None = Ok w' ->
  v_accel w' = 0 /\ v_target_speed w' <> v_target_speed v.
Proof.
  intros g draw id v w w' E T S A. apply C60_create_from in E as (_ & _ & V & _ & _ & _ & _ & Z). specialize (Z T).
  apply controlled_act_ok in A as (_ & _ & T' & Ac & _). rewrite T' in *. rewrite Z, V in *. split; [rewrite Ac; field | congruence].
Qed.
Print Assumptions C60_zero_target_lost.
Example C60_nonvacuous : exists w, controlled_create_from demo_net 7 (demo_controlled KControlled (0, 4) 20 0 1) = Ok w /\ v_target_speed w = 20.
Proof.
  destruct (closest_total demo_net (0, 4) (Some 0) (wf_built _ demo_built) ltac:(discriminate)) as [i Hi].
  assert (E : exists w, controlled_create_from demo_net 7 (demo_controlled KControlled (0, 4) 20 0 1) = Ok w).
  { unfold controlled_create_from, new_controlled, new_vehicle. cbn [v_pos v_heading demo_controlled]. rewrite Hi. cbn [bind]. eexists. reflexivity. }
  destruct E as [w E]. exists w. split; [exact E|]. apply C60_create_from in E as (_ & _ & _ & _ & _ & _ & _ & Z). now apply Z.
Qed.

(** ** C61: routes at an intersection *)
(** The routes offered share the current route up to the first of its three first
    roads that ends at a branching node, and then take each of the outgoing roads
    of that node, once. *)
Theorem C61_routes_at_intersection : forall g (rt : route), rt <> [] ->
  (exists a r post d, rt = a ++ r :: post /\ (List.length a < 3)%nat /\ assoc (li_to r) g = Some d /\ (2 <= List.length d)%nat /\
     (forall r', In r' a -> forall d', assoc (li_to r') g = Some d' -> (List.length d' < 2)%nat) /\
     get_routes_at_intersection g (Some rt) = map (fun n => a ++ [r; (li_to r, n, li_id r)]) (keys d)) \/
  ((forall a r post d, rt = a ++ r :: post -> (List.length a < 3)%nat -> assoc (li_to r) g = Some d -> (List.length d < 2)%nat) /\
   get_routes_at_intersection g (Some rt) = [rt]).
Proof.
  intros g rt N. destruct rt as [|r0 rt0]; [easy|]. set (rt := (r0 :: rt0) : route) in *.
  pose proof (find_intersection_spec g 3 [] rt) as H.
  assert (U : get_routes_at_intersection g (Some rt) = match find_intersection g 3 [] rt with
      | None => [rt] | Some (pre, r, dests) => map (fun d => pre ++ [(li_to r, d, li_id r)]) dests end) by reflexivity.
  change (@Some (list lane_index) rt) with (@Some route rt). rewrite U. clear U.
  destruct (find_intersection g 3 [] rt) as [[[p r] ds]|] eqn:E.
  - left. destruct H as (a & post & d & E1 & -> & L & A & -> & L2 & F). exists a, r, post, d.
    split; [exact E1|]. split; [exact L|]. split; [exact A|]. split; [unfold keys in L2; now rewrite map_length in L2|]. split; [exact F|].
    apply map_ext. intros n. cbn [app]. rewrite <- app_assoc. reflexivity.
  - right. split; [|reflexivity]. intros a r post d E1 L A. exact (H a r post E1 L d A).
Qed.
Print Assumptions C61_routes_at_intersection.
(** Any choice (any integer) is accepted and keeps a connected, on-network route. *)
Theorem C61_choice_is_valid : forall g v (to : Z) (rt : route), built g -> v_route v = Some rt -> rt <> [] -> chain rt -> on_network g rt ->
  exists rt', set_route_at_intersection g v to = set_route v (Some rt') /\ rt' <> [] /\ chain rt' /\ on_network g rt' /\
    hd_error rt' = hd_error rt.
Proof.
  intros g v to rt B R N C O. unfold set_route_at_intersection. rewrite R.
  assert (Q : get_routes_at_intersection g (Some rt) <> [] /\ forall rt', In rt' (get_routes_at_intersection g (Some rt)) ->
     rt' <> [] /\ chain rt' /\ on_network g rt' /\ hd_error rt' = hd_error rt).
  { destruct (C61_routes_at_intersection g rt N) as [(a & r & post & d & E & L & A & L2 & _ & ->) | (_ & ->)].
    - split; [destruct d; [cbn in L2; lia | easy]|]. intros rt' Hin. apply in_map_iff in Hin as (n & <- & Hn). subst rt.
      split; [destruct a; easy|]. split; [apply chain_snoc; [now apply chain_app in C | reflexivity]|]. split.
      + unfold on_network in *. apply Forall_app in O as [O1 O2]. inversion O2; subst. apply Forall_app. split; [exact O1|].
        constructor; [assumption|]. constructor; [|constructor]. cbn. now apply (assoc_edge g _ d n (wf_built _ B) A).
      + destruct a; reflexivity.
    - split; [easy|]. intros rt' [<-|[]]. tauto. }
  destruct Q as [Q1 Q2]. destruct (get_routes_at_intersection g (Some rt)) as [|r0 rs] eqn:E; [easy|].
  eexists. split; [reflexivity|]. apply Q2. apply nth_In.
  pose proof (Z.mod_pos_bound to (Z.of_nat (List.length (r0 :: rs))) ltac:(cbn [List.length]; lia)). lia.
Qed.
Print Assumptions C61_choice_is_valid.
Example C61_nonvacuous : get_routes_at_intersection diamond (Some [("d", "a", Some 0%Z)]%string) =
  [[("d", "a", Some 0%Z); ("a", "b", Some 0%Z)]; [("d", "a", Some 0%Z); ("a", "c", Some 0%Z)]; [("d", "a", Some 0%Z); ("a", "d", Some 0%Z)]]%string.
Proof. reflexivity. Qed.

(** ** C62: predictions *)
(** Without a route the constant-speed prediction slides along the centre line of
    the current lane, from the vehicle's longitudinal coordinate. *)
Theorem C62_constant_speed_no_route : forall g v l times, v_route v = None -> get_lane g (v_lane_index v) = Ok l ->
  predict_constant_speed g v times =
    Ok (map (fun t => let s := fst (l_local l (v_pos v)) + v_speed v * t in (l_position l s 0, l_heading l s)) times).
Proof.
  intros g v l times R G. unfold predict_constant_speed. rewrite G, R. cbn [bind].
  induction times as [|t times IH]; [reflexivity|]. cbn [mapM map]. rewrite IH. cbn [position_heading_along_route]. rewrite G. reflexivity.
Qed.
Print Assumptions C62_constant_speed_no_route.
(** On a straight lane these are the points the vehicle would actually reach from
    the centre line: consecutive predictions are |v| dt apart, lateral offset 0. *)
Theorem C62_constant_speed_straight : forall g v l times st en out, v_route v = None -> get_lane g (v_lane_index v) = Ok l ->
  l_geom l = GStraight st en -> st <> en -> predict_constant_speed g v times = Ok out ->
  List.length out = List.length times /\
  forall k t q h, nth_error times k = Some t -> nth_error out k = Some (q, h) ->
    l_local l q = (fst (l_local l (v_pos v)) + v_speed v * t, 0) /\ h = straight_heading st en.
Proof.
  intros g v l times st en out R G Gm N E. rewrite (C62_constant_speed_no_route g v l times R G) in E. injection E as <-.
  split; [apply map_length|]. intros k t q h Ht Hq. rewrite nth_error_map, Ht in Hq. cbn in Hq. injection Hq as <- <-.
  unfold l_local, l_position, l_heading. rewrite Gm. cbn [geom_local geom_position geom_heading]. split; [|reflexivity].
  apply straight_local_pos. exact N.
Qed.
Print Assumptions C62_constant_speed_straight.
(** [predict_trajectory] returns one state per elapsed trajectory_timestep. *)
Theorem C62_trajectory_length : forall g draw v actions duration step dt out,
  0 < dt -> dt <= step -> 0 <= duration ->
  predict_trajectory g draw v actions duration step dt = Ok out ->
  Z.of_nat (List.length out) = ((Rfloor (duration / dt) * Z.of_nat (List.length actions)) / Rfloor (step / dt))%Z.
Proof.
  intros g draw v actions du st dt out Hd Hs Hu E. unfold predict_trajectory in E.
  assert (P1 : 1 <= st / dt) by (apply (Rmult_le_reg_r dt); [easy|]; unfold Rdiv; rewrite Rmult_assoc, Rinv_l by lra; lra).
  assert (P2 : 0 <= du / dt) by (apply Rmult_le_pos; [easy | left; now apply Rinv_0_lt_compat]).
  assert (T1 : Rtrunc (st / dt) = Rfloor (st / dt)) by (unfold Rtrunc; rewrite Rleb_le by lra; reflexivity).
  assert (T2 : Rtrunc (du / dt) = Rfloor (du / dt)) by (unfold Rtrunc; rewrite Rleb_le by lra; reflexivity).
  rewrite T1, T2 in E.
  assert (F1 : (1 <= Rfloor (st / dt))%Z).
  { pose proof (Rfloor_bounds (st / dt)) as [_ B]. apply Z.lt_pred_le. apply lt_IZR. rewrite <- Z.sub_1_r, minus_IZR. lra. }
  pose proof (Rfloor_nonneg _ P2) as F2.
  apply predict_actions_count in E; [|lia]. rewrite Nat.div_0_l, Nat.sub_0_r, Nat.add_0_l in E by lia.
  rewrite E, Nat2Z.inj_div, Nat2Z.inj_mul, !Z2Nat.id by lia. reflexivity.
Qed.
Print Assumptions C62_trajectory_length.
Example C62_nonvacuous : exists tr, predict_constant_speed demo_net (demo_controlled KControlled (0, 4) 20 25 1) [0; 1; 2] = Ok tr /\ List.length tr = 3%nat.
Proof.
  rewrite (C62_constant_speed_no_route demo_net _ (straight_network_lane 3 1 1000 0)); [|reflexivity | exact (get_lane_nat _ _ _ _ _ (demo_lane 1 ltac:(lia)))].
  eexists. split; reflexivity.
Qed.
