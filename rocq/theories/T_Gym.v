(** C95, C96, C97: what [reset] and [step] return, over whole episodes. *)
From Verif Require Import Prelude M_Utils M_Lane M_Road M_Vehicle M_Kinematics M_Control M_Behavior M_Regulation M_Action M_Env M_Scenes M_Nets M_Reset M_Ttc M_Obs M_Gym
  S_Geometry S_Road S_Vehicle S_Control S_Behavior S_Regulation S_Env S_Obs S_Ttc S_Reset S_Gym
  P_Base P_Utils P_Lane P_Graph P_Bfs P_Query P_Kin P_Crash P_Control P_Behavior P_Traffic P_Regulation P_Action P_Env P_Scenes P_Lift P_Nets P_Reset P_Ready P_Crossing P_Share P_Ttc P_Obs P_Grid P_Gym P_Move P_Play P_Models
  T_Kin T_Control T_Behavior T_Action T_Env T_Reset T_Rewards T_Obs T_Ttc T_Grid.
From Coq Require Import Lia Lra Permutation.
Open Scope R_scope.

Lemma space_of cf t goal vs obs : Forall2 (fun v ob => exists r, well_observed cf t goal v (ob, r)) vs obs -> forall ob, In ob obs -> in_observation_space (cf_policy cf) t ob.
Proof. intros F ob Hob. destruct (Forall2_In_r _ _ _ F ob Hob) as (v & _ & r & H & _). exact H. Qed.

(** ** C95: the loop *)
(** Every environment can be reset: the class attributes it leaves are usable by the
    next one, and it returns one observation per observer, each in its space. *)
Theorem C95_reset : forall cs cf s t d sh, draws_ok d -> classes_fit cf s -> options_fit cf s d -> cf_policy cf <> 0 -> store_fits s cs -> observation_fits cf s t -> shuffles sh ->
  exists cs' g obs, gym_reset cs cf s t d sh = Ok (cs', g, obs) /\ shared_grid cs' /\ starts (gy_env g) (agents_count s) /\
    List.length obs = observers_count s t /\ forall ob, In ob obs -> in_observation_space (cf_policy cf) t ob.
Proof.
  intros cs cf s t d sh D C O P Sf Fit Sh. destruct (reset_playing cs cf s t d sh D C O P Sf Fit Sh) as (cs' & g & obs & vs & E & Pl & Sg & _ & _ & L & F).
  exists cs', g, obs. split; [exact E|]. split; [exact Sg|]. split; [|split; [exact L | eapply space_of; exact F]].
  destruct (reset_alive cs cf s d D C O) as (cs1 & sc1 & e1 & E1 & _ & St & _). unfold gym_reset in E. rewrite E1 in E. cbn [bind] in E. apply bind_ok in E as (os & _ & E).
  match type of E with Ok (_, ?gg, _) = _ => assert (gg = g) as <- by congruence end. exact St.
Qed.
Print Assumptions C95_reset.

(** Trajectories keep the invariant. *)
Lemma plays_playing cf s t : observation_fits cf s t -> extras_fit s t -> classes_fit cf s ->
  forall g acts trace, gym_plays g acts trace -> forall k, playing cf s t k g -> Forall (in_action_space (cf_action cf) (agents_count s)) acts ->
  playing cf s t (k + List.length trace) (last_gym g trace) /\ List.length trace = List.length acts.
Proof.
  intros Fit Ex Cl g acts trace H. induction H as [g|cs g o d sh a g1 out acts trace Sf Ho D Sh E H IH]; intros k Pl Fa.
  - cbn. rewrite Nat.add_0_r. now split.
  - inversion Fa as [|? ? Fb Fa']; subst. pose proof Pl as Pl0. destruct Pl0 as ((_ & Es & _) & _). rewrite Es in Sf.
    destruct (gym_step_cases cf s t k g cs o d sh a Pl Sf Ho D Sh Fit Ex Cl Fb) as (e1 & _ & _ & _ & _ & _ & Good & Bad).
    destruct (scene_reward cs s t (gy_goal g) e1 a) as [r|x] eqn:Er; [|rewrite (Bad x eq_refl) in E; discriminate]. destruct (Good r eq_refl) as (g2 & out2 & E2 & _ & Pd).
    rewrite E in E2. injection E2 as <- <-. destruct (IH (k + 1)%nat (proj1 Pd) Fa') as [IH1 IH2]. unfold last_gym in *. cbn [map fst List.length]. rewrite last_cons.
    replace (k + S (List.length trace))%nat with (k + 1 + List.length trace)%nat by lia. split; [exact IH1 | now rewrite IH2].
Qed.
(** The rewards of all scenes. *)
Lemma scene_reward_total cf s t cs goal e a sc : s <> STwoWay -> rewards_fit cf s t -> classes_fit cf s -> store_fits s cs -> goal_ready s goal -> ready sc e -> sc_action sc = cf_action cf ->
  rd_net (e_road e) = scene_net s -> all_sound (scene_net s) (e_road e) -> merge_targets s (e_road e) -> in_action_space (cf_action cf) (agents_count s) a ->
  exists r, scene_reward cs s t goal e a = Ok r /\ reward_range s r.
Proof.
  intros Ns Rf Cl Sf Go R Ac N S M Ha. assert (Mo : forall v, In v (rd_vehicles (e_road e)) -> mdp_ok v) by (intros v Hv; apply (S v Hv)).
  destruct (ready_ego _ _ R) as (ev & Ev & _ & Kev & _). rewrite Ac in Kev.
  destruct s as [h| | |n dur|n dur|dur inc|c n m dst prob]; cbn [scene_reward reward_range rewards_fit] in *.
  - destruct Rf as [Hs Hc]. exact (highway_reward_total (hs_cfg h) (hs_lanes h) sc e Hs Hc R N).
  - now elim Ns.
  - destruct Rf as (lo & la & Q). rewrite Q in Ha, Kev. destruct a as [k|x|l]; [|destruct Ha|destruct Ha]. cbn in Ha. destruct (merge_reward_total sc e ev k R Mo M Ev Kev) as [r Er]; [destruct (lo && la); lia|]. exists r. split; [exact Er | exact I].
  - destruct Rf as [Ot Hn]. destruct (Go I) as (o & -> & _). assert (exists vs, observed t e = Ok vs) as [vs ->] by (destruct t; cbn [observed]; [rewrite Ev; cbn [bind]|]; eauto). cbn [bind].
    eexists. split; [reflexivity|]. apply (C73_parking_total o vs false).
  - destruct (Go I) as (o & -> & _). rewrite Ev. cbn [bind]. assert (exists vs, observed t e = Ok vs) as [vs ->] by (destruct t; cbn [observed]; [rewrite Ev; cbn [bind]|]; eauto). cbn [bind].
    eexists. split; [reflexivity|]. destruct (C73_parking_total o vs (v_crashed ev)) as (_ & Q & -> & _). pose proof (pos_INR (List.length vs)). destruct (v_crashed ev); lra.
  - assert (exists b, is_lane_change a = Ok b) as [b ->].
    { unfold is_lane_change, in_action_space in *. destruct (cf_action cf) as [[lo la|ca]|si].
      - destruct a; [now eexists | destruct Ha | destruct Ha].
      - destruct a as [k|x|l]; [destruct Ha | | destruct Ha]. cbn [in_space] in Ha. destruct Ha as [Lx _]. rewrite Rf in Lx. destruct x as [|y [|z x]]; try discriminate Lx. now eexists.
      - destruct a; [destruct Ha | destruct Ha | now eexists]. }
    cbn [bind]. exact (roundabout_reward_total cs sc e _ Sf R Mo).
  - apply (intersection_reward_total c sc e Rf R). rewrite Ac. exact Cl.
Qed.
(** No step raises, whatever the actions, the draws and what other environments of the
    process did to the class attributes (in the two-way environment, see below). *)
Theorem C95_step_total : forall cs cf s t d sh cs' g obs acts trace, draws_ok d -> classes_fit cf s -> options_fit cf s d -> cf_policy cf <> 0 -> store_fits s cs -> observation_fits cf s t -> rewards_fit cf s t -> shuffles sh ->
  s <> STwoWay ->
  gym_reset cs cf s t d sh = Ok (cs', g, obs) -> Forall (in_action_space (cf_action cf) (agents_count s)) acts -> gym_plays g acts trace ->
  forall cs1 o1 d1 sh1 a, store_fits s cs1 -> oracle_ok o1 -> draws_ok d1 -> shuffles sh1 -> in_action_space (cf_action cf) (agents_count s) a ->
  exists g1 out, gym_step cs1 (last_gym g trace) o1 d1 sh1 a = Ok (g1, out).
Proof.
  intros cs cf s t d sh cs' g obs acts trace D C O P Sf Fit Rf Sh Ns Er Fa Pl cs1 o1 d1 sh1 a Sf1 Ho1 D1 Sh1 Ha.
  destruct (reset_playing cs cf s t d sh D C O P Sf Fit Sh) as (cs2 & g2 & obs2 & vs2 & Er2 & P0 & _). rewrite Er in Er2. injection Er2 as <- <- <-.
  pose proof (rewards_extras _ _ _ Rf) as Ex. destruct (plays_playing cf s t Fit Ex C g acts trace Pl 0 P0 Fa) as [Pn _].
  destruct (gym_step_cases cf s t _ _ cs1 o1 d1 sh1 a Pn Sf1 Ho1 D1 Sh1 Fit Ex C Ha) as (e1 & _ & R1 & N1 & S1 & M1 & Good & _).
  pose proof Pn as ((_ & _ & _ & Sn & Go) & _). destruct (scenario_facts cf s (gy_goal (last_gym g trace))) as (Ac & _). rewrite <- Sn in Ac.
  destruct (scene_reward_total cf s t cs1 (gy_goal (last_gym g trace)) e1 a _ Ns Rf C Sf1 Go R1 Ac N1 S1 M1 Ha) as (r & Hr & _).
  destruct (Good r Hr) as (g1 & out & E & _). eauto.
Qed.
Print Assumptions C95_step_total.

(** *** What a step returns *)
Lemma plays_nth cf s t : observation_fits cf s t -> extras_fit s t -> classes_fit cf s ->
  forall g acts trace, gym_plays g acts trace -> forall k, playing cf s t k g -> Forall (in_action_space (cf_action cf) (agents_count s)) acts ->
  forall i g1 out, nth_error trace i = Some (g1, out) ->
  exists cs a, store_fits s cs /\ nth_error acts i = Some a /\ in_action_space (cf_action cf) (agents_count s) a /\ gy_goal g1 = gy_goal g /\
    played cf s t (k + i + 1) cs a (last_gym g (firstn i trace)) g1 out.
Proof.
  intros Fit Ex Cl g acts trace H. induction H as [g|cs g o d sh a g1 out acts trace Sf Ho D Sh E H IH]; intros k Pl Fa i g2 out2 Hi; [destruct i; discriminate|].
  inversion Fa as [|? ? Fb Fa']; subst. pose proof Pl as Pl0. destruct Pl0 as ((_ & Es & _) & _). rewrite Es in Sf.
  destruct (gym_step_cases cf s t k g cs o d sh a Pl Sf Ho D Sh Fit Ex Cl Fb) as (e1 & _ & _ & _ & _ & _ & Good & Bad).
  destruct (scene_reward cs s t (gy_goal g) e1 a) as [r|x] eqn:Er; [|rewrite (Bad x eq_refl) in E; discriminate]. destruct (Good r eq_refl) as (g3 & out3 & E2 & _ & Pd).
  rewrite E in E2. injection E2 as <- <-. destruct i as [|i]; cbn [nth_error] in Hi.
  - injection Hi as <- <-. exists cs, a. split; [exact Sf|]. split; [reflexivity|]. split; [exact Fb|]. split; [apply Pd|]. cbn [firstn]. unfold last_gym. cbn [map last]. now rewrite Nat.add_0_r.
  - destruct (IH (k + 1)%nat (proj1 Pd) Fa' i g2 out2 Hi) as (cs2 & b & Sf2 & Hb & Sb & Gg & Pb). exists cs2, b. split; [exact Sf2|]. split; [exact Hb|]. split; [exact Sb|].
    split; [rewrite Gg; apply Pd|]. replace (k + S i + 1)%nat with (k + 1 + i + 1)%nat by lia. cbn [firstn]. unfold last_gym in *. cbn [map fst]. rewrite last_cons. exact Pb.
Qed.
Lemma played_reward cf s t k cs a g g1 out : rewards_fit cf s t -> classes_fit cf s -> store_fits s cs -> in_action_space (cf_action cf) (agents_count s) a -> played cf s t k cs a g g1 out ->
  reward_range s (ou_reward out).
Proof.
  intros Rf Cl Sf Ha ((Pa & _ & (A & N & S & M) & _) & _ & _ & _ & _ & Er & _ & _). destruct Pa as (_ & _ & _ & Sn & Go).
  assert (R1 : ready (gy_scenario g1) (gy_env g1)) by (destruct s; try exact A; apply A).
  destruct (scenario_facts cf s (gy_goal g1)) as (Ac & _). rewrite <- Sn in Ac.
  assert (Dec : s = STwoWay \/ s <> STwoWay) by (destruct s; [right; discriminate | now left | right; discriminate ..]). destruct Dec as [-> |Ns].
  - assert (Mo : forall v, In v (rd_vehicles (e_road (gy_env g1))) -> mdp_ok v) by (intros v Hv; apply (S v Hv)).
    destruct (ready_ego _ _ R1) as (ev & Ev & _ & Kev & _). rewrite Ac in Kev. destruct Rf as (lo & la & Q). rewrite Q in Kev. cbn [scene_reward] in Er.
    destruct (two_way_reward_cases _ _ _ R1 N Mo Ev Kev) as [(_ & _ & r & Er' & B)|(_ & Er')]; rewrite Er in Er'; [|discriminate Er']. injection Er' as <-. exact B.
  - destruct (scene_reward_total cf s t cs (gy_goal g1) (gy_env g1) a _ Ns Rf Cl Sf Go R1 Ac N S M Ha) as (r & Hr & B). rewrite Er in Hr. injection Hr as <-. exact B.
Qed.
(** A vehicle has reached the goal (see C73). *)
Definition parked (o : object) (v : vehicle) : Prop := pose_distance (v_pos v) (v_heading v) (o_pos o) (o_heading o) < 144/10000.
(** When the [k]-th step ends the episode; [e] is the scene after it. *)
Definition ends (cf : common) (s : scene) (goal : option object) (k : nat) (e : env) : Prop :=
  exists v, ego e = Ok v /\
  match s with
  | SHighway h => v_crashed v = true \/ hw_duration (hs_cfg h) <= INR k \/
      (hw_offroad (hs_cfg h) = true /\ exists l, get_lane (rd_net (e_road e)) (v_lane_index v) = Ok l /\ ~ inside l (v_pos v))
  | STwoWay => v_crashed v = true
  | SMerge => v_crashed v = true \/ 370 < fst (v_pos v)
  | SRoundabout duration _ => v_crashed v = true \/ duration <= INR k
  | SIntersection c _ _ _ _ =>
      (exists w, In w (controlled e) /\ v_crashed w = true) \/ (forall w, In w (controlled e) -> arrived (rd_net (e_road e)) w) \/
      is_duration c * cf_policy cf <= INR k
  | SParking _ duration | SSummon _ duration =>
      duration <= INR k \/ (exists w, In w (controlled e) /\ v_crashed w = true) \/
      exists o, goal = Some o /\ forall w, In w (controlled e) -> parked o w
  end.
(** The cost in [info], where there is one: 1 for a crash, and in the two-way
    environment 1/15 on lane 0. *)
Definition reported_cost (s : scene) (v : vehicle) (c : option R) : Prop :=
  let crash := if v_crashed v then 1 else 0 in
  match s with
  | SHighway _ | SIntersection _ _ _ _ _ => c = Some crash
  | STwoWay => (li_id (v_lane_index v) = Some 0%Z -> c = Some (crash + 1/15)) /\ (li_id (v_lane_index v) <> Some 0%Z -> c = Some crash)
  | _ => c = None
  end.
Lemma success_parked cr goal v : is_success (summon_compute cr (goal_features (v_pos v) (v_heading v) (v_speed v)) (goal_features (o_pos goal) (o_heading goal) (o_speed goal))) = true <->
  cr = false /\ parked goal v.
Proof.
  destruct cr.
  - unfold is_success, summon_compute. rewrite Rltb_true, C73_parking_value. pose proof (sqrt_pos (pose_distance (v_pos v) (v_heading v) (o_pos goal) (o_heading goal))). cbn [b2R]. split; [lra | intros [Q _]; discriminate].
  - unfold summon_compute, parked. cbn [b2R]. rewrite Rmult_0_r, Rplus_0_r, C73_parking_success. tauto.
Qed.
Lemma ends_iff cf s t k g1 b : playing cf s t k g1 -> sc_terminal (gy_scenario g1) (gy_env g1) = Ok b -> (b = true <-> ends cf s (gy_goal g1) k (gy_env g1)).
Proof.
  intros ((_ & _ & _ & Sn & Go) & _ & (A & N & S & M) & (_ & St & _) & _) T. rewrite Sn in T.
  assert (R1 : ready (gy_scenario g1) (gy_env g1)) by (destruct s; try exact A; apply A). destruct (ready_ego _ _ R1) as (v & Ev & Vin & _ & Le).
  assert (K : IZR (e_steps (gy_env g1)) = INR k) by (rewrite St; symmetry; apply INR_IZR_INZ).
  assert (B : b = true <-> sc_terminal (scenario_of cf s (gy_goal g1)) (gy_env g1) = Ok true) by (rewrite T; split; [intros ->; reflexivity | intros Q; congruence]). rewrite B. clear B T.
  assert (X : forall P : vehicle -> Prop, (exists v, ego (gy_env g1) = Ok v /\ P v) <-> P v) by (intros P; split; [intros (w & Q & H); rewrite Ev in Q; injection Q as <-; exact H | eauto]).
  unfold ends. rewrite X. destruct s as [h| | |n dur|n dur|dur inc|c n m dst prob]; cbn [scenario_of].
  - apply get_lane_exists in Le as [l Gl]. cbn [highway_scenario sc_terminal]. rewrite (proj1 (C40_highway (hs_cfg h) _ v l Ev Gl)), K.
    assert (Y : (exists l0, get_lane (rd_net (e_road (gy_env g1))) (v_lane_index v) = Ok l0 /\ ~ inside l0 (v_pos v)) <-> ~ inside l (v_pos v)) by (split; [intros (l0 & Q & H); rewrite Gl in Q; injection Q as <-; exact H | eauto]). rewrite Y. tauto.
  - cbn [two_way_scenario sc_terminal]. rewrite (C40_two_way _ v Ev). split; [intros Q; injection Q as ->; reflexivity | intros ->; reflexivity].
  - cbn [merge_scenario sc_terminal]. apply (C40_merge _ v Ev).
  - destruct (Go I) as (o & -> & _). cbn [parking_scenario sc_terminal]. rewrite (proj1 (C40_parking parking_compute o dur (gy_env g1))), K.
    assert (Y : (exists o0, Some o = Some o0 /\ forall w, In w (controlled (gy_env g1)) -> parked o0 w) <-> forall w, In w (controlled (gy_env g1)) -> parked o w) by (split; [intros (o0 & Q & H); injection Q as <-; exact H | eauto]). rewrite Y.
    assert (W : forall w, - (12 / 100) < parking_compute (goal_features (v_pos w) (v_heading w) (v_speed w)) (goal_features (o_pos o) (o_heading o) (o_speed o)) <-> parked o w).
    { intros w. unfold parked. rewrite <- (C73_parking_success _ _ (v_speed w) _ _ (o_speed o)). unfold is_success. now rewrite Rltb_true. }
    split; (intros [H|[H|H]]; [tauto | tauto | right; right; intros w Hw; apply W, H, Hw]).
  - destruct (Go I) as (o & -> & _). cbn [summon_scenario sc_terminal]. unfold summon_terminal. rewrite Ev. cbn [bind]. rewrite (proj1 (C40_parking (summon_compute (v_crashed v)) o dur (gy_env g1))), K.
    assert (Y : (exists o0, Some o = Some o0 /\ forall w, In w (controlled (gy_env g1)) -> parked o0 w) <-> forall w, In w (controlled (gy_env g1)) -> parked o w) by (split; [intros (o0 & Q & H); injection Q as <-; exact H | eauto]). rewrite Y.
    assert (Vc : In v (controlled (gy_env g1))) by (destruct (ego_first _ _ v R1 Ev) as (ws & ->); now left).
    assert (W : forall w, - (12 / 100) < summon_compute (v_crashed v) (goal_features (v_pos w) (v_heading w) (v_speed w)) (goal_features (o_pos o) (o_heading o) (o_speed o)) <-> v_crashed v = false /\ parked o w).
    { intros w. rewrite <- success_parked. unfold is_success. now rewrite Rltb_true. }
    destruct (v_crashed v) eqn:Cv.
    + split; intros _; right; left; exists v; auto.
    + split; (intros [H|[H|H]]; [tauto | tauto | right; right; intros w Hw; specialize (H w Hw); apply W in H || apply W; tauto]).
  - cbn [roundabout_scenario sc_terminal]. rewrite (proj1 (C40_roundabout dur _ v Ev)), K. tauto.
  - cbn [intersection_scenario sc_terminal]. rewrite (proj1 (C40_intersection c (cf_policy cf) (gy_env g1) (fun w Hw => get_lane_exists _ _ (proj2 (proj2 (proj2 (ready_controlled _ _ R1 w Hw))))))), K. tauto.
Qed.
(** Everything a step returns, over all episodes. *)
Theorem C95_outcomes : forall cs cf s t d sh cs' g obs acts trace, draws_ok d -> classes_fit cf s -> options_fit cf s d -> cf_policy cf <> 0 -> store_fits s cs -> observation_fits cf s t -> rewards_fit cf s t -> shuffles sh ->
  gym_reset cs cf s t d sh = Ok (cs', g, obs) -> Forall (in_action_space (cf_action cf) (agents_count s)) acts -> gym_plays g acts trace ->
  List.length trace = List.length acts /\
  forall i g1 out, nth_error trace i = Some (g1, out) ->
    List.length (ou_obs out) = observers_count s t /\ (forall ob, In ob (ou_obs out) -> in_observation_space (cf_policy cf) t ob) /\
    reward_range s (ou_reward out) /\ (ou_done out = true <-> ends cf s (gy_goal g) (i + 1) (gy_env g1)) /\
    e_steps (gy_env g1) = Z.of_nat (i + 1) /\
    exists v, ego (gy_env g1) = Ok v /\ nf_speed (ou_info out) = v_speed v /\ nf_crashed (ou_info out) = v_crashed v /\
      nth_error acts i = Some (nf_action (ou_info out)) /\ reported_cost s v (nf_cost (ou_info out)).
Proof.
  intros cs cf s t d sh cs' g obs acts trace D C O P Sf Fit Rf Sh Er Fa Pl.
  destruct (reset_playing cs cf s t d sh D C O P Sf Fit Sh) as (cs2 & g2 & obs2 & vs2 & Er2 & P0 & _). rewrite Er in Er2. injection Er2 as <- <- <-.
  pose proof (rewards_extras _ _ _ Rf) as Ex. split; [apply (plays_playing cf s t Fit Ex C g acts trace Pl 0 P0 Fa)|]. intros i g1 out Hi.
  destruct (plays_nth cf s t Fit Ex C g acts trace Pl 0 P0 Fa i g1 out Hi) as (cs1 & a & Sf1 & Ha & Sa & Gg & Pd).
  pose proof (played_reward _ _ _ _ _ _ _ _ _ Rf C Sf1 Sa Pd) as Rr. destruct Pd as (P1 & _ & _ & (vs & _ & F) & Lo & _ & T & v & Ev & Sp & Cr & Ac & Co & _). rewrite Nat.add_0_l in *.
  split; [exact Lo|]. split; [eapply space_of; exact F|]. split; [exact Rr|]. split; [rewrite <- Gg; apply (ends_iff _ _ _ _ _ _ P1 T)|]. split; [apply P1|].
  exists v. split; [exact Ev|]. split; [exact Sp|]. split; [exact Cr|]. split; [rewrite Ac; exact Ha|]. rewrite Co. unfold reported_cost, scene_cost, crash_cost, two_way_cost.
  destruct s; try reflexivity. destruct (li_id (v_lane_index v)) as [z|]; [|split; [discriminate|]; intros _; f_equal; unfold b2R; destruct (v_crashed v); field].
  destruct (Z.eqb_spec z 0) as [-> |Hz]; (split; [intros Q | intros Q]); try (elim Q; reflexivity); try (injection Q as Q; contradiction); f_equal; unfold b2R; destruct (v_crashed v); field.
Qed.
Print Assumptions C95_outcomes.

(** *** Crashes and ends *)
(** Where an episode that ended stays ended, should one go on stepping. *)
Definition ends_for_good (s : scene) : Prop :=
  match s with SHighway h => hw_offroad (hs_cfg h) = false | STwoWay | SRoundabout _ _ => True | _ => False end.
Lemma last_gym_nth trace : forall g j g1 out, nth_error trace j = Some (g1, out) -> last_gym g (firstn (S j) trace) = g1.
Proof.
  induction trace as [|[g0 out0] trace IH]; intros g j g1 out H; [destruct j; discriminate|]. destruct j as [|j]; cbn [nth_error] in H.
  - injection H as <- <-. reflexivity.
  - cbn [firstn]. unfold last_gym. cbn [map fst]. rewrite last_cons. apply (IH g0 j g1 out H).
Qed.
Lemma ego_stays g g1 v : stays_crashed g g1 -> ego (gy_env g) = Ok v -> v_crashed v = true -> exists w, ego (gy_env g1) = Ok w /\ v_crashed w = true.
Proof.
  intros [C H] E Cv. unfold ego in *. rewrite C. destruct (e_controlled (gy_env g)) as [|id ids]; [discriminate|]. destruct (vehicle_by_id (e_road (gy_env g)) id) as [u|] eqn:Q; [|discriminate].
  injection E as ->. destruct (H id v (or_introl eq_refl) Q Cv) as (w & -> & Cw). eauto.
Qed.
Lemma crash_later cf s t : observation_fits cf s t -> extras_fit s t -> classes_fit cf s ->
  forall g acts trace, gym_plays g acts trace -> forall k, playing cf s t k g -> Forall (in_action_space (cf_action cf) (agents_count s)) acts ->
  forall m i g1 out g2 out2 v, nth_error trace i = Some (g1, out) -> nth_error trace (i + m) = Some (g2, out2) ->
  ego (gy_env g1) = Ok v -> v_crashed v = true -> exists w, ego (gy_env g2) = Ok w /\ v_crashed w = true.
Proof.
  intros Fit Ex Cl g acts trace Pl k P0 Fa. induction m as [|m IH]; intros i g1 out g2 out2 v Hi Hj Ev Cv.
  - rewrite Nat.add_0_r, Hi in Hj. injection Hj as <- <-. eauto.
  - assert (L : (i + m < List.length trace)%nat) by (assert ((i + S m < List.length trace)%nat) by (apply nth_error_Some; rewrite Hj; discriminate); lia).
    destruct (nth_error trace (i + m)) as [[g3 out3]|] eqn:H3; [|apply nth_error_Some in L; contradiction].
    destruct (IH i g1 out g3 out3 v Hi H3 Ev Cv) as (u & Eu & Cu). rewrite Nat.add_succ_r in Hj.
    destruct (plays_nth cf s t Fit Ex Cl g acts trace Pl k P0 Fa _ _ _ Hj) as (cs1 & a & _ & _ & _ & _ & Pd). rewrite (last_gym_nth trace g (i + m) g3 out3 H3) in Pd. destruct Pd as (_ & _ & St & _).
    exact (ego_stays _ _ _ St Eu Cu).
Qed.
Theorem C95_crash_stays : forall cs cf s t d sh cs' g obs acts trace, draws_ok d -> classes_fit cf s -> options_fit cf s d -> cf_policy cf <> 0 -> store_fits s cs -> observation_fits cf s t -> rewards_fit cf s t -> shuffles sh ->
  gym_reset cs cf s t d sh = Ok (cs', g, obs) -> Forall (in_action_space (cf_action cf) (agents_count s)) acts -> gym_plays g acts trace ->
  forall i j g1 out g2 out2, (i <= j)%nat -> nth_error trace i = Some (g1, out) -> nth_error trace j = Some (g2, out2) ->
    (nf_crashed (ou_info out) = true -> nf_crashed (ou_info out2) = true /\ ou_done out2 = true) /\
    (ends_for_good s -> ou_done out = true -> ou_done out2 = true).
Proof.
  intros cs cf s t d sh cs' g obs acts trace D C O P Sf Fit Rf Sh Er Fa Pl i j g1 out g2 out2 Hij Hi Hj.
  destruct (C95_outcomes cs cf s t d sh cs' g obs acts trace D C O P Sf Fit Rf Sh Er Fa Pl) as [_ All].
  destruct (All i g1 out Hi) as (_ & _ & _ & D1 & _ & v & Ev & _ & Cv & _). destruct (All j g2 out2 Hj) as (_ & _ & _ & D2 & _ & w & Ew & _ & Cw & _).
  destruct (reset_playing cs cf s t d sh D C O P Sf Fit Sh) as (cs2 & g3 & obs2 & vs2 & Er2 & P0 & _). rewrite Er in Er2. injection Er2 as <- <- <-.
  pose proof (rewards_extras _ _ _ Rf) as Ex. replace j with (i + (j - i))%nat in Hj by lia.
  assert (Cr : v_crashed v = true -> v_crashed w = true).
  { intros Q. destruct (crash_later cf s t Fit Ex C g acts trace Pl 0 P0 Fa (j - i) i g1 out g2 out2 v Hi Hj Ev Q) as (w' & Ew' & Cw'). rewrite Ew in Ew'. injection Ew' as <-. exact Cw'. }
  destruct (plays_nth cf s t Fit Ex C g acts trace Pl 0 P0 Fa _ _ _ Hj) as (cs1 & a & _ & _ & _ & _ & (P2 & _)).
  assert (R2 : ready (gy_scenario g2) (gy_env g2)) by (destruct P2 as (_ & _ & (A & _) & _); destruct s; try exact A; apply A).
  destruct (ego_first _ _ w R2 Ew) as (ws & Ws). assert (Wc : In w (controlled (gy_env g2))) by (rewrite Ws; now left).
  assert (End : v_crashed w = true -> ends cf s (gy_goal g) (j + 1) (gy_env g2)).
  { intros Q. exists w. split; [exact Ew|]. destruct s; try (left; exact Q); try exact Q; [right; left; exists w; auto | right; left; exists w; auto | left; exists w; auto]. }
  split.
  - intros Q. rewrite Cv in Q. rewrite Cw. split; [exact (Cr Q)|]. apply D2, End, Cr, Q.
  - intros G Q. apply D1 in Q as (v' & Ev' & Q). rewrite Ev in Ev'. injection Ev' as <-. apply D2.
    assert (Le : INR (i + 1) <= INR (j + 1)) by (apply le_INR; lia).
    destruct s as [h| | |n dur|n dur|dur inc|c n m dst prob]; cbn [ends_for_good] in G; try (exfalso; exact G).
    + destruct Q as [Q|[Q|[Q _]]]; [apply End, Cr, Q | exists w; split; [exact Ew|]; right; left; lra | rewrite G in Q; discriminate].
    + apply End, Cr, Q.
    + destruct Q as [Q|Q]; [apply End, Cr, Q | exists w; split; [exact Ew|]; right; lra].
Qed.
Print Assumptions C95_crash_stays.

(** *** Where steps raise *)
(** The two-way environment divides by the number of side lanes: no step fails as
    long as the ego vehicle is on the road from "a" to "b", and the first step that
    leaves it on the opposite road, which has a single lane, raises. *)
Theorem C95_two_way : forall cs cf t d sh cs' g obs acts trace, let s := STwoWay in
  draws_ok d -> classes_fit cf s -> options_fit cf s d -> cf_policy cf <> 0 -> store_fits s cs -> observation_fits cf s t -> rewards_fit cf s t -> shuffles sh ->
  gym_reset cs cf s t d sh = Ok (cs', g, obs) -> Forall (in_action_space (cf_action cf) (agents_count s)) acts -> gym_plays g acts trace ->
  forall cs1 o1 d1 sh1 a, store_fits s cs1 -> oracle_ok o1 -> draws_ok d1 -> shuffles sh1 -> in_action_space (cf_action cf) (agents_count s) a ->
  exists e1 v, env_step (gy_scenario (last_gym g trace)) o1 (seen_env cs1 cf s (gy_env (last_gym g trace))) a = Ok e1 /\ ego e1 = Ok v /\
    ((li_from (v_lane_index v) = "a"%string /\ li_to (v_lane_index v) = "b"%string /\ exists g1 out, gym_step cs1 (last_gym g trace) o1 d1 sh1 a = Ok (g1, out)) \/
     (v_lane_index v = ("b", "a", Some 0%Z)%string /\ gym_step cs1 (last_gym g trace) o1 d1 sh1 a = Err ZeroDivisionError)).
Proof.
  intros cs cf t d sh cs' g obs acts trace s D C O P Sf Fit Rf Sh Er Fa Pl cs1 o1 d1 sh1 a Sf1 Ho1 D1 Sh1 Ha.
  destruct (reset_playing cs cf s t d sh D C O P Sf Fit Sh) as (cs2 & g2 & obs2 & vs2 & Er2 & P0 & _). rewrite Er in Er2. injection Er2 as <- <- <-.
  pose proof (rewards_extras _ _ _ Rf) as Ex. destruct (plays_playing cf s t Fit Ex C g acts trace Pl 0 P0 Fa) as [Pn _].
  destruct (gym_step_cases cf s t _ _ cs1 o1 d1 sh1 a Pn Sf1 Ho1 D1 Sh1 Fit Ex C Ha) as (e1 & E & R1 & N1 & S1 & _ & Good & Bad).
  pose proof Pn as ((_ & _ & _ & Sn & _) & _). destruct (scenario_facts cf s (gy_goal (last_gym g trace))) as (Ac & _). rewrite <- Sn in Ac.
  assert (Mo : forall v, In v (rd_vehicles (e_road e1)) -> mdp_ok v) by (intros v Hv; apply (S1 v Hv)).
  destruct (ready_ego _ _ R1) as (ev & Ev & _ & Kev & _). rewrite Ac in Kev. destruct Rf as (lo & la & Q). rewrite Q in Kev.
  exists e1, ev. split; [exact E|]. split; [exact Ev|]. unfold s in *. cbn [scene_reward] in Good, Bad.
  destruct (two_way_reward_cases _ _ _ R1 N1 Mo Ev Kev) as [(L1 & L2 & r & Hr & _)|(L1 & Hr)].
  - left. split; [exact L1|]. split; [exact L2|]. destruct (Good r Hr) as (g1 & out & Es & _). eauto.
  - right. split; [exact L1 | exact (Bad _ Hr)].
Qed.
Print Assumptions C95_two_way.
(** The two-way and the merge environments need meta-actions: with continuous ones
    they reset, but the first step raises AttributeError; and so does the roundabout,
    with ValueError, if these have two components. *)
Theorem C95_needs_meta_actions : forall cs cf s t d sh cs' g obs, draws_ok d -> classes_fit cf s -> options_fit cf s d -> cf_policy cf <> 0 -> store_fits s cs -> observation_fits cf s t -> shuffles sh ->
  gym_reset cs cf s t d sh = Ok (cs', g, obs) ->
  forall cs1 o1 d1 sh1 a, store_fits s cs1 -> oracle_ok o1 -> draws_ok d1 -> shuffles sh1 -> in_action_space (cf_action cf) (agents_count s) a ->
  ((s = STwoWay \/ s = SMerge) -> ego_kind cf <> KMDP -> gym_step cs1 g o1 d1 sh1 a = Err AttributeError) /\
  (forall dur inc c, s = SRoundabout dur inc -> cf_action cf = Single (Continuous c) -> ca_lateral c = true -> ca_longitudinal c = true ->
     gym_step cs1 g o1 d1 sh1 a = Err ValueError).
Proof.
  intros cs cf s t d sh cs' g obs D C O P Sf Fit Sh Er cs1 o1 d1 sh1 a Sf1 Ho1 D1 Sh1 Ha.
  destruct (reset_playing cs cf s t d sh D C O P Sf Fit Sh) as (cs2 & g2 & obs2 & vs2 & Er2 & P0 & _). rewrite Er in Er2. injection Er2 as <- <- <-. split.
  - intros Hs Ke. assert (Ex : extras_fit s t) by (destruct Hs as [-> | ->]; exact I).
    destruct (gym_step_cases cf s t _ _ cs1 o1 d1 sh1 a P0 Sf1 Ho1 D1 Sh1 Fit Ex C Ha) as (e1 & E & R1 & N1 & S1 & _ & _ & Bad). apply Bad.
    pose proof P0 as ((_ & _ & _ & Sn & _) & _). destruct (scenario_facts cf s (gy_goal g)) as (Ac & _). rewrite <- Sn in Ac.
    destruct (ready_ego _ _ R1) as (ev & Ev & _ & Kev & Le). rewrite Ac in Kev. change (v_kind ev = ego_kind cf) in Kev. rewrite <- Kev in Ke.
    destruct Hs as [-> | ->]; cbn [scene_reward].
    + unfold two_way_env_reward, two_way_reward. rewrite Ev. cbn [bind]. assert (exists x, all_side_lanes (rd_net (e_road e1)) (v_lane_index ev) = Ok x) as [x ->].
      { destruct Le as (j & l & Ej & Hl). unfold all_side_lanes. apply has_lane_g in Hl as (ls & -> & _). cbn [bind]. eauto. }
      cbn [bind]. destruct (v_kind ev); congruence.
    + unfold merge_env_reward, merge_reward. rewrite Ev. cbn [bind]. destruct Le as (j & l & Ej & _). unfold lane_number. rewrite Ej. cbn [bind]. destruct (v_kind ev); congruence.
  - intros dur inc c -> Hc La Lo.
    destruct (gym_step_cases cf (SRoundabout dur inc) t _ _ cs1 o1 d1 sh1 a P0 Sf1 Ho1 D1 Sh1 Fit I C Ha) as (e1 & _ & _ & _ & _ & _ & _ & Bad). apply Bad.
    cbn [scene_reward]. rewrite Hc in Ha. unfold in_action_space in Ha. destruct a as [k|x|l]; [destruct Ha | | destruct Ha]. cbn [in_space] in Ha. rewrite La, Lo in Ha. cbn [andb] in Ha.
    destruct Ha as [Lx _]. destruct x as [|y [|z x]]; try discriminate Lx. reflexivity.
Qed.
Print Assumptions C95_needs_meta_actions.

(** *** The class attributes other environments leave *)
(** Whatever environments of the package a process runs, they leave class attributes
    with which every environment but the merge can be reset and stepped. *)
Theorem C95_store : forall ops cs' envs, run_ops (classes_default, []) ops = Ok (cs', envs) -> shared_grid cs'.
Proof.
  assert (G : forall ops ps ps', run_ops ps ops = Ok ps' -> shared_grid (fst ps) -> shared_grid (fst ps')).
  { induction ops as [|op ops IH]; intros [cs envs] ps' H Sg; unfold run_ops in H; cbn [foldM] in H; [injection H as <-; exact Sg|].
    apply bind_ok in H as (ps1 & E & H). apply (IH ps1 ps' H). destruct op as [k cf s d|k o d a]; cbn [run_op] in E.
    - apply bind_ok in E as ([[cs1 sc] e] & Er & E). okinj E. cbn [fst]. apply reset_fits in Er as [-> _]. now apply assigned_shared.
    - destruct (lookup_env k envs) as [i|]; [|discriminate]. apply bind_ok in E as (e & _ & E). okinj E. exact Sg. }
  intros ops cs' envs H. apply (G ops _ _ H). left. reflexivity.
Qed.
Print Assumptions C95_store.
(** The default configurations. *)
Definition no_shuffle (k : nat) (l : list (list R)) : list (list R) := l.
Lemma can_play cf s t a : classes_fit cf s -> options_fit cf s some_draws -> cf_policy cf <> 0 -> store_fits s classes_default -> observation_fits cf s t -> rewards_fit cf s t -> s <> STwoWay ->
  in_action_space (cf_action cf) (agents_count s) a ->
  exists cs g obs trace, gym_reset classes_default cf s t some_draws no_shuffle = Ok (cs, g, obs) /\ gym_plays g [a; a] trace.
Proof.
  intros C O P Sf Fit Rf Ns Ha. assert (Sh : shuffles no_shuffle) by (intros k l; apply Permutation_refl).
  destruct (C95_reset classes_default cf s t some_draws no_shuffle some_draws_ok C O P Sf Fit Sh) as (cs & g & obs & E & _).
  destruct (C95_step_total _ _ _ _ _ _ _ _ _ [] [] some_draws_ok C O P Sf Fit Rf Sh Ns E ltac:(constructor) ltac:(constructor) classes_default some_oracle some_draws no_shuffle a Sf some_oracle_ok some_draws_ok Sh Ha) as (g1 & out1 & E1).
  assert (S0 : gy_scene g = s).
  { unfold gym_reset in E. apply bind_ok in E as ([[? ?] ?] & _ & E). apply bind_ok in E as (os & _ & E). apply (f_equal (fun r => match r with Ok (_, x, _) => gy_scene x | Err _ => s end)) in E. cbn in E. now symmetry. }
  assert (S1 : gy_scene g1 = s).
  { unfold gym_step in E1. apply bind_ok in E1 as (e1 & _ & E1). apply bind_ok in E1 as (os & _ & E1). apply bind_ok in E1 as (r & _ & E1). apply bind_ok in E1 as (b & _ & E1). apply bind_ok in E1 as (v & _ & E1). cbn [last_gym map last] in *. unfold last_gym in *. cbn [map last] in *. rewrite S0 in E1.
    destruct s; try (injection E1 as <- _; reflexivity).
    - apply bind_ok in E1 as (su & _ & E1). now injection E1 as <- _.
    - apply bind_ok in E1 as (su & _ & E1). now injection E1 as <- _.
    - apply bind_ok in E1 as (rd & _ & E1). apply bind_ok in E1 as (rd2 & _ & E1). apply bind_ok in E1 as (ag & _ & E1). now injection E1 as <- _. }
  assert (P1 : gym_plays g [a] [(g1, out1)]) by (econstructor; [rewrite S0; exact Sf | exact some_oracle_ok | exact some_draws_ok | exact Sh | exact E1 | constructor]).
  destruct (C95_step_total _ _ _ _ _ _ _ _ _ [a] [(g1, out1)] some_draws_ok C O P Sf Fit Rf Sh Ns E ltac:(repeat constructor; exact Ha) P1 classes_default some_oracle some_draws no_shuffle a Sf some_oracle_ok some_draws_ok Sh Ha) as (g2 & out2 & E2).
  exists cs, g, obs, [(g1, out1); (g2, out2)]. split; [exact E|]. econstructor; [rewrite S0; exact Sf | exact some_oracle_ok | exact some_draws_ok | exact Sh | exact E1|].
  econstructor; [rewrite S1; exact Sf | exact some_oracle_ok | exact some_draws_ok | exact Sh | exact E2 | constructor].
Qed.
Definition listed (names : list string) (x : string) : bool := existsb (String.eqb x) names.
Lemma all_listed names l : forallb (listed names) l = true -> forall x, In x l -> In x names.
Proof. intros H x Hx. rewrite forallb_forall in H. specialize (H x Hx). apply existsb_exists in H as (y & Hy & Q). apply String.eqb_eq in Q. now subst. Qed.
Lemma all_bounded names other l : forallb (fun x => listed names x || listed other x) l = true -> forall x, In x l -> In x names \/ In x other.
Proof.
  intros H x Hx. rewrite forallb_forall in H. specialize (H x Hx). apply orb_prop in H as [H|H]; apply existsb_exists in H as (y & Hy & Q); apply String.eqb_eq in Q; subst; auto.
Qed.
Example C95_nonvacuous :
  (forall cf s a, In (cf, s, a)
     [(meta_common, highway_default_scene, ActInt 1); (meta_common, SMerge, ActInt 2); (meta_common, SRoundabout 11 None, ActInt 3);
      (intersection_common, intersection_default_scene, ActInt 0);
      (continuous_common, SParking 1 100, ActVec [1; -1]); (continuous_common, SSummon 10 100, ActVec [0; 1/2])] ->
   observation_fits cf s (default_observation s) /\ rewards_fit cf s (default_observation s) /\
   exists cs g obs trace, gym_reset classes_default cf s (default_observation s) some_draws no_shuffle = Ok (cs, g, obs) /\ gym_plays g [a; a] trace) /\
  (observation_fits meta_common STwoWay (default_observation STwoWay) /\ rewards_fit meta_common STwoWay (default_observation STwoWay)) /\
  observation_fits meta_common (SIntersection intersection_default 4 10 None (6/10)) agents_observation /\
  observation_fits continuous_common STwoWay highway_observation.
Proof.
  assert (Kd : kin_usable kin_default None).
  { split; [cbn; lia|]. split; [reflexivity|]. split; [reflexivity|]. split; [|split; [|exact I]].
    - apply all_listed. reflexivity.
    - apply all_bounded. reflexivity. }
  assert (Fit : forall cf s a, In (cf, s, a)
     [(meta_common, highway_default_scene, ActInt 1); (meta_common, SMerge, ActInt 2); (meta_common, SRoundabout 11 None, ActInt 3);
      (intersection_common, intersection_default_scene, ActInt 0);
      (continuous_common, SParking 1 100, ActVec [1; -1]); (continuous_common, SSummon 10 100, ActVec [0; 1/2])] ->
     observation_fits cf s (default_observation s) /\ rewards_fit cf s (default_observation s) /\ classes_fit cf s /\ options_fit cf s some_draws /\ cf_policy cf <> 0 /\ s <> STwoWay /\ store_fits s classes_default /\
     in_action_space (cf_action cf) (agents_count s) a).
  { intros cf s a Hin. repeat (destruct Hin as [Q|Hin]; [injection Q as <- <- <-|]); [| | | | | |destruct Hin].
    - split; [exact Kd|]. split; [cbn; split; lra|]. split; [left; reflexivity|]. split; [cbn; repeat split; lia || lra|]. split; [cbn; lra|]. split; [discriminate|]. split; [left; reflexivity|]. cbn; lia.
    - split; [cbn; repeat split; lra|]. split; [cbn; eauto|]. split; [reflexivity|]. split; [exact I|]. split; [cbn; lra|]. split; [discriminate|]. split; [reflexivity|]. cbn; lia.
    - split. { split; [cbn; lia|]. split; [reflexivity|]. split; [reflexivity|]. split; [apply all_listed; reflexivity|]. split; [apply all_bounded; reflexivity|].
        intros name ab Hin. repeat (destruct Hin as [Q|Hin]; [injection Q as <- <-; cbn; lra|]). destruct Hin. }
      split; [exact I|]. split; [left; reflexivity|]. split; [exact I|]. split; [cbn; lra|]. split; [discriminate|]. split; [left; reflexivity|]. cbn; lia.
    - split. { split; [cbn; lia|]. split; [reflexivity|]. split; [reflexivity|]. split; [apply all_listed; reflexivity|]. split; [apply all_bounded; reflexivity|].
        intros name ab Hin. repeat (destruct Hin as [Q|Hin]; [injection Q as <- <-; cbn; lra|]). destruct Hin. }
      split; [cbn; lra|]. split; [reflexivity|]. split; [cbn; split; [lia|]; split; [lia|]; now left|]. split; [cbn; lra|]. split; [discriminate|]. split; [left; reflexivity|]. split; [cbn; lia | now left].
    - split; [cbn; repeat split|]. split; [cbn; split; [reflexivity | now left]|]. split; [exact I|]. split; [cbn; lia|]. split; [cbn; lra|]. split; [discriminate|]. split; [left; reflexivity|].
      cbn. split; [reflexivity|]. repeat constructor; lra.
    - split; [cbn; repeat split|]. split; [reflexivity|]. split; [reflexivity|]. split; [cbn; lia|]. split; [cbn; lra|]. split; [discriminate|]. split; [left; reflexivity|].
      cbn. split; [reflexivity|]. repeat constructor; lra. }
  split; [|split; [|split]].
  - intros cf s a Hin. destruct (Fit cf s a Hin) as (F1 & F2 & F3 & F4 & F5 & F6 & F7 & F8). split; [exact F1|]. split; [exact F2|]. now apply can_play.
  - split; [cbn; repeat split; lra | cbn; eauto].
  - exact Kd.
  - exact Kd.
Qed.

(** ** C96: the agents of the intersection *)
(** The reward of one agent (see C42). *)
Definition agent_raw (c : intersection_config) (g : graph) (v : vehicle) (raw : R) : Prop :=
  (arrived g v -> raw = 1) /\
  (~ arrived g v -> raw = (if v_crashed v then is_collision c else 0) + (if Z.eqb (v_speed_index v) (sg_count (v_grid v) - 1) then 1 else 0)).
Definition agent_rewarded (c : intersection_config) (g : graph) (v : vehicle) (r : R) : Prop :=
  exists raw, agent_raw c g v raw /\ r = if is_normalize c then (raw - is_collision c) / (1 - is_collision c) else raw.
Lemma mapM_pairs {A B} (f : A -> res B) (Q : A -> B -> Prop) l ys : mapM f l = Ok ys -> (forall x y, In x l -> f x = Ok y -> Q x y) -> Forall2 Q l ys.
Proof.
  revert ys. induction l as [|x l IH]; intros ys H G; cbn [mapM] in H; [injection H as <-; constructor|].
  apply bind_ok in H as (y & E & H). apply bind_ok in H as (zs & E2 & H). injection H as <-. constructor; [apply G; [now left | exact E]|]. apply IH; [exact E2|]. intros z w Hz. apply G. now right.
Qed.
(** The lists in [info] have an entry for every controlled vehicle, in order; the
    reward returned is the mean of theirs; the episode is over as soon as an agent
    crashed, and when they are all done. *)
Theorem C96_agents : forall cs cf c n m dst prob t d sh cs' g obs acts trace, let s := SIntersection c n m dst prob in
  draws_ok d -> classes_fit cf s -> options_fit cf s d -> cf_policy cf <> 0 -> store_fits s cs -> observation_fits cf s t -> rewards_fit cf s t -> shuffles sh ->
  gym_reset cs cf s t d sh = Ok (cs', g, obs) -> Forall (in_action_space (cf_action cf) (agents_count s)) acts -> gym_plays g acts trace ->
  forall i g1 out, nth_error trace i = Some (g1, out) ->
  let net := rd_net (e_road (gy_env g1)) in
  exists rs ds, nf_agents (ou_info out) = Some (rs, ds) /\ List.length (controlled (gy_env g1)) = n /\
    Forall2 (agent_rewarded c net) (controlled (gy_env g1)) rs /\
    Forall2 (fun v b => b = true <-> v_crashed v = true \/ is_duration c * cf_policy cf <= INR (i + 1) \/ arrived net v) (controlled (gy_env g1)) ds /\
    ou_reward out = total rs / INR n /\
    ((exists v, In v (controlled (gy_env g1)) /\ v_crashed v = true) -> ou_done out = true) /\
    (Forall (fun b => b = true) ds -> ou_done out = true) /\
    (ou_done out = true -> exists b, In b ds /\ b = true) /\
    (n = 1%nat -> rs = [ou_reward out] /\ ds = [ou_done out]).
Proof.
  intros cs cf c n m dst prob t d sh cs' g obs acts trace s D C O P Sf Fit Rf Sh Er Fa Pl i g1 out Hi net.
  destruct (C95_outcomes cs cf s t d sh cs' g obs acts trace D C O P Sf Fit Rf Sh Er Fa Pl) as [_ All]. destruct (All i g1 out Hi) as (_ & _ & _ & Dn & St & ev & Ev & _). clear All.
  destruct (reset_playing cs cf s t d sh D C O P Sf Fit Sh) as (cs2 & g3 & obs2 & vs2 & Er2 & P0 & _). rewrite Er in Er2. injection Er2 as <- <- <-.
  pose proof (rewards_extras _ _ _ Rf) as Ex. destruct (plays_nth cf s t Fit Ex C g acts trace Pl 0 P0 Fa i g1 out Hi) as (cs1 & a & _ & _ & _ & _ & Pd).
  destruct Pd as (P1 & _ & _ & _ & _ & Hr & _ & v & _ & _ & _ & _ & _ & Xi). destruct Xi as (_ & rs & ds & Ag & Mr & Md). fold net in Mr.
  destruct P1 as ((_ & _ & _ & Sn & _) & _ & ((R1 & _) & _) & (Lc & _ & _) & _).
  destruct (scenario_facts cf s (gy_goal g1)) as (Ac & _). rewrite <- Sn in Ac.
  assert (G : forall w, In w (controlled (gy_env g1)) -> v_kind w = KMDP /\ exists l, get_lane net (v_lane_index w) = Ok l).
  { intros w Hw. destruct (ready_controlled _ _ R1 w Hw) as (_ & _ & Kw & Le). split; [rewrite Kw, Ac; exact C | exact (get_lane_exists _ _ Le)]. }
  assert (Ln : List.length (controlled (gy_env g1)) = n) by (rewrite (controlled_count _ _ R1); exact Lc).
  assert (Fr : Forall2 (agent_rewarded c net) (controlled (gy_env g1)) rs).
  { apply (mapM_pairs _ _ _ _ Mr). intros w y Hw E. destruct (G w Hw) as [Kw [l Gl]]. destruct (C42_agent_reward c net w l Kw Gl Rf) as (raw & Q & _ & E2). exists raw. split; [exact Q | congruence]. }
  assert (K : IZR (e_steps (gy_env g1)) = INR (i + 1)) by (rewrite St; symmetry; apply INR_IZR_INZ).
  assert (Fd : Forall2 (fun v b => b = true <-> v_crashed v = true \/ is_duration c * cf_policy cf <= INR (i + 1) \/ arrived net v) (controlled (gy_env g1)) ds).
  { apply (mapM_pairs _ _ _ _ Md). intros w y Hw E. destruct (G w Hw) as [_ [l Gl]]. unfold agent_terminal in E. fold net in E. rewrite K in E.
    destruct (v_crashed w) eqn:Cw; [injection E as <-; tauto|]. destruct (Rleb _ _) eqn:Q; [apply Rleb_true in Q; injection E as <-; tauto|]. apply Rleb_false in Q.
    destruct (has_arrived_iff net w l Gl) as [Ha _]. rewrite E in Ha. split; [intros ->; tauto | intros [H|[H|H]]; [discriminate | lra | apply Ha in H; congruence]]. }
  assert (Lr : List.length rs = n) by (rewrite <- Ln; clear -Fr; induction Fr; cbn [List.length]; congruence).
  assert (Ld : List.length ds = n) by (rewrite <- Ln; clear -Fd; induction Fd; cbn [List.length]; congruence).
  assert (Fl : forall l a, fold_left Rplus l a = a + total l).
  { induction l as [|x l IH]; intros b; cbn [fold_left]; unfold total in *; cbn [fold_right]; [lra|]. rewrite IH. lra. }
  assert (Rw : ou_reward out = total rs / INR n).
  { unfold s in Hr. cbn [scene_reward] in Hr. unfold intersection_reward in Hr. fold net in Hr. rewrite Mr in Hr. cbn [bind] in Hr. unfold pydiv in Hr. rewrite Lc, Fl, Rplus_0_l in Hr. cbn [agents_count s] in Hr.
    destruct (Reqb (INR n) 0); [discriminate|]. now injection Hr as <-. }
  assert (Crash : (exists w, In w (controlled (gy_env g1)) /\ v_crashed w = true) -> ou_done out = true) by (intros H; apply Dn; exists ev; split; [exact Ev|]; now left).
  assert (Fin : Forall (fun b => b = true) ds -> ou_done out = true).
  { intros H. destruct (existsb v_crashed (controlled (gy_env g1))) eqn:X; [apply existsb_exists in X; now apply Crash|].
    destruct (Rle_dec (is_duration c * cf_policy cf) (INR (i + 1))) as [T|T]; apply Dn; exists ev; (split; [exact Ev|]); [now right; right|]. right. left. intros w Hw.
    destruct (P_Models.forall2_in _ _ _ w Fd Hw) as (b & Hb & Q). rewrite Forall_forall in H. specialize (H b Hb). apply Q in H as [H|[H|H]]; [|lra | exact H].
    assert (existsb v_crashed (controlled (gy_env g1)) = true) by (apply existsb_exists; eauto). congruence. }
  assert (N1 : (0 < n)%nat) by (destruct O; lia).
  assert (Some1 : ou_done out = true -> exists b, In b ds /\ b = true).
  { intros H. apply Dn in H as (ev' & _ & H). destruct (controlled (gy_env g1)) as [|w ws] eqn:Cc; [cbn in Ln; lia|].
    assert (exists u, In u (w :: ws) /\ (v_crashed u = true \/ is_duration c * cf_policy cf <= INR (i + 1) \/ arrived net u)) as (u & Hu & Q).
    { destruct H as [(u & Hu & Cu)|[H|H]]; [exists u; tauto | exists w; split; [now left|]; right; right; apply H; now left | exists w; split; [now left|]; tauto]. }
    destruct (P_Models.forall2_in _ _ _ u Fd Hu) as (b & Hb & Qb). exists b. split; [exact Hb | now apply Qb]. }
  exists rs, ds. split; [exact Ag|]. split; [exact Ln|]. split; [exact Fr|]. split; [exact Fd|]. split; [exact Rw|]. split; [exact Crash|]. split; [exact Fin|]. split; [exact Some1|].
  intros ->. destruct rs as [|r [|r2 rs]]; try discriminate Lr. destruct ds as [|b [|b2 ds]]; try discriminate Ld. split.
  - f_equal. rewrite Rw. unfold total. cbn. field.
  - f_equal. destruct (ou_done out) eqn:Do; [destruct (Some1 eq_refl) as (b' & [<- |[]] & Q); exact Q|]. destruct b; [|reflexivity]. symmetry. apply Fin. repeat constructor.
Qed.
Print Assumptions C96_agents.
Example C96_nonvacuous : exists cs g obs trace, gym_reset classes_default intersection_common intersection_default_scene intersection_observation some_draws no_shuffle = Ok (cs, g, obs) /\ gym_plays g [ActInt 0; ActInt 0] trace.
Proof. apply (proj1 C95_nonvacuous intersection_common intersection_default_scene (ActInt 0)). cbn. tauto. Qed.

(** ** C97: the goal environments *)
Lemma goal_observations cf t o vs obs : observer_of t = KinematicsGoal goal_names goal_scales ->
  Forall2 (fun v ob => exists r, well_observed cf t (Some o) v (ob, r)) vs obs ->
  exists gos, obs = map ObsGoal gos /\ Forall2 (fun v go => go_achieved go = goal_features (v_pos v) (v_heading v) (v_speed v) /\ go_desired go = goal_features (o_pos o) (o_heading o) (o_speed o)) vs gos.
Proof.
  intros Ot F. induction F as [|v ob vs obs (r & _ & _ & H) F IH]; [exists []; split; [reflexivity | constructor]|].
  destruct (H o Ot eq_refl) as (go & Q & A & B). cbn [fst] in Q. destruct IH as (gos & -> & G). exists (go :: gos). split; [now rewrite Q|]. constructor; [split; assumption | exact G].
Qed.
(** The desired goal is the same in every observation of the episode: the position
    and heading of the landmark. *)
Definition landmark_goal (s : scene) (g : gym) (go : goal_obs) : Prop :=
  exists o, gy_goal g = Some o /\ go_desired go = goal_features (o_pos o) (o_heading o) 0.
(** What is returned and what [compute_reward] says agree. *)
Theorem C97_goal_env : forall cs cf s t d sh cs' g obs acts trace, is_goal_scene s ->
  draws_ok d -> classes_fit cf s -> options_fit cf s d -> cf_policy cf <> 0 -> store_fits s cs -> observation_fits cf s t -> rewards_fit cf s t -> shuffles sh ->
  gym_reset cs cf s t d sh = Ok (cs', g, obs) -> Forall (in_action_space (cf_action cf) (agents_count s)) acts -> gym_plays g acts trace ->
  forall i g1 out, nth_error trace i = Some (g1, out) ->
  exists gos rs su, ou_obs out = map ObsGoal gos /\ nf_success (ou_info out) = Some su /\
    List.length gos = observers_count s t /\ Forall (landmark_goal s g) gos /\
    Forall2 (fun go r => gym_compute_reward g1 (go_achieved go) (go_desired go) = Ok r) gos rs /\
    ou_reward out = total rs /\
    Forall2 (fun r b => b = true <-> - (12/100) < r) rs su /\
    (ou_done out = true <-> (match s with SParking _ dur | SSummon _ dur => dur | _ => 0 end) <= INR (i + 1) \/
       (exists v, In v (controlled (gy_env g1)) /\ v_crashed v = true) \/ Forall (fun b => b = true) su).
Proof.
  intros cs cf s t d sh cs' g obs acts trace Gs D C O P Sf Fit Rf Sh Er Fa Pl i g1 out Hi.
  destruct (C95_outcomes cs cf s t d sh cs' g obs acts trace D C O P Sf Fit Rf Sh Er Fa Pl) as [_ All]. destruct (All i g1 out Hi) as (_ & _ & _ & Dn & _ & ev & Ev & _). clear All.
  destruct (reset_playing cs cf s t d sh D C O P Sf Fit Sh) as (cs2 & g3 & obs2 & vs2 & Er2 & P0 & _). rewrite Er in Er2. injection Er2 as <- <- <-.
  pose proof (rewards_extras _ _ _ Rf) as Ex. destruct (plays_nth cf s t Fit Ex C g acts trace Pl 0 P0 Fa i g1 out Hi) as (cs1 & a & _ & _ & _ & Gg & Pd).
  destruct Pd as (P1 & _ & _ & (vs & Ov & F) & Lo & Hr & _ & v & Ev' & _ & _ & _ & _ & Xi). rewrite Ev in Ev'. injection Ev' as <-.
  destruct P0 as ((_ & _ & _ & _ & Go) & _). destruct (Go Gs) as (o & Eo & Zo). rewrite Gg, Eo in *.
  destruct P1 as ((_ & Es & _ & _ & _) & _ & (A & _) & (Lc & _ & _) & _).
  assert (R1 : ready (gy_scenario g1) (gy_env g1)) by (destruct s; try exact A; apply A).
  assert (Ot : observer_of t = KinematicsGoal goal_names goal_scales) by (destruct s; try destruct Gs; apply Rf).
  assert (Oc : vs = controlled (gy_env g1)).
  { destruct t as [ob|ob]; cbn [observed] in Ov; [|now injection Ov]. rewrite Ev in Ov. cbn [bind] in Ov. injection Ov as <-. destruct (ego_first _ _ ev R1 Ev) as (ws & Ws). rewrite Ws.
    assert (L1 : List.length (controlled (gy_env g1)) = 1%nat) by (rewrite (controlled_count _ _ R1), Lc; destruct s; try destruct Gs; [destruct Rf as [_ [-> |Q]]; [reflexivity | discriminate Q] | reflexivity]).
    rewrite Ws in L1. destruct ws; [reflexivity | discriminate L1]. }
  destruct (goal_observations cf t o vs (ou_obs out) Ot F) as (gos & Eg & Fg).
  set (compute := fun go => match s with SSummon _ _ => summon_compute (v_crashed ev) (go_achieved go) (go_desired go) | _ => parking_compute (go_achieved go) (go_desired go) end).
  assert (exists su, nf_success (ou_info out) = Some su /\ su = map (fun go => is_success (compute go)) gos) as (su & Su & Esu).
  { assert (Xs : exists su, nf_success (ou_info out) = Some su /\ mapM (goal_success s (v_crashed ev)) (ou_obs out) = Ok su) by (destruct s; try destruct Gs; destruct Xi as (_ & su & Q & M); eauto).
    destruct Xs as (su & Q & M). exists su. split; [exact Q|]. rewrite Eg in M. clear -M. revert su M. induction gos as [|go gos IH]; intros su M; cbn [map mapM] in M; [now injection M as <-|].
    apply bind_ok in M as (b & E & M). apply bind_ok in M as (bs & E2 & M). injection M as <-. cbn [map]. f_equal; [|now apply IH]. cbn [goal_success] in E. injection E as <-. unfold compute. now destruct s. }
  exists gos, (map compute gos), su. split; [exact Eg|]. split; [exact Su|]. split; [rewrite Eg, map_length in Lo; exact Lo|]. split.
  { apply Forall_forall. intros go Hgo. destruct (Forall2_In_r _ _ _ Fg go Hgo) as (w & _ & _ & Q). exists o. split; [exact Eo|]. rewrite Q, Zo. reflexivity. }
  split.
  { clear -Es Ev Gs. assert (G : forall go, gym_compute_reward g1 (go_achieved go) (go_desired go) = Ok (compute go)).
    { intros go. unfold gym_compute_reward, compute. rewrite Es. destruct s; try destruct Gs; [reflexivity|]. now rewrite Ev. }
    induction gos as [|go gos IH]; cbn [map]; constructor; [apply G | exact IH]. }
  split.
  { assert (Rw : forall cmp, fold_left Rplus (goal_rewards cmp o vs) 0 = total (map (fun go => cmp (go_achieved go) (go_desired go)) gos)).
    { intros cmp. assert (Fl : forall l b, fold_left Rplus l b = b + total l).
      { induction l as [|x l IH]; intros b; cbn [fold_left]; unfold total in *; cbn [fold_right]; [lra|]. rewrite IH. lra. }
      rewrite Fl, Rplus_0_l. f_equal. unfold goal_rewards. clear -Fg. induction Fg as [|w go ws gos [A B] F IH]; cbn [map]; [reflexivity|]. now rewrite A, B, IH. }
    destruct s; try destruct Gs; cbn [scene_reward] in Hr; rewrite ?Ev in Hr; cbn [bind] in Hr; rewrite Ov in Hr; cbn [bind] in Hr; injection Hr as <-; apply Rw. }
  split.
  { rewrite Esu. clear. induction gos as [|go gos IH]; cbn [map]; constructor; [|exact IH]. unfold is_success. apply Rltb_true. }
  assert (Par : Forall (fun b => b = true) su <-> (match s with SSummon _ _ => v_crashed ev = false \/ vs = [] | _ => True end) /\ forall w, In w vs -> parked o w).
  { rewrite Esu. assert (G : forall w go, go_achieved go = goal_features (v_pos w) (v_heading w) (v_speed w) /\ go_desired go = goal_features (o_pos o) (o_heading o) (o_speed o) ->
      (is_success (compute go) = true <-> (match s with SSummon _ _ => v_crashed ev = false | _ => True end) /\ parked o w)).
    { intros w go [Qa Qd]. unfold compute. rewrite Qa, Qd. destruct s; try destruct Gs; [rewrite C73_parking_success; unfold parked; tauto | apply success_parked]. }
    clear -Fg G. induction Fg as [|w go ws gos H Fg IH]; cbn [map].
    - split; [intros _; split; [destruct s; tauto | intros x []] | constructor].
    - rewrite Forall_cons_iff, (G w go H), IH. split.
      + intros [[A B] [C E]]. split; [destruct s; tauto|]. intros x [<- |Hx]; auto.
      + intros [A B]. split; [split; [destruct s; try exact I; destruct A as [A|A]; [exact A | discriminate A] | apply B; now left]|].
        split; [destruct s; try exact I; destruct A as [A|A]; [now left | discriminate A] | intros x Hx; apply B; now right]. }
  rewrite Dn. unfold ends.
  assert (X : forall P : vehicle -> Prop, (exists v, ego (gy_env g1) = Ok v /\ P v) <-> P ev) by (intros P'; split; [intros (w & Q & H); rewrite Ev in Q; injection Q as <-; exact H | eauto]).
  rewrite X, Par, Oc. assert (Y : (exists o0, Some o = Some o0 /\ forall w, In w (controlled (gy_env g1)) -> parked o0 w) <-> forall w, In w (controlled (gy_env g1)) -> parked o w) by (split; [intros (o0 & Q & H); injection Q as <-; exact H | eauto]).
  destruct (ego_first _ _ ev R1 Ev) as (ws & Ws). assert (Ve : In ev (controlled (gy_env g1))) by (rewrite Ws; now left).
  destruct s; try destruct Gs; rewrite Y; [tauto|]. destruct (v_crashed ev) eqn:Ce; [|tauto]. split; intros _; right; left; exists ev; auto.
Qed.
Print Assumptions C97_goal_env.
(** Recomputing rewards, as hindsight relabelling does: in the parking lot it does not
    matter when; in summon the value drops by 5 once the ego vehicle has crashed. *)
Theorem C97_recompute : forall g g1 achieved desired v v1, ego (gy_env g) = Ok v -> ego (gy_env g1) = Ok v1 -> gy_scene g1 = gy_scene g ->
  (forall n dur, gy_scene g = SParking n dur -> gym_compute_reward g1 achieved desired = gym_compute_reward g achieved desired) /\
  (forall n dur, gy_scene g = SSummon n dur -> exists r, gym_compute_reward g achieved desired = Ok (r - if v_crashed v then 5 else 0) /\
     gym_compute_reward g1 achieved desired = Ok (r - if v_crashed v1 then 5 else 0)).
Proof.
  intros g g1 ac de v v1 Ev Ev1 S1. unfold gym_compute_reward. rewrite S1, Ev, Ev1. split; intros n dur Q; rewrite Q; [reflexivity|]. exists (parking_compute ac de). cbn [bind].
  unfold summon_compute. destruct (v_crashed v), (v_crashed v1); cbn [b2R]; split; f_equal; lra.
Qed.
Print Assumptions C97_recompute.
Example C97_nonvacuous : is_goal_scene (SParking 1 100) /\ is_goal_scene (SSummon 10 100) /\
  exists cs g obs trace, gym_reset classes_default continuous_common (SSummon 10 100) parking_observation some_draws no_shuffle = Ok (cs, g, obs) /\ gym_plays g [ActVec [0; 1/2]; ActVec [0; 1/2]] trace.
Proof. split; [exact I|]. split; [exact I|]. apply (proj1 C95_nonvacuous continuous_common (SSummon 10 100) (ActVec [0; 1/2])). cbn. tauto. Qed.
