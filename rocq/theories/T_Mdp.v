(** C116: the finite MDP of an environment. *)
From Coq Require Import Lia Lra.
From Verif Require Import Prelude M_Utils M_Lane M_Road M_Vehicle M_Kinematics M_Control M_Behavior M_Regulation M_Action M_Env M_Scenes M_Nets M_Reset M_Ttc M_Obs M_Gym M_Config M_Mdp
  S_Geometry S_Road S_Vehicle S_Control S_Behavior S_Regulation S_Env S_Obs S_Ttc S_Reset S_Gym S_Config S_Mdp P_Base P_Graph P_Env P_Move P_Scenes P_Behavior P_Ttc P_Gym P_Play T_Env T_Reset T_Ttc T_Gym T_Config.
Open Scope R_scope.
Open Scope string_scope.

(** The situation of the agent at any point of an episode. *)
Lemma present_situation cs g ds d sh st cs' p obs acts trace cs1 : draws_ok d -> shuffles sh ->
  read_settings g (configured g ds) = Ok st -> settings_fit st d -> store_fits (st_scene st) cs ->
  player_reset cs (g, configured g ds) d sh = Ok (cs', p, obs) ->
  Forall (in_action_space (cf_action (st_common st)) (agents_count (st_scene st))) acts -> player_plays (st_scene st) p acts trace ->
  store_fits (st_scene st) cs1 ->
  let q := last_player p trace in
  pl_game q = g /\ pl_config q = configured g ds /\ cf_action (gy_cf (pl_gym q)) = cf_action (st_common st) /\
  get_num (pl_config q) "policy_frequency" = Ok (cf_policy (st_common st)) /\
  exists v, ego (present cs1 q) = Ok v /\ v_kind v = vehicle_class (agent_of (cf_action (st_common st))) /\ mdp_ok v /\
    lane_exists (rd_net (e_road (present cs1 q))) (v_lane_index v) /\
    forall w, In w (rd_vehicles (e_road (present cs1 q))) -> lane_exists (rd_net (e_road (present cs1 q))) (v_lane_index w).
Proof.
  intros D Sh R (Cl & Op & Po & Ob & Rw) Sf Ep Fa Pp Sf1 q.
  destruct (reset_playing cs (st_common st) (st_scene st) (st_observation st) d sh D Cl Op Po Sf Ob Sh) as (cs2 & gy & obs2 & vs & Er & Pl & _).
  unfold player_reset in Ep. cbn [fst snd] in Ep. rewrite R in Ep. cbn [bind] in Ep. rewrite Er in Ep. cbn [bind fst snd] in Ep. injection Ep as <- <- <-.
  pose proof (rewards_extras _ _ _ Rw) as Ex.
  destruct (plays_lifted g (configured g ds) st R Ob Ex Cl _ _ _ Pp 0%nat eq_refl eq_refl Pl Fa) as (Gp & Lg & Lc). cbn [pl_gym] in Gp.
  destruct (plays_playing _ _ _ Ob Ex Cl gy acts _ Gp 0 Pl Fa) as [Pn _].
  pose proof (last_player_gym (Player g (configured g ds) gy) trace) as Lp. cbn [pl_gym] in Lp. fold q in Lp, Lg, Lc. rewrite <- Lp in Pn.
  split; [exact Lg|]. split; [exact Lc|]. pose proof Pn as ((Ecf & Es & _ & Sn & _) & _ & (A & _ & S & _) & _).
  split; [now rewrite Ecf|]. split.
  { destruct (reading_parts _ _ _ R) as [_ Rc]. rewrite Lc. unfold read_clock in Rc. apply bind_ok in Rc as (sim & _ & Rc). apply bind_ok in Rc as (pol & Hp & Rc). apply bind_ok in Rc as (man & _ & Rc).
    injection Rc as _ <- _. exact Hp. }
  destruct (scenario_facts (st_common st) (st_scene st) (gy_goal (pl_gym q))) as (Ac & _ & _ & Rg). rewrite <- Sn in Ac, Rg.
  unfold present. rewrite Ecf, Es. set (e := gy_env (pl_gym q)) in *. set (sc := gy_scenario (pl_gym q)) in *.
  pose proof (seen_alive cs1 (st_common st) (st_scene st) sc e Rg A) as A'.
  assert (R' : ready sc (seen_env cs1 (st_common st) (st_scene st) e)) by (destruct (st_scene st); try exact A'; apply A').
  assert (Sg : shared_grid cs1) by (destruct (st_scene st); try exact Sf1; left; exact Sf1).
  destruct (ready_ego _ _ R') as (v & Ev & Hv & Kv & Lv). exists v. split; [exact Ev|]. split; [now rewrite Kv, Ac|].
  split; [exact (proj2 (seen_sound _ cs1 (st_common st) (st_scene st) e Sg S v Hv))|]. split; [exact Lv|]. exact (runnable_ready sc _ R').
Qed.
Lemma action_n lo la tb : meta_table lo la = Ok tb -> action_space_n (Single (Discrete lo la)) = Ok (List.length tb).
Proof. intros E. unfold action_space_n. rewrite E. reflexivity. Qed.
Lemma ravel_nat l t h i j : Z.to_nat (ravel (3, Z.of_nat l, Z.of_nat t)%Z (Z.of_nat h) (Z.of_nat i) (Z.of_nat j)) = ((h * l + i) * t + j)%nat.
Proof. unfold ravel. rewrite <- !Nat2Z.inj_mul, <- !Nat2Z.inj_add, <- !Nat2Z.inj_mul, <- !Nat2Z.inj_add. apply Nat2Z.id. Qed.
Lemma trunc_ten pol : 1/10 <= pol -> exists n, Z.to_nat (Rtrunc (10 / (1 / pol))) = n /\ INR n <= 10 * pol < INR n + 1 /\ (0 < n)%nat.
Proof.
  intros H. replace (10 / (1 / pol)) with (10 * pol) by (field; lra). eexists. split; [reflexivity|]. unfold Rtrunc. rewrite (proj2 (Rleb_true 0 _)) by lra.
  destruct (floor_bounds (10 * pol)) as [F1 F2]. assert (0 <= Rfloor (10 * pol))%Z by (apply Rfloor_nonneg; lra).
  assert (0 < Rfloor (10 * pol))%Z by (apply lt_IZR; lra). rewrite INR_IZR_INZ, Z2Nat.id by lia. split; [split; lra | lia].
Qed.

(** ** It exists *)
(** In the highway, the merge and the roundabout, with meta-actions, an entry
    "collision_reward" and at least one decision per ten seconds, the finite MDP can be
    built at every point of every episode.  Its states are the three speed levels, the
    lanes of the agent's road and a column for each decision of the next ten seconds; its
    present state is that of the agent, its actions are those of the environment, and
    rewards are what the environment pays. *)
Theorem C116_built : forall cs g ds d sh st cs' p obs acts trace cs1 pr lo la tb collision, draws_ok d -> shuffles sh ->
  read_settings g (configured g ds) = Ok st -> settings_fit st d -> store_fits (st_scene st) cs ->
  player_reset cs (g, configured g ds) d sh = Ok (cs', p, obs) ->
  Forall (in_action_space (cf_action (st_common st)) (agents_count (st_scene st))) acts -> player_plays (st_scene st) p acts trace ->
  store_fits (st_scene st) cs1 ->
  prices_of g = Some pr -> cf_action (st_common st) = Single (Discrete lo la) -> meta_table lo la = Ok tb ->
  get_num (configured g ds) "collision_reward" = Ok collision -> 1/10 <= cf_policy (st_common st) ->
  exists m v l n i grid, to_finite_mdp cs1 (last_player p trace) = Ok m /\ ego (present cs1 (last_player p trace)) = Ok v /\
    lanes_count (rd_net (e_road (present cs1 (last_player p trace)))) (v_lane_index v) l /\ INR n <= 10 * cf_policy (st_common st) < INR n + 1 /\
    mdp_shape m = (3, Z.of_nat l, Z.of_nat n)%Z /\ li_id (v_lane_index v) = Some i /\
    mdp_state m = (v_speed_index v * (Z.of_nat l * Z.of_nat n) + i * Z.of_nat n)%Z /\
    compute_ttc_grid (e_road (present cs1 (last_player p trace))) v v (1 / cf_policy (st_common st)) 10 = Ok grid /\
    forall h k j, (h < 3)%nat -> (k < l)%nat -> (j < n)%nat ->
      (forall a, (a < List.length tb)%nat -> exists s, transition_entry m h k j a s) /\
      (forall a s, transition_entry m h k j a s -> (a < List.length tb)%nat) /\
      (forall a, (a < 5)%nat -> reward_entry m h k j a
         (collision * cell grid h k j + pr_right pr * (INR k / Rmax (INR l - 1) 1) + pr_fast pr * (INR h / 2) + (if Nat.eqb a 0 || Nat.eqb a 2 then pr_change pr else 0))).
Proof.
  intros cs g ds d sh st cs' p obs acts trace cs1 pr lo la tb collision D Sh R Fit Sf Ep Fa Pp Sf1 Hpr Ha Ht Hc Hp.
  destruct (present_situation _ _ _ _ _ _ _ _ _ _ _ cs1 D Sh R Fit Sf Ep Fa Pp Sf1) as (Pg & Pc & Pa & Pf & v & Ev & Kv & Mv & Lv & Lw). cbv zeta in *.
  set (q := last_player p trace) in *. set (pol := cf_policy (st_common st)) in *. rewrite Ha in Kv. cbn [agent_of vehicle_class] in Kv. destruct (Mv Kv) as [Gc Gi].
  assert (Hq : 0 < 1 / pol) by (unfold Rdiv; rewrite Rmult_1_l; apply Rinv_0_lt_compat; lra).
  assert (Hh : 1 / pol <= 10) by (apply (Rmult_le_reg_r pol); [lra|]; unfold Rdiv; rewrite Rmult_1_l, Rinv_l by lra; lra).
  assert (B : forall rw n, exists m, finite_mdp (e_road (present cs1 q)) v rw n (1 / pol) 10 = Ok m) by (intros rw n; apply C49_built; try assumption; rewrite Gc; lia).
  set (rw := MdpRewards collision (pr_right pr) (pr_fast pr) (pr_change pr)). destruct (B rw (List.length tb)) as [m Em]. destruct (B (MdpRewards 0 0 0 0) 0%nat) as [m0 Em0].
  assert (E : to_finite_mdp cs1 q = Ok m).
  { unfold to_finite_mdp. rewrite Pf. cbn [bind]. rewrite (proj2 (Reqb_false pol 0)) by lra. fold (present cs1 q). rewrite Ev. cbn [bind]. rewrite Em0. cbn [bind]. rewrite Pa, Ha, (action_n _ _ _ Ht). cbn [bind].
    rewrite Pc, Hc. cbn [bind]. rewrite Pg. rewrite <- Em. unfold rw. destruct g; cbn [prices_of] in Hpr; try discriminate Hpr; injection Hpr as <-;
      cbn [attribute right_lane_attribute high_speed_attribute lane_change_attribute bind pr_right pr_fast pr_change]; do 2 f_equal; lra. }
  destruct (C49_tables _ _ _ _ _ _ _ Em) as (grid & vn & l & t & i & Eg & Eshape & Evn & El & Et & Ei & _ & Est & _ & _ & _ & T). rewrite Gc in Evn. cbn in Evn. change (Pos.to_nat 3) with 3%nat in Evn. subst vn.
  destruct (trunc_ten pol Hp) as (n & En & Bn & Pn). rewrite En in Et. subst t.
  exists m, v, l, n, i, grid. split; [exact E|]. split; [exact Ev|]. split; [exact El|]. split; [exact Bn|]. split; [exact Eshape|]. split; [exact Ei|].
  split; [rewrite Est, Eshape; unfold ravel; ring|]. split; [exact Eg|].
  intros h k j Hh3 Hk Hj. specialize (T h k j Hh3 Hk Hj). cbv zeta in T. rewrite Eshape in T. change (Z.of_nat 3) with 3%Z in T. rewrite ravel_nat in T.
  destruct T as ((row & N1 & N2 & N3) & _ & (rrow & M1 & M2 & M3)).
  assert (X : forall (P : Z * Z * Z -> Prop), P (3, Z.of_nat l, Z.of_nat n)%Z -> P (mdp_shape m)) by (intros P; rewrite Eshape; trivial).
  split; [|split].
  - intros a Hlt. eexists. unfold transition_entry. rewrite Eshape, !Nat2Z.id. exists row. split; [exact N1 | exact (N3 a Hlt)].
  - intros a s Q. unfold transition_entry in Q. rewrite Eshape, !Nat2Z.id in Q. destruct Q as (row' & Q1 & Q2). assert (row' = row) as -> by congruence. rewrite <- N2. apply nth_error_Some. congruence.
  - intros a Hlt. unfold reward_entry. rewrite Eshape, !Nat2Z.id. exists rrow. split; [exact M1|]. destruct (M3 a Hlt) as (r & Hr & Er). rewrite Hr. f_equal. rewrite Er. unfold rw. cbn [mr_collision mr_right mr_speed mr_change].
    replace (Rmax (INR 3 - 1) 1) with 2; [reflexivity|]. change (INR 3) with (1 + 1 + 1). rewrite Rmax_left; lra.
Qed.
Print Assumptions C116_built.

(** ** It does not exist *)
(** Whatever the history of the environment: only these three environments have one, with
    meta-actions of a single agent, an entry "collision_reward", and a decision every ten
    seconds. *)
Theorem C116_required : forall cs p m, to_finite_mdp cs p = Ok m ->
  prices_of (pl_game p) <> None /\ (exists x, get_num (pl_config p) "collision_reward" = Ok x) /\
  (exists lo la tb, cf_action (gy_cf (pl_gym p)) = Single (Discrete lo la) /\ meta_table lo la = Ok tb) /\
  (exists pol, get_num (pl_config p) "policy_frequency" = Ok pol /\ 1/10 <= pol) /\
  exists v, ego (present cs p) = Ok v /\ v_kind v = KMDP.
Proof.
  intros cs p m E. unfold to_finite_mdp in E. apply bind_ok in E as (pol & Hp & E). destruct (Reqb pol 0) eqn:Z0; [discriminate E|]. fold (present cs p) in E.
  apply bind_ok in E as (v & Ev & E). apply bind_ok in E as (m0 & _ & E). apply bind_ok in E as (n & Hn & E). apply bind_ok in E as (col & Hc & E).
  apply bind_ok in E as (r1 & H1 & E). apply bind_ok in E as (r2 & H2 & E). apply bind_ok in E as (r3 & H3 & E).
  destruct (C49_tables _ _ _ _ _ _ _ E) as (grid & vn & l & t & i & Eg & _ & _ & _ & Et & _ & (_ & _ & Ht) & _).
  assert (K : v_kind v = KMDP). { unfold compute_ttc_grid in Eg. apply bind_ok in Eg as (ls & _ & Eg). destruct (v_kind v); try discriminate Eg. reflexivity. }
  split; [destruct (pl_game p); try discriminate; discriminate H1|]. split; [eauto|]. split; [|split].
  - destruct (cf_action (gy_cf (pl_gym p))) as [[lo la|c]|s]; try discriminate Hn. cbn [action_space_n] in Hn. apply bind_ok in Hn as (tb & Ht' & _). eauto.
  - exists pol. split; [exact Hp|]. apply Reqb_false in Z0. assert (P : (0 < Rtrunc (10 / (1 / pol)))%Z) by lia. replace (10 / (1 / pol)) with (10 * pol) in P by (field; lra).
    destruct (Rle_lt_dec (1/10) pol) as [|Hlt]; [assumption|]. exfalso. unfold Rtrunc in P. destruct (Rleb 0 (10 * pol)) eqn:Q.
    + destruct (floor_bounds (10 * pol)) as [F _]. assert (1 <= IZR (Rfloor (10 * pol))) by (apply (IZR_le 1); lia). lra.
    + apply Rleb_false in Q. assert (0 <= Rfloor (- (10 * pol)))%Z by (apply Rfloor_nonneg; lra). lia.
  - eauto.
Qed.
Print Assumptions C116_required.
(** Both together: at every point of an episode. *)
Theorem C116_exactly_when : forall cs g ds d sh st cs' p obs acts trace cs1, draws_ok d -> shuffles sh ->
  read_settings g (configured g ds) = Ok st -> settings_fit st d -> store_fits (st_scene st) cs ->
  player_reset cs (g, configured g ds) d sh = Ok (cs', p, obs) ->
  Forall (in_action_space (cf_action (st_common st)) (agents_count (st_scene st))) acts -> player_plays (st_scene st) p acts trace ->
  store_fits (st_scene st) cs1 ->
  (exists m, to_finite_mdp cs1 (last_player p trace) = Ok m) <->
  prices_of g <> None /\ (exists x, get_num (configured g ds) "collision_reward" = Ok x) /\
  (exists lo la tb, cf_action (st_common st) = Single (Discrete lo la) /\ meta_table lo la = Ok tb) /\ 1/10 <= cf_policy (st_common st).
Proof.
  intros cs g ds d sh st cs' p obs acts trace cs1 D Sh R Fit Sf Ep Fa Pp Sf1.
  destruct (present_situation _ _ _ _ _ _ _ _ _ _ _ cs1 D Sh R Fit Sf Ep Fa Pp Sf1) as (Pg & Pc & Pa & Pf & _). cbv zeta in *. split.
  - intros [m E]. destruct (C116_required _ _ _ E) as (A & B & C & (pol & H1 & H2) & _). rewrite Pg in A. rewrite Pc in B. rewrite Pa in C. assert (pol = cf_policy (st_common st)) as -> by congruence. now repeat split.
  - intros (A & (x & B) & (lo & la & tb & C1 & C2) & H). destruct (prices_of g) as [pr|] eqn:Hpr; [|now elim A].
    destruct (C116_built cs g ds d sh st cs' p obs acts trace cs1 pr lo la tb x D Sh R Fit Sf Ep Fa Pp Sf1 Hpr C1 C2 B H) as (m & _ & _ & _ & _ & _ & E & _). now exists m.
Qed.
Print Assumptions C116_exactly_when.
(** With their default options (and any change of the others), the highway has one at every
    point of every episode, and no other environment ever has. *)
Theorem C116_defaults : forall cs g ds d sh cs' p obs acts trace cs1, let st := default_settings g in
  draws_ok d -> shuffles sh -> (g = GAgents -> forall k, (k < 2)%nat -> Rabs (dr_normal d (1000 + k)) <= 5) -> store_fits (st_scene st) cs ->
  (forall k, In k ("collision_reward" :: option_names g) -> never_given ds k) -> Forall is_dict ds ->
  player_reset cs (g, configured g ds) d sh = Ok (cs', p, obs) ->
  Forall (in_action_space (cf_action (st_common st)) (agents_count (st_scene st))) acts -> player_plays (st_scene st) p acts trace ->
  store_fits (st_scene st) cs1 ->
  match refusal g with
  | None => exists m l, to_finite_mdp cs1 (last_player p trace) = Ok m /\ mdp_shape m = (3, l, 10)%Z
  | Some e => to_finite_mdp cs1 (last_player p trace) = Err e
  end.
Proof.
  intros cs g ds d sh cs' p obs acts trace cs1 st D Sh Hn Sf Ng F Ep Fa Pp Sf1.
  assert (Same : forall k, In k ("collision_reward" :: option_names g) -> item (configured g ds) k = item (default_config g) k).
  { intros k Hk. destruct (C106_last_given_wins g ds F) as (_ & _ & L & _). exact (L k (Ng k Hk)). }
  assert (R : read_settings g (configured g ds) = Ok st).
  { transitivity (read_settings g (configured g [])); [|apply C108_default_settings]. apply read_agree. intros k Hk.
    specialize (Same k (or_intror Hk)). unfold item in Same. change (configured g []) with (default_config g). destruct (assoc k (configured g ds)), (assoc k (default_config g)); congruence. }
  pose proof (C108_defaults_fit g d Hn : settings_fit st d) as Fit.
  destruct (present_situation _ _ _ _ _ _ _ _ _ _ _ cs1 D Sh R Fit Sf Ep Fa Pp Sf1) as (Pg & Pc & Pa & Pf & v & Ev & Kv & Mv & Lv & Lw). cbv zeta in *.
  set (q := last_player p trace) in *. assert (Col : get_num (configured g ds) "collision_reward" = get_num (default_config g) "collision_reward") by (unfold get_num; now rewrite (Same _ (or_introl eq_refl))).
  assert (Hpol : 1 <= cf_policy (st_common st)) by (destruct g; cbn; lra). set (pol := cf_policy (st_common st)) in *.
  assert (Hq : 0 < 1 / pol) by (unfold Rdiv; rewrite Rmult_1_l; apply Rinv_0_lt_compat; lra).
  assert (Hh : 1 / pol <= 10) by (apply (Rmult_le_reg_r pol); [lra|]; unfold Rdiv; rewrite Rmult_1_l, Rinv_l by lra; lra).
  assert (B : v_kind v = KMDP -> exists m, finite_mdp (e_road (present cs1 q)) v (MdpRewards 0 0 0 0) 0 (1 / pol) 10 = Ok m).
  { intros K. destruct (Mv K) as [Gc Gi]. apply C49_built; try assumption. rewrite Gc. lia. }
  assert (N : v_kind v <> KMDP -> finite_mdp (e_road (present cs1 q)) v (MdpRewards 0 0 0 0) 0 (1 / pol) 10 = Err AttributeError).
  { intros K. unfold finite_mdp, compute_ttc_grid. destruct (exists_side _ _ Lv) as (ls & k & As & _). rewrite As. cbn [bind]. destruct (v_kind v); try reflexivity. now elim K. }
  destruct g; cbn [refusal].
  1: { destruct (C116_built cs GHighway ds d sh st cs' p obs acts trace cs1 (Prices (10/100) (40/100) 0) true true ACTIONS_ALL (-1) D Sh R Fit Sf Ep Fa Pp Sf1 eq_refl eq_refl eq_refl) as (m & w & l & n & i & gr & E & _ & _ & Bn & Sm & _).
       { rewrite Col. reflexivity. } { unfold st. cbn. lra. }
       exists m, (Z.of_nat l). split; [exact E|]. rewrite Sm. do 2 f_equal. assert (Q : cf_policy (st_common st) = 1) by reflexivity. rewrite Q, INR_IZR_INZ in Bn. 
       assert (Z.of_nat n < 11)%Z by (apply lt_IZR; lra). assert (9 < Z.of_nat n)%Z by (apply lt_IZR; lra). lia. }
  all: unfold to_finite_mdp; rewrite Pf; cbn [bind]; rewrite (proj2 (Reqb_false pol 0)) by lra; fold (present cs1 q); rewrite Ev; cbn [bind].
  all: try (rewrite N by (rewrite Kv; discriminate); reflexivity).
  all: destruct B as [m0 Em0]; [rewrite Kv; reflexivity|]; rewrite Em0; cbn [bind]; rewrite Pa; unfold st at 1; cbn [default_settings st_common cf_action action_space_n meta_table bind]; try reflexivity.
  all: rewrite Pc, Col, Pg; reflexivity.
Qed.
Print Assumptions C116_defaults.

(** ** Its rewards are those of the environment *)
Lemma table_entry cs p m pr v col l n : to_finite_mdp cs p = Ok m -> prices_of (pl_game p) = Some pr -> ego (present cs p) = Ok v -> get_num (pl_config p) "collision_reward" = Ok col ->
  mdp_shape m = (3, Z.of_nat l, Z.of_nat n)%Z ->
  exists grid pol, get_num (pl_config p) "policy_frequency" = Ok pol /\ compute_ttc_grid (e_road (present cs p)) v v (1 / pol) 10 = Ok grid /\ lanes_count (rd_net (e_road (present cs p))) (v_lane_index v) l /\ v_kind v = KMDP /\ sg_count (v_grid v) = 3%Z /\
    forall h k j a, (h < 3)%nat -> (k < l)%nat -> (j < n)%nat -> (a < 5)%nat ->
    reward_entry m h k j a (col * cell grid h k j + pr_right pr * (INR k / Rmax (INR l - 1) 1) + pr_fast pr * (INR h / 2) + (if Nat.eqb a 0 || Nat.eqb a 2 then pr_change pr else 0)).
Proof.
  intros E Hpr Hv Hcol Sh. unfold to_finite_mdp in E. apply bind_ok in E as (pol & Hp & E). destruct (Reqb pol 0) eqn:Z0; [discriminate E|]. fold (present cs p) in E. rewrite Hv in E. cbn [bind] in E.
  apply bind_ok in E as (m0 & _ & E). apply bind_ok in E as (na & Hn & E). rewrite Hcol in E. cbn [bind] in E.
  apply bind_ok in E as (r1 & H1 & E). apply bind_ok in E as (r2 & H2 & E). apply bind_ok in E as (r3 & H3 & E).
  assert (Q : r1 = pr_right pr /\ r2 = pr_fast pr /\ r3 = pr_change pr).
  { destruct (pl_game p); cbn [prices_of] in Hpr; try discriminate Hpr; injection Hpr as <-; cbn in H1, H2, H3; injection H1 as <-; injection H2 as <-; injection H3 as <-; cbn; repeat split; lra. }
  destruct Q as (-> & -> & ->).
  destruct (C49_tables _ _ _ _ _ _ _ E) as (grid & vn & l' & t & i & Eg & Sh' & Evn & El & _ & _ & _ & _ & _ & _ & _ & T). rewrite Sh in Sh'.
  assert (vn = 3%nat /\ l' = l /\ t = n) as (-> & -> & ->) by (injection Sh' as A B C; lia).
  exists grid, pol. split; [exact Hp|]. split; [exact Eg|]. split; [exact El|]. split; [|split; [lia|]].
  - unfold compute_ttc_grid in Eg. apply bind_ok in Eg as (ls & _ & Eg). destruct (v_kind v); try discriminate Eg. reflexivity.
  - intros h k j a Hh Hk Hj Ha. specialize (T h k j Hh Hk Hj). cbv zeta in T. rewrite Sh in T. rewrite ravel_nat in T. destruct T as (_ & _ & (row & M1 & _ & M3)).
    unfold reward_entry. rewrite Sh, !Nat2Z.id. exists row. split; [exact M1|]. destruct (M3 a Ha) as (r & Hr & Er). rewrite Hr. f_equal. rewrite Er. cbn [mr_collision mr_right mr_speed mr_change].
    replace (Rmax (INR 3 - 1) 1) with 2; [reflexivity|]. change (INR 3) with (1 + 1 + 1). rewrite Rmax_left; lra.
Qed.
Lemma half_level h : (h < 3)%nat -> 0 <= INR h / 2 <= 1.
Proof. intros H. pose proof (pos_INR h). assert (INR h <= 2) by (change 2 with (INR 2); apply le_INR; lia). lra. Qed.
(** Highway: in the situation that a state stands for, on the road, what the environment pays is
    the table's reward brought to [0, 1], if the speeds paid for are those of the levels. *)
Theorem C116_highway_pays : forall cs p m v c l n, to_finite_mdp cs p = Ok m -> pl_game p = GHighway -> ego (present cs p) = Ok v ->
  get_num (pl_config p) "collision_reward" = Ok (hw_collision c) -> hw_collision c < 1/2 ->
  hw_speed c = (sg_min (v_grid v), sg_max (v_grid v)) -> sg_min (v_grid v) < sg_max (v_grid v) ->
  mdp_shape m = (3, Z.of_nat l, Z.of_nat n)%Z ->
  exists grid pol, get_num (pl_config p) "policy_frequency" = Ok pol /\ compute_ttc_grid (e_road (present cs p)) v v (1 / pol) 10 = Ok grid /\
    forall h k j a u, (h < 3)%nat -> (k < l)%nat -> (j < n)%nat -> (a < 5)%nat -> stands_for grid v h k j u ->
    on_road (rd_net (e_road (present cs p))) u = Ok true ->
    exists x, reward_entry m h k j a x /\
      highway_reward c (rd_net (e_road (present cs p))) u = Ok ((x - hw_collision c) / (1/2 - hw_collision c)).
Proof.
  intros cs p m v c l n E G Hv Hc Hc2 Hs Hlt Sh. assert (Hpr : prices_of (pl_game p) = Some (Prices (10/100) (40/100) 0)) by (rewrite G; reflexivity).
  destruct (table_entry _ _ _ _ _ _ _ _ E Hpr Hv Hc Sh) as (grid & pol & Hpol & Eg & El & Kv & Gc & T). exists grid, pol. split; [exact Hpol|]. split; [exact Eg|].
  intros h k j a u Hh Hk Hj Ha (Ku & Gu & Iu & Su & Lu & Tu & Cu) On. eexists. split; [exact (T h k j a Hh Hk Hj Ha)|].
  unfold highway_reward. destruct El as (dd & ls & A1 & A2 & A3). unfold all_side_lanes, g_lanes, g_succ. rewrite Lu. change (li_from (li_from (v_lane_index v), li_to (v_lane_index v), Some (Z.of_nat k))) with (li_from (v_lane_index v)). change (li_to (li_from (v_lane_index v), li_to (v_lane_index v), Some (Z.of_nat k))) with (li_to (v_lane_index v)). rewrite A1. cbn [bind]. rewrite A2. cbn [bind].
  rewrite Ku, Tu, Lu. cbn [is_controlled lane_number li_id snd bind]. rewrite Hs, Su. unfold lmap at 1. cbn [fst snd]. rewrite (proj2 (Reqb_false _ 0)) by lra. cbn [bind].
  assert (Cl : Rclip (0 + (sg_min (v_grid v) + INR h / 2 * (sg_max (v_grid v) - sg_min (v_grid v)) - sg_min (v_grid v)) * (1 - 0) / (sg_max (v_grid v) - sg_min (v_grid v))) 0 1 = INR h / 2).
  { replace (0 + _) with (INR h / 2) by (field; lra). destruct (half_level h Hh). unfold Rclip. rewrite Rmax_left, Rmin_left by lra. reflexivity. }
  rewrite Cl. unfold lmap. cbn [fst snd]. unfold HW_HIGH_SPEED, HW_RIGHT_LANE. rewrite (proj2 (Reqb_false _ 0)) by lra. cbn [bind]. rewrite On. cbn [bind negb].
  f_equal. rewrite map_length. unfold zrange. rewrite map_length, seq_length, A3, Cu. cbn [pr_right pr_fast pr_change]. rewrite <- INR_IZR_INZ. unfold b2R.
  assert (0 < Rmax (INR l - 1) 1) by (eapply Rlt_le_trans; [|apply Rmax_r]; lra).
  destruct (Nat.eqb a 0 || Nat.eqb a 2)%bool, (v_crashed u); field; split; lra.
Qed.
Print Assumptions C116_highway_pays.
(** Roundabout: the same, whatever the lane; for a collision reward of -1, which the environment
    pays whatever the option says. *)
Theorem C116_roundabout_pays : forall cs p m v l n, to_finite_mdp cs p = Ok m -> pl_game p = GRoundabout -> ego (present cs p) = Ok v ->
  get_num (pl_config p) "collision_reward" = Ok (-1) -> mdp_shape m = (3, Z.of_nat l, Z.of_nat n)%Z ->
  exists grid pol, get_num (pl_config p) "policy_frequency" = Ok pol /\ compute_ttc_grid (e_road (present cs p)) v v (1 / pol) 10 = Ok grid /\
    forall h k j a u, (h < 3)%nat -> (k < l)%nat -> (j < n)%nat -> (a < 5)%nat -> stands_for grid v h k j u ->
    exists x, reward_entry m h k j a x /\ roundabout_reward (v_grid v) u (Z.of_nat a) = Ok ((x + 105/100) / (125/100)).
Proof.
  intros cs p m v l n E G Hv Hc Sh. assert (Hpr : prices_of (pl_game p) = Some (Prices 0 (20/100) (- (5/100)))) by (rewrite G; reflexivity).
  destruct (table_entry _ _ _ _ _ _ _ _ E Hpr Hv Hc Sh) as (grid & pol & Hpol & Eg & El & Kv & Gc & T). exists grid, pol. split; [exact Hpol|]. split; [exact Eg|].
  intros h k j a u Hh Hk Hj Ha (Ku & Gu & Iu & Su & Lu & Tu & Cu). eexists. split; [exact (T h k j a Hh Hk Hj Ha)|].
  unfold roundabout_reward, get_speed_index. rewrite Ku, Iu, Gc, <- INR_IZR_INZ, Cu. replace (Rmax (3 - 1) 1) with 2 by (rewrite Rmax_left; lra). unfold lmap. cbn [fst snd]. rewrite (proj2 (Reqb_false _ 0)) by lra. f_equal.
  cbn [pr_right pr_fast pr_change]. unfold b2R. assert (0 < Rmax (INR l - 1) 1) by (eapply Rlt_le_trans; [|apply Rmax_r]; lra).
  replace (Z.eqb (Z.of_nat a) 0) with (Nat.eqb a 0) by (destruct a; reflexivity). replace (Z.eqb (Z.of_nat a) 2) with (Nat.eqb a 2) by (destruct a as [|[|[|[|[|a]]]]]; reflexivity || lia).
  destruct (Nat.eqb a 0 || Nat.eqb a 2)%bool, (v_crashed u); field; lra.
Qed.
Print Assumptions C116_roundabout_pays.
(** Merge: the same on the roads of two lanes, when nobody is on the merging lane; where there are
    three lanes, the table pays only half of what the environment pays for lanes to the right. *)
Theorem C116_merge_pays : forall cs p m v l n, to_finite_mdp cs p = Ok m -> pl_game p = GMerge -> ego (present cs p) = Ok v ->
  get_num (pl_config p) "collision_reward" = Ok (-1) -> mdp_shape m = (3, Z.of_nat l, Z.of_nat n)%Z ->
  exists grid pol, get_num (pl_config p) "policy_frequency" = Ok pol /\ compute_ttc_grid (e_road (present cs p)) v v (1 / pol) 10 = Ok grid /\
    forall h k j a u, (h < 3)%nat -> (k < l)%nat -> (j < n)%nat -> (a < 5)%nat -> stands_for grid v h k j u ->
    (forall w, In w (rd_vehicles (e_road (present cs p))) -> is_controlled (v_kind w) = true -> v_lane_index w <> ("b", "c", Some 2%Z)) ->
    exists x, reward_entry m h k j a x /\
      ((l <= 2)%nat -> merge_reward (e_road (present cs p)) u (Z.of_nat a) = Ok ((x + 15/10) / (18/10))) /\
      (l = 3%nat -> merge_reward (e_road (present cs p)) u (Z.of_nat a) = Ok ((x + INR k / 20 + 15/10) / (18/10))).
Proof.
  intros cs p m v l n E G Hv Hc Sh. assert (Hpr : prices_of (pl_game p) = Some (Prices (10/100) (20/100) (- (5/100)))) by (rewrite G; reflexivity).
  destruct (table_entry _ _ _ _ _ _ _ _ E Hpr Hv Hc Sh) as (grid & pol & Hpol & Eg & El & Kv & Gc & T). exists grid, pol. split; [exact Hpol|]. split; [exact Eg|].
  intros h k j a u Hh Hk Hj Ha (Ku & Gu & Iu & Su & Lu & Tu & Cu) No. eexists. split; [exact (T h k j a Hh Hk Hj Ha)|].
  assert (M : forall r0, foldM merging_penalty (rd_vehicles (e_road (present cs p))) r0 = Ok r0).
  { revert No. generalize (rd_vehicles (e_road (present cs p))). intros ws. induction ws as [|w ws IH]; intros No r0; [reflexivity|]. cbn [foldM]. unfold merging_penalty at 1.
    destruct (li_eqb (v_lane_index w) ("b", "c", Some 2%Z)) eqn:Q; cbn [andb].
    - destruct (is_controlled (v_kind w)) eqn:K; [|cbn [bind]; apply IH; intros x Hx; apply No; now right]. exfalso. apply (No w (or_introl eq_refl) K). now apply P_Behavior.li_eqb_iff.
    - cbn [bind]. apply IH. intros x Hx. apply No. now right. }
  assert (Ar : merge_action_reward (Z.of_nat a) = Ok (if Nat.eqb a 0 || Nat.eqb a 2 then - (5/100) else 0)).
  { destruct a as [|[|[|[|[|a]]]]]; try lia; cbn; try reflexivity; f_equal; lra. }
  assert (Rw : merge_reward (e_road (present cs p)) u (Z.of_nat a) =
     Ok ((- (if v_crashed u then 1 else 0) + 1/10 * INR k + 2/10 * INR h / 2 + (if Nat.eqb a 0 || Nat.eqb a 2 then - (5/100) else 0) + 15/10) / (18/10))).
  { unfold merge_reward. rewrite Lu. cbn [lane_number li_id snd bind]. rewrite Ku, Iu, Gu, Gc. unfold pydiv. rewrite (proj2 (Reqb_false _ 0)) by lra. cbn [bind]. rewrite M. cbn [bind]. rewrite Ar. cbn [bind].
    unfold lmap. cbn [fst snd]. rewrite (proj2 (Reqb_false _ 0)) by lra. f_equal. rewrite <- !INR_IZR_INZ. unfold b2R. destruct (v_crashed u); field. }
  rewrite Rw, Cu. cbn [pr_right pr_fast pr_change]. split; intros Hl; f_equal.
  - destruct l as [|[|[|l]]]; try lia.
    + assert (k = 0%nat) as -> by lia. replace (Rmax (INR 1 - 1) 1) with 1 by (cbn; rewrite Rmax_right; lra). destruct (v_crashed u); cbn [INR]; field.
    + replace (Rmax (INR 2 - 1) 1) with 1 by (cbn; rewrite Rmax_left; lra). destruct (v_crashed u); field.
  - subst l. replace (Rmax (INR 3 - 1) 1) with 2 by (cbn; rewrite Rmax_left; lra). destruct (v_crashed u); field.
Qed.
Print Assumptions C116_merge_pays.
(** A state that predicts no collision, or a certain one, stands for situations. *)
Theorem C116_states_stand : forall grid v h k j, v_kind v = KMDP -> cell grid h k j = 0 \/ cell grid h k j = 1 -> exists u, stands_for grid v h k j u.
Proof.
  intros grid v h k j Kv [C|C]; pose (i := (li_from (v_lane_index v), li_to (v_lane_index v), Some (Z.of_nat k)));
    [exists (Vehicle (v_id v) KMDP (v_pos v) (v_heading v) (sg_min (v_grid v) + (INR h / 2) * (sg_max (v_grid v) - sg_min (v_grid v))) i (v_steering v) (v_accel v) false (v_collisions v) (v_history v) i (v_target_speed v)
              (v_route v) (Z.of_nat h) (v_grid v) (v_enable_lane_change v) (v_timer v) (v_par v) (v_is_yielding v) (v_yield_timer v) (v_has_color v))
    |exists (Vehicle (v_id v) KMDP (v_pos v) (v_heading v) (sg_min (v_grid v) + (INR h / 2) * (sg_max (v_grid v) - sg_min (v_grid v))) i (v_steering v) (v_accel v) true (v_collisions v) (v_history v) i (v_target_speed v)
              (v_route v) (Z.of_nat h) (v_grid v) (v_enable_lane_change v) (v_timer v) (v_par v) (v_is_yielding v) (v_yield_timer v) (v_has_color v))];
    repeat split; cbn [v_crashed]; exact C.
Qed.
Print Assumptions C116_states_stand.
Definition priced : dict := [("collision_reward", VInt (-1))].
Example C116_nonvacuous :
  (exists cs p obs m l, make classes_default GHighway None some_draws no_shuffle = Ok (cs, p, obs) /\ to_finite_mdp classes_default p = Ok m /\ mdp_shape m = (3, l, 10)%Z) /\
  (exists cs p obs, make classes_default GMerge None some_draws no_shuffle = Ok (cs, p, obs) /\ to_finite_mdp classes_default p = Err KeyError) /\
  (forall g, g = GMerge \/ g = GRoundabout -> exists cs p obs m, make classes_default g (Some priced) some_draws no_shuffle = Ok (cs, p, obs) /\ to_finite_mdp classes_default p = Ok m).
Proof.
  assert (Sh : shuffles no_shuffle) by (intros k l; apply Permutation.Permutation_refl).
  assert (Def : forall g, g = GHighway \/ g = GMerge -> exists cs p obs, make classes_default g None some_draws no_shuffle = Ok (cs, p, obs) /\
     match refusal g with None => exists m l, to_finite_mdp classes_default p = Ok m /\ mdp_shape m = (3, l, 10)%Z | Some e => to_finite_mdp classes_default p = Err e end).
  { intros g Hg. assert (Sf : store_fits (st_scene (default_settings g)) classes_default) by (destruct Hg as [-> | ->]; [left; reflexivity | reflexivity]).
    assert (Hn : g = GAgents -> forall k, (k < 2)%nat -> Rabs (dr_normal some_draws (1000 + k)) <= 5) by (intros ->; destruct Hg; discriminate).
    destruct (C108_defaults_play classes_default g [] some_draws no_shuffle some_draws_ok Sh Hn Sf ltac:(intros k _ d []) ltac:(constructor)) as (cs & p & obs & E & _).
    exists cs, p, obs. split; [exact E|].
    exact (C116_defaults classes_default g [] some_draws no_shuffle cs p obs [] [] classes_default some_draws_ok Sh Hn Sf ltac:(intros k _ d []) ltac:(constructor) E ltac:(constructor) ltac:(constructor) Sf). }
  split; [|split].
  - destruct (Def GHighway ltac:(now left)) as (cs & p & obs & E & m & l & Em & Sm). exists cs, p, obs, m, l. split; [exact E|]. split; assumption.
  - destruct (Def GMerge ltac:(now right)) as (cs & p & obs & E & Em). exists cs, p, obs. split; [exact E | exact Em].
  - intros g Hg. assert (Sf : store_fits (st_scene (default_settings g)) classes_default) by (destruct Hg as [-> | ->]; [reflexivity | left; reflexivity]).
    assert (Hn : g = GAgents -> forall k, (k < 2)%nat -> Rabs (dr_normal some_draws (1000 + k)) <= 5) by (intros ->; destruct Hg; discriminate).
    assert (F : Forall is_dict [priced]) by (constructor; [constructor; [intros [] | constructor] | constructor]).
    assert (Ng : forall k, In k (option_names g) -> never_given [priced] k).
    { intros k Hk d [<-|[]] [<-|[]]. destruct Hg as [-> | ->]; cbn in Hk; intuition discriminate. }
    destruct (C108_defaults_play classes_default g [priced] some_draws no_shuffle some_draws_ok Sh Hn Sf Ng F) as (cs & p & obs & E & _).
    assert (R : read_settings g (configured g [priced]) = Ok (default_settings g)) by (destruct Hg as [-> | ->]; reflexivity).
    assert (exists pr, prices_of g = Some pr) as [pr Hpr] by (destruct Hg as [-> | ->]; cbn; eauto).
    assert (Ac : cf_action (st_common (default_settings g)) = Single (Discrete true true)) by (destruct Hg as [-> | ->]; reflexivity).
    assert (Co : get_num (configured g [priced]) "collision_reward" = Ok (-1)) by (destruct Hg as [-> | ->]; reflexivity).
    assert (Po : 1/10 <= cf_policy (st_common (default_settings g))) by (destruct Hg as [-> | ->]; cbn; lra).
    destruct (C116_built classes_default g [priced] some_draws no_shuffle _ cs p obs [] [] classes_default pr true true ACTIONS_ALL (-1) some_draws_ok Sh R (C108_defaults_fit g some_draws Hn) Sf E ltac:(constructor) ltac:(constructor) Sf Hpr Ac eq_refl Co Po)
      as (m & _ & _ & _ & _ & _ & Em & _).
    exists cs, p, obs, m. split; [exact E | exact Em].
Qed.
