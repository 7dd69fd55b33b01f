(** C105: the rewards and observations returned are those of the state reached. *)
From Verif Require Import Prelude M_Utils M_Lane M_Road M_Vehicle M_Kinematics M_Control M_Behavior M_Regulation M_Action M_Env M_Scenes M_Nets M_Reset M_Ttc M_Obs M_Gym
  S_Geometry S_Road S_Vehicle S_Control S_Behavior S_Regulation S_Env S_Obs S_Ttc S_Reset S_Gym
  P_Base P_Utils P_Lane P_Graph P_Bfs P_Query P_Kin P_Crash P_Control P_Behavior P_Traffic P_Regulation P_Action P_Env P_Scenes P_Lift P_Nets P_Reset P_Ready P_Crossing P_Share P_Ttc P_Obs P_Grid P_Gym P_Move P_Play P_Models
  T_Kin T_Control T_Behavior T_Action T_Env T_Reset T_Rewards T_Obs T_Ttc T_Grid T_Traffic T_Gym.
From Coq Require Import Lia Lra Permutation.
Open Scope R_scope.

(** ** Rewards *)
(** The actions the roundabout takes for lane changes: number 0 or 2 (the components of
    a single-axis continuous action count as numbers). *)
Definition lane_changing (a : agent_action) : Prop := a = ActInt 0 \/ a = ActInt 2 \/ a = ActVec [0] \/ a = ActVec [2].
(** The speed level of a vehicle: that of its controller, or the level of its speed
    among those of class MDPVehicle. *)
Definition at_level (v : vehicle) (level : Z) : Prop :=
  match v_kind v with KMDP => level = v_speed_index v | _ => exists cs, shared_grid cs /\ level = speed_to_index (cl_grid cs) (v_speed v) end.
(** The reward for ending a step with the ego vehicle [v] on the road [rd] after [a]. *)
Definition reward_of (s : scene) (rd : road) (v : vehicle) (a : agent_action) (r : R) : Prop :=
  let crash := if v_crashed v then 1 else 0 in
  match s with
  | SHighway h => let c := hs_cfg h in exists l k, get_lane (rd_net rd) (v_lane_index v) = Ok l /\ li_id (rewarded_lane v) = Some k /\
      (~ inside l (v_pos v) -> r = 0) /\
      (inside l (v_pos v) -> r = (hw_collision c * crash + 1/10 * IZR k / Rmax (INR (hs_lanes h) - 1) 1
                                  + 4/10 * speed_share (hw_speed c) (v_speed v) - hw_collision c) / (1/2 - hw_collision c))
  | SRoundabout _ _ => exists level, at_level v level /\ (0 <= level <= 2)%Z /\
      (lane_changing a -> r = 4/5 * (1 - crash + 1/10 * IZR level)) /\
      (~ lane_changing a -> r = 4/5 * (105/100 - crash + 1/10 * IZR level))
  | SMerge => exists action k, a = ActInt action /\ li_id (v_lane_index v) = Some k /\
      r = (1/10 * IZR k + 1/10 * IZR (v_speed_index v) - crash
           - 5/10 * total (map slowness (merging rd)) - (if Z.eqb action 0 || Z.eqb action 2 then 5/100 else 0) + 15/10) / (18/10)
  | STwoWay => exists k, li_id (v_target_lane v) = Some k /\ r = 4/10 * IZR (v_speed_index v) + 2/10 * (1 - IZR k)
  | _ => True
  end.
Lemma two_way_value v k : v_kind v = KMDP -> li_from (v_lane_index v) = "a"%string -> li_to (v_lane_index v) = "b"%string -> li_id (v_target_lane v) = Some k -> sg_count (v_grid v) = 3%Z ->
  two_way_reward (two_way_net 800) v = Ok (4/10 * IZR (v_speed_index v) + 2/10 * (1 - IZR k)).
Proof.
  intros K Lf Lt Lk C. unfold two_way_reward, all_side_lanes. rewrite Lf, Lt, (proj1 two_way_roads). cbn [bind]. rewrite K, C. unfold pydiv, lane_number. rewrite Lk.
  rewrite map_length. assert (N : forall n, List.length (zrange n) = n) by (intros n; unfold zrange; now rewrite map_length, seq_length). rewrite N. cbn [List.length]. replace (INR 2) with 2 by (cbn; lra).
  rewrite (proj2 (Reqb_false (3 - 1) 0)) by lra. cbn [bind]. rewrite (proj2 (Reqb_false (2 - 1) 0)) by lra. cbn [bind]. f_equal. field.
Qed.
Lemma lane_changing_iff a b : is_lane_change a = Ok b -> (b = true <-> lane_changing a).
Proof.
  unfold is_lane_change, lane_changing. destruct a as [k|x|l]; [| destruct x as [|x [|y x0]]; try discriminate |]; intros E; injection E as <-.
  - rewrite orb_true_iff, !Z.eqb_eq. split; [intros [-> | ->]; auto | intros [Q|[Q|[Q|Q]]]; try discriminate Q; injection Q as ->; auto].
  - rewrite orb_true_iff, !Reqb_true. split; [intros [-> | ->]; auto | intros [Q|[Q|[Q|Q]]]; try discriminate Q; injection Q as ->; auto].
  - split; [discriminate | intros [Q|[Q|[Q|Q]]]; discriminate Q].
Qed.
Lemma reward_value cf s t k cs a g g1 out : rewards_fit cf s t -> classes_fit cf s -> store_fits s cs -> in_action_space (cf_action cf) (agents_count s) a -> played cf s t k cs a g g1 out ->
  exists v, ego (gy_env g1) = Ok v /\ reward_of s (e_road (gy_env g1)) v a (ou_reward out).
Proof.
  intros Rf Cl Sf Ha ((Pa & _ & (A & N & S & M) & _) & _ & _ & _ & _ & Er & _ & _). destruct Pa as (_ & _ & _ & Sn & Go).
  assert (R1 : ready (gy_scenario g1) (gy_env g1)) by (destruct s; try exact A; apply A). set (e := gy_env g1) in *.
  destruct (scenario_facts cf s (gy_goal g1)) as (Ac & _). rewrite <- Sn in Ac. clear Sn.
  assert (Mo : forall v, In v (rd_vehicles (e_road e)) -> mdp_ok v) by (intros v Hv; apply (S v Hv)). clear S.
  destruct (ready_ego _ _ R1) as (v & Ev & Vin & Kv & L). rewrite Ac in Kv. exists v. split; [exact Ev|]. set (r := ou_reward out) in *.
  destruct s as [h| | |n dur|n dur|dur inc|c n m dst prob]; cbn [scene_reward reward_of rewards_fit scene_net store_fits] in *; try exact I.
  - destruct Rf as [Hs Hc]. unfold highway_env_reward in Er. rewrite Ev in Er. cbn [bind] in Er. rewrite N in *. unfold highway_net in *. set (nl := hs_lanes h) in *.
    pose proof L as L'. apply straight_network_exists in L' as (i & Hi & Li). apply get_lane_exists in L as [l Gl].
    assert (G : g_lanes (straight_road_network nl 10000 0) "0" "1" = Ok (map (fun k => straight_network_lane nl k 10000 0) (seq 0 nl))) by (rewrite straight_network_eq by lia; reflexivity).
    assert (RL : exists j, (j < nl)%nat /\ li_id (rewarded_lane v) = Some (Z.of_nat j)).
    { unfold rewarded_lane. destruct (is_controlled (v_kind v)) eqn:Ic; [|exists i; rewrite Li; auto].
      pose proof (controlled_placed _ _ _ R1 Vin Ic) as T1. rewrite N in T1. apply straight_network_exists in T1 as (j & Hj & ->). exists j. auto. }
    destruct RL as (j & Hj & RL). destruct (C42_highway_value (hs_cfg h) _ v _ _ _ _ l _ Li G Gl RL Hs ltac:(lra)) as (r' & E' & V0 & V1). rewrite Er in E'. injection E' as <-.
    rewrite map_length, seq_length in V1. exists l, (Z.of_nat j). split; [exact Gl|]. split; [exact RL|]. split; [exact V0|]. intros X. rewrite (V1 X). f_equal. destruct (v_crashed v); ring.
  - destruct Rf as (lo & la & Q). rewrite Q in Kv. change (v_kind v = KMDP) in Kv.
    assert (T : lane_exists (rd_net (e_road e)) (v_target_lane v)) by (apply (controlled_placed (gy_scenario g1)); [exact R1 | exact Vin | now rewrite Kv]). rewrite N in T.
    destruct (two_way_exists _ T) as (j & Ej & _). exists (Z.of_nat j). split; [exact Ej|].
    destruct (two_way_reward_cases _ _ _ R1 N Mo Ev Kv) as [(Lf & Lt & _)|(_ & Er')]; [|rewrite Er in Er'; discriminate Er'].
    unfold two_way_env_reward in Er. rewrite Ev in Er. cbn [bind] in Er. rewrite N, (two_way_value v _ Kv Lf Lt Ej (proj1 (Mo v Vin Kv))) in Er. injection Er as <-. reflexivity.
  - destruct Rf as (lo & la & Q). rewrite Q in Kv, Ha. change (v_kind v = KMDP) in Kv. destruct a as [i|x|l]; [|destruct Ha|destruct Ha]. cbn in Ha.
    destruct L as (j & l & Ej & _). exists i, (Z.of_nat j). split; [reflexivity|]. split; [exact Ej|]. destruct (Mo v Vin Kv) as [C Ix].
    unfold merge_env_reward in Er. rewrite Ev in Er. cbn [bind] in Er. rewrite (C72_merge_value (e_road e) v i (Z.of_nat j) Kv Ej) in Er.
    + injection Er as <-. rewrite C. change (3 - 1)%Z with 2%Z. destruct (v_crashed v); field.
    + rewrite C. lia.
    + destruct (lo && la); lia.
    + intros w Hw. unfold merging in Hw. apply filter_In in Hw as [Hw Y]. apply andb_prop in Y as [_ Y]. destruct (M w Hw) as [_ Z]. now apply Z.
  - apply bind_ok in Er as (b & Eb & Er). pose proof (lane_changing_iff _ _ Eb) as Bl. unfold roundabout_env_reward in Er. rewrite Ev in Er. cbn [bind] in Er.
    pose proof (shared_count _ Sf) as C. exists (get_speed_index (cl_grid cs) v). split; [|split].
    + unfold at_level, get_speed_index. destruct (v_kind v); try (exists cs; split; [exact Sf | reflexivity]). reflexivity.
    + unfold get_speed_index. destruct (v_kind v) eqn:K; try (assert (X : (sg_count (cl_grid cs) = 3)%Z) by exact C; pose proof (speed_index_bounds (cl_grid cs) (v_speed v) X); lia). apply (Mo v Vin K).
    + unfold roundabout_reward in Er. rewrite C in Er. replace (Rmax (IZR 3 - 1) 1) with 2 in Er by (unfold Rmax; destruct (Rle_dec _ _); lra). unfold lmap in Er. cbn [fst snd] in Er.
      rewrite (proj2 (Reqb_false _ _)) in Er by lra. cbn [bind] in Er. destruct b.
      * split; [intros _ | intros X; elim X; tauto]. cbn [Z.eqb orb b2R] in Er. injection Er as <-. destruct (v_crashed v); cbn [b2R]; field.
      * split; [intros X; apply Bl in X; discriminate | intros _]. cbn [Z.eqb Pos.eqb orb b2R] in Er. injection Er as <-. destruct (v_crashed v); cbn [b2R]; field.
Qed.
(** Along every trajectory the reward is that of the state the step leads to. *)
Theorem C105_rewards : forall cs cf s t d sh cs' g obs acts trace, draws_ok d -> classes_fit cf s -> options_fit cf s d -> cf_policy cf <> 0 -> store_fits s cs -> observation_fits cf s t -> rewards_fit cf s t -> shuffles sh ->
  gym_reset cs cf s t d sh = Ok (cs', g, obs) -> Forall (in_action_space (cf_action cf) (agents_count s)) acts -> gym_plays g acts trace ->
  forall i g1 out, nth_error trace i = Some (g1, out) ->
  exists a v, nth_error acts i = Some a /\ ego (gy_env g1) = Ok v /\ reward_of s (e_road (gy_env g1)) v a (ou_reward out).
Proof.
  intros cs cf s t d sh cs' g obs acts trace D C O P Sf Fit Rf Sh Er Fa Pl i g1 out Hi.
  destruct (reset_playing cs cf s t d sh D C O P Sf Fit Sh) as (cs2 & g2 & obs2 & vs2 & Er2 & P0 & _). rewrite Er in Er2. injection Er2 as <- <- <-.
  destruct (plays_nth cf s t Fit (rewards_extras _ _ _ Rf) C g acts trace Pl 0 P0 Fa i g1 out Hi) as (cs1 & a & Sf1 & Ha & Sa & Gg & Pd).
  destruct (reward_value _ _ _ _ _ _ _ _ _ Rf C Sf1 Sa Pd) as (v & Ev & Rv). exists a, v. now split.
Qed.
Print Assumptions C105_rewards.

(** ** Observations *)
(** The road [rd] that was observed, and [rd1] that the step leaves: the same, except at
    the intersection, where vehicles then leave and at most one enters. *)
Definition observed_road (s : scene) (ctl : list nat) (rd rd1 : road) : Prop :=
  match s with
  | SIntersection _ _ _ _ _ => rd_net rd1 = rd_net rd /\ exists keep entering, rd_vehicles rd1 = (filter keep (rd_vehicles rd) ++ entering)%list /\ (List.length entering <= 1)%nat /\
      forall v, In v (rd_vehicles rd) -> (keep v = true <-> In (v_id v) ctl \/ (~ about_to_leave v /\ v_route v <> None))
  | _ => rd1 = rd
  end.
Lemma step_observed cf s t k g cs o d sh a g1 out : playing cf s t k g -> store_fits s cs -> oracle_ok o -> draws_ok d -> in_action_space (cf_action cf) (agents_count s) a ->
  gym_step cs g o d sh a = Ok (g1, out) ->
  exists e1 os, observe cs (cf_policy cf) t sh (gy_goal g) e1 (gy_states g) = Ok os /\ ou_obs out = map fst os /\ gy_states g1 = map snd os /\
    observed_road s (e_controlled (gy_env g)) (e_road e1) (e_road (gy_env g1)) /\ observed t (gy_env g1) = observed t e1 /\ ego (gy_env g1) = ego e1 /\ (e_controlled (gy_env g1) = e_controlled (gy_env g) /\ e_controlled e1 = e_controlled (gy_env g)) /\
    ready (gy_scenario g) e1 /\ sc_action (gy_scenario g) = cf_action cf /\ rd_net (e_road e1) = scene_net s /\ all_sound (scene_net s) (e_road e1).
Proof.
  intros Pl Sf Ho D Ha E. destruct (env_part cf s t k g cs o a Pl Sf Ho Ha) as (e1 & E1 & A1 & N1 & S1 & M1 & C1 & _).
  destruct Pl as ((Ecf & Esc & Ety & Sn & Go) & _). destruct (scenario_facts cf s (gy_goal g)) as (Ac & _ & _ & Rg). rewrite <- Sn in Ac, Rg.
  unfold gym_step in E. rewrite Ecf, Esc, Ety, E1 in E. cbn [bind] in E. apply bind_ok in E as (os & Eo & E). apply bind_ok in E as (r & _ & E). apply bind_ok in E as (b & _ & E). apply bind_ok in E as (v & _ & E).
  assert (R1 : ready (gy_scenario g) e1) by (destruct s; try exact A1; apply A1).
  exists e1, os. split; [exact Eo|].
  assert (Base : forall ag su, (Gym cf s t (gy_scenario g) (gy_goal g) (map snd os) e1, Outcome (map fst os) r b (Info (v_speed v) (v_crashed v) a (scene_cost s v) ag su)) = (g1, out) ->
    (match s with SIntersection _ _ _ _ _ => False | _ => True end) ->
    ou_obs out = map fst os /\ gy_states g1 = map snd os /\
    observed_road s (e_controlled (gy_env g)) (e_road e1) (e_road (gy_env g1)) /\ observed t (gy_env g1) = observed t e1 /\ ego (gy_env g1) = ego e1 /\ (e_controlled (gy_env g1) = e_controlled (gy_env g) /\ e_controlled e1 = e_controlled (gy_env g)) /\
    ready (gy_scenario g) e1 /\ sc_action (gy_scenario g) = cf_action cf /\ rd_net (e_road e1) = scene_net s /\ all_sound (scene_net s) (e_road e1)).
  { intros ag su Q Ns. injection Q as <- <-. cbn [ou_obs gy_states gy_env]. do 2 (split; [reflexivity|]). split; [destruct s; try reflexivity; destruct Ns|]. do 2 (split; [reflexivity|]). split; [now split|]. do 3 (split; [assumption|]). assumption. }
  destruct s as [h| | |n dur|n dur|dur inc|c n m dst prob].
  - okinj E. eapply Base; [exact E | exact I].
  - okinj E. eapply Base; [exact E | exact I].
  - okinj E. eapply Base; [exact E | exact I].
  - apply bind_ok in E as (su & _ & E). okinj E. eapply Base; [exact E | exact I].
  - apply bind_ok in E as (su & _ & E). okinj E. eapply Base; [exact E | exact I].
  - okinj E. eapply Base; [exact E | exact I].
  - clear Base. cbn [alive scene_net] in *. assert (Rt : sc_regulated (gy_scenario g) = true) by (apply Rg; eexists _, _, _, _, _; reflexivity).
    destruct (traffic_part cs (cf_traffic cf) d prob _ e1 Rt D A1 S1) as (rd2 & rd3 & E2 & E3 & Ce & S3 & Cc & Ee & Ci). rewrite E2 in E. cbn [bind] in E. rewrite E3 in E. cbn [bind] in E. apply bind_ok in E as (ag & _ & E).
    assert (Q1 : g1 = Gym cf (SIntersection c n m dst prob) t (gy_scenario g) (gy_goal g) (map snd os) (set_road e1 rd3)) by congruence. assert (Q2 : ou_obs out = map fst os) by (apply (f_equal (fun x => match x with Ok y => ou_obs (snd y) | Err _ => [] end)) in E; symmetry; exact E).
    rewrite Q1, Q2. cbn [gy_states gy_env]. do 2 (split; [reflexivity|]). split; [|split; [|split; [exact Ee|split; [exact (conj C1 C1)|split; [exact R1|split; [exact Ac|split; [exact N1 | exact S1]]]]]]].
    + destruct A1 as [_ Cr1]. assert (T1 : intersection_traffic_ok (e_road e1)) by now apply traffic_crossing. destruct (C53_clear (e_controlled e1) _ T1) as (keep & E2' & T2 & Hk). rewrite E2 in E2'. okinj E2'.
      apply traffic_crossing in T2. cbn [observed_road set_road e_road]. split; [transitivity intersection_net; [apply Ce | symmetry; exact N1]|].
      destruct (spawn_cases cs (cf_traffic cf) d 0 (e_controlled e1) 0 1 1 prob false _ D T2) as [[_ X]|[(_ & _ & X)|(_ & _ & v0 & w & _ & _ & _ & _ & _ & X)]]; rewrite E3 in X; okinj X.
      * exists keep, []. cbn [set_vehicles rd_vehicles]. split; [now rewrite app_nil_r|]. split; [cbn; lia|]. rewrite <- C1. exact Hk.
      * exists keep, []. cbn [set_vehicles rd_vehicles]. split; [now rewrite app_nil_r|]. split; [cbn; lia|]. rewrite <- C1. exact Hk.
      * exists keep, [randomize d (6 * 0 + 1) (cf_traffic cf) w]. cbn [add_vehicle set_vehicles rd_vehicles]. split; [reflexivity|]. split; [cbn; lia|]. rewrite <- C1. exact Hk.
    + destruct t; cbn [observed]; [rewrite Ee | rewrite Cc]; reflexivity.
Qed.
Lemma observe_nth cs pol t sh goal e states os vs : observe cs pol t sh goal e states = Ok os -> observed t e = Ok vs -> List.length states = List.length vs ->
  List.length os = List.length vs /\ forall j v, nth_error vs j = Some v -> exists ev r ob r', ego e = Ok ev /\ nth_error states j = Some r /\ nth_error os j = Some (ob, r') /\
    observe_one cs pol (observer_of t) (sh j) goal (e_road e) ev v r = Ok (ob, r').
Proof.
  intros E Ov L. unfold observe in E. apply bind_ok in E as (ev & Ev & E). rewrite Ov in E. cbn [bind] in E. split.
  - apply mapM_length in E. rewrite E, !combine_length, seq_length. lia.
  - intros j v Hj. assert (Lj : (j < List.length vs)%nat) by (apply nth_error_Some; congruence).
    destruct (nth_error states j) as [r|] eqn:Hr; [|apply nth_error_None in Hr; lia].
    assert (Hn : nth_error (combine (seq 0 (List.length vs)) (combine vs states)) j = Some (j, (v, r))).
    { apply combine_nth_error; [|now apply combine_nth_error]. rewrite (nth_error_nth' _ 0%nat) by (rewrite seq_length; exact Lj). now rewrite seq_nth. }
    destruct (mapM_nth _ _ _ E _ _ Hn) as ([ob r'] & Ho & Eo). cbn [fst snd] in Eo. exists ev, r, ob, r'. now split.
Qed.
(** *** Tables *)
(** The table shown to an observer [o] on the road [rd]: the observer, then the closest
    vehicles within 180 m in order of distance, then zeros, features being scaled by [rr]. *)
Definition table_of (c : kin_config) (rd : road) (o : vehicle) (rr : ranges) (rows : list (list R)) : Prop :=
  exists close, close_vehicles_to rd o 180 (Some (kc_count c - 1)%Z) (kc_see_behind c) = Ok close /\
    Z.of_nat (List.length rows) = kc_count c /\
    (forall row, In row rows -> List.length row = List.length (kin_features c)) /\
    (forall j name, nth_error (kin_features c) j = Some name ->
       exists x y, entry rows 0 j = Some y /\ feature (rd_net rd) o true name x /\ scaled (assoc name rr) true x y) /\
    (forall k w j name, nth_error close k = Some w -> nth_error (kin_features c) j = Some name ->
       exists x y, entry rows (S k) j = Some y /\
         seen_feature (rd_net rd) (if kc_absolute c then None else Some o) w (kc_intentions c) name x /\ scaled (assoc name rr) true x y) /\
    (forall k j y, (List.length close < k)%nat -> entry rows k j = Some y -> y = 0).
(** The ranges of an episode: those configured, else the standard ones for the road the
    observer starts on and the greatest speed [smax] of class MDPVehicle at that time. *)
Definition ranges_of (r0 : option ranges) (smax : R) (rd0 : road) (o : vehicle) (rr : ranges) : Prop :=
  match r0 with
  | Some (x :: r) => rr = x :: r
  | _ => exists lanes, lanes_count (rd_net rd0) (v_lane_index o) lanes /\ forall name, assoc name rr = standard_range smax lanes name
  end.
Lemma table_shown c smax sh r rd o out r' : kin_usable c r -> kc_order c <> "shuffled"%string -> kin_observe c smax PERCEPTION sh r (Some rd) o = Ok (out, r') ->
  exists rr, r' = Some rr /\ rr <> [] /\ ranges_of r smax rd o rr /\ table_of c rd o rr out.
Proof.
  intros (C & N & Cp & _) No E. destruct (C46_ranges c smax PERCEPTION sh r rd o out r' C N E) as [R1 R2].
  assert (exists rr, r' = Some rr /\ rr <> [] /\ ranges_of r smax rd o rr) as (rr & -> & Nn & Hr).
  { destruct r as [[|x rr]|].
    - destruct (R2 (or_intror eq_refl)) as (rr & lanes & -> & Ln & A). exists rr. split; [reflexivity|]. split; [intros ->; specialize (A "x"%string); discriminate A | exists lanes; now split].
    - exists (x :: rr). split; [apply R1; [reflexivity | discriminate] | split; [discriminate | reflexivity]].
    - destruct (R2 (or_introl eq_refl)) as (rr & lanes & -> & Ln & A). exists rr. split; [reflexivity|]. split; [intros ->; specialize (A "x"%string); discriminate A | exists lanes; now split]. }
  exists rr. split; [reflexivity|]. split; [exact Nn|]. split; [exact Hr|].
  destruct (C46_table c smax PERCEPTION sh r rd o out (Some rr) C No E) as (close & Cl & T). rewrite N, Cp in T. unfold range_in in T. exists close.
  unfold PERCEPTION in Cl. replace (6 * 30) with 180 in Cl by ring. split; [exact Cl | exact T].
Qed.
Lemma plays_tables cf s t c r0 : observation_fits cf s t -> extras_fit s t -> classes_fit cf s -> observer_of t = Kinematics c r0 -> kc_order c <> "shuffled"%string ->
  forall g acts trace, gym_plays g acts trace -> forall k, playing cf s t k g -> Forall (in_action_space (cf_action cf) (agents_count s)) acts ->
  forall j rr, nth_error (gy_states g) j = Some (Some rr) -> rr <> [] ->
  forall i g1 out, nth_error trace i = Some (g1, out) ->
  exists rd v rows vs, observed_road s (e_controlled (gy_env g)) rd (e_road (gy_env g1)) /\ observed t (gy_env g1) = Ok vs /\ nth_error vs j = Some v /\
    nth_error (ou_obs out) j = Some (ObsRows rows) /\ table_of c rd v rr rows.
Proof.
  intros Fit Ex Cl Ot No g acts trace H. induction H as [g|cs g o d sh a g1 out acts trace Sf Ho D Sh E H IH]; intros k Pl Fa j rr Hj Nn i g2 out2 Hi; [destruct i; discriminate|].
  inversion Fa as [|? ? Fb Fa']; subst. pose proof Pl as Pl0. destruct Pl0 as ((_ & Es & _) & _ & _ & (Lc & _) & (Ls & Ss)). rewrite Es in Sf.
  destruct (step_observed cf s t k g cs o d sh a g1 out Pl Sf Ho D Fb E) as (e1 & os & Eo & Eobs & Est & Rd & Ob & Eg & Ctl & R1 & Ac & N1 & S1).
  assert (exists vs, observed t e1 = Ok vs /\ List.length (gy_states g) = List.length vs) as (vs & Ov & Lv).
  { pose proof Eo as Eo'. unfold observe in Eo'. apply bind_ok in Eo' as (ev & Ev & Eo'). apply bind_ok in Eo' as (vs & Ov & _). exists vs. split; [exact Ov|]. rewrite Ls. unfold observers_count.
    destruct t; cbn [observed] in Ov; [rewrite Ev in Ov; cbn [bind] in Ov; okinj Ov; reflexivity|]. okinj Ov. rewrite (controlled_count _ _ R1), <- Lc, (proj2 Ctl). reflexivity. }
  destruct (observe_nth _ _ _ _ _ _ _ _ _ Eo Ov Lv) as [Lo On].
  destruct (nth_error vs j) as [v|] eqn:Hv; [|apply nth_error_None in Hv; rewrite <- Lv in Hv; apply nth_error_None in Hv; congruence].
  destruct (On j v Hv) as (ev & r & ob & r' & Ev & Hr & Hos & Eone). rewrite Hj in Hr. injection Hr as <-. rewrite Ot in Eone. cbn [observe_one] in Eone. apply bind_ok in Eone as ([rows r1] & Ek & Eone). injection Eone as <- <-.
  assert (U : kin_usable c (Some rr)) by (rewrite Forall_forall in Ss; pose proof (Ss _ (nth_error_In _ _ Hj)) as X; unfold state_ok in X; rewrite Ot in X; exact X).
  destruct (table_shown c _ _ _ _ _ _ _ U No Ek) as (rr' & -> & Nn' & Rr & Tb). unfold ranges_of in Rr. destruct rr as [|x rr0]; [now elim Nn|]. subst rr'.
  destruct i as [|i]; cbn [nth_error] in Hi.
  - injection Hi as <- <-. exists (e_road e1), v, rows, vs. split; [exact Rd|]. split; [now rewrite Ob|]. split; [exact Hv|]. split; [|exact Tb]. rewrite Eobs, nth_error_map, Hos. reflexivity.
  - destruct (gym_step_cases cf s t k g cs o d sh a Pl Sf Ho D Sh Fit Ex Cl Fb) as (e2 & _ & _ & _ & _ & _ & Good & Bad).
    destruct (scene_reward cs s t (gy_goal g) e2 a) as [y|y] eqn:Er; [|rewrite (Bad y eq_refl) in E; discriminate]. destruct (Good y eq_refl) as (g3 & out3 & E2 & _ & Pd).
    rewrite E in E2. injection E2 as <- <-. rewrite <- (proj1 Ctl). apply (IH (k + 1)%nat (proj1 Pd) Fa' j (x :: rr0)) with (i := i); [|discriminate | exact Hi].
    rewrite Est, nth_error_map, Hos. reflexivity.
Qed.
Theorem C105_tables : forall cs cf s t d sh cs' g obs acts trace c r0, draws_ok d -> classes_fit cf s -> options_fit cf s d -> cf_policy cf <> 0 -> store_fits s cs -> observation_fits cf s t -> rewards_fit cf s t -> shuffles sh ->
  observer_of t = Kinematics c r0 -> kc_order c <> "shuffled"%string ->
  gym_reset cs cf s t d sh = Ok (cs', g, obs) -> Forall (in_action_space (cf_action cf) (agents_count s)) acts -> gym_plays g acts trace ->
  exists vs, observed t (gy_env g) = Ok vs /\ List.length vs = observers_count s t /\
  forall j v, nth_error vs j = Some v ->
  exists rr rows, ranges_of r0 (sg_max (cl_grid cs')) (e_road (gy_env g)) v rr /\
    (* at reset *)
    nth_error obs j = Some (ObsRows rows) /\ table_of c (e_road (gy_env g)) v rr rows /\
    (* at every step, with the same ranges *)
    forall i g1 out, nth_error trace i = Some (g1, out) ->
    exists rd1 v1 rows1 vs1, observed_road s (e_controlled (gy_env g)) rd1 (e_road (gy_env g1)) /\ observed t (gy_env g1) = Ok vs1 /\ nth_error vs1 j = Some v1 /\
      nth_error (ou_obs out) j = Some (ObsRows rows1) /\ table_of c rd1 v1 rr rows1.
Proof.
  intros cs cf s t d sh cs' g obs acts trace c r0 D C O P Sf Fit Rf Sh Ot No Er Fa Pl.
  destruct (reset_playing cs cf s t d sh D C O P Sf Fit Sh) as (cs2 & g2 & obs2 & vs & Er2 & P0 & _ & _ & Ov & Lo & F). rewrite Er in Er2. injection Er2 as <- <- <-.
  exists vs. split; [exact Ov|]. assert (Lv : List.length vs = observers_count s t) by (rewrite <- Lo; clear -F; induction F; cbn [List.length]; congruence). split; [exact Lv|].
  intros j v Hj. unfold gym_reset in Er. apply bind_ok in Er as ([cse e] & Ee & Er). apply bind_ok in Er as (os & Eo & Er). cbn [fst snd] in *.
  assert (Qg : gy_env g = e) by (apply (f_equal (fun x => match x with Ok y => gy_env (snd (fst y)) | Err _ => e end)) in Er; symmetry; exact Er).
  assert (Qs : gy_states g = map snd os) by (apply (f_equal (fun x => match x with Ok y => gy_states (snd (fst y)) | Err _ => [] end)) in Er; symmetry; exact Er).
  assert (Qo : obs = map fst os) by (apply (f_equal (fun x => match x with Ok y => snd y | Err _ => [] end)) in Er; symmetry; exact Er).
  assert (Qc : cs' = fst cse) by (apply (f_equal (fun x => match x with Ok y => fst (fst y) | Err _ => cs' end)) in Er; symmetry; exact Er). clear Er.
  rewrite Qg in Ov |- *.
  assert (Ls : List.length (repeat (fresh_state (observer_of t)) (match t with OneObserver _ => 1%nat | ManyObservers _ => List.length (e_controlled e) end)) = List.length vs).
  { rewrite repeat_length, Lv. unfold observers_count. destruct t; [reflexivity|]. rewrite <- Qg. apply P0. }
  destruct (observe_nth _ _ _ _ _ _ _ _ _ Eo Ov Ls) as [Los On]. destruct (On j v Hj) as (ev & r & ob & r' & Ev & Hr & Hos & Eone).
  apply nth_error_In, repeat_spec in Hr. rewrite Ot in Eone, Hr. cbn [fresh_state] in Hr. subst r. cbn [observe_one] in Eone. apply bind_ok in Eone as ([rows r1] & Ek & Eone). injection Eone as <- <-.
  assert (U : kin_usable c r0) by (unfold observation_fits in Fit; rewrite Ot in Fit; exact Fit).
  destruct (table_shown c _ _ _ _ _ _ _ U No Ek) as (rr & -> & Nn & Rr & Tb). exists rr, rows. rewrite Qc. split; [exact Rr|]. split; [rewrite Qo, nth_error_map, Hos; reflexivity|]. split; [exact Tb|].
  intros i g1 out Hi. rewrite <- Qg. apply (plays_tables cf s t c r0 Fit (rewards_extras _ _ _ Rf) C Ot No g acts trace Pl 0 P0 Fa j rr) with (i := i); [rewrite Qs, nth_error_map, Hos; reflexivity | exact Nn | exact Hi].
Qed.
Print Assumptions C105_tables.
(** *** Times to collision *)
(** The grid shown to [v]: the speed level below its own, its own and the one above (the
    first and last repeated at the ends), the lane to its left, its own and the one to
    its right (full where there is none), and one column per period of the policy. *)
Definition grid_of (policy horizon : R) (rd : road) (v : vehicle) (g : grid3) : Prop :=
  exists lane nl, li_id (v_lane_index v) = Some lane /\ lanes_count (rd_net rd) (v_lane_index v) nl /\
  forall a b j, (a < 3)%nat -> (b < 3)%nat -> INR j + 1 <= horizon * policy ->
    let level := Z.max 0 (Z.min (v_speed_index v + Z.of_nat a - 1) 2) in
    let row := (lane + Z.of_nat b - 1)%Z in
    let speed := index_to_speed (v_grid v) level in
    let met m := exists w, In w (rd_vehicles rd) /\ v_id w <> v_id v /\ v_speed w <> speed /\ would_meet (rd_net rd) v w (1 / policy) speed m (Z.to_nat row) j in
    (~ (0 <= row < Z.of_nat nl)%Z -> cell g a b j = 1) /\
    ((0 <= row < Z.of_nat nl)%Z -> (cell g a b j = 1 <-> met 0) /\ (cell g a b j = 1/2 <-> ~ met 0 /\ (met 5 \/ met (-5))) /\
       (cell g a b j = 0 <-> ~ met 0 /\ ~ met 5 /\ ~ met (-5))).
Lemma grid_shown rd v pf horizon g : v_kind v = KMDP -> 0 < pf -> 0 <= horizon -> mdp_ok v -> lane_exists (rd_net rd) (v_lane_index v) ->
  (forall w, In w (rd_vehicles rd) -> lane_exists (rd_net rd) (v_lane_index w)) -> ttc_observe rd v v pf horizon = Ok g -> grid_of pf horizon rd v g.
Proof.
  intros K Hp Hh M Le Lw E. destruct (M K) as [C Ix]. destruct (exists_count _ _ Le) as (nl & lane & Cn & Ei & Hl).
  assert (Pid : forall w, In w (rd_vehicles rd) -> proper_id (v_lane_index w)) by (intros w W; eapply exists_proper, Lw, W).
  assert (Ht : 0 < 1 / pf) by (unfold Rdiv; rewrite Rmult_1_l; now apply Rinv_0_lt_compat).
  destruct (C74_observation rd v v pf horizon g (Z.of_nat lane) Hp Pid E Ei nl Cn ltac:(lia) ltac:(lia) ltac:(lia)) as (g0 & E0 & D & Cells). rewrite C in Cells.
  assert (Hq : horizon / (1 / pf) = horizon * pf) by (field; lra).
  exists (Z.of_nat lane), nl. split; [exact Ei|]. split; [exact Cn|]. intros a b j Ha Hb Hj. cbv zeta.
  assert (Lj : (j < Z.to_nat (Rtrunc (horizon / (1 / pf))))%nat).
  { rewrite Hq. assert (P : 0 <= horizon * pf) by (pose proof (pos_INR j); lra). unfold Rtrunc. rewrite (proj2 (Rleb_true 0 _) P). apply Nat2Z.inj_lt. rewrite Z2Nat.id by (apply Rfloor_nonneg; exact P).
    apply lt_IZR. rewrite <- INR_IZR_INZ. destruct (floor_bounds (horizon * pf)) as [_ F]. lra. }
  specialize (Cells a b j Ha Hb Lj). cbv zeta in Cells. change (3 - 1)%Z with 2%Z in Cells. set (level := Z.max 0 (Z.min (v_speed_index v + Z.of_nat a - 1) 2)) in *. set (row := (Z.of_nat lane + Z.of_nat b - 1)%Z) in *.
  split.
  - intros Nr. rewrite Cells. destruct ((0 <=? row)%Z && (row <? Z.of_nat nl)%Z) eqn:Q; [|reflexivity]. apply andb_prop in Q as [Q1 Q2]. apply Z.leb_le in Q1. apply Z.ltb_lt in Q2. elim Nr. lia.
  - intros Rr. assert (Q : ((0 <=? row)%Z && (row <? Z.of_nat nl)%Z) = true) by (apply andb_true_intro; split; [apply Z.leb_le | apply Z.ltb_lt]; lia). rewrite Q in Cells. rewrite Cells.
    assert (Hlv : (Z.to_nat level < Z.to_nat (sg_count (v_grid v)))%nat) by (rewrite C; unfold level; lia).
    pose proof (C48_cells rd v v (1 / pf) horizon g0 (Z.to_nat level) (Z.to_nat row) j Ht Pid E0 nl Cn Hlv ltac:(lia) ltac:(rewrite Hq; exact Hj)) as X. cbv zeta in X.
    rewrite (Z2Nat.id level) in X by (unfold level; lia). exact X.
Qed.
Lemma plays_grids cf s t horizon : observation_fits cf s t -> extras_fit s t -> classes_fit cf s -> t = OneObserver (TimeToCollision horizon) ->
  forall g acts trace, gym_plays g acts trace -> forall k, playing cf s t k g -> Forall (in_action_space (cf_action cf) (agents_count s)) acts ->
  forall i g1 out, nth_error trace i = Some (g1, out) ->
  exists rd v gr, observed_road s (e_controlled (gy_env g)) rd (e_road (gy_env g1)) /\ ego (gy_env g1) = Ok v /\ ou_obs out = [ObsGrid gr] /\ grid_of (cf_policy cf) horizon rd v gr.
Proof.
  intros Fit Ex Cl Ot g acts trace H. induction H as [g|cs g o d sh a g1 out acts trace Sf Ho D Sh E H IH]; intros k Pl Fa i g2 out2 Hi; [destruct i; discriminate|].
  inversion Fa as [|? ? Fb Fa']; subst. pose proof Pl as Pl0. destruct Pl0 as ((_ & Es & _) & _ & _ & (Lc & _) & (Ls & Ss)). rewrite Es in Sf.
  destruct (step_observed cf s _ k g cs o d sh a g1 out Pl Sf Ho D Fb E) as (e1 & os & Eo & Eobs & Est & Rd & Ob & Eg & Ctl & R1 & Ac & N1 & S1).
  destruct i as [|i]; cbn [nth_error] in Hi.
  - injection Hi as <- <-. destruct (ready_ego _ _ R1) as (v & Ev & Vin & Kv & Lv). rewrite Ac in Kv. exists (e_road e1), v.
    assert (Ov : observed (OneObserver (TimeToCollision horizon)) e1 = Ok [v]) by (cbn [observed]; rewrite Ev; reflexivity).
    destruct (observe_nth _ _ _ _ _ _ _ _ _ Eo Ov Ls) as [Lo On]. destruct (On 0%nat v eq_refl) as (ev & r & ob & r' & Ev' & _ & Hos & Eone). rewrite Ev in Ev'. injection Ev' as <-. cbn [observer_of observe_one] in Eone.
    apply bind_ok in Eone as (gr & Egr & Eone). injection Eone as <- <-. exists gr. split; [exact Rd|]. split; [now rewrite Eg|]. split.
    + rewrite Eobs. destruct os as [|x [|y os]]; try discriminate Lo. injection Hos as ->. reflexivity.
    + destruct Fit as (Ke & Hp & Hh & _). apply grid_shown; try assumption; [exact (eq_trans Kv Ke) | apply (S1 v Vin) |]. intros w Hw. eapply runnable_ready; eassumption.
  - destruct (gym_step_cases cf s _ k g cs o d sh a Pl Sf Ho D Sh Fit Ex Cl Fb) as (e2 & _ & _ & _ & _ & _ & Good & Bad).
    destruct (scene_reward cs s (OneObserver (TimeToCollision horizon)) (gy_goal g) e2 a) as [y|y] eqn:Er; [|rewrite (Bad y eq_refl) in E; discriminate]. destruct (Good y eq_refl) as (g3 & out3 & E2 & _ & Pd).
    rewrite E in E2. injection E2 as <- <-. rewrite <- (proj1 Ctl). apply (IH (k + 1)%nat (proj1 Pd) Fa' i _ _ Hi).
Qed.
Theorem C105_grids : forall cs cf s t d sh cs' g obs acts trace horizon, draws_ok d -> classes_fit cf s -> options_fit cf s d -> cf_policy cf <> 0 -> store_fits s cs -> observation_fits cf s t -> rewards_fit cf s t -> shuffles sh ->
  t = OneObserver (TimeToCollision horizon) ->
  gym_reset cs cf s t d sh = Ok (cs', g, obs) -> Forall (in_action_space (cf_action cf) (agents_count s)) acts -> gym_plays g acts trace ->
  (exists v gr, ego (gy_env g) = Ok v /\ obs = [ObsGrid gr] /\ grid_of (cf_policy cf) horizon (e_road (gy_env g)) v gr) /\
  forall i g1 out, nth_error trace i = Some (g1, out) ->
  exists rd v gr, observed_road s (e_controlled (gy_env g)) rd (e_road (gy_env g1)) /\ ego (gy_env g1) = Ok v /\ ou_obs out = [ObsGrid gr] /\ grid_of (cf_policy cf) horizon rd v gr.
Proof.
  intros cs cf s t d sh cs' g obs acts trace horizon D C O P Sf Fit Rf Sh Ot Er Fa Pl.
  destruct (reset_playing cs cf s t d sh D C O P Sf Fit Sh) as (cs2 & g2 & obs2 & vs & Er2 & P0 & _ & _ & Ov & Lo & F). rewrite Er in Er2. injection Er2 as <- <- <-.
  split; [|exact (plays_grids cf s t horizon Fit (rewards_extras _ _ _ Rf) C Ot g acts trace Pl 0 P0 Fa)].
  unfold gym_reset in Er. apply bind_ok in Er as ([cse e] & Ee & Er). apply bind_ok in Er as (os & Eo & Er). cbn [fst snd] in *.
  assert (Qg : gy_env g = e) by (apply (f_equal (fun x => match x with Ok y => gy_env (snd (fst y)) | Err _ => e end)) in Er; symmetry; exact Er).
  assert (Qo : obs = map fst os) by (apply (f_equal (fun x => match x with Ok y => snd y | Err _ => [] end)) in Er; symmetry; exact Er). clear Er.
  destruct P0 as ((_ & _ & _ & Sn & _) & _ & (A & N & S & _) & _). assert (R1 : ready (gy_scenario g) (gy_env g)) by (destruct s; try exact A; apply A).
  destruct (scenario_facts cf s (gy_goal g)) as (Ac & _). rewrite <- Sn in Ac. destruct (ready_ego _ _ R1) as (v & Ev & Vin & Kv & Lv). rewrite Ac in Kv. rewrite Qg in *.
  subst t. cbn [observed] in Ov. rewrite Ev in Ov. cbn [bind] in Ov. okinj Ov. cbn [repeat] in Eo.
  assert (Ov : observed (OneObserver (TimeToCollision horizon)) e = Ok [v]) by (cbn [observed]; rewrite Ev; reflexivity).
  destruct (observe_nth _ _ _ _ _ _ _ _ _ Eo Ov eq_refl) as [Los On]. destruct (On 0%nat v eq_refl) as (ev & r & ob & r' & Ev' & _ & Hos & Eone). rewrite Ev in Ev'. injection Ev' as <-. cbn [observer_of observe_one] in Eone.
  apply bind_ok in Eone as (gr & Egr & Eone). injection Eone as <- <-. exists v, gr. split; [exact Ev|]. split.
  - rewrite Qo. destruct os as [|x [|y os]]; try discriminate Los. injection Hos as ->. reflexivity.
  - destruct Fit as (Ke & Hp & Hh & _). apply grid_shown; try assumption; [exact (eq_trans Kv Ke) | apply (S v Vin) |]. intros w Hw. eapply runnable_ready; eassumption.
Qed.
Print Assumptions C105_grids.
(** Default environments: tables on the highway, at the roundabout and the intersection,
    grids in the merge. *)
Example C105_nonvacuous :
  (forall cf s a, In (cf, s, a) [(meta_common, highway_default_scene, ActInt 1); (meta_common, SRoundabout 11 None, ActInt 2); (intersection_common, intersection_default_scene, ActInt 0)] ->
   exists c r, observer_of (default_observation s) = Kinematics c r /\ kc_order c <> "shuffled"%string) /\
  default_observation SMerge = OneObserver (TimeToCollision 10) /\
  exists cs g obs g1 out v1, gym_reset classes_default meta_common SMerge merge_observation some_draws no_shuffle = Ok (cs, g, obs) /\ gym_plays g [ActInt 2] [(g1, out)] /\
    ego (gy_env g1) = Ok v1 /\ reward_of SMerge (e_road (gy_env g1)) v1 (ActInt 2) (ou_reward out).
Proof.
  split; [|split; [reflexivity|]].
  - intros cf s a [Q|[Q|[Q|[]]]]; injection Q as <- <- <-; (do 2 eexists; split; [reflexivity | discriminate]).
  - destruct (proj1 C95_nonvacuous meta_common SMerge (ActInt 2) ltac:(cbn; tauto)) as (Fit & Rf & cs & g & obs & trace & Er & Pl).
    inversion Pl as [|cs1 g0 o d sh a g1 out acts tr Sf Ho D Sh E Pl1]; subst. exists cs, g, obs, g1, out.
    assert (P1 : gym_plays g [ActInt 2] [(g1, out)]) by (econstructor; try eassumption; constructor).
    destruct (C105_rewards classes_default meta_common SMerge (default_observation SMerge) some_draws no_shuffle cs g obs [ActInt 2] [(g1, out)]) with (i := 0%nat) (g1 := g1) (out := out) as (a & v & Ha & Ev & Rv); try assumption.
    + exact some_draws_ok.
    + reflexivity.
    + exact I.
    + cbn. lra.
    + reflexivity.
    + intros k l. apply Permutation_refl.
    + constructor; [cbn; lia | constructor].
    + reflexivity.
    + injection Ha as <-. exists v. split; [exact Er|]. split; [exact P1|]. split; [exact Ev | exact Rv].
Qed.
