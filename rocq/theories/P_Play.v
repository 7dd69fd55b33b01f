(** Proofs about the gym loop: observations. *)
From Verif Require Import Prelude M_Utils M_Lane M_Road M_Vehicle M_Kinematics M_Control M_Behavior M_Regulation M_Action M_Env M_Scenes M_Nets M_Reset M_Ttc M_Obs M_Gym
  S_Geometry S_Road S_Vehicle S_Control S_Behavior S_Regulation S_Env S_Obs S_Ttc S_Reset S_Gym
  P_Base P_Utils P_Lane P_Graph P_Bfs P_Query P_Kin P_Crash P_Control P_Behavior P_Traffic P_Regulation P_Action P_Env P_Scenes P_Lift P_Nets P_Reset P_Ready P_Crossing P_Share P_Ttc P_Obs P_Grid P_Gym P_Move
  T_Kin T_Control T_Behavior T_Env T_Reset T_Rewards T_Obs T_Ttc T_Grid.
From Coq Require Import Lia Lra Permutation.
Open Scope R_scope.

Definition state_ok (ob : observer) (r : option ranges) : Prop := match ob with Kinematics c _ => kin_usable c r | _ => True end.
Lemma kin_step c smax perc sh r rd o : kin_usable c r -> 0 < smax -> (forall l, Permutation (sh l) l) -> lane_exists (rd_net rd) (v_lane_index o) ->
  bindable (rd_net rd) (v_route o) -> (forall w, In w (rd_vehicles rd) -> bindable (rd_net rd) (v_route w)) ->
  exists out r', kin_observe c smax perc sh r (Some rd) o = Ok (out, r') /\ kin_usable c r' /\
    Z.of_nat (List.length out) = kc_count c /\ (forall row, In row out -> List.length row = List.length (kin_features c) /\ forall x, In x row -> -1 <= x <= 1).
Proof.
  intros (C & N & Cp & Kn & Bd & Nd) Hs Sh Le Bo Bw.
  destruct (C46_total c smax perc sh r rd o C Hs) as (out & r' & E); try assumption.
  { intros rr name a b -> H. apply (Nd name (a, b) H). }
  { now apply bindable_bound. }
  { intros w Hw. now apply bindable_bound, Bw. }
  exists out, r'. split; [exact E|]. split; [|exact (C46_in_space c smax perc sh r rd o out r' C Sh N Cp Bd E)].
  destruct (kin_observe_inv _ _ _ _ _ _ _ _ _ C E) as (close & first & others & _ & _ & _ & _ & Er & _ & _). rewrite N in Er. destruct Er as (rr & -> & K).
  unfold kin_ranges in K. destruct (ranges_set r) as [r0|] eqn:Rs.
  - okinj K. unfold ranges_set in Rs. destruct r as [[|x0 r1]|]; try discriminate Rs. injection Rs as <-. unfold kin_usable. tauto.
  - assert (D0 : forall name, In name (kin_features c) -> naturally_bounded name \/ is_relative name).
    { intros name Hn. destruct (Bd name Hn) as [H|H]; [now left | right]. unfold ranges_set in Rs. destruct r as [[|x0 r1]|]; [exact H | discriminate Rs | exact H]. }
    unfold default_ranges in K. destruct (exists_side _ _ Le) as (side & k & As & _ & Hk & _). rewrite As in K. cbn [bind] in K. okinj K.
    assert (0 < INR (List.length side)) by (apply lt_0_INR; lia). unfold kin_usable. split; [exact C|]. split; [exact N|]. split; [exact Cp|]. split; [exact Kn|]. split.
    + intros name Hn. destruct (D0 name Hn) as [H1|H1]; [now left | right]. cbn [keys map fst]. exact H1.
    + intros name ab Hin. unfold DEFAULT_WIDTH in Hin. cbn [In] in Hin. destruct Hin as [Q|[Q|[Q|[Q|[]]]]]; injection Q as <- <-; cbn [fst snd]; lra.
Qed.
Lemma exists_proper g i : lane_exists g i -> proper_id i.
Proof. intros (k & l & Ek & _). unfold proper_id. rewrite Ek. lia. Qed.
Lemma exists_count g i : lane_exists g i -> exists n k, lanes_count g i n /\ li_id i = Some (Z.of_nat k) /\ (k < n)%nat.
Proof. intros Le. destruct (exists_side _ _ Le) as (ls & k & As & Ek & Hk & _). exists (List.length ls), k. split; [now apply all_side_len|]. now split. Qed.
Lemma ttc_step rd v pf horizon : v_kind v = KMDP -> 0 < pf -> 0 <= horizon -> mdp_ok v -> lane_exists (rd_net rd) (v_lane_index v) ->
  (forall w, In w (rd_vehicles rd) -> lane_exists (rd_net rd) (v_lane_index w)) ->
  exists g n, ttc_observe rd v v pf horizon = Ok g /\ INR n <= horizon * pf < INR n + 1 /\ dims 3 3 n g /\
    forall plane row x, In plane g -> In row plane -> In x row -> x = 0 \/ x = 1/2 \/ x = 1.
Proof.
  intros K Hp Hh M Le Lw. destruct (M K) as [C Ix]. assert (Ht : 0 < 1 / pf) by (unfold Rdiv; rewrite Rmult_1_l; now apply Rinv_0_lt_compat).
  assert (Pid : forall w, In w (rd_vehicles rd) -> proper_id (v_lane_index w)) by (intros w W; eapply exists_proper, Lw, W).
  destruct (C48_never_raises rd v v (1 / pf) horizon K Ht Hh ltac:(lia) Le Le Lw) as [g0 E0].
  { intros a b (d1 & l1 & A1 & B1 & <-) (d2 & l2 & A2 & B2 & <-). assert (d1 = d2) as <- by congruence. assert (l1 = l2) as <- by congruence. lia. }
  destruct (exists_count _ _ Le) as (nl & lane & Cn & Ei & Hl).
  assert (exists g, ttc_observe rd v v pf horizon = Ok g) as [g E].
  { unfold ttc_observe. rewrite (proj2 (Reqb_false pf 0)) by lra. rewrite E0. cbn [bind]. destruct (exists_side _ _ Le) as (ls & k & As & _). rewrite As. cbn [bind]. rewrite Ei.
    destruct (C48_dimensions rd v v (1 / pf) horizon g0 Ht Hh Pid E0) as (n0 & nt0 & _ & _ & L0 & _). rewrite C in L0. destruct g0 as [|p0 g0]; [discriminate L0|]. cbn [map]. eauto. }
  destruct (C74_observation rd v v pf horizon g (Z.of_nat lane) Hp Pid E Ei nl Cn ltac:(lia) ltac:(lia) ltac:(lia)) as (g1 & E1 & D & Cells).
  assert (g1 = g0) as -> by congruence. assert (P : 0 <= horizon * pf) by nra.
  assert (Tr : Rtrunc (horizon / (1 / pf)) = Rfloor (horizon * pf)).
  { replace (horizon / (1 / pf)) with (horizon * pf) by (field; lra). unfold Rtrunc. now rewrite (proj2 (Rleb_true 0 _) P). }
  rewrite Tr in D, Cells. set (n := Z.to_nat (Rfloor (horizon * pf))) in *.
  exists g, n. split; [exact E|]. split; [|split; [exact D|]].
  - destruct (floor_bounds (horizon * pf)) as [F1 F2]. unfold n. rewrite INR_IZR_INZ, Z2Nat.id; [lra|]. apply Rfloor_nonneg. exact P.
  - intros plane row x Hpl Hr Hx. destruct D as [D1 D2]. apply In_nth_error in Hpl as [a Ha]. apply In_nth_error in Hr as [b Hb]. apply In_nth_error in Hx as [j Hj].
    assert (La : (a < 3)%nat) by (rewrite <- D1; apply nth_error_Some; congruence). rewrite Forall_forall in D2. destruct (D2 plane (nth_error_In _ _ Ha)) as [D3 D4].
    assert (Lb : (b < 3)%nat) by (rewrite <- D3; apply nth_error_Some; congruence). rewrite Forall_forall in D4. pose proof (D4 row (nth_error_In _ _ Hb)) as D5.
    assert (Lj : (j < n)%nat) by (rewrite <- D5; apply nth_error_Some; congruence). specialize (Cells a b j La Lb Lj). cbv zeta in Cells.
    assert (Q : cell g a b j = x). { unfold cell. rewrite (nth_error_nth _ _ _ Ha), (nth_error_nth _ _ _ Hb). apply nth_error_nth. exact Hj. }
    rewrite Q in Cells. destruct (_ && _)%bool in Cells; [|right; right; exact Cells]. rewrite Cells. eapply C48_values; eassumption.
Qed.
Lemma goal_step rd v goal : bindable (rd_net rd) (v_route v) -> o_speed goal = 0 ->
  exists go, goal_observe goal_names goal_scales (rd_net rd) (Some v) goal = Ok go /\
    go_achieved go = goal_features (v_pos v) (v_heading v) (v_speed v) /\ go_desired go = goal_features (o_pos goal) (o_heading goal) (o_speed goal) /\ go_achieved go = go_observation go.
Proof.
  intros B S0. apply bindable_bound in B. destruct (C77_parking_reward_is_of_observation (rd_net rd) v goal B S0) as (go & E & A & D & _). exists go.
  split; [exact E|]. split; [exact A|]. split; [exact D|]. apply C77_goal_observation in E. apply E.
Qed.

(** ** All observers *)
Definition goal_ready (s : scene) (goal : option object) : Prop := is_goal_scene s -> exists o, goal = Some o /\ o_speed o = 0.
Lemma observe_one_total cs cf s t sh goal rd ev v r : observation_fits cf s t -> shared_grid cs -> (forall l, Permutation (sh l) l) -> goal_ready s goal ->
  (forall w, In w (rd_vehicles rd) -> sound (rd_net rd) w /\ lane_exists (rd_net rd) (v_lane_index w)) -> In v (rd_vehicles rd) -> v_kind v = ego_kind cf ->
  (forall ob, t = OneObserver ob -> v = ev) -> state_ok (observer_of t) r ->
  exists ob r', observe_one cs (cf_policy cf) (observer_of t) sh goal rd ev v r = Ok (ob, r') /\ in_observation_space (cf_policy cf) t ob /\ state_ok (observer_of t) r' /\
    (forall o, observer_of t = KinematicsGoal goal_names goal_scales -> goal = Some o -> exists go, ob = ObsGoal go /\ go_achieved go = goal_features (v_pos v) (v_heading v) (v_speed v) /\
       go_desired go = goal_features (o_pos o) (o_heading o) (o_speed o)).
Proof.
  intros Fit Sg Sh Go Al Hv Kv Ov St. destruct (Al v Hv) as [[Bv Mv] Lv]. unfold observation_fits, in_observation_space, state_ok in *. destruct (observer_of t) as [c r0|horizon|names scales] eqn:T; cbn [observe_one].
  - destruct (kin_step c (sg_max (cl_grid cs)) PERCEPTION sh r rd v St (shared_max _ Sg) Sh Lv Bv) as (out & r' & E & U & Ln & Rw); [intros w Hw; apply Al, Hw|].
    rewrite E. cbn [bind]. do 2 eexists. split; [reflexivity|]. split; [now split|]. split; [exact U | discriminate].
  - destruct Fit as (K & Hp & Hh & T1). rewrite <- (Ov _ T1). destruct (ttc_step rd v (cf_policy cf) horizon) as (g & n & E & Hn & D & Vx); try assumption; [congruence | intros w Hw; apply Al, Hw|].
    rewrite E. cbn [bind]. do 2 eexists. split; [reflexivity|]. split; [exists n; now split|]. split; [exact I | discriminate].
  - destruct Fit as (G & -> & ->). destruct (Go G) as (o & -> & So). destruct (goal_step rd v o Bv So) as (go & E & A & D & Ao). rewrite E. cbn [bind]. do 2 eexists. split; [reflexivity|].
    split; [rewrite <- Ao, A, D; split; [reflexivity | split; reflexivity]|]. split; [exact I|]. intros o' _ [= <-]. exists go. now split.
Qed.
(** ** All observed vehicles *)
Lemma controlled_all sc e : ready sc e -> Forall2 (fun id v => vehicle_by_id (e_road e) id = Some v) (e_controlled e) (controlled e).
Proof.
  intros (_ & _ & _ & H). unfold controlled. revert H. generalize (e_controlled e) as l. induction l as [|id l IH]; intros H; cbn [flat_map]; [constructor|].
  destruct (H id (or_introl eq_refl)) as (v & Hv & Iv & _). unfold vehicle_by_id at 2. destruct (find _ _) as [w|] eqn:F.
  - cbn [app]. constructor; [exact F | apply IH; intros i Hi; apply H; now right].
  - eapply find_none in F; [|exact Hv]. apply Nat.eqb_neq in F. congruence.
Qed.
Lemma controlled_count sc e : ready sc e -> List.length (controlled e) = List.length (e_controlled e).
Proof. intros R. induction (controlled_all _ _ R); cbn [List.length]; congruence. Qed.
Lemma ego_first sc e v : ready sc e -> ego e = Ok v -> exists vs, controlled e = v :: vs.
Proof.
  intros R E. unfold ego in E. pose proof (controlled_all _ _ R) as F. destruct (e_controlled e) as [|id ids]; [discriminate|]. inversion F as [|a b c d Hv]; subst. rewrite Hv in E. injection E as <-. now exists d.
Qed.
Lemma mapM_combine {A B C} (f : nat * (A * B) -> res C) (Q : A -> C -> Prop) vs : forall k rs, List.length rs = List.length vs ->
  (forall i v r, In v vs -> In r rs -> exists o, f (i, (v, r)) = Ok o /\ Q v o) ->
  exists os, mapM f (combine (seq k (List.length vs)) (combine vs rs)) = Ok os /\ Forall2 Q vs os.
Proof.
  induction vs as [|v vs IH]; intros k [|r rs] L H; try discriminate L; [now exists []|]. cbn [List.length seq combine mapM].
  destruct (H k v r (or_introl eq_refl) (or_introl eq_refl)) as (o & -> & Ho). cbn [bind].
  destruct (IH (Datatypes.S k) rs) as (os & -> & F); [now injection L | intros i w x Hw Hx; apply H; now right|]. cbn [bind]. exists (o :: os). split; [reflexivity | now constructor].
Qed.
(** What is said of the observation of [v], and of its observer. *)
Definition well_observed (cf : common) (t : observation_type) (goal : option object) (v : vehicle) (x : observation * option ranges) : Prop :=
  in_observation_space (cf_policy cf) t (fst x) /\ state_ok (observer_of t) (snd x) /\
  forall o, observer_of t = KinematicsGoal goal_names goal_scales -> goal = Some o ->
    exists go, fst x = ObsGoal go /\ go_achieved go = goal_features (v_pos v) (v_heading v) (v_speed v) /\ go_desired go = goal_features (o_pos o) (o_heading o) (o_speed o).
Lemma runnable_ready sc e : ready sc e -> forall w, In w (rd_vehicles (e_road e)) -> lane_exists (rd_net (e_road e)) (v_lane_index w).
Proof. intros (Rr & _) w Hw. unfold road_ready in Rr. assert (Ru : runnable (e_road e)) by (destruct (sc_regulated sc); [apply Rr | exact Rr]). destruct Ru as (_ & _ & W & _). now apply W. Qed.
Lemma observe_total cs cf s t sh goal e states sc : observation_fits cf s t -> shared_grid cs -> shuffles sh -> goal_ready s goal -> ready sc e -> sc_action sc = cf_action cf ->
  all_sound (rd_net (e_road e)) (e_road e) -> List.length states = match t with OneObserver _ => 1%nat | ManyObservers _ => List.length (e_controlled e) end ->
  Forall (state_ok (observer_of t)) states ->
  exists vs os, observed t e = Ok vs /\ observe cs (cf_policy cf) t sh goal e states = Ok os /\ Forall2 (well_observed cf t goal) vs os /\ List.length vs = List.length states.
Proof.
  intros Fit Sg Sh Go R Ac Al L St. destruct (ready_ego _ _ R) as (ev & Ev & Hev & Kev & Lev). rewrite Ac in Kev. change (v_kind ev = ego_kind cf) in Kev.
  assert (Al' : forall w, In w (rd_vehicles (e_road e)) -> sound (rd_net (e_road e)) w /\ lane_exists (rd_net (e_road e)) (v_lane_index w)) by (intros w Hw; split; [now apply Al | eapply runnable_ready; eassumption]).
  assert (exists vs, observed t e = Ok vs /\ List.length vs = List.length states /\ (forall v, In v vs -> In v (rd_vehicles (e_road e)) /\ v_kind v = ego_kind cf) /\ forall ob, t = OneObserver ob -> vs = [ev]) as (vs & Ov & Lv & Iv & Iov).
  { destruct t as [ob|ob]; cbn [observed].
    - rewrite Ev. cbn [bind]. exists [ev]. split; [reflexivity|]. split; [now rewrite L|]. split; [|reflexivity]. intros v [<- |[]]. now split.
    - exists (controlled e). split; [reflexivity|]. split; [now rewrite L, (controlled_count _ _ R)|]. split; [|discriminate].
      intros v Hv. destruct (ready_controlled _ _ R v Hv) as (A & _ & K & _). rewrite Ac in K. now split. }
  exists vs. unfold observe. rewrite Ev, Ov. cbn [bind].
  destruct (mapM_combine (fun kvr => observe_one cs (cf_policy cf) (observer_of t) (sh (fst kvr)) goal (e_road e) ev (fst (snd kvr)) (snd (snd kvr))) (well_observed cf t goal) vs 0 states) as (os & E & F).
  - now symmetry.
  - intros i v r Hv Hr. cbn [fst snd]. rewrite Forall_forall in St. destruct (Iv v Hv) as [Hin Kv].
    destruct (observe_one_total cs cf s t (sh i) goal (e_road e) ev v r Fit Sg (Sh i) Go Al' Hin Kv) as (ob & r' & E & Sp & So & G).
    + intros ob T. rewrite (Iov _ T) in Hv. destruct Hv as [<- |[]]. reflexivity.
    + now apply St.
    + exists (ob, r'). split; [exact E|]. split; [exact Sp | split; [exact So | exact G]].
  - exists os. split; [reflexivity|]. split; [exact E|]. split; [exact F | exact Lv].
Qed.

(** ** Playing *)
Definition scenario_of (cf : common) (s : scene) (goal : option object) : scenario :=
  let sim := INR (cf_simulation cf) in
  let pol := cf_policy cf in
  let man := cf_manual cf in
  let act := cf_action cf in
  let o := match goal with Some o => o | None => Object 0 KLandmark (0, 0) 0 0 false end in
  match s with
  | SHighway h => highway_scenario (hs_cfg h) sim pol man act
  | STwoWay => two_way_scenario sim pol man act
  | SMerge => merge_scenario sim pol man act
  | SParking _ dur => parking_scenario parking_compute o dur sim pol man act
  | SSummon _ dur => summon_scenario o dur sim pol man act
  | SRoundabout dur _ => roundabout_scenario dur sim pol man act
  | SIntersection c _ _ _ _ => intersection_scenario c sim pol man act
  end.
Definition nonzero_target (v : vehicle) : Prop := is_controlled (v_kind v) = true -> v_target_speed v <> 0.
Definition merge_targets (s : scene) (rd : road) : Prop :=
  match s with SMerge => forall v, In v (rd_vehicles rd) -> v_kind v <> KControlled /\ nonzero_target v | _ => True end.
Definition playing (cf : common) (s : scene) (t : observation_type) (k : nat) (g : gym) : Prop :=
  (gy_cf g = cf /\ gy_scene g = s /\ gy_type g = t /\ gy_scenario g = scenario_of cf s (gy_goal g) /\ goal_ready s (gy_goal g)) /\
  (frequencies_ok (gy_scenario g) /\ decides (gy_scenario g)) /\
  (alive s (gy_scenario g) (gy_env g) /\ rd_net (e_road (gy_env g)) = scene_net s /\ all_sound (scene_net s) (e_road (gy_env g)) /\ merge_targets s (e_road (gy_env g))) /\
  (List.length (e_controlled (gy_env g)) = agents_count s /\ e_steps (gy_env g) = Z.of_nat k /\ e_done (gy_env g) = false) /\
  (List.length (gy_states g) = observers_count s t /\ Forall (state_ok (observer_of t)) (gy_states g)).
Lemma scenario_facts cf s goal : sc_action (scenario_of cf s goal) = cf_action cf /\ sc_policy (scenario_of cf s goal) = cf_policy cf /\ sc_simulation (scenario_of cf s goal) = INR (cf_simulation cf) /\
  (sc_regulated (scenario_of cf s goal) = true <-> exists c n m dst p, s = SIntersection c n m dst p).
Proof.
  split; [destruct s; reflexivity|]. split; [destruct s; reflexivity|]. split; [destruct s; reflexivity|].
  destruct s; cbn [scenario_of sc_regulated highway_scenario two_way_scenario merge_scenario parking_scenario summon_scenario roundabout_scenario intersection_scenario]; (split; [|intros (? & ? & ? & ? & ? & Q); (discriminate Q || reflexivity)]); try discriminate.
  intros _. now eexists _, _, _, _, _.
Qed.
Lemma traffic_target cs c g id p h x b v : x <> 0 -> new_traffic cs c g id p h x b = Ok v -> v_kind v <> KControlled /\ nonzero_target v.
Proof.
  intros Hx E. unfold new_traffic, new_idm, new_controlled in E. apply bind_ok in E as (w & Ew & E). apply bind_ok in Ew as (w0 & _ & Ew).
  apply (f_equal (fun r => match r with Ok x => v_target_speed x | Err _ => 0 end)) in Ew. cbn [v_target_speed] in Ew. unfold float_or in Ew. okinj E. split; [destruct c; discriminate|].
  intros _. cbn [v_target_speed]. rewrite <- Ew. exact Hx.
Qed.
Lemma merge_started cs cf (rd0 : road) adds e : cl_grid cs = SpeedGrid 20 30 3 -> rd_vehicles rd0 = [] -> (forall i x y, In (i, x, y) adds -> y <> 0) ->
  (do l <- get_lane (rd_net rd0) ("a", "b", Some 1%Z)%string;
   let id := fresh_id rd0 [] in
   do e <- new_ego cs (ego_kind cf) (rd_net rd0) id (l_position l 30 0) 0 30;
   do rd <- foldM (merge_other cs cf) adds (add_vehicle rd0 e);
   do m <- get_lane (rd_net rd) ("j", "k", Some 0%Z)%string;
   do v <- new_traffic cs (cf_traffic cf) (rd_net rd) (fresh_id rd []) (l_position m 110 0) 0 20 true;
   Ok (fresh_env (add_vehicle rd (set_target_speed v 30)) [id])) = Ok e -> merge_targets SMerge (e_road e).
Proof.
  intros Sg Em Hy H. cbv zeta in H. apply bind_ok in H as (l & _ & H). apply bind_ok in H as (v & Ev & H). apply bind_ok in H as (rd1 & E1 & H). apply bind_ok in H as (m & _ & H). apply bind_ok in H as (w & Ew & H). okinj H.
  cbn [fresh_env e_road]. set (P := merge_targets SMerge) in *.
  assert (Ad : forall rd u, P rd -> v_kind u <> KControlled /\ nonzero_target u -> P (add_vehicle rd u)).
  { intros rd u Hr Hu x Hx. cbn in Hx. apply in_app_or in Hx as [Hx|[<- |[]]]; [now apply Hr | exact Hu]. }
  apply Ad.
  - eapply (foldM_keeps P); [|exact E1|].
    + intros s [[i x] y] s' Hin E Hs. unfold merge_other in E. apply bind_ok in E as (l' & _ & E). apply bind_ok in E as (u & Eu & E). okinj E.
      apply Ad; [exact Hs|]. eapply traffic_target; [|exact Eu]. eapply Hy. exact Hin.
    + apply Ad; [intros x Hx; rewrite Em in Hx; destruct Hx|]. pose proof (ego_made _ _ _ _ _ _ _ _ (ego_kind_cases cf) (or_intror I) Ev) as [K M]. split; [destruct (ego_kind_cases cf) as [Q|[Q|Q]]; congruence|].
      intros C. destruct (ego_kind_cases cf) as [Q|[Q|Q]]; [| rewrite K, Q in C; discriminate C | rewrite K, Q in C; discriminate C].
      rewrite Q in Ev. unfold new_ego, new_mdp in Ev. apply bind_ok in Ev as (u & _ & Ev). okinj Ev. cbn [v_target_speed]. rewrite Sg. apply level_nonzero, speed_index_bounds. reflexivity.
  - pose proof (traffic_target _ _ _ _ _ _ _ _ _ (ltac:(lra) : 20 <> 0) Ew) as [K _]. split; [exact K|]. intros _. cbn [set_target_speed v_target_speed]. lra.
Qed.
Lemma merge_empty cf : rd_vehicles (add_object (empty_road merge_net cf) (Object 1 KObstacle (l_position merge_lbc 80 0) 0 0 false)) = [].
Proof. reflexivity. Qed.
Lemma merge_others_move : forall i x y, In (i, x, y) [(("a", "b", Some 0%Z), 90, 29); (("a", "b", Some 1%Z), 70, 31); (("a", "b", Some 0%Z), 5, 315/10)]%string -> y <> 0.
Proof. intros i x y Hin. destruct Hin as [Q|[Q|[Q|[]]]]; injection Q as _ _ <-; lra. Qed.

Lemma merge_reset_shape cs cf : exists rd0 adds, rd0 = add_object (empty_road merge_net cf) (Object 1 KObstacle (l_position merge_lbc 80 0) 0 0 false) /\ adds = [(("a", "b", Some 0%Z), 90, 29); (("a", "b", Some 1%Z), 70, 31); (("a", "b", Some 0%Z), 5, 315/10)]%string /\
 merge_reset cs cf = (do l <- get_lane (rd_net rd0) ("a", "b", Some 1%Z)%string;
   let id := fresh_id rd0 [] in
   do e <- new_ego cs (ego_kind cf) (rd_net rd0) id (l_position l 30 0) 0 30;
   do rd <- foldM (merge_other cs cf) adds (add_vehicle rd0 e);
   do m <- get_lane (rd_net rd) ("j", "k", Some 0%Z)%string;
   do v <- new_traffic cs (cf_traffic cf) (rd_net rd) (fresh_id rd []) (l_position m 110 0) 0 20 true;
   Ok (fresh_env (add_vehicle rd (set_target_speed v 30)) [id])).
Proof. eexists _, _. split; [reflexivity|]. split; [reflexivity|]. unfold merge_reset. cbv zeta. reflexivity. Qed.
Lemma merge_starting_targets cs cf e : cl_grid cs = SpeedGrid 20 30 3 -> merge_reset cs cf = Ok e -> merge_targets SMerge (e_road e).
Proof.
  intros Sg H. destruct (merge_reset_shape cs cf) as (rd0 & adds & -> & -> & E). rewrite E in H. refine (merge_started cs cf _ _ e Sg (merge_empty cf) merge_others_move H). 
Qed.
Lemma reset_scene cs cf s d cs' sc e : store_fits s cs -> draws_ok d -> reset cs cf s d = Ok (cs', sc, e) -> alive s sc e ->
  sc = scenario_of cf s (goal_of s e) /\ goal_ready s (goal_of s e) /\ rd_net (e_road e) = scene_net s /\ all_sound (scene_net s) (e_road e) /\ merge_targets s (e_road e).
Proof.
  intros Sf D E A. assert (Sg : shared_grid cs) by (destruct s; try exact Sf; left; exact Sf). unfold reset in E. destruct s as [h| | |n dur|n dur|dur inc|c n m dst prob]; cbn [goal_of scene_net goal_ready is_goal_scene merge_targets].
  - apply bind_ok in E as (e0 & H & E). assert (e0 = e) as <- by congruence. assert (Q : sc = scenario_of cf (SHighway h) None) by (cbn [scenario_of]; congruence).
    split; [exact Q|]. split; [intros []|]. apply highway_starting in H as [N S]; [|exact Sg]. split; [exact N|]. split; [exact S | exact I].
  - apply bind_ok in E as (e0 & H & E). assert (e0 = e) as <- by congruence. assert (Q : sc = scenario_of cf STwoWay None) by (cbn [scenario_of]; congruence).
    split; [exact Q|]. split; [intros []|]. apply two_way_starting in H as [N S]; [|exact Sg]. split; [exact N|]. split; [exact S | exact I].
  - apply bind_ok in E as (e0 & H & E). assert (e0 = e) as <- by congruence. assert (Q : sc = scenario_of cf SMerge None) by (cbn [scenario_of]; congruence).
    split; [exact Q|]. split; [intros []|]. pose proof (merge_starting_targets _ _ _ Sf H) as T. apply merge_starting in H as [N S]; [|exact Sg]. split; [exact N|]. split; [exact S | exact T].
  - apply bind_ok in E as ([go e0] & H & E). assert (e0 = e) as <- by congruence. apply parking_starting in H as ([N S] & O & Z); [|exact Sg]. rewrite O. cbn [hd_error].
    assert (Q : sc = scenario_of cf (SParking n dur) (Some go)) by (cbn [scenario_of]; congruence). split; [exact Q|]. split; [intros _; exists go; split; [reflexivity | exact Z]|]. split; [exact N|]. split; [exact S | exact I].
  - apply bind_ok in E as ([go e0] & H & E). assert (e0 = e) as <- by congruence. apply summon_starting in H as ([N S] & O & Z); [|exact Sg]. rewrite O. cbn [hd_error].
    assert (Q : sc = scenario_of cf (SSummon n dur) (Some go)) by (cbn [scenario_of]; congruence). split; [exact Q|]. split; [intros _; exists go; split; [reflexivity | exact Z]|]. split; [exact N|]. split; [exact S | exact I].
  - apply bind_ok in E as ([cs1 e0] & H & E). assert (e0 = e) as <- by congruence. assert (Q : sc = scenario_of cf (SRoundabout dur inc) None) by (cbn [scenario_of]; congruence).
    split; [exact Q|]. split; [intros []|]. apply roundabout_starting in H as [N S]; [|exact Sg | exact D]. split; [exact N|]. split; [exact S | exact I].
  - apply bind_ok in E as ([cs1 e0] & H & E). assert (e0 = e) as <- by congruence. assert (Q : sc = scenario_of cf (SIntersection c n m dst prob) None) by (cbn [scenario_of]; congruence).
    split; [exact Q|]. split; [intros []|]. destruct A as [_ (N & _ & F & _)]. split; [exact N|]. split; [|exact I]. intros v Hv. split; [|eapply intersection_mdp; eassumption].
    rewrite Forall_forall in F. apply resolvable_bindable. apply (F v Hv).
Qed.
Lemma assigned_shared cs cf s : shared_grid cs -> shared_grid (assigned cs cf s).
Proof. intros H. destruct s; cbn [assigned]; try exact H; try (right; reflexivity); destruct (cf_traffic cf); exact H. Qed.
Lemma fresh_ok cf s t : observation_fits cf s t -> state_ok (observer_of t) (fresh_state (observer_of t)).
Proof. unfold observation_fits, state_ok, fresh_state. destruct (observer_of t); trivial. Qed.
Lemma Forall2_right {A B} (Q : A -> B -> Prop) (P : B -> Prop) l m : Forall2 Q l m -> (forall a b, Q a b -> P b) -> Forall P m.
Proof. intros F H. induction F; constructor; eauto. Qed.
Lemma reset_playing cs cf s t d sh : draws_ok d -> classes_fit cf s -> options_fit cf s d -> cf_policy cf <> 0 -> store_fits s cs -> observation_fits cf s t -> shuffles sh ->
  exists cs' g obs vs, gym_reset cs cf s t d sh = Ok (cs', g, obs) /\ playing cf s t 0 g /\ shared_grid cs' /\ cs' = assigned cs cf s /\ observed t (gy_env g) = Ok vs /\ List.length obs = observers_count s t /\
    Forall2 (fun v ob => exists r, well_observed cf t (gy_goal g) v (ob, r)) vs obs.
Proof.
  intros D C O P Sf Fit Sh. assert (Sg : shared_grid cs) by (destruct s; try exact Sf; left; exact Sf).
  destruct (reset_alive cs cf s d D C O) as (cs' & sc & e & E & A & (T0 & St & Dn & L & _) & Ac & Po & Si & De & Rg).
  destruct (reset_scene cs cf s d cs' sc e Sf D E A) as (Sc & G & N & S & M). pose proof (reset_fits _ _ _ _ _ _ _ E) as [As _].
  assert (Sg' : shared_grid cs') by (rewrite As; now apply assigned_shared).
  assert (R : ready sc e) by (destruct s; try exact A; apply A).
  unfold gym_reset. rewrite E. cbn [bind fst snd].
  set (k := match t with OneObserver _ => 1%nat | ManyObservers _ => List.length (e_controlled e) end).
  destruct (observe_total cs' cf s t sh (goal_of s e) e (repeat (fresh_state (observer_of t)) k) sc) as (vs & os & Ov & Eo & F & Lv); try assumption.
  { rewrite N. exact S. }
  { apply repeat_length. }
  { apply Forall_forall. intros x Hx. apply repeat_spec in Hx as ->. eapply fresh_ok; exact Fit. }
  rewrite Eo. cbn [bind]. rewrite repeat_length in Lv. assert (Lo : List.length os = k) by (rewrite <- Lv; clear -F; induction F; cbn [List.length]; congruence).
  assert (Kc : k = observers_count s t) by (unfold k, observers_count; destruct t; [reflexivity | exact L]).
  exists cs'. eexists. exists (map fst os), vs. split; [reflexivity|]. split; [|split; [exact Sg'|split; [exact As|split; [exact Ov|split; [now rewrite map_length, Lo|]]]]].
  - unfold playing. cbn [gy_cf gy_scene gy_type gy_scenario gy_goal gy_states gy_env]. split; [do 3 (split; [reflexivity|]); split; [exact Sc | exact G]|].
    split; [|split; [exact (conj A (conj N (conj S M)))|split; [split; [exact L|]; split; [exact St | exact Dn]|]]].
    + split; [|exact De]. split; [now rewrite Po|]. intros Q. apply Rg in Q as (c0 & n0 & m0 & dst0 & p0 & ->). rewrite Si. destruct O as (_ & H & _). apply (le_INR 2) in H. cbn in H. lra.
    + split; [now rewrite map_length, Lo|]. apply Forall_map. eapply Forall2_right; [exact F|]. intros v x H. apply H.
  - clear -F. induction F as [|v [ob r] vs os H F IH]; cbn [map fst]; constructor; [now exists r | exact IH].
Qed.

(** ** Steps *)
Lemma persists_seen cs cf s e : persists (e_road e) (e_road (seen_env cs cf s e)).
Proof.
  unfold persists. cbn. induction (rd_vehicles (e_road e)) as [|v vs IH]; cbn [map]; constructor; [|exact IH].
  unfold look_up. destruct v as [i k]. destruct k; cbn; try tauto. destruct (has_own_grid s); cbn; tauto.
Qed.
Lemma seen_targets cs cf s e : merge_targets s (e_road e) -> merge_targets s (e_road (seen_env cs cf s e)).
Proof.
  destruct s; trivial. cbn [merge_targets]. intros H w Hw. cbn in Hw. apply in_map_iff in Hw as (v & <- & Hv). specialize (H v Hv). unfold nonzero_target in *.
  unfold look_up. destruct v as [i k]. destruct k; cbn in *; exact H.
Qed.
Lemma env_part cf s t k g cs o a : playing cf s t k g -> store_fits s cs -> oracle_ok o -> in_action_space (cf_action cf) (agents_count s) a ->
  exists e1, env_step (gy_scenario g) o (seen_env cs cf s (gy_env g)) a = Ok e1 /\ alive s (gy_scenario g) e1 /\ rd_net (e_road e1) = scene_net s /\ all_sound (scene_net s) (e_road e1) /\
    merge_targets s (e_road e1) /\ e_controlled e1 = e_controlled (gy_env g) /\ e_steps e1 = Z.of_nat (k + 1) /\ e_done e1 = false /\ persists (e_road (gy_env g)) (e_road e1).
Proof.
  intros ((Cf & Sc & Ty & Sn & Go) & (Hf & De) & (A & N & S & M) & (L & St & Dn) & _) Sf Ho Ha. set (sc := gy_scenario g) in *. set (e := gy_env g) in *.
  assert (Sg : shared_grid cs) by (destruct s; try exact Sf; left; exact Sf).
  destruct (scenario_facts cf s (gy_goal g)) as (Ac & Po & Si & Rg). rewrite <- Sn in Ac, Po, Si, Rg.
  pose proof (seen_alive cs cf s sc e Rg A) as A'. assert (R' : ready sc (seen_env cs cf s e)) by (destruct s; try exact A'; apply A').
  rewrite <- Ac, <- L in Ha. destruct (env_step_total sc o (seen_env cs cf s e) a Hf De Ho R' Ha) as (e1 & E & R1). exists e1. split; [exact E|].
  pose proof (env_step_persists _ _ _ _ _ E) as (P & C & Ss & Dd & _). pose proof (env_step_net _ _ _ _ _ E) as [N1 O1].
  change (rd_net (e_road (seen_env cs cf s e))) with (rd_net (e_road e)) in N1. rewrite N in N1.
  split; [|split; [exact N1|split; [|split; [|split; [exact C|split; [|split; [rewrite Dd; exact Dn|]]]]]]].
  - destruct s as [h| | |n dur|n dur|dur inc|c n m dst prob]; try exact R1. split; [exact R1|]. destruct A' as [_ Cr]. assert (Rt : sc_regulated sc = true) by (apply Rg; now eexists _, _, _, _, _).
    apply crossing_of; [destruct R1 as (R1 & _); unfold road_ready in R1; now rewrite Rt in R1 | exact N1 | apply O1, Cr | rewrite (persists_ids _ _ P); apply Cr].
  - eapply env_step_sound; [exact E|]. now apply seen_sound.
  - pose proof (seen_targets cs cf s e M) as M'. destruct s as [h| | |n dur|n dur|dur inc|c n m dst prob]; try exact I. cbn [merge_targets] in *. assert (Rf : sc_regulated sc = false) by (rewrite Sn; reflexivity).
    apply (env_step_moved target_kept _ _ _ _ _ Rf target_movable) in E as (_ & _ & _ & F). intros w Hw. destruct (Forall2_In_r _ _ _ F w Hw) as (v & Hv & Kk & _ & T). destruct (M' v Hv) as [K1 Nz].
    rewrite Kk. split; [exact K1|]. intros Cw. rewrite Kk in Cw. apply T; [exact K1 | | exact (Nz Cw)]. intros Km. cbn in Hv. apply in_map_iff in Hv as (u & <- & Hu). unfold look_up in Km |- *.
    destruct u as [iu ku]. destruct ku; cbn in Km |- *; try discriminate Km. exact Sf.
  - rewrite Ss. change (e_steps (seen_env cs cf s e)) with (e_steps e). rewrite St. lia.
  - eapply persists_trans; [apply persists_seen | exact P].
Qed.
Lemma by_id_in rd id v : distinct_vehicles rd -> In v (rd_vehicles rd) -> v_id v = id -> vehicle_by_id rd id = Some v.
Proof.
  unfold distinct_vehicles, vehicle_by_id. intros D Hv <-. induction (rd_vehicles rd) as [|w ws IH]; [destruct Hv|]. cbn [find]. destruct Hv as [-> |Hv]; [now rewrite Nat.eqb_refl|].
  cbn [map] in D. inversion D as [|? ? Nw Dw]; subst. destruct (Nat.eqb (v_id w) (v_id v)) eqn:Q; [|now apply IH]. apply Nat.eqb_eq in Q. elim Nw. rewrite Q. now apply in_map.
Qed.
Lemma same_controlled e e' : e_controlled e' = e_controlled e -> (forall id, In id (e_controlled e) -> vehicle_by_id (e_road e') id = vehicle_by_id (e_road e) id) ->
  controlled e' = controlled e /\ ego e' = ego e.
Proof.
  intros C H. split.
  - unfold controlled. rewrite C. revert H. generalize (e_controlled e) as l. induction l as [|id l IH]; intros H; cbn [flat_map]; [reflexivity|]. rewrite (H id (or_introl eq_refl)), IH; [reflexivity|].
    intros i Hi. apply H. now right.
  - unfold ego. rewrite C. destruct (e_controlled e) as [|id l]; [reflexivity|]. now rewrite (H id (or_introl eq_refl)).
Qed.
(** Clearing and spawning at the intersection do not concern controlled vehicles. *)
Lemma traffic_part cs c d prob sc e1 : sc_regulated sc = true -> draws_ok d -> crossing_env sc e1 -> all_sound intersection_net (e_road e1) ->
  exists rd2 rd3, clear_vehicles (e_controlled e1) (e_road e1) = Ok rd2 /\ spawn cs c d 0 (e_controlled e1) 0 1 1 prob false rd2 = Ok rd3 /\
    crossing_env sc (set_road e1 rd3) /\ all_sound intersection_net rd3 /\ controlled (set_road e1 rd3) = controlled e1 /\ ego (set_road e1 rd3) = ego e1 /\
    (forall id, In id (e_controlled e1) -> vehicle_by_id rd3 id = vehicle_by_id (e_road e1) id).
Proof.
  intros Rg D [R1 Cr1] S. destruct (clear_spec (e_controlled e1) (e_road e1) Cr1) as (keep & E2 & Hk).
  destruct (clear_total (e_controlled e1) (e_road e1) Cr1) as (rd2 & E2' & Cr2 & K2). rewrite E2 in E2'. okinj E2'. 
  destruct (spawn_total cs c d 0 (e_controlled e1) 0 1 1 prob false _ D Cr2) as (rd3 & E3 & Cr3 & K3). eexists. exists rd3. split; [exact E2|]. split; [exact E3|].
  assert (Ids : forall id, In id (e_controlled e1) -> vehicle_by_id rd3 id = vehicle_by_id (e_road e1) id).
  { intros id Hid. destruct R1 as (_ & Dn & _ & A). destruct (A id Hid) as (v & Hv & Iv & _). rewrite (by_id_in (e_road e1) id v Dn Hv Iv). apply by_id_in; [apply Cr3 | | exact Iv].
    apply K3, K2; [exact Hv | now rewrite Iv]. }
  assert (Cs : controlled (set_road e1 rd3) = controlled e1 /\ ego (set_road e1 rd3) = ego e1) by (apply same_controlled; [reflexivity | exact Ids]).
  split; [|split; [|split; [apply Cs | split; [apply Cs | exact Ids]]]].
  - apply crossing_env_make; [exact Rg | exact Cr3 | apply R1|]. intros id Hid. destruct R1 as (_ & _ & _ & A). destruct (A id Hid) as (v & Hv & Ev & Kv). exists v. split; [apply K3, K2; [exact Hv | now rewrite Ev] | now split].
  - assert (M : all_mdp rd3). { eapply spawn_mdp; [exact E3|]. intros v Hv. cbn in Hv. apply filter_In in Hv as [Hv _]. apply (S v Hv). }
    intros v Hv. split; [|now apply M]. destruct Cr3 as (_ & _ & F & _). rewrite Forall_forall in F. apply resolvable_bindable, (F v Hv).
Qed.
(** What one step leaves and returns. *)
Definition stays_crashed (g g1 : gym) : Prop :=
  e_controlled (gy_env g1) = e_controlled (gy_env g) /\
  forall id v, In id (e_controlled (gy_env g)) -> vehicle_by_id (e_road (gy_env g)) id = Some v -> v_crashed v = true ->
    exists w, vehicle_by_id (e_road (gy_env g1)) id = Some w /\ v_crashed w = true.
Definition extra_info (cf : common) (s : scene) (e : env) (obs : list observation) (crashed : bool) (nf : info) : Prop :=
  match s with
  | SIntersection c _ _ _ _ => nf_success nf = None /\ exists rs ds, nf_agents nf = Some (rs, ds) /\ mapM (agent_reward c (rd_net (e_road e))) (controlled e) = Ok rs /\
      mapM (agent_terminal c (cf_policy cf) e) (controlled e) = Ok ds
  | SParking _ _ | SSummon _ _ => nf_agents nf = None /\ exists su, nf_success nf = Some su /\ mapM (goal_success s crashed) obs = Ok su
  | _ => nf_agents nf = None /\ nf_success nf = None
  end.
Definition played (cf : common) (s : scene) (t : observation_type) (k : nat) (cs : classes) (a : agent_action) (g g1 : gym) (out : outcome) : Prop :=
  playing cf s t k g1 /\ gy_goal g1 = gy_goal g /\ stays_crashed g g1 /\
  (exists vs, observed t (gy_env g1) = Ok vs /\ Forall2 (fun v ob => exists r, well_observed cf t (gy_goal g1) v (ob, r)) vs (ou_obs out)) /\
  List.length (ou_obs out) = observers_count s t /\
  scene_reward cs s t (gy_goal g1) (gy_env g1) a = Ok (ou_reward out) /\
  sc_terminal (gy_scenario g1) (gy_env g1) = Ok (ou_done out) /\
  exists v, ego (gy_env g1) = Ok v /\ nf_speed (ou_info out) = v_speed v /\ nf_crashed (ou_info out) = v_crashed v /\ nf_action (ou_info out) = a /\
    nf_cost (ou_info out) = scene_cost s v /\ extra_info cf s (gy_env g1) (ou_obs out) (v_crashed v) (ou_info out).
Lemma mapM_total {A B} (f : A -> res B) l : (forall x, In x l -> exists y, f x = Ok y) -> exists ys, mapM f l = Ok ys.
Proof.
  induction l as [|x l IH]; intros H; cbn [mapM]; [now exists []|]. destruct (H x (or_introl eq_refl)) as [y ->]. cbn [bind]. destruct IH as [ys ->]; [intros z Hz; apply H; now right|]. now exists (y :: ys).
Qed.
Lemma agents_total c pol sc e : is_collision c <= 0 -> ready sc e -> vehicle_class (agent_of (sc_action sc)) = KMDP ->
  (exists rs, mapM (agent_reward c (rd_net (e_road e))) (controlled e) = Ok rs) /\ exists ds, mapM (agent_terminal c pol e) (controlled e) = Ok ds.
Proof.
  intros Hc R K. assert (G : forall v, In v (controlled e) -> v_kind v = KMDP /\ exists l, get_lane (rd_net (e_road e)) (v_lane_index v) = Ok l).
  { intros v Hv. destruct (ready_controlled _ _ R v Hv) as (_ & _ & Kv & Le). split; [congruence|]. destruct Le as (j & l & Ej & Hl). exists l. destruct (v_lane_index v) as [[x y] i]. cbn [li_id snd] in Ej. subst i. now apply get_lane_nat. }
  split; apply mapM_total; intros v Hv; destruct (G v Hv) as [Kv [l Gl]].
  - destruct (C42_agent_reward c (rd_net (e_road e)) v l Kv Gl Hc) as (raw & _ & _ & E). eexists. exact E.
  - unfold agent_terminal. destruct (v_crashed v); [now eexists|]. destruct (Rleb _ _); [now eexists|]. destruct (has_arrived_iff _ _ _ Gl) as [_ [H|H]]; rewrite H; now eexists.
Qed.
Lemma same_reward_intersection c e e' : rd_net (e_road e') = rd_net (e_road e) -> controlled e' = controlled e -> e_controlled e' = e_controlled e -> intersection_reward c e' = intersection_reward c e.
Proof. intros N C L. unfold intersection_reward. now rewrite N, C, L. Qed.
Lemma same_terminal_intersection c pol e e' : rd_net (e_road e') = rd_net (e_road e) -> controlled e' = controlled e -> e_steps e' = e_steps e -> intersection_terminal c pol e' = intersection_terminal c pol e.
Proof. intros N C L. unfold intersection_terminal. now rewrite N, C, L. Qed.
Lemma success_total s cr cf t goal vs os : is_goal_scene s -> goal_ready s goal -> observer_of t = KinematicsGoal goal_names goal_scales -> Forall2 (well_observed cf t goal) vs os ->
  exists su, mapM (goal_success s cr) (map fst os) = Ok su.
Proof.
  intros G Go Ot F. destruct (Go G) as (o & -> & _). apply mapM_total. intros ob Hob. apply in_map_iff in Hob as (x & <- & Hx).
  destruct (Forall2_In_r _ _ _ F x Hx) as (v & _ & _ & _ & H). destruct (H o Ot eq_refl) as (go & -> & _). now eexists.
Qed.
(** What [step] needs besides the reward. *)
Definition extras_fit (s : scene) (t : observation_type) : Prop :=
  match s with
  | SParking _ _ | SSummon _ _ => observer_of t = KinematicsGoal goal_names goal_scales
  | SIntersection c _ _ _ _ => is_collision c <= 0
  | _ => True
  end.
Lemma rewards_extras cf s t : rewards_fit cf s t -> extras_fit s t.
Proof. destruct s; cbn [rewards_fit extras_fit]; tauto. Qed.
Lemma gym_step_cases cf s t k g cs o d sh a : playing cf s t k g -> store_fits s cs -> oracle_ok o -> draws_ok d -> shuffles sh -> observation_fits cf s t -> extras_fit s t -> classes_fit cf s ->
  in_action_space (cf_action cf) (agents_count s) a ->
  exists e1, env_step (gy_scenario g) o (seen_env cs cf s (gy_env g)) a = Ok e1 /\ ready (gy_scenario g) e1 /\ rd_net (e_road e1) = scene_net s /\ all_sound (scene_net s) (e_road e1) /\
    merge_targets s (e_road e1) /\
    (forall r, scene_reward cs s t (gy_goal g) e1 a = Ok r -> exists g1 out, gym_step cs g o d sh a = Ok (g1, out) /\ ou_reward out = r /\ played cf s t (k + 1) cs a g g1 out) /\
    (forall x, scene_reward cs s t (gy_goal g) e1 a = Err x -> gym_step cs g o d sh a = Err x).
Proof.
  intros Pl Sf Ho D Sh Fit Rf Cf Ha. assert (Sg : shared_grid cs) by (destruct s; try exact Sf; left; exact Sf).
  destruct (env_part cf s t k g cs o a Pl Sf Ho Ha) as (e1 & E & A1 & N1 & S1 & M1 & C1 & T1 & D1 & P1).
  destruct Pl as ((Ecf & Esc & Ety & Sn & Go) & (Hf & De) & (A & N & S & M) & (L & St & Dn) & (Ls & Ss)).
  destruct (scenario_facts cf s (gy_goal g)) as (Ac & Po & Si & Rg). rewrite <- Sn in Ac, Po, Si, Rg. set (sc := gy_scenario g) in *.
  assert (R1 : ready sc e1) by (destruct s; try exact A1; apply A1).
  exists e1. do 3 (split; [assumption|]). split; [exact S1|]. split; [exact M1|].
  destruct (observe_total cs cf s t sh (gy_goal g) e1 (gy_states g) sc) as (vs & os & Ov & Eo & F & Lv); try assumption.
  { rewrite N1. exact S1. }
  { rewrite Ls. unfold observers_count. destruct t; [reflexivity|]. now rewrite C1. }
  destruct (De e1 R1) as [b Te]. destruct (ready_ego _ _ R1) as (v & Ev & _).
  assert (Lo : List.length (map fst os) = observers_count s t) by (rewrite map_length, <- Ls, <- Lv; clear -F; induction F; cbn [List.length]; congruence).
  assert (Sos : List.length (map snd os) = observers_count s t /\ Forall (state_ok (observer_of t)) (map snd os)).
  { split; [rewrite map_length in *; exact Lo|]. apply Forall_map. eapply Forall2_right; [exact F|]. intros w x H. apply H. }
  assert (F' : Forall2 (fun v ob => exists r, well_observed cf t (gy_goal g) v (ob, r)) vs (map fst os)).
  { clear -F. induction F as [|w [ob r] ws os H F IH]; cbn [map fst]; constructor; [now exists r | exact IH]. }
  assert (Cr1 : forall id w, vehicle_by_id (e_road (gy_env g)) id = Some w -> v_crashed w = true -> exists w', vehicle_by_id (e_road e1) id = Some w' /\ v_crashed w' = true).
  { intros id w Hw Cw. destruct (persists_find _ _ _ _ P1 Hw) as (w' & Hw' & _ & _ & Cw'). exists w'. auto. }
  unfold gym_step. rewrite Ecf, Esc, Ety. fold sc. rewrite E. cbn [bind]. rewrite Eo. cbn [bind].
  split; [|intros x ->; reflexivity]. intros r Hr. rewrite Hr. cbn [bind]. rewrite Te. cbn [bind]. rewrite Ev. cbn [bind].
  assert (Base : forall ag su, extra_info cf s e1 (map fst os) (v_crashed v) (Info (v_speed v) (v_crashed v) a (scene_cost s v) ag su) ->
    played cf s t (k + 1) cs a g (Gym cf s t sc (gy_goal g) (map snd os) e1) (Outcome (map fst os) r b (Info (v_speed v) (v_crashed v) a (scene_cost s v) ag su))).
  { intros ag su Ex. split; [|split; [reflexivity|split; [|split; [|split; [exact Lo|split; [exact Hr|split; [exact Te|]]]]]]].
    - unfold playing. cbn [gy_cf gy_scene gy_type gy_scenario gy_goal gy_states gy_env]. split; [do 3 (split; [reflexivity|]); split; [exact Sn | exact Go]|].
      split; [split; [exact Hf | exact De]|]. split; [exact (conj A1 (conj N1 (conj S1 M1)))|]. split; [split; [now rewrite C1|]; split; [exact T1 | exact D1]|]. exact Sos.
    - split; [exact C1|]. intros id w _. apply Cr1.
    - exists vs. split; [exact Ov | exact F'].
    - exists v. do 5 (split; [try reflexivity; exact Ev|]). exact Ex. }
  destruct s as [h| | |n dur|n dur|dur inc|c n m dst prob].
  - do 2 eexists. split; [reflexivity|]. split; [reflexivity|]. apply Base. split; reflexivity.
  - do 2 eexists. split; [reflexivity|]. split; [reflexivity|]. apply Base. split; reflexivity.
  - do 2 eexists. split; [reflexivity|]. split; [reflexivity|]. apply Base. split; reflexivity.
  - destruct (success_total (SParking n dur) (v_crashed v) cf t (gy_goal g) vs os I Go Rf F) as [su Es]. rewrite Es. cbn [bind]. do 2 eexists. split; [reflexivity|]. split; [reflexivity|]. apply Base. split; [reflexivity | exists su; split; [reflexivity | exact Es]].
  - destruct (success_total (SSummon n dur) (v_crashed v) cf t (gy_goal g) vs os I Go Rf F) as [su Es]. rewrite Es. cbn [bind]. do 2 eexists. split; [reflexivity|]. split; [reflexivity|]. apply Base. split; [reflexivity | exists su; split; [reflexivity | exact Es]].
  - do 2 eexists. split; [reflexivity|]. split; [reflexivity|]. apply Base. split; reflexivity.
  - cbn [alive scene_net] in A1, S1, N1. assert (Rt : sc_regulated sc = true) by (apply Rg; eexists _, _, _, _, _; reflexivity).
    destruct (traffic_part cs (cf_traffic cf) d prob sc e1 Rt D A1 S1) as (rd2 & rd3 & E2 & E3 & Ce & S3 & Cc & Ee & Ci). rewrite E2. cbn [bind]. rewrite E3. cbn [bind].
    assert (N3 : rd_net rd3 = intersection_net) by apply Ce. set (e2 := set_road e1 rd3) in *.
    assert (Km : vehicle_class (agent_of (sc_action sc)) = KMDP) by (rewrite Ac; exact Cf).
    destruct (agents_total c (cf_policy cf) sc e2 Rf (proj1 Ce) Km) as [[rs Ers] [ds Eds]]. unfold agents_info. rewrite Ers. cbn [bind]. rewrite Eds. cbn [bind].
    do 2 eexists. split; [reflexivity|]. split; [reflexivity|].
    split; [|split; [reflexivity|split; [|split; [|split; [exact Lo|split; [|split]]]]]].
    + unfold playing. cbn [gy_cf gy_scene gy_type gy_scenario gy_goal gy_states gy_env]. split; [do 3 (split; [reflexivity|]); split; [exact Sn | exact Go]|].
      split; [split; [exact Hf | exact De]|]. split; [exact (conj Ce (conj N3 (conj S3 I)))|]. split; [split; [exact (eq_trans (f_equal (@List.length nat) C1) L)|]; split; [exact T1 | exact D1]|]. exact Sos.
    + split; [exact C1|]. cbn [gy_env e2 set_road e_road]. intros id w Hid Hw Cw. rewrite Ci by (rewrite C1; exact Hid). apply (Cr1 id w); assumption.
    + exists vs. cbn [gy_env ou_obs gy_goal]. split; [|exact F']. destruct t; cbn [observed] in *; [rewrite Ee; exact Ov | rewrite Cc; exact Ov].
    + cbn [scene_reward gy_goal gy_env ou_reward] in *. rewrite <- Hr. apply same_reward_intersection; [cbn; rewrite N1; exact N3 | exact Cc | reflexivity].
    + cbn [gy_scenario gy_env ou_done]. rewrite <- Te, Sn. cbn [scenario_of intersection_scenario sc_terminal]. apply same_terminal_intersection; [cbn; rewrite N1; exact N3 | exact Cc | reflexivity].
    + exists v. cbn [gy_env ou_info ou_obs nf_speed nf_crashed nf_action nf_cost]. split; [rewrite Ee; exact Ev|]. do 4 (split; [reflexivity|]). split; [reflexivity|]. exists rs, ds. split; [reflexivity|]. split; [exact Ers | exact Eds].
Qed.

(** ** Rewards *)
Lemma controlled_placed sc e v : ready sc e -> In v (rd_vehicles (e_road e)) -> is_controlled (v_kind v) = true -> lane_exists (rd_net (e_road e)) (v_target_lane v).
Proof. intros (Rr & _) Hv K. unfold road_ready in Rr. assert (Ru : runnable (e_road e)) by (destruct (sc_regulated sc); [apply Rr | exact Rr]). destruct Ru as (_ & _ & W & _). destruct (W v Hv) as [_ T]. now apply T. Qed.
Lemma highway_reward_total c n sc e : fst (hw_speed c) <> snd (hw_speed c) -> hw_collision c <= 0 -> ready sc e -> rd_net (e_road e) = highway_net n ->
  exists r, highway_env_reward c e = Ok r /\ 0 <= r <= 1.
Proof.
  intros Hs Hc R Nt. destruct (ready_ego _ _ R) as (v & Ev & Vin & Kv & L). unfold highway_env_reward. rewrite Ev. cbn [bind]. rewrite Nt in *. unfold highway_net in *.
  pose proof L as L'. apply straight_network_exists in L' as (k & Hk & Lk). apply get_lane_exists in L as [l Gl].
  assert (G : g_lanes (straight_road_network n 10000 0) "0" "1" = Ok (map (fun k => straight_network_lane n k 10000 0) (seq 0 n))) by (rewrite straight_network_eq by lia; reflexivity).
  assert (RL : exists j, (j < n)%nat /\ li_id (rewarded_lane v) = Some (Z.of_nat j)).
  { unfold rewarded_lane. destruct (is_controlled (v_kind v)) eqn:Ic; [|exists k; rewrite Lk; auto].
    pose proof (controlled_placed _ _ _ R Vin Ic) as T1. rewrite Nt in T1. apply straight_network_exists in T1 as (j & Hj & ->). exists j. auto. }
  destruct RL as (j & Hj & RL). destruct (C42_highway_value c _ v _ _ _ _ l _ Lk G Gl RL Hs ltac:(lra)) as (r & E & _). exists r. split; [exact E|].
  eapply C42_highway_range; [exact Lk | exact G | exact Gl | exact RL | exact Hs | exact Hc | | exact E]. rewrite map_length, seq_length. lia.
Qed.
Lemma roundabout_reward_total cs sc e act : shared_grid cs -> ready sc e -> (forall v, In v (rd_vehicles (e_road e)) -> mdp_ok v) ->
  exists r, roundabout_env_reward (cl_grid cs) e act = Ok r /\ 0 <= r <= 1.
Proof.
  intros Sg R M. destruct (ready_ego _ _ R) as (v & Ev & Vin & Kv & _). unfold roundabout_env_reward. rewrite Ev. cbn [bind].
  pose proof (shared_count _ Sg) as C. destruct (C42_roundabout_range (cl_grid cs) v act) as (r & E & B & _); [|now exists r].
  rewrite C. cbn. unfold get_speed_index. destruct (v_kind v) eqn:K; try (apply speed_index_bounds; exact C). apply (M v Vin K).
Qed.
Lemma intersection_reward_total c sc e : is_collision c <= 0 -> ready sc e -> vehicle_class (agent_of (sc_action sc)) = KMDP ->
  exists r, intersection_reward c e = Ok r /\ (if is_normalize c then 0 else is_collision c) <= r <= 1.
Proof.
  intros Hc R K. apply C42_intersection_range; [exact Hc | apply R|]. intros id Hid. pose proof R as (_ & Dn & _ & A). destruct (A id Hid) as (v & Hv & Iv & Kv).
  destruct (get_lane_exists _ _ (runnable_ready _ _ R v Hv)) as [l Gl]. exists v, l. split; [now apply by_id_in|]. split; [congruence | exact Gl].
Qed.
Lemma two_way_roads : g_lanes (two_way_net 800) "a" "b" = Ok [straight_lane (0, 0) (800, 0) DEFAULT_WIDTH (LContinuousLine, LStriped) false 20 0%Z; straight_lane (0, DEFAULT_WIDTH) (800, DEFAULT_WIDTH) DEFAULT_WIDTH (LNone, LContinuousLine) false 20 0%Z] /\
  g_lanes (two_way_net 800) "b" "a" = Ok [straight_lane (800, 0) (0, 0) DEFAULT_WIDTH (LNone, LNone) false 20 0%Z].
Proof. split; reflexivity. Qed.
Lemma two_way_exists i : lane_exists (two_way_net 800) i -> exists k, li_id i = Some (Z.of_nat k) /\ ((li_from i = "a" /\ li_to i = "b" /\ (k < 2)%nat) \/ (li_from i = "b" /\ li_to i = "a" /\ k = 0%nat))%string.
Proof.
  intros (k & l & Ek & H). exists k. split; [exact Ek|]. unfold two_way_net in H. rewrite build_has_iff in H. pose proof (nth_error_In _ _ H) as Hi. apply added_In in Hi.
  match type of H with nth_error ?L k = _ => assert (Len : (k < List.length L)%nat) by (apply nth_error_Some; rewrite H; discriminate) end.
  clear H. destruct Hi as [Q|[Q|[Q|[]]]]; injection Q as Q1 Q2 _; rewrite <- Q1, <- Q2 in *; cbn in Len; [left | left | right]; repeat split; lia.
Qed.
Lemma two_way_reward_cases sc e v : ready sc e -> rd_net (e_road e) = two_way_net 800 -> (forall v, In v (rd_vehicles (e_road e)) -> mdp_ok v) -> ego e = Ok v -> v_kind v = KMDP ->
  (li_from (v_lane_index v) = "a"%string /\ li_to (v_lane_index v) = "b"%string /\ exists r, two_way_env_reward e = Ok r /\ 0 <= r <= 1) \/
  (v_lane_index v = ("b", "a", Some 0%Z)%string /\ two_way_env_reward e = Err ZeroDivisionError).
Proof.
  intros R N M Ev K. destruct (ready_ego _ _ R) as (v' & Ev' & Vin & _ & L). assert (v' = v) as -> by congruence. clear Ev'. unfold two_way_env_reward. rewrite Ev. cbn [bind].
  assert (T : lane_exists (rd_net (e_road e)) (v_target_lane v)) by (apply (controlled_placed sc); [exact R | exact Vin | now rewrite K]). rewrite N in *.
  destruct (two_way_exists _ L) as (k & Ek & Lk). destruct (two_way_exists _ T) as (j & Ej & Lj). destruct (M v Vin K) as [C Ix]. destruct (v_lane_index v) as [[x y] o] eqn:Li. cbn [li_from li_to li_id fst snd] in *.
  destruct Lk as [(-> & -> & Hk)|(-> & -> & ->)].
  - left. split; [reflexivity|]. split; [reflexivity|]. destruct (C42_two_way_range (two_way_net 800) v "a" "b" o _ (Z.of_nat j) K Li (proj1 two_way_roads)) as (r & E & B & _); [cbn; lia | exact Ej | cbn; lia | rewrite C; lia | rewrite C; lia|]. now exists r.
  - right. split; [now rewrite Ek|]. eapply C42_two_way_one_lane; [exact K | exact Li | apply two_way_roads | exact Ej].
Qed.
Lemma merge_reward_total sc e v k : ready sc e -> (forall v, In v (rd_vehicles (e_road e)) -> mdp_ok v) -> merge_targets SMerge (e_road e) -> ego e = Ok v -> v_kind v = KMDP -> (0 <= k <= 4)%Z ->
  exists r, merge_env_reward e k = Ok r.
Proof.
  intros R M Mt Ev K Hk. destruct (ready_ego _ _ R) as (v' & Ev' & Vin & _ & L). assert (v' = v) as -> by congruence. unfold merge_env_reward. rewrite Ev. cbn [bind].
  destruct L as (j & l & Ej & _). destruct (M v Vin K) as [C Ix]. eexists. eapply C72_merge_value; [exact K | exact Ej | rewrite C; lia | exact Hk|].
  intros w Hw. unfold merging in Hw. apply filter_In in Hw as [Hw Q]. apply andb_prop in Q as [_ Q]. destruct (Mt w Hw) as [_ Z]. now apply Z.
Qed.
