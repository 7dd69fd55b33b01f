(** C82: creating scenes; playing from any of them. *)
From Verif Require Import Prelude M_Utils M_Lane M_Road M_Vehicle M_Kinematics M_Control M_Behavior M_Regulation M_Action M_Env M_Scenes M_Nets M_Reset S_Reset
  S_Geometry S_Road S_Vehicle S_Control S_Behavior S_Regulation S_Env P_Base P_Utils P_Lane P_Graph P_Bfs P_Query P_Kin P_Crash P_Control P_Behavior P_Traffic P_Regulation P_Action P_Env P_Scenes P_Nets P_Reset P_Ready P_Crossing
  P_Grid T_Kin T_Control T_Behavior T_Action T_Env.
From Coq Require Import Lia Lra.
Open Scope R_scope.

(** What stays true through an episode. *)
Definition alive (s : scene) (sc : scenario) (e : env) : Prop :=
  match s with SIntersection _ _ _ _ _ => crossing_env sc e | _ => ready sc e end.
Lemma reset_alive cs cf s d : draws_ok d -> classes_fit cf s -> options_fit cf s d ->
  exists cs' sc e, reset cs cf s d = Ok (cs', sc, e) /\ alive s sc e /\ starts e (agents_count s) /\
    sc_action sc = cf_action cf /\ sc_policy sc = cf_policy cf /\ sc_simulation sc = INR (cf_simulation cf) /\ decides sc /\
    (sc_regulated sc = true <-> exists c n m dst p, s = SIntersection c n m dst p).
Proof.
  intros D C O. pose proof (C40_always_decided (INR (cf_simulation cf)) (cf_policy cf) (cf_manual cf) (cf_action cf)) as (D1 & D2 & D3 & D4 & D5 & D6).
  assert (NI : forall sc s, sc_regulated sc = false -> (forall c n m dst p, s <> SIntersection c n m dst p) -> (sc_regulated sc = true <-> exists c n m dst p, s = SIntersection c n m dst p)).
  { intros sc s0 -> H. split; [discriminate|]. intros (c & n & m & dst & p & E). elim (H c n m dst p E). }
  unfold reset. destruct s as [h| | |n dur|n dur|dur inc|c n m dst prob]; cbn [alive agents_count].
  - destruct (highway_ready cs cf h d (highway_scenario (hs_cfg h) (INR (cf_simulation cf)) (cf_policy cf) (cf_manual cf) (cf_action cf)) D C O eq_refl eq_refl) as (e & -> & R & St).
    cbn [bind]. do 3 eexists. split; [reflexivity|]. split; [exact R|]. split; [exact St|]. do 3 (split; [reflexivity|]). split; [apply D1 | apply NI; [reflexivity | discriminate]].
  - destruct (two_way_ready cs cf d (two_way_scenario (INR (cf_simulation cf)) (cf_policy cf) (cf_manual cf) (cf_action cf)) C eq_refl eq_refl) as (e & -> & R & St).
    cbn [bind]. do 3 eexists. split; [reflexivity|]. split; [exact R|]. split; [exact St|]. do 3 (split; [reflexivity|]). split; [apply D4 | apply NI; [reflexivity | discriminate]].
  - destruct (merge_ready cs cf (merge_scenario (INR (cf_simulation cf)) (cf_policy cf) (cf_manual cf) (cf_action cf)) C eq_refl eq_refl) as (e & -> & R & St).
    cbn [bind]. do 3 eexists. split; [reflexivity|]. split; [exact R|]. split; [exact St|]. do 3 (split; [reflexivity|]). split; [apply D3 | apply NI; [reflexivity | discriminate]].
  - destruct (parking_ready cs cf n d (parking_scenario parking_compute (Object 0 KLandmark (0, 0) 0 0 false) dur (INR (cf_simulation cf)) (cf_policy cf) (cf_manual cf) (cf_action cf)) D O eq_refl eq_refl) as (goal & e & -> & R & St).
    cbn [bind]. do 3 eexists. split; [reflexivity|]. split; [exact R|]. split; [exact St|]. do 3 (split; [reflexivity|]). split; [apply D6 | apply NI; [reflexivity | discriminate]].
  - destruct (summon_ready cs cf n d (summon_scenario (Object 0 KLandmark (0, 0) 0 0 false) dur (INR (cf_simulation cf)) (cf_policy cf) (cf_manual cf) (cf_action cf)) D O C eq_refl eq_refl) as (goal & e & -> & R & St).
    cbn [bind]. do 3 eexists. split; [reflexivity|]. split; [exact R|]. split; [exact St|]. do 3 (split; [reflexivity|]). split; [|apply NI; [reflexivity | discriminate]].
    intros e' R'. destruct (ready_ego _ _ R') as (v & Ev & _). cbn [summon_scenario sc_terminal]. unfold summon_terminal. rewrite Ev. cbn [bind]. eexists. reflexivity.
  - destruct (roundabout_ready cs cf inc d (roundabout_scenario dur (INR (cf_simulation cf)) (cf_policy cf) (cf_manual cf) (cf_action cf)) D C O eq_refl eq_refl) as (e & -> & R & St).
    cbn [bind]. do 3 eexists. split; [reflexivity|]. split; [exact R|]. split; [exact St|]. do 3 (split; [reflexivity|]). split; [apply D2 | apply NI; [reflexivity | discriminate]].
  - destruct (intersection_ready cs cf c n m dst prob d (intersection_scenario c (INR (cf_simulation cf)) (cf_policy cf) (cf_manual cf) (cf_action cf)) D C O eq_refl eq_refl) as (e & -> & R & St).
    cbn [bind]. do 3 eexists. split; [reflexivity|]. split; [exact R|]. split; [exact St|]. do 3 (split; [reflexivity|]). split; [apply D5|].
    split; [intros _; now exists c, n, m, dst, prob | reflexivity].
Qed.
(** Looking up class attributes. *)
Lemma look_up_same cs c b v : let w := look_up cs c b v in v_id w = v_id v /\ v_kind w = v_kind v /\ v_lane_index w = v_lane_index v /\ v_target_lane w = v_target_lane v /\ v_route w = v_route v /\
  v_pos w = v_pos v /\ v_is_yielding w = v_is_yielding v /\ v_yield_timer w = v_yield_timer v /\ v_has_color w = v_has_color v.
Proof. unfold look_up. destruct v as [? k]. destruct k; cbn; try tauto. destruct b; cbn; tauto. Qed.
Lemma look_up_placed g cs c b v : well_placed g v -> well_placed g (look_up cs c b v).
Proof. unfold well_placed. destruct (look_up_same cs c b v) as (_ & -> & -> & -> & -> & _). tauto. Qed.
Lemma look_up_reg g cs c b v : reg_ok g v -> reg_ok g (look_up cs c b v).
Proof.
  intros (W & C & Rr & Y). split; [now apply look_up_placed|]. unfold route_resolvable, yield_state_ok in *. destruct (look_up_same cs c b v) as (_ & -> & _ & _ & -> & _ & -> & -> & ->). tauto.
Qed.
Lemma seen_alive cs cf s sc e : (sc_regulated sc = true <-> exists c n m dst p, s = SIntersection c n m dst p) -> alive s sc e -> alive s sc (seen_env cs cf s e).
Proof.
  intros Rg. set (f := look_up cs (cf_traffic cf) (has_own_grid s)).
  assert (Ids : forall l, map v_id (map f l) = map v_id l) by (intros l; rewrite map_map; apply map_ext; intros v; apply look_up_same).
  assert (Rd : ready sc e -> ready sc (seen_env cs cf s e)).
  { intros (R & Dn & C & A). split; [|split; [|split; [exact C|]]].
    - assert (Lc : linear_compatible (e_road e) -> linear_compatible (e_road (seen_env cs cf s e))).
      { intros [H|[H1 H2]]; [left | right; split; [|exact H2]]; cbn; intros v Hv; apply in_map_iff in Hv as (w & <- & Hw); destruct (look_up_same cs (cf_traffic cf) (has_own_grid s) w) as (_ & -> & _); auto. }
      unfold road_ready in *. destruct (sc_regulated sc).
      + apply regulated_iff in R as (B & N & F & L). apply regulated_iff. split; [exact B|]. split; [exact N|]. split; [|now apply Lc]. cbn. rewrite Forall_forall in *.
        intros v Hv. apply in_map_iff in Hv as (w & <- & Hw). apply look_up_reg, F, Hw.
      + destruct R as (B & N & F & L). split; [exact B|]. split; [exact N|]. split; [|now apply Lc]. cbn. intros v Hv. apply in_map_iff in Hv as (w & <- & Hw). apply look_up_placed, F, Hw.
    - unfold distinct_vehicles. cbn. fold f. rewrite Ids. exact Dn.
    - intros id I. destruct (A id I) as (v & Hv & Iv & Kv). exists (f v). split; [cbn; now apply in_map|]. destruct (look_up_same cs (cf_traffic cf) (has_own_grid s) v) as (E1 & E2 & _). unfold f. rewrite E1, E2. now split. }
  destruct s; try exact Rd. intros [R Cr]. split; [now apply Rd|]. destruct Cr as (N & O & F & Dn). split; [exact N|]. split; [exact O|]. cbn. fold f. split; [|now rewrite Ids].
  rewrite Forall_forall in *. intros v Hv. apply in_map_iff in Hv as (w & <- & Hw). apply look_up_reg, F, Hw.
Qed.
Lemma scene_step_alive cs cf s sc o d e a : (sc_regulated sc = true <-> exists c n m dst p, s = SIntersection c n m dst p) ->
  frequencies_ok sc -> decides sc -> oracle_ok o -> draws_ok d -> alive s sc e -> in_action_space (sc_action sc) (List.length (e_controlled e)) a ->
  exists e', scene_step cs cf s sc o d e a = Ok e' /\ alive s sc e' /\ e_controlled e' = e_controlled e.
Proof.
  intros Rg Hf Hd Ho D A Ha. destruct s as [h| | |n dur|n dur|dur inc|c n m dst prob]; cbn [alive scene_step] in *;
    try (destruct (env_step_total sc o e a Hf Hd Ho A Ha) as (e' & E & R'); exists e'; split; [exact E|]; split; [exact R' | apply env_step_persists in E; tauto]).
  apply intersection_step_total; try assumption. apply Rg. now exists c, n, m, dst, prob.
Qed.

(** Every environment can be reset, whatever the draws, the state of the class
    attributes and the sizes in its configuration, and starts a new episode. *)
Theorem C82_reset_total : forall cs cf s d, draws_ok d -> classes_fit cf s -> options_fit cf s d ->
  exists cs' sc e, reset cs cf s d = Ok (cs', sc, e) /\ starts e (agents_count s) /\
    distinct_vehicles (e_road e) /\
    forall id, In id (e_controlled e) -> exists v, In v (rd_vehicles (e_road e)) /\ v_id v = id /\ v_kind v = ego_kind cf.
Proof.
  intros cs cf s d D C O. destruct (reset_alive cs cf s d D C O) as (cs' & sc & e & E & A & St & Ac & _). exists cs', sc, e. split; [exact E|]. split; [exact St|].
  assert (R : ready sc e) by (destruct s; try exact A; apply A). destruct R as (_ & Dn & _ & Ag). split; [exact Dn|]. rewrite Ac in Ag. exact Ag.
Qed.
Print Assumptions C82_reset_total.
Lemma last_cons {A} (x y : A) l : last (x :: l) y = last l x.
Proof. revert x. induction l as [|z l IH]; intros x; [reflexivity|]. cbn [last] in *. destruct l; [reflexivity | exact (IH x)]. Qed.
Lemma plays_alive cs cf s d cs' sc e acts trace : draws_ok d -> classes_fit cf s -> options_fit cf s d -> cf_policy cf <> 0 ->
  reset cs cf s d = Ok (cs', sc, e) -> Forall (in_action_space (cf_action cf) (agents_count s)) acts -> plays cf s sc e acts trace ->
  alive s sc (last trace e) /\ e_controlled (last trace e) = e_controlled e /\ List.length (e_controlled e) = agents_count s /\ sc_action sc = cf_action cf /\
  (sc_regulated sc = true <-> exists c n m dst p, s = SIntersection c n m dst p) /\ frequencies_ok sc /\ decides sc.
Proof.
  intros D C O Hp Er Fa Pl.
  destruct (reset_alive cs cf s d D C O) as (cs2 & sc2 & e2 & Er2 & A & (_ & _ & _ & L & _) & Ac & Po & Si & De & Rg).
  rewrite Er in Er2. injection Er2 as <- <- <-.
  assert (Hf : frequencies_ok sc).
  { split; [now rewrite Po|]. intros R. apply Rg in R as (c & n & m & dst & p & ->). rewrite Si. destruct O as (_ & H & _). apply (le_INR 2) in H. cbn in H. lra. }
  assert (G : alive s sc (last trace e) /\ e_controlled (last trace e) = e_controlled e).
  { clear Er. revert A L Fa. induction Pl as [e|csx e o dd b acts e1 trace Ho Dd E Pl IH]; intros A L Fa; [now split|].
    inversion Fa as [|? ? Fb Fa']; subst. rewrite <- L, <- Ac in Fb.
    destruct (scene_step_alive csx cf s sc o dd (seen_env csx cf s e) b Rg Hf De Ho Dd (seen_alive csx cf s sc e Rg A) Fb) as (e' & E' & A' & C').
    rewrite E in E'. injection E' as <-. rewrite last_cons. change (e_controlled (seen_env csx cf s e)) with (e_controlled e) in C'. rewrite <- C'.
    apply IH; [exact A' | now rewrite C' | exact Fa']. }
  split; [apply G|]. split; [apply G|]. now repeat (split; [assumption|]).
Qed.
(** From there no step ever fails: whatever actions were taken so far, whatever the
    draws, and whatever other environments of the process do to the class attributes. *)
Theorem C82_no_step_fails : forall cs cf s d cs' sc e acts trace, draws_ok d -> classes_fit cf s -> options_fit cf s d -> cf_policy cf <> 0 ->
  reset cs cf s d = Ok (cs', sc, e) -> Forall (in_action_space (cf_action cf) (agents_count s)) acts -> plays cf s sc e acts trace ->
  forall cs1 o1 d1 a, oracle_ok o1 -> draws_ok d1 -> in_action_space (cf_action cf) (agents_count s) a ->
  exists e', scene_step cs1 cf s sc o1 d1 (seen_env cs1 cf s (last trace e)) a = Ok e'.
Proof.
  intros cs cf s d cs' sc e acts trace D C O Hp Er Fa Pl cs1 o1 d1 a Ho1 D1 Ha.
  destruct (plays_alive cs cf s d cs' sc e acts trace D C O Hp Er Fa Pl) as (A' & C' & L & Ac & Rg & Hf & De). rewrite <- L, <- C', <- Ac in Ha.
  destruct (scene_step_alive cs1 cf s sc o1 d1 (seen_env cs1 cf s (last trace e)) a Rg Hf De Ho1 D1 (seen_alive cs1 cf s sc _ Rg A') Ha) as (e' & E' & _). now exists e'.
Qed.
Print Assumptions C82_no_step_fails.

(** What does fail: the intersection with continuous actions (their vehicles cannot
    plan a route) ... *)
Theorem C82_intersection_needs_meta_actions : forall cs cf c n m dst prob d, draws_ok d -> (1 <= n)%nat -> (2 <= cf_simulation cf)%nat ->
  (exists ca, cf_action cf = Single (Continuous ca) \/ cf_action cf = Multi (Continuous ca)) ->
  reset cs cf (SIntersection c n m dst prob) d = Err AttributeError.
Proof.
  intros cs cf c n m dst prob d D Hn Hs (ca & Ha). unfold reset, intersection_reset.
  destruct (intersection_traffic (set_tuning cs (cf_traffic cf) tuning_intersection) (cf_traffic cf) m d cf D Hs) as (rd1 & rd2 & rd3 & -> & E2 & E3 & _ & _ & C3).
  cbn [bind]. rewrite E2. cbn [bind]. rewrite E3. cbn [bind]. destruct n as [|n]; [lia|]. cbn [seq foldM]. unfold intersection_ego at 1.
  rewrite (proj1 C3), crossing_arm by lia. cbn [bind].
  match goal with |- context [new_ego ?a ?b ?c ?x ?p ?h ?s] => destruct (new_ego_total a b c x p h s crossing_built crossing_nonempty (ego_kind_cases cf)) as (e & -> & _) end.
  cbn [bind]. replace (is_controlled (ego_kind cf)) with false; [reflexivity|]. unfold ego_kind. destruct Ha as [-> | ->]; cbn; destruct (ca_dynamical ca); reflexivity.
Qed.
Print Assumptions C82_intersection_needs_meta_actions.
(** ... and summoning among more than fifteen vehicles, when the sixteenth is parked:
    there are fifteen spots on each side. *)
Theorem C82_summon_has_fifteen_spots : forall cs cf n duration d, draws_ok d -> (16 <= n)%nat -> dr_unit d 31 <= 3/4 ->
  reset cs cf (SSummon n duration) d = Err IndexError.
Proof.
  intros cs cf n duration d D Hn Hu. unfold reset, summon_reset. set (g := summon_net 15). assert (B : built g) by apply built_build.
  assert (N : g <> []) by (apply build_nonempty; discriminate). cbn [rd_net empty_road].
  match goal with |- context [new_ego ?a ?b ?c ?x ?p ?h ?s] => destruct (new_ego_total a b c x p h s B N (ego_kind_cases cf)) as (e & -> & Ne & _) end.
  cbn [bind]. replace n with (15 + (S (n - 16)))%nat by lia. rewrite seq_app, foldM_app.
  match goal with |- context [foldM _ (seq 0 15) ?rd0] => destruct (foldM_inv (fun _ => growing (member g (summon_kinds cf)) g) (summon_other cs cf d) (seq 0 15) rd0) as (rd & -> & Gr) end.
  { intros k rd i Hk Gr. assert (Hi : (i < 15)%nat) by (apply nth_error_In in Hk; apply in_seq in Hk; lia).
    destruct (summon_other_total cs cf d rd i D Hi Gr) as (v & E & Gr'). eexists. split; [exact E | exact Gr']. }
  { apply growing_object. eapply growing_new; [apply growing_empty | exact Ne | now left | intros []]. }
  cbn [bind Nat.add seq foldM]. unfold summon_other at 1. cbn [Nat.mul Nat.add]. rewrite (proj2 (Rltb_false _ _)) by lra. cbv zeta. rewrite (proj1 Gr). unfold make_on_lane.
  match goal with |- context [get_lane g ?i'] => assert (get_lane g i' = Err IndexError) as ->; [|reflexivity] end.
  destruct (Rleb _ _); unfold get_lane; cbn [li_from li_to li_id fst snd].
  - rewrite (g_lanes_wf _ "a" "b") by (apply wf_built, B). unfold g, summon_net. rewrite build_lanes. reflexivity.
  - rewrite (g_lanes_wf _ "b" "c") by (apply wf_built, B). unfold g, summon_net. rewrite build_lanes. reflexivity.
Qed.
Print Assumptions C82_summon_has_fifteen_spots.

(** The hypotheses are met by the default configurations. *)
Definition some_draws : draws := Draws (fun _ => 1/2) (fun _ => 0) (fun _ _ => 0%nat) (fun _ => (0, 1)%nat) (fun _ _ _ => 0%nat) (fun _ l => l).
Definition some_oracle : oracle := Oracle (fun _ _ _ => 0%nat) (fun _ _ _ => 0%nat).
Lemma some_draws_ok : draws_ok some_draws.
Proof.
  split; [intros k; cbn; lra|]. split; [intros k n H; exact H|]. split; [intros k; cbn; lia|]. split; [intros t i n H; exact H | intros p l; apply Permutation.Permutation_refl].
Qed.
Lemma some_oracle_ok : oracle_ok some_oracle.
Proof. split; intros t i n H; exact H. Qed.
Definition meta_common : common := Common 15 1 false (Single (Discrete true true)) CIdm false.
Definition intersection_common : common := Common 15 1 false (Single (Discrete true false)) CIdm false.
Definition continuous_common : common := Common 15 5 false (Single (Continuous continuous_default)) CIdm false.
Definition highway_default_scene : scene := SHighway (HighwayScene 4 1 50 None 2 1 highway_default).
Definition intersection_default_scene : scene := SIntersection intersection_default 1 10 (Some "o1"%string) (6/10).
Example C82_nonvacuous :
  (classes_fit meta_common highway_default_scene /\ options_fit meta_common highway_default_scene some_draws) /\
  (classes_fit meta_common STwoWay /\ options_fit meta_common STwoWay some_draws) /\
  (classes_fit meta_common SMerge /\ options_fit meta_common SMerge some_draws) /\
  (classes_fit continuous_common (SParking 1 100) /\ options_fit continuous_common (SParking 1 100) some_draws) /\
  (classes_fit continuous_common (SSummon 10 100) /\ options_fit continuous_common (SSummon 10 100) some_draws) /\
  (classes_fit meta_common (SRoundabout 11 None) /\ options_fit meta_common (SRoundabout 11 None) some_draws) /\
  (classes_fit intersection_common intersection_default_scene /\ options_fit intersection_common intersection_default_scene some_draws) /\
  in_action_space (cf_action intersection_common) 1 (ActInt 0) /\
  exists cs sc e e', reset classes_default intersection_common intersection_default_scene some_draws = Ok (cs, sc, e) /\
    plays intersection_common intersection_default_scene sc e [ActInt 0] [e'].
Proof.
  assert (Dk := some_draws_ok).
  assert (Ci : classes_fit intersection_common intersection_default_scene) by reflexivity.
  assert (Oi : options_fit intersection_common intersection_default_scene some_draws) by (cbn; split; [lia|]; split; [lia|]; now left).
  assert (Ai : in_action_space (cf_action intersection_common) 1 (ActInt 0)) by (split; [cbn; lia | now left]).
  split; [split; [now left|]; cbn; split; [lia|]; split; [lia|]; split; [lra | exact I]|].
  split; [cbn; split; [now left | exact I]|].
  split; [cbn; split; [reflexivity | exact I]|].
  split; [cbn; split; [exact I | lia]|].
  split; [cbn; split; [reflexivity | lia]|].
  split; [cbn; split; [now left | exact I]|].
  split; [split; assumption|]. split; [exact Ai|].
  destruct (C82_reset_total classes_default _ _ _ Dk Ci Oi) as (cs & sc & e & E & _). exists cs, sc, e.
  assert (Hp : cf_policy intersection_common <> 0) by (cbn; lra).
  destruct (C82_no_step_fails _ _ _ _ _ _ _ [] [] Dk Ci Oi Hp E ltac:(constructor) ltac:(constructor) cs some_oracle some_draws (ActInt 0) some_oracle_ok Dk Ai) as (e' & E').
  exists e'. split; [exact E|]. econstructor; [exact some_oracle_ok | exact Dk | exact E' | constructor].
Qed.
