(** Class attributes: who sees what. *)
From Verif Require Import Prelude M_Utils M_Lane M_Road M_Vehicle M_Kinematics M_Control M_Behavior M_Regulation M_Action M_Env M_Scenes M_Nets M_Reset S_Reset
  S_Geometry S_Road S_Vehicle S_Control S_Behavior S_Regulation S_Env P_Base P_Utils P_Lane P_Graph P_Bfs P_Query P_Kin P_Crash P_Control P_Behavior P_Traffic P_Regulation P_Action P_Env P_Scenes P_Lift P_Nets P_Reset P_Ready P_Crossing.
From Coq Require Import Lia Lra.
Open Scope R_scope.

Definition fits (cs : classes) (c : traffic_class) (own : bool) (v : vehicle) : Prop := look_up cs c own v = v.
Lemma set_par_same v : set_par v (v_par v) = v.
Proof. now destruct v. Qed.
Lemma set_grid_same v : set_grid v (v_grid v) = v.
Proof. now destruct v. Qed.
Lemma par_of_set v p : v_par (set_par v p) = p.
Proof. reflexivity. Qed.
Lemma fits_iff cs c own v : fits cs c own v <->
  ((v_kind v = KIDM \/ v_kind v = KLinear) -> tuned (v_par v) (tuning_of cs c) = v_par v) /\ (v_kind v = KMDP -> own = false -> v_grid v = cl_grid cs).
Proof.
  unfold fits, look_up. split.
  - intros H. split.
    + intros [K|K]; rewrite K in H; apply (f_equal v_par) in H; exact H.
    + intros K ->. rewrite K in H. apply (f_equal v_grid) in H. symmetry. exact H.
  - intros [H1 H2]. destruct (v_kind v) eqn:K; try reflexivity.
    + destruct own; [reflexivity|]. rewrite <- (H2 eq_refl eq_refl). apply set_grid_same.
    + rewrite H1 by now left. apply set_par_same.
    + rewrite H1 by now right. apply set_par_same.
Qed.
Lemma tuned_class cs c : tuned (class_params cs c) (tuning_of cs c) = class_params cs c.
Proof. reflexivity. Qed.
Lemma traffic_fits cs c own g id p h s b v : new_traffic cs c g id p h s b = Ok v -> fits cs c own v.
Proof.
  unfold new_traffic, new_idm, new_controlled. intros E. apply bind_ok in E as (w & _ & E).
  assert (K : v_kind v = kind_of c /\ v_par v = class_params cs c).
  { split; [apply (f_equal (fun r => match r with Ok x => v_kind x | Err _ => kind_of c end)) in E | apply (f_equal (fun r => match r with Ok x => v_par x | Err _ => class_params cs c end)) in E]; now symmetry. }
  destruct K as [K P]. apply fits_iff. rewrite P. split; [intros _; apply tuned_class|]. rewrite K. destruct c; discriminate.
Qed.
Lemma on_lane_fits cs c own g id i s sp v : traffic_on_lane cs c g id i s sp = Ok v -> fits cs c own v.
Proof. unfold traffic_on_lane. intros E. apply bind_ok in E as (l & _ & E). eapply traffic_fits; exact E. Qed.
Lemma vehicle_kind g id p h s v : new_vehicle g id p h s = Ok v -> v_kind v = KVehicle.
Proof. unfold new_vehicle. intros E. apply bind_ok in E as (i & _ & E). apply (f_equal (fun r => match r with Ok x => v_kind x | Err _ => KVehicle end)) in E. now symmetry. Qed.
Lemma vehicle_fits cs c own g id p h s v : new_vehicle g id p h s = Ok v -> fits cs c own v.
Proof. intros E. apply vehicle_kind in E. apply fits_iff. rewrite E. split; [intros [H|H]; discriminate | discriminate]. Qed.
Lemma make_on_lane_fits cs c own g id i s sp v : make_on_lane g id i s sp = Ok v -> fits cs c own v.
Proof. unfold make_on_lane. intros E. apply bind_ok in E as (l & _ & E). eapply vehicle_fits; exact E. Qed.
(** The controlled vehicle a scene creates. *)
Definition mdp_made (cs : classes) (k : vkind) (s : R) (v : vehicle) : Prop :=
  v_kind v = k /\ (k = KMDP -> v_grid v = cl_grid cs /\ v_speed_index v = speed_to_index (cl_grid cs) s /\ v_target_speed v = index_to_speed (cl_grid cs) (speed_to_index (cl_grid cs) s)).
Lemma ego_made cs k g id p h s v : k = KMDP \/ k = KVehicle \/ k = KBicycle -> s <> 0 \/ True -> new_ego cs k g id p h s = Ok v -> mdp_made cs k s v.
Proof.
  intros Hk _ E. unfold new_ego in E. destruct Hk as [-> |[-> | ->]].
  - unfold new_mdp, new_controlled in E. apply bind_ok in E as (w & Ew & E). apply bind_ok in Ew as (w0 & _ & Ew).
    apply (f_equal (fun r => match r with Ok x => v_target_speed x | Err _ => 0 end)) in Ew. cbn [v_target_speed] in Ew. unfold float_or in Ew. rewrite <- Ew in E.
    split; [|intros _; split; [|split]];
      [apply (f_equal (fun r => match r with Ok x => v_kind x | Err _ => KMDP end)) in E | apply (f_equal (fun r => match r with Ok x => v_grid x | Err _ => cl_grid cs end)) in E |
       apply (f_equal (fun r => match r with Ok x => v_speed_index x | Err _ => 0%Z end)) in E | apply (f_equal (fun r => match r with Ok x => v_target_speed x | Err _ => 0 end)) in E]; now symmetry.
  - apply bind_ok in E as (w & _ & E). split; [|discriminate]. apply (f_equal (fun r => match r with Ok x => v_kind x | Err _ => KVehicle end)) in E. now symmetry.
  - apply bind_ok in E as (w & _ & E). split; [|discriminate]. apply (f_equal (fun r => match r with Ok x => v_kind x | Err _ => KBicycle end)) in E. now symmetry.
Qed.
Lemma made_fits cs c own k s v : k = KMDP \/ k = KVehicle \/ k = KBicycle -> mdp_made cs k s v -> fits cs c own v.
Proof.
  intros Hk [K G]. apply fits_iff. rewrite K. split; [destruct Hk as [-> |[-> | ->]]; intros [H|H]; discriminate|]. intros E _. apply G, E.
Qed.
Lemma ego_fits cs c own k g id p h s v : k = KMDP \/ k = KVehicle \/ k = KBicycle -> new_ego cs k g id p h s = Ok v -> fits cs c own v.
Proof. intros Hk E. eapply made_fits; [exact Hk|]. eapply ego_made; [exact Hk | now right | exact E]. Qed.
Lemma fits_same cs c own v w : v_kind w = v_kind v -> v_par w = v_par v -> v_grid w = v_grid v -> fits cs c own v -> fits cs c own w.
Proof. rewrite !fits_iff. intros -> -> ->. tauto. Qed.
Lemma planned_same g ord v dst w : plan_route_to g ord v dst = Ok w -> exists rt, w = set_route v rt.
Proof.
  unfold plan_route_to. destruct (shortest_path g ord _ dst) as [[|n p]|[]]; intros E; try discriminate;
  match type of E with Ok ?x = Ok w => assert (x = w) by congruence; subst w end; eexists; reflexivity.
Qed.
Lemma planned_fits cs c own g ord v dst w : plan_route_to g ord v dst = Ok w -> fits cs c own v -> fits cs c own w.
Proof. intros E. apply planned_same in E as [rt ->]. now apply fits_same. Qed.
Lemma randomize_fits cs c own d k c' v : fits cs c own v -> fits cs c own (randomize d k c' v).
Proof.
  rewrite !fits_iff. destruct (randomize_same d k c' v) as (_ & -> & _). intros [H1 H2]. split.
  - intros K. specialize (H1 K). pose proof (f_equal ip_comfort_max H1) as F1. pose proof (f_equal ip_comfort_min H1) as F2. pose proof (f_equal ip_distance H1) as F3.
    unfold tuned in F1, F2, F3. cbn [ip_comfort_max ip_comfort_min ip_distance] in F1, F2, F3.
    destruct c'; [exact H1 | | |]; unfold randomize; cbn [v_par set_par]; unfold tuned, randomized, ACCELERATION_RANGE, STEERING_RANGE; cbn -[Rplus Rmult Rminus]; rewrite F1, F2, F3; reflexivity.
  - intros K O. rewrite <- (H2 K O). now destruct c'.
Qed.
(** Attributes never change while simulating. *)
Definition constants (v w : vehicle) : Prop := v_kind w = v_kind v /\ v_par w = v_par v /\ v_grid w = v_grid v.
Lemma constants_liftable : liftable constants.
Proof.
  split.
  - unfold constants. tauto.
  - unfold constants. intros a b c (A1 & A2 & A3) (B1 & B2 & B3). split; [congruence|]. split; congruence.
  - intros rd draw v w E. unfold vehicle_act in E. destruct (v_kind v) eqn:K; try (injection E as <-; now split).
    + apply controlled_act_ok in E as (B & _). unfold same_body in B. unfold constants. tauto.
    + apply mdp_act_ok in E as (B & _). unfold same_body in B. unfold constants. tauto.
    + destruct (v_crashed v) eqn:C.
      * unfold idm_act in E. apply bind_ok in E as (_ & _ & E). rewrite C in E. injection E as <-. now split.
      * apply idm_act_ok in E as (B & _); [|exact C]. unfold same_vehicle in B. unfold constants. tauto.
    + destruct (v_crashed v) eqn:C.
      * unfold idm_act in E. apply bind_ok in E as (_ & _ & E). rewrite C in E. injection E as <-. now split.
      * apply idm_act_ok in E as (B & _); [|exact C]. unfold same_vehicle in B. unfold constants. tauto.
  - intros rd draw c v w E. unfold vehicle_command in E. destruct (v_kind v) eqn:K; try (destruct c; [discriminate|]; injection E as <-; now split).
    + apply controlled_act_ok in E as (B & _). unfold same_body in B. unfold constants. tauto.
    + apply mdp_act_ok in E as (B & _). unfold same_body in B. unfold constants. tauto.
    + destruct (v_crashed v) eqn:C.
      * unfold idm_act in E. apply bind_ok in E as (_ & _ & E). rewrite C in E. injection E as <-. now split.
      * apply idm_act_ok in E as (B & _); [|exact C]. unfold same_vehicle in B. unfold constants. tauto.
    + destruct (v_crashed v) eqn:C.
      * unfold idm_act in E. apply bind_ok in E as (_ & _ & E). rewrite C in E. injection E as <-. now split.
      * apply idm_act_ok in E as (B & _); [|exact C]. unfold same_vehicle in B. unfold constants. tauto.
  - intros g rec dt v w E. apply vehicle_step_stepped in E. unfold stepped in E. unfold constants. tauto.
  - intros v s. now split.
  - intros yd g v w E. unfold unfreeze in E. destruct (v_is_yielding v); [|injection E as <-; now split]. destruct (Rleb _ _).
    + apply bind_ok in E as (l & _ & E). destruct (v_has_color v); [|discriminate]. injection E as <-. now split.
    + injection E as <-. now split.
  - intros v. unfold force. destruct (can_be_forced v); now split.
Qed.
Definition all_fit cs c own (rd : road) : Prop := forall v, In v (rd_vehicles rd) -> fits cs c own v.
Lemma lifted_fit cs c own rd rd' : lifted constants rd rd' -> all_fit cs c own rd -> all_fit cs c own rd'.
Proof. intros (_ & _ & _ & F) H w Hw. destruct (Forall2_In_r _ _ _ F w Hw) as (v & Hv & K & P & G). eapply fits_same; [exact K | exact P | exact G | now apply H]. Qed.
Lemma all_fit_empty cs c own g cf : all_fit cs c own (empty_road g cf).
Proof. intros v []. Qed.
Lemma all_fit_add cs c own rd v : all_fit cs c own rd -> fits cs c own v -> all_fit cs c own (add_vehicle rd v).
Proof. intros H Hv w Hw. cbn in Hw. apply in_app_or in Hw as [Hw|[<- |[]]]; [now apply H | exact Hv]. Qed.
Lemma all_fit_sub cs c own rd vs : all_fit cs c own rd -> (forall v, In v vs -> In v (rd_vehicles rd)) -> all_fit cs c own (set_vehicles rd vs).
Proof. intros H S v Hv. apply H, S, Hv. Qed.
Lemma foldM_keeps {A B} (I : B -> Prop) (f : B -> A -> res B) l : (forall s x s', In x l -> f s x = Ok s' -> I s -> I s') -> forall s s', foldM f l s = Ok s' -> I s -> I s'.
Proof.
  induction l as [|x l IH]; intros H s s' E Hs; cbn [foldM] in E; [assert (s = s') as <- by congruence; exact Hs|].
  apply bind_ok in E as (s1 & E1 & E). eapply IH; [|exact E|eapply H; [now left | exact E1 | exact Hs]]. intros t y t' Hy. apply H. now right.
Qed.

(** ** Every scene *)
Ltac okinj H := match type of H with Ok ?x = Ok ?y => let E := fresh in assert (E : x = y) by congruence; clear H; first [subst y | subst x | rename E into H] end.
Ltac steps H := repeat (let x := fresh "x" in let E := fresh "E" in apply bind_ok in H as (x & E & H)).
Lemma highway_fits cs cf h d e own : highway_reset cs cf h d = Ok e -> all_fit cs (cf_traffic cf) own (e_road e).
Proof.
  unfold highway_reset. intros H. apply bind_ok in H as ([rd ctl] & E1 & H). apply bind_ok in H as (rd2 & E2 & H). okinj H. cbn [fresh_env e_road].
  eapply (foldM_keeps (all_fit cs (cf_traffic cf) own)); [|exact E2|].
  - intros s j s' _ E Hs. unfold highway_other in E. apply bind_ok in E as (sp & _ & E). apply bind_ok in E as ([p hd] & _ & E). apply bind_ok in E as (v & Ev & E). okinj E.
    apply all_fit_add; [exact Hs | eapply traffic_fits; exact Ev].
  - change (all_fit cs (cf_traffic cf) own (fst (rd, ctl))). eapply (foldM_keeps (fun st => all_fit cs (cf_traffic cf) own (fst st))); [|exact E1 | apply all_fit_empty].
    intros [s l] j [s' l'] _ E Hs. unfold highway_ego in E. apply bind_ok in E as ([p hd] & _ & E). apply bind_ok in E as (v & Ev & E).
    assert (s' = add_vehicle s v) as -> by congruence. apply all_fit_add; [exact Hs | eapply ego_fits; [apply ego_kind_cases | exact Ev]].
Qed.
Lemma two_way_fits cs cf d e own : two_way_reset cs cf d = Ok e -> all_fit cs (cf_traffic cf) own (e_road e).
Proof.
  unfold two_way_reset. intros H. cbv zeta in H. apply bind_ok in H as (l & _ & H). apply bind_ok in H as (v & Ev & H). apply bind_ok in H as (rd1 & E1 & H). apply bind_ok in H as (rd2 & E2 & H). okinj H.
  cbn [fresh_env e_road]. eapply (foldM_keeps (all_fit cs (cf_traffic cf) own)); [|exact E2|].
  - intros s j s' _ E Hs. unfold two_way_oncoming in E. apply bind_ok in E as (l' & _ & E). apply bind_ok in E as (w & Ew & E). okinj E.
    apply all_fit_add; [exact Hs|]. eapply fits_same; [| | |eapply traffic_fits; exact Ew]; reflexivity.
  - eapply (foldM_keeps (all_fit cs (cf_traffic cf) own)); [|exact E1|].
    + intros s j s' _ E Hs. unfold two_way_ahead in E. apply bind_ok in E as (l' & _ & E). apply bind_ok in E as (w & Ew & E). okinj E.
      apply all_fit_add; [exact Hs | eapply traffic_fits; exact Ew].
    + apply all_fit_add; [apply all_fit_empty | eapply ego_fits; [apply ego_kind_cases | exact Ev]].
Qed.
Lemma merge_fits cs cf e own : merge_reset cs cf = Ok e -> all_fit cs (cf_traffic cf) own (e_road e).
Proof.
  unfold merge_reset. intros H. cbv zeta in H. apply bind_ok in H as (l & _ & H). apply bind_ok in H as (v & Ev & H). apply bind_ok in H as (rd1 & E1 & H). apply bind_ok in H as (m & _ & H). apply bind_ok in H as (w & Ew & H). okinj H.
  cbn [fresh_env e_road]. apply all_fit_add; [|eapply fits_same; [| | |eapply traffic_fits; exact Ew]; reflexivity].
  eapply (foldM_keeps (all_fit cs (cf_traffic cf) own)); [|exact E1|].
  - intros s [[i x] y] s' _ E Hs. unfold merge_other in E. apply bind_ok in E as (l' & _ & E). apply bind_ok in E as (u & Eu & E). okinj E.
    apply all_fit_add; [exact Hs | eapply traffic_fits; exact Eu].
  - apply all_fit_add; [intros ? [] | eapply ego_fits; [apply ego_kind_cases | exact Ev]].
Qed.
Lemma parking_fits cs cf n d goal e own : parking_reset cs cf n d = Ok (goal, e) -> all_fit cs (cf_traffic cf) own (e_road e).
Proof.
  unfold parking_reset. intros H. apply bind_ok in H as ([rd ctl] & E1 & H). apply bind_ok in H as (l & _ & H). cbv zeta in H.
  match type of H with Ok (?a, ?b) = _ => assert (b = e) as <- by congruence end. clear H. cbn [fresh_env e_road].
  change (all_fit cs (cf_traffic cf) own (fst (rd, ctl))). eapply (foldM_keeps (fun st => all_fit cs (cf_traffic cf) own (fst st))); [|exact E1 | apply all_fit_empty].
  intros [s q] j [s' q'] _ E Hs. unfold parking_ego in E. apply bind_ok in E as (v & Ev & E).
  assert (s' = add_vehicle s v) as -> by congruence. apply all_fit_add; [exact Hs | eapply ego_fits; [apply ego_kind_cases | exact Ev]].
Qed.
Lemma summon_fits cs cf n d goal e own : summon_reset cs cf n d = Ok (goal, e) -> all_fit cs (cf_traffic cf) own (e_road e).
Proof.
  unfold summon_reset. intros H. cbv zeta in H. apply bind_ok in H as (v & Ev & H). apply bind_ok in H as (rd1 & E1 & H).
  match type of H with Ok (?a, ?b) = _ => assert (b = e) as <- by congruence end. clear H. cbn [fresh_env e_road].
  apply all_fit_sub; [|intros w Hw; eapply purge_sub; [apply le_n | exact Hw]].
  eapply (foldM_keeps (all_fit cs (cf_traffic cf) own)); [|exact E1|].
  - intros s j s' _ E Hs. unfold summon_other in E. destruct (Rltb _ _).
    + apply bind_ok in E as (w & Ew & E). okinj E. apply all_fit_add; [exact Hs | eapply on_lane_fits; exact Ew].
    + apply bind_ok in E as (w & Ew & E). okinj E. apply all_fit_add; [exact Hs | eapply make_on_lane_fits; exact Ew].
  - change (all_fit cs (cf_traffic cf) own (add_vehicle (empty_road (summon_net 15) cf) v)). apply all_fit_add; [apply all_fit_empty | eapply ego_fits; [apply ego_kind_cases | exact Ev]].
Qed.
Lemma roundabout_fits cs cf inc d cs' e : roundabout_reset cs cf inc d = Ok (cs', e) -> cs' = set_class_grid cs roundabout_grid /\ all_fit cs' (cf_traffic cf) false (e_road e).
Proof.
  unfold roundabout_reset. intros H. cbv zeta in H. apply bind_ok in H as (l & _ & H). apply bind_ok in H as (v & Ev & H). apply bind_ok in H as (w & Ew & H). apply bind_ok in H as (rd1 & E1 & H).
  match type of H with Ok (?a, ?b) = _ => assert (a = cs' /\ b = e) as [<- <-] by (split; congruence) end. clear H. split; [reflexivity|]. cbn [fresh_env e_road].
  set (cs' := set_class_grid cs roundabout_grid) in *.
  eapply (foldM_keeps (all_fit cs' (cf_traffic cf) false)); [|exact E1|].
  - intros s [[j i] x] s' _ E Hs. unfold roundabout_other in E. apply bind_ok in E as (u & Eu & E). apply bind_ok in E as (dest & _ & E). apply bind_ok in E as (u' & Eu' & E). okinj E.
    apply all_fit_add; [exact Hs|]. apply randomize_fits. eapply planned_fits; [exact Eu'|]. eapply on_lane_fits; exact Eu.
  - apply all_fit_add; [apply all_fit_empty|]. apply fits_iff. split; [|reflexivity].
    assert (Kv : v_kind v = ego_kind cf) by (eapply (ego_made cs); [apply ego_kind_cases | now right | exact Ev]).
    assert (Kw : v_kind w = ego_kind cf).
    { destruct (is_controlled (ego_kind cf)); [apply planned_same in Ew as [rt ->]; exact Kv | okinj Ew; exact Kv]. }
    cbn [set_grid v_kind v_par]. rewrite Kw. destruct (ego_kind_cases cf) as [-> |[-> | ->]]; intros [Q|Q]; discriminate.
Qed.
Lemma spawn_fits cs c d j ctl lon pd sd prob straight rd rd' own : spawn cs c d j ctl lon pd sd prob straight rd = Ok rd' -> all_fit cs c own rd -> all_fit cs c own rd'.
Proof.
  unfold spawn. destruct (Rltb _ _); [intros E H; okinj E; exact H|]. cbv zeta. intros E H. apply bind_ok in E as (v & Ev & E). destruct (existsb _ _); [okinj E; exact H|].
  apply bind_ok in E as (w & Ew & E). okinj E. apply all_fit_add; [exact H|]. apply randomize_fits. eapply planned_fits; [exact Ew|]. eapply on_lane_fits; exact Ev.
Qed.
Lemma warm_fits cs c own dt d rd t rd' : warm_frame dt d rd t = Ok rd' -> all_fit cs c own rd -> all_fit cs c own rd'.
Proof.
  unfold warm_frame. intros E. apply bind_ok in E as (rd1 & E1 & E). apply lifted_fit. eapply lifted_trans; [apply constants_liftable | eapply road_act_lifted; [apply constants_liftable | exact E1] | eapply regulated_step_lifted; [apply constants_liftable | exact E]].
Qed.
Lemma intersection_fits cs cf n m dst d cs' e : intersection_reset cs cf n m dst d = Ok (cs', e) ->
  cs' = set_tuning cs (cf_traffic cf) tuning_intersection /\ all_fit cs' (cf_traffic cf) true (e_road e).
Proof.
  unfold intersection_reset. intros H. cbv zeta in H. apply bind_ok in H as (rd1 & E1 & H). apply bind_ok in H as (rd2 & E2 & H). apply bind_ok in H as (rd3 & E3 & H). apply bind_ok in H as ([rd4 ctl] & E4 & H).
  match type of H with Ok (?a, ?b) = _ => assert (a = cs' /\ b = e) as [<- <-] by (split; congruence) end. clear H. split; [reflexivity|]. cbn [fresh_env e_road].
  set (cs' := set_tuning cs (cf_traffic cf) tuning_intersection) in *.
  change (all_fit cs' (cf_traffic cf) true (fst (rd4, ctl))). eapply (foldM_keeps (fun st => all_fit cs' (cf_traffic cf) true (fst st))); [|exact E4|].
  - intros [s q] k [s' q'] _ E Hs. unfold intersection_ego in E. apply bind_ok in E as (l & _ & E). cbv zeta in E. apply bind_ok in E as (v & Ev & E).
    destruct (negb _); [discriminate|]. apply bind_ok in E as (w & Ew & E). match type of E with Ok (?a, ?b) = _ => assert (a = s') as <- by congruence end. clear E. cbn [fst].
    apply all_fit_sub; [|intros u Hu; eapply purge_sub; [apply le_n | exact Hu]]. apply all_fit_add; [exact Hs|]. apply fits_iff. split; [|discriminate].
    assert (Kv : v_kind v = ego_kind cf) by (eapply (ego_made cs'); [apply ego_kind_cases | now right | exact Ev]). apply planned_same in Ew as [rt ->].
    cbn [set_grid set_target_speed set_speed_index set_route v_kind v_par]. rewrite Kv. destruct (ego_kind_cases cf) as [-> |[-> | ->]]; intros [Q|Q]; discriminate.
  - cbn [fst]. eapply spawn_fits; [exact E3|]. eapply (foldM_keeps (all_fit cs' (cf_traffic cf) true)); [|exact E2|].
    + intros s t s' _ E. eapply warm_fits; exact E.
    + eapply (foldM_keeps (all_fit cs' (cf_traffic cf) true)); [|exact E1 | apply all_fit_empty]. intros s t s' _ E. eapply spawn_fits; exact E.
Qed.
(** What a reset assigns. *)
Definition assigned (cs : classes) (cf : common) (s : scene) : classes :=
  match s with
  | SRoundabout _ _ => set_class_grid cs roundabout_grid
  | SIntersection _ _ _ _ _ => set_tuning cs (cf_traffic cf) tuning_intersection
  | _ => cs
  end.
Lemma reset_fits cs cf s d cs' sc e : reset cs cf s d = Ok (cs', sc, e) -> cs' = assigned cs cf s /\ all_fit cs' (cf_traffic cf) (has_own_grid s) (e_road e).
Proof.
  unfold reset. intros H. destruct s as [h| | |n dur|n dur|dur inc|c n m dst prob]; cbn [assigned has_own_grid].
  - apply bind_ok in H as (e0 & E & H). assert (cs = cs' /\ e0 = e) as [<- <-] by (split; congruence). split; [reflexivity | eapply highway_fits; exact E].
  - apply bind_ok in H as (e0 & E & H). assert (cs = cs' /\ e0 = e) as [<- <-] by (split; congruence). split; [reflexivity | eapply two_way_fits; exact E].
  - apply bind_ok in H as (e0 & E & H). assert (cs = cs' /\ e0 = e) as [<- <-] by (split; congruence). split; [reflexivity | eapply merge_fits; exact E].
  - apply bind_ok in H as ([goal e0] & E & H). assert (cs = cs' /\ e0 = e) as [<- <-] by (split; congruence). split; [reflexivity | eapply parking_fits; exact E].
  - apply bind_ok in H as ([goal e0] & E & H). assert (cs = cs' /\ e0 = e) as [<- <-] by (split; congruence). split; [reflexivity | eapply summon_fits; exact E].
  - apply bind_ok in H as ([cs1 e0] & E & H). assert (cs1 = cs' /\ e0 = e) as [<- <-] by (split; congruence). eapply roundabout_fits; exact E.
  - apply bind_ok in H as ([cs1 e0] & E & H). assert (cs1 = cs' /\ e0 = e) as [<- <-] by (split; congruence). eapply intersection_fits; exact E.
Qed.
Lemma seen_same cs cf s e : all_fit cs (cf_traffic cf) (has_own_grid s) (e_road e) -> seen_env cs cf s e = e.
Proof.
  intros H. unfold seen_env. assert (map (look_up cs (cf_traffic cf) (has_own_grid s)) (rd_vehicles (e_road e)) = rd_vehicles (e_road e)) as ->.
  { transitivity (map (fun v => v) (rd_vehicles (e_road e))); [|apply map_id]. apply map_ext_in. exact H. }
  destruct e as [rd ctl t n dn]. destruct rd. reflexivity.
Qed.
Lemma seen_fit cs cf s e : all_fit cs (cf_traffic cf) (has_own_grid s) (e_road (seen_env cs cf s e)).
Proof.
  intros v Hv. cbn in Hv. apply in_map_iff in Hv as (w & <- & _). apply fits_iff. unfold look_up. destruct (v_kind w) eqn:K.
  all: try (destruct (has_own_grid s) eqn:O); cbn; try rewrite K; (split; [intros [Q|Q]; (discriminate || reflexivity) | intros Q O'; (discriminate || reflexivity || congruence)]).
Qed.
Lemma scene_step_fits cs cf s sc o d e a e' : scene_step cs cf s sc o d e a = Ok e' -> all_fit cs (cf_traffic cf) (has_own_grid s) (e_road e) -> all_fit cs (cf_traffic cf) (has_own_grid s) (e_road e').
Proof.
  intros E H. assert (L : forall e1, env_step sc o e a = Ok e1 -> all_fit cs (cf_traffic cf) (has_own_grid s) (e_road e1)).
  { intros e1 E1. apply (env_step_lifted constants) in E1; [|apply constants_liftable]. eapply lifted_fit; eassumption. }
  destruct s as [h| | |n dur|n dur|dur inc|c n m dst prob]; try (apply L; exact E).
  cbn [scene_step] in E. unfold intersection_step in E. apply bind_ok in E as (e1 & E1 & E). apply bind_ok in E as (rd2 & E2 & E). apply bind_ok in E as (rd3 & E3 & E). okinj E. cbn [set_road e_road].
  eapply spawn_fits; [exact E3|]. specialize (L e1 E1). unfold clear_vehicles in E2. apply bind_ok in E2 as (vs & Ef & E2). okinj E2. apply all_fit_sub; [exact L|].
  clear -Ef. revert vs Ef. generalize (rd_vehicles (e_road e1)) as l. induction l as [|x l IH]; intros vs Ef v Hv; cbn [filterM] in Ef; [assert (vs = []) as -> by congruence; destruct Hv|].
  apply bind_ok in Ef as (b & _ & Ef). apply bind_ok in Ef as (r & Er & Ef). okinj Ef. destruct b; [destruct Hv as [<- |Hv]; [now left|]|]; right; eapply IH; eassumption.
Qed.
