(** Proofs about the gym loop. *)
From Verif Require Import Prelude M_Utils M_Lane M_Road M_Vehicle M_Kinematics M_Control M_Behavior M_Regulation M_Action M_Env M_Scenes M_Nets M_Reset M_Ttc M_Obs M_Gym
  S_Geometry S_Road S_Vehicle S_Control S_Behavior S_Regulation S_Env S_Obs S_Ttc S_Reset S_Gym
  P_Base P_Utils P_Lane P_Graph P_Bfs P_Query P_Kin P_Crash P_Control P_Behavior P_Traffic P_Regulation P_Action P_Env P_Scenes P_Lift P_Nets P_Reset P_Ready P_Crossing P_Share.
From Coq Require Import Lia Lra Permutation.
Open Scope R_scope.

(** ** What every vehicle keeps through an episode *)
(** The last lane of the route exists. *)
Definition bindable (g : graph) (rt : option route) : Prop :=
  match rt with Some (r0 :: rs) => exists l, get_lane g (last (r0 :: rs) r0) = Ok l | _ => True end.
Lemma bindable_bound g v : bindable g (v_route v) <-> exists p, bound_for g v p.
Proof.
  unfold bindable, bound_for. destruct (v_route v) as [[|r0 rs]|].
  - split; [intros _; eexists; reflexivity | exact (fun _ => I)].
  - split; [intros (l & H); eexists; exists l; split; [exact H | reflexivity] | intros (p & l & H & _); now exists l].
  - split; [intros _; eexists; reflexivity | exact (fun _ => I)].
Qed.
Lemma last_any {A} (x : A) l d d' : last (x :: l) d = last (x :: l) d'.
Proof. revert x. induction l as [|y l IH]; intros x; [reflexivity|]. exact (IH y). Qed.
Lemma bindable_tail g r rt : bindable g (Some (r :: rt)) -> bindable g (Some rt).
Proof.
  destruct rt as [|r1 rt]; [exact (fun _ => I)|]. unfold bindable. intros (l & H). exists l. rewrite <- H. f_equal.
  change (last (r :: r1 :: rt) r) with (last (r1 :: rt) r). apply last_any.
Qed.
Lemma resolvable_bindable g v : route_resolvable g v -> bindable g (v_route v).
Proof.
  unfold route_resolvable, bindable. destruct (v_route v) as [[|r0 rs]|]; [exact (fun _ => I) | | exact (fun _ => I)].
  intros F. rewrite Forall_forall in F. apply F. clear. revert r0. induction rs as [|x rs IH]; intros r0; [now left|]. right. change (last (r0 :: x :: rs) r0) with (last (x :: rs) r0).
  assert (H : forall d, In (last (x :: rs) d) (x :: rs)); [|apply H]. intros d. clear. revert x. induction rs as [|y rs IH]; intros x; [now left|]. right. apply IH.
Qed.
Definition mdp_ok (v : vehicle) : Prop := v_kind v = KMDP -> sg_count (v_grid v) = 3%Z /\ (0 <= v_speed_index v <= 2)%Z.
Definition sound (g : graph) (v : vehicle) : Prop := bindable g (v_route v) /\ mdp_ok v.
(** Shortened routes. *)
Definition shortens (g : graph) (v w : vehicle) : Prop := bindable g (v_route v) -> bindable g (v_route w).
Lemma shortens_tail g v w : (v_route w = v_route v \/ exists r rt, v_route v = Some (r :: rt) /\ v_route w = Some rt) -> shortens g v w.
Proof. unfold shortens. intros [-> |(r & rt & -> & ->)]; [trivial | apply bindable_tail]. Qed.
Lemma shortens_liftable g : liftable (shortens g).
Proof.
  split; unfold shortens.
  - trivial.
  - auto.
  - intros rd draw v w E. apply shortens_tail. eapply vehicle_act_route; exact E.
  - intros rd draw c v w E. apply shortens_tail. eapply vehicle_command_route; exact E.
  - intros g' rec dt v w E. apply vehicle_step_stepped in E. unfold stepped in E. assert (v_route w = v_route v) as -> by tauto. trivial.
  - trivial.
  - intros yd g' v w E. unfold unfreeze in E. destruct (v_is_yielding v); [|injection E as <-; trivial]. destruct (Rleb _ _).
    + apply bind_ok in E as (l & _ & E). destruct (v_has_color v); [|discriminate]. injection E as <-. trivial.
    + injection E as <-. trivial.
  - intros v. unfold force. destruct (can_be_forced v); trivial.
Qed.
Definition all_sound (g : graph) (rd : road) : Prop := forall v, In v (rd_vehicles rd) -> sound g v.
Lemma lifted_sound g rd rd' : lifted (shortens g) rd rd' -> lifted keeps rd rd' -> all_sound g rd -> all_sound g rd'.
Proof.
  intros (_ & _ & _ & F) (_ & _ & _ & K) H w Hw. split.
  - destruct (Forall2_In_r _ _ _ F w Hw) as (v & Hv & Sh). apply Sh, H, Hv.
  - destruct (Forall2_In_r _ _ _ K w Hw) as (v & Hv & _ & Kk & Kg & Ki). destruct (H v Hv) as [_ M]. intros Km. rewrite Kk in Km. destruct (M Km) as [C I]. rewrite Kg. split; [exact C|].
    unfold index_ok in Ki. rewrite Kg, Kk, C in Ki. specialize (Ki ltac:(intros _; lia) Km). lia.
Qed.
Lemma env_step_sound g sc o e a e' : env_step sc o e a = Ok e' -> all_sound g (e_road e) -> all_sound g (e_road e').
Proof.
  intros E. apply lifted_sound; [eapply env_step_lifted; [apply shortens_liftable | exact E] | eapply env_step_lifted; [apply keeps_liftable | exact E]].
Qed.
Lemma shared_count cs : shared_grid cs -> sg_count (cl_grid cs) = 3%Z.
Proof. intros [-> | ->]; reflexivity. Qed.
Lemma shared_max cs : shared_grid cs -> 0 < sg_max (cl_grid cs).
Proof. intros [-> | ->]; cbn; lra. Qed.
Lemma look_up_index cs c b v : v_speed_index (look_up cs c b v) = v_speed_index v /\ v_route (look_up cs c b v) = v_route v /\ v_kind (look_up cs c b v) = v_kind v.
Proof. unfold look_up. destruct v as [? k]. destruct k; cbn; try tauto. destruct b; cbn; tauto. Qed.
Lemma seen_sound g cs cf s e : shared_grid cs -> all_sound g (e_road e) -> all_sound g (e_road (seen_env cs cf s e)).
Proof.
  intros Sg H w Hw. cbn in Hw. apply in_map_iff in Hw as (v & <- & Hv). destruct (H v Hv) as [B M]. destruct (look_up_index cs (cf_traffic cf) (has_own_grid s) v) as (Ei & Er & Ek).
  split; [now rewrite Er|]. intros K. rewrite Ek in K. destruct (M K) as [C I]. rewrite Ei. split; [|exact I]. unfold look_up. rewrite K. destruct (has_own_grid s); [exact C | now apply shared_count].
Qed.

(** ** New vehicles *)
Lemma speed_index_bounds sg x : sg_count sg = 3%Z -> (0 <= speed_to_index sg x <= 2)%Z.
Proof. intros C. unfold speed_to_index. rewrite C. apply Zclip_bounds. lia. Qed.
Definition plain (v : vehicle) : Prop := v_route v = None /\ mdp_ok v.
Lemma plain_sound g v : plain v -> sound g v.
Proof. intros [R M]. split; [rewrite R; exact I | exact M]. Qed.
Lemma new_vehicle_plain g id p h s v : new_vehicle g id p h s = Ok v -> plain v.
Proof. unfold new_vehicle. intros E. apply bind_ok in E as (i & _ & E). okinj E. split; [reflexivity | discriminate]. Qed.
Lemma ego_plain cs k g id p h s v : shared_grid cs -> k = KMDP \/ k = KVehicle \/ k = KBicycle -> new_ego cs k g id p h s = Ok v -> plain v.
Proof.
  intros Sg Hk E. pose proof (ego_made _ _ _ _ _ _ _ _ Hk (or_intror I) E) as [K M]. split.
  - unfold new_ego in E. destruct Hk as [-> |[-> | ->]].
    + unfold new_mdp in E. apply bind_ok in E as (w & _ & E). okinj E. reflexivity.
    + apply bind_ok in E as (w & Ew & E). okinj E. apply new_vehicle_plain in Ew as [R _]. exact R.
    + apply bind_ok in E as (w & Ew & E). okinj E. apply new_vehicle_plain in Ew as [R _]. exact R.
  - intros Km. rewrite K in Km. destruct (M Km) as (G & X & _). rewrite G, X. pose proof (shared_count _ Sg) as C. split; [exact C | now apply speed_index_bounds].
Qed.
Lemma traffic_plain cs c g id p h s b v : new_traffic cs c g id p h s b = Ok v -> plain v.
Proof.
  unfold new_traffic, new_idm. intros E. apply bind_ok in E as (w & _ & E). okinj E. split; [reflexivity|]. intros K. destruct c; discriminate K.
Qed.
Lemma on_lane_plain cs c g id i s sp v : traffic_on_lane cs c g id i s sp = Ok v -> plain v.
Proof. unfold traffic_on_lane. intros E. apply bind_ok in E as (l & _ & E). eapply traffic_plain; exact E. Qed.
Lemma make_on_lane_plain g id i s sp v : make_on_lane g id i s sp = Ok v -> plain v.
Proof. unfold make_on_lane. intros E. apply bind_ok in E as (l & _ & E). eapply new_vehicle_plain; exact E. Qed.

(** ** Every scene starts with such vehicles *)
Definition scene_net (s : scene) : graph :=
  match s with
  | SHighway h => highway_net (hs_lanes h)
  | STwoWay => two_way_net 800
  | SMerge => merge_net
  | SParking _ _ => parking_net 15
  | SSummon _ _ => summon_net 15
  | SRoundabout _ _ => roundabout_net
  | SIntersection _ _ _ _ _ => intersection_net
  end.
Definition starting (g : graph) (rd : road) : Prop := rd_net rd = g /\ all_sound g rd.
Lemma starting_empty g cf : starting g (empty_road g cf).
Proof. split; [reflexivity | intros v []]. Qed.
Lemma starting_add g rd v : starting g rd -> sound g v -> starting g (add_vehicle rd v).
Proof. intros [N H] Hv. split; [exact N|]. intros w Hw. cbn in Hw. apply in_app_or in Hw as [Hw|[<- |[]]]; [now apply H | exact Hv]. Qed.
Lemma starting_object g rd o : starting g rd -> starting g (add_object rd o).
Proof. intros [N H]. split; [exact N | exact H]. Qed.
Lemma starting_sub g rd vs : starting g rd -> (forall v, In v vs -> In v (rd_vehicles rd)) -> starting g (set_vehicles rd vs).
Proof. intros [N H] S. split; [exact N|]. intros v Hv. apply H, S, Hv. Qed.
Lemma highway_starting cs cf h d e : shared_grid cs -> highway_reset cs cf h d = Ok e -> starting (highway_net (hs_lanes h)) (e_road e).
Proof.
  unfold highway_reset. intros Sg H. apply bind_ok in H as ([rd ctl] & E1 & H). apply bind_ok in H as (rd2 & E2 & H). okinj H. cbn [fresh_env e_road].
  eapply (foldM_keeps (starting _)); [|exact E2|].
  - intros s j s' _ E Hs. unfold highway_other in E. apply bind_ok in E as (sp & _ & E). apply bind_ok in E as ([p hd] & _ & E). apply bind_ok in E as (v & Ev & E). okinj E.
    apply starting_add; [exact Hs | eapply plain_sound, traffic_plain; exact Ev].
  - change (starting (highway_net (hs_lanes h)) (fst (rd, ctl))). eapply (foldM_keeps (fun st => starting _ (fst st))); [|exact E1 | apply starting_empty].
    intros [s l] j [s' l'] _ E Hs. unfold highway_ego in E. apply bind_ok in E as ([p hd] & _ & E). apply bind_ok in E as (v & Ev & E).
    assert (s' = add_vehicle s v) as -> by congruence. apply starting_add; [exact Hs | eapply plain_sound, ego_plain; [exact Sg | apply ego_kind_cases | exact Ev]].
Qed.
Lemma two_way_starting cs cf d e : shared_grid cs -> two_way_reset cs cf d = Ok e -> starting (two_way_net 800) (e_road e).
Proof.
  unfold two_way_reset. intros Sg H. cbv zeta in H. apply bind_ok in H as (l & _ & H). apply bind_ok in H as (v & Ev & H). apply bind_ok in H as (rd1 & E1 & H). apply bind_ok in H as (rd2 & E2 & H). okinj H.
  cbn [fresh_env e_road]. eapply (foldM_keeps (starting _)); [|exact E2|].
  - intros s j s' _ E Hs. unfold two_way_oncoming in E. apply bind_ok in E as (l' & _ & E). apply bind_ok in E as (w & Ew & E). okinj E.
    apply starting_add; [exact Hs|]. apply plain_sound. apply traffic_plain in Ew. exact Ew.
  - eapply (foldM_keeps (starting _)); [|exact E1|].
    + intros s j s' _ E Hs. unfold two_way_ahead in E. apply bind_ok in E as (l' & _ & E). apply bind_ok in E as (w & Ew & E). okinj E.
      apply starting_add; [exact Hs | eapply plain_sound, traffic_plain; exact Ew].
    + apply starting_add; [apply starting_empty | eapply plain_sound, ego_plain; [exact Sg | apply ego_kind_cases | exact Ev]].
Qed.
Lemma merge_starting cs cf e : shared_grid cs -> merge_reset cs cf = Ok e -> starting merge_net (e_road e).
Proof.
  unfold merge_reset. intros Sg H. cbv zeta in H. apply bind_ok in H as (l & _ & H). apply bind_ok in H as (v & Ev & H). apply bind_ok in H as (rd1 & E1 & H). apply bind_ok in H as (m & _ & H). apply bind_ok in H as (w & Ew & H). okinj H.
  cbn [fresh_env e_road]. apply starting_add; [|apply plain_sound; apply traffic_plain in Ew; exact Ew].
  eapply (foldM_keeps (starting _)); [|exact E1|].
  - intros s [[i x] y] s' _ E Hs. unfold merge_other in E. apply bind_ok in E as (l' & _ & E). apply bind_ok in E as (u & Eu & E). okinj E.
    apply starting_add; [exact Hs | eapply plain_sound, traffic_plain; exact Eu].
  - apply starting_add; [apply starting_object, starting_empty | eapply plain_sound, ego_plain; [exact Sg | apply ego_kind_cases | exact Ev]].
Qed.
Lemma parking_starting cs cf n d goal e : shared_grid cs -> parking_reset cs cf n d = Ok (goal, e) ->
  starting (parking_net 15) (e_road e) /\ rd_objects (e_road e) = [goal] /\ o_speed goal = 0.
Proof.
  unfold parking_reset. intros Sg H. apply bind_ok in H as ([rd ctl] & E1 & H). apply bind_ok in H as (l & _ & H). cbv zeta in H.
  assert (St : starting (parking_net 15) (fst (rd, ctl)) /\ rd_objects (fst (rd, ctl)) = []).
  { eapply (foldM_keeps (fun st => starting _ (fst st) /\ rd_objects (fst st) = [])); [|exact E1 | split; [apply starting_empty | reflexivity]].
    intros [s q] j [s' q'] _ E [Hs Ho]. unfold parking_ego in E. apply bind_ok in E as (v & Ev & E).
    assert (s' = add_vehicle s v) as -> by congruence. split; [|exact Ho]. apply starting_add; [exact Hs | eapply plain_sound, ego_plain; [exact Sg | apply ego_kind_cases | exact Ev]]. }
  match type of H with Ok (?a, ?b) = _ => assert (b = e) as <- by congruence; assert (a = goal) as <- by congruence end. clear H. cbn [fresh_env e_road].
  destruct St as [St So]. cbn [fst] in St, So. split; [apply starting_object, St|]. split; [cbn [add_object set_objects rd_objects]; rewrite So; reflexivity | reflexivity].
Qed.
Lemma summon_starting cs cf n d goal e : shared_grid cs -> summon_reset cs cf n d = Ok (goal, e) ->
  starting (summon_net 15) (e_road e) /\ rd_objects (e_road e) = [goal] /\ o_speed goal = 0.
Proof.
  unfold summon_reset. intros Sg H. cbv zeta in H. apply bind_ok in H as (v & Ev & H). apply bind_ok in H as (rd1 & E1 & H).
  match type of H with Ok (?a, ?b) = _ => assert (b = e) as <- by congruence; assert (a = goal) as <- by congruence end. clear H. cbn [fresh_env e_road].
  match goal with |- starting _ _ /\ _ = [?go] /\ _ => assert (St : starting (summon_net 15) rd1 /\ rd_objects rd1 = [go]) end.
  { eapply (foldM_keeps (fun rd => starting _ rd /\ rd_objects rd = _)); [|exact E1|].
    - intros s j s' _ E [Hs Ho]. unfold summon_other in E. destruct (Rltb _ _).
      + apply bind_ok in E as (w & Ew & E). okinj E. split; [|exact Ho]. apply starting_add; [exact Hs | eapply plain_sound, on_lane_plain; exact Ew].
      + apply bind_ok in E as (w & Ew & E). okinj E. split; [|exact Ho]. apply starting_add; [exact Hs | eapply plain_sound, make_on_lane_plain; exact Ew].
    - split; [|reflexivity]. apply starting_object, starting_add; [apply starting_empty | eapply plain_sound, ego_plain; [exact Sg | apply ego_kind_cases | exact Ev]]. }
  destruct St as [St So]. split; [|split; [exact So | reflexivity]]. apply starting_sub; [exact St | intros w Hw; eapply purge_sub; [apply le_n | exact Hw]].
Qed.

(** Routes across the roundabout end on a road with one lane. *)
Definition roundabout_adds : list (string * string * lane) := ring_lanes 20 (LContinuous, LStriped) ++ ring_lanes (20 + 4) (LNone, LContinuous) ++ access_lanes.
Definition exits : list string := ["exr"; "sxr"; "nxr"; "nxs"]%string.
Lemma roundabout_eq : roundabout_net = build roundabout_adds.
Proof. reflexivity. Qed.
Lemma roundabout_exit x y : edge roundabout_net x y -> In y exits -> exists l, get_lane roundabout_net (x, y, None) = Ok l.
Proof.
  intros (k & l & H) Hy. rewrite roundabout_eq, build_has_iff in H. apply nth_error_In, added_In in H.
  assert (F : forallb (fun x => negb (existsb (String.eqb (snd (fst x))) exits) || Nat.eqb (List.length (added_between (fst (fst x)) (snd (fst x)) roundabout_adds)) 1) roundabout_adds = true) by reflexivity.
  rewrite forallb_forall in F. specialize (F _ H). cbn [fst snd] in F.
  assert (existsb (String.eqb y) exits = true) as Q by (apply existsb_exists; exists y; split; [exact Hy | apply String.eqb_refl]). rewrite Q in F. cbn [negb orb] in F. apply Nat.eqb_eq in F.
  rewrite roundabout_eq. unfold get_lane. cbn [li_from li_to li_id fst snd]. rewrite (g_lanes_wf _ x y) by (apply wf_built, built_build). rewrite build_lanes.
  destruct (added_between x y roundabout_adds) as [|l0 [|l1 ls]]; [discriminate | now exists l0 | discriminate].
Qed.
Lemma path_route_last a b path r : exists x, last (path_route (a :: b :: path)) r = (x, last (b :: path) b, None) /\ (forall g, walk g (a :: b :: path) -> edge g x (last (b :: path) b)).
Proof.
  revert a b. induction path as [|c path IH]; intros a b.
  - exists a. split; [reflexivity|]. intros g [E _]. exact E.
  - destruct (IH b c) as (x & E & W). exists x. change (path_route (a :: b :: c :: path)) with ((a, b, None) :: path_route (b :: c :: path)).
    change (last (b :: c :: path) b) with (last (c :: path) b). rewrite (last_any c path b c). split.
    + rewrite <- E. change (path_route (b :: c :: path)) with ((b, c, @None Z) :: path_route (c :: path)). reflexivity.
    + intros g [_ Wk]. apply W, Wk.
Qed.
Lemma planned_bindable ord v d w : set_order ord -> lane_exists roundabout_net (v_lane_index v) -> In d exits ->
  plan_route_to roundabout_net ord v d = Ok w -> bindable roundabout_net (v_route w).
Proof.
  intros O Le Hd. assert (W : wf_graph roundabout_net) by (apply wf_built; rewrite roundabout_eq; apply built_build).
  assert (B0 : bindable roundabout_net (Some [v_lane_index v])).
  { destruct Le as (k & l & Hk & H). exists l. cbn [last]. destruct (v_lane_index v) as [[x y] i]. cbn [li_id snd] in Hk. subst i. apply get_lane_nat. exact H. }
  destruct (shortest_path_spec roundabout_net ord (li_to (v_lane_index v)) d W O) as (p & E & _ & Hp). unfold plan_route_to. rewrite E.
  destruct p as [|n path]; [intros H; okinj H; exact B0|]. intros H; okinj H. cbn [set_route v_route].
  destruct (Hp ltac:(discriminate)) as (((Wk & (q & Q & Qn) & L) & _) & _). injection Q as -> ->. destruct q as [|m path]; [now elim Qn|].
  destruct (path_route_last (li_to (v_lane_index v)) m path (v_lane_index v)) as (x & Er & Ed). specialize (Ed _ Wk).
  assert (L' : last (m :: path) m = d) by (rewrite <- L; apply (last_any m path)). rewrite L' in *.
  destruct (roundabout_exit x d Ed Hd) as [l G]. exists l. rewrite <- G. f_equal. rewrite <- Er. reflexivity.
Qed.
Lemma roundabout_built : built roundabout_net /\ roundabout_net <> [].
Proof. split; [apply built_build | apply build_nonempty; discriminate]. Qed.
Global Opaque roundabout_net.
Lemma planned_mdp g ord v dst w : plan_route_to g ord v dst = Ok w -> mdp_ok v -> mdp_ok w.
Proof. intros E M. apply planned_same in E as [rt ->]. exact M. Qed.
Lemma randomize_sound g d k c v : sound g v -> sound g (randomize d k c v).
Proof.
  intros [B M]. pose proof (randomize_same d k c v) as (_ & Ek & _ & _ & Er & _). split; [now rewrite Er|]. intros K. rewrite Ek in K.
  assert (v_grid (randomize d k c v) = v_grid v /\ v_speed_index (randomize d k c v) = v_speed_index v) as [-> ->] by (destruct c; split; reflexivity). now apply M.
Qed.
Lemma roundabout_starting cs cf inc d cs' e : shared_grid cs -> draws_ok d -> roundabout_reset cs cf inc d = Ok (cs', e) -> starting roundabout_net (e_road e).
Proof.
  unfold roundabout_reset. intros Sg D H. cbv zeta in H. apply bind_ok in H as (l & _ & H). apply bind_ok in H as (v & Ev & H). apply bind_ok in H as (w & Ew & H). apply bind_ok in H as (rd1 & E1 & H).
  match type of H with Ok (?a, ?b) = _ => assert (a = cs' /\ b = e) as [<- <-] by (split; congruence) end. clear H. cbn [fresh_env e_road].
  destruct roundabout_built as [B N]. assert (O : set_order (dr_ord d)) by apply D.
  change (rd_net (empty_road roundabout_net cf)) with roundabout_net in Ev, Ew.
  eapply (foldM_keeps (starting roundabout_net)); [|exact E1|].
  - intros s [[j i] x] s' _ E Hs. unfold roundabout_other in E. cbv zeta in E. rewrite (proj1 Hs) in E. apply bind_ok in E as (u & Eu & E). apply bind_ok in E as (dest & Ed & E). apply bind_ok in E as (u' & Eu' & E). okinj E.
    apply starting_add; [exact Hs|]. apply randomize_sound. pose proof (on_lane_plain _ _ _ _ _ _ _ _ Eu) as [_ M]. split; [|eapply planned_mdp; eassumption].
    eapply planned_bindable; [exact O | | |exact Eu'].
    + pose proof Eu as Eu0. unfold traffic_on_lane in Eu0. apply bind_ok in Eu0 as (li & Gl & _).
      match type of Eu with traffic_on_lane ?a ?b ?c ?x ?p ?s ?t = _ => destruct (traffic_on_lane_total a b c x p s t li B N Gl) as (u2 & Eu2 & Nu & _) end.
      assert (u2 = u) as -> by congruence. apply Nu.
    + assert (I : forall k d0, py_index roundabout_destinations k = Ok d0 -> In d0 exits).
      { intros k d0 H. unfold py_index in H. destruct (0 <=? _)%Z; [|discriminate]. destruct (nth_error roundabout_destinations _) eqn:Q; [|discriminate]. okinj H. apply nth_error_In in Q. destruct Q as [<- |[<- |[<- |[]]]]; cbn; tauto. }
      assert (Ch : forall dr d0, choice dr roundabout_destinations = Ok d0 -> In d0 exits).
      { intros dr d0 H. cbn [choice roundabout_destinations] in H. fold roundabout_destinations in H. destruct (nth_error roundabout_destinations _) eqn:Q; [|discriminate]. okinj H. apply nth_error_In in Q. destruct Q as [<- |[<- |[<- |[]]]]; cbn; tauto. }
      destruct j; [destruct inc as [k|]|]; [eapply I; exact Ed | eapply Ch; exact Ed | eapply Ch; exact Ed].
  - apply starting_add; [apply starting_empty|]. pose proof (ego_plain _ _ _ _ _ _ _ _ Sg (ego_kind_cases cf) Ev) as [R M].
    assert (Sw : bindable roundabout_net (v_route w) /\ mdp_ok w).
    { destruct (is_controlled (ego_kind cf)); [|okinj Ew; rewrite R; split; [exact I | exact M]]. split; [|eapply planned_mdp; eassumption].
      eapply planned_bindable; [exact O | | |exact Ew]; [|cbn; tauto].
      match type of Ev with new_ego ?a ?b ?c ?x ?p ?h ?s = _ => destruct (new_ego_total a b c x p h s B N (ego_kind_cases cf)) as (v2 & Ev2 & Nv & _) end.
      assert (v2 = v) as -> by congruence. apply Nv. }
    destruct Sw as [Bw Mw]. split; [exact Bw|]. intros K. destruct (Mw K) as [_ X]. split; [reflexivity | exact X].
Qed.
(** At the intersection, only the speed levels are left to check. *)
Definition all_mdp (rd : road) : Prop := forall v, In v (rd_vehicles rd) -> mdp_ok v.
Lemma all_mdp_add rd v : all_mdp rd -> mdp_ok v -> all_mdp (add_vehicle rd v).
Proof. intros H Hv w Hw. cbn in Hw. apply in_app_or in Hw as [Hw|[<- |[]]]; [now apply H | exact Hv]. Qed.
Lemma spawn_mdp cs c d j ctl lon pd sd prob straight rd rd' : spawn cs c d j ctl lon pd sd prob straight rd = Ok rd' -> all_mdp rd -> all_mdp rd'.
Proof.
  unfold spawn. destruct (Rltb _ _); [intros E H; okinj E; exact H|]. cbv zeta. intros E H. apply bind_ok in E as (v & Ev & E). destruct (existsb _ _); [okinj E; exact H|].
  apply bind_ok in E as (w & Ew & E). okinj E. apply all_mdp_add; [exact H|]. apply on_lane_plain in Ev as [R M]. eapply planned_mdp in Ew; [|exact M].
  assert (S0 : forall g, bindable g (v_route w) -> sound g w) by (intros g B; now split).
  intros K. pose proof (randomize_same d (6 * j + 1) c w) as (_ & Ek & _). rewrite Ek in K.
  assert (v_grid (randomize d (6 * j + 1) c w) = v_grid w /\ v_speed_index (randomize d (6 * j + 1) c w) = v_speed_index w) as [-> ->] by (destruct c; split; reflexivity). now apply Ew.
Qed.
Lemma lifted_mdp rd rd' : lifted keeps rd rd' -> all_mdp rd -> all_mdp rd'.
Proof.
  intros (_ & _ & _ & K) H w Hw. destruct (Forall2_In_r _ _ _ K w Hw) as (v & Hv & _ & Kk & Kg & Ki). pose proof (H v Hv) as M. intros Km. rewrite Kk in Km. destruct (M Km) as [C I]. rewrite Kg. split; [exact C|].
  unfold index_ok in Ki. rewrite Kg, Kk, C in Ki. specialize (Ki ltac:(intros _; lia) Km). lia.
Qed.
Lemma warm_mdp dt d rd t rd' : warm_frame dt d rd t = Ok rd' -> all_mdp rd -> all_mdp rd'.
Proof.
  unfold warm_frame. intros E. apply bind_ok in E as (rd1 & E1 & E). apply lifted_mdp. eapply lifted_trans; [apply keeps_liftable | eapply road_act_lifted; [apply keeps_liftable | exact E1] | eapply regulated_step_lifted; [apply keeps_liftable | exact E]].
Qed.
Lemma intersection_mdp cs cf n m dst d cs' e : intersection_reset cs cf n m dst d = Ok (cs', e) -> all_mdp (e_road e).
Proof.
  unfold intersection_reset. intros H. cbv zeta in H. apply bind_ok in H as (rd1 & E1 & H). apply bind_ok in H as (rd2 & E2 & H). apply bind_ok in H as (rd3 & E3 & H). apply bind_ok in H as ([rd4 ctl] & E4 & H).
  match type of H with Ok (?a, ?b) = _ => assert (b = e) as <- by congruence end. clear H. cbn [fresh_env e_road].
  change (all_mdp (fst (rd4, ctl))). eapply (foldM_keeps (fun st => all_mdp (fst st))); [|exact E4|].
  - intros [s q] k [s' q'] _ E Hs. unfold intersection_ego in E. apply bind_ok in E as (l & _ & E). cbv zeta in E. apply bind_ok in E as (v & Ev & E).
    destruct (negb _); [discriminate|]. apply bind_ok in E as (w & Ew & E). match type of E with Ok (?a, ?b) = _ => assert (a = s') as <- by congruence end. clear E. cbn [fst].
    intros u Hu. cbn [set_vehicles rd_vehicles] in Hu. apply (purge_sub _ _ _ (le_n _)) in Hu.
    revert u Hu. apply all_mdp_add; [exact Hs|]. intros _. cbn [set_target_speed set_speed_index set_grid v_grid v_speed_index]. split; [reflexivity | apply speed_index_bounds; reflexivity].
  - cbn [fst]. eapply spawn_mdp; [exact E3|]. eapply (foldM_keeps all_mdp); [|exact E2|].
    + intros s t s' _ E. eapply warm_mdp; exact E.
    + eapply (foldM_keeps all_mdp); [|exact E1 | intros v []]. intros s t s' _ E. eapply spawn_mdp; exact E.
Qed.
