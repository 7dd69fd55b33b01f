(** C84: the modified copies of an environment. *)
From Coq Require Import Lia Lra Permutation Sorted.
From Verif Require Import Prelude M_Utils M_Lane M_Road M_Vehicle M_Kinematics M_Control M_Behavior M_Action M_Env M_Scenes M_Nets M_Reset M_Copies S_Copies S_Geometry S_Road S_Control S_Env S_Reset P_Base P_Graph P_Rename P_Reset T_Road T_Control T_Behavior T_Kin T_Obs T_Twins.
Open Scope R_scope.

Notation twin e := (Nat.add (first_free e)).

Lemma scene_kept e vs : same_scene (twin e) e (set_road (copy_env e) (set_vehicles (e_road (copy_env e)) vs)).
Proof. constructor; cbn; auto. now apply (forall2_map _ _ _ _ (same_obstacle_ren _)). Qed.
Lemma forall2_ranks {A B} (k : nat * A -> res B) l : forall s out, mapM k (combine (seq s (List.length l)) l) = Ok out ->
  Forall2 (fun x y => exists i, (s <= i)%nat /\ k (i, x) = Ok y) l out.
Proof.
  induction l as [|x l IH]; intros s out; cbn [List.length seq combine mapM]; [intro H; injection H as <-; constructor|].
  destruct (k (s, x)) as [y|] eqn:E; [|discriminate]. cbn [bind]. destruct (mapM k _) as [ys|] eqn:M; [|discriminate].
  intro H. injection H as <-. constructor; [exists s; split; [lia|exact E]|].
  specialize (IH (S s) ys M). clear -IH. induction IH as [|a b l l' (i & L & Q) F IH]; constructor; [|exact IH]. exists i. split; [lia|exact Q].
Qed.
Lemma forall2_imp {A B} (P Q : A -> B -> Prop) l l' : (forall x y, In x l -> In y l' -> P x y -> Q x y) -> Forall2 P l l' -> Forall2 Q l l'.
Proof. intros H F. induction F as [|x y l l' Hx F IH]; constructor; [apply H; cbn; auto|]. apply IH. intros. apply H; cbn; auto. Qed.
Lemma forall2_map_l {A B C} (P : B -> C -> Prop) (g : A -> B) l l' : Forall2 P (map g l) l' <-> Forall2 (fun x y => P (g x) y) l l'.
Proof.
  split; revert l'.
  - induction l as [|x l IH]; intros l' F; inversion F; subst; constructor; auto.
  - induction l as [|x l IH]; intros l' F; inversion F; subst; cbn [map]; constructor; auto.
Qed.
Lemma same_refl f v : same_vehicle f v (ren_vehicle f v).
Proof. now apply same_vehicle_ren. Qed.

(** C84: [simplify] succeeds whenever the ego vehicle is on the road (on a known lane);
    it keeps the ego vehicle first, then exactly the vehicles closer than 180 m, the
    closest along the ego's lane first; nothing else changes. *)
Theorem C84_simplify : forall e v l, ego e = Ok v -> get_lane (rd_net (e_road e)) (v_lane_index v) = Ok l ->
  exists e' kept, simplify e = Ok e' /\ same_scene (twin e) e e' /\
    Forall2 (same_vehicle (twin e)) (v :: kept) (rd_vehicles (e_road e')) /\
    (exists keep, Permutation kept (filter keep (rd_vehicles (e_road e))) /\
       forall w, keep w = true <-> (vnorm (vsub (v_pos w) (v_pos v)) < 180 /\ v_id w <> v_id v)) /\
    StronglySorted (fun a b => Rabs (fst (l_local l (v_pos a)) - fst (l_local l (v_pos v))) <=
                               Rabs (fst (l_local l (v_pos b)) - fst (l_local l (v_pos v)))) kept.
Proof.
  intros e v l E G.
  destruct (C19_close_vehicles (e_road e) v 180 None true l G) as (out & rest & all & C & (keep & -> & K) & Pm & So & Rs & _).
  rewrite (Rs (or_introl eq_refl)) in *. rewrite app_nil_r in *. clear Rs rest.
  assert (Sm : simplify e = Ok (set_road (copy_env e) (set_vehicles (e_road (copy_env e)) (map (ren_vehicle (twin e)) (v :: out))))).
  { unfold simplify. unfold copy_env at 1. rewrite (ren_ego _ (shift_inj _)), E. cbn [rmap bind].
    change (e_road (copy_env e)) with (ren_road (twin e) (e_road e)).
    rewrite (ren_close _ (shift_inj _)).
    replace PERCEPTION_DISTANCE with 180 by (unfold PERCEPTION_DISTANCE, grid_default; cbn [sg_max]; lra).
    rewrite C. reflexivity. }
  exists (set_road (copy_env e) (set_vehicles (e_road (copy_env e)) (map (ren_vehicle (twin e)) (v :: out)))), out.
  split; [exact Sm|]. split; [apply scene_kept|]. split; [|split; [|exact So]].
  - now apply (forall2_map _ _ _ _ (same_vehicle_ren _)).
  - exists keep. split; [exact Pm|]. intro w. rewrite K. intuition.
Qed.
Print Assumptions C84_simplify.

(** C84: with several agents, the copy loses the distant ones: they are still
    controlled, but no longer on the road. *)
Theorem C84_simplify_loses_agents : forall e e' v l w, ego e = Ok v -> get_lane (rd_net (e_road e)) (v_lane_index v) = Ok l ->
  simplify e = Ok e' -> NoDup (map v_id (rd_vehicles (e_road e))) ->
  In w (rd_vehicles (e_road e)) -> In (v_id w) (e_controlled e) -> v_id w <> v_id v -> 180 <= vnorm (vsub (v_pos w) (v_pos v)) ->
  In (twin e (v_id w)) (e_controlled e') /\ forall x, In x (rd_vehicles (e_road e')) -> v_id x <> twin e (v_id w).
Proof.
  intros e e' v l w E G S N Hw Hc Nv D. destruct (C84_simplify e v l E G) as (e2 & kept & S2 & Sc & F & (keep & P & K) & _).
  rewrite S in S2. injection S2 as <-. split; [rewrite (ss_controlled _ _ _ Sc); now apply in_map|].
  intros x Hx Q. apply (proj1 (forall2_map _ _ _ _ (same_vehicle_ren _))) in F. rewrite F in Hx. apply in_map_iff in Hx as (y & <- & Hy).
  change (twin e (v_id y) = twin e (v_id w)) in Q. apply shift_inj in Q. destruct Hy as [->|Hy]; [congruence|].
  apply (Permutation_in _ P) in Hy. apply filter_In in Hy as [Hy Ky]. apply K in Ky as [Ky _].
  assert (y = w); [|subst; lra].
  clear -N Hy Hw Q. induction (rd_vehicles (e_road e)) as [|a vs IH]; [destruct Hy|]. cbn [map] in N. inversion N as [|? ? Nin N']; subst.
  destruct Hy as [<-|Hy], Hw as [<-|Hw]; auto.
  - exfalso. apply Nin. rewrite Q. now apply in_map.
  - exfalso. apply Nin. rewrite <- Q. now apply in_map.
Qed.
Print Assumptions C84_simplify_loses_agents.

(** The class of the new vehicles. *)
Definition class_kind (k : any_class) : vkind :=
  match k with AnyVehicle => KVehicle | AnyControlled => KControlled | AnyMDP => KMDP | AnyTraffic c => kind_of c end.
Lemma create_from_spec cs k g id v w : create_from cs k g id v = Ok w ->
  re_created g v w /\ v_id w = id /\ v_kind w = class_kind k /\
  (k <> AnyVehicle -> is_controlled (v_kind v) = true /\ v_target_lane w = v_target_lane v /\ v_route w = v_route v) /\
  (k = AnyControlled \/ (exists c, k = AnyTraffic c) -> same_aims v w) /\
  (forall c, k = AnyTraffic c -> v_par w = class_params cs c /\ v_enable_lane_change w = true /\
     (is_idm (v_kind v) = true -> v_timer v <> 0 -> v_timer w = v_timer v)).
Proof.
  unfold create_from, controlled_create_from, idm_create_from, new_idm, new_mdp, new_controlled, new_vehicle. intro H.
  destruct k as [| | |c]; [|destruct (is_controlled (v_kind v)) eqn:C; [|discriminate]..];
    (destruct (get_closest_lane_index g (v_pos v) (Some (v_heading v))) as [i|] eqn:E; [|discriminate]);
    cbn [bind v_lane_index v_target_lane v_target_speed] in H; injection H as <-.
  - split; [constructor; cbn; auto|]. split; [reflexivity|]. split; [reflexivity|]. split; [congruence|].
    split; [intros [Q|[c Q]]; discriminate Q|intros c Q; discriminate Q].
  - split; [constructor; cbn; auto|]. split; [reflexivity|]. split; [reflexivity|]. split; [cbn; auto|].
    split; [intros _; split; [reflexivity|]; split; reflexivity|intros c Q; discriminate Q].
  - split; [constructor; cbn; auto|]. split; [reflexivity|]. split; [reflexivity|]. split; [cbn; auto|].
    split; [intros [Q|[c Q]]; discriminate Q|intros c Q; discriminate Q].
  - split; [constructor; cbn; auto|]. split; [reflexivity|]. split; [reflexivity|]. split; [cbn; auto|].
    split; [intros _; split; [reflexivity|]; split; reflexivity|].
    intros c' Q. injection Q as <-. split; [reflexivity|]. split; [reflexivity|]. intros I T. cbn [v_timer]. rewrite I. cbn [float_or].
    destruct (Reqb (v_timer v) 0) eqn:Z; [|reflexivity]. apply Reqb_true in Z. contradiction.
Qed.
Lemma create_from_plain cs k g id v : is_controlled (v_kind v) = false -> k <> AnyVehicle -> create_from cs k g id v = Err AttributeError.
Proof. intros C N. unfold create_from. rewrite C. destruct k; try reflexivity. congruence. Qed.
Lemma ego_ren e v : (match hd_error (map (twin e) (e_controlled e)) with Some j => Nat.eqb (v_id (ren_vehicle (twin e) v)) j | None => false end) = true <-> is_ego e v.
Proof.
  unfold is_ego. destruct (e_controlled e) as [|i ids]; cbn [map hd_error]; [split; discriminate|].
  change (v_id (ren_vehicle (twin e) v)) with (twin e (v_id v)). rewrite (eqb_ren _ (shift_inj _)), Nat.eqb_eq. split; congruence.
Qed.

(** C84: [change_vehicles] replaces every vehicle but the ego one with a new vehicle of
    the class, at the same place, with the same aims, that has not crashed and has no
    history. *)
Theorem C84_change_vehicles : forall cs k e e', change_vehicles cs k e = Ok e' ->
  same_scene (twin e) e e' /\
  Forall2 (fun v w => (is_ego e v /\ same_vehicle (twin e) v w) \/
      (~ is_ego e v /\ ~ part_of (v_id w) (copy_env e) /\ re_created (rd_net (e_road e)) v w /\ v_kind w = class_kind k /\
       (k <> AnyVehicle -> is_controlled (v_kind v) = true /\ v_target_lane w = v_target_lane v /\ v_route w = v_route v) /\
       (k = AnyControlled \/ (exists c, k = AnyTraffic c) -> same_aims v w) /\
       (forall c, k = AnyTraffic c -> v_par w = class_params cs c /\ v_enable_lane_change w = true /\
          (is_idm (v_kind v) = true -> v_timer v <> 0 -> v_timer w = v_timer v))))
    (rd_vehicles (e_road e)) (rd_vehicles (e_road e')).
Proof.
  intros cs k e e' H. unfold change_vehicles in H.
  destruct (mapM _ _) as [vs|] eqn:M; [|discriminate]. cbn [bind] in H. injection H as <-.
  split; [apply scene_kept|]. cbn [e_road rd_vehicles set_road set_vehicles].
  change (rd_vehicles (e_road (copy_env e))) with (map (ren_vehicle (twin e)) (rd_vehicles (e_road e))) in M.
  apply forall2_ranks, forall2_map_l in M. revert M. apply forall2_imp. intros v w _ _ (i & _ & Q).
  unfold change_one in Q. change (e_controlled (copy_env e)) with (map (twin e) (e_controlled e)) in Q.
  destruct (match hd_error (map (twin e) (e_controlled e)) with Some j => _ | None => _ end) eqn:B.
  - left. apply ego_ren in B. split; [exact B|]. injection Q as <-. apply same_refl.
  - right. split; [intro X; apply ego_ren in X; congruence|].
    apply create_from_spec in Q as (Rc & Id & Kd & C1 & C2 & C3). split.
    + rewrite Id. intro P. apply part_below in P. lia.
    + split; [destruct Rc as [R1 R2 R3 R4 R5 R6]; constructor; [exact R1|exact R2|exact R3|exact R4|exact R5|exact R6]|]. split; [exact Kd|]. split; [exact C1|split; [exact C2|exact C3]].
Qed.
Print Assumptions C84_change_vehicles.

(** C84: it succeeds on any network if all vehicles but the ego one have aims, or the
    new class has none. *)
Theorem C84_change_vehicles_total : forall cs k e, built (rd_net (e_road e)) -> rd_net (e_road e) <> [] ->
  (k = AnyVehicle \/ forall v, In v (rd_vehicles (e_road e)) -> ~ is_ego e v -> is_controlled (v_kind v) = true) ->
  exists e', change_vehicles cs k e = Ok e'.
Proof.
  intros cs k e B N H. unfold change_vehicles.
  change (rd_vehicles (e_road (copy_env e))) with (map (ren_vehicle (twin e)) (rd_vehicles (e_road e))).
  change (e_controlled (copy_env e)) with (map (twin e) (e_controlled e)). change (rd_net (e_road (copy_env e))) with (rd_net (e_road e)). rewrite map_length.
  match goal with |- context [mapM ?f _] => assert (M : forall vs s, (k = AnyVehicle \/ forall w, In w vs -> ~ is_ego e w -> is_controlled (v_kind w) = true) ->
      exists l, mapM f (combine (seq s (List.length vs)) (map (ren_vehicle (twin e)) vs)) = Ok l) end.
  { clear H. induction vs as [|w vs IH]; intros s H; [now exists []|]. cbn [List.length seq map combine mapM].
    destruct (IH (S s)) as [l E]; [destruct H as [H|H]; [now left|right; intros; apply H; cbn; auto]|]. rewrite E. unfold change_one at 1.
    destruct (match hd_error _ with Some j => _ | None => _ end) eqn:Q; [cbn [bind]; now eexists|].
    assert (C : exists w', create_from cs k (rd_net (e_road e)) (first_free (copy_env e) + s) (ren_vehicle (twin e) w) = Ok w').
    { destruct (closest_total (rd_net (e_road e)) (v_pos w) (Some (v_heading w)) (wf_built _ B) N) as [i Ei].
      assert (K : k = AnyVehicle \/ is_controlled (v_kind w) = true).
      { destruct H as [H|H]; [now left|right]. apply H; [now left|]. intro X. apply ego_ren in X. congruence. }
      unfold create_from, controlled_create_from, idm_create_from, new_idm, new_mdp, new_controlled, new_vehicle.
      cbn [v_pos v_heading v_kind ren_vehicle set_id].
      destruct k; [|destruct K as [K|K]; [discriminate K|]; rewrite K..]; rewrite Ei; cbn [bind]; eexists; reflexivity. }
    destruct C as [w' ->]. cbn [bind]. now eexists. }
  destruct (M (rd_vehicles (e_road e)) 0%nat H) as [l ->]. cbn [bind]. now eexists.
Qed.
Print Assumptions C84_change_vehicles_total.

(** C84: the other controlled vehicles are replaced too, so they are no longer on the
    road of the copy. *)
Theorem C84_change_vehicles_loses_agents : forall cs k e e' i, change_vehicles cs k e = Ok e' ->
  In i (e_controlled e) -> hd_error (e_controlled e) <> Some i ->
  In (twin e i) (e_controlled e') /\ forall w, In w (rd_vehicles (e_road e')) -> v_id w <> twin e i.
Proof.
  intros cs k e e' i H Hi Hh. destruct (C84_change_vehicles cs k e e' H) as [Sc F].
  split; [rewrite (ss_controlled _ _ _ Sc); now apply in_map|].
  intros w Hw Q. induction F as [|v x l l' Hx F IH]; [destruct Hw|]. destruct Hw as [<-|Hw]; [|now apply IH].
  destruct Hx as [[Eg Sv]|(_ & Np & _)].
  - rewrite (sv_id _ _ _ Sv) in Q. apply shift_inj in Q. unfold is_ego in Eg. congruence.
  - apply Np. rewrite Q. left. change (e_controlled (copy_env e)) with (map (twin e) (e_controlled e)). now apply in_map.
Qed.
Print Assumptions C84_change_vehicles_loses_agents.

(** C84: on vehicles without aims (plain or bicycle vehicles) the classes that have aims
    cannot be used: AttributeError. *)
Theorem C84_change_vehicles_needs_aims : forall cs k e v, k <> AnyVehicle ->
  (forall w, In w (rd_vehicles (e_road e)) -> ~ is_ego e w -> is_controlled (v_kind w) = false) ->
  In v (rd_vehicles (e_road e)) -> ~ is_ego e v ->
  change_vehicles cs k e = Err AttributeError.
Proof.
  intros cs k e v Nk P Hv Nv. unfold change_vehicles.
  change (rd_vehicles (e_road (copy_env e))) with (map (ren_vehicle (twin e)) (rd_vehicles (e_road e))).
  change (e_controlled (copy_env e)) with (map (twin e) (e_controlled e)). rewrite map_length.
  match goal with |- context [mapM ?f _] => assert (M : forall vs s, (forall w, In w vs -> ~ is_ego e w -> is_controlled (v_kind w) = false) -> In v vs ->
      mapM f (combine (seq s (List.length vs)) (map (ren_vehicle (twin e)) vs)) = Err AttributeError) end.
  { clear P Hv. induction vs as [|w vs IH]; intros s P Hv; [destruct Hv|]. cbn [List.length seq map combine mapM]. unfold change_one at 1.
    destruct (match hd_error _ with Some j => _ | None => _ end) eqn:B.
    - cbn [bind]. rewrite IH; [reflexivity|intros; apply P; cbn; auto|].
      destruct Hv as [->|Hv]; [|exact Hv]. apply ego_ren in B. contradiction.
    - rewrite create_from_plain; [reflexivity| |exact Nk].
      change (is_controlled (v_kind w) = false). apply P; [now left|]. intro X. apply ego_ren in X. congruence. }
  rewrite M by assumption. reflexivity.
Qed.
Print Assumptions C84_change_vehicles_needs_aims.

(** The vehicle prefers lane [k]: its route says so, and it accepts that lane changes
    make others brake at up to 1000 m/s2; nothing else changes. *)
Record prefers (k : Z) (v w : vehicle) : Prop := Prefers {
  pr_route : exists rt, v_route v = Some rt /\ v_route w = Some (map (fun i => (li_from i, li_to i, Some k)) rt);
  pr_braking : ip_max_braking (v_par w) = 1000;
  pr_idm : ip_acc_max (v_par w) = ip_acc_max (v_par v) /\ ip_comfort_max (v_par w) = ip_comfort_max (v_par v) /\
    ip_comfort_min (v_par w) = ip_comfort_min (v_par v) /\ ip_distance (v_par w) = ip_distance (v_par v) /\
    ip_time (v_par w) = ip_time (v_par v) /\ ip_politeness (v_par w) = ip_politeness (v_par v) /\
    ip_min_gain (v_par w) = ip_min_gain (v_par v) /\ ip_delay (v_par w) = ip_delay (v_par v) /\
    ip_acc_par (v_par w) = ip_acc_par (v_par v) /\ ip_steer_par (v_par w) = ip_steer_par (v_par v);
  pr_rest : w = set_par (set_route v (v_route w)) (v_par w) }.

(** C84: [set_preferred_lane]: no lane, and lane 0, mean no preference. *)
Theorem C84_no_preference : forall e, 
  set_preferred_lane None e = Ok (copy_env e) /\ set_preferred_lane (Some 0%Z) e = Ok (copy_env e).
Proof. intro e. split; reflexivity. Qed.
Print Assumptions C84_no_preference.
(** C84: any other lane fails if an IDM vehicle has no route, as in most scenes. *)
Theorem C84_preference_needs_routes : forall e k, k <> 0%Z ->
  (exists v, In v (rd_vehicles (e_road e)) /\ is_idm (v_kind v) = true /\ v_route v = None) ->
  set_preferred_lane (Some k) e = Err TypeError.
Proof.
  intros e k N (v & Hv & I & Rn). unfold set_preferred_lane. apply Z.eqb_neq in N. rewrite N.
  change (rd_vehicles (e_road (copy_env e))) with (map (ren_vehicle (twin e)) (rd_vehicles (e_road e))). rewrite mapM_map.
  assert (M : mapM (fun x => prefer k (ren_vehicle (twin e) x)) (rd_vehicles (e_road e)) = Err TypeError); [|rewrite M; reflexivity].
  revert Hv. induction (rd_vehicles (e_road e)) as [|w vs IH]; intros Hv; [destruct Hv|]. cbn [mapM].
  unfold prefer at 1. cbn [v_kind v_route ren_vehicle set_id].
  destruct Hv as [->|Hv]; [now rewrite I, Rn|].
  destruct (is_idm (v_kind w)); [destruct (v_route w); [|reflexivity]|]; cbn [bind]; now rewrite IH.
Qed.
Print Assumptions C84_preference_needs_routes.
(** C84: otherwise every IDM vehicle gets the preference and the others are untouched. *)
Theorem C84_preference : forall e k, k <> 0%Z ->
  (forall v, In v (rd_vehicles (e_road e)) -> is_idm (v_kind v) = true -> v_route v <> None) ->
  exists e', set_preferred_lane (Some k) e = Ok e' /\ same_scene (twin e) e e' /\
    Forall2 (fun v w => exists v', same_vehicle (twin e) v v' /\
        if is_idm (v_kind v) then prefers k v' w else w = v') (rd_vehicles (e_road e)) (rd_vehicles (e_road e')).
Proof.
  intros e k N H. unfold set_preferred_lane. apply Z.eqb_neq in N. rewrite N.
  change (rd_vehicles (e_road (copy_env e))) with (map (ren_vehicle (twin e)) (rd_vehicles (e_road e))). rewrite mapM_map.
  assert (M : exists vs, mapM (fun x => prefer k (ren_vehicle (twin e) x)) (rd_vehicles (e_road e)) = Ok vs /\
     Forall2 (fun v w => exists v', same_vehicle (twin e) v v' /\ if is_idm (v_kind v) then prefers k v' w else w = v') (rd_vehicles (e_road e)) vs).
  { revert H. induction (rd_vehicles (e_road e)) as [|w vs IH]; intros H; [exists []; split; [reflexivity|constructor]|]. cbn [mapM].
    destruct IH as (l & E & F); [intros; apply H; cbn; auto|]. rewrite E.
    specialize (H w (or_introl eq_refl)). unfold prefer at 1. cbn [v_kind v_route ren_vehicle set_id].
    destruct (is_idm (v_kind w)) eqn:Iw.
    - destruct (v_route w) as [rt|] eqn:Rt; [|exfalso; now apply H]. cbn [bind]. eexists. split; [reflexivity|]. constructor; [|exact F].
      exists (ren_vehicle (twin e) w). split; [apply same_refl|]. rewrite Iw. constructor; cbn; auto 12. exists rt. split; [exact Rt|reflexivity].
    - cbn [bind]. eexists. split; [reflexivity|]. constructor; [|exact F]. exists (ren_vehicle (twin e) w). split; [apply same_refl|]. now rewrite Iw. }
  destruct M as (vs & -> & F). cbn [bind]. eexists. split; [reflexivity|]. split; [apply scene_kept|exact F].
Qed.
Print Assumptions C84_preference.

(** C84: [set_route_at_intersection] with an integer changes the route of every IDM
    vehicle that has one to its [k]-th possible route (modulo their number, see C61)
    and nothing else; it never fails. *)
Theorem C84_routes_by_index : forall e draws k,
  exists e', env_set_route draws (ToIndex k) e = Ok e' /\ same_scene (twin e) e e' /\
    Forall2 (fun v w => exists v', same_vehicle (twin e) v v' /\
        w = if is_idm (v_kind v) then set_route_at_intersection (rd_net (e_road e)) v' k else v')
      (rd_vehicles (e_road e)) (rd_vehicles (e_road e')).
Proof.
  intros e draws k. unfold env_set_route.
  change (rd_net (e_road (copy_env e))) with (rd_net (e_road e)).
  change (rd_vehicles (e_road (copy_env e))) with (map (ren_vehicle (twin e)) (rd_vehicles (e_road e))).
  match goal with |- context [mapM ?f _] => assert (M : forall vs s, exists l, mapM f (combine (seq s (List.length vs)) (map (ren_vehicle (twin e)) vs)) = Ok l /\
     Forall2 (fun v w => exists v', same_vehicle (twin e) v v' /\ w = if is_idm (v_kind v) then set_route_at_intersection (rd_net (e_road e)) v' k else v') vs l) end.
  { induction vs as [|w vs IH]; intro s; [exists []; split; [reflexivity|constructor]|]. cbn [List.length seq map combine mapM].
    destruct (IH (S s)) as (l & E & F). rewrite E.
    assert (C : choose_route (rd_net (e_road e)) (draws s) (ToIndex k) (ren_vehicle (twin e) w) = Ok (set_route_at_intersection (rd_net (e_road e)) (ren_vehicle (twin e) w) k)).
    { unfold choose_route. destruct (get_routes_at_intersection (rd_net (e_road e)) (v_route (ren_vehicle (twin e) w))) eqn:Gr; [|reflexivity].
      unfold set_route_at_intersection. now rewrite Gr. }
    change (v_kind (ren_vehicle (twin e) w)) with (v_kind w). rewrite C. destruct (is_idm (v_kind w)) eqn:Iw; cbn [bind];
      (eexists; split; [reflexivity|]; constructor; [|exact F]; exists (ren_vehicle (twin e) w); split; [apply same_refl|now rewrite Iw]). }
  rewrite map_length. destruct (M (rd_vehicles (e_road e)) 0%nat) as (l & -> & F). cbn [bind]. eexists. split; [reflexivity|].
  split; [apply scene_kept|exact F].
Qed.
Print Assumptions C84_routes_by_index.
(** C84: with any string but "random" it fails as soon as an IDM vehicle has a route
    (although the method is declared with a string). *)
Theorem C84_routes_by_name_fail : forall e draws s, 
  (exists v, In v (rd_vehicles (e_road e)) /\ is_idm (v_kind v) = true /\ get_routes_at_intersection (rd_net (e_road e)) (v_route v) <> []) ->
  env_set_route draws (ToName s) e = Err TypeError.
Proof.
  intros e draws nm (v & Hv & I & Rn). unfold env_set_route.
  change (rd_net (e_road (copy_env e))) with (rd_net (e_road e)).
  change (rd_vehicles (e_road (copy_env e))) with (map (ren_vehicle (twin e)) (rd_vehicles (e_road e))).
  match goal with |- context [mapM ?f _] => assert (M : forall vs s, In v vs -> mapM f (combine (seq s (List.length vs)) (map (ren_vehicle (twin e)) vs)) = Err TypeError) end.
  { induction vs as [|w vs IH]; intros s Hin; [destruct Hin|]. cbn [List.length seq map combine mapM].
    unfold choose_route at 1. cbn [v_kind v_route ren_vehicle set_id].
    destruct Hin as [->|Hin].
    - rewrite I. destruct (get_routes_at_intersection (rd_net (e_road e)) (v_route v)); [congruence|reflexivity].
    - destruct (is_idm (v_kind w)); [destruct (get_routes_at_intersection (rd_net (e_road e)) (v_route w)); [|reflexivity]|]; cbn [bind]; now rewrite IH. }
  rewrite map_length, M by exact Hv. reflexivity.
Qed.
Print Assumptions C84_routes_by_name_fail.

(** C84: [set_vehicle_field] assigns the attribute of every vehicle of the copy, the
    ego vehicle included (although the code means to spare it). *)
Theorem C84_set_field : forall e x, 
  same_scene (twin e) e (set_vehicle_field x e) /\
  Forall2 (fun v w => exists v', same_vehicle (twin e) v v' /\ w = set_field x v')
    (rd_vehicles (e_road e)) (rd_vehicles (e_road (set_vehicle_field x e))).
Proof.
  intros e x. unfold set_vehicle_field. split; [apply scene_kept|]. cbn [e_road rd_vehicles set_road set_vehicles].
  change (rd_vehicles (e_road (copy_env e))) with (map (ren_vehicle (twin e)) (rd_vehicles (e_road e))).
  assert (G : forall vs, Forall2 (fun v w => exists v', same_vehicle (twin e) v v' /\ w = set_field x v') vs
      (map (fun v => if match hd_error (e_controlled e) with Some j => Nat.eqb (v_id v) j | None => false end then v else set_field x v) (map (ren_vehicle (twin e)) vs))).
  { induction vs as [|w vs IH]; cbn [map]; constructor; [|exact IH]. exists (ren_vehicle (twin e) w). split; [apply same_refl|].
    destruct (hd_error (e_controlled e)) as [j|] eqn:Hj; [|reflexivity].
    assert (j < first_free e)%nat.
    { apply part_below. left. destruct (e_controlled e); [discriminate|]. injection Hj as ->. now left. }
    change (v_id (ren_vehicle (twin e) w)) with (twin e (v_id w)). destruct (Nat.eqb_spec (twin e (v_id w)) j); [lia|reflexivity]. }
  apply G.
Qed.
Print Assumptions C84_set_field.
Theorem C84_set_speed_reaches_ego : forall e s v, In v (rd_vehicles (e_road (set_vehicle_field (FSpeed s) e))) -> v_speed v = s.
Proof.
  intros e s v H. destruct (C84_set_field e (FSpeed s)) as [_ F]. induction F as [|a b l l' (v' & _ & ->) F IH]; [destruct H|].
  destruct H as [<-|H]; [reflexivity|now apply IH].
Qed.
Print Assumptions C84_set_speed_reaches_ego.

(** C84: [call_vehicle_method] puts on the road what the method returns: None for
    every vehicle that has it, when it is a method that returns nothing. *)
Theorem C84_called_methods_must_return : forall e draw l, call_vehicle_method is_controlled (call_follow_road draw) e = Ok l ->
  Forall2 (fun v x => if is_controlled (v_kind v) then x = None else exists v', same_vehicle (twin e) v v' /\ x = Some v')
    (rd_vehicles (e_road e)) l.
Proof.
  intros e draw l H. unfold call_vehicle_method in H.
  change (rd_vehicles (e_road (copy_env e))) with (map (ren_vehicle (twin e)) (rd_vehicles (e_road e))) in H. rewrite mapM_map in H.
  apply P_Traffic.mapM_Forall2 in H. revert H. apply forall2_imp. intros v x _ _ Q. change (v_kind (ren_vehicle (twin e) v)) with (v_kind v) in Q.
  destruct (is_controlled (v_kind v)).
  - unfold call_follow_road in Q. destruct (follow_road _ _ _); cbn [bind] in Q; [now injection Q as <-|discriminate].
  - injection Q as <-. exists (ren_vehicle (twin e) v). split; [apply same_refl|reflexivity].
Qed.
Print Assumptions C84_called_methods_must_return.
Theorem C84_call_plan_route : forall e ord dest l, call_vehicle_method is_controlled (call_plan_route ord dest) e = Ok l ->
  Forall2 (fun v x => exists v', same_vehicle (twin e) v v' /\
      if is_controlled (v_kind v) then exists w, plan_route_to (rd_net (e_road e)) ord v' dest = Ok w /\ x = Some w else x = Some v')
    (rd_vehicles (e_road e)) l.
Proof.
  intros e ord dest l H. unfold call_vehicle_method in H.
  change (rd_net (e_road (copy_env e))) with (rd_net (e_road e)) in H.
  change (rd_vehicles (e_road (copy_env e))) with (map (ren_vehicle (twin e)) (rd_vehicles (e_road e))) in H. rewrite mapM_map in H.
  apply P_Traffic.mapM_Forall2 in H. revert H. apply forall2_imp. intros v x _ _ Q. change (v_kind (ren_vehicle (twin e) v)) with (v_kind v) in Q.
  exists (ren_vehicle (twin e) v). split; [apply same_refl|]. destruct (is_controlled (v_kind v)).
  - unfold call_plan_route in Q. destruct (plan_route_to _ _ _ _) as [w|]; cbn [bind] in Q; [|discriminate]. exists w. split; [reflexivity|now injection Q as <-].
  - now injection Q as <-.
Qed.
Print Assumptions C84_call_plan_route.

(** C84: [randomize_behaviour] only changes the parameters of the linear vehicles,
    each within its range. *)
Theorem C84_randomize : forall e u, 
  (forall i, let '((a, b, c), (x, y)) := u i in 0 <= a <= 1 /\ 0 <= b <= 1 /\ 0 <= c <= 1 /\ 0 <= x <= 1 /\ 0 <= y <= 1) ->
  same_scene (twin e) e (randomize_behaviour u e) /\
  Forall2 (fun v w => exists v', same_vehicle (twin e) v v' /\
      (v_kind v <> KLinear -> w = v') /\
      (v_kind v = KLinear -> exists p, w = set_par v' p /\
         ip_acc_max p = ip_acc_max (v_par v) /\ ip_delay p = ip_delay (v_par v) /\ ip_max_braking p = ip_max_braking (v_par v) /\
         ip_politeness p = ip_politeness (v_par v) /\ ip_time p = ip_time (v_par v) /\ ip_distance p = ip_distance (v_par v) /\
         let '(a, b, c) := ip_acc_par p in 15/100 <= a <= 45/100 /\ 15/100 <= b <= 45/100 /\ 1 <= c <= 3))
    (rd_vehicles (e_road e)) (rd_vehicles (e_road (randomize_behaviour u e))).
Proof.
  intros e u U. unfold randomize_behaviour. split; [apply scene_kept|]. cbn [e_road rd_vehicles set_road set_vehicles].
  change (rd_vehicles (e_road (copy_env e))) with (map (ren_vehicle (twin e)) (rd_vehicles (e_road e))). rewrite map_length.
  generalize (rd_vehicles (e_road e)). intro vs. generalize 0%nat. induction vs as [|v vs IH]; intro s; cbn [List.length seq map combine]; constructor; [|apply IH].
  exists (ren_vehicle (twin e) v). split; [apply same_refl|]. change (v_kind (ren_vehicle (twin e) v)) with (v_kind v). split.
  - destruct (v_kind v); congruence.
  - intros ->. eexists. split; [reflexivity|]. specialize (U s). destruct (u s) as [[[a b] c] [x y]]. cbn [fst snd].
    unfold randomized, ACCELERATION_RANGE, STEERING_RANGE. cbn. repeat split; lra.
Qed.
Print Assumptions C84_randomize.

(** A highway with two agents far apart and another vehicle. *)
Definition far_agent : vehicle := obs_vehicle 2 0 (500, 0) 25.
Definition slow_idm : vehicle := set_kind obs_other KIDM.
Definition two_agents : env := Env (Road demo_net [obs_ego; slow_idm; far_agent] [] false 0) [0; 2]%nat 3 1 false.
Lemma two_agents_ego : ego two_agents = Ok obs_ego. Proof. reflexivity. Qed.
Lemma two_agents_lane : exists l, get_lane (rd_net (e_road two_agents)) (v_lane_index obs_ego) = Ok l.
Proof. exists (straight_network_lane 3 0 1000 0). exact (demo_get 0 ltac:(lia)). Qed.
Example C84_nonvacuous :
  (exists e', simplify two_agents = Ok e' /\ e_controlled e' = [3; 5]%nat /\ map v_id (rd_vehicles (e_road e')) = [3; 4]%nat) /\
  (exists e', change_vehicles classes_default (AnyTraffic CIdm) two_agents = Ok e' /\
     map v_kind (rd_vehicles (e_road e')) = [KMDP; KIDM; KIDM] /\ ~ In 5%nat (map v_id (rd_vehicles (e_road e')))) /\
  set_preferred_lane (Some 1%Z) two_agents = Err TypeError /\
  map v_speed (rd_vehicles (e_road (set_vehicle_field (FSpeed 0) two_agents))) = [0; 0; 0].
Proof.
  destruct two_agents_lane as [l G]. split; [|split; [|split]].
  - destruct (C84_simplify two_agents obs_ego l two_agents_ego G) as (e' & kept & E & Sc & F & (keep & P & K) & _).
    exists e'. split; [exact E|]. split; [rewrite (ss_controlled _ _ _ Sc); reflexivity|].
    assert (K0 : keep obs_ego = false) by (destruct (keep obs_ego) eqn:Q; [apply K in Q as [_ Q]; now destruct Q|reflexivity]).
    assert (K1 : keep slow_idm = true).
    { apply K. split; [|discriminate]. unfold vnorm. rewrite <- (sqrt_square 180) by lra. apply sqrt_lt_1_alt. cbn. lra. }
    assert (K2 : keep far_agent = false).
    { destruct (keep far_agent) eqn:Q; [|reflexivity]. apply K in Q as [Q _]. exfalso. apply (Rlt_not_le _ _ Q).
      unfold vnorm. rewrite <- (sqrt_square 180) by lra. apply sqrt_le_1_alt. cbn. lra. }
    cbn [e_road rd_vehicles two_agents filter] in P. rewrite K0, K1, K2 in P. apply Permutation_sym, Permutation_length_1_inv in P. subst kept.
    apply (proj1 (forall2_map _ _ _ _ (same_vehicle_ren _))) in F. rewrite F. reflexivity.
  - destruct (C84_change_vehicles_total classes_default (AnyTraffic CIdm) two_agents demo_built ltac:(discriminate)) as [e' E].
    { right. intros v Hv _. cbn in Hv. destruct Hv as [<-|[<-|[<-|[]]]]; reflexivity. }
    exists e'. split; [exact E|]. split.
    + destruct (C84_change_vehicles _ _ _ _ E) as [_ F]. cbn [e_road rd_vehicles two_agents] in F.
      assert (I2 : forall A B (P : A -> B -> Prop) x l l', Forall2 P (x :: l) l' -> exists y l2, l' = y :: l2 /\ P x y /\ Forall2 P l l2).
      { intros A B P x q q' X. inversion X; subst. eauto. }
      apply I2 in F as (w0 & r0 & -> & H0 & F). apply I2 in F as (w1 & r1 & -> & H1 & F). apply I2 in F as (w2 & r2 & -> & H2 & F).
      inversion F. cbn [map].
      destruct H0 as [[_ H0]|(H0 & _)]; [|exfalso; apply H0; reflexivity].
      destruct H1 as [[H1 _]|(_ & _ & _ & H1 & _)]; [discriminate H1|]. destruct H2 as [[H2 _]|(_ & _ & _ & H2 & _)]; [discriminate H2|].
      rewrite H1, H2, (sv_kind _ _ _ H0). reflexivity.
    + intro Q. apply in_map_iff in Q as (w & Q & Hw).
      exact (proj2 (C84_change_vehicles_loses_agents _ _ _ _ 2%nat E (or_intror (or_introl eq_refl)) ltac:(discriminate)) w Hw Q).
  - apply C84_preference_needs_routes; [discriminate|]. exists slow_idm. split; [cbn; auto|split; reflexivity].
  - reflexivity.
Qed.
Print Assumptions C84_nonvacuous.
