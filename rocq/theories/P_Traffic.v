(** Whole-road lemmas: [Road.act] then [Road.step] never fail on a runnable road. *)
From Verif Require Import Prelude M_Utils M_Lane M_Road M_Vehicle M_Kinematics M_Control M_Behavior
  S_Geometry S_Road S_Vehicle S_Control S_Behavior P_Base P_Utils P_Lane P_Graph P_Bfs P_Query P_Kin P_Crash P_Control P_Behavior.
From Coq Require Import Lia Lra.
Open Scope R_scope.

(** An entity another vehicle's acceleration can be computed for. *)
Definition ego_ok (g : graph) (k : vkind) (e : option entity) : Prop :=
  match e with
  | None => True
  | Some (EO _) => k <> KLinear
  | Some (EV w) => lane_exists g (v_lane_index w) /\ (k = KLinear -> is_controlled (v_kind w) = true)
  end.
Lemma lane_distance_total g v e : lane_exists g (v_lane_index v) -> exists d, lane_distance_to g v e = Ok d.
Proof. intros H. destruct (get_lane_exists g _ H) as [l G]. unfold lane_distance_to. rewrite G. cbn. eauto. Qed.
Lemma acceleration_total g v ego front : ego_ok g (v_kind v) ego -> exists a, acceleration g v ego front = Ok a.
Proof.
  intros H. unfold acceleration. destruct (v_kind v) eqn:K.
  all: try (destruct ego as [[w|o]|]; cbn in *; [|eauto|eauto]; destruct front as [f|]; [|eauto];
            destruct H as [H _]; destruct (lane_distance_total g w f H) as [d ->]; cbn; eauto; fail).
  unfold linear_acceleration, linear_features. destruct (ip_acc_par (v_par v)) as [[p1 p2] p3].
  destruct ego as [[w|o]|]; cbn in *; [| now elim H | eauto].
  destruct H as [H C]. rewrite (C eq_refl). cbn [negb]. destruct front as [f|]; cbn; [|eauto].
  destruct (lane_distance_total g w f H) as [d ->]. cbn. eauto.
Qed.

Lemma neighbours_from rd v i f r : neighbour_vehicles rd v i = Ok (f, r) ->
  (forall e, f = Some e -> In e (rd_entities rd) /\ is_landmark e = false) /\
  (forall e, r = Some e -> In e (rd_entities rd) /\ is_landmark e = false).
Proof.
  unfold neighbour_vehicles. intros E. pose proof E as E0. unfold neighbours_on in E0. apply bind_ok in E0 as (l & G & _).
  destruct (neighbours_spec _ _ _ _ _ _ _ G E) as (A & _ & B & _).
  split; intros e He; [apply A in He as (I & (_ & L & _) & _) | apply B in He as (I & (_ & L & _) & _)]; tauto.
Qed.

(** What every decision needs from the road. *)
Definition road_ok (rd : road) (k : vkind) : Prop :=
  (forall w, In w (rd_vehicles rd) -> lane_exists (rd_net rd) (v_lane_index w)) /\
  (k = KLinear -> (forall w, In w (rd_vehicles rd) -> is_controlled (v_kind w) = true) /\
                  (forall o, In o (rd_objects rd) -> o_kind o = KLandmark)).
Lemma entity_ego_ok rd k e : road_ok rd k -> In e (rd_entities rd) -> is_landmark e = false -> ego_ok (rd_net rd) k (Some e).
Proof.
  intros [H1 H2] I L. unfold rd_entities in I. apply in_app_or in I as [I|I]; apply in_map_iff in I as (x & <- & I).
  - cbn. split; [now apply H1|]. intros Q. now apply H2.
  - cbn. intros Q. destruct (H2 Q) as [_ H3]. apply H3 in I. cbn in L. rewrite I in L. discriminate.
Qed.
Lemma neighbours_ego_ok rd v i f r k : road_ok rd k -> neighbour_vehicles rd v i = Ok (f, r) ->
  ego_ok (rd_net rd) k f /\ ego_ok (rd_net rd) k r.
Proof.
  intros H E. apply neighbours_from in E as [A B]. split; [destruct f as [e|] | destruct r as [e|]]; try exact I.
  - destruct (A e eq_refl). now apply entity_ego_ok.
  - destruct (B e eq_refl). now apply entity_ego_ok.
Qed.
Lemma neighbour_vehicles_total rd v i : lane_exists (rd_net rd) (match i with Some j => j | None => v_lane_index v end) ->
  exists f r, neighbour_vehicles rd v i = Ok (f, r).
Proof.
  intros H. destruct (get_lane_exists _ _ H) as [l G]. destruct (neighbours_total rd (v_id v) (v_pos v) _ l G) as [[f r] E]. exists f, r. exact E.
Qed.

Lemma mobil_total rd v i : road_ok rd (v_kind v) -> lane_exists (rd_net rd) (v_lane_index v) -> lane_exists (rd_net rd) (v_target_lane v) ->
  lane_exists (rd_net rd) i -> is_controlled (v_kind v) = true -> exists b, mobil rd v i = Ok b.
Proof.
  intros H L T Li C. unfold mobil.
  destruct (neighbour_vehicles_total rd v (Some i) Li) as (np & nf & N1). rewrite N1. cbn [bind].
  destruct (neighbours_ego_ok rd v _ _ _ _ H N1) as [_ Knf].
  destruct (acceleration_total (rd_net rd) v nf np Knf) as [a1 ->]. cbn [bind].
  destruct (acceleration_total (rd_net rd) v nf (Some (EV v)) Knf) as [a2 ->]. cbn [bind].
  destruct (Rltb a2 _); [eauto|].
  destruct (neighbour_vehicles_total rd v None L) as (op & of_ & N2). rewrite N2. cbn [bind].
  assert (Kv : ego_ok (rd_net rd) (v_kind v) (Some (EV v))) by (cbn; auto).
  destruct (neighbours_ego_ok rd v _ _ _ _ H N2) as [_ Kof].
  destruct (acceleration_total (rd_net rd) v _ np Kv) as [a3 ->]. cbn [bind].
  destruct (route_lane v) as [k|].
  - destruct (lane_exists_form _ _ Li) as (? & ? & k1 & ->). destruct (lane_exists_form _ _ T) as (? & ? & k2 & ->). cbn [li_id snd].
    destruct (negb _); [eauto|]. destruct (Rltb a3 _); eauto.
  - destruct (acceleration_total (rd_net rd) v _ op Kv) as [a4 ->]. cbn [bind].
    destruct (acceleration_total (rd_net rd) v of_ (Some (EV v)) Kof) as [a5 ->]. cbn [bind].
    destruct (acceleration_total (rd_net rd) v of_ op Kof) as [a6 ->]. cbn [bind]. eauto.
Qed.

Lemma foldM_abort_total rd v vs : lane_exists (rd_net rd) (v_lane_index v) -> forall b0, exists b, foldM (fun (b : bool) w =>
    if b then Ok true
    else if negb (Nat.eqb (v_id w) (v_id v)) && negb (li_eqb (v_lane_index w) (v_target_lane v))
            && is_controlled (v_kind w) && li_eqb (v_target_lane w) (v_target_lane v) then
      do d <- lane_distance_to (rd_net rd) v (EV w);
      Ok (Rltb 0 d && Rltb d (desired_gap (v_par v) v (EV w)))
    else Ok false) vs b0 = Ok b.
Proof.
  intros L. induction vs as [|w vs IH]; intros b0; cbn [foldM]; [eauto|].
  destruct b0; [apply IH|]. destruct (_ && _); [|apply IH].
  destruct (lane_distance_total (rd_net rd) v (EV w) L) as [d ->]. cbn [bind]. apply IH.
Qed.

Lemma candidates_total rd cands : forall v, road_ok rd (v_kind v) -> lane_exists (rd_net rd) (v_lane_index v) ->
  lane_exists (rd_net rd) (v_target_lane v) -> (forall i, In i cands -> lane_exists (rd_net rd) i) -> is_controlled (v_kind v) = true ->
  exists v', foldM (try_candidate rd) cands v = Ok v' /\ lane_exists (rd_net rd) (v_target_lane v').
Proof.
  induction cands as [|i cands IH]; intros v H L T Hc C; cbn [foldM]; [eauto|].
  assert (Li : lane_exists (rd_net rd) i) by (apply Hc; now left).
  unfold try_candidate at 1. destruct (get_lane_exists _ _ Li) as [l ->]. cbn [bind].
  destruct (negb _); cbn [bind]; [apply IH; auto; intros; apply Hc; now right|].
  destruct (mobil_total rd v i H L T Li C) as [b ->]. cbn [bind].
  destruct b; apply IH; auto; intros; apply Hc; now right.
Qed.

Lemma side_lanes_total g i : wf_graph g -> lane_exists g i ->
  exists out, side_lanes g i = Ok out /\ forall j, In j out -> lane_exists g j.
Proof.
  intros W Hi. pose proof Hi as H0. destruct (lane_exists_form g i Hi) as (a & b & k & ->). destruct H0 as (k' & l & Ek & Hk). cbn in Ek. injection Ek as Ek.
  apply Nat2Z.inj in Ek. subst k'. apply has_lane_g in Hk as (ls & Gl & Hn). cbn [li_from li_to fst snd] in *.
  assert (Hlt : (k < List.length ls)%nat) by (apply nth_error_Some; congruence).
  destruct (side_lanes_spec g a b k ls Gl Hlt) as (out & E & _ & S). exists out. split; [exact E|].
  intros j Hj. apply S in Hj as (m & -> & Hm & _). destruct (nth_error ls m) as [l'|] eqn:Em; [|apply nth_error_None in Em; lia].
  exists m, l'. cbn. split; [reflexivity|]. apply has_lane_g. eauto.
Qed.

Lemma policy_total rd v : wf_graph (rd_net rd) -> road_ok rd (v_kind v) -> lane_exists (rd_net rd) (v_lane_index v) ->
  lane_exists (rd_net rd) (v_target_lane v) -> is_controlled (v_kind v) = true ->
  exists v', change_lane_policy rd v = Ok v' /\ lane_exists (rd_net rd) (v_target_lane v').
Proof.
  intros W H L T C. unfold change_lane_policy. destruct (negb (li_eqb _ _)).
  - destruct (same_road _ _); [|eauto]. unfold aborts.
    destruct (foldM_abort_total rd v (rd_vehicles rd) L false) as [b ->]. cbn [bind]. destruct b; eauto.
  - destruct (negb (do_every _ _)); [eauto|]. destruct (side_lanes_total _ _ W L) as (out & -> & Ho). cbn [bind].
    apply candidates_total; auto.
Qed.

Lemma idm_steering_total g v i : lane_exists g i -> exists s, idm_steering g v i = Ok s.
Proof.
  intros H. destruct (get_lane_exists g _ H) as [l G]. unfold idm_steering, steering_control. rewrite G.
  destruct (v_kind v); cbn; eauto.
Qed.

Lemma idm_act_total rd draw v : wf_graph (rd_net rd) -> draw_ok draw -> road_ok rd (v_kind v) -> well_placed (rd_net rd) v ->
  is_controlled (v_kind v) = true -> exists v', idm_act rd draw v = Ok v' /\ well_placed (rd_net rd) v'.
Proof.
  intros W D H [L T] C. specialize (T C). unfold idm_act.
  assert (exists u, collect_data rd v = Ok u) as [u Hu].
  { unfold collect_data. destruct (v_kind v) eqn:K; eauto.
    destruct (neighbour_vehicles_total rd v None L) as (f & r & ->). cbn [bind].
    unfold linear_features. rewrite K. cbn [is_controlled negb].
    assert (exists x, (match f with
        | Some f0 => do d <- lane_distance_to (rd_net rd) v f0;
            Ok (v_target_speed v - v_speed v, Rmin (e_speed f0 - v_speed v) 0,
               Rmin (d - (ip_distance (v_par v) + Rmax (v_speed v) 0 * ip_time (v_par v))) 0)
        | None => Ok (v_target_speed v - v_speed v, 0, 0) end) = Ok x) as [x Hx].
    { destruct f as [f|]; [|eauto]. destruct (lane_distance_total (rd_net rd) v f L) as [d ->]. cbn. eauto. }
    cbv zeta. rewrite Hx. cbn [bind]. destruct (idm_steering_total (rd_net rd) v _ (proj1 T)) as [s ->]. cbn. eauto. }
  rewrite Hu. cbn [bind]. destruct (v_crashed v); [exists v; split; [reflexivity | split; auto]|].
  destruct (neighbour_vehicles_total rd v None L) as (f & r & N). rewrite N. cbn [bind].
  destruct (follow_road_total (rd_net rd) draw v W D T) as (v1 & F & T1). rewrite F. cbn [bind].
  pose proof (follow_road_ok _ _ _ _ F) as (B1 & _). apply same_body_vehicle in B1.
  assert (K1 : v_kind v1 = v_kind v) by (unfold same_vehicle in B1; tauto).
  assert (L1 : lane_exists (rd_net rd) (v_lane_index v1)) by (replace (v_lane_index v1) with (v_lane_index v) by (symmetry; unfold same_vehicle in B1; tauto); exact L).
  assert (exists v2, (if v_enable_lane_change v1 then change_lane_policy rd v1 else Ok v1) = Ok v2 /\
            lane_exists (rd_net rd) (v_target_lane v2) /\ same_vehicle v1 v2 /\ v_route v2 = v_route v1) as (v2 & P & T2 & B2 & R2).
  { destruct (v_enable_lane_change v1).
    - destruct (policy_total rd v1 W) as (v2 & P & T2); [rewrite K1; exact H | exact L1 | apply T1 | congruence |].
      exists v2. split; [exact P|]. split; [exact T2|]. apply policy_only_target, only_target_vehicle in P. tauto.
    - exists v1. split; [reflexivity|]. split; [apply T1|]. split; [apply same_vehicle_refl | reflexivity]. }
  rewrite P. cbn [bind]. destruct (idm_steering_total (rd_net rd) v2 _ T2) as [s ->]. cbn [bind].
  assert (L2 : lane_exists (rd_net rd) (v_lane_index v2)) by (replace (v_lane_index v2) with (v_lane_index v1) by (symmetry; unfold same_vehicle in B2; tauto); exact L1).
  assert (K2 : v_kind v2 = v_kind v) by (unfold same_vehicle in B2; destruct B2 as (_ & -> & _); exact K1).
  destruct (acceleration_total (rd_net rd) v2 (Some (EV v2)) f) as [a ->]; [cbn; rewrite K2; auto|]. cbn [bind].
  eexists. split; [reflexivity|]. split; [exact L2|]. intros _. cbn. rewrite R2. split; [exact T2 | apply T1].
Qed.

Lemma vehicle_act_total rd draw v : wf_graph (rd_net rd) -> draw_ok draw -> road_ok rd (v_kind v) -> well_placed (rd_net rd) v ->
  exists v', vehicle_act rd draw v = Ok v' /\ well_placed (rd_net rd) v'.
Proof.
  intros W D H P. unfold vehicle_act. destruct (v_kind v) eqn:K.
  - eauto.
  - eauto.
  - destruct P as [L T]. rewrite K in T. destruct (controlled_act_total (rd_net rd) draw v None W D (T eq_refl)) as (v' & E & T').
    exists v'. split; [exact E|]. apply controlled_act_ok in E as (B & _). apply same_body_vehicle in B. split; [|intros _; exact T'].
    replace (v_lane_index v') with (v_lane_index v) by (symmetry; unfold same_vehicle in B; tauto). exact L.
  - destruct P as [L T]. rewrite K in T. destruct (mdp_act_total (rd_net rd) draw v None W D (T eq_refl)) as (v' & E & T').
    exists v'. split; [exact E|]. apply mdp_act_ok in E as (B & _). apply same_body_vehicle in B. split; [|intros _; exact T'].
    replace (v_lane_index v') with (v_lane_index v) by (symmetry; unfold same_vehicle in B; tauto). exact L.
  - apply idm_act_total; auto; rewrite K; auto.
  - apply idm_act_total; auto; rewrite K; auto.
Qed.

(** ** Road.act *)
Definition acted (rd rd' : road) : Prop :=
  rd_net rd' = rd_net rd /\ rd_objects rd' = rd_objects rd /\ rd_record rd' = rd_record rd /\ rd_steps rd' = rd_steps rd /\
  Forall2 same_vehicle (rd_vehicles rd) (rd_vehicles rd').
Lemma acted_refl rd : acted rd rd.
Proof. unfold acted. repeat (split; [reflexivity|]). apply Forall2_refl'. apply same_vehicle_refl. Qed.
Lemma acted_trans a b c : acted a b -> acted b c -> acted a c.
Proof.
  unfold acted. intros (A1 & A2 & A3 & A4 & A5) (B1 & B2 & B3 & B4 & B5).
  split; [congruence|]. split; [congruence|]. split; [congruence|]. split; [congruence|].
  eapply Forall2_trans'; [apply same_vehicle_trans | exact A5 | exact B5].
Qed.
Lemma Forall2_update {A} (P : A -> A -> Prop) k x y l : (forall x, P x x) -> nth_error l k = Some x -> P x y -> Forall2 P l (update_nth k y l).
Proof.
  intros Rf. revert k. induction l as [|a l IH]; intros [|k] E H; cbn in *; try discriminate.
  - injection E as ->. constructor; [exact H | now apply Forall2_refl'].
  - constructor; [apply Rf | now apply IH].
Qed.
Lemma act_one_acted draws rd i rd' : act_one draws rd i = Ok rd' -> acted rd rd'.
Proof.
  unfold act_one. destruct (nth_error _ i) as [v|] eqn:N; [|intros [= <-]; apply acted_refl].
  intros E. apply bind_ok in E as (v' & A & E). injection E as <-. unfold acted. cbn. repeat (split; [reflexivity|]).
  eapply Forall2_update; [apply same_vehicle_refl | exact N | eapply vehicle_act_same; exact A].
Qed.
Lemma foldM_act_acted draws l : forall rd rd', foldM (act_one draws) l rd = Ok rd' -> acted rd rd'.
Proof.
  induction l as [|i l IH]; intros rd rd' E; cbn [foldM] in E; [injection E as <-; apply acted_refl|].
  apply bind_ok in E as (rd1 & E1 & E). eapply acted_trans; [eapply act_one_acted; exact E1 | now apply IH].
Qed.
Lemma road_act_acted draws rd rd' : road_act draws rd = Ok rd' -> acted rd rd'.
Proof. apply foldM_act_acted. Qed.

Lemma update_nth_In {A} (k : nat) (x y : A) l : In y (update_nth k x l) -> y = x \/ In y l.
Proof.
  revert k. induction l as [|a l IH]; intros [|k] H; cbn in *; [tauto | tauto | destruct H; [now left | right; now right]|].
  destruct H as [H|H]; [right; now left|]. apply IH in H as [->|H]; [now left | right; now right].
Qed.
Lemma acted_kinds rd rd' : acted rd rd' -> forall w', In w' (rd_vehicles rd') -> exists w, In w (rd_vehicles rd) /\ same_vehicle w w'.
Proof.
  intros (_ & _ & _ & _ & F) w' H. induction F as [|a b la lb Hab F IH]; [easy|]. destruct H as [<-|H]; [exists a; split; [now left | exact Hab]|].
  destruct (IH H) as (w & Hw & S). exists w. split; [now right | exact S].
Qed.
Lemma runnable_road_ok rd v : runnable rd -> In v (rd_vehicles rd) -> road_ok rd (v_kind v).
Proof.
  intros (B & N & P & Lc) Hv. split; [intros w Hw; apply (P w Hw)|]. intros K. destruct Lc as [Q|Q]; [elim (Q v Hv K) | exact Q].
Qed.
Lemma runnable_act_one draws rd i : draw_ok (draws i) -> runnable rd -> exists rd', act_one draws rd i = Ok rd' /\ runnable rd'.
Proof.
  intros D Rn. pose proof Rn as (B & N & P & Lc). unfold act_one. destruct (nth_error _ i) as [v|] eqn:Nv; [|eauto].
  assert (Hv : In v (rd_vehicles rd)) by (eapply nth_error_In; exact Nv).
  destruct (vehicle_act_total rd (draws i) v) as (v' & E & P'); [now apply wf_built | exact D | now apply runnable_road_ok | now apply P |].
  rewrite E. cbn [bind]. eexists. split; [reflexivity|].
  pose proof (vehicle_act_same _ _ _ _ E) as Sm.
  split; [exact B|]. split; [exact N|]. split.
  - intros w Hw. cbn in *. apply update_nth_In in Hw as [->|Hw]; [exact P' | now apply P].
  - destruct Lc as [Q|[Q1 Q2]]; [left | right; split; [|exact Q2]]; intros w Hw; cbn in Hw; apply update_nth_In in Hw as [->|Hw]; auto.
    + unfold same_vehicle in Sm. destruct Sm as (_ & -> & _). now apply Q.
    + unfold same_vehicle in Sm. destruct Sm as (_ & -> & _). now apply Q1.
Qed.
Lemma runnable_act draws rd : (forall i, draw_ok (draws i)) -> runnable rd -> exists rd', road_act draws rd = Ok rd' /\ runnable rd'.
Proof.
  intros D. unfold road_act. generalize (seq 0 (List.length (rd_vehicles rd))) as l. intros l. revert rd.
  induction l as [|i l IH]; intros rd Rn; cbn [foldM]; [eauto|].
  destruct (runnable_act_one draws rd i (D i) Rn) as (rd1 & -> & R1). cbn [bind]. now apply IH.
Qed.

(** ** Road.step *)
(** What a whole step may do to a vehicle: new pose, speed, lane, stored action,
    timer, history, crash flag; nothing else. *)
Definition stepped (v w : vehicle) : Prop :=
  v_id w = v_id v /\ v_kind w = v_kind v /\ v_collisions w = v_collisions v /\ v_target_lane w = v_target_lane v /\
  v_target_speed w = v_target_speed v /\ v_route w = v_route v /\ v_speed_index w = v_speed_index v /\ v_grid w = v_grid v /\
  v_enable_lane_change w = v_enable_lane_change v /\ v_par w = v_par v /\ v_is_yielding w = v_is_yielding v /\
  v_yield_timer w = v_yield_timer v /\ v_has_color w = v_has_color v.
Lemma vehicle_step_stepped g rec v dt w : vehicle_step g rec v dt = Ok w -> stepped v w.
Proof.
  unfold vehicle_step, on_state_update. intros E. apply bind_ok in E as (i & _ & E). injection E as <-.
  unfold stepped, integrate, clip_actions. destruct rec, (is_idm (v_kind v)); cbn; tauto.
Qed.
Lemma evolves_stepped v w : evolves v w -> stepped v w.
Proof. intros [-> | (s & -> & _)]; unfold stepped; cbn; tauto. Qed.
Lemma stepped_trans a b c : stepped a b -> stepped b c -> stepped a c.
Proof. unfold stepped. intuition congruence. Qed.
Lemma mapM_Forall2 {A B} (f : A -> res B) l : forall l', mapM f l = Ok l' -> Forall2 (fun a b => f a = Ok b) l l'.
Proof.
  induction l as [|a l IH]; intros l' E; cbn [mapM] in E; [injection E as <-; constructor|].
  apply bind_ok in E as (b & Eb & E). apply bind_ok in E as (bs & Es & E). injection E as <-. constructor; auto.
Qed.
Lemma Forall2_comp {A B C} (P : A -> B -> Prop) (Q : B -> C -> Prop) (S : A -> C -> Prop) : (forall a b c, P a b -> Q b c -> S a c) ->
  forall la lb lc, Forall2 P la lb -> Forall2 Q lb lc -> Forall2 S la lc.
Proof. intros H la lb lc F. revert lc. induction F; intros lc G; inversion G; subst; constructor; eauto. Qed.
Lemma Forall2_In_r {A B} (P : A -> B -> Prop) la lb : Forall2 P la lb -> forall b, In b lb -> exists a, In a la /\ P a b.
Proof. induction 1; intros z Hz; [easy|]. destruct Hz as [<-|Hz]; [eexists; split; [now left | eassumption]|]. destruct (IHForall2 z Hz) as (a & Ha & Q). exists a. split; [now right | exact Q]. Qed.

Lemma vehicle_step_lane g rec v dt w : wf_graph g -> vehicle_step g rec v dt = Ok w -> lane_exists g (v_lane_index w).
Proof.
  intros W. unfold vehicle_step, on_state_update. intros E. apply bind_ok in E as (i & C & E). injection E as <-.
  apply closest_exists in C; [|exact W]. destruct rec; exact C.
Qed.
Lemma road_step_stepped rd dt rd' : road_step rd dt = Ok rd' ->
  rd_net rd' = rd_net rd /\ rd_record rd' = rd_record rd /\ rd_steps rd' = rd_steps rd /\
  Forall2 (fun v w => stepped v w /\ exists u, vehicle_step (rd_net rd) (rd_record rd) v dt = Ok u /\ evolves u w) (rd_vehicles rd) (rd_vehicles rd') /\
  Forall2 oevolves (rd_objects rd) (rd_objects rd').
Proof.
  intros E. apply road_step_ok in E as (vs & M & N & Rc & St & C). do 3 (split; [assumption|]).
  pose proof (inv_all (vs, rd_objects rd)) as [[F G] _]. rewrite <- C in F, G. cbn in F, G. split; [|exact G].
  apply mapM_Forall2 in M. eapply Forall2_comp; [|exact M | exact F]. cbn. intros a b c Ha Hb. split.
  - eapply stepped_trans; [eapply vehicle_step_stepped; exact Ha | now apply evolves_stepped].
  - eauto.
Qed.
Lemma runnable_step rd dt : runnable rd -> exists rd', road_step rd dt = Ok rd' /\ runnable rd'.
Proof.
  intros Rn. pose proof Rn as (B & N & P & Lc). pose proof (wf_built _ B) as W.
  destruct (road_step_total rd dt W N) as [rd' E]. exists rd'. split; [exact E|].
  apply road_step_stepped in E as (En & _ & _ & F & Fo). unfold runnable. rewrite En. split; [exact B|]. split; [exact N|]. split.
  - intros w Hw. destruct (Forall2_In_r _ _ _ F w Hw) as (v & Hv & Sp & u & Eu & Ev). destruct (P v Hv) as [L T].
    split.
    + apply vehicle_step_lane in Eu; [|exact W]. destruct Ev as [-> | (s & -> & _)]; exact Eu.
    + unfold stepped in Sp. destruct Sp as (_ & Ek & _ & Et & _ & Er & _). rewrite Ek, Et, Er. exact T.
  - destruct Lc as [Q|[Q1 Q2]]; [left | right; split].
    + intros w Hw. destruct (Forall2_In_r _ _ _ F w Hw) as (v & Hv & (_ & -> & _) & _). now apply Q.
    + intros w Hw. destruct (Forall2_In_r _ _ _ F w Hw) as (v & Hv & (_ & -> & _) & _). now apply Q1.
    + intros o Ho. destruct (Forall2_In_r _ _ _ Fo o Ho) as (o0 & Ho0 & [-> | ->]); [now apply Q2 | cbn; now apply Q2].
Qed.

(** ** Whole simulations *)
Lemma simulates_total dt n : forall rd, runnable rd -> exists frames, List.length frames = n /\ simulates dt rd frames.
Proof.
  induction n as [|n IH]; intros rd Rn; [exists []; split; [reflexivity | constructor]|].
  assert (D : forall i : nat, draw_ok (fun n => 0%nat)) by (intros i m Hm; exact Hm).
  destruct (runnable_act (fun _ _ => 0%nat) rd D Rn) as (rd1 & A & R1). destruct (runnable_step rd1 dt R1) as (rd2 & E & R2).
  destruct (IH rd2 R2) as (fr & Hl & Hs). exists (rd2 :: fr). split; [cbn; congruence|].
  exact (simulates_cons dt rd (fun _ _ => 0%nat) rd1 rd2 fr D A E Hs).
Qed.
Lemma simulates_runnable dt rd frames : simulates dt rd frames -> runnable rd -> Forall runnable frames.
Proof.
  induction 1 as [|rd draws rd1 rd2 fr D A E S IH]; intros Rn; [constructor|].
  destruct (runnable_act draws rd D Rn) as (rd1' & A' & R1). rewrite A in A'. injection A' as <-.
  destruct (runnable_step rd1 dt R1) as (rd2' & E' & R2). rewrite E in E'. injection E' as <-. constructor; auto.
Qed.

(** ** One frame, seen from one vehicle *)
Lemma nth_update_same {A} k (x : A) l y : nth_error l k = Some y -> nth_error (update_nth k x l) k = Some x.
Proof. revert k. induction l as [|a l IH]; intros [|k] H; cbn in *; try discriminate; [reflexivity | eauto]. Qed.
Lemma nth_update_other {A} k j (x : A) l : k <> j -> nth_error (update_nth k x l) j = nth_error l j.
Proof. revert k j. induction l as [|a l IH]; intros [|k] [|j] H; cbn; try easy. apply IH. congruence. Qed.
Lemma act_one_other draws rd j rd' i : act_one draws rd j = Ok rd' -> i <> j -> nth_error (rd_vehicles rd') i = nth_error (rd_vehicles rd) i.
Proof.
  unfold act_one. destruct (nth_error (rd_vehicles rd) j) eqn:N; [|intros [= <-]; reflexivity].
  intros E H. apply bind_ok in E as (v' & A & E). injection E as <-. cbn. apply nth_update_other. congruence.
Qed.
Lemma foldM_act_other draws l : forall rd rd' i, foldM (act_one draws) l rd = Ok rd' -> ~ In i l ->
  nth_error (rd_vehicles rd') i = nth_error (rd_vehicles rd) i.
Proof.
  induction l as [|j l IH]; intros rd rd' i E H; cbn [foldM] in E; [injection E as <-; reflexivity|].
  apply bind_ok in E as (rd1 & E1 & E). rewrite (IH _ _ _ E) by (intros Q; apply H; now right).
  eapply act_one_other; [exact E1|]. intros ->. apply H. now left.
Qed.
Lemma foldM_act_nth draws l : forall rd rd' i v, foldM (act_one draws) l rd = Ok rd' -> NoDup l -> In i l ->
  nth_error (rd_vehicles rd) i = Some v ->
  exists rdm v', acted rd rdm /\ nth_error (rd_vehicles rdm) i = Some v /\ vehicle_act rdm (draws i) v = Ok v' /\ nth_error (rd_vehicles rd') i = Some v'.
Proof.
  induction l as [|j l IH]; intros rd rd' i v E Nd I Nv; [easy|]. cbn [foldM] in E. apply bind_ok in E as (rd1 & E1 & E).
  inversion Nd as [|? ? Nj Nd']; subst. destruct (Nat.eq_dec i j) as [->|Hij].
  - exists rd. pose proof E1 as E2. unfold act_one in E2. rewrite Nv in E2. apply bind_ok in E2 as (v' & A & E2). injection E2 as <-.
    exists v'. split; [apply acted_refl|]. split; [exact Nv|]. split; [exact A|].
    rewrite (foldM_act_other _ _ _ _ _ E Nj). cbn. eapply nth_update_same. exact Nv.
  - destruct I as [->|I]; [congruence|]. rewrite <- (act_one_other _ _ _ _ i E1 Hij) in Nv.
    destruct (IH _ _ _ _ E Nd' I Nv) as (rdm & v' & A1 & A2 & A3 & A4). exists rdm, v'. split; [|tauto].
    eapply acted_trans; [eapply act_one_acted; exact E1 | exact A1].
Qed.
Lemma road_act_nth draws rd rd' i v : road_act draws rd = Ok rd' -> nth_error (rd_vehicles rd) i = Some v ->
  exists rdm v', acted rd rdm /\ nth_error (rd_vehicles rdm) i = Some v /\ vehicle_act rdm (draws i) v = Ok v' /\ nth_error (rd_vehicles rd') i = Some v'.
Proof.
  intros E N. eapply foldM_act_nth; [exact E | apply seq_NoDup | | exact N]. apply in_seq.
  assert (nth_error (rd_vehicles rd) i <> None) as Q by congruence. apply nth_error_Some in Q. lia.
Qed.
Lemma Forall2_nth {A B} (P : A -> B -> Prop) la lb i a : Forall2 P la lb -> nth_error la i = Some a -> exists b, nth_error lb i = Some b /\ P a b.
Proof. intros F. revert i. induction F; intros [|i] N; cbn in *; try discriminate; [injection N as <-; eauto | auto]. Qed.
Lemma frame_nth draws rd rd1 rd2 dt i v : road_act draws rd = Ok rd1 -> road_step rd1 dt = Ok rd2 -> nth_error (rd_vehicles rd) i = Some v ->
  exists rdm v1 u w, acted rd rdm /\ nth_error (rd_vehicles rdm) i = Some v /\ vehicle_act rdm (draws i) v = Ok v1 /\
    vehicle_step (rd_net rd) (rd_record rd) v1 dt = Ok u /\ evolves u w /\ nth_error (rd_vehicles rd2) i = Some w.
Proof.
  intros A E N. pose proof (road_act_acted _ _ _ A) as (Hn & _ & Hr & _).
  destruct (road_act_nth _ _ _ _ _ A N) as (rdm & v1 & Am & Nm & Av & N1).
  apply road_step_stepped in E as (_ & _ & _ & F & _). destruct (Forall2_nth _ _ _ _ _ F N1) as (w & Nw & _ & u & Eu & Ev).
  rewrite Hn, Hr in Eu. exists rdm, v1, u, w. tauto.
Qed.

(** The front of a vehicle only depends on where things are. *)
Lemma acted_front rd rdm v r : acted rd rdm -> neighbour_vehicles rd v None = Ok (None, r) ->
  exists r', neighbour_vehicles rdm v None = Ok (None, r').
Proof.
  intros A E. unfold neighbour_vehicles in *. pose proof E as E0. unfold neighbours_on in E0. apply bind_ok in E0 as (l & G & _).
  destruct (neighbours_spec _ _ _ _ _ _ _ G E) as (_ & F & _ & _). specialize (F eq_refl). destruct A as (An & Ao & _ & _ & Av).
  assert (Gm : get_lane (rd_net rdm) (v_lane_index v) = Ok l) by (rewrite An; exact G).
  destruct (neighbours_total rdm (v_id v) (v_pos v) _ l Gm) as [[f r'] Em]. exists r'. rewrite Em. destruct f as [e|]; [exfalso|reflexivity].
  destruct (neighbours_spec _ _ _ _ _ _ _ Gm Em) as (H & _). destruct (H e eq_refl) as (I & C & P & _).
  unfold rd_entities in I. rewrite Ao in I. apply in_app_or in I as [I|I]; apply in_map_iff in I as (x & <- & I).
  - destruct (Forall2_In_r _ _ _ Av x I) as (w & Hw & Sm). unfold same_vehicle in Sm.
    assert (Pw : v_pos x = v_pos w) by tauto. assert (Iw : v_id x = v_id w) by tauto.
    specialize (F (EV w)). assert (Q : In (EV w) (rd_entities rd)) by (apply in_or_app; left; now apply in_map).
    specialize (F Q). unfold candidate in *. cbn [e_pos e_id is_landmark] in *. rewrite <- Pw, <- Iw in F. specialize (F C). lra.
  - specialize (F (EO x)). assert (Q : In (EO x) (rd_entities rd)) by (apply in_or_app; right; now apply in_map). specialize (F Q C). lra.
Qed.

(** ** Free road *)
Lemma free_frame draws rd rd1 rd2 dt i v w r : road_act draws rd = Ok rd1 -> road_step rd1 dt = Ok rd2 ->
  nth_error (rd_vehicles rd) i = Some v -> nth_error (rd_vehicles rd2) i = Some w ->
  is_idm (v_kind v) = true -> v_crashed v = false -> v_crashed w = false -> neighbour_vehicles rd v None = Ok (None, r) ->
  - 40 <= v_speed v <= 40 ->
  stepped (set_target_lane v (v_target_lane w)) (set_route w (v_route v)) /\
  exists a, (match v_kind v with KLinear => a = fst (fst (ip_acc_par (v_par v))) * (v_target_speed v - v_speed v) | _ => a = free_acc (v_par v) v end) /\
  v_speed w = v_speed v + Rclip a (- ip_acc_max (v_par v)) (ip_acc_max (v_par v)) * dt.
Proof.
  intros A E Nv Nw K C Cw Nb S0. destruct (frame_nth _ _ _ _ _ _ _ A E Nv) as (rdm & v1 & u & w' & Am & Nm & Av & Eu & Ev & Nw').
  rewrite Nw in Nw'. injection Nw' as <-. assert (Eiu : idm_act rdm (draws i) v = Ok v1) by (unfold vehicle_act in Av; destruct (v_kind v); easy).
  destruct (idm_act_ok _ _ _ _ Eiu C) as (Sm & Ts & Si & _ & f & r' & va & vb & st & a & Hn & Hf & Hp & _ & Ha & Hv1).
  destruct (acted_front _ _ _ _ Am Nb) as (r2 & Hn2). rewrite Hn2 in Hn. injection Hn as <- <-.
  pose proof (step_fields _ _ _ _ _ Eu) as Sf. cbv zeta in Sf. destruct Sf as (_ & _ & Sp & Cr & Id & Kd & Co & Tl & Tg & Rt & Si' & Gr & Pa & En & _ & Y1 & Y2 & Y3 & _).
  assert (w = u). { destruct Ev as [-> | (s & -> & _)]; [reflexivity | discriminate Cw]. } subst w. clear Ev.
  assert (Sm' := Sm). unfold same_vehicle in Sm'. destruct Sm' as (M1 & M2 & M3 & M4 & M5 & M6 & M7 & M8 & M9 & M10 & M11 & M12 & M13 & M14 & M15).
  split. { unfold stepped. cbn. repeat split; congruence. }
  assert (B : same_vehicle v vb /\ v_target_speed vb = v_target_speed v).
  { pose proof (follow_road_ok _ _ _ _ Hf) as (B1 & T1 & _). apply same_body_vehicle in B1.
    destruct (v_enable_lane_change v); [apply policy_only_target, only_target_vehicle in Hp | injection Hp as <-].
    - split; [eapply same_vehicle_trans; [exact B1 | tauto] | destruct Hp as (_ & -> & _); exact T1].
    - tauto. }
  destruct B as [B Tb]. unfold same_vehicle in B. destruct B as (_ & Bk & _ & _ & Bs & _ & _ & _ & _ & _ & _ & Bp & _).
  exists a. split.
  - unfold acceleration in Ha. rewrite Bk in Ha. destruct (v_kind v) eqn:Kv; try discriminate K.
    + cbn [idm_acceleration] in Ha. injection Ha as <-. unfold free_acc, target_speed_or_0. rewrite Bp, Bs, Bk, Tb, Kv. reflexivity.
    + unfold linear_acceleration, linear_features in Ha. rewrite Bk in Ha. cbn [is_controlled negb] in Ha. cbn [bind] in Ha. rewrite Bp in Ha.
      destruct (ip_acc_par (v_par v)) as [[p1 p2] p3]. cbn [fst snd] in *. injection Ha as <-. rewrite Tb, Bs. ring.
  - rewrite Sp, M5. f_equal. f_equal. rewrite clipped_cases. cbv zeta. rewrite M7, C, M5, !Rltb_ge by lra. rewrite Hv1. reflexivity.
Qed.

Lemma unobstructed_next i rd v : unobstructed i rd -> nth_error (rd_vehicles rd) i = Some v ->
  v_crashed v = false /\ exists r, neighbour_vehicles rd v None = Ok (None, r).
Proof. intros (v' & r & N & C & Nb) N'. rewrite N in N'. injection N' as ->. eauto. Qed.

(** An invariant along a free run. *)
Lemma free_run (P : nat -> vehicle -> Prop) dt i : forall rd frames, simulates dt rd frames -> Forall (unobstructed i) (rd :: frames) ->
  forall n v, nth_error (rd_vehicles rd) i = Some v -> is_idm (v_kind v) = true -> P n v ->
  (forall m v, P m v -> is_idm (v_kind v) = true -> -40 <= v_speed v <= 40) ->
  (forall m v w a, P m v -> is_idm (v_kind v) = true -> stepped (set_target_lane v (v_target_lane w)) (set_route w (v_route v)) ->
     (match v_kind v with KLinear => a = fst (fst (ip_acc_par (v_par v))) * (v_target_speed v - v_speed v) | _ => a = free_acc (v_par v) v end) ->
     v_speed w = v_speed v + Rclip a (- ip_acc_max (v_par v)) (ip_acc_max (v_par v)) * dt -> P (S m) w) ->
  forall k rdk, nth_error (rd :: frames) k = Some rdk -> exists w, nth_error (rd_vehicles rdk) i = Some w /\ is_idm (v_kind w) = true /\ P (n + k)%nat w.
Proof.
  intros rd frames Sim. induction Sim as [rd|rd draws rd1 rd2 fr D A E S IH]; intros Fu n v Nv K Pv Hb Hs k rdk Nk.
  - destruct k as [|[|k]]; cbn in Nk; try discriminate. injection Nk as <-. exists v. rewrite Nat.add_0_r. tauto.
  - inversion Fu as [|? ? U0 Fu']; subst. destruct k as [|k]; cbn in Nk.
    + injection Nk as <-. exists v. rewrite Nat.add_0_r. tauto.
    + pose proof Fu' as Fu2. inversion Fu2 as [|? ? U1 _]; subst. destruct (unobstructed_next _ _ _ U0 Nv) as (C & r & Nb).
      destruct U1 as (w & rw & Nw & Cw & _). pose proof (Hb n v Pv K) as S0.
      destruct (free_frame _ _ _ _ _ _ _ _ _ A E Nv Nw K C Cw Nb S0) as (St & a & Ha & Sp).
      assert (Kw : v_kind w = v_kind v) by (unfold stepped in St; cbn in St; tauto).
      replace (n + Datatypes.S k)%nat with (Datatypes.S n + k)%nat by lia.
      eapply (IH Fu' (Datatypes.S n) w Nw); [congruence | eapply Hs; eauto | exact Hb | exact Hs | exact Nk].
Qed.

(** A vehicle alone on its road is never obstructed. *)
Lemma lone_unobstructed rd v : runnable rd -> rd_vehicles rd = [v] -> rd_objects rd = [] -> v_crashed v = false -> unobstructed 0 rd.
Proof.
  intros Rn Hv Ho C. assert (I : In v (rd_vehicles rd)) by (rewrite Hv; now left).
  assert (L : lane_exists (rd_net rd) (v_lane_index v)) by (apply Rn; exact I).
  destruct (neighbour_vehicles_total rd v None L) as (f & r & N). exists v, r. rewrite Hv. split; [reflexivity|]. split; [exact C|].
  destruct f as [e|]; [exfalso | exact N]. unfold neighbour_vehicles in N. pose proof N as N0. unfold neighbours_on in N0. apply bind_ok in N0 as (l & G & _).
  destruct (neighbours_spec _ _ _ _ _ _ _ G N) as (H & _). destruct (H e eq_refl) as (Ie & (Ci & _) & _).
  unfold rd_entities in Ie. rewrite Hv, Ho in Ie. destruct Ie as [<-|[]]. now apply Ci.
Qed.
Lemma lone_run dt rd frames : simulates dt rd frames -> runnable rd -> forall v, rd_vehicles rd = [v] -> rd_objects rd = [] -> v_crashed v = false ->
  Forall (unobstructed 0) (rd :: frames).
Proof.
  induction 1 as [rd|rd draws rd1 rd2 fr D A E S IH]; intros Rn v Hv Ho C.
  - constructor; [eapply lone_unobstructed; eauto | constructor].
  - constructor; [eapply lone_unobstructed; eauto|].
    destruct (runnable_act draws rd D Rn) as (rd1' & A' & R1). rewrite A in A'. injection A' as <-.
    destruct (runnable_step rd1 dt R1) as (rd2' & E' & R2). rewrite E in E'. injection E' as <-.
    pose proof (road_act_acted _ _ _ A) as (_ & O1 & _ & _ & F1). rewrite Hv in F1. inversion F1 as [|? v1 ? l1 Sv F1' E1 E2]; subst. inversion F1'; subst.
    apply road_step_ok in E as (vs & M & _ & _ & _ & Cl). rewrite <- E2 in M. cbn [mapM] in M.
    apply bind_ok in M as (u & Eu & M). cbn in M. injection M as <-. rewrite O1, Ho in Cl. cbn in Cl.
    assert (Q : check_collision u u = (u, u)) by (unfold check_collision; rewrite Nat.eqb_refl, orb_true_r; reflexivity).
    unfold collide_row in Cl. cbn in Cl. rewrite Q in Cl. cbn in Cl. injection Cl as Cv Co.
    apply (IH R2 u Cv Co). apply step_fields in Eu. cbv zeta in Eu. destruct Eu as (_ & _ & _ & -> & _). unfold same_vehicle in Sv. destruct Sv as (_ & _ & _ & _ & _ & _ & -> & _). exact C.
Qed.

(** Free IDM run below the target. *)
Lemma idm_free_run dt rd frames i v : simulates dt rd frames -> Forall (unobstructed i) (rd :: frames) ->
  nth_error (rd_vehicles rd) i = Some v -> v_kind v = KIDM ->
  0 <= dt -> 0 < ip_comfort_max (v_par v) <= ip_acc_max (v_par v) ->
  1 / 100 < v_target_speed v <= 40 -> 4 * ip_comfort_max (v_par v) * dt <= v_target_speed v ->
  0 <= v_speed v <= v_target_speed v ->
  forall k rdk, nth_error (rd :: frames) k = Some rdk -> exists w, nth_error (rd_vehicles rdk) i = Some w /\
    v_speed v <= v_speed w <= v_target_speed v /\ v_kind w = KIDM /\ v_par w = v_par v /\ v_target_speed w = v_target_speed v /\
    v_target_speed v - v_speed w <= (1 - ip_comfort_max (v_par v) * dt / v_target_speed v) ^ k * (v_target_speed v - v_speed v).
Proof.
  intros Sim Fu Nv K Hd Hc Ht Hs Hv k rdk Nk.
  set (c := ip_comfort_max (v_par v)) in *. set (vt := v_target_speed v) in *.
  set (P := fun (n : nat) (w : vehicle) => v_speed v <= v_speed w <= vt /\ v_kind w = KIDM /\ v_par w = v_par v /\ v_target_speed w = vt /\
     vt - v_speed w <= (1 - c * dt / vt) ^ n * (vt - v_speed v)).
  destruct (free_run P dt i rd frames Sim Fu 0%nat v Nv) with (k := k) (rdk := rdk) as (w & Nw & _ & Pw); try assumption.
  - rewrite K. reflexivity.
  - unfold P. cbn [pow]. split; [lra|]. split; [exact K|]. split; [reflexivity|]. split; [reflexivity | lra].
  - intros m u (H & _). lra.
  - intros m u w a (Hu & Ku & Pu & Tu & Du) _ St Ha Sp. unfold stepped in St. cbn in St.
    destruct St as (_ & Kw & _ & _ & Tw & _ & _ & _ & _ & Pw & _). rewrite Ku in Ha. subst a.
    assert (Cu : is_controlled (v_kind u) = true) by (rewrite Ku; reflexivity).
    destruct (free_acc_contract (v_par u) u dt) as (B1 & B2 & B3); [rewrite Pu; fold c; lra | exact Cu | rewrite Tu; lra | exact Hd | rewrite Pu, Tu; exact Hs | rewrite Tu; lra |].
    rewrite Pu, Tu in *. fold c in B1, B3. rewrite Rclip_id in Sp by lra. unfold P. rewrite Sp.
    split; [lra|]. split; [congruence|]. split; [congruence|]. split; [congruence|].
    eapply Rle_trans; [exact B3|]. cbn [pow]. rewrite Rmult_assoc. apply Rmult_le_compat_l; [|exact Du].
    assert (c * dt / vt <= 1); [|lra]. apply (Rmult_le_reg_r vt); [lra|]. unfold Rdiv. rewrite Rmult_assoc, Rinv_l by lra. nra.
  - exists w. split; [exact Nw|]. rewrite Nat.add_0_l in Pw. exact Pw.
Qed.
