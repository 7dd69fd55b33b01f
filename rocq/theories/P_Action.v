(** Lemmas about commands and actions. *)
From Verif Require Import Prelude M_Utils M_Lane M_Road M_Vehicle M_Kinematics M_Control M_Behavior M_Regulation M_Action M_Env
  S_Geometry S_Road S_Vehicle S_Control S_Behavior S_Regulation S_Env P_Base P_Utils P_Lane P_Graph P_Bfs P_Query P_Kin P_Crash P_Control P_Behavior P_Traffic P_Regulation.
From Coq Require Import Lia Lra.
Open Scope R_scope.

(** ** Labels *)
Lemma meta_eqb_iff a b : meta_eqb a b = true <-> a = b.
Proof. destruct a, b; cbn; split; easy. Qed.
Lemma table_inverse lo la t : meta_table lo la = Ok t -> forall k m, action_of t k = Ok m <-> index_of t m = Ok k.
Proof.
  intros E k m. assert (H : forall k, (k = 0 \/ k = 1 \/ k = 2 \/ k = 3 \/ k = 4 \/ (k < 0 \/ 4 < k))%Z) by lia.
  assert (N : forall j, (j < 0 \/ 4 < j)%Z -> action_of t j = Err KeyError).
  { intros j Hj. unfold meta_table in E. destruct lo, la; cbn in E; try discriminate; injection E as <-; cbv [action_of find ACTIONS_ALL ACTIONS_LONGI ACTIONS_LAT fst snd];
    repeat match goal with |- context [Z.eqb ?a ?b] => destruct (Z.eqb_spec a b); [lia|] end; reflexivity. }
  destruct (H k) as [->|[->|[->|[->|[->|Hk]]]]].
  6:{ rewrite (N k Hk). split; [discriminate|]. intros Q. exfalso. unfold meta_table in E. destruct lo, la; cbn in E; try discriminate; injection E as <-; destruct m; cbn in Q; try discriminate; injection Q as <-; lia. }
  all: unfold meta_table in E; destruct lo, la; cbn in E; try discriminate; injection E as <-; destruct m; cbn; split; easy.
Qed.

(** ** Continuous commands *)
Lemma lmap_affine x r : lmap x (-1, 1) r = Ok (affine r x).
Proof. rewrite lmap_ok by (cbn; lra). f_equal. unfold lmap_val, affine. cbn [fst snd]. field. Qed.
Lemma affine_range r x : fst r <= snd r -> -1 <= x <= 1 -> fst r <= affine r x <= snd r.
Proof. intros H Hx. unfold affine. nra. Qed.

(** ** Effect of a command *)
Lemma vehicle_command_same rd draw v c v' : vehicle_command rd draw v c = Ok v' -> same_vehicle v v'.
Proof.
  unfold vehicle_command. destruct (v_kind v) eqn:K.
  - destruct c; [discriminate|]. intros [= <-]. unfold same_vehicle. cbn. tauto.
  - destruct c; [discriminate|]. intros [= <-]. unfold same_vehicle. cbn. tauto.
  - intros E. apply controlled_act_ok in E as (B & _). now apply same_body_vehicle.
  - intros E. apply mdp_act_ok in E as (B & _). now apply same_body_vehicle.
  - intros E. apply (vehicle_act_same rd draw). unfold vehicle_act. rewrite K. exact E.
  - intros E. apply (vehicle_act_same rd draw). unfold vehicle_act. rewrite K. exact E.
Qed.
(** Commands a class of vehicle accepts. *)
Definition accepts (k : vkind) (c : command) : Prop := is_controlled k = false -> exists ac st, c = Controls ac st.
Lemma vehicle_command_total rd draw v c : wf_graph (rd_net rd) -> draw_ok draw -> road_ok rd (v_kind v) -> well_placed (rd_net rd) v ->
  accepts (v_kind v) c -> exists v', vehicle_command rd draw v c = Ok v' /\ well_placed (rd_net rd) v'.
Proof.
  intros W D H P A. unfold vehicle_command. destruct (v_kind v) eqn:K.
  - destruct (A eq_refl) as (ac & st & ->). eexists. split; [reflexivity|]. destruct P as [L T]. split; [exact L|]. cbn. rewrite K. discriminate.
  - destruct (A eq_refl) as (ac & st & ->). eexists. split; [reflexivity|]. destruct P as [L T]. split; [exact L|]. cbn. rewrite K. discriminate.
  - destruct P as [L T]. rewrite K in T.
    destruct (controlled_act_total (rd_net rd) draw v (match c with Label m => Some m | Controls _ _ => None end) W D (T eq_refl)) as (v' & E & T').
    exists v'. split; [exact E|]. apply controlled_act_ok in E as (B & _). apply same_body_vehicle in B. split; [|intros _; exact T'].
    replace (v_lane_index v') with (v_lane_index v) by (symmetry; unfold same_vehicle in B; tauto). exact L.
  - destruct P as [L T]. rewrite K in T.
    destruct (mdp_act_total (rd_net rd) draw v (match c with Label m => Some m | Controls _ _ => None end) W D (T eq_refl)) as (v' & E & T').
    exists v'. split; [exact E|]. apply mdp_act_ok in E as (B & _). apply same_body_vehicle in B. split; [|intros _; exact T'].
    replace (v_lane_index v') with (v_lane_index v) by (symmetry; unfold same_vehicle in B; tauto). exact L.
  - apply idm_act_total; auto; rewrite K; auto.
  - apply idm_act_total; auto; rewrite K; auto.
Qed.
Lemma apply_meta_route g v a v' : apply_meta g v a = Ok v' -> v_route v' = v_route v.
Proof. intros E. apply apply_meta_ok in E. tauto. Qed.
Lemma vehicle_command_route rd draw v c v' : vehicle_command rd draw v c = Ok v' ->
  v_route v' = v_route v \/ exists r rt, v_route v = Some (r :: rt) /\ v_route v' = Some rt.
Proof.
  assert (Cn : forall g u a u', controlled_act g draw u a = Ok u' -> v_route u' = v_route u \/ exists r rt, v_route u = Some (r :: rt) /\ v_route u' = Some rt).
  { intros g u a u' E. unfold controlled_act in E. apply bind_ok in E as (u1 & F & E). apply bind_ok in E as (u2 & M & E).
    unfold low_level in E. apply bind_ok in E as (st & _ & E). injection E as <-. cbn. rewrite (apply_meta_route _ _ _ _ M). eapply follow_road_route; exact F. }
  unfold vehicle_command. destruct (v_kind v) eqn:K.
  - destruct c; [discriminate|]. intros [= <-]. now left.
  - destruct c; [discriminate|]. intros [= <-]. now left.
  - apply Cn.
  - intros E. unfold mdp_act in E. destruct c as [m|]; [destruct m|]; apply Cn in E; exact E.
  - intros E. apply (vehicle_act_route rd draw). unfold vehicle_act. rewrite K. exact E.
  - intros E. apply (vehicle_act_route rd draw). unfold vehicle_act. rewrite K. exact E.
Qed.

Lemma rank_of_some id vs k : rank_of id vs = Some k -> exists v, nth_error vs k = Some v /\ v_id v = id.
Proof.
  revert k. induction vs as [|v vs IH]; intros k E; cbn in E; [discriminate|].
  destruct (Nat.eqb_spec (v_id v) id) as [Q|Q]; [injection E as <-; exists v; easy|].
  destruct (rank_of id vs) as [j|]; [|discriminate]. injection E as <-. now apply IH.
Qed.
Lemma rank_of_in id vs v : In v vs -> v_id v = id -> exists k, rank_of id vs = Some k.
Proof.
  induction vs as [|w vs IH]; intros H E; [easy|]. cbn. destruct (Nat.eqb_spec (v_id w) id) as [Q|Q]; [eauto|].
  destruct H as [->|H]; [easy|]. destruct (IH H E) as [k ->]. cbn. eauto.
Qed.
Lemma rank_of_nth id vs k v : NoDup (map v_id vs) -> nth_error vs k = Some v -> v_id v = id -> rank_of id vs = Some k.
Proof.
  intros N Hk E. destruct (rank_of_in id vs v) as [j Hj]; [eapply nth_error_In; exact Hk | exact E|].
  destruct (rank_of_some _ _ _ Hj) as (w & Hw & Ew). rewrite Hj. f_equal.
  assert (Q : nth_error (map v_id vs) j = nth_error (map v_id vs) k) by (rewrite (map_nth_error v_id j vs Hw), (map_nth_error v_id k vs Hk); congruence).
  eapply NoDup_nth_error; [exact N | | exact Q]. rewrite map_length. apply nth_error_Some. congruence.
Qed.
Lemma command_acted rd draw id c rd' : command_vehicle rd draw id c = Ok rd' -> acted rd rd'.
Proof.
  unfold command_vehicle. destruct (rank_of id (rd_vehicles rd)) as [k|]; [|intros [= <-]; apply acted_refl].
  destruct (nth_error (rd_vehicles rd) k) as [v|] eqn:N; [|intros [= <-]; apply acted_refl].
  intros E. apply bind_ok in E as (v' & A & E). injection E as <-. unfold acted. cbn. repeat (split; [reflexivity|]).
  eapply Forall2_update; [apply same_vehicle_refl | exact N | eapply vehicle_command_same; exact A].
Qed.
Lemma acted_ids rd rd' : acted rd rd' -> map v_id (rd_vehicles rd') = map v_id (rd_vehicles rd).
Proof.
  intros (_ & _ & _ & _ & F). induction F as [|a b la lb H F IH]; [reflexivity|]. cbn. rewrite IH. f_equal. unfold same_vehicle in H. tauto.
Qed.
Lemma command_runnable rd draw id c : draw_ok draw -> runnable rd ->
  (forall v, In v (rd_vehicles rd) -> v_id v = id -> accepts (v_kind v) c) ->
  exists rd', command_vehicle rd draw id c = Ok rd' /\ runnable rd'.
Proof.
  intros D Rn Ac. pose proof Rn as (B & N & P & Lc). unfold command_vehicle.
  destruct (rank_of id (rd_vehicles rd)) as [k|] eqn:Rk; [|eauto]. destruct (rank_of_some _ _ _ Rk) as (v & Nv & Ev). rewrite Nv.
  assert (Hv : In v (rd_vehicles rd)) by (eapply nth_error_In; exact Nv).
  destruct (vehicle_command_total rd draw v c) as (v' & E & P'); [now apply wf_built | exact D | now apply runnable_road_ok | now apply P | now apply Ac |].
  rewrite E. cbn [bind]. eexists. split; [reflexivity|]. pose proof (vehicle_command_same _ _ _ _ _ E) as Sm.
  split; [exact B|]. split; [exact N|]. split.
  - intros w Hw. cbn in *. apply update_nth_In in Hw as [->|Hw]; [exact P' | now apply P].
  - destruct Lc as [Q|[Q1 Q2]]; [left | right; split; [|exact Q2]]; intros w Hw; cbn in Hw; apply update_nth_In in Hw as [->|Hw]; auto.
    + unfold same_vehicle in Sm. destruct Sm as (_ & -> & _). now apply Q.
    + unfold same_vehicle in Sm. destruct Sm as (_ & -> & _). now apply Q1.
Qed.
Lemma command_regulated rd draw id c rd' : regulated rd -> command_vehicle rd draw id c = Ok rd' -> runnable rd' -> regulated rd'.
Proof.
  intros [Rn H] E Rn'. split; [exact Rn'|]. unfold command_vehicle in E. destruct (rank_of id (rd_vehicles rd)) as [k|]; [|injection E as <-; exact H].
  destruct (nth_error (rd_vehicles rd) k) as [v|] eqn:N; [|injection E as <-; exact H].
  apply bind_ok in E as (v' & A & E). injection E as <-. cbn. intros w Hw. apply update_nth_In in Hw as [->|Hw]; [|now apply H].
  assert (Hv : In v (rd_vehicles rd)) by (eapply nth_error_In; exact N). destruct (H v Hv) as (C & Rr & Y).
  pose proof (vehicle_command_same _ _ _ _ _ A) as Sm. unfold same_vehicle in Sm. unfold yield_state_ok in *.
  destruct Sm as (_ & -> & _ & _ & _ & _ & _ & _ & _ & _ & _ & _ & -> & -> & ->). split; [exact C|]. split; [|exact Y].
  eapply route_tail; [exact Rr | eapply vehicle_command_route; exact A].
Qed.

(** ** Commands of actions in the space *)
Lemma space_command s a : in_space s a -> exists c, single_command s a = Ok c /\ accepts (vehicle_class s) c.
Proof.
  destruct s as [lo la|c], a as [k|x|l]; cbn [in_space]; try tauto.
  - intros [H O]. assert (Hk : (k = 0 \/ k = 1 \/ k = 2 \/ k = 3 \/ k = 4)%Z) by (destruct (lo && la); lia).
    destruct lo, la; cbn in H; try (destruct O; discriminate);
    destruct Hk as [->|[->|[->|[->| ->]]]]; try lia; cbn; eexists; (split; [reflexivity|]); intros Q; discriminate.
  - intros [H O]. cbn [single_command]. unfold continuous_command.
    set (y := if ca_clip c then map (fun a => Rclip a (-1) 1) x else x).
    assert (Ly : List.length y = List.length x) by (unfold y; destruct (ca_clip c); [apply map_length | reflexivity]).
    rewrite <- Ly in H. clearbody y. destruct (ca_longitudinal c), (ca_lateral c); cbn in H; cbn [andb].
    + destruct y as [|y0 [|y1 [|]]]; cbn in H; try discriminate. cbn [nth_error bind]. rewrite ?lmap_affine. cbn [bind]. rewrite ?lmap_affine. cbn. eexists. split; [reflexivity|]. intros _. eauto.
    + destruct y as [|y0 [|]]; cbn in H; try discriminate. cbn [nth_error bind]. rewrite lmap_affine. cbn. eexists. split; [reflexivity|]. intros _. eauto.
    + destruct y as [|y0 [|]]; cbn in H; try discriminate. cbn [nth_error bind]. rewrite lmap_affine. cbn. eexists. split; [reflexivity|]. intros _. eauto.
    + destruct O; discriminate.
Qed.
Lemma act_single_acted s draw rd id a rd' : act_single s draw rd id a = Ok rd' -> acted rd rd'.
Proof. unfold act_single. intros E. apply bind_ok in E as (c & _ & E). eapply command_acted; exact E. Qed.
Lemma act_multi_acted s draws ids : forall acts rd rd', act_multi s draws rd ids acts = Ok rd' -> acted rd rd'.
Proof.
  induction ids as [|id ids IH]; intros [|a acts] rd rd' E; cbn in E; try (injection E as <-; apply acted_refl).
  apply bind_ok in E as (rd1 & E1 & E). eapply acted_trans; [eapply act_single_acted; exact E1 | eapply IH; exact E].
Qed.
Lemma action_act_acted t draws rd ids a rd' : action_act t draws rd ids a = Ok rd' -> acted rd rd'.
Proof.
  destruct t as [s|s]; cbn.
  - destruct ids as [|id ids]; [intros E; apply bind_ok in E as (c & _ & E); discriminate | apply act_single_acted].
  - destruct a; try discriminate. apply act_multi_acted.
Qed.

Definition road_ready' (reg : bool) (rd : road) : Prop := if reg then regulated rd else runnable rd.
Lemma road_ready_runnable reg rd : road_ready' reg rd -> runnable rd.
Proof. destruct reg; cbn; [intros [H _]; exact H | easy]. Qed.
Definition kinds_ok (k : vkind) (ids : list nat) (rd : road) : Prop := 
  forall v, In v (rd_vehicles rd) -> In (v_id v) ids -> v_kind v = k.
Lemma acted_kinds_ok k ids rd rd' : acted rd rd' -> kinds_ok k ids rd -> kinds_ok k ids rd'.
Proof.
  intros A H v Hv I. destruct (acted_kinds _ _ A v Hv) as (w & Hw & Sm). unfold same_vehicle in Sm.
  assert (Ei : v_id v = v_id w) by tauto. assert (Ek : v_kind v = v_kind w) by tauto. rewrite Ek. apply H; [exact Hw|]. now rewrite <- Ei.
Qed.
Lemma act_single_total reg s draw rd id a : draw_ok draw -> road_ready' reg rd -> in_space s a -> kinds_ok (vehicle_class s) [id] rd ->
  exists rd', act_single s draw rd id a = Ok rd' /\ road_ready' reg rd'.
Proof.
  intros D Rd I K. unfold act_single. destruct (space_command s a I) as (c & -> & Ac). cbn [bind].
  destruct (command_runnable rd draw id c D (road_ready_runnable _ _ Rd)) as (rd' & E & Rn).
  { intros v Hv Ev. rewrite (K v Hv) by (now left). exact Ac. }
  exists rd'. split; [exact E|]. destruct reg; cbn in *; [|exact Rn]. eapply command_regulated; eassumption.
Qed.
Lemma act_multi_total reg s draws ids : (forall i, draw_ok (draws i)) -> forall acts rd, road_ready' reg rd -> Forall (in_space s) acts -> kinds_ok (vehicle_class s) ids rd ->
  exists rd', act_multi s draws rd ids acts = Ok rd' /\ road_ready' reg rd'.
Proof.
  intros D. induction ids as [|id ids IH]; intros [|a acts] rd Rd F K; cbn; try (eexists; split; [reflexivity | assumption]).
  inversion F; subst. destruct (act_single_total reg s (draws id) rd id a (D id) Rd H1) as (rd1 & E1 & R1).
  { intros v Hv [Ev|[]]. apply K; [exact Hv | now left]. }
  rewrite E1. cbn [bind]. apply IH; [exact R1 | exact H2|]. eapply acted_kinds_ok; [eapply act_single_acted; exact E1|].
  intros v Hv I. apply K; [exact Hv | now right].
Qed.
Lemma action_act_total reg t draws rd ids a : (forall i, draw_ok (draws i)) -> road_ready' reg rd -> ids <> [] ->
  in_action_space t (List.length ids) a -> kinds_ok (vehicle_class (agent_of t)) ids rd ->
  exists rd', action_act t draws rd ids a = Ok rd' /\ road_ready' reg rd'.
Proof.
  intros D Rd Ne I K. destruct t as [s|s]; cbn in *.
  - destruct ids as [|id ids]; [easy|]. apply act_single_total; auto. intros v Hv [Ev|[]]. apply K; [exact Hv | now left].
  - destruct a as [|x|l]; try tauto. destruct I as [_ F]. now apply act_multi_total.
Qed.

(** ** Who receives what *)
Lemma command_other rd draw id c rd' j v : command_vehicle rd draw id c = Ok rd' -> nth_error (rd_vehicles rd) j = Some v -> v_id v <> id ->
  nth_error (rd_vehicles rd') j = Some v.
Proof.
  unfold command_vehicle. intros E N H. destruct (rank_of id (rd_vehicles rd)) as [k|] eqn:Rk; [|injection E as <-; exact N].
  destruct (rank_of_some _ _ _ Rk) as (w & Nw & Ew). rewrite Nw in E. apply bind_ok in E as (v' & A & E). injection E as <-. cbn.
  rewrite nth_update_other; [exact N|]. intros ->. congruence.
Qed.
Lemma command_self rd draw id c rd' j v : NoDup (map v_id (rd_vehicles rd)) -> command_vehicle rd draw id c = Ok rd' -> nth_error (rd_vehicles rd) j = Some v -> v_id v = id ->
  exists v', vehicle_command rd draw v c = Ok v' /\ nth_error (rd_vehicles rd') j = Some v'.
Proof.
  intros Nd E N H. unfold command_vehicle in E. rewrite (rank_of_nth id _ j v Nd N H), N in E. apply bind_ok in E as (v' & A & E). injection E as <-.
  exists v'. split; [exact A|]. cbn. eapply nth_update_same; exact N.
Qed.
Lemma act_multi_other s draws ids : forall acts rd rd' j v, act_multi s draws rd ids acts = Ok rd' ->
  nth_error (rd_vehicles rd) j = Some v -> ~ In (v_id v) (firstn (List.length acts) ids) -> nth_error (rd_vehicles rd') j = Some v.
Proof.
  induction ids as [|id ids IH]; intros [|a acts] rd rd' j v E N H; cbn in E; try (injection E as <-; exact N).
  apply bind_ok in E as (rd1 & E1 & E). cbn in H. unfold act_single in E1. apply bind_ok in E1 as (c & _ & E1).
  eapply IH; [exact E | | tauto]. eapply command_other; [exact E1 | exact N | intros Q; apply H; now left].
Qed.
Lemma act_multi_self s draws ids : forall acts rd rd' i id a j v, act_multi s draws rd ids acts = Ok rd' -> NoDup (map v_id (rd_vehicles rd)) -> NoDup ids ->
  nth_error ids i = Some id -> nth_error acts i = Some a -> nth_error (rd_vehicles rd) j = Some v -> v_id v = id ->
  exists rdm c v', acted rd rdm /\ nth_error (rd_vehicles rdm) j = Some v /\ single_command s a = Ok c /\
    vehicle_command rdm (draws id) v c = Ok v' /\ nth_error (rd_vehicles rd') j = Some v'.
Proof.
  induction ids as [|id0 ids IH]; intros [|a0 acts] rd rd' i id a j v E Nd Ni Hi Ha N Ev; try (destruct i; discriminate).
  cbn in E. apply bind_ok in E as (rd1 & E1 & E). inversion Ni as [|? ? Q1 Q2]; subst. destruct i as [|i]; cbn in Hi, Ha.
  - injection Hi as Hi. injection Ha as Ha. subst. unfold act_single in E1. apply bind_ok in E1 as (c & Ec & E1).
    destruct (command_self _ _ _ _ _ _ _ Nd E1 N eq_refl) as (v' & A & N').
    exists rd, c, v'. split; [apply acted_refl|]. split; [exact N|]. split; [exact Ec|]. split; [exact A|].
    pose proof (vehicle_command_same _ _ _ _ _ A) as Sm. eapply act_multi_other; [exact E | exact N'|].
    intros I. apply Q1. replace (v_id v') with (v_id v) in I by (symmetry; unfold same_vehicle in Sm; tauto).
    rewrite <- (firstn_skipn (List.length acts) ids). apply in_or_app. now left.
  - assert (N1 : nth_error (rd_vehicles rd1) j = Some v).
    { unfold act_single in E1. apply bind_ok in E1 as (c & _ & E1). eapply command_other; [exact E1 | exact N|].
      intros Q. apply Q1. rewrite <- Q. eapply nth_error_In; exact Hi. }
    pose proof (act_single_acted _ _ _ _ _ _ E1) as A1.
    destruct (IH acts rd1 rd' i (v_id v) a j v E) as (rdm & c & v' & Am & Nm & Ec & Ac & N'); auto.
    { rewrite (acted_ids _ _ A1). exact Nd. }
    exists rdm, c, v'. split; [eapply acted_trans; eassumption|]. tauto.
Qed.
Lemma vehicle_command_net rd rdm draw v c : rd_net rdm = rd_net rd -> is_idm (v_kind v) = false -> vehicle_command rdm draw v c = vehicle_command rd draw v c.
Proof. unfold vehicle_command. intros ->. destruct (v_kind v); cbn; congruence. Qed.
