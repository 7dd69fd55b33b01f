(** C41, C31: available actions, and what unavailable ones do. *)
From Verif Require Import Prelude M_Utils M_Lane M_Road M_Vehicle M_Kinematics M_Control M_Behavior M_Regulation M_Action M_Env M_Scenes
  S_Geometry S_Road S_Vehicle S_Control S_Behavior S_Regulation S_Env P_Base P_Utils P_Lane P_Graph P_Bfs P_Query P_Kin P_Crash P_Control P_Behavior P_Traffic P_Regulation P_Action P_Env P_Scenes
  T_Kin T_Control T_Behavior T_Action T_Env.
From Coq Require Import Lia Lra.
Open Scope R_scope.

(** ** C41 *)
(** The lane [k + delta] of the road exists and can be reached from [p]: it is not
    forbidden, at most two lane widths away, and [p] is alongside it. *)
Definition open_lane (g : graph) (x y : string) (k delta : Z) (p : vec) : Prop :=
  exists k' l, Z.of_nat k' = (k + delta)%Z /\ has_lane g x y k' l /\ l_forbidden l = false /\
    Rabs (snd (l_local l p)) <= 2 * l_width l /\ 0 <= fst (l_local l p) < l_length l + 5.
(** What makes each action available for the vehicle [v]. *)
Definition executable (g : graph) (v : vehicle) (x y : string) (k : Z) (m : meta_action) : Prop :=
  match m with
  | IDLE => True
  | LANE_LEFT => open_lane g x y k (-1) (v_pos v)
  | LANE_RIGHT => open_lane g x y k 1 (v_pos v)
  | FASTER => (v_speed_index v < sg_count (v_grid v) - 1)%Z
  | SLOWER => (0 < v_speed_index v)%Z
  end.
Lemma open_lane_dec g x y k delta p ls : g_lanes g x y = Ok ls ->
  (forall l, get_lane g (x, y, Some (k + delta)%Z) = Ok l -> (0 <= k + delta)%Z -> open_lane g x y k delta p <-> is_reachable_from l p = true) /\
  (~ (0 <= k + delta < Z.of_nat (List.length ls))%Z -> ~ open_lane g x y k delta p).
Proof.
  intros G. split.
  - intros l Gl Hk. assert (has_lane g x y (Z.to_nat (k + delta)) l) as H.
    { apply (get_lane_has g (x, y, Some (k + delta)%Z)); [cbn; rewrite Z2Nat.id by lia; reflexivity | exact Gl]. }
    rewrite reachable_iff. split.
    + intros (k' & l' & E & H' & R). assert (k' = Z.to_nat (k + delta)) as -> by lia. rewrite (has_lane_fun _ _ _ _ _ _ H' H) in R. exact R.
    + intros R. exists (Z.to_nat (k + delta)), l. split; [lia|]. split; [exact H | exact R].
  - intros N (k' & l' & E & H' & _). apply has_lane_g in H' as (ls' & G' & N'). rewrite G in G'. injection G' as <-.
    assert (k' < List.length ls)%nat by (apply nth_error_Some; congruence). lia.
Qed.
(** With at least one axis enabled and the ego vehicle on an existing lane, the
    listed indices are, without duplicates, exactly those of the executable labels. *)
Theorem C41_exact : forall sc e v lo la t x y k, sc_action sc = Single (Discrete lo la) -> meta_table lo la = Ok t ->
  ego e = Ok v -> v_lane_index v = (x, y, Some k) -> lane_exists (rd_net (e_road e)) (v_lane_index v) ->
  exists acts, get_available_actions sc e = Ok acts /\ NoDup acts /\
    forall i, In i acts <-> exists m, action_of t i = Ok m /\ executable (rd_net (e_road e)) v x y k m.
Proof.
  intros sc e v lo la t x y k Sa Mt Ev Li Lx. unfold get_available_actions. rewrite Sa, Mt. cbn [bind].
  destruct (lane_exists_form _ _ Lx) as (x' & y' & kn & Lf). rewrite Li in Lf. injection Lf as <- <- ->.
  rewrite Li in Lx. apply lane_exists_len in Lx as (ls & G & Hk). set (g := rd_net (e_road e)) in *.
  assert (Sd : side_lanes g (x, y, Some (Z.of_nat kn)) =
     Ok ((if (0 <? Z.of_nat kn)%Z then [(x, y, Some (Z.of_nat kn + -1)%Z)] else []) ++ (if (Z.of_nat kn <? Z.of_nat (List.length ls) - 1)%Z then [(x, y, Some (Z.of_nat kn + 1)%Z)] else []))).
  { unfold side_lanes. cbn [li_id li_from li_to fst snd]. rewrite G. reflexivity. }
  assert (GL : forall d, (0 <= Z.of_nat kn + d < Z.of_nat (List.length ls))%Z -> exists l, get_lane g (x, y, Some (Z.of_nat kn + d)%Z) = Ok l).
  { intros d Hd. destruct (nth_error ls (Z.to_nat (Z.of_nat kn + d))) as [l|] eqn:N; [|apply nth_error_None in N; lia]. exists l.
    replace (Z.of_nat kn + d)%Z with (Z.of_nat (Z.to_nat (Z.of_nat kn + d))) by lia. apply get_lane_nat. apply has_lane_g. eauto. }
  set (L := (if (0 <? Z.of_nat kn)%Z then match get_lane g (x, y, Some (Z.of_nat kn + -1)%Z) with Ok l => is_reachable_from l (v_pos v) | Err _ => false end else false)).
  set (R := (if (Z.of_nat kn <? Z.of_nat (List.length ls) - 1)%Z then match get_lane g (x, y, Some (Z.of_nat kn + 1)%Z) with Ok l => is_reachable_from l (v_pos v) | Err _ => false end else false)).
  set (F := (v_speed_index v <? sg_count (v_grid v) - 1)%Z). set (S := (0 <? v_speed_index v)%Z).
  assert (EL : executable g v x y (Z.of_nat kn) LANE_LEFT <-> L = true).
  { cbn [executable]. destruct (open_lane_dec g x y (Z.of_nat kn) (-1) (v_pos v) ls G) as [A B]. unfold L. destruct (Z.ltb_spec 0 (Z.of_nat kn)).
    - destruct (GL (-1)%Z ltac:(lia)) as [l El]. rewrite El. apply A; [exact El | lia].
    - split; [intros H'; elim (B ltac:(lia) H') | discriminate]. }
  assert (ER : executable g v x y (Z.of_nat kn) LANE_RIGHT <-> R = true).
  { cbn [executable]. destruct (open_lane_dec g x y (Z.of_nat kn) 1 (v_pos v) ls G) as [A B]. unfold R. destruct (Z.ltb_spec (Z.of_nat kn) (Z.of_nat (List.length ls) - 1)).
    - destruct (GL 1%Z ltac:(lia)) as [l El]. rewrite El. apply A; [exact El | lia].
    - split; [intros H'; elim (B ltac:(lia) H') | discriminate]. }
  assert (EF : executable g v x y (Z.of_nat kn) FASTER <-> F = true) by (cbn [executable]; unfold F; symmetry; apply Z.ltb_lt).
  assert (ES : executable g v x y (Z.of_nat kn) SLOWER <-> S = true) by (cbn [executable]; unfold S; symmetry; apply Z.ltb_lt).
  rewrite Ev. 
  assert (Fo : forall il ir acc, (la = true -> index_of t LANE_LEFT = Ok il /\ index_of t LANE_RIGHT = Ok ir) ->
     foldM (available_lane e g v t la) ((if (0 <? Z.of_nat kn)%Z then [(x, y, Some (Z.of_nat kn + -1)%Z)] else []) ++ (if (Z.of_nat kn <? Z.of_nat (List.length ls) - 1)%Z then [(x, y, Some (Z.of_nat kn + 1)%Z)] else [])) acc
     = Ok (acc ++ (if L && la then [il] else []) ++ (if R && la then [ir] else []))).
  { intros il ir acc I.
    assert (A1 : forall acc, (0 <? Z.of_nat kn)%Z = true -> available_lane e g v t la acc (x, y, Some (Z.of_nat kn + -1)%Z) = Ok (acc ++ (if L && la then [il] else []))).
    { intros acc0 H. unfold available_lane, L. rewrite Li, H. cbn [li_id snd]. apply Z.ltb_lt in H. destruct (GL (-1)%Z ltac:(lia)) as [l El]. rewrite El. cbn [bind].
      destruct (is_reachable_from l (v_pos v) && la) eqn:Q; [|now rewrite app_nil_r]. apply andb_true_iff in Q as [_ Q]. destruct (I Q) as [-> _]. cbn [bind].
      rewrite (proj2 (Z.ltb_lt _ _)) by lia. rewrite (proj2 (Z.ltb_ge _ _)) by lia. cbn [bind]. now rewrite app_nil_r. }
    assert (A2 : forall acc, (Z.of_nat kn <? Z.of_nat (List.length ls) - 1)%Z = true -> available_lane e g v t la acc (x, y, Some (Z.of_nat kn + 1)%Z) = Ok (acc ++ (if R && la then [ir] else []))).
    { intros acc0 H. unfold available_lane, R. rewrite Li, H. cbn [li_id snd]. apply Z.ltb_lt in H. destruct (GL 1%Z ltac:(lia)) as [l El]. rewrite El. cbn [bind].
      destruct (is_reachable_from l (v_pos v) && la) eqn:Q; [|now rewrite app_nil_r]. apply andb_true_iff in Q as [_ Q]. destruct (I Q) as [_ ->]. cbn [bind].
      rewrite (proj2 (Z.ltb_ge _ _)) by lia. rewrite (proj2 (Z.ltb_lt _ _)) by lia. cbn [bind]. reflexivity. }
    destruct (Z.ltb 0 (Z.of_nat kn)) eqn:H1; destruct (Z.ltb (Z.of_nat kn) (Z.of_nat (List.length ls) - 1)) eqn:H2; cbn [app foldM].
    - rewrite A1 by reflexivity. cbn [bind]. rewrite A2 by reflexivity. cbn [bind]. now rewrite app_assoc.
    - rewrite A1 by reflexivity. cbn [bind]. unfold R. cbn. now rewrite app_nil_r.
    - rewrite A2 by reflexivity. cbn [bind]. unfold L. reflexivity.
    - unfold L, R. cbn. now rewrite app_nil_r. }
  assert (HF : (v_speed_index v <? sg_count (v_grid v) - 1)%Z = F) by reflexivity. assert (HS : (0 <? v_speed_index v)%Z = S) by reflexivity.
  clearbody L R F S.
  unfold meta_table in Mt. destruct lo, la; cbn [andb] in Mt; try discriminate; injection Mt as <-; cbn [bind index_of find meta_eqb fst snd ACTIONS_ALL ACTIONS_LONGI ACTIONS_LAT].
  - rewrite Li. fold g. rewrite HF, HS, Sd. cbn [bind]. rewrite (Fo 0%Z 2%Z) by (intros _; split; reflexivity). cbn [bind]. rewrite !andb_true_r.
    destruct L, R, F, S; cbn [bind app]; (eexists; split; [reflexivity|]; split; [repeat constructor; cbn; lia|]; intros i; cbn [In]; split;
      [intros H; repeat destruct H as [<- |H]; try contradiction; cbn; eexists; (split; [reflexivity|]); cbn; tauto
      |intros (m & Hm & Hx); unfold action_of in Hm; cbn [find ACTIONS_ALL fst snd] in Hm;
       repeat match type of Hm with context [if Z.eqb ?a i then _ else _] => destruct (Z.eqb_spec a i) as [<- |]; [injection Hm as <-|] end; try discriminate; try tauto;
       first [apply EL in Hx | apply ER in Hx | apply EF in Hx | apply ES in Hx]; discriminate]).
  - rewrite Li. fold g. rewrite HF, HS, Sd. cbn [bind]. rewrite (Fo 0%Z 0%Z) by discriminate. rewrite !andb_false_r, !andb_true_r. cbn [bind app].
    destruct F, S; cbn [bind app]; (eexists; split; [reflexivity|]; split; [repeat constructor; cbn; lia|]; intros i; cbn [In]; split;
      [intros H; repeat destruct H as [<- |H]; try contradiction; cbn; eexists; (split; [reflexivity|]); cbn; tauto
      |intros (m & Hm & Hx); unfold action_of in Hm; cbn [find ACTIONS_LONGI fst snd] in Hm;
       repeat match type of Hm with context [if Z.eqb ?a i then _ else _] => destruct (Z.eqb_spec a i) as [<- |]; [injection Hm as <-|] end; try discriminate; try tauto;
       first [apply EF in Hx | apply ES in Hx]; discriminate]).
  - rewrite Li. fold g. rewrite HF, HS, Sd. cbn [bind]. rewrite (Fo 0%Z 2%Z) by (intros _; split; reflexivity). rewrite !andb_false_r, !andb_true_r. cbn [bind app].
    destruct L, R; cbn [bind app]; (eexists; split; [reflexivity|]; split; [repeat constructor; cbn; lia|]; intros i; cbn [In]; split;
      [intros H; repeat destruct H as [<- |H]; try contradiction; cbn; eexists; (split; [reflexivity|]); cbn; tauto
      |intros (m & Hm & Hx); unfold action_of in Hm; cbn [find ACTIONS_LAT fst snd] in Hm;
       repeat match type of Hm with context [if Z.eqb ?a i then _ else _] => destruct (Z.eqb_spec a i) as [<- |]; [injection Hm as <-|] end; try discriminate; try tauto;
       first [apply EL in Hx | apply ER in Hx]; discriminate]).
Qed.
Print Assumptions C41_exact.
(** Other action types have no available actions. *)
Theorem C41_discrete_only : forall sc e, (forall lo la, sc_action sc <> Single (Discrete lo la)) -> get_available_actions sc e = Err ValueError.
Proof. intros sc e H. unfold get_available_actions. destruct (sc_action sc) as [[lo la|c]|s]; [elim (H lo la); reflexivity | reflexivity | reflexivity]. Qed.
Print Assumptions C41_discrete_only.
Example C41_nonvacuous : exists v acts, ego demo_env = Ok v /\ lane_exists (rd_net (e_road demo_env)) (v_lane_index v) /\
  get_available_actions demo_scenario demo_env = Ok acts /\ In 1%Z acts /\ In 3%Z acts /\ In 4%Z acts /\ ~ In 0%Z acts.
Proof.
  destruct (ready_ego _ _ demo_ready) as (v & Ev & _ & _ & L). exists v.
  assert (v = with_id (demo_controlled KMDP (0, 0) 20 25 0) 1) as -> by (cbn in Ev; congruence).
  destruct (C41_exact demo_scenario demo_env _ true true ACTIONS_ALL "0" "1" 0%Z eq_refl eq_refl Ev eq_refl L) as (acts & E & _ & H).
  exists acts. split; [exact Ev|]. split; [exact L|]. split; [exact E|]. split; [|split; [|split]].
  - apply H. exists IDLE. split; [reflexivity | exact I].
  - apply H. exists FASTER. split; [reflexivity | cbn; lia].
  - apply H. exists SLOWER. split; [reflexivity | cbn; lia].
  - intros C. apply H in C as (m & Em & X). cbn in Em. injection Em as <-. destruct X as (k' & _ & Hk & _). lia.
Qed.

(** ** C31: unavailable actions *)
Lemma set_target_lane_id v : set_target_lane v (v_target_lane v) = v.
Proof. now destruct v. Qed.
Lemma mdp_set_same v : grid_ok v -> mdp_set_index v (v_speed_index v) = v.
Proof.
  intros [K T]. unfold mdp_set_index. rewrite Zclip_id by lia. destruct v. cbn in *. rewrite <- T. reflexivity.
Qed.
(** A lane change that is not available, asked when the vehicle is not already
    changing lane and has not passed the end of its lane, does exactly what IDLE does. *)
Theorem C31_unavailable_lane_change : forall g draw v x y k l m, v_lane_index v = (x, y, Some (Z.of_nat k)) -> v_target_lane v = v_lane_index v ->
  has_lane g x y k l -> fst (l_local l (v_pos v)) <= l_length l - 5/2 -> m = LANE_LEFT \/ m = LANE_RIGHT ->
  ~ executable g v x y (Z.of_nat k) m -> mdp_act g draw v (Some m) = mdp_act g draw v (Some IDLE).
Proof.
  intros g draw v x y k l m Li Tl HL BE Hm N. rewrite Li in Tl.
  assert (F1 : follow_road g draw v = Ok v).
  { unfold follow_road. rewrite Tl, (get_lane_nat _ _ _ _ _ HL). cbn [bind]. unfold after_end, LANE_VEHICLE_LENGTH. rewrite Rltb_ge by lra. reflexivity. }
  assert (X : lane_exists g (x, y, Some (Z.of_nat k))) by (exists k, l; easy).
  assert (Q : exists delta, (delta = 1 \/ delta = -1)%Z /\ apply_meta g v (Some m) = try_lane_change g v delta /\ ~ open_lane g x y (Z.of_nat k) delta (v_pos v)).
  { destruct Hm as [-> | ->]; [exists (-1)%Z | exists 1%Z]; (split; [tauto|]); (split; [reflexivity | exact N]). }
  destruct Q as (delta & Hd & Am & No). destruct (try_lane_change_spec g v x y k delta X Tl Hd) as (v2 & E2 & _ & Sh & Sp).
  assert (v2 = v) as ->.
  { destruct Sp as [(l' & A1 & A2 & A3 & _)|[A1 _]].
    - elim No. apply reachable_iff in A3. exists (Z.to_nat (Z.of_nat k + delta)), l'. split; [lia|]. tauto.
    - destruct Sh as [Sh|Sh]; [exact Sh|]. rewrite Sh, A1. apply set_target_lane_id. }
  assert (M : mdp_act g draw v (Some m) = controlled_act g draw v (Some m)) by (destruct Hm as [-> | ->]; reflexivity). rewrite M. cbn [mdp_act].
  unfold controlled_act. rewrite F1. cbn [bind]. rewrite Am, E2. reflexivity.
Qed.
Print Assumptions C31_unavailable_lane_change.
(** In the middle of a lane change this fails: availability looks at the current
    lane, execution at the target lane.  Here LANE_LEFT is not listed (the vehicle
    is on the leftmost lane) but cancels the ongoing change to the right. *)
Theorem C31_unavailable_lane_change_midway : forall draw, draw_ok draw ->
  let v := set_target_lane (demo_controlled KMDP (0, 0) 20 25 0) ("0", "1", Some 1%Z)%string in
  ~ executable demo_net v "0" "1" 0 LANE_LEFT /\
  (exists w, mdp_act demo_net draw v (Some LANE_LEFT) = Ok w /\ v_target_lane w = ("0", "1", Some 0%Z)%string) /\
  (exists w, mdp_act demo_net draw v (Some IDLE) = Ok w /\ v_target_lane w = ("0", "1", Some 1%Z)%string).
Proof.
  intros draw D v. split; [|split].
  - intros (k' & _ & H & _). lia.
  - assert (T : targets_ok demo_net v) by (exact (demo_targets KMDP (0, 0) 20 25 1 ltac:(lia))).
    destruct (mdp_act_total demo_net draw v (Some LANE_LEFT) (wf_built _ demo_built) D T) as (w & E & _). exists w. split; [exact E|].
    destruct (straight_network_local 3 1 1000 (v_pos v) ltac:(lra)) as [A B].
    destruct (C29_lane_change mdp_act demo_net draw v (Some LANE_LEFT) (-1) "0" "1" 1%nat _ w (or_intror eq_refl) (or_intror (conj eq_refl eq_refl)) eq_refl (demo_lane 1 ltac:(lia))) as [H _]; [ | exact E |].
    { rewrite A, B. cbn. lra. }
    apply H. exists 0%nat, (straight_network_lane 3 0 1000 0). split; [reflexivity|]. split; [exact (demo_lane 0 ltac:(lia))|].
    apply reachable_iff. destruct (straight_network_local 3 0 1000 (v_pos v) ltac:(lra)) as [A0 B0]. rewrite A0, B0. cbn. unfold DEFAULT_WIDTH.
    split; [reflexivity|]. replace (0 - 4 * 0) with 0 by ring. rewrite Rabs_R0. lra.
  - assert (T : targets_ok demo_net v) by (exact (demo_targets KMDP (0, 0) 20 25 1 ltac:(lia))).
    destruct (mdp_act_total demo_net draw v (Some IDLE) (wf_built _ demo_built) D T) as (w & E & _). exists w. split; [exact E|].
    destruct (straight_network_local 3 1 1000 (v_pos v) ltac:(lra)) as [A B].
    change ("0", "1", Some 1%Z)%string with (v_target_lane v).
    apply (C29_other_actions_keep_lane mdp_act demo_net draw v (Some IDLE) (straight_network_lane 3 1 1000 0) w (or_intror eq_refl)); [discriminate | discriminate | apply (demo_get 1); lia | rewrite A, B; cbn; lra | exact E].
Qed.
Print Assumptions C31_unavailable_lane_change_midway.
(** FASTER at the top level: the same as IDLE exactly if the actual speed is nearest
    to one of the two top levels; otherwise it lowers the target speed. *)
Theorem C31_unavailable_faster : forall g draw v, (1 <= sg_count (v_grid v))%Z -> sg_min (v_grid v) < sg_max (v_grid v) -> grid_ok v ->
  v_speed_index v = (sg_count (v_grid v) - 1)%Z ->
  ((sg_count (v_grid v) - 2 <= speed_to_index (v_grid v) (v_speed v))%Z -> mdp_act g draw v (Some FASTER) = mdp_act g draw v (Some IDLE)) /\
  ((speed_to_index (v_grid v) (v_speed v) < sg_count (v_grid v) - 2)%Z ->
     forall w, mdp_act g draw v (Some FASTER) = Ok w -> v_target_speed w < v_target_speed v /\ (v_speed_index w < v_speed_index v)%Z).
Proof.
  intros g draw v H Hm Gk Top. pose proof (speed_to_index_range (v_grid v) (v_speed v) H) as R. split.
  - intros L. cbn [mdp_act]. assert (mdp_set_index v (speed_to_index (v_grid v) (v_speed v) + 1) = v) as ->.
    { rewrite <- (mdp_set_same v Gk) at 4. unfold mdp_set_index.
      assert (Zclip (speed_to_index (v_grid v) (v_speed v) + 1) 0 (sg_count (v_grid v) - 1) = Zclip (v_speed_index v) 0 (sg_count (v_grid v) - 1)) as -> by (unfold Zclip; lia). reflexivity. }
    unfold controlled_act. destruct (follow_road g draw v); reflexivity.
  - intros L w E. destruct (C30_faster_from_actual_speed g draw v w H E) as [A B]. rewrite Z.min_l in A by lia. destruct Gk as [K T]. rewrite A.
    split; [|lia]. rewrite T, B, A, Top. apply index_to_speed_lt; lia || lra.
Qed.
Print Assumptions C31_unavailable_faster.
(** SLOWER at the bottom level, likewise: it can raise the target speed. *)
Theorem C31_unavailable_slower : forall g draw v, (1 <= sg_count (v_grid v))%Z -> sg_min (v_grid v) < sg_max (v_grid v) -> grid_ok v ->
  v_speed_index v = 0%Z ->
  ((speed_to_index (v_grid v) (v_speed v) <= 1)%Z -> mdp_act g draw v (Some SLOWER) = mdp_act g draw v (Some IDLE)) /\
  ((1 < speed_to_index (v_grid v) (v_speed v))%Z ->
     forall w, mdp_act g draw v (Some SLOWER) = Ok w -> v_target_speed v < v_target_speed w /\ (v_speed_index v < v_speed_index w)%Z).
Proof.
  intros g draw v H Hm Gk Bot. pose proof (speed_to_index_range (v_grid v) (v_speed v) H) as R. split.
  - intros L. cbn [mdp_act]. assert (mdp_set_index v (speed_to_index (v_grid v) (v_speed v) - 1) = v) as ->.
    { rewrite <- (mdp_set_same v Gk) at 4. unfold mdp_set_index.
      assert (Zclip (speed_to_index (v_grid v) (v_speed v) - 1) 0 (sg_count (v_grid v) - 1) = Zclip (v_speed_index v) 0 (sg_count (v_grid v) - 1)) as -> by (unfold Zclip; lia). reflexivity. }
    unfold controlled_act. destruct (follow_road g draw v); reflexivity.
  - intros L w E. destruct (C30_slower_from_actual_speed g draw v w H E) as [A B]. rewrite Z.max_l in A by lia. destruct Gk as [K T]. rewrite A.
    split; [|lia]. rewrite T, B, A, Bot. apply index_to_speed_lt; lia || lra.
Qed.
Print Assumptions C31_unavailable_slower.
(** Top target level (30 m/s), actual speed 20 m/s: FASTER is not available, and
    lowers the target to 25 m/s. *)
Example C31_nonvacuous : forall draw, draw_ok draw ->
  let v := set_speed_index (demo_controlled KMDP (0, 0) 20 30 0) 2 in
  grid_ok v /\ ~ executable demo_net v "0" "1" 0 FASTER /\ exists w, mdp_act demo_net draw v (Some FASTER) = Ok w /\ v_target_speed w = 25.
Proof.
  intros draw D v. split; [split; [cbn; lia | unfold index_to_speed; cbn; lra]|]. split; [cbn; lia|].
  assert (T : targets_ok demo_net v) by (exact (demo_targets KMDP (0, 0) 20 25 0 ltac:(lia))).
  destruct (mdp_act_total demo_net draw v (Some FASTER) (wf_built _ demo_built) D T) as (w & E & _). exists w. split; [exact E|].
  destruct (C30_faster_from_actual_speed demo_net draw v w ltac:(cbn; lia) E) as [A B].
  assert (S0 : speed_to_index (v_grid v) (v_speed v) = 0%Z).
  { unfold speed_to_index, Rround_even. cbn. replace ((20 - 20) / (30 - 20) * 2) with 0 by field. rewrite (Rfloor_IZR 0).
    rewrite (proj2 (Rltb_true _ _)) by (cbn; lra). reflexivity. }
  rewrite S0 in A. rewrite B, A. unfold index_to_speed. cbn. lra.
Qed.
