(** C115: what an agent shows - its plan and its panel. *)
From Coq Require Import Lia Lra.
From Verif Require Import Prelude M_Utils M_Lane M_Road M_Vehicle M_Kinematics M_Control M_Behavior M_Regulation M_Action M_Env M_Scenes M_Nets M_Graphics M_Agent
  S_Geometry S_Road S_Vehicle S_Control S_Behavior S_Regulation S_Env S_Reset S_Repro S_Chance S_Agent
  P_Base P_Utils P_Lane P_Crash P_Control P_Behavior P_Traffic P_Action P_Env P_Repro P_Chance P_Agent T_Kin T_Control T_Behavior T_Action T_Env.
Import ListNotations.
Open Scope R_scope.

(** ** Predictions *)
(** Every episode whose steps all run to their end can be filmed, and the film ends where
    the episode does. *)
Lemma runs_shots sc o n e e' : runs sc o n e e' -> exists l, shots sc o n e l /\ forall d, last l d = e'.
Proof.
  induction 1 as [e e' A|k e e1 e' A _ _ R (l & Sh & La)]; [exists [e']; split; [econstructor; [exact A | constructor] | reflexivity]|].
  exists (e1 :: l). split; [econstructor; eassumption|]. intros d. rewrite last_cons. apply La.
Qed.
Theorem C115_film : forall sc e acts trace, (0 < frames_per_step sc)%Z -> sc_manual sc = false -> (e_time e mod frames_per_step sc = 0)%Z ->
  episode sc e acts trace -> e_time (last trace e) = (e_time e + frames_per_step sc * Z.of_nat (List.length acts))%Z ->
  exists l, film sc e acts l /\ last l e = last trace e /\ List.length l = (Z.to_nat (frames_per_step sc) * List.length acts)%nat.
Proof.
  intros sc e acts trace Hn Hm Ht Ep. induction Ep as [e|e o a acts e1 trace O E Ep IH]; intros T.
  - exists []. split; [constructor|]. split; [reflexivity|]. cbn. lia.
  - cbn [List.length] in T |- *. rewrite last_cons in T |- *. destruct (C39_step sc o e a e1 _ eq_refl Hn Hm Ht E) as (e0 & j & A & Hj & R & _ & Tj & _).
    assert (B : (e_time (last trace e1) <= e_time e1 + frames_per_step sc * Z.of_nat (List.length acts))%Z).
    { clear - Ep Hn. induction Ep as [e|e o a acts e1 trace O E Ep IH]; [cbn; lia|]. cbn [List.length]. rewrite last_cons.
      apply env_step_frames in E as (E & _). apply simulate_frames_persists in E as (_ & _ & _ & _ & B). cbn [e_time] in B. lia. }
    assert (J : Z.of_nat j = frames_per_step sc) by lia.
    destruct (runs_shots _ _ _ _ _ R) as (l & Sh & La).
    destruct IH as (l' & Fl & Ll & Le); [rewrite Tj, J; rewrite Z.add_mod, Z.mod_same, Ht by lia; reflexivity | lia|].
    exists (l ++ l')%list. split; [apply (film_step sc e o a acts e0 l l'); [exact O | exact A | replace (Z.to_nat (frames_per_step sc)) with j by lia; exact Sh | rewrite La; exact Fl]|]. split.
    + rewrite <- Ll. destruct l' as [|x l'] using rev_ind; [rewrite app_nil_r; cbn [last]; now rewrite La|]. now rewrite app_assoc, !last_last.
    + rewrite app_length, Le, (shots_length _ _ _ _ _ Sh). lia.
Qed.
Print Assumptions C115_film.
(** [predict_trajectory] predicts exactly: on a network without fork, if the (first) agent
    takes the actions and does not crash, then whatever the traffic and the other agents do,
    whatever is drawn and whether histories are recorded or not, the states returned are
    those of its vehicle at every [trajectory_timestep]. *)
Theorem C115_comes_true : forall sc lo la tb e v acts ms l draw sampling,
  agent_of (sc_action sc) = Discrete lo la -> meta_table lo la = Ok tb -> sc_regulated sc = false -> NoDup (e_controlled e) ->
  one_way_out (rd_net (e_road e)) -> draw_ok draw -> 0 < sc_policy sc -> 0 < sc_simulation sc -> 1 / sc_simulation sc <= sampling ->
  ego e = Ok v -> v_kind v = KMDP -> Forall2 (fun a m => exists k, first_action (sc_action sc) a = Some k /\ action_of tb k = Ok m) acts ms -> film sc e acts l ->
  (forall f w, In f l -> ego f = Ok w -> v_crashed w = false) ->
  exists states, predict_trajectory (rd_net (e_road e)) draw v ms (1 / sc_policy sc) sampling (1 / sc_simulation sc) = Ok states /\
    Forall2 (fun f s => exists w, ego f = Ok w /\ same_state w s) (picked (Z.to_nat (Rfloor (sampling * sc_simulation sc))) 0 l) states.
Proof.
  intros sc lo la tb e v acts ms l draw sampling T TB Reg Nd W D Hp Hs Hd E K F Fl C.
  assert (Q1 : sampling / (1 / sc_simulation sc) = sampling * sc_simulation sc) by (field; lra).
  assert (Q2 : 1 / sc_policy sc / (1 / sc_simulation sc) = sc_simulation sc / sc_policy sc) by (field; lra).
  assert (P1 : 1 <= sampling * sc_simulation sc).
  { apply (Rmult_le_compat_r (sc_simulation sc)) in Hd; [|lra]. replace (1 / sc_simulation sc * sc_simulation sc) with 1 in Hd by (field; lra). exact Hd. }
  assert (P2 : 0 <= sc_simulation sc / sc_policy sc) by (apply Rmult_le_pos; [lra | left; now apply Rinv_0_lt_compat]).
  unfold predict_trajectory. rewrite Q1, Q2. unfold Rtrunc. rewrite (proj2 (Rleb_true 0 (sampling * sc_simulation sc)) ltac:(lra)), (proj2 (Rleb_true 0 (sc_simulation sc / sc_policy sc)) P2). fold (frames_per_step sc).
  assert (F1 : (1 <= Rfloor (sampling * sc_simulation sc))%Z).
  { pose proof (Rfloor_bounds (sampling * sc_simulation sc)) as [_ B]. apply Z.lt_pred_le. apply lt_IZR. rewrite <- Z.sub_1_r, minus_IZR. lra. }
  assert (S1 : (0 < Z.to_nat (Rfloor (sampling * sc_simulation sc)))%nat) by lia.
  exact (actions_film sc _ draw lo la tb T TB Reg W D _ S1 e acts l Fl ms v v 0%nat F Nd eq_refl E K eq_refl C).
Qed.
Print Assumptions C115_comes_true.

(** ** Showing a plan *)
(** Outside the intersections the plan of an agent with discrete actions cannot be shown. *)
Theorem C115_fails_discrete : forall sc lo la draw e old a l, sc_action sc = Single (Discrete lo la) ->
  set_action_sequence false sc draw e old (a :: l) = Err AttributeError.
Proof. intros sc lo la draw e old a l T. unfold set_action_sequence, plan_labels. rewrite T. reflexivity. Qed.
Print Assumptions C115_fails_discrete.
(** Nor can that of an agent with continuous actions, from the second action on. *)
Theorem C115_fails_continuous : forall b sc c draw e old a a' l v, sc_action sc = Single (Continuous c) \/ sc_action sc = Multi (Continuous c) ->
  ego e = Ok v -> v_kind v = vehicle_class (Continuous c) -> set_action_sequence b sc draw e old (a :: a' :: l) = Err AttributeError.
Proof.
  intros b sc c draw e old a a' l v T E K. unfold set_action_sequence, plan_labels. cbn [vehicle_class] in K.
  destruct T as [-> | ->]; cbn [map bind List.length Nat.ltb Nat.leb]; rewrite E; cbn [bind]; rewrite K; destruct (ca_dynamical c); reflexivity.
Qed.
Print Assumptions C115_fails_continuous.
(** A plan of at most one action leaves the previous one on display. *)
Theorem C115_stale : forall b sc draw e old l out, (List.length l <= 1)%nat -> set_action_sequence b sc draw e old l = Ok out -> out = old.
Proof.
  intros b sc draw e old l out L E. unfold set_action_sequence in E. apply bind_ok in E as (ms & P & E).
  assert (Lm : List.length ms = List.length l).
  { unfold plan_labels in P. destruct (sc_action sc) as [[lo la|c]|s]; [|injection P as <-; apply map_length | injection P as <-; apply map_length].
    eapply P_Base.mapM_length. exact P. }
  rewrite Lm in E. destruct (Nat.ltb_spec 1 (List.length l)); [lia | congruence].
Qed.
Print Assumptions C115_stale.
(** With several agents only the number of actions matters: any plan is shown as if the
    first agent were going to stay idle. *)
Theorem C115_actions_ignored : forall b sc s draw e old l l', sc_action sc = Multi s -> List.length l = List.length l' ->
  set_action_sequence b sc draw e old l = set_action_sequence b sc draw e old l'.
Proof.
  intros b sc s draw e old l l' T L. unfold set_action_sequence, plan_labels. rewrite T. cbn [bind].
  assert (M : map (fun _ : agent_action => IDLE) l = map (fun _ => IDLE) l'); [|now rewrite M].
  revert l' L. induction l as [|a l IH]; intros [|a' l'] L; try discriminate; [reflexivity|]. cbn. f_equal. apply IH. now injection L.
Qed.
Print Assumptions C115_actions_ignored.
Theorem C115_idle : forall b sc s draw e old l v, sc_action sc = Multi s -> (2 <= List.length l)%nat -> ego e = Ok v -> v_kind v = KMDP -> sc_policy sc <> 0 -> sc_simulation sc <> 0 ->
  set_action_sequence b sc draw e old l =
    predict_trajectory (rd_net (e_road e)) draw v (repeat IDLE (List.length l)) (1 / sc_policy sc) (1 / 3 / sc_policy sc) (1 / sc_simulation sc).
Proof.
  intros b sc s draw e old l v T L E K Hp Hs. unfold set_action_sequence, plan_labels. rewrite T. cbn [bind]. rewrite map_length.
  destruct (Nat.ltb_spec 1 (List.length l)); [|lia]. rewrite E. cbn [bind]. rewrite K, !(proj2 (Reqb_false _ _)) by assumption.
  f_equal. clear. induction l; [reflexivity|]. cbn. now rewrite IHl.
Qed.
Print Assumptions C115_idle.
(** So with several agents, whatever the plan, what is shown is what will happen to the first
    agent if it stays idle during as many steps. *)
Theorem C115_shown_if_idle : forall b sc lo la tb e v l acts fs draw old, sc_action sc = Multi (Discrete lo la) -> meta_table lo la = Ok tb -> sc_regulated sc = false ->
  NoDup (e_controlled e) -> one_way_out (rd_net (e_road e)) -> draw_ok draw -> 0 < sc_policy sc -> 3 * sc_policy sc <= sc_simulation sc ->
  ego e = Ok v -> v_kind v = KMDP -> (2 <= List.length l)%nat -> List.length acts = List.length l ->
  (forall a, In a acts -> exists k, first_action (sc_action sc) a = Some k /\ action_of tb k = Ok IDLE) -> film sc e acts fs ->
  (forall f w, In f fs -> ego f = Ok w -> v_crashed w = false) ->
  exists states, set_action_sequence b sc draw e old l = Ok states /\
    Forall2 (fun f s => exists w, ego f = Ok w /\ same_state w s) (picked (Z.to_nat (Rfloor (sc_simulation sc / (3 * sc_policy sc)))) 0 fs) states.
Proof.
  intros b sc lo la tb e v l acts fs draw old T TB Reg Nd W D Hp Hs E K L La I Fl C.
  rewrite (C115_idle b sc (Discrete lo la) draw e old l v T L E K) by lra.
  replace (sc_simulation sc / (3 * sc_policy sc)) with (1 / 3 / sc_policy sc * sc_simulation sc) by (field; lra).
  apply (C115_comes_true sc lo la tb e v acts (repeat IDLE (List.length l)) fs draw (1 / 3 / sc_policy sc)); try assumption; [now rewrite T | lra | |].
  - apply (Rmult_le_reg_r (3 * sc_policy sc * sc_simulation sc)); [apply Rmult_lt_0_compat; lra|].
    replace (1 / sc_simulation sc * (3 * sc_policy sc * sc_simulation sc)) with (3 * sc_policy sc) by (field; lra).
    replace (1 / 3 / sc_policy sc * (3 * sc_policy sc * sc_simulation sc)) with (sc_simulation sc) by (field; lra). exact Hs.
  - rewrite <- La. clear - I. induction acts as [|a acts IH]; cbn; constructor; [apply I; now left | apply IH; intros x Hx; apply I; now right].
Qed.
Print Assumptions C115_shown_if_idle.
(** In the intersection, with its default actions on the speed, the plan is the prediction
    for the agent's actions... *)
Theorem C115_intersection : forall sc draw e old ks ms v, sc_action sc = Single (Discrete true false) -> (2 <= List.length ks)%nat -> ego e = Ok v -> v_kind v = KMDP ->
  sc_policy sc <> 0 -> sc_simulation sc <> 0 -> Forall2 (fun k m => single_command (Discrete true false) (ActInt k) = Ok (Label m)) ks ms ->
  set_action_sequence true sc draw e old (map ActInt ks) =
    predict_trajectory (rd_net (e_road e)) draw v ms (1 / sc_policy sc) (1 / 3 / sc_policy sc) (1 / sc_simulation sc).
Proof.
  intros sc draw e old ks ms v T L E K Hp Hs F. unfold set_action_sequence, plan_labels. rewrite T. cbn [env_ACTIONS].
  assert (M : mapM (fun a => match a with ActInt k => action_of ACTIONS_LONGI k | _ => Err TypeError end) (map ActInt ks) = Ok ms /\ List.length ms = List.length ks).
  { clear - F. induction F as [|k m ks ms H F [IH IL]]; [now split|]. split; [|cbn; now rewrite IL]. cbn [map mapM].
    unfold single_command in H. cbn [meta_table andb bind] in H. apply bind_ok in H as (x & H & Hx). assert (x = m) as -> by congruence. rewrite H. cbn [bind]. rewrite IH. reflexivity. }
  destruct M as [M Lm]. rewrite M. cbn [bind]. rewrite Lm. destruct (Nat.ltb_spec 1 (List.length ks)); [|lia]. rewrite E. cbn [bind]. rewrite K, !(proj2 (Reqb_false _ _)) by assumption. reflexivity.
Qed.
Print Assumptions C115_intersection.
(** ... but when lane changes are enabled there, the number 0 means LANE_LEFT for the
    vehicle and SLOWER for the plan, 2 LANE_RIGHT and FASTER, and 3 and 4 raise KeyError. *)
Theorem C115_intersection_mismatch :
  let meant k := single_command (Discrete true true) (ActInt k) in
  let planned k := plan_labels (env_ACTIONS true) (Single (Discrete true true)) [ActInt k] in
  (meant 0%Z = Ok (Label LANE_LEFT) /\ planned 0%Z = Ok [SLOWER]) /\ (meant 1%Z = Ok (Label IDLE) /\ planned 1%Z = Ok [IDLE]) /\
  (meant 2%Z = Ok (Label LANE_RIGHT) /\ planned 2%Z = Ok [FASTER]) /\
  (meant 3%Z = Ok (Label FASTER) /\ planned 3%Z = Err KeyError) /\ (meant 4%Z = Ok (Label SLOWER) /\ planned 4%Z = Err KeyError).
Proof. repeat split. Qed.
Print Assumptions C115_intersection_mismatch.
(** When a plan is displayed, it has this many states: three per action when the policy period is
    a multiple of three frames. *)
Theorem C115_states : forall b sc draw e old l out, 0 < sc_policy sc -> 3 * sc_policy sc <= sc_simulation sc -> (2 <= List.length l)%nat ->
  set_action_sequence b sc draw e old l = Ok out ->
  Z.of_nat (List.length out) = (frames_per_step sc * Z.of_nat (List.length l) / Rfloor (sc_simulation sc / (3 * sc_policy sc)))%Z.
Proof.
  intros b sc draw e old l out Hp Hs L E. unfold set_action_sequence in E. apply bind_ok in E as (ms & P & E).
  assert (Lm : List.length ms = List.length l).
  { unfold plan_labels in P. destruct (sc_action sc) as [[lo la|c]|s]; [|injection P as <-; apply map_length | injection P as <-; apply map_length].
    eapply P_Base.mapM_length. exact P. }
  rewrite Lm in E. destruct (Nat.ltb_spec 1 (List.length l)); [|lia]. apply bind_ok in E as (v & _ & E). destruct (v_kind v); try discriminate E.
  destruct (Reqb _ 0); [discriminate|]. destruct (Reqb _ 0); [discriminate|].
  assert (Pd : 0 < 1 / sc_simulation sc) by (apply Rdiv_lt_0_compat; lra).
  apply C62_trajectory_length in E; [|exact Pd | | left; apply Rdiv_lt_0_compat; lra].
  - rewrite Lm in E. rewrite E. unfold frames_per_step. f_equal; [f_equal|]; f_equal; field; lra.
  - apply (Rmult_le_reg_r (3 * sc_policy sc * sc_simulation sc)); [apply Rmult_lt_0_compat; lra|].
    replace (1 / sc_simulation sc * (3 * sc_policy sc * sc_simulation sc)) with (3 * sc_policy sc) by (field; lra).
    replace (1 / 3 / sc_policy sc * (3 * sc_policy sc * sc_simulation sc)) with (sc_simulation sc) by (field; lra). exact Hs.
Qed.
Print Assumptions C115_states.
(** With fewer than three frames per action no plan can be shown. *)
Lemma ticks_zero g draw dt n t v x : (1 <= n)%nat -> predict_ticks g draw dt 0 n t v <> Ok x.
Proof. destruct n as [|n]; [lia|]. intros _. cbn [predict_ticks]. destruct (predict_tick g draw dt v); discriminate. Qed.
Theorem C115_too_coarse : forall b sc draw e old l out, 0 < sc_policy sc <= sc_simulation sc -> sc_simulation sc < 3 * sc_policy sc -> (2 <= List.length l)%nat ->
  set_action_sequence b sc draw e old l <> Ok out.
Proof.
  intros b sc draw e old l out [Hp Hq] Hs L E. unfold set_action_sequence in E. apply bind_ok in E as (ms & P & E).
  assert (Lm : List.length ms = List.length l).
  { unfold plan_labels in P. destruct (sc_action sc) as [[lo la|c]|s]; [|injection P as <-; apply map_length | injection P as <-; apply map_length].
    eapply P_Base.mapM_length. exact P. }
  rewrite Lm in E. destruct (Nat.ltb_spec 1 (List.length l)); [|lia]. apply bind_ok in E as (v & _ & E). destruct (v_kind v); try discriminate E.
  destruct (Reqb _ 0); [discriminate|]. destruct (Reqb _ 0); [discriminate|]. unfold predict_trajectory in E.
  replace (1 / 3 / sc_policy sc / (1 / sc_simulation sc)) with (sc_simulation sc / (3 * sc_policy sc)) in E by (field; lra).
  replace (1 / sc_policy sc / (1 / sc_simulation sc)) with (sc_simulation sc / sc_policy sc) in E by (field; lra).
  assert (P1 : 0 <= sc_simulation sc / (3 * sc_policy sc)) by (left; apply Rdiv_lt_0_compat; lra).
  assert (P2 : 1 <= sc_simulation sc / sc_policy sc) by (apply (Rmult_le_reg_r (sc_policy sc)); [lra|]; unfold Rdiv; rewrite Rmult_assoc, Rinv_l; lra).
  assert (P3 : sc_simulation sc / (3 * sc_policy sc) < 1) by (apply (Rmult_lt_reg_r (3 * sc_policy sc)); [lra|]; unfold Rdiv; rewrite Rmult_assoc, Rinv_l; lra).
  unfold Rtrunc in E. rewrite (proj2 (Rleb_true _ _) P1), (proj2 (Rleb_true 0 (sc_simulation sc / sc_policy sc)) ltac:(lra)) in E. rewrite (Rfloor_unique (sc_simulation sc / (3 * sc_policy sc)) 0) in E by (cbn; lra).
  assert (F1 : (1 <= Rfloor (sc_simulation sc / sc_policy sc))%Z).
  { pose proof (Rfloor_bounds (sc_simulation sc / sc_policy sc)) as [_ B]. apply Z.lt_pred_le. apply lt_IZR. rewrite <- Z.sub_1_r, minus_IZR. lra. }
  destruct ms as [|m ms]; [cbn in Lm; lia|]. cbn [predict_actions Z.to_nat] in E. apply bind_ok in E as (v1 & _ & E). apply bind_ok in E as ([tv o1] & X & _).
  eapply ticks_zero; [|exact X]. lia.
Qed.
Print Assumptions C115_too_coarse.
(** What is drawn: a transparent box for each state near the window, over the road and
    under everything else; without plan, the usual picture. *)
Theorem C115_picture : forall own sf rd sim plan out, draw_scene_with own sf rd sim plan = Ok out ->
  exists road_part rest, out = (road_part ++ draw_plan own sf plan ++ rest)%list /\ draw_scene own sf rd sim = Ok (road_part ++ rest)%list /\ road_part = draw_road sf (rd_net rd).
Proof.
  intros own sf rd sim plan out E. unfold draw_scene_with in E. apply bind_ok in E as (t & T & E). assert (E' : (draw_road sf (rd_net rd) ++ draw_plan own sf plan ++ draw_objects sf rd ++ t)%list = out) by congruence. subst out.
  exists (draw_road sf (rd_net rd)), (draw_objects sf rd ++ t)%list. split; [reflexivity|]. split; [|reflexivity]. unfold draw_scene. rewrite T. reflexivity.
Qed.
Print Assumptions C115_picture.
Theorem C115_boxes : forall own sf plan x, In x (draw_plan own sf plan) <->
  exists v, In v plan /\ is_visible sf (v_pos v) 50 = true /\ In x (draw_body sf (vehicle_color (own (v_id v)) (v_kind v) (v_crashed v)) true (v_pos v) (v_heading v)).
Proof.
  intros own sf plan x. unfold draw_plan. rewrite in_flat_map. split; intros (v & Hv & H); exists v; [split; [exact Hv|] | tauto]. split; [|exact H].
  unfold draw_body in H. destruct (is_visible sf (v_pos v) VISIBLE_MARGIN) eqn:Q; [exact Q | destruct H].
Qed.
Print Assumptions C115_boxes.

(** ** The panel *)
(** Every pixel of the screen belongs either to the simulation or to the panel of the agent,
    which has the same size, and never to both. *)
Theorem C115_panels : forall w h p, (0 <= w)%Z -> (0 <= h)%Z ->
  (pixel_of (0, 0)%Z (screen_size true w h) p <-> pixel_of simulation_at (w, h) p \/ pixel_of (panel_at w h) (w, h) p) /\
  ~ (pixel_of simulation_at (w, h) p /\ pixel_of (panel_at w h) (w, h) p).
Proof.
  intros w h [x y] Hw Hh. unfold pixel_of, screen_size, simulation_at, panel_at. destruct (Z.ltb_spec h w); cbn [fst snd]; split; lia.
Qed.
Print Assumptions C115_panels.
(** The image contains the panel only on screen and with render_agent. *)
Theorem C115_image : forall panel agent off w h, (0 < w)%Z -> (0 < h)%Z -> (image_size panel agent off w h = (w, h) <-> panel = false \/ agent = false \/ off = true).
Proof.
  intros panel agent off w h Hw Hh. unfold image_size, screen_size. destruct agent, off, panel; cbn [andb negb]; try (split; [tauto | reflexivity]);
  (destruct (Z.ltb_spec h w); (split; [intros E; exfalso; pose proof (f_equal fst E) as E1; pose proof (f_equal snd E) as E2; cbn [fst snd] in E1, E2; lia | intros [X|[X|X]]; discriminate X])).
Qed.
Print Assumptions C115_image.

(** ** A concrete case *)
Definition lonely_scenario : scenario := Scenario 15 1 false (Single (Discrete true true)) false (fun _ => Ok false).
Definition lonely_env : env := Env (demo_road [demo_controlled KMDP (0, 0) 20 25 0] []) [v_id (demo_controlled KMDP (0, 0) 20 25 0)] 0 0 false.
Definition alone (e : env) : Prop := exists v, rd_vehicles (e_road e) = [v] /\ rd_objects (e_road e) = [] /\ v_crashed v = false.
Lemma acted_alone rd rd' : acted rd rd' -> (exists v, rd_vehicles rd = [v] /\ rd_objects rd = [] /\ v_crashed v = false) -> exists v, rd_vehicles rd' = [v] /\ rd_objects rd' = [] /\ v_crashed v = false.
Proof.
  intros (_ & O & _ & _ & F) (v & V & Ob & C). rewrite V in F. inversion F as [|? w ? ws Sm F2 Q1 Q2]. inversion F2. exists w. split; [congruence|]. split; [congruence|].
  unfold same_vehicle in Sm. intuition congruence.
Qed.
Lemma advances_alone o e e' : advances lonely_scenario o e e' -> alone e -> alone e'.
Proof.
  intros (rd1 & rd2 & A & B & ->) Al. apply road_act_acted in A. destruct (acted_alone _ _ A Al) as (v & V & Ob & C). cbn [sc_regulated lonely_scenario] in B.
  unfold road_step in B. rewrite V, Ob in B. cbn [mapM] in B. apply bind_ok in B as (vs & M & B). apply bind_ok in M as (w & M & M2). cbn [bind] in M2. injection M2 as <-.
  unfold collide_all, collide_row in B. cbn [fst snd List.length seq fold_left] in B. unfold collide_pair in B. cbn [nth_error] in B. unfold check_collision in B. rewrite Nat.eqb_refl, orb_true_r in B. cbn in B. injection B as <-.
  exists w. cbn. split; [reflexivity|]. split; [reflexivity|]. unfold vehicle_step in M. unfold on_state_update in M. apply bind_ok in M as (i & _ & M). injection M as <-.
  destruct (rd_record rd1), (is_idm (v_kind v)); exact C.
Qed.
Lemma shots_alone o n e l : shots lonely_scenario o n e l -> alone e -> alone (last l e) /\ forall f, In f l -> alone f.
Proof.
  induction 1 as [e|n e e1 l A Sh IH]; intros Al; [split; [exact Al | intros f []]|]. apply (advances_alone _ _ _ A) in Al. destruct (IH Al) as [I1 I2]. rewrite last_cons.
  split; [exact I1|]. intros f [<-|Hf]; [exact Al | now apply I2].
Qed.
Lemma film_alone e acts l : film lonely_scenario e acts l -> alone e -> forall f, In f l -> alone f.
Proof.
  induction 1 as [e|e o a acts e1 l l' O A Sh Fl IH]; intros Al f Hf; [destruct Hf|].
  assert (A1 : alone e1) by (destruct A as (rd & A & ->); apply action_act_acted in A; exact (acted_alone _ _ A Al)).
  destruct (shots_alone _ _ _ _ Sh A1) as [A2 A3]. apply in_app_or in Hf as [Hf|Hf]; [now apply A3 | now apply IH].
Qed.
Lemma lonely_frames : frames_per_step lonely_scenario = 15%Z.
Proof. unfold frames_per_step. cbn. apply Rfloor_unique. cbn. lra. Qed.
Lemma lonely_time e acts trace : (e_time e mod 15 = 0)%Z -> e_done e = false -> episode lonely_scenario e acts trace -> e_time (last trace e) = (e_time e + 15 * Z.of_nat (List.length acts))%Z.
Proof.
  intros Ht Hd Ep. induction Ep as [e|e o a acts e1 trace O E Ep IH]; [cbn; lia|]. rewrite last_cons. cbn [List.length].
  destruct (C39_step _ o e a e1 15 lonely_frames ltac:(lia) eq_refl Ht E) as (e0 & j & _ & Hj & _ & Ov & Tj & _).
  pose proof (env_step_persists _ _ _ _ _ E) as (_ & _ & _ & D & _).
  assert (J : Z.of_nat j = 15%Z) by (destruct Ov as [J|[X|X]]; [exact J | congruence | discriminate X]).
  rewrite IH; [lia | rewrite Tj, J, Z.add_mod, Ht by lia; reflexivity | congruence].
Qed.
(** An agent that accelerates, changes lane twice and slows down: its plan is computed and
    what happens, at every third of a second. *)
Example C115_nonvacuous : exists l states, film lonely_scenario lonely_env (map ActInt [3; 0; 2; 4]%Z) l /\ List.length l = 60%nat /\
  predict_trajectory demo_net (fun _ => 0%nat) (demo_controlled KMDP (0, 0) 20 25 0) [FASTER; LANE_LEFT; LANE_RIGHT; SLOWER] (1 / 1) (1 / 3 / 1) (1 / 15) = Ok states /\
  List.length states = 12%nat /\ Forall2 (fun f s => exists w, ego f = Ok w /\ same_state w s) (picked 5 0 l) states.
Proof.
  assert (Rd : ready lonely_scenario lonely_env).
  { split; [apply (demo_runnable KMDP (0, 0) 20 25 0%nat [demo_controlled KMDP (0, 0) 20 25 0] [] ltac:(lia) eq_refl eq_refl)|].
    split; [repeat constructor; intros []|]. split; [discriminate|]. intros id [<- |[]]. eexists. split; [left; reflexivity|]. split; reflexivity. }
  destruct (C71_episodes_of_any_length lonely_scenario lonely_env (map ActInt [3; 0; 2; 4]%Z)) as (tr & Lt & Ep & _).
  - split; [cbn; lra | discriminate].
  - intros e _. exists false. reflexivity.
  - exact Rd.
  - repeat constructor; cbn; lia.
  - pose proof (lonely_time lonely_env _ _ eq_refl eq_refl Ep) as T.
    destruct (C115_film lonely_scenario lonely_env (map ActInt [3; 0; 2; 4]%Z) tr) as (l & Fl & _ & Ll); [rewrite lonely_frames; lia | reflexivity | rewrite lonely_frames; reflexivity | exact Ep | rewrite lonely_frames; exact T|].
    destruct (C115_comes_true lonely_scenario true true ACTIONS_ALL lonely_env (demo_controlled KMDP (0, 0) 20 25 0) (map ActInt [3; 0; 2; 4]%Z) [FASTER; LANE_LEFT; LANE_RIGHT; SLOWER] l (fun _ => 0%nat) (1 / 3 / 1)) as (states & P & F);
      try reflexivity.
    + repeat constructor. intros [].
    + exact (straight_one_way 3 1000 0).
    + intros n Hn. exact Hn.
    + cbn. lra.
    + cbn. lra.
    + cbn. lra.
    + repeat constructor; eexists; split; reflexivity.
    + exact Fl.
    + intros f w Hf E. assert (Al : alone lonely_env) by (eexists; split; [reflexivity | split; reflexivity]).
      destruct (film_alone _ _ _ Fl Al f Hf) as (v & V & _ & C). unfold ego in E. destruct (e_controlled f) as [|id ids]; [discriminate|]. unfold vehicle_by_id in E. rewrite V in E. cbn [find] in E.
      destruct (Nat.eqb _ _); [congruence | discriminate].
    + exists l, states. split; [exact Fl|]. split; [rewrite Ll, lonely_frames; reflexivity|]. split; [exact P|].
      assert (Fd : Rfloor (1 / 3 / 1 * sc_simulation lonely_scenario) = 5%Z) by (apply Rfloor_unique; cbn; lra). rewrite Fd in F. change (Z.to_nat 5) with 5%nat in F. split; [|exact F].
      change (sc_simulation lonely_scenario) with 15 in P. change (sc_policy lonely_scenario) with 1 in P. apply C62_trajectory_length in P; [|lra | lra | lra]. cbn [List.length] in P.
      replace (1 / 1 / (1 / 15)) with 15 in P by field. replace (1 / 3 / 1 / (1 / 15)) with 5 in P by field.
      rewrite (Rfloor_unique 15 15), (Rfloor_unique 5 5) in P by lra. cbn in P. change (Z.of_nat (List.length states) = 12%Z) in P. lia.
Qed.
