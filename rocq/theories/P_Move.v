(** Lifting per-vehicle facts to whole steps where no road rules are enforced. *)
From Verif Require Import Prelude M_Utils M_Lane M_Road M_Vehicle M_Kinematics M_Control M_Behavior M_Regulation M_Action M_Env M_Scenes
  S_Geometry S_Road S_Vehicle S_Control S_Behavior S_Regulation S_Env P_Base P_Utils P_Lane P_Graph P_Bfs P_Query P_Kin P_Crash P_Control P_Behavior P_Traffic P_Regulation P_Action P_Env P_Scenes P_Lift.
From Coq Require Import Lia Lra.
Open Scope R_scope.

Record movable (Q : vehicle -> vehicle -> Prop) : Prop := Movable {
  move_refl : forall v, Q v v;
  move_trans : forall a b c, Q a b -> Q b c -> Q a c;
  move_act : forall rd draw v w, vehicle_act rd draw v = Ok w -> Q v w;
  move_command : forall rd draw c v w, vehicle_command rd draw v c = Ok w -> Q v w;
  move_step : forall g rec dt v w, vehicle_step g rec v dt = Ok w -> Q v w;
  move_crash : forall v s, Q v (set_crash v s) }.
Lemma moved_refl Q rd : movable Q -> lifted Q rd rd.
Proof. intros L. split; [reflexivity|]. split; [apply Forall2_refl', oevolves_refl|]. split; [reflexivity|]. apply Forall2_refl', (move_refl _ L). Qed.
Lemma moved_trans Q a b c : movable Q -> lifted Q a b -> lifted Q b c -> lifted Q a c.
Proof.
  intros L (A1 & A2 & A3 & A4) (B1 & B2 & B3 & B4). split; [congruence|]. split; [eapply Forall2_trans'; [apply oevolves_trans | exact A2 | exact B2]|].
  split; [congruence|]. eapply Forall2_trans'; [apply (move_trans _ L) | exact A4 | exact B4].
Qed.
Lemma act_one_moved Q draws rd i rd' : movable Q -> act_one draws rd i = Ok rd' -> lifted Q rd rd'.
Proof.
  intros L. unfold act_one. destruct (nth_error _ i) as [v|] eqn:N; [|intros [= <-]; now apply moved_refl].
  intros E. apply bind_ok in E as (v' & A & E). injection E as <-. split; [reflexivity|]. split; [apply Forall2_refl', oevolves_refl|]. split; [reflexivity|].
  cbn. eapply Forall2_update; [apply (move_refl _ L) | exact N | eapply (move_act _ L); exact A].
Qed.
Lemma road_act_moved Q draws rd rd' : movable Q -> road_act draws rd = Ok rd' -> lifted Q rd rd'.
Proof.
  intros L. unfold road_act. generalize (seq 0 (List.length (rd_vehicles rd))) as l. intros l. revert rd.
  induction l as [|i l IH]; intros rd E; cbn [foldM] in E; [injection E as <-; now apply moved_refl|].
  apply bind_ok in E as (rd1 & E1 & E). eapply moved_trans; [exact L | eapply act_one_moved; eassumption | now apply IH].
Qed.
Lemma road_step_moved Q rd dt rd' : movable Q -> road_step rd dt = Ok rd' -> lifted Q rd rd'.
Proof.
  intros L E. apply road_step_stepped in E as (A & B & C & F & G). split; [exact A|]. split; [exact G|]. split; [exact B|].
  clear -L F. induction F as [|v w vs ws (Sp & u & Eu & Ev) F IH]; constructor; auto.
  destruct Ev as [-> | (s & -> & _)]; [eapply (move_step _ L); exact Eu | eapply (move_trans _ L); [eapply (move_step _ L); exact Eu | apply (move_crash _ L)]].
Qed.
Lemma advances_moved Q sc o e e' : sc_regulated sc = false -> movable Q -> advances sc o e e' -> lifted Q (e_road e) (e_road e').
Proof.
  intros Rg L (rd1 & rd2 & A & B & ->). cbn. rewrite Rg in B. eapply moved_trans; [exact L | eapply road_act_moved; [exact L | exact A]|].
  eapply road_step_moved; [exact L | exact B].
Qed.
Lemma command_moved Q rd draw id c rd' : movable Q -> command_vehicle rd draw id c = Ok rd' -> lifted Q rd rd'.
Proof.
  intros L. unfold command_vehicle. destruct (rank_of id (rd_vehicles rd)) as [k|]; [|intros [= <-]; now apply moved_refl].
  destruct (nth_error _ k) as [v|] eqn:N; [|intros [= <-]; now apply moved_refl].
  intros E. apply bind_ok in E as (v' & A & E). injection E as <-. split; [reflexivity|]. split; [apply Forall2_refl', oevolves_refl|]. split; [reflexivity|].
  cbn. eapply Forall2_update; [apply (move_refl _ L) | exact N | eapply (move_command _ L); exact A].
Qed.
Lemma act_single_moved Q s draw rd id a rd' : movable Q -> act_single s draw rd id a = Ok rd' -> lifted Q rd rd'.
Proof. intros L E. unfold act_single in E. apply bind_ok in E as (c & _ & E). eapply command_moved; eassumption. Qed.
Lemma action_act_moved Q t draws rd ids a rd' : movable Q -> action_act t draws rd ids a = Ok rd' -> lifted Q rd rd'.
Proof.
  intros L. unfold action_act. destruct t as [s|s].
  - destruct ids as [|id ids]; [intros E; apply bind_ok in E as (? & _ & E); discriminate|]. now apply act_single_moved.
  - destruct a as [|?|l]; try discriminate. revert rd l. induction ids as [|id ids IH]; intros rd l E; cbn [act_multi] in E; [injection E as <-; now apply moved_refl|].
    destruct l as [|a l]; [injection E as <-; now apply moved_refl|]. apply bind_ok in E as (rd1 & E1 & E).
    eapply moved_trans; [exact L | eapply act_single_moved; [exact L | exact E1] | eapply IH; exact E].
Qed.
Lemma forward_moved Q sc o e a e' : movable Q -> forward sc o e a = Ok e' -> lifted Q (e_road e) (e_road e').
Proof.
  intros L. unfold forward. destruct a as [x|]; [|intros [= <-]; now apply moved_refl]. destruct (_ && _); [|intros [= <-]; now apply moved_refl].
  intros E. apply bind_ok in E as (rd & A & E). injection E as <-. cbn. eapply action_act_moved; eassumption.
Qed.
Lemma simulate_frames_moved Q sc o a n : sc_regulated sc = false -> movable Q -> forall e e', simulate_frames sc o n e a = Ok e' -> lifted Q (e_road e) (e_road e').
Proof.
  intros Rg L. induction n as [|n IH]; intros e e' E; cbn [simulate_frames] in E; [injection E as <-; now apply moved_refl|].
  apply bind_ok in E as (e1 & F & E). apply bind_ok in E as (e2 & G & E). apply frame_advances in G.
  assert (B : lifted Q (e_road e) (e_road e2)) by (eapply moved_trans; [exact L | eapply forward_moved; eassumption | eapply advances_moved; eassumption]).
  destruct (e_done e2); [injection E as <-; exact B|]. apply bind_ok in E as (t & T & E). destruct t; [injection E as <-; exact B|].
  eapply moved_trans; [exact L | exact B | eapply IH; exact E].
Qed.
Lemma env_step_moved Q sc o e a e' : sc_regulated sc = false -> movable Q -> env_step sc o e a = Ok e' -> lifted Q (e_road e) (e_road e').
Proof. intros Rg L E. apply env_step_frames in E as (E & _ & _). apply (simulate_frames_moved Q) in E; [exact E | exact Rg | exact L]. Qed.

(** ** Target speeds of the merge *)
(** Idm vehicles keep theirs, MDP vehicles have one of their levels. *)
Definition target_kept (v w : vehicle) : Prop :=
  v_kind w = v_kind v /\ v_grid w = v_grid v /\
  (v_kind v <> KControlled -> (v_kind v = KMDP -> v_grid v = SpeedGrid 20 30 3) -> v_target_speed v <> 0 -> v_target_speed w <> 0).
Lemma target_same v w : v_kind w = v_kind v -> v_grid w = v_grid v -> v_target_speed w = v_target_speed v -> target_kept v w.
Proof. unfold target_kept. intros -> -> ->. tauto. Qed.
Lemma level_nonzero k : (0 <= k <= 2)%Z -> index_to_speed (SpeedGrid 20 30 3) k <> 0.
Proof. intros H. unfold index_to_speed. cbn [sg_count sg_min sg_max Z.ltb Z.compare Pos.compare Pos.compare_cont Z.sub Z.pos_sub Z.add Z.opp Pos.pred_double]. assert (0 <= IZR k) by (apply IZR_le; lia). cbn. lra. Qed.
Lemma target_mdp g draw v a w : mdp_act g draw v a = Ok w -> v_kind v = KMDP -> target_kept v w.
Proof.
  intros E K. apply mdp_act_ok in E as (B & M & _). unfold same_body in B. split; [tauto|]. split; [tauto|]. intros _ G N. specialize (G K). rewrite G in M.
  destruct a as [[]|]; cbv zeta in M; destruct M as [_ M]; rewrite M; try exact N; apply level_nonzero, Zclip_bounds; cbn; lia.
Qed.
Lemma target_idm rd draw v w : idm_act rd draw v = Ok w -> target_kept v w.
Proof.
  intros E. destruct (v_crashed v) eqn:C.
  - unfold idm_act in E. apply bind_ok in E as (_ & _ & E). rewrite C in E. injection E as <-. now apply target_same.
  - apply idm_act_ok in E as (B & T & _); [|exact C]. unfold same_vehicle in B. apply target_same; tauto.
Qed.
Lemma target_controlled g draw v a w : controlled_act g draw v a = Ok w -> v_kind v = KControlled -> target_kept v w.
Proof. intros E K. apply controlled_act_ok in E as (B & _). unfold same_body in B. split; [tauto|]. split; [tauto|]. intros N. congruence. Qed.
Lemma target_movable : movable target_kept.
Proof.
  split.
  - intros v. now apply target_same.
  - unfold target_kept. intros a b c (A1 & A2 & A3) (B1 & B2 & B3). split; [congruence|]. split; [congruence|]. rewrite A1, A2 in B3. auto.
  - intros rd draw v w E. unfold vehicle_act in E. destruct (v_kind v) eqn:K; try (injection E as <-; now apply target_same).
    + eapply target_controlled; [exact E | exact K].
    + eapply target_mdp; [exact E | exact K].
    + eapply target_idm; exact E.
    + eapply target_idm; exact E.
  - intros rd draw c v w E. unfold vehicle_command in E. destruct (v_kind v) eqn:K; try (destruct c; [discriminate|]; injection E as <-; now apply target_same).
    + eapply target_controlled; [exact E | exact K].
    + eapply target_mdp; [exact E | exact K].
    + eapply target_idm; exact E.
    + eapply target_idm; exact E.
  - intros g rec dt v w E. apply vehicle_step_stepped in E. unfold stepped in E. apply target_same; tauto.
  - intros v s. now apply target_same.
Qed.
