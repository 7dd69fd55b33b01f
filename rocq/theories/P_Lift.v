(** Lifting per-vehicle facts to whole steps of an environment. *)
From Verif Require Import Prelude M_Utils M_Lane M_Road M_Vehicle M_Kinematics M_Control M_Behavior M_Regulation M_Action M_Env M_Scenes
  S_Geometry S_Road S_Vehicle S_Control S_Behavior S_Regulation S_Env P_Base P_Utils P_Lane P_Graph P_Bfs P_Query P_Kin P_Crash P_Control P_Behavior P_Traffic P_Regulation P_Action P_Env P_Scenes.
From Coq Require Import Lia Lra.
Open Scope R_scope.

(** A relation between successive states of one vehicle that every elementary
    operation on vehicles respects. *)
Record liftable (Q : vehicle -> vehicle -> Prop) : Prop := Liftable {
  lift_refl : forall v, Q v v;
  lift_trans : forall a b c, Q a b -> Q b c -> Q a c;
  lift_act : forall rd draw v w, vehicle_act rd draw v = Ok w -> Q v w;
  lift_command : forall rd draw c v w, vehicle_command rd draw v c = Ok w -> Q v w;
  lift_step : forall g rec dt v w, vehicle_step g rec v dt = Ok w -> Q v w;
  lift_crash : forall v s, Q v (set_crash v s);
  lift_unfreeze : forall yd g v w, unfreeze yd g v = Ok w -> Q v w;
  lift_force : forall v, Q v (force v) }.

Definition lifted (Q : vehicle -> vehicle -> Prop) (rd rd' : road) : Prop :=
  rd_net rd' = rd_net rd /\ Forall2 oevolves (rd_objects rd) (rd_objects rd') /\ rd_record rd' = rd_record rd /\ Forall2 Q (rd_vehicles rd) (rd_vehicles rd').
Lemma oevolves_refl o : oevolves o o.
Proof. now left. Qed.
Lemma lifted_refl Q rd : liftable Q -> lifted Q rd rd.
Proof. intros L. split; [reflexivity|]. split; [apply Forall2_refl', oevolves_refl|]. split; [reflexivity|]. apply Forall2_refl', (lift_refl _ L). Qed.
Lemma oevolves_trans a b c : oevolves a b -> oevolves b c -> oevolves a c.
Proof. intros [-> | ->] [-> | ->]; unfold oevolves; cbn; tauto. Qed.
Lemma lifted_trans Q a b c : liftable Q -> lifted Q a b -> lifted Q b c -> lifted Q a c.
Proof.
  intros L (A1 & A2 & A3 & A4) (B1 & B2 & B3 & B4). split; [congruence|]. split; [eapply Forall2_trans'; [apply oevolves_trans | exact A2 | exact B2]|].
  split; [congruence|]. eapply Forall2_trans'; [apply (lift_trans _ L) | exact A4 | exact B4].
Qed.
Lemma act_one_lifted Q draws rd i rd' : liftable Q -> act_one draws rd i = Ok rd' -> lifted Q rd rd'.
Proof.
  intros L. unfold act_one. destruct (nth_error _ i) as [v|] eqn:N; [|intros [= <-]; now apply lifted_refl].
  intros E. apply bind_ok in E as (v' & A & E). injection E as <-. split; [reflexivity|]. split; [apply Forall2_refl', oevolves_refl|]. split; [reflexivity|].
  cbn. eapply Forall2_update; [apply (lift_refl _ L) | exact N | eapply (lift_act _ L); exact A].
Qed.
Lemma road_act_lifted Q draws rd rd' : liftable Q -> road_act draws rd = Ok rd' -> lifted Q rd rd'.
Proof.
  intros L. unfold road_act. generalize (seq 0 (List.length (rd_vehicles rd))) as l. intros l. revert rd.
  induction l as [|i l IH]; intros rd E; cbn [foldM] in E; [injection E as <-; now apply lifted_refl|].
  apply bind_ok in E as (rd1 & E1 & E). eapply lifted_trans; [exact L | eapply act_one_lifted; eassumption | now apply IH].
Qed.
Lemma road_step_lifted Q rd dt rd' : liftable Q -> road_step rd dt = Ok rd' -> lifted Q rd rd'.
Proof.
  intros L E. apply road_step_stepped in E as (A & B & C & F & G). split; [exact A|]. split; [exact G|]. split; [exact B|].
  clear -L F. induction F as [|v w vs ws (Sp & u & Eu & Ev) F IH]; constructor; auto.
  destruct Ev as [-> | (s & -> & _)]; [eapply (lift_step _ L); exact Eu | eapply (lift_trans _ L); [eapply (lift_step _ L); exact Eu | apply (lift_crash _ L)]].
Qed.
Lemma enforce_lifted Q yd rd rd' : liftable Q -> enforce_road_rules yd rd = Ok rd' -> lifted Q rd rd'.
Proof.
  intros L. unfold enforce_road_rules. intros E. apply bind_ok in E as (us & U & E). apply bind_ok in E as (vs & V & E). injection E as <-.
  split; [reflexivity|]. split; [apply Forall2_refl', oevolves_refl|]. split; [reflexivity|]. cbn.
  apply mapM_Forall2 in U.
  assert (P1 : Forall2 Q (rd_vehicles rd) us) by (clear -L U; induction U; constructor; auto; eapply (lift_unfreeze _ L); eassumption).
  assert (P2 : forall pairs us vs, foldM (enforce_pair (rd_net rd)) pairs us = Ok vs -> Forall2 Q us vs).
  { intros pairs. induction pairs as [|[i j] pairs IH]; intros us0 vs0 E; cbn [foldM] in E; [injection E as <-; apply Forall2_refl', (lift_refl _ L)|].
    apply bind_ok in E as (us1 & E1 & E). eapply Forall2_trans'; [apply (lift_trans _ L)| |eapply IH; exact E].
    unfold enforce_pair in E1. cbn [fst snd] in E1. destruct (nth_error us0 i) as [x|] eqn:Ni; [|injection E1 as <-; apply Forall2_refl', (lift_refl _ L)].
    destruct (nth_error us0 j) as [y|] eqn:Nj; [|injection E1 as <-; apply Forall2_refl', (lift_refl _ L)].
    apply bind_ok in E1 as (c & _ & E1). destruct c; [|injection E1 as <-; apply Forall2_refl', (lift_refl _ L)].
    apply bind_ok in E1 as (f & _ & E1). injection E1 as <-. destruct f.
    - eapply Forall2_update; [apply (lift_refl _ L) | exact Ni | apply (lift_force _ L)].
    - eapply Forall2_update; [apply (lift_refl _ L) | exact Nj | apply (lift_force _ L)]. }
  eapply Forall2_trans'; [apply (lift_trans _ L) | exact P1 | eapply P2; exact V].
Qed.
Lemma regulated_step_lifted Q yd rd dt rd' : liftable Q -> regulated_step yd rd dt = Ok rd' -> lifted Q rd rd'.
Proof.
  intros L. unfold regulated_step. destruct (Reqb dt 0); [discriminate|]. destruct (Z.eqb _ 0); [discriminate|].
  intros E. apply bind_ok in E as (rd1 & E1 & E). apply (road_step_lifted Q) in E; [|exact L]. eapply lifted_trans; [exact L | |exact E].
  destruct (Z.eqb _ 0); [apply (enforce_lifted Q) in E1; [exact E1 | exact L] | injection E1 as <-; exact (lifted_refl Q rd L)].
Qed.
Lemma advances_lifted Q sc o e e' : liftable Q -> advances sc o e e' -> lifted Q (e_road e) (e_road e').
Proof.
  intros L (rd1 & rd2 & A & B & ->). cbn. eapply lifted_trans; [exact L | eapply road_act_lifted; [exact L | exact A]|].
  destruct (sc_regulated sc); [eapply regulated_step_lifted; [exact L | exact B] | eapply road_step_lifted; [exact L | exact B]].
Qed.
Lemma command_lifted Q rd draw id c rd' : liftable Q -> command_vehicle rd draw id c = Ok rd' -> lifted Q rd rd'.
Proof.
  intros L. unfold command_vehicle. destruct (rank_of id (rd_vehicles rd)) as [k|]; [|intros [= <-]; now apply lifted_refl].
  destruct (nth_error _ k) as [v|] eqn:N; [|intros [= <-]; now apply lifted_refl].
  intros E. apply bind_ok in E as (v' & A & E). injection E as <-. split; [reflexivity|]. split; [apply Forall2_refl', oevolves_refl|]. split; [reflexivity|].
  cbn. eapply Forall2_update; [apply (lift_refl _ L) | exact N | eapply (lift_command _ L); exact A].
Qed.
Lemma act_single_lifted Q s draw rd id a rd' : liftable Q -> act_single s draw rd id a = Ok rd' -> lifted Q rd rd'.
Proof. intros L E. unfold act_single in E. apply bind_ok in E as (c & _ & E). eapply command_lifted; eassumption. Qed.
Lemma action_act_lifted Q t draws rd ids a rd' : liftable Q -> action_act t draws rd ids a = Ok rd' -> lifted Q rd rd'.
Proof.
  intros L. unfold action_act. destruct t as [s|s].
  - destruct ids as [|id ids]; [intros E; apply bind_ok in E as (? & _ & E); discriminate|]. now apply act_single_lifted.
  - destruct a as [|?|l]; try discriminate. revert rd l. induction ids as [|id ids IH]; intros rd l E; cbn [act_multi] in E; [injection E as <-; now apply lifted_refl|].
    destruct l as [|a l]; [injection E as <-; now apply lifted_refl|]. apply bind_ok in E as (rd1 & E1 & E).
    eapply lifted_trans; [exact L | eapply act_single_lifted; [exact L | exact E1] | eapply IH; exact E].
Qed.
Lemma forward_lifted Q sc o e a e' : liftable Q -> forward sc o e a = Ok e' -> lifted Q (e_road e) (e_road e').
Proof.
  intros L. unfold forward. destruct a as [x|]; [|intros [= <-]; now apply lifted_refl]. destruct (_ && _); [|intros [= <-]; now apply lifted_refl].
  intros E. apply bind_ok in E as (rd & A & E). injection E as <-. cbn. eapply action_act_lifted; eassumption.
Qed.
Lemma simulate_frames_lifted Q sc o a n : liftable Q -> forall e e', simulate_frames sc o n e a = Ok e' -> lifted Q (e_road e) (e_road e').
Proof.
  intros L. induction n as [|n IH]; intros e e' E; cbn [simulate_frames] in E; [injection E as <-; now apply lifted_refl|].
  apply bind_ok in E as (e1 & F & E). apply bind_ok in E as (e2 & G & E). apply frame_advances in G.
  assert (B : lifted Q (e_road e) (e_road e2)) by (eapply lifted_trans; [exact L | eapply forward_lifted; eassumption | eapply advances_lifted; eassumption]).
  destruct (e_done e2); [injection E as <-; exact B|]. apply bind_ok in E as (t & T & E). destruct t; [injection E as <-; exact B|].
  eapply lifted_trans; [exact L | exact B | eapply IH; exact E].
Qed.
Lemma env_step_lifted Q sc o e a e' : liftable Q -> env_step sc o e a = Ok e' -> lifted Q (e_road e) (e_road e').
Proof. intros L E. apply env_step_frames in E as (E & _ & _). apply (simulate_frames_lifted Q) in E; [exact E | exact L]. Qed.
Lemma episode_lifted Q sc e acts trace : liftable Q -> episode sc e acts trace -> Forall (fun x => lifted Q (e_road e) (e_road x)) trace.
Proof.
  intros L H. induction H as [|e o a acts e1 trace _ E H IH]; constructor; [eapply env_step_lifted; eassumption|].
  apply (env_step_lifted Q) in E; [|exact L]. eapply Forall_impl; [|exact IH]. cbn. intros x Hx. eapply lifted_trans; eassumption.
Qed.

(** Identity, class and speed grid are kept, and so is the range of the speed index
    of MDP vehicles. *)
Definition index_ok (v : vehicle) : Prop := v_kind v = KMDP -> (0 <= v_speed_index v <= sg_count (v_grid v) - 1)%Z.
Definition keeps (v w : vehicle) : Prop :=
  v_id w = v_id v /\ v_kind w = v_kind v /\ v_grid w = v_grid v /\ (index_ok v -> index_ok w).
Lemma keeps_same v w : v_id w = v_id v -> v_kind w = v_kind v -> v_grid w = v_grid v -> v_speed_index w = v_speed_index v -> keeps v w.
Proof. unfold keeps, index_ok. intros A B G I. rewrite G, I, B. tauto. Qed.
Lemma keeps_mdp g draw v a w : mdp_act g draw v a = Ok w -> v_kind v = KMDP -> keeps v w.
Proof.
  intros E K. apply mdp_act_ok in E as (B & M & _). unfold same_body in B.
  assert (G : v_grid w = v_grid v) by tauto. assert (Kw : v_kind w = v_kind v) by tauto.
  unfold keeps, index_ok. rewrite G, Kw. split; [tauto|]. split; [reflexivity|]. split; [reflexivity|]. intros H _. specialize (H K).
  destruct a as [[]|]; cbv zeta in M; destruct M as [M1 _]; rewrite M1; try exact H; apply Zclip_bounds; lia.
Qed.
Lemma keeps_idm rd draw v w : idm_act rd draw v = Ok w -> keeps v w.
Proof.
  intros E. destruct (v_crashed v) eqn:C.
  - unfold idm_act in E. apply bind_ok in E as (_ & _ & E). rewrite C in E. injection E as <-. now apply keeps_same.
  - apply idm_act_ok in E as (B & _ & I & _); [|exact C]. unfold same_vehicle in B. apply keeps_same; tauto.
Qed.
Lemma keeps_controlled g draw v a w : controlled_act g draw v a = Ok w -> keeps v w.
Proof. intros E. apply controlled_act_ok in E as (B & I & _). unfold same_body in B. apply keeps_same; tauto. Qed.
Lemma keeps_liftable : liftable keeps.
Proof.
  split.
  - intros v. now apply keeps_same.
  - unfold keeps. intros a b c (A1 & A2 & A3 & A4) (B1 & B2 & B3 & B4). split; [congruence|]. split; [congruence|]. split; [congruence | auto].
  - intros rd draw v w E. unfold vehicle_act in E. destruct (v_kind v) eqn:K; try (injection E as <-; now apply keeps_same).
    + eapply keeps_controlled; exact E.
    + eapply keeps_mdp; [exact E | exact K].
    + eapply keeps_idm; exact E.
    + eapply keeps_idm; exact E.
  - intros rd draw c v w E. unfold vehicle_command in E. destruct (v_kind v) eqn:K; try (destruct c; [discriminate|]; injection E as <-; now apply keeps_same).
    + eapply keeps_controlled; exact E.
    + eapply keeps_mdp; [exact E | exact K].
    + eapply keeps_idm; exact E.
    + eapply keeps_idm; exact E.
  - intros g rec dt v w E. apply vehicle_step_stepped in E. unfold stepped in E. apply keeps_same; tauto.
  - intros v s. now apply keeps_same.
  - intros yd g v w E. unfold unfreeze in E. destruct (v_is_yielding v); [|injection E as <-; now apply keeps_same]. destruct (Rleb _ _).
    + apply bind_ok in E as (l & _ & E). destruct (v_has_color v); [|discriminate]. injection E as <-. now apply keeps_same.
    + injection E as <-. now apply keeps_same.
  - intros v. unfold force. destruct (can_be_forced v); now apply keeps_same.
Qed.
(** Reachable environments stay ready. *)
Lemma env_step_ready sc o e a e' : frequencies_ok sc -> decides sc -> oracle_ok o -> ready sc e -> in_action_space (sc_action sc) (List.length (e_controlled e)) a ->
  env_step sc o e a = Ok e' -> ready sc e'.
Proof. intros F D O R I E. destruct (env_step_total sc o e a F D O R I) as (e1 & E1 & R1). congruence. Qed.
Lemma episode_ready sc e acts trace : frequencies_ok sc -> decides sc -> ready sc e -> Forall (in_action_space (sc_action sc) (List.length (e_controlled e))) acts ->
  episode sc e acts trace -> Forall (ready sc) trace.
Proof.
  intros F D R I H. revert R I. induction H as [|e o a acts e1 trace O E H IH]; intros R I; [constructor|]. inversion I as [|? ? I1 I2]; subst.
  pose proof (env_step_ready _ _ _ _ _ F D O R I1 E) as R1. constructor; [exact R1|]. apply IH; [exact R1|].
  apply env_step_persists in E as (_ & C & _). now rewrite C.
Qed.
(** Everything kept along an episode. *)
Definition indexed (e : env) : Prop := forall v, In v (rd_vehicles (e_road e)) -> index_ok v.
Lemma lifted_indexed e e' : lifted keeps (e_road e) (e_road e') -> indexed e -> indexed e'.
Proof. intros (_ & _ & _ & F) H w Hw. destruct (Forall2_In_r _ _ _ F w Hw) as (v & Hv & _ & _ & _ & K). apply K, H, Hv. Qed.
Lemma episode_net sc e acts trace : episode sc e acts trace -> Forall (fun x => rd_net (e_road x) = rd_net (e_road e)) trace.
Proof. intros H. apply (episode_lifted _ _ _ _ _ keeps_liftable) in H. eapply Forall_impl; [|exact H]. cbn. intros x (A & _). exact A. Qed.
Lemma episode_indexed sc e acts trace : episode sc e acts trace -> indexed e -> Forall indexed trace.
Proof.
  intros H I. apply (episode_lifted _ _ _ _ _ keeps_liftable) in H. eapply Forall_impl; [|exact H]. cbn. intros x L. eapply lifted_indexed; eassumption.
Qed.
