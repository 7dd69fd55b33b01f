(** Lemmas about predicted trajectories. *)
From Coq Require Import Lia Lra.
From Verif Require Import Prelude M_Utils M_Lane M_Road M_Vehicle M_Kinematics M_Control M_Behavior M_Regulation M_Action M_Env M_Scenes M_Nets M_Reset M_Ttc M_Obs M_Gym
  S_Geometry S_Road S_Vehicle S_Control S_Behavior S_Regulation S_Env S_Reset S_Gym S_Repro S_Chance S_Agent
  P_Base P_Utils P_Lane P_Crash P_Control P_Behavior P_Traffic P_Action P_Env P_Repro P_Chance M_Graphics M_Agent.
Import ListNotations.
Open Scope R_scope.

Definition rmap {A B} (f : A -> B) (r : res A) : res B := match r with Ok x => Ok (f x) | Err e => Err e end.
Section History.
  Variable h : list snapshot.
  Notation H v := (set_history v h).
  Lemma follow_history g d v : follow_road g d (H v) = rmap (fun w => H w) (follow_road g d v).
  Proof.
    unfold follow_road. cbn [v_target_lane v_pos set_history v_route]. destruct (get_lane _ _); [|reflexivity]. cbn [bind].
    destruct (after_end _ _ _); [|reflexivity]. destruct (next_lane _ _ _ _ _) as [rt r]. destruct r as [i|]; [|reflexivity]. cbn [bind rmap]. destruct (v_route v); reflexivity.
  Qed.
  Lemma meta_history g v a : apply_meta g (H v) a = rmap (fun w => H w) (apply_meta g v a).
  Proof.
    unfold apply_meta, try_lane_change. cbn [v_target_lane set_history v_pos]. destruct a as [[]|]; try reflexivity;
    (destruct (lane_change_candidate _ _ _) as [i|]; [|reflexivity]; cbn [bind]; destruct (get_lane _ _) as [l|]; [|reflexivity]; cbn [bind rmap]; destruct (is_reachable_from _ _); reflexivity).
  Qed.
  Lemma low_history g v : low_level g (H v) = rmap (fun w => H w) (low_level g v).
  Proof.
    unfold low_level, steering_control. cbn [v_target_lane set_history v_pos v_heading v_speed v_target_speed]. destruct (get_lane _ _); reflexivity.
  Qed.
  Lemma controlled_history g d v a : controlled_act g d (H v) a = rmap (fun w => H w) (controlled_act g d v a).
  Proof.
    unfold controlled_act. rewrite follow_history. destruct (follow_road g d v) as [v1|]; [|reflexivity]. cbn [bind rmap].
    rewrite meta_history. destruct (apply_meta g v1 a) as [v2|]; [|reflexivity]. cbn [bind rmap]. apply low_history.
  Qed.
  Lemma mdp_history g d v a : mdp_act g d (H v) a = rmap (fun w => H w) (mdp_act g d v a).
  Proof. unfold mdp_act. destruct a as [[]|]; try apply controlled_history; exact (controlled_history g d (mdp_set_index v _) None). Qed.
End History.
Lemma same_state_history v w : same_state v w -> w = set_history v (v_history w).
Proof. unfold same_state. destruct v, w. cbn. intros E. injection E. intros. subst. reflexivity. Qed.
Lemma same_state_fields v w : same_state v w -> v_kind w = v_kind v /\ v_crashed w = v_crashed v /\ v_id w = v_id v.
Proof. intros E. rewrite (same_state_history v w E). cbn. tauto. Qed.
Lemma mdp_same_state g d v w a v' : same_state v w -> mdp_act g d v a = Ok v' -> exists w', mdp_act g d w a = Ok w' /\ same_state v' w'.
Proof. intros E A. rewrite (same_state_history v w E), mdp_history, A. eexists. split; [reflexivity|]. unfold same_state. now destruct v'. Qed.
Lemma state_update_history g rec u h i : get_closest_lane_index g (v_pos u) (Some (v_heading u)) = Ok i ->
  on_state_update g false (set_history u h) = Ok (set_history (set_lane_index u i) h) /\
  exists u', on_state_update g rec u = Ok u' /\ same_state (set_lane_index u i) u'.
Proof. intros G. unfold on_state_update. cbn [set_history v_pos v_heading]. rewrite G. cbn [bind]. split; [reflexivity|]. eexists. split; [reflexivity|]. destruct rec; reflexivity. Qed.
Lemma step_same_state g rec v w dt v' : v_kind v = KMDP -> same_state v w -> vehicle_step g rec v dt = Ok v' -> exists w', vehicle_step g false w dt = Ok w' /\ same_state v' w'.
Proof.
  intros K E A. rewrite (same_state_history v w E). revert A. unfold vehicle_step. cbn [v_kind set_history]. rewrite K. cbn [is_idm].
  assert (C : forall h, integrate (clip_actions (set_history v h)) dt = set_history (integrate (clip_actions v) dt) h) by reflexivity.
  rewrite C. generalize (integrate (clip_actions v) dt). intros u A. pose proof A as A0. unfold on_state_update in A0. apply bind_ok in A0 as (i & G & _).
  destruct (state_update_history g rec u (v_history w) i G) as [X (u' & Y & Z)]. rewrite X. eexists. split; [reflexivity|].
  rewrite Y in A. injection A as <-. unfold same_state in *. rewrite <- Z. reflexivity.
Qed.

(** One frame for the first controlled vehicle. *)
Lemma by_id_rank rd id v : vehicle_by_id rd id = Some v <-> exists k, rank_of id (rd_vehicles rd) = Some k /\ nth_error (rd_vehicles rd) k = Some v.
Proof.
  unfold vehicle_by_id. induction (rd_vehicles rd) as [|w vs IH]; cbn [find rank_of].
  - split; [discriminate | intros (k & E & _); discriminate].
  - destruct (Nat.eqb (v_id w) id) eqn:Q.
    + split; [intros [= <-]; exists 0%nat; easy | intros (k & [= <-] & N); exact N].
    + rewrite IH. split; [intros (k & E & N); exists (S k); rewrite E; easy|]. intros (k & E & N). destruct (rank_of id vs) as [j|]; [|discriminate]. injection E as <-. now exists j.
Qed.
Lemma rank_ids id vs ws : map v_id vs = map v_id ws -> rank_of id vs = rank_of id ws.
Proof.
  revert ws. induction vs as [|v vs IH]; intros [|w ws] E; try discriminate; [reflexivity|]. cbn in E. injection E as E1 E2. cbn. now rewrite E1, (IH ws E2).
Qed.
Lemma by_id_persists rd rd' id k w : persists rd rd' -> rank_of id (rd_vehicles rd) = Some k -> nth_error (rd_vehicles rd') k = Some w -> vehicle_by_id rd' id = Some w.
Proof. intros P R N. apply by_id_rank. exists k. split; [|exact N]. rewrite <- R. apply rank_ids. now apply persists_ids. Qed.

Lemma last_cons {A} (l : list A) (d x : A) : last (x :: l) d = last l x.
Proof. revert d x. induction l as [|y l IH]; intros d x; [reflexivity|]. rewrite (IH x y). change (last (x :: y :: l) d) with (last (y :: l) d). apply IH. Qed.
Lemma command_other rd draw id id' c rd' v : command_vehicle rd draw id' c = Ok rd' -> id' <> id -> vehicle_by_id rd id = Some v -> vehicle_by_id rd' id = Some v.
Proof.
  intros E N H. pose proof (acted_persists _ _ (command_acted _ _ _ _ _ E)) as P. destruct (proj1 (by_id_rank _ _ _) H) as (k & R & Nk).
  eapply by_id_persists; [exact P | exact R|]. unfold command_vehicle in E. destruct (rank_of id' (rd_vehicles rd)) as [j|] eqn:J; [|injection E as <-; exact Nk].
  destruct (rank_of_some _ _ _ J) as (w & Nj & Iw). rewrite Nj in E. apply bind_ok in E as (w' & _ & E). injection E as <-. cbn [rd_vehicles set_vehicles].
  destruct (rank_of_some _ _ _ R) as (v0 & Nk' & Iv). rewrite nth_update_other; [exact Nk|]. intros ->. congruence.
Qed.
Lemma multi_others s draws id v : forall ids acts rd rd', act_multi s draws rd ids acts = Ok rd' -> ~ In id ids -> vehicle_by_id rd id = Some v -> vehicle_by_id rd' id = Some v /\ acted rd rd'.
Proof.
  induction ids as [|i ids IH]; intros [|a acts] rd rd' E N H; cbn [act_multi] in E; try (injection E as <-; split; [exact H | apply acted_refl]).
  apply bind_ok in E as (rd1 & E1 & E). unfold act_single in E1. apply bind_ok in E1 as (c & _ & E1).
  assert (H1 : vehicle_by_id rd1 id = Some v) by (eapply command_other; [exact E1 | intros ->; apply N; now left | exact H]).
  destruct (IH acts rd1 rd' E (fun X => N (or_intror X)) H1) as [H2 A2]. split; [exact H2|]. eapply acted_trans; [eapply command_acted; exact E1 | exact A2].
Qed.
Section Prediction.
  Variables (sc : scenario) (g : graph) (draw : nat -> nat) (lo la : bool) (tb : list (Z * meta_action)).
  Hypothesis T : agent_of (sc_action sc) = Discrete lo la.
  Hypothesis TB : meta_table lo la = Ok tb.
  Hypothesis Reg : sc_regulated sc = false.
  Hypothesis W : one_way_out g.
  Hypothesis D : draw_ok draw.
  Let dt := 1 / sc_simulation sc.
  Lemma advances_ego o e e' v : oracle_ok o -> advances sc o e e' -> rd_net (e_road e) = g -> ego e = Ok v -> v_kind v = KMDP ->
    e_controlled e' = e_controlled e /\ exists u w, mdp_act g draw v None = Ok u /\ v_kind u = KMDP /\ vehicle_step g (rd_record (e_road e)) u dt = Ok w /\
      rd_net (e_road e') = g /\ exists w', ego e' = Ok w' /\ evolves w w' /\ v_kind w' = KMDP.
  Proof.
    intros [_ O] A N E K. split; [destruct A as (? & ? & _ & _ & ->); reflexivity|]. pose proof (advances_persists _ _ _ _ A) as P. destruct A as (rd1 & rd2 & A & B & ->). rewrite Reg in B. unfold ego in E |- *. cbn [e_controlled e_road] in P |- *.
    destruct (e_controlled e) as [|id ids]; [discriminate|]. destruct (vehicle_by_id _ id) as [x|] eqn:Q; [|discriminate]. injection E as ->.
    destruct (proj1 (by_id_rank _ _ _) Q) as (k & R & Nk). destruct (frame_nth _ _ _ _ _ _ _ A B Nk) as (rdm & u & w & w' & Am & Nm & Av & St & Ev & Nw).
    assert (Ku : v_kind u = KMDP) by (pose proof (P_Behavior.vehicle_act_same _ _ _ _ Av) as Sv; unfold same_vehicle in Sv; intuition congruence).
    rewrite N in St. unfold vehicle_act in Av. rewrite K in Av. destruct Am as (Am & _). rewrite Am, N in Av. rewrite (mdp_act_same g W _ draw v None (O _ _) D) in Av.
    exists u, w. split; [exact Av|]. split; [exact Ku|]. split; [exact St|]. pose proof (road_act_acted _ _ _ A) as (N1 & _). apply road_step_stepped in B as (N2 & _). split; [congruence|].
    exists w'. rewrite (by_id_persists _ _ _ _ _ P R Nw). split; [reflexivity|]. split; [exact Ev|].
    destruct (persists_find _ _ _ _ P Q) as (y & Y & _ & Ky & _). rewrite (by_id_persists _ _ _ _ _ P R Nw) in Y. injection Y as <-. now rewrite Ky.
  Qed.
  Lemma single_ego rd draw0 id a rd' v k m : draw_ok draw0 -> act_single (Discrete lo la) draw0 rd id a = Ok rd' -> a = ActInt k -> action_of tb k = Ok m ->
    rd_net rd = g -> vehicle_by_id rd id = Some v -> v_kind v = KMDP ->
    acted rd rd' /\ exists u, mdp_act g draw v (Some m) = Ok u /\ vehicle_by_id rd' id = Some u /\ v_kind u = KMDP.
  Proof.
    intros O A -> L N Q K. unfold act_single, single_command in A. rewrite TB in A. cbn [bind] in A. rewrite L in A. cbn [bind] in A.
    pose proof (command_acted _ _ _ _ _ A) as Ac. split; [exact Ac|].
    destruct (proj1 (by_id_rank _ _ _) Q) as (j & R & Nj). unfold command_vehicle in A. rewrite R, Nj in A. apply bind_ok in A as (u & C & A).
    unfold vehicle_command in C. rewrite K, N in C. rewrite (mdp_act_same g W _ draw v (Some m) O D) in C. exists u. split; [exact C|].
    assert (Nu : nth_error (rd_vehicles rd') j = Some u) by (injection A as <-; cbn; eapply nth_update_same; exact Nj).
    pose proof (acted_persists _ _ Ac) as P. pose proof (by_id_persists _ _ _ _ _ P R Nu) as B. split; [exact B|].
    destruct (persists_find _ _ _ _ P Q) as (y & Y & _ & Ky & _). rewrite B in Y. injection Y as <-. now rewrite Ky.
  Qed.
  Lemma applies_ego o e e' v a k m : oracle_ok o -> applies sc o a e e' -> NoDup (e_controlled e) -> rd_net (e_road e) = g -> ego e = Ok v -> v_kind v = KMDP ->
    first_action (sc_action sc) a = Some k -> action_of tb k = Ok m ->
    rd_net (e_road e') = g /\ e_controlled e' = e_controlled e /\ exists u, mdp_act g draw v (Some m) = Ok u /\ ego e' = Ok u /\ v_kind u = KMDP.
  Proof.
    intros [O _] (rd & A & ->) Nd N E K Fa L. unfold ego in E |- *. cbn [e_controlled e_road].
    destruct (e_controlled e) as [|id ids] eqn:Ce; [discriminate|]. destruct (vehicle_by_id _ id) as [x|] eqn:Q; [|discriminate]. injection E as ->.
    unfold action_act in A. destruct (sc_action sc) as [s|s]; cbn [agent_of] in T; subst s.
    - assert (a = ActInt k) as -> by (destruct a; try discriminate Fa; cbn in Fa; congruence).
      destruct (single_ego _ _ _ _ _ v k m (O _ _) A eq_refl L N Q K) as [Ac (u & Mu & Qu & Ku)]. split; [destruct Ac as (-> & _); exact N|]. split; [reflexivity|].
      exists u. rewrite Qu. easy.
    - destruct a as [| |[|[k'| |] l]]; try discriminate Fa. injection Fa as ->. cbn [act_multi] in A. apply bind_ok in A as (rd1 & A & B).
      destruct (single_ego _ _ _ _ _ v k m (O _ _) A eq_refl L N Q K) as [Ac (u & Mu & Qu & Ku)]. inversion_clear Nd as [|? ? Ni _].
      destruct (multi_others _ _ _ _ _ _ _ _ B Ni Qu) as [Q2 Ac2]. split; [destruct Ac as (Ac & _), Ac2 as (Ac2 & _); congruence|]. split; [reflexivity|].
      exists u. rewrite Q2. easy.
  Qed.
  Definition seen (f : env) (s : vehicle) : Prop := exists w, ego f = Ok w /\ same_state w s.
  Lemma ticks_film o s : (0 < s)%nat -> oracle_ok o -> forall n e l, shots sc o n e l -> forall v p t, rd_net (e_road e) = g -> ego e = Ok v -> v_kind v = KMDP -> same_state v p ->
    (forall f w, In f l -> ego f = Ok w -> v_crashed w = false) ->
    exists p' out, predict_ticks g draw dt s n t p = Ok ((t + n)%nat, p', out) /\ Forall2 seen (picked s t l) out /\
      rd_net (e_road (last l e)) = g /\ e_controlled (last l e) = e_controlled e /\ exists v', ego (last l e) = Ok v' /\ v_kind v' = KMDP /\ same_state v' p'.
  Proof.
    intros Hs O. induction 1 as [e|n e e1 l A Sh IH]; intros v p t N E K Sm C.
    - exists p, []. cbn. rewrite Nat.add_0_r. split; [reflexivity|]. split; [constructor|]. split; [exact N|]. split; [reflexivity|]. now exists v.
    - destruct (advances_ego o e e1 v O A N E K) as (Ce & u & w & Au & Ku & St & N1 & w' & E1 & Ev & K1).
      assert (w' = w) as ->.
      { destruct Ev as [-> |(x & -> & _)]; [reflexivity|]. specialize (C e1 _ (or_introl eq_refl) E1). discriminate C. }
      destruct (mdp_same_state _ _ _ _ _ _ Sm Au) as (pu & Pu & Su).
      destruct (step_same_state _ _ _ _ _ _ Ku Su St) as (pw & Pw & Sw).
      destruct (IH w pw (S t) N1 E1 K1 Sw (fun f x Hf => C f x (or_intror Hf))) as (p' & out & Pt & F & Nl & Cl & v' & El & Kl & Sl).
      exists p', (if Nat.eqb (S t mod s) 0 then pw :: out else out). split.
      + cbn [predict_ticks]. unfold predict_tick. rewrite Pu. cbn [bind]. rewrite Pw. cbn [bind]. destruct s as [|s']; [lia|]. rewrite Pt. cbn [bind]. do 2 f_equal. f_equal. lia.
      + split.
        * cbn [picked]. destruct (Nat.eqb (S t mod s) 0); [constructor; [exists w; easy | exact F] | exact F].
        * rewrite (last_cons l e e1). split; [exact Nl|]. split; [congruence|]. now exists v'.
  Qed.
  Lemma picked_app {A} s (l l' : list A) t : picked s t (l ++ l')%list = (picked s t l ++ picked s (t + List.length l) l')%list.
  Proof. revert t. induction l as [|x l IH]; intros t; cbn [picked app List.length]; [now rewrite Nat.add_0_r|]. rewrite IH, <- Nat.add_succ_comm. destruct (Nat.eqb _ 0); reflexivity. Qed.
  Lemma shots_length o n e l : shots sc o n e l -> List.length l = n.
  Proof. induction 1; cbn; congruence. Qed.
  Lemma actions_film s : (0 < s)%nat -> forall e acts l, film sc e acts l -> forall ms v p t,
    Forall2 (fun a m => exists k, first_action (sc_action sc) a = Some k /\ action_of tb k = Ok m) acts ms -> NoDup (e_controlled e) ->
    rd_net (e_road e) = g -> ego e = Ok v -> v_kind v = KMDP -> same_state v p -> (forall f w, In f l -> ego f = Ok w -> v_crashed w = false) ->
    exists out, predict_actions g draw dt s (Z.to_nat (frames_per_step sc)) ms t p = Ok out /\ Forall2 seen (picked s t l) out.
  Proof.
    intros Hs. induction 1 as [e|e o a acts e1 l l' O Ap Sh Fl IH]; intros ms v p t F Nd N E K Sm C.
    - inversion_clear F. exists []. split; [reflexivity | constructor].
    - inversion_clear F as [|? m ? ms' (k & Fa & Km) F'].
      destruct (applies_ego o _ e1 v a k m O Ap Nd N E K Fa Km) as (N1 & C1 & u & Au & E1 & K1). destruct (mdp_same_state _ _ _ _ _ _ Sm Au) as (pu & Pu & Su).
      destruct (ticks_film o s Hs O _ _ _ Sh u pu t N1 E1 K1 Su) as (p' & out & Pt & F1 & Nl & Cl & v' & El & Kl & Sl); [intros f y Hf; apply C, in_or_app; now left|].
      assert (Nd' : NoDup (e_controlled (last l e1))) by (rewrite Cl, C1; exact Nd).
      destruct (IH ms' v' p' (t + Z.to_nat (frames_per_step sc))%nat F' Nd' Nl El Kl Sl) as (out2 & P2 & F2); [intros f y Hf; apply C, in_or_app; now right|].
      exists (out ++ out2)%list. split.
      + cbn [predict_actions]. rewrite Pu. cbn [bind]. rewrite Pt. cbn [bind fst snd]. rewrite P2. reflexivity.
      + rewrite picked_app, (shots_length _ _ _ _ Sh). apply Forall2_app; assumption.
  Qed.
End Prediction.
Lemma straight_one_way n len a : one_way_out (straight_road_network n len a).
Proof.
  apply (leads_one_way (fun _ => "1"%string)). unfold straight_road_network. apply fold_leads; [|intros m d E; discriminate E].
  intros g x _ Lg. now apply add_leads.
Qed.
