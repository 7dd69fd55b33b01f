(** Lemmas about environments. *)
From Verif Require Import Prelude M_Utils M_Lane M_Road M_Vehicle M_Kinematics M_Control M_Behavior M_Regulation M_Action M_Env
  S_Geometry S_Road S_Vehicle S_Control S_Behavior S_Regulation S_Env P_Base P_Utils P_Lane P_Graph P_Bfs P_Query P_Kin P_Crash P_Control P_Behavior P_Traffic P_Regulation P_Action.
From Coq Require Import Lia Lra.
Open Scope R_scope.

Lemma frame_advances sc o e e' : frame sc o e = Ok e' <-> advances sc o e e'.
Proof.
  unfold frame, advances, scenario_step. split.
  - intros E. apply bind_ok in E as (rd1 & A & E). apply bind_ok in E as (rd2 & B & E). injection E as <-. exists rd1, rd2. split; [exact A|]. split; [exact B | reflexivity].
  - intros (rd1 & rd2 & -> & B & ->). cbn [bind]. rewrite B. reflexivity.
Qed.
Lemma advances_time sc o e e' : advances sc o e e' -> e_time e' = (e_time e + 1)%Z /\ e_steps e' = e_steps e /\ e_done e' = e_done e /\ e_controlled e' = e_controlled e.
Proof. intros (? & ? & _ & _ & ->). cbn. tauto. Qed.
Lemma runs_time sc o k e e' : runs sc o k e e' -> (1 <= k)%nat /\ e_time e' = (e_time e + Z.of_nat k)%Z /\ e_steps e' = e_steps e /\ e_done e' = e_done e /\ e_controlled e' = e_controlled e.
Proof.
  induction 1 as [e e' A|k e e1 e' A D T R IH].
  - apply advances_time in A as (A1 & A2 & A3 & A4). split; [lia|]. split; [lia|]. tauto.
  - apply advances_time in A as (A1 & A2 & A3 & A4). destruct IH as (B0 & B1 & B2 & B3 & B4).
    split; [lia|]. split; [lia|]. split; [congruence|]. split; congruence.
Qed.
Lemma applies_time sc o a e e' : applies sc o a e e' -> e_time e' = e_time e /\ e_steps e' = e_steps e /\ e_done e' = e_done e /\ e_controlled e' = e_controlled e.
Proof. intros (rd & _ & ->). cbn. tauto. Qed.
Lemma runs_snoc sc o k e e1 e' : runs sc o k e e1 -> e_done e1 = false -> sc_terminal sc e1 = Ok false -> advances sc o e1 e' -> runs sc o (S k) e e'.
Proof.
  intros H. revert e'. induction H as [e e1 A|k e e0 e1 A D T R IH]; intros e' D1 T1 A1.
  - eapply runs_more; [exact A | exact D1 | exact T1 | now apply runs_one].
  - eapply runs_more; [exact A | exact D | exact T | now apply IH].
Qed.
Lemma runs_app sc o k j e e1 e' : runs sc o k e e1 -> e_done e1 = false -> sc_terminal sc e1 = Ok false -> runs sc o j e1 e' -> runs sc o (k + j) e e'.
Proof.
  intros H. induction H as [e e1 A|k e e0 e1 A D T R IH]; intros D1 T1 R1; cbn.
  - eapply runs_more; eassumption.
  - eapply runs_more; [exact A | exact D | exact T | now apply IH].
Qed.

(** Frames in which the action is not forwarded. *)
Definition silent (sc : scenario) (a : option agent_action) (t : Z) (m : nat) : Prop :=
  a = None \/ sc_manual sc = true \/ forall i, (i < m)%nat -> ((t + Z.of_nat i) mod frames_per_step sc <> 0)%Z.
Lemma forward_silent sc o e a : silent sc a (e_time e) 1 -> forward sc o e a = Ok e.
Proof.
  unfold forward. destruct a as [x|]; [|easy]. intros [H|[H|H]]; [discriminate | now rewrite H|].
  specialize (H 0%nat ltac:(lia)). rewrite Z.add_0_r in H. destruct (negb (sc_manual sc)); [|reflexivity]. cbn [andb].
  destruct (Z.eqb_spec (e_time e mod frames_per_step sc) 0); [contradiction | reflexivity].
Qed.
Lemma silent_sub sc a t m m' : silent sc a t m -> (m' <= m)%nat -> silent sc a t m'.
Proof. intros [H|[H|H]] L; [now left | right; now left|]. right; right. intros i Hi. apply H. lia. Qed.
Lemma silent_next sc a t m : silent sc a t (S m) -> silent sc a (t + 1) m.
Proof. intros [H|[H|H]]; [now left | right; now left|]. right; right. intros i Hi. specialize (H (S i) ltac:(lia)). replace (t + 1 + Z.of_nat i)%Z with (t + Z.of_nat (S i))%Z by lia. exact H. Qed.

(** The outcome of the simulation loop. *)
Lemma simulate_split sc o m a : forall k e e', simulate_frames sc o (k + m) e a = Ok e' -> silent sc a (e_time e) k ->
  (exists j, (1 <= j <= k)%nat /\ runs sc o j e e' /\ over sc e') \/
  (k = 0%nat /\ simulate_frames sc o m e a = Ok e') \/
  (exists e1, (1 <= k)%nat /\ runs sc o k e e1 /\ e_done e1 = false /\ sc_terminal sc e1 = Ok false /\ simulate_frames sc o m e1 a = Ok e').
Proof.
  induction k as [|k IH]; intros e e' E S; [right; left; split; [reflexivity | exact E]|].
  cbn [Nat.add simulate_frames] in E. rewrite forward_silent in E by (eapply silent_sub; [exact S | lia]). cbn [bind] in E.
  apply bind_ok in E as (e2 & F & E). apply frame_advances in F. pose proof (advances_time _ _ _ _ F) as (Ft & _).
  destruct (e_done e2) eqn:D.
  { injection E as <-. left. exists 1%nat. split; [lia|]. split; [now apply runs_one | now left]. }
  apply bind_ok in E as (t & T & E). destruct t.
  { injection E as <-. left. exists 1%nat. split; [lia|]. split; [now apply runs_one | now right]. }
  apply silent_next in S. rewrite <- Ft in S. destruct (IH e2 e' E S) as [(j & Hj & R & O)|[[-> E2]|(e1 & Hk & R & D1 & T1 & E1)]].
  - left. exists (Datatypes.S j). split; [lia|]. split; [|exact O]. eapply runs_more; eassumption.
  - right. right. exists e2. split; [lia|]. split; [now apply runs_one|]. tauto.
  - right. right. exists e1. split; [lia|]. split; [eapply runs_more; eassumption|]. tauto.
Qed.
Lemma simulate_silent sc o a k e e' : simulate_frames sc o k e a = Ok e' -> (0 < k)%nat -> silent sc a (e_time e) k ->
  exists j, (1 <= j <= k)%nat /\ runs sc o j e e' /\ (j = k \/ over sc e').
Proof.
  intros E Hk S. replace k with (k + 0)%nat in E by lia. destruct (simulate_split sc o 0 a k e e' E S) as [(j & Hj & R & O)|[[-> _]|(e1 & _ & R & _ & _ & E1)]].
  - exists j. tauto.
  - lia.
  - cbn in E1. injection E1 as <-. exists k. split; [lia|]. tauto.
Qed.
Lemma mod_between n t i : (0 < n)%Z -> (t mod n = 0)%Z -> (0 < i < n)%Z -> ((t + i) mod n <> 0)%Z.
Proof. intros Hn Ht Hi. rewrite Z.add_mod, Ht, Z.add_0_l, Z.mod_mod, Z.mod_small by lia. lia. Qed.
Lemma simulate_aligned sc o a k e e' : (0 < frames_per_step sc)%Z -> sc_manual sc = false -> (e_time e mod frames_per_step sc = 0)%Z ->
  (0 < k <= Z.to_nat (frames_per_step sc))%nat -> simulate_frames sc o k e (Some a) = Ok e' ->
  exists e1 j, applies sc o a e e1 /\ (1 <= j <= k)%nat /\ runs sc o j e1 e' /\ (j = k \/ over sc e').
Proof.
  intros Hn Hm Ht Hk E. destruct k as [|k]; [lia|]. pose proof E as E0. cbn [simulate_frames] in E. apply bind_ok in E as (e1 & F & E).
  assert (A : applies sc o a e e1).
  { unfold forward in F. rewrite Hm, Ht in F. cbn in F. apply bind_ok in F as (rd & Ar & F). injection F as <-. exists rd. split; [exact Ar | reflexivity]. }
  exists e1. pose proof (applies_time _ _ _ _ _ A) as (At & _). apply bind_ok in E as (e2 & G & E). apply frame_advances in G. pose proof (advances_time _ _ _ _ G) as (Gt & _).
  destruct (e_done e2) eqn:D.
  { injection E as <-. exists 1%nat. split; [exact A|]. split; [lia|]. split; [now apply runs_one|]. right. now left. }
  apply bind_ok in E as (t & T & E). destruct t.
  { injection E as <-. exists 1%nat. split; [exact A|]. split; [lia|]. split; [now apply runs_one|]. right. now right. }
  destruct k as [|k].
  { cbn in E. injection E as <-. exists 1%nat. split; [exact A|]. split; [lia|]. split; [now apply runs_one|]. now left. }
  destruct (simulate_silent sc o (Some a) (S k) e2 e' E) as (j & Hj & R & O); [lia| |].
  { right; right. intros i Hi. rewrite Gt, At. rewrite <- Z.add_assoc. apply mod_between; [exact Hn | exact Ht | lia]. }
  exists (S j). split; [exact A|]. split; [lia|]. split; [eapply runs_more; eassumption|]. destruct O; [left; lia | now right].
Qed.

(** ** Persistence of crashes and identities *)
Definition persists (rd rd' : road) : Prop :=
  Forall2 (fun v w => v_id w = v_id v /\ v_kind w = v_kind v /\ (v_crashed v = true -> v_crashed w = true)) (rd_vehicles rd) (rd_vehicles rd').
Lemma persists_refl rd : persists rd rd.
Proof. apply Forall2_refl'. tauto. Qed.
Lemma persists_trans a b c : persists a b -> persists b c -> persists a c.
Proof. apply Forall2_trans'. intros x y z (A1 & A2 & A3) (B1 & B2 & B3). split; [congruence|]. split; [congruence | auto]. Qed.
Lemma acted_persists rd rd' : acted rd rd' -> persists rd rd'.
Proof.
  intros (_ & _ & _ & _ & F). unfold persists. induction F; constructor; auto. unfold same_vehicle in H. 
  assert (v_crashed y = v_crashed x) as -> by tauto. tauto.
Qed.
Lemma vehicle_step_crashed g rec v dt w : vehicle_step g rec v dt = Ok w -> v_crashed w = v_crashed v.
Proof.
  unfold vehicle_step, on_state_update. intros E. apply bind_ok in E as (i & _ & E). injection E as <-.
  unfold integrate, clip_actions. destruct rec, (is_idm (v_kind v)); reflexivity.
Qed.
Lemma road_step_persists rd dt rd' : road_step rd dt = Ok rd' -> persists rd rd'.
Proof.
  intros E. apply road_step_stepped in E as (_ & _ & _ & F & _). unfold persists. induction F as [|v w vs ws (Sp & u & Eu & Ev) F IH]; constructor; auto.
  unfold stepped in Sp. split; [tauto|]. split; [tauto|]. intros C. apply vehicle_step_crashed in Eu. destruct Ev as [-> | (s & -> & _)]; [congruence | reflexivity].
Qed.
Lemma enforce_persists yd rd rd' : enforce_road_rules yd rd = Ok rd' -> persists rd rd'.
Proof.
  unfold enforce_road_rules. intros E. apply bind_ok in E as (us & U & E). apply bind_ok in E as (vs & V & E). injection E as <-.
  unfold persists. cbn.
  assert (P1 : Forall2 (fun v w => v_id w = v_id v /\ v_kind w = v_kind v /\ (v_crashed v = true -> v_crashed w = true)) (rd_vehicles rd) us).
  { apply mapM_Forall2 in U. clear -U. induction U as [|v w vs0 ws0 H U IH]; constructor; auto. unfold unfreeze in H.
    destruct (v_is_yielding v); [|injection H as <-; tauto]. destruct (Rleb _ _).
    - apply bind_ok in H as (l & _ & H). destruct (v_has_color v); [|discriminate]. injection H as <-. cbn. tauto.
    - injection H as <-. cbn. tauto. }
  assert (P2 : forall pairs us vs, foldM (enforce_pair (rd_net rd)) pairs us = Ok vs -> Forall2 (fun v w => v_id w = v_id v /\ v_kind w = v_kind v /\ (v_crashed v = true -> v_crashed w = true)) us vs).
  { intros pairs. induction pairs as [|[i j] pairs IH]; intros us0 vs0 E; cbn [foldM] in E; [injection E as <-; apply Forall2_refl'; tauto|].
    apply bind_ok in E as (us1 & E1 & E). eapply Forall2_trans'; [| |eapply IH; exact E].
    { intros x y z (A1 & A2 & A3) (B1 & B2 & B3). split; [congruence|]. split; [congruence | auto]. }
    unfold enforce_pair in E1. cbn [fst snd] in E1. destruct (nth_error us0 i) as [x|] eqn:Ni; [|injection E1 as <-; apply Forall2_refl'; tauto].
    destruct (nth_error us0 j) as [y|] eqn:Nj; [|injection E1 as <-; apply Forall2_refl'; tauto].
    apply bind_ok in E1 as (c & _ & E1). destruct c; [|injection E1 as <-; apply Forall2_refl'; tauto].
    apply bind_ok in E1 as (f & _ & E1). injection E1 as <-. unfold force. destruct f.
    - eapply Forall2_update; [tauto | exact Ni | destruct (can_be_forced x); cbn; tauto].
    - eapply Forall2_update; [tauto | exact Nj | destruct (can_be_forced y); cbn; tauto]. }
  eapply Forall2_trans'; [|exact P1 | eapply P2; exact V].
  intros x y z (A1 & A2 & A3) (B1 & B2 & B3). split; [congruence|]. split; [congruence | auto].
Qed.
Lemma regulated_step_persists yd rd dt rd' : regulated_step yd rd dt = Ok rd' -> persists rd rd'.
Proof.
  unfold regulated_step. destruct (Reqb dt 0); [discriminate|]. destruct (Z.eqb _ 0); [discriminate|].
  intros E. apply bind_ok in E as (rd1 & E1 & E). apply road_step_persists in E. eapply persists_trans; [|exact E].
  destruct (Z.eqb _ 0); [apply enforce_persists in E1; exact E1 | injection E1 as <-; exact (persists_refl rd)].
Qed.
Lemma advances_persists sc o e e' : advances sc o e e' -> persists (e_road e) (e_road e').
Proof.
  intros (rd1 & rd2 & A & B & ->). cbn. eapply persists_trans; [apply acted_persists; eapply road_act_acted; exact A|].
  destruct (sc_regulated sc); [eapply regulated_step_persists; exact B | eapply road_step_persists; exact B].
Qed.
Lemma forward_persists sc o e a e' : forward sc o e a = Ok e' -> persists (e_road e) (e_road e') /\ e_controlled e' = e_controlled e /\ e_time e' = e_time e /\ e_steps e' = e_steps e /\ e_done e' = e_done e.
Proof.
  unfold forward. destruct a as [x|]; [|intros [= <-]; split; [apply persists_refl | tauto]].
  destruct (_ && _); [|intros [= <-]; split; [apply persists_refl | tauto]].
  intros E. apply bind_ok in E as (rd & A & E). injection E as <-. cbn. split; [|tauto]. apply acted_persists. eapply action_act_acted; exact A.
Qed.
Lemma simulate_frames_persists sc o a n : forall e e', simulate_frames sc o n e a = Ok e' ->
  persists (e_road e) (e_road e') /\ e_controlled e' = e_controlled e /\ e_steps e' = e_steps e /\ e_done e' = e_done e /\ (e_time e <= e_time e' <= e_time e + Z.of_nat n)%Z.
Proof.
  induction n as [|n IH]; intros e e' E; cbn [simulate_frames] in E; [injection E as <-; split; [apply persists_refl|]; repeat split; lia|].
  apply bind_ok in E as (e1 & F & E). apply bind_ok in E as (e2 & G & E). apply forward_persists in F as (F1 & F2 & F3 & F4 & F5).
  apply frame_advances in G. pose proof (advances_time _ _ _ _ G) as (G1 & G2 & G3 & G4). apply advances_persists in G.
  assert (B : persists (e_road e) (e_road e2) /\ e_controlled e2 = e_controlled e /\ e_steps e2 = e_steps e /\ e_done e2 = e_done e /\ (e_time e2 = e_time e + 1)%Z).
  { split; [eapply persists_trans; eassumption|]. split; [congruence|]. split; [congruence|]. split; [congruence | lia]. }
  destruct B as (B1 & B2 & B3 & B4 & B5).
  assert (Fin : e2 = e' -> persists (e_road e) (e_road e') /\ e_controlled e' = e_controlled e /\ e_steps e' = e_steps e /\ e_done e' = e_done e /\ (e_time e <= e_time e' <= e_time e + Z.of_nat (S n))%Z).
  { intros <-. split; [exact B1|]. split; [exact B2|]. split; [exact B3|]. split; [exact B4 | lia]. }
  destruct (e_done e2) eqn:D2; [injection E as E; now apply Fin|]. apply bind_ok in E as (t & T & E). destruct t; [injection E as E; now apply Fin|].
  apply IH in E as (I1 & I2 & I3 & I4 & I5). split; [eapply persists_trans; eassumption|]. split; [congruence|]. split; [congruence|]. split; [congruence | lia].
Qed.
Lemma env_step_persists sc o e a e' : env_step sc o e a = Ok e' ->
  persists (e_road e) (e_road e') /\ e_controlled e' = e_controlled e /\ e_steps e' = (e_steps e + 1)%Z /\ e_done e' = e_done e /\ (e_time e <= e_time e')%Z.
Proof.
  unfold env_step. destruct (e_controlled e) as [|id ids] eqn:C; [discriminate|]. unfold simulate. destruct (Reqb _ _); [discriminate|].
  intros E. apply simulate_frames_persists in E as (A & B & S & D & T). cbn in *. rewrite C in B. tauto.
Qed.
Lemma persists_ids rd rd' : persists rd rd' -> map v_id (rd_vehicles rd') = map v_id (rd_vehicles rd).
Proof. unfold persists. induction 1 as [|v w vs ws (A & _) F IH]; [reflexivity|]. cbn. now rewrite A, IH. Qed.
Lemma persists_find rd rd' id v : persists rd rd' -> vehicle_by_id rd id = Some v ->
  exists w, vehicle_by_id rd' id = Some w /\ v_id w = v_id v /\ v_kind w = v_kind v /\ (v_crashed v = true -> v_crashed w = true).
Proof.
  unfold persists, vehicle_by_id. induction 1 as [|a b vs ws (A & B & C) F IH]; cbn; [discriminate|].
  rewrite A. destruct (Nat.eqb (v_id a) id); [intros [= <-]; exists b; tauto | exact IH].
Qed.

(** ** Environments that can be stepped *)
Lemma ready_kinds sc e : ready sc e -> kinds_ok (vehicle_class (agent_of (sc_action sc))) (e_controlled e) (e_road e).
Proof.
  intros (_ & Nd & _ & H) v Hv I. destruct (H _ I) as (w & Hw & Ew & Kw). assert (w = v) as <-; [|exact Kw].
  apply In_nth_error in Hv as [i Hi]. apply In_nth_error in Hw as [j Hj]. unfold distinct_vehicles in Nd.
  assert (i = j); [|congruence]. eapply NoDup_nth_error; [exact Nd | rewrite map_length; apply nth_error_Some; congruence|].
  rewrite (map_nth_error v_id i _ Hi), (map_nth_error v_id j _ Hj). congruence.
Qed.
Lemma ready_persists sc e e' : ready sc e -> persists (e_road e) (e_road e') -> e_controlled e' = e_controlled e -> road_ready sc (e_road e') -> ready sc e'.
Proof.
  intros (_ & Nd & Ne & H) P C R. split; [exact R|]. split; [unfold distinct_vehicles; rewrite (persists_ids _ _ P); exact Nd|]. rewrite C. split; [exact Ne|].
  intros id I. destruct (H id I) as (v & Hv & Ev & Kv). unfold persists in P. apply In_nth_error in Hv as [i Hi].
  destruct (Forall2_nth _ _ _ _ _ P Hi) as (w & Hw & A & B & _). exists w. split; [eapply nth_error_In; exact Hw|]. split; congruence.
Qed.
Lemma scenario_step_total sc rd : frequencies_ok sc -> road_ready sc rd -> exists rd', scenario_step sc rd (1 / sc_simulation sc) = Ok rd' /\ road_ready sc rd'.
Proof.
  intros [_ Hf] R. unfold scenario_step, road_ready in *. destruct (sc_regulated sc); [|now apply runnable_step].
  apply regulated_step_total; [|exact R]. specialize (Hf eq_refl). split; [apply Rdiv_lt_0_compat; lra|].
  apply Rmult_le_reg_r with (sc_simulation sc); [lra|]. unfold Rdiv at 1. rewrite Rmult_assoc, Rinv_l by lra. lra.
Qed.
Lemma frame_total sc o e : frequencies_ok sc -> oracle_ok o -> ready sc e -> exists e', frame sc o e = Ok e' /\ ready sc e'.
Proof.
  intros Hf [_ Ho] R. pose proof R as (Rr & _). unfold frame.
  assert (exists rd1, road_act (o_road o (e_time e)) (e_road e) = Ok rd1 /\ road_ready sc rd1) as (rd1 & A & R1).
  { unfold road_ready in *. destruct (sc_regulated sc); [apply regulated_act | apply runnable_act]; auto. }
  destruct (scenario_step_total sc rd1 Hf R1) as (rd2 & B & R2).
  assert (F : frame sc o e = Ok (tick (set_road e rd2))) by (unfold frame; rewrite A; cbn [bind]; rewrite B; reflexivity).
  exists (tick (set_road e rd2)). unfold frame in F. split; [exact F|]. apply frame_advances in F. apply advances_persists in F.
  eapply ready_persists; [exact R | exact F | reflexivity | exact R2].
Qed.
Lemma forward_total sc o e a : oracle_ok o -> ready sc e -> (forall x, a = Some x -> in_action_space (sc_action sc) (List.length (e_controlled e)) x) ->
  exists e', forward sc o e a = Ok e' /\ ready sc e'.
Proof.
  intros [Ho _] R I. unfold forward. destruct a as [x|]; [|eauto]. destruct (_ && _); [|eauto].
  pose proof R as (Rr & _ & Ne & _).
  destruct (action_act_total (sc_regulated sc) (sc_action sc) (o_act o (e_time e)) (e_road e) (e_controlled e) x (Ho _) Rr Ne (I x eq_refl) (ready_kinds _ _ R)) as (rd & A & R').
  rewrite A. cbn [bind]. eexists. split; [reflexivity|]. eapply ready_persists; [exact R | | reflexivity | exact R'].
  apply acted_persists. eapply action_act_acted; exact A.
Qed.
Lemma simulate_frames_total sc o a : frequencies_ok sc -> decides sc -> oracle_ok o -> forall n e, ready sc e ->
  (forall x, a = Some x -> in_action_space (sc_action sc) (List.length (e_controlled e)) x) -> exists e', simulate_frames sc o n e a = Ok e' /\ ready sc e'.
Proof.
  intros Hf Hd Ho. induction n as [|n IH]; intros e R I; cbn [simulate_frames]; [eauto|].
  destruct (forward_total sc o e a Ho R I) as (e1 & F & R1). rewrite F. cbn [bind]. apply forward_persists in F as (_ & F2 & _).
  destruct (frame_total sc o e1 Hf Ho R1) as (e2 & G & R2). rewrite G. cbn [bind]. apply frame_advances, advances_time in G as (_ & _ & _ & G4).
  destruct (e_done e2); [eauto|]. destruct (Hd e2 R2) as [b ->]. cbn [bind]. destruct b; [eauto|]. apply IH; [exact R2|].
  intros x Hx. rewrite G4, F2. auto.
Qed.
Lemma env_step_total sc o e a : frequencies_ok sc -> decides sc -> oracle_ok o -> ready sc e -> in_action_space (sc_action sc) (List.length (e_controlled e)) a ->
  exists e', env_step sc o e a = Ok e' /\ ready sc e'.
Proof.
  intros Hf Hd Ho R I. unfold env_step. destruct (e_controlled e) as [|id ids] eqn:C; [destruct R as (_ & _ & N & _); congruence|].
  unfold simulate. rewrite (proj2 (Reqb_false _ _)) by apply Hf. rewrite <- C in I. 
  destruct (simulate_frames_total sc o (Some a) Hf Hd Ho (Z.to_nat (frames_per_step sc)) (count_step e)) as (e' & E & R'); [exact R | intros x [= <-]; exact I|].
  eauto.
Qed.
Lemma env_step_frames sc o e a e' : env_step sc o e a = Ok e' ->
  simulate_frames sc o (Z.to_nat (frames_per_step sc)) (Env (e_road e) (e_controlled e) (e_time e) (e_steps e + 1) (e_done e)) (Some a) = Ok e' /\ e_controlled e <> [] /\ sc_policy sc <> 0.
Proof.
  unfold env_step, simulate, count_step. destruct (e_controlled e); [discriminate|]. destruct (Reqb (sc_policy sc) 0) eqn:P; [discriminate|].
  intros E. split; [exact E|]. split; [discriminate | now apply Reqb_false].
Qed.
