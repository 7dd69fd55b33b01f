(** Lemmas about regulated roads. *)
From Verif Require Import Prelude M_Utils M_Lane M_Road M_Vehicle M_Kinematics M_Control M_Behavior M_Regulation
  S_Geometry S_Road S_Vehicle S_Control S_Behavior S_Regulation
  P_Base P_Utils P_Lane P_Graph P_Bfs P_Query P_Collision P_Kin P_Crash P_Control P_Behavior P_Traffic.
From Coq Require Import Lia Lra.
Open Scope R_scope.

Lemma dist2_vnorm p q : dist2 p q = vnorm (vsub q p).
Proof. unfold dist2, vnorm, vsub. cbn [fst snd]. f_equal. ring. Qed.

(** ** Conflicts *)
Lemma mapM_nth {A B} (f : A -> res B) l out : mapM f l = Ok out -> forall k b, nth_error out k = Some b <-> exists a, nth_error l k = Some a /\ f a = Ok b.
Proof.
  intros E. apply mapM_Forall2 in E. induction E as [|a b l out Hab F IH]; intros k b0.
  - destruct k; cbn; split; [easy | intros (a & ? & _); easy | easy | intros (a & ? & _); easy].
  - destruct k as [|k]; cbn; [|apply IH]. split; [intros [= <-]; eauto | intros (a' & [= <-] & H); congruence].
Qed.
Lemma existsb_combine {A B} (f : A * B -> bool) la lb : existsb f (combine la lb) = true <->
  exists k a b, nth_error la k = Some a /\ nth_error lb k = Some b /\ f (a, b) = true.
Proof.
  revert lb. induction la as [|a la IH]; intros [|b lb]; cbn [combine existsb].
  - split; [easy | intros ([|k] & ? & ? & ? & _); easy].
  - split; [easy | intros ([|k] & ? & ? & ? & _); easy].
  - split; [easy | intros ([|k] & ? & ? & _ & ? & _); easy].
  - rewrite orb_true_iff, IH. split.
    + intros [H | (k & x & y & Hx & Hy & H)]; [exists 0%nat, a, b; easy | exists (S k), x, y; easy].
    + intros ([|k] & x & y & Hx & Hy & H); cbn in Hx, Hy; [left; congruence | right; exists k, x, y; easy].
Qed.
Lemma conflict_times_nth k t : nth_error conflict_times k = Some t <-> (k < 11)%nat /\ t = INR (S k) / 4.
Proof.
  unfold conflict_times. split.
  - intros H. assert (Hk : (k < 11)%nat) by (apply (f_equal (fun o => match o with Some _ => true | None => false end)) in H;
      destruct (Nat.lt_ge_cases k 11) as [Q|Q]; [exact Q|]; rewrite (proj2 (nth_error_None _ k)) in H; [discriminate | rewrite map_length, seq_length; exact Q]).
    split; [exact Hk|]. rewrite nth_error_map in H. rewrite (nth_error_nth' _ 0%nat) in H by (rewrite seq_length; exact Hk).
    rewrite seq_nth in H by exact Hk. cbn [option_map Nat.add] in H. injection H as <-. unfold Rdiv. rewrite Rmult_1_l. reflexivity.
  - intros [Hk ->]. rewrite nth_error_map, (nth_error_nth' _ 0%nat) by (rewrite seq_length; exact Hk).
    rewrite seq_nth by exact Hk. cbn [option_map Nat.add]. f_equal. unfold Rdiv. rewrite Rmult_1_l. reflexivity.
Qed.
Lemma predicted_nth g v out k p h : predicted g v = Ok out ->
  (nth_error out k = Some (p, h) <-> (k < 11)%nat /\ future_pose g v (INR (S k) / 4) p h).
Proof.
  unfold predicted. destruct (is_controlled _); [|discriminate]. unfold predict_constant_speed. intros E. apply bind_ok in E as (l & G & E).
  rewrite (mapM_nth _ _ _ E). unfold future_pose. split.
  - intros (t & Ht & H). apply conflict_times_nth in Ht as [Hk ->]. split; [exact Hk|]. exists l. tauto.
  - intros (Hk & l' & G' & H). rewrite G in G'. injection G' as <-. exists (INR (S k) / 4). split; [now apply conflict_times_nth | exact H].
Qed.
Lemma conflict_iff g v w c : is_conflict_possible g v w = Ok c -> (c = true <-> conflict g v w).
Proof.
  unfold is_conflict_possible. intros E. apply bind_ok in E as (p1 & E1 & E). apply bind_ok in E as (p2 & E2 & E). injection E as <-.
  rewrite existsb_combine. unfold conflict. split.
  - intros (k & [p h] & [q h'] & H1 & H2 & H). apply (predicted_nth _ _ _ _ _ _ E1) in H1 as [Hk H1]. apply (predicted_nth _ _ _ _ _ _ E2) in H2 as [_ H2].
    exists (S k), p, h, q, h'. split; [lia|]. split; [exact H1|]. split; [exact H2|]. unfold poses_conflict in H. cbn [fst snd] in H.
    rewrite dist2_vnorm. destruct (Rltb V_LENGTH _) eqn:L; [discriminate|]. apply Rltb_false in L. unfold V_LENGTH, V_WIDTH in *. split; [exact L|].
    replace (75/10) with (15/10 * 5) by lra. replace (18/10) with (9/10 * 2) by lra. exact H.
  - intros (k & p & h & q & h' & Hk & H1 & H2 & D & H). destruct k as [|k]; [lia|]. exists k, (p, h), (q, h').
    split; [apply (predicted_nth _ _ _ _ _ _ E1); split; [lia | exact H1]|]. split; [apply (predicted_nth _ _ _ _ _ _ E2); split; [lia | exact H2]|].
    unfold poses_conflict. cbn [fst snd]. rewrite <- dist2_vnorm. unfold V_LENGTH, V_WIDTH. rewrite Rltb_ge by exact D.
    replace (15/10 * 5) with (75/10) by lra. replace (9/10 * 2) with (18/10) by lra. exact H.
Qed.
Lemma dist2_sym p q : dist2 p q = dist2 q p.
Proof. unfold dist2. f_equal. ring. Qed.
Lemma conflict_sym g v w : conflict g v w -> conflict g w v.
Proof.
  intros (k & p & h & q & h' & Hk & H1 & H2 & D & H). exists k, q, h', p, h. do 3 (split; [assumption|]). split; [rewrite dist2_sym; exact D|].
  unfold rotated_rectangles_intersect in *. rewrite orb_comm. exact H.
Qed.

(** ** Priorities *)
Lemma respect_spec g v w b : respect_priorities g v w = Ok b ->
  (b = true -> yields_to g v w false) /\ (b = false -> yields_to g w v true).
Proof.
  unfold respect_priorities. intros E. apply bind_ok in E as (l1 & G1 & E). apply bind_ok in E as (l2 & G2 & E). injection E as <-.
  destruct (Z.ltb_spec (l_priority l2) (l_priority l1)) as [A|A].
  - split; [easy|]. intros _. exists l2, l1. tauto.
  - destruct (Z.ltb_spec (l_priority l1) (l_priority l2)) as [B|B].
    + split; [|easy]. intros _. exists l1, l2. tauto.
    + destruct (Rltb _ _) eqn:L; [apply Rltb_true in L | apply Rltb_false in L]; (split; [|]); intros Q; try discriminate Q.
      * exists l1, l2. split; [exact G1|]. split; [exact G2|]. right. split; [lia | left; exact L].
      * exists l2, l1. split; [exact G2|]. split; [exact G1|]. right. split; [lia|]. destruct (Rtotal_order (front_distance_to v w) (front_distance_to w v)) as [H|[H|H]]; [now left | right; tauto | lra].
Qed.
Lemma yields_excl g v w b : yields_to g v w b -> yields_to g w v (negb b) -> False.
Proof.
  intros (l1 & l2 & G1 & G2 & H) (l2' & l1' & G2' & G1' & H'). rewrite G1 in G1'. rewrite G2 in G2'. injection G1' as <-. injection G2' as <-.
  destruct H as [H|(H & [H1|[H1 H2]])], H' as [H'|(H' & [H3|[H3 H4]])]; try lia; try lra. subst b. discriminate.
Qed.

(** ** Enforcing the rules *)
Lemma force_force v : force (force v) = force v.
Proof. unfold force. destruct (can_be_forced v) eqn:C; [|now rewrite C]. unfold can_be_forced in *. cbn [v_kind set_yield set_target_speed]. rewrite C. reflexivity. Qed.
Lemma conflict_force_l g v w : is_conflict_possible g (force v) w = is_conflict_possible g v w.
Proof. unfold force. destruct (can_be_forced v); reflexivity. Qed.
Lemma conflict_force_r g v w : is_conflict_possible g v (force w) = is_conflict_possible g v w.
Proof. unfold force. destruct (can_be_forced w); reflexivity. Qed.
Lemma respect_force_l g v w : respect_priorities g (force v) w = respect_priorities g v w.
Proof. unfold force. destruct (can_be_forced v); reflexivity. Qed.
Lemma respect_force_r g v w : respect_priorities g v (force w) = respect_priorities g v w.
Proof. unfold force. destruct (can_be_forced w); reflexivity. Qed.
Definition may_force (b : bool) (v : vehicle) : vehicle := if b then force v else v.
Lemma conflict_may g a b v w : is_conflict_possible g (may_force a v) (may_force b w) = is_conflict_possible g v w.
Proof. destruct a, b; cbn; rewrite ?conflict_force_l, ?conflict_force_r; reflexivity. Qed.
Lemma respect_may g a b v w : respect_priorities g (may_force a v) (may_force b w) = respect_priorities g v w.
Proof. destruct a, b; cbn; rewrite ?respect_force_l, ?respect_force_r; reflexivity. Qed.

Definition chosen (g : graph) (us : list vehicle) (ij : nat * nat) (i : nat) : Prop :=
  exists a b first, nth_error us (fst ij) = Some a /\ nth_error us (snd ij) = Some b /\
    is_conflict_possible g a b = Ok true /\ respect_priorities g a b = Ok first /\ i = if first then fst ij else snd ij.
Definition forced_state (g : graph) (us : list vehicle) (done : list (nat * nat)) (vs : list vehicle) : Prop :=
  List.length vs = List.length us /\
  forall i u, nth_error us i = Some u -> exists b, nth_error vs i = Some (may_force b u) /\ (b = true <-> exists ij, In ij done /\ chosen g us ij i).
Lemma update_nth_length {A} k (x : A) l : List.length (update_nth k x l) = List.length l.
Proof. revert k. induction l as [|a l IH]; intros [|k]; cbn; auto. Qed.

Lemma enforce_pair_state g us done vs ij vs' : fst ij <> snd ij -> forced_state g us done vs -> enforce_pair g vs ij = Ok vs' ->
  forced_state g us (done ++ [ij]) vs'.
Proof.
  intros Hd [Hl H] E. unfold enforce_pair in E.
  assert (Skip : vs' = vs -> (forall i, ~ chosen g us ij i) -> forced_state g us (done ++ [ij]) vs').
  { intros -> Q. split; [exact Hl|]. intros i u Hu. destruct (H i u Hu) as (b & Hb & Ib). exists b. split; [exact Hb|]. rewrite Ib. split.
    - intros (x & Hx & Cx). exists x. split; [apply in_or_app; now left | exact Cx].
    - intros (x & Hx & Cx). apply in_app_or in Hx as [Hx | [<- | []]]; [eauto | elim (Q i Cx)]. }
  destruct (nth_error us (fst ij)) as [ua|] eqn:Na.
  2:{ replace (nth_error vs (fst ij)) with (@None vehicle) in E by (symmetry; apply nth_error_None; rewrite Hl; apply nth_error_None; exact Na).
      injection E as <-. apply Skip; [reflexivity|]. intros i (a & b & f & Q & _). congruence. }
  destruct (nth_error us (snd ij)) as [ub|] eqn:Nb.
  2:{ replace (nth_error vs (snd ij)) with (@None vehicle) in E by (symmetry; apply nth_error_None; rewrite Hl; apply nth_error_None; exact Nb).
      assert (vs' = vs) as Ev by (destruct (nth_error vs (fst ij)); now injection E). apply Skip; [exact Ev|]. intros i (a & b & f & _ & Q & _). congruence. }
  destruct (H _ _ Na) as (ba & Va & Ia). destruct (H _ _ Nb) as (bb & Vb & Ib). rewrite Va, Vb, conflict_may in E.
  apply bind_ok in E as (c & Ec & E). destruct c.
  2:{ injection E as <-. apply Skip; [reflexivity|]. intros i (a & b & f & Qa & Qb & Qc & _). congruence. }
  rewrite respect_may in E. apply bind_ok in E as (first & Er & E). injection E as <-.
  set (k := if first then fst ij else snd ij).
  assert (Ck : chosen g us ij k) by (exists ua, ub, first; tauto).
  assert (Ck' : forall i, chosen g us ij i -> i = k).
  { intros i (a & b & f & Qa & Qb & _ & Qr & ->). unfold k.
    assert (a = ua) as -> by congruence. assert (b = ub) as -> by congruence. assert (f = first) as -> by congruence. reflexivity. }
  assert (Hvs : exists uk bk, nth_error us k = Some uk /\ nth_error vs k = Some (may_force bk uk) /\
    (if first then update_nth (fst ij) (force (may_force ba ua)) vs else update_nth (snd ij) (force (may_force bb ub)) vs) = update_nth k (may_force true uk) vs).
  { unfold k. destruct first; [exists ua, ba | exists ub, bb]; (split; [assumption|]); (split; [assumption|]).
    - f_equal. destruct ba; cbn; [apply force_force | reflexivity].
    - f_equal. destruct bb; cbn; [apply force_force | reflexivity]. }
  destruct Hvs as (uk & bk & Nk & Vk & ->). split; [rewrite update_nth_length; exact Hl|]. intros i u Hu. destruct (Nat.eq_dec i k) as [->|Hik].
  - rewrite Nk in Hu. injection Hu as <-. exists true. split; [eapply nth_update_same; exact Vk|]. split; [|easy]. intros _. exists ij. split; [apply in_or_app; right; now left | exact Ck].
  - destruct (H i u Hu) as (b & Hb & Ibb). exists b. split; [rewrite nth_update_other by congruence; exact Hb|]. rewrite Ibb. split.
    + intros (x & Hx & Cx). exists x. split; [apply in_or_app; now left | exact Cx].
    + intros (x & Hx & Cx). apply in_app_or in Hx as [Hx | [<- | []]]; [eauto | elim Hik; now apply Ck'].
Qed.
Lemma enforce_fold_state g us pairs : (forall ij, In ij pairs -> fst ij <> snd ij) -> forall done vs vs', forced_state g us done vs ->
  foldM (enforce_pair g) pairs vs = Ok vs' -> forced_state g us (done ++ pairs) vs'.
Proof.
  induction pairs as [|ij pairs IH]; intros Hp done vs vs' H E; cbn [foldM] in E.
  - injection E as <-. rewrite app_nil_r. exact H.
  - apply bind_ok in E as (vs1 & E1 & E). replace (done ++ ij :: pairs) with ((done ++ [ij]) ++ pairs) by (rewrite <- app_assoc; reflexivity).
    eapply IH; [intros x Hx; apply Hp; now right | | exact E]. eapply enforce_pair_state; [apply Hp; now left | exact H | exact E1].
Qed.
Lemma all_pairs_In n i j : In (i, j) (all_pairs n) <-> (i < j < n)%nat.
Proof.
  unfold all_pairs. rewrite in_flat_map. split.
  - intros (a & Ha & H). apply in_map_iff in H as (b & [= <- <-] & Hb). apply in_seq in Ha, Hb. lia.
  - intros H. exists i. split; [apply in_seq; lia|]. apply in_map. apply in_seq. lia.
Qed.

Lemma unfreeze_ok yd g v u : unfreeze yd g v = Ok u ->
  is_controlled (v_kind u) = is_controlled (v_kind v) /\ can_be_forced u = can_be_forced v /\
  (forall w, is_conflict_possible g u w = is_conflict_possible g v w) /\ (forall w, is_conflict_possible g w u = is_conflict_possible g w v) /\
  (forall w, respect_priorities g u w = respect_priorities g v w) /\ (forall w, respect_priorities g w u = respect_priorities g w v).
Proof.
  unfold unfreeze. destruct (v_is_yielding v); [|intros [= <-]; tauto]. destruct (Rleb _ _).
  - intros E. apply bind_ok in E as (l & _ & E). destruct (v_has_color v); [|discriminate]. injection E as <-. do 5 (split; [reflexivity|]). reflexivity.
  - intros [= <-]. do 5 (split; [reflexivity|]). reflexivity.
Qed.
Lemma enforce_evaluated g us pairs : (forall ij, In ij pairs -> fst ij <> snd ij) -> forall done vs vs', forced_state g us done vs ->
  foldM (enforce_pair g) pairs vs = Ok vs' -> forall ij a b, In ij pairs -> nth_error us (fst ij) = Some a -> nth_error us (snd ij) = Some b ->
  exists c, is_conflict_possible g a b = Ok c /\ (c = true -> exists f, respect_priorities g a b = Ok f).
Proof.
  induction pairs as [|x pairs IH]; intros Hp done vs vs' H E ij a b I Na Nb; cbn [foldM] in E; [easy|].
  apply bind_ok in E as (vs1 & E1 & E). destruct I as [<-|I].
  - pose proof H as [_ H']. destruct (H' _ _ Na) as (ba & Va & _). destruct (H' _ _ Nb) as (bb & Vb & _). unfold enforce_pair in E1. rewrite Va, Vb, conflict_may in E1.
    apply bind_ok in E1 as (c & Ec & E1). exists c. split; [exact Ec|]. intros ->. rewrite respect_may in E1. apply bind_ok in E1 as (f & Ef & _). eauto.
  - eapply (IH (fun y Hy => Hp y (or_intror Hy)) (done ++ [x]) vs1 vs'); eauto. eapply enforce_pair_state; [apply Hp; now left | exact H | exact E1].
Qed.

Lemma enforce_spec yd rd rd' : enforce_road_rules yd rd = Ok rd' ->
  rd_net rd' = rd_net rd /\ rd_objects rd' = rd_objects rd /\ rd_record rd' = rd_record rd /\ rd_steps rd' = rd_steps rd /\
  List.length (rd_vehicles rd') = List.length (rd_vehicles rd) /\
  forall i v, nth_error (rd_vehicles rd) i = Some v -> exists u b, unfreeze yd (rd_net rd) v = Ok u /\
    nth_error (rd_vehicles rd') i = Some (may_force b u) /\
    (b = true <-> exists j w, j <> i /\ nth_error (rd_vehicles rd) j = Some w /\ conflict (rd_net rd) v w /\ yields_to (rd_net rd) v w (Nat.ltb j i)).
Proof.
  unfold enforce_road_rules. intros E. apply bind_ok in E as (us & M & E). apply bind_ok in E as (vs & F & E). injection E as <-. cbn [rd_net rd_objects rd_record rd_steps rd_vehicles set_vehicles].
  do 4 (split; [reflexivity|]). set (g := rd_net rd) in *.
  assert (Len : List.length us = List.length (rd_vehicles rd)) by (apply mapM_Forall2 in M; symmetry; eapply Forall2_length'; exact M).
  assert (S0 : forced_state g us [] us).
  { split; [reflexivity|]. intros i u Hu. exists false. split; [exact Hu|]. split; [easy|]. intros (ij & [] & _). }
  assert (Hp : forall ij, In ij (all_pairs (List.length us)) -> fst ij <> snd ij) by (intros [a b] H; apply all_pairs_In in H; cbn; lia).
  pose proof (enforce_fold_state g us _ Hp [] us vs S0 F) as [Hl H]. cbn [app] in H.
  pose proof (enforce_evaluated g us _ Hp [] us vs S0 F) as Ev.
  split; [congruence|]. intros i v Hv.
  apply mapM_Forall2 in M. destruct (Forall2_nth _ _ _ _ _ M Hv) as (u & Hu & Eu). exists u.
  destruct (H i u Hu) as (b & Hb & Ib). exists b. split; [exact Eu|]. split; [exact Hb|]. rewrite Ib. clear Ib Hb.
  pose proof (unfreeze_ok _ _ _ _ Eu) as (_ & _ & U1 & U2 & U3 & U4).
  assert (Back : forall j x, nth_error us j = Some x -> exists w, nth_error (rd_vehicles rd) j = Some w /\ unfreeze yd g w = Ok x).
  { intros j x Hx. destruct (nth_error (rd_vehicles rd) j) as [w|] eqn:Hw.
    - destruct (Forall2_nth _ _ _ _ _ M Hw) as (x' & Hx' & Ex). exists w. split; [reflexivity | congruence].
    - apply nth_error_None in Hw. assert (nth_error us j <> None) as Q by congruence. apply nth_error_Some in Q. lia. }
  split.
  - intros ([p q] & Hin & (a & bb & first & Na & Nb & Ec & Er & Ei)). apply all_pairs_In in Hin. cbn [fst snd] in *.
    destruct (Back _ _ Na) as (va & Hva & Eva). destruct (Back _ _ Nb) as (vb & Hvb & Evb).
    pose proof (unfreeze_ok _ _ _ _ Eva) as (_ & _ & A1 & A2 & A3 & A4). pose proof (unfreeze_ok _ _ _ _ Evb) as (_ & _ & B1 & B2 & B3 & B4).
    rewrite A1, B2 in Ec. rewrite A3, B4 in Er. pose proof (proj1 (conflict_iff _ _ _ _ Ec) eq_refl) as Cf. destruct (respect_spec _ _ _ _ Er) as [R1 R2].
    destruct first; subst i.
    + exists q, vb. split; [lia|]. split; [exact Hvb|]. assert (va = v) as -> by congruence. split; [exact Cf|].
      replace (Nat.ltb q p) with false by (symmetry; apply Nat.ltb_ge; lia). now apply R1.
    + exists p, va. split; [lia|]. split; [exact Hva|]. assert (vb = v) as -> by congruence. split; [now apply conflict_sym|].
      replace (Nat.ltb p q) with true by (symmetry; apply Nat.ltb_lt; lia). now apply R2.
  - intros (j & w & Hji & Hw & Cf & Yd). destruct (Forall2_nth _ _ _ _ _ M Hw) as (x & Hx & Ex).
    pose proof (unfreeze_ok _ _ _ _ Ex) as (_ & _ & X1 & X2 & X3 & X4).
    assert (Hi : (i < List.length us)%nat) by (apply nth_error_Some; congruence). assert (Hj : (j < List.length us)%nat) by (apply nth_error_Some; congruence).
    destruct (Nat.lt_ge_cases i j) as [L|L].
    + assert (Hin : In (i, j) (all_pairs (List.length us))) by (apply all_pairs_In; lia). exists (i, j). split; [exact Hin|].
      destruct (Ev _ _ _ Hin Hu Hx) as (c & Ec & Er). pose proof Ec as Ec'. rewrite U1, X2 in Ec'. assert (c = true) as -> by (apply (conflict_iff _ _ _ _ Ec'); exact Cf).
      destruct (Er eq_refl) as [f Ef]. exists u, x, f. cbn [fst snd]. do 3 (split; [assumption|]). split; [exact Ef|].
      destruct f; [reflexivity|]. exfalso. rewrite U3, X4 in Ef. apply respect_spec in Ef as [_ R2]. specialize (R2 eq_refl).
      replace (Nat.ltb j i) with false in Yd by (symmetry; apply Nat.ltb_ge; lia). exact (yields_excl _ _ _ _ Yd R2).
    + assert (Hin : In (j, i) (all_pairs (List.length us))) by (apply all_pairs_In; lia). exists (j, i). split; [exact Hin|].
      destruct (Ev _ _ _ Hin Hx Hu) as (c & Ec & Er). pose proof Ec as Ec'. rewrite X1, U2 in Ec'. assert (c = true) as -> by (apply (conflict_iff _ _ _ _ Ec'); now apply conflict_sym).
      destruct (Er eq_refl) as [f Ef]. exists x, u, f. cbn [fst snd]. do 3 (split; [assumption|]). split; [exact Ef|].
      destruct f; [exfalso|reflexivity]. rewrite X3, U4 in Ef. apply respect_spec in Ef as [R1 _]. specialize (R1 eq_refl).
      replace (Nat.ltb j i) with true in Yd by (symmetry; apply Nat.ltb_lt; lia). exact (yields_excl _ _ _ _ R1 Yd).
Qed.

(** ** Totality *)
Lemma position_along_total g rt s d : rt <> [] -> Forall (fun i => exists l, get_lane g i = Ok l) rt -> exists r, position_heading_along_route g rt s d = Ok r.
Proof.
  intros N F. revert s. induction F as [|r rt [l Gl] F IH]; intros s; [easy|]. cbn [position_heading_along_route]. rewrite Gl. cbn [bind].
  destruct rt as [|r1 rt]; [eauto|]. destruct (Rltb _ _); [|eauto]. apply IH. discriminate.
Qed.
Lemma predicted_total g v : is_controlled (v_kind v) = true -> lane_exists g (v_lane_index v) -> route_resolvable g v -> exists out, predicted g v = Ok out.
Proof.
  intros C L R. unfold predicted. rewrite C. unfold predict_constant_speed. destruct (get_lane_exists g _ L) as [l Gl]. rewrite Gl. cbn [bind].
  apply mapM_total. intros t _. apply position_along_total; [destruct (v_route v) as [[|]|]; discriminate|].
  unfold route_resolvable in R. destruct (v_route v) as [[|r rt]|]; [| exact R |]; (constructor; [eauto | constructor]).
Qed.
(** What the regulation needs from a vehicle. *)
Definition reg_ok (g : graph) (v : vehicle) : Prop :=
  well_placed g v /\ is_controlled (v_kind v) = true /\ route_resolvable g v /\ yield_state_ok v.
Lemma unfreeze_total yd g v : reg_ok g v -> exists u, unfreeze yd g v = Ok u /\ reg_ok g u /\ v_kind u = v_kind v.
Proof.
  intros (W & C & Rr & Y). unfold unfreeze. destruct (v_is_yielding v) eqn:Yv; [|exists v; unfold reg_ok; tauto].
  destruct (Y Yv) as [Hc Ht]. destruct (Rleb _ _).
  - destruct (get_lane_exists g _ (proj1 W)) as [l ->]. cbn [bind]. rewrite Hc. eexists. split; [reflexivity|]. split; [|reflexivity].
    split; [exact W|]. split; [exact C|]. split; [exact Rr|]. intros Q. discriminate Q.
  - eexists. split; [reflexivity|]. split; [|reflexivity]. split; [exact W|]. split; [exact C|]. split; [exact Rr|]. intros _. cbn. split; [exact Hc | lia].
Qed.
Lemma force_ok g v : reg_ok g v -> reg_ok g (force v) /\ v_kind (force v) = v_kind v.
Proof.
  intros (W & C & Rr & Y). unfold force. destruct (can_be_forced v); [|unfold reg_ok; tauto]. split; [|reflexivity].
  split; [exact W|]. split; [exact C|]. split; [exact Rr|]. intros _. cbn. split; [reflexivity | lia].
Qed.
Lemma enforce_pair_total g vs ij : Forall (reg_ok g) vs -> exists vs', enforce_pair g vs ij = Ok vs' /\ Forall (reg_ok g) vs' /\ Forall2 (fun a b => v_kind b = v_kind a) vs vs'.
Proof.
  intros F. unfold enforce_pair.
  assert (Rf : Forall2 (fun a b : vehicle => v_kind b = v_kind a) vs vs) by (apply Forall2_refl'; reflexivity).
  destruct (nth_error vs (fst ij)) as [v1|] eqn:N1; [|eauto]. destruct (nth_error vs (snd ij)) as [v2|] eqn:N2; [|eauto].
  assert (H1 : reg_ok g v1) by (rewrite Forall_forall in F; apply F; eapply nth_error_In; exact N1).
  assert (H2 : reg_ok g v2) by (rewrite Forall_forall in F; apply F; eapply nth_error_In; exact N2).
  unfold is_conflict_possible. destruct (predicted_total g v1) as [p1 ->]; [apply H1 | apply (proj1 (proj1 H1)) | apply H1 |].
  destruct (predicted_total g v2) as [p2 ->]; [apply H2 | apply (proj1 (proj1 H2)) | apply H2 |]. cbn [bind]. destruct (existsb _ _); [|eauto].
  unfold respect_priorities. destruct (get_lane_exists g _ (proj1 (proj1 H1))) as [l1 ->]. destruct (get_lane_exists g _ (proj1 (proj1 H2))) as [l2 ->]. cbn [bind].
  assert (Up : forall k v, nth_error vs k = Some v -> reg_ok g v -> Forall (reg_ok g) (update_nth k (force v) vs) /\ Forall2 (fun a b => v_kind b = v_kind a) vs (update_nth k (force v) vs)).
  { intros k v Nv Hv. destruct (force_ok g v Hv) as [Hf Kf]. split.
    - apply Forall_forall. intros w Hw. apply update_nth_In in Hw as [->|Hw]; [exact Hf | rewrite Forall_forall in F; now apply F].
    - eapply Forall2_update; [reflexivity | exact Nv | exact Kf]. }
  match goal with |- context [if ?b then update_nth _ _ _ else _] => destruct b end; eexists; (split; [reflexivity|]); apply Up; assumption.
Qed.
Lemma enforce_total yd rd : Forall (reg_ok (rd_net rd)) (rd_vehicles rd) ->
  exists rd', enforce_road_rules yd rd = Ok rd' /\ rd_net rd' = rd_net rd /\ rd_objects rd' = rd_objects rd /\ Forall (reg_ok (rd_net rd)) (rd_vehicles rd') /\
    Forall2 (fun a b => v_kind b = v_kind a) (rd_vehicles rd) (rd_vehicles rd').
Proof.
  intros F. unfold enforce_road_rules. set (g := rd_net rd) in *.
  assert (exists us, mapM (unfreeze yd g) (rd_vehicles rd) = Ok us /\ Forall (reg_ok g) us /\ Forall2 (fun a b => v_kind b = v_kind a) (rd_vehicles rd) us) as (us & -> & Fu & Ku).
  { induction F as [|v vs Hv F IH]; [exists []; repeat split; constructor|]. destruct IH as (us & E & Fu & Ku).
    destruct (unfreeze_total yd g v Hv) as (u & Eu & Hu & K). exists (u :: us). cbn [mapM]. rewrite Eu, E. cbn. split; [reflexivity|]. split; constructor; assumption. }
  cbn [bind]. generalize (all_pairs (List.length us)) as pairs. intros pairs.
  assert (exists vs, foldM (enforce_pair g) pairs us = Ok vs /\ Forall (reg_ok g) vs /\ Forall2 (fun a b => v_kind b = v_kind a) us vs) as (vs & -> & Fv & Kv).
  { clear Ku. revert us Fu. induction pairs as [|ij pairs IH]; intros us Fu; cbn [foldM].
    - exists us. split; [reflexivity|]. split; [exact Fu | apply Forall2_refl'; reflexivity].
    - destruct (enforce_pair_total g us ij Fu) as (us1 & -> & F1 & K1). cbn [bind]. destruct (IH us1 F1) as (vs & -> & Fv & Kv). exists vs. split; [reflexivity|]. split; [exact Fv|].
      eapply Forall2_trans'; [|exact K1 | exact Kv]. intros. cbn in *. congruence. }
  cbn [bind]. eexists. split; [reflexivity|]. cbn. do 2 (split; [reflexivity|]). split; [exact Fv|]. eapply Forall2_trans'; [|exact Ku | exact Kv]. intros. cbn in *. congruence.
Qed.
Lemma regulated_iff rd : regulated rd <-> built (rd_net rd) /\ rd_net rd <> [] /\ Forall (reg_ok (rd_net rd)) (rd_vehicles rd) /\ linear_compatible rd.
Proof.
  unfold regulated, runnable, reg_ok. rewrite Forall_forall. split.
  - intros ((B & N & P & L) & H). split; [exact B|]. split; [exact N|]. split; [|exact L]. intros v Hv. specialize (P v Hv). specialize (H v Hv). tauto.
  - intros (B & N & H & L). split; [split; [exact B|]; split; [exact N|]; split; [|exact L]|]; intros v Hv; specialize (H v Hv); tauto.
Qed.
Lemma kinds_compatible rd vs' : Forall2 (fun a b => v_kind b = v_kind a) (rd_vehicles rd) vs' -> linear_compatible rd ->
  linear_compatible (set_vehicles rd vs').
Proof.
  intros F [H|[H1 H2]]; [left | right; split; [|exact H2]]; cbn; intros v Hv; destruct (Forall2_In_r _ _ _ F v Hv) as (w & Hw & ->); auto.
Qed.
Lemma route_tail g v w : route_resolvable g v -> (v_route w = v_route v \/ exists r rt, v_route v = Some (r :: rt) /\ v_route w = Some rt) -> route_resolvable g w.
Proof.
  unfold route_resolvable. intros H [-> | (r & rt & E & ->)]; [exact H|]. rewrite E in H. now inversion H.
Qed.
Lemma follow_road_route g draw v v' : follow_road g draw v = Ok v' ->
  v_route v' = v_route v \/ exists r rt, v_route v = Some (r :: rt) /\ v_route v' = Some rt.
Proof.
  unfold follow_road. intros E. apply bind_ok in E as (l & _ & E). destruct (after_end _ _ _); [|injection E as <-; now left].
  destruct (next_lane _ _ _ _ _) as [rt' r] eqn:N. apply bind_ok in E as (i & _ & E). injection E as <-.
  destruct (v_route v) as [rt|] eqn:Er; cbn [set_target_lane set_route v_route]; [|left; exact Er].
  unfold next_lane in N. destruct (next_lane_route (v_target_lane v) rt) as [rt1 pl] eqn:Nr. injection N as <- _.
  unfold next_lane_route in Nr. destruct rt as [|r0 rt]; [left; injection Nr as <- _; reflexivity|].
  destruct (same_road r0 _).
  - right. exists r0, rt. split; [reflexivity|]. destruct rt as [|r1 rt]; [now injection Nr as <- _|]. destruct (String.eqb _ _); now injection Nr as <- _.
  - left. destruct (String.eqb _ _); now injection Nr as <- _.
Qed.
Lemma vehicle_act_route rd draw v v' : vehicle_act rd draw v = Ok v' ->
  v_route v' = v_route v \/ exists r rt, v_route v = Some (r :: rt) /\ v_route v' = Some rt.
Proof.
  assert (Cn : forall g u u', controlled_act g draw u None = Ok u' -> v_route u' = v_route u \/ exists r rt, v_route u = Some (r :: rt) /\ v_route u' = Some rt).
  { intros g u u' E. unfold controlled_act in E. apply bind_ok in E as (u1 & F & E). cbn [apply_meta bind] in E.
    unfold low_level in E. apply bind_ok in E as (st & _ & E). injection E as <-. cbn. eapply follow_road_route; exact F. }
  assert (Id : forall u u', idm_act rd draw u = Ok u' -> v_route u' = v_route u \/ exists r rt, v_route u = Some (r :: rt) /\ v_route u' = Some rt).
  { intros u u' E. destruct (v_crashed u) eqn:C.
    - unfold idm_act in E. apply bind_ok in E as (_ & _ & E). rewrite C in E. injection E as <-. now left.
    - apply idm_act_ok in E as (_ & _ & _ & _ & f & r & v1 & v2 & st & a & _ & F & P & _ & _ & ->); [|exact C]. cbn.
      assert (v_route v2 = v_route v1) as ->; [|eapply follow_road_route; exact F].
      destruct (v_enable_lane_change u); [|now injection P as <-]. apply policy_only_target, only_target_vehicle in P. tauto. }
  unfold vehicle_act. destruct (v_kind v); intros E; [injection E as <-; now left | injection E as <-; now left | eapply Cn; exact E | | now apply Id | now apply Id].
  unfold mdp_act in E. eapply Cn; exact E.
Qed.
Lemma regulated_act_one draws rd i : draw_ok (draws i) -> regulated rd -> exists rd', act_one draws rd i = Ok rd' /\ regulated rd'.
Proof.
  intros D [Rn H]. destruct (runnable_act_one draws rd i D Rn) as (rd' & E & Rn'). exists rd'. split; [exact E|]. split; [exact Rn'|].
  unfold act_one in E. destruct (nth_error _ i) as [v|] eqn:N; [|injection E as <-; exact H].
  apply bind_ok in E as (v' & A & E). injection E as <-. cbn. intros w Hw. apply update_nth_In in Hw as [->|Hw]; [|now apply H].
  assert (Hv : In v (rd_vehicles rd)) by (eapply nth_error_In; exact N). destruct (H v Hv) as (C & Rr & Y).
  pose proof (vehicle_act_same _ _ _ _ A) as Sm. unfold same_vehicle in Sm. unfold yield_state_ok in *.
  destruct Sm as (_ & -> & _ & _ & _ & _ & _ & _ & _ & _ & _ & _ & -> & -> & ->). split; [exact C|]. split; [|exact Y].
  eapply route_tail; [exact Rr | eapply vehicle_act_route; exact A].
Qed.
Lemma regulated_act draws rd : (forall i, draw_ok (draws i)) -> regulated rd -> exists rd', road_act draws rd = Ok rd' /\ regulated rd'.
Proof.
  intros D. unfold road_act. generalize (seq 0 (List.length (rd_vehicles rd))) as l. intros l. revert rd.
  induction l as [|i l IH]; intros rd Rn; cbn [foldM]; [eauto|].
  destruct (regulated_act_one draws rd i (D i) Rn) as (rd1 & -> & R1). cbn [bind]. now apply IH.
Qed.
Lemma regulated_road_step rd dt : regulated rd -> exists rd', road_step rd dt = Ok rd' /\ regulated rd'.
Proof.
  intros [Rn H]. destruct (runnable_step rd dt Rn) as (rd' & E & Rn'). exists rd'. split; [exact E|]. split; [exact Rn'|].
  apply road_step_stepped in E as (En & _ & _ & F & _). rewrite En. intros w Hw. destruct (Forall2_In_r _ _ _ F w Hw) as (v & Hv & Sp & _).
  destruct (H v Hv) as (C & Rr & Y). unfold stepped in Sp. unfold yield_state_ok, route_resolvable in *.
  destruct Sp as (_ & -> & _ & _ & _ & -> & _ & _ & _ & _ & -> & -> & ->). tauto.
Qed.
Lemma regulated_set_steps rd k : regulated rd <-> regulated (set_steps rd k).
Proof. unfold regulated, runnable, linear_compatible. cbn. tauto. Qed.
Lemma regulated_enforce yd rd : regulated rd -> exists rd', enforce_road_rules yd rd = Ok rd' /\ regulated rd'.
Proof.
  intros H. apply regulated_iff in H as (B & N & F & L). destruct (enforce_total yd rd F) as (rd' & E & En & Eo & F' & K). exists rd'. split; [exact E|].
  apply regulated_iff. rewrite En. do 2 (split; [assumption|]). split; [exact F'|].
  pose proof (kinds_compatible _ _ K L) as Q. unfold linear_compatible in *. cbn in Q. rewrite Eo. exact Q.
Qed.
Lemma Rtrunc_nonneg x k : 0 <= x -> (Rtrunc x = k <-> IZR k <= x < IZR k + 1).
Proof.
  intros H. unfold Rtrunc, Rfloor. rewrite Rleb_le by exact H. destruct (base_Int_part x) as [A B]. split.
  - intros <-. lra.
  - intros [C D]. assert (IZR (Int_part x) < IZR (k + 1)) by (rewrite plus_IZR; lra). assert (IZR k < IZR (Int_part x + 1)) by (rewrite plus_IZR; lra).
    apply lt_IZR in H0, H1. lia.
Qed.
Lemma regulation_period_spec dt k : 0 < dt -> (regulation_period dt = k <-> IZR k <= 1 / (2 * dt) < IZR k + 1).
Proof.
  intros H. unfold regulation_period, REGULATION_FREQUENCY. replace (1 / dt / 2) with (1 / (2 * dt)) by (field; lra).
  apply Rtrunc_nonneg. apply Rlt_le. apply Rdiv_lt_0_compat; lra.
Qed.
Lemma regulation_period_pos dt : 0 < dt <= 1/2 -> (0 < regulation_period dt)%Z.
Proof.
  intros [H0 H1]. destruct (proj1 (regulation_period_spec dt _ H0) eq_refl) as [A B].
  assert (1 <= 1 / (2 * dt)) by (apply (Rmult_le_reg_r (2 * dt)); [lra|]; replace (1 / (2 * dt) * (2 * dt)) with 1 by (field; lra); lra).
  assert (0 < IZR (regulation_period dt)) by lra. now apply lt_IZR.
Qed.
Lemma regulation_period_zero dt : 1/2 < dt -> regulation_period dt = 0%Z.
Proof.
  intros H. apply regulation_period_spec; [lra|]. split; [apply Rlt_le, Rdiv_lt_0_compat; lra|].
  apply (Rmult_lt_reg_r (2 * dt)); [lra|]. replace (1 / (2 * dt) * (2 * dt)) with 1 by (field; lra). lra.
Qed.
Lemma regulated_step_total yd rd dt : 0 < dt <= 1/2 -> regulated rd -> exists rd', regulated_step yd rd dt = Ok rd' /\ regulated rd'.
Proof.
  intros Hd H. unfold regulated_step. rewrite (proj2 (Reqb_false dt 0)) by lra. pose proof (regulation_period_pos dt Hd) as P.
  destruct (Z.eqb_spec (regulation_period dt) 0) as [Q|_]; [lia|].
  apply (proj1 (regulated_set_steps rd (rd_steps rd + 1))) in H. cbv zeta.
  destruct (_ =? 0)%Z.
  - destruct (regulated_enforce yd _ H) as (rd2 & -> & H2). cbn [bind]. now apply regulated_road_step.
  - cbn [bind]. now apply regulated_road_step.
Qed.
Lemma simulates_regulated_total yd dt n : 0 < dt <= 1/2 -> forall rd, regulated rd -> exists frames, List.length frames = n /\ simulates_regulated yd dt rd frames.
Proof.
  intros Hd. induction n as [|n IH]; intros rd Rn; [exists []; split; [reflexivity | constructor]|].
  assert (D : forall i : nat, draw_ok (fun n => 0%nat)) by (intros i m Hm; exact Hm).
  destruct (regulated_act (fun _ _ => 0%nat) rd D Rn) as (rd1 & A & R1). destruct (regulated_step_total yd rd1 dt Hd R1) as (rd2 & E & R2).
  destruct (IH rd2 R2) as (fs & L & F). exists (rd2 :: fs). split; [cbn; now rewrite L|]. econstructor; [exact D | exact A | exact E | exact F].
Qed.
Lemma simulates_regulated_inv yd dt rd frames : 0 < dt <= 1/2 -> regulated rd -> simulates_regulated yd dt rd frames -> Forall regulated frames.
Proof.
  intros Hd Rn F. induction F as [|rd draws rd1 rd2 fs D A E F IH]; constructor.
  - destruct (regulated_act draws rd D Rn) as (rd1' & A' & R1). rewrite A in A'. injection A' as <-.
    destruct (regulated_step_total yd rd1 dt Hd R1) as (rd2' & E' & R2). rewrite E in E'. now injection E' as <-.
  - apply IH. destruct (regulated_act draws rd D Rn) as (rd1' & A' & R1). rewrite A in A'. injection A' as <-.
    destruct (regulated_step_total yd rd1 dt Hd R1) as (rd2' & E' & R2). rewrite E in E'. now injection E' as <-.
Qed.
(** The step counter. *)
Lemma regulated_step_steps yd rd dt rd' : regulated_step yd rd dt = Ok rd' -> rd_steps rd' = (rd_steps rd + 1)%Z.
Proof.
  unfold regulated_step. destruct (Reqb dt 0); [discriminate|]. destruct (_ =? 0)%Z; [discriminate|]. intros E. apply bind_ok in E as (rd2 & E2 & E).
  apply road_step_stepped in E as (_ & _ & -> & _). destruct (_ =? 0)%Z; [|injection E2 as <-; reflexivity].
  apply enforce_spec in E2 as (_ & _ & _ & -> & _). reflexivity.
Qed.
Lemma simulates_regulated_steps yd dt rd frames : simulates_regulated yd dt rd frames ->
  forall k f, nth_error frames k = Some f -> rd_steps f = (rd_steps rd + Z.of_nat (S k))%Z.
Proof.
  induction 1 as [|rd draws rd1 rd2 fs D A E F IH]; intros [|k] f N; cbn [nth_error] in N; try discriminate.
  - injection N as <-. apply regulated_step_steps in E. apply road_act_acted in A as (_ & _ & _ & As & _). rewrite E, As. reflexivity.
  - rewrite (IH k f N). apply regulated_step_steps in E. apply road_act_acted in A as (_ & _ & _ & As & _). rewrite E, As. lia.
Qed.
