(** C92: the route hypotheses of a MultipleModelVehicle. *)
From Coq Require Import Lia Lra.
From Verif Require Import Prelude M_Utils M_Lane M_Road M_Vehicle M_Kinematics M_Control M_Behavior M_Interval M_Regression M_Models
  S_Interval S_Regression S_Models P_Base P_Interval P_Regression P_Behavior P_Grid P_Models T_Regression.
Open Scope R_scope.

Lemma thinks_numbered la hist : forall m m', numbered m -> thinks la hist m = Ok m' -> numbered m'.
Proof.
  induction hist as [|[rd v] hist IH]; intros m m' N E; [cbn in E; injection E as <-; exact N|].
  unfold thinks in E. cbn [foldM fst snd] in E. destruct (think la rd v m) as [[v1 m1]|] eqn:Et; [cbn [bind] in E|discriminate].
  eapply IH; [|exact E]. eapply think_numbered; eassumption.
Qed.
Lemma reachable_numbered la m : reachable_models la m -> numbered m.
Proof. intros (hist & E). eapply thinks_numbered; [exact numbered_nothing|exact E]. Qed.
Lemma passes_iff la h : passes la (hy_samples h) <-> inconsistent la h = false.
Proof.
  unfold passes, inconsistent. destruct (hy_samples h) as [|s ss]; [tauto|]. destruct (consistent_total la s ss) as (b & ->). split.
  - intros [H|H]; [discriminate|]. injection H as ->. reflexivity.
  - intros H. right. destruct b; [reflexivity|discriminate].
Qed.

(** A vehicle without a planned route never forms a hypothesis. *)
Theorem C92_no_route_no_hypothesis la rd v :
  v_route v = None \/ v_route v = Some [] -> think la rd v no_models = Ok (v, no_models).
Proof. intros [E|E]; unfold think, update_possible_routes, consider_all, candidates; rewrite E; reflexivity. Qed.

Lemma first_lane_map rt : map first_lane rt = map lane_or_first rt.
Proof. apply map_ext. intros [[a b] [k|]]; reflexivity. Qed.
(** Every candidate route becomes a hypothesis, unknown lanes being read as lane 0; the
    hypotheses at hand are kept with their samples, their routes at most extended; at
    most one hypothesis per candidate is added, without samples. *)
Theorem C92_candidates_considered la g v m v' m' :
  reachable_models la m -> consider_all g v m = (v', m') ->
  (forall c, In c (get_routes_at_intersection g (v_route v)) ->
     exists h, In h (mm_hyps m') /\ get_list v' m' (hy_route h) = map lane_or_first c) /\
  (forall h, In h (mm_hyps m) -> exists h', In h' (mm_hyps m') /\ hy_data h' = hy_data h /\ hy_samples h' = hy_samples h /\
     exists more, get_list v' m' (hy_route h') = (get_list v m (hy_route h) ++ more)%list \/
                  get_list v' m' (hy_route h') = (map lane_or_first (get_list v m (hy_route h)) ++ more)%list) /\
  (forall h', In h' (mm_hyps m') -> hy_samples h' = [] \/ exists h, In h (mm_hyps m) /\ hy_data h' = hy_data h /\ hy_samples h' = hy_samples h) /\
  (List.length (mm_hyps m') <= List.length (mm_hyps m) + List.length (get_routes_at_intersection g (v_route v)))%nat.
Proof.
  intros N E. apply reachable_numbered in N. destruct (consider_all_spec g v m v' m' N E) as (N' & (_ & pre & post & Ep & Fs & Fp) & _ & C & K & L).
  split; [intros c Ic; rewrite <- first_lane_map; exact (C c Ic)|]. split; [|split; [|exact L]].
  - intros h I. destruct (K h I) as (h' & I' & D & P). exists h'. split; [exact I'|]. split; [exact D|]. split.
    + destruct (forall2_in _ _ _ _ Fs I) as (h2 & I2 & D2 & S2).
      assert (X : h' = h2); [|now rewrite X].
      assert (I2' : In h2 (mm_hyps m')) by (rewrite Ep; apply in_or_app; now left).
      destruct N' as (_ & _ & ND). clear - ND I' I2' D D2. assert (Q : hy_data h' = hy_data h2) by congruence. clear D D2.
      revert ND I' I2'. induction (mm_hyps m') as [|a l IH]; intros ND I1 I2; [easy|]. cbn in ND. inversion ND as [|? ? Na ND']; subst.
      destruct I1 as [->|I1], I2 as [->|I2]; [reflexivity| | |now apply IH]; exfalso; apply Na; [rewrite Q|rewrite <- Q]; now apply in_map.
    + destruct P as [(more & P)|(more & P)]; exists more; [now left|right; rewrite <- first_lane_map; exact P].
  - intros h' I. rewrite Ep in I. apply in_app_or in I as [I|I].
    + right. destruct (forall2_in_r _ _ _ _ Fs I) as (h & Ih & D & S2). exists h. now split.
    + left. rewrite Forall_forall in Fp. now apply Fp.
Qed.

(** One call of [act]: exactly the hypotheses whose samples pass the test survive, each
    with one more sample; new hypotheses start with one sample. *)
Theorem C92_survivors la rd v m v' m' :
  reachable_models la m -> think la rd v m = Ok (v', m') ->
  (forall h, In h (mm_hyps m) ->
     ((exists h' s, In h' (mm_hyps m') /\ hy_data h' = hy_data h /\ hy_samples h' = (hy_samples h ++ [s])%list) <-> passes la (hy_samples h)) /\
     (~ passes la (hy_samples h) -> forall h', In h' (mm_hyps m') -> hy_data h' <> hy_data h)) /\
  (forall h', In h' (mm_hyps m') -> (exists h, In h (mm_hyps m) /\ hy_data h' = hy_data h) \/ List.length (hy_samples h') = 1%nat) /\
  set_route v' None = set_route v None.
Proof.
  intros N E. apply reachable_numbered in N. unfold think in E.
  destruct (update_possible_routes la (rd_net rd) v m) as [[v1 m1]|] eqn:Eu; [cbn [bind] in E|discriminate].
  destruct (record_all rd v1 m1) as [m2|] eqn:Er; [cbn [bind] in E|discriminate]. injection E as <- <-.
  destruct (update_spec la _ v m v1 m1 N Eu) as (N1 & Sv & _ & va & ma & Ec & Na & (_ & pre & post & Ep & Fs & Fp) & Ef).
  destruct (record_spec rd v1 m1 m2 Er) as (En & _ & F). 
  assert (Back : forall h', In h' (mm_hyps m2) -> exists k s, In k (mm_hyps ma) /\ inconsistent la k = false /\ hy_data h' = hy_data k /\ hy_samples h' = (hy_samples k ++ [s])%list).
  { intros h' I. destruct (forall2_in_r _ _ _ _ F I) as (k & Ik & _ & D & r0 & rt & s & _ & _ & S2). rewrite Ef in Ik. apply filter_In in Ik as [Ik Q].
    exists k, s. split; [exact Ik|]. split; [now destruct (inconsistent la k)|]. now split. }
  assert (Uniq : forall a b, In a (mm_hyps ma) -> In b (mm_hyps ma) -> hy_data a = hy_data b -> a = b).
  { destruct Na as (_ & _ & ND). clear - ND. intros a b. revert ND. induction (mm_hyps ma) as [|x l IH]; intros ND Ia Ib Q; [easy|]. cbn in ND. inversion ND as [|? ? Nx ND']; subst.
    destruct Ia as [->|Ia], Ib as [->|Ib]; [reflexivity| | |now apply IH]; exfalso; apply Nx; [rewrite Q|rewrite <- Q]; now apply in_map. }
  split; [|split; [|exact Sv]].
  - intros h Ih. destruct (forall2_in _ _ _ _ Fs Ih) as (k & Ik & Dk & Sk). assert (Ik' : In k (mm_hyps ma)) by (rewrite Ep; apply in_or_app; now left).
    assert (Pk : passes la (hy_samples h) <-> inconsistent la k = false) by (rewrite <- Sk; apply passes_iff).
    assert (Surv : inconsistent la k = false -> exists h' s, In h' (mm_hyps m2) /\ hy_data h' = hy_data h /\ hy_samples h' = (hy_samples h ++ [s])%list).
    { intros Q. assert (I1 : In k (mm_hyps m1)) by (rewrite Ef; apply filter_In; split; [exact Ik'|now rewrite Q]).
      destruct (forall2_in _ _ _ _ F I1) as (h' & I' & _ & D' & r0 & rt & s & _ & _ & S'). exists h', s. split; [exact I'|]. split; [congruence|now rewrite <- Sk]. }
    assert (Cons : (exists h' : hypothesis, In h' (mm_hyps m2) /\ hy_data h' = hy_data h) -> inconsistent la k = false).
    { intros (h' & I' & D'). destruct (Back h' I') as (k' & s & Ik2 & Q & D2 & _). rewrite (Uniq k k'); [exact Q|exact Ik'|exact Ik2|congruence]. }
    split; [split|].
    + intros (h' & s & I' & D' & _). apply Pk. apply Cons. now exists h'.
    + intros P. apply Surv. now apply Pk.
    + intros NP h' I' D'. apply NP. apply Pk. apply Cons. now exists h'.
  - intros h' I'. destruct (Back h' I') as (k & s & Ik & _ & D & S2). rewrite Ep in Ik. apply in_app_or in Ik as [Ik|Ik].
    + left. destruct (forall2_in_r _ _ _ _ Fs Ik) as (h & Ih & Dk & _). exists h. split; [exact Ih|congruence].
    + right. rewrite Forall_forall in Fp. destruct (Fp k Ik) as [Q _]. rewrite S2, Q. reflexivity.
Qed.

Lemma explained_passes la theta ss : numpy_contract 2 la -> usual_gains theta -> explained_samples theta ss -> passes la ss.
Proof.
  intros C (U1 & U2) X. destruct ss as [|s ss]; [now left|]. right.
  apply (C87_never_rejected la 2 _ _ _ (vec2 theta) C).
  - destruct (explained_data theta (s :: ss) X) as (_ & L & F & _). split; [lia|]. split; [cbn; lia|]. split; [exact L|exact F].
  - now apply explained_data.
  - split; [reflexivity|]. split; [reflexivity|]. intros [|[|i]] Hi; cbn [vec2 List.length] in Hi; try lia; cbn; [exact U1|exact U2].
Qed.
(** The hypothesis that the vehicle follows is never rejected, whatever the length of
    the history, if its gains are within the range the test is made for. *)
Theorem C92_followed_hypothesis_survives la theta d hist : numpy_contract 2 la -> usual_gains theta ->
  forall m0 m m' h, thinks la m0 no_models = Ok m -> In h (mm_hyps m) -> hy_data h = d -> explained_samples theta (hy_samples h) ->
  follows_hypothesis la theta d m hist -> thinks la hist m = Ok m' ->
  exists h', In h' (mm_hyps m') /\ hy_data h' = d /\ List.length (hy_samples h') = (List.length (hy_samples h) + List.length hist)%nat /\
    exists more, hy_samples h' = (hy_samples h ++ more)%list.
Proof.
  intros C U m0 m m' h R I D X Fo T.
  assert (N : numbered m) by (eapply thinks_numbered; [exact numbered_nothing|exact R]). clear m0 R.
  revert m h N I D X Fo T. induction hist as [|[rd v] hist IH]; intros m h N I D X Fo T.
  - cbn in T. injection T as <-. exists h. split; [exact I|]. split; [exact D|]. split; [cbn; lia|]. exists []. now rewrite app_nil_r.
  - destruct Fo as (Th & Ft & Fo). unfold thinks in T. cbn [foldM fst snd] in T. destruct (think la rd v m) as [[v2 m2]|] eqn:Et; [cbn [bind] in T|discriminate].
    pose proof (think_numbered la rd v m v2 m2 N Et) as N2. specialize (Fo v2 m2 eq_refl).
    unfold think in Et. destruct (update_possible_routes la (rd_net rd) v m) as [[v1 m1]|] eqn:Eu; [cbn [bind] in Et|discriminate].
    destruct (record_all rd v1 m1) as [m3|] eqn:Er; [cbn [bind] in Et|discriminate]. injection Et as <- <-.
    destruct (update_spec la _ v m v1 m1 N Eu) as (N1 & Sv & _ & va & ma & Ec & Na & (_ & pre & post & Ep & Fs & Fp) & Ef).
    destruct (record_spec rd v1 m1 m3 Er) as (En & _ & F).
    destruct (forall2_in _ _ _ _ Fs I) as (k & Ik & Dk & Sk). assert (Ik' : In k (mm_hyps ma)) by (rewrite Ep; apply in_or_app; now left).
    assert (Q : inconsistent la k = false) by (apply passes_iff; rewrite Sk; now apply (explained_passes la theta)).
    assert (I1 : In k (mm_hyps m1)) by (rewrite Ef; apply filter_In; split; [exact Ik'|now rewrite Q]).
    destruct (forall2_in _ _ _ _ F I1) as (h' & I' & _ & D' & r0 & rt & s & G & A & S').
    destruct (Ft v1 m1 k eq_refl I1 ltac:(congruence)) as (rest & G'). rewrite G in G'. injection G' as -> _.
    assert (Xs : List.length (sm_steer s) = 2%nat /\ sm_steer_out s = lv_dot (vec2 theta) (sm_steer s)).
    { rewrite (sbr_target _ _ Sv) in A. unfold add_features in A. destruct (neighbour_vehicles rd v1 None) as [[fr re]|]; [cbn [bind] in A|discriminate].
      destruct (linear_features _ _ _ _) as [f|]; [cbn [bind] in A|discriminate]. destruct (get_lane _ _) as [l|]; [cbn [bind] in A|discriminate].
      injection A as <-. cbn [sm_steer sm_steer_out]. rewrite (sbr_par _ _ Sv), Th. split; [|reflexivity].
      destruct (features_two l (v_pos v1) (v_heading v1) (v_speed v1)) as (a & b & ->). reflexivity. }
    destruct (IH m3 h' N2 I' ltac:(congruence)) as (h2 & I2 & D2 & L2 & more & E2).
    + rewrite S', Sk. unfold explained_samples in *. apply Forall_app. split; [exact X|]. constructor; [exact Xs|constructor].
    + exact Fo.
    + exact T.
    + exists h2. split; [exact I2|]. split; [exact D2|]. rewrite E2, S', Sk in *. split; [rewrite L2; rewrite !app_length; cbn; lia|]. exists ([s] ++ more)%list. now rewrite app_assoc.
Qed.

(** Finding: a vehicle that passes the end of the last road of its route, without an
    intersection ahead, cannot act: the hypothesis that it stays on its route runs out of
    roads and the next index fails, unless the hypothesis is rejected at that very call. *)
Lemma step_empty g hs : forall v m v' m' k, get_list v m k = [] -> foldM (step_one g) hs (v, m) = Ok (v', m') ->
  get_list v' m' k = [] /\ (forall h, In h hs -> hy_route h <> k).
Proof.
  induction hs as [|h hs IH]; intros v m v' m' k G E; [cbn in E; injection E as <- <-; now split|].
  cbn [foldM] in E. unfold step_one at 1 in E. destruct (get_list v m (hy_route h)) as [|r0 rest] eqn:Gh; [discriminate|].
  destruct (get_lane g r0) as [l|]; [cbn [bind] in E|discriminate].
  assert (Ne : hy_route h <> k) by congruence.
  assert (X : forall v1 m1, get_list v1 m1 k = [] -> foldM (step_one g) hs (v1, m1) = Ok (v', m') -> get_list v' m' k = [] /\ forall h', In h' (h :: hs) -> hy_route h' <> k).
  { intros v1 m1 G1 E1. destruct (IH _ _ _ _ k G1 E1) as [A B]. split; [exact A|]. intros h' [<-|I']; [exact Ne|now apply B]. }
  destruct (after_end l (v_pos v) None).
  - destruct (set_list v m (hy_route h) rest) as [v1 m1] eqn:Es. apply (X v1 m1); [|exact E].
    rewrite (set_list_get _ _ _ _ _ _ k Es). destruct (Nat.eqb_spec k (hy_route h)); [congruence|exact G].
  - now apply (X v m).
Qed.
Lemma step_last g hs i l p : forall v m v' m' h, get_lane g i = Ok l -> after_end l p None = true -> v_pos v = p -> In h hs -> get_list v m (hy_route h) = [i] ->
  foldM (step_one g) hs (v, m) = Ok (v', m') -> get_list v' m' (hy_route h) = [].
Proof.
  induction hs as [|h0 hs IH]; intros v m v' m' h Gl Ae Ep I G E; [easy|].
  cbn [foldM] in E. unfold step_one at 1 in E. destruct (Nat.eq_dec (hy_route h0) (hy_route h)) as [Q|Q].
  - rewrite Q, G, Gl in E. cbn [bind] in E. rewrite Ep, Ae in E. destruct (set_list v m (hy_route h) []) as [v1 m1] eqn:Es.
    apply (step_empty g hs v1 m1 v' m' (hy_route h)); [|exact E]. rewrite (set_list_get _ _ _ _ _ _ _ Es), Nat.eqb_refl. reflexivity.
  - destruct (get_list v m (hy_route h0)) as [|r0 rest] eqn:Gh; [discriminate|]. destruct (get_lane g r0) as [l0|]; [cbn [bind] in E|discriminate].
    assert (I' : In h hs) by (destruct I as [->|I]; [contradiction|exact I]).
    destruct (after_end l0 (v_pos v) None).
    + destruct (set_list v m (hy_route h0) rest) as [v1 m1] eqn:Es. apply (IH v1 m1 v' m' h Gl Ae); try assumption.
      * rewrite (sbr_pos _ _ (set_list_vehicle _ _ _ _ _ _ Es)). exact Ep.
      * rewrite (set_list_get _ _ _ _ _ _ _ Es). destruct (Nat.eqb_spec (hy_route h) (hy_route h0)); [congruence|exact G].
    + now apply (IH v m v' m' h Gl Ae).
Qed.
Lemma mapM_in {A B} (f : A -> res B) l l' x : mapM f l = Ok l' -> In x l -> exists y, f x = Ok y.
Proof.
  revert l'. induction l as [|a l IH]; intros l' E I; [easy|]. cbn [mapM] in E. destruct (f a) as [y|] eqn:Ea; [cbn [bind] in E|discriminate].
  destruct (mapM f l) as [ys|] eqn:El; [cbn [bind] in E|discriminate]. destruct I as [<-|I]; [now exists y|now apply (IH ys)].
Qed.
Theorem C92_end_of_route_fails la rd v m i l :
  reachable_models la m -> v_route v = Some [i] -> get_routes_at_intersection (rd_net rd) (Some [i]) = [[i]] ->
  get_lane (rd_net rd) (lane_or_first i) = Ok l -> after_end l (v_pos v) None = true ->
  (forall h, In h (mm_hyps m) -> passes la (hy_samples h)) ->
  exists e, think la rd v m = Err e.
Proof.
  intros N Er Ri Gl Ae Ps. replace (lane_or_first i) with (first_lane i) in Gl by (destruct i as [[? ?] [?|]]; reflexivity). apply reachable_numbered in N. destruct (think la rd v m) as [[v' m']|e] eqn:E; [exfalso|now exists e].
  unfold think, update_possible_routes in E. destruct (consider_all (rd_net rd) v m) as [v1 m1] eqn:Ec.
  destruct (consider_all_spec _ v m v1 m1 N Ec) as (N1 & (_ & pre & post & Ep & Fs & Fp) & Ev & C & _).
  destruct (C [i]) as (h & Ih & Gh); [rewrite Er, Ri; now left|].
  destruct (foldM (step_one (rd_net rd)) (mm_hyps m1) (v1, m1)) as [[v2 m2]|] eqn:Es; [cbn [bind] in E|discriminate].
  destruct (step_all_hyps _ _ _ _ _ _ Es) as (Eh & En & Sv).
  destruct (foldM (reject_one la v2) (mm_hyps m2) m2) as [m3|] eqn:Ej; [cbn [bind] in E|discriminate].
  assert (N2 : numbered m2). { destruct N1 as (A & B & D). unfold numbered. rewrite Eh, En. now split. }
  destruct (reject_hyps la v2 m2 m3 N2 Ej) as (R1 & R2 & R3).
  assert (Q : inconsistent la h = false).
  { apply passes_iff. rewrite Ep in Ih. apply in_app_or in Ih as [I|I].
    - destruct (forall2_in_r _ _ _ _ Fs I) as (k & Ik & _ & S2). rewrite S2. now apply Ps.
    - left. rewrite Forall_forall in Fp. now apply Fp. }
  assert (I3 : In h (mm_hyps m3)) by (rewrite R1; apply filter_In; split; [now rewrite Eh|now rewrite Q]).
  assert (Ge : get_list v2 m2 (hy_route h) = []).
  { apply (step_last (rd_net rd) (mm_hyps m1) (first_lane i) l (v_pos v1) v1 m1 v2 m2 h Gl); try assumption; [|reflexivity].
    rewrite Ev. destruct (intersects _ _); [exact Ae|]. rewrite Er. exact Ae. }
  unfold record_all in E. destruct (mapM (record_one rd v2 m3) (mm_hyps m3)) as [hs|] eqn:Em; [|discriminate].
  destruct (mapM_in _ _ _ _ Em I3) as (y & Ey). unfold record_one in Ey. replace (get_list v2 m3 (hy_route h)) with (@nil lane_index) in Ey; [discriminate|].
  rewrite <- Ge. unfold get_list. now rewrite R2.
Qed.

(** The hypotheses influence the driving only by the route: [act] drives like a
    LinearVehicle that has the route left by the update. *)
Theorem C92_drives_like_linear la rd draw v m v' m' :
  reachable_models la m -> mm_act la rd draw v m = Ok (v', m') ->
  exists rt, (forall w, collect_data rd (set_route v rt) = Ok w -> idm_act rd draw (set_route v rt) = Ok v') /\
    (v_crashed v = true -> v' = set_route v rt).
Proof.
  intros N E. unfold mm_act in E. destruct (think la rd v m) as [[v1 m1]|] eqn:Et; [cbn [bind] in E|discriminate].
  destruct (mm_decide rd draw v1) as [v2|] eqn:Ed; [cbn [bind] in E|discriminate]. injection E as <- <-.
  destruct (C92_survivors la rd v m v1 m1 N Et) as (_ & _ & Sv).
  assert (Ev : v1 = set_route v (v_route v1)).
  { transitivity (set_route (set_route v1 None) (v_route v1)); [now destruct v1|]. rewrite Sv. reflexivity. }
  exists (v_route v1). rewrite <- Ev. split.
  - intros w Ew. unfold idm_act. rewrite Ew. cbn [bind]. exact Ed.
  - intros Cr. unfold mm_decide in Ed. assert (X : v_crashed v1 = true) by (rewrite Ev; exact Cr). rewrite X in Ed. now injection Ed as <-.
Qed.

(** [assume_model_is_valid]: without hypotheses, a plain copy of the vehicle as a
    LinearVehicle; otherwise a copy that aims for the first road of the chosen
    hypothesis and has its route; too large indices select the last one. *)
Theorem C92_assumed_model g id v m (k : nat) w h :
  assume_model_is_valid g id v m (Z.of_nat k) = Ok (w, h) ->
  (mm_hyps m = [] -> h = None /\ idm_create_from g KLinear linear_default id v = Ok w) /\
  (mm_hyps m <> [] -> exists x, h = Some x /\ nth_error (mm_hyps m) (Nat.min k (List.length (mm_hyps m) - 1)) = Some x /\
     (exists rest, get_list v m (hy_route x) = v_target_lane w :: rest) /\ v_route w = Some (get_list v m (hy_route x)) /\
     v_pos w = v_pos v /\ v_heading w = v_heading v /\ v_speed w = v_speed v).
Proof.
  unfold assume_model_is_valid. destruct (mm_hyps m) as [|h0 hs] eqn:Eh.
  - destruct (idm_create_from g KLinear linear_default id v) as [w'|]; [|discriminate]. cbn [bind]. intros E. injection E as <- <-. split; [now split|contradiction].
  - intros E. split; [discriminate|]. intros _. set (n := List.length (h0 :: hs)) in *. assert (Hn : (1 <= n)%nat) by (cbn; lia).
    set (k' := Nat.min k (n - 1)). assert (Ek : Z.min (Z.of_nat k) (Z.of_nat n - 1) = Z.of_nat k') by (unfold k'; lia). rewrite Ek in E.
    assert (Lk : (k' < n)%nat) by (unfold k'; lia). destruct (nth_error (h0 :: hs) k') as [x|] eqn:Ex; [|apply nth_error_None in Ex; unfold n in Lk; lia].
    rewrite py_index_nat, Ex in E. cbn [bind] in E. destruct (idm_create_from g KLinear linear_default id v) as [w'|] eqn:Ew; [cbn [bind] in E|discriminate].
    destruct (get_list v m (hy_route x)) as [|r0 rest] eqn:Gx; [discriminate|]. injection E as <- <-. exists x. split; [reflexivity|]. split; [reflexivity|]. rewrite Gx.
    split; [now exists rest|]. split; [reflexivity|].
    unfold idm_create_from, new_idm in Ew. destruct (new_controlled _ _ _ _ _ _ _ _) as [u|]; [cbn [bind] in Ew|discriminate]. injection Ew as <-. repeat split.
Qed.

(** ** Finding: a vehicle that follows its route can lose the right hypothesis at the end
    of a road, since the roads of the hypotheses are advanced before the vehicle changes
    the lane it aims for: one sample compares the next road with the previous lane. *)
Definition turn_a : lane := default_lane (GStraight (0, 0) (100, 0)).
Definition turn_b : lane := default_lane (GStraight (100, 0) (100, 100)).
Definition road_a : lane_index := ("0", "1", Some 0%Z)%string.
Definition road_b : lane_index := ("1", "2", Some 0%Z)%string.
Definition turn_net : graph := add_lane (add_lane [] "0" "1" turn_a) "1" "2" turn_b.
Definition turn_car (p : vec) (heading : R) (at_ target : lane_index) (rt : route) : vehicle :=
  Vehicle 0 KLinear p heading 5 at_ 0 0 false true [] target 5 (Some rt) 1%Z grid_default false 0 linear_default false 0%Z false.
Definition turn_moment (v : vehicle) : moment := (Road turn_net [v] [] false 0, v).
Definition turn_history : list moment :=
  map turn_moment [turn_car (50, 0) (-1) road_a road_a [road_a; road_b]; turn_car (60, -5) 0 road_a road_a [road_a; road_b];
                   turn_car (100, 0) 0 road_a road_a [road_a; road_b]].

Lemma turn_norm_a : vnorm (vsub (100, 0) (0, 0)) = 100.
Proof. unfold vnorm, vsub. cbn [fst snd]. replace (_ + _) with (100 * 100) by ring. apply sqrt_square. lra. Qed.
Lemma turn_norm_b : vnorm (vsub (100, 100) (100, 0)) = 100.
Proof. unfold vnorm, vsub. cbn [fst snd]. replace (_ + _) with (100 * 100) by ring. apply sqrt_square. lra. Qed.
Lemma turn_local_a p : l_local turn_a p = p.
Proof.
  unfold l_local, turn_a, default_lane. cbn [l_geom geom_local]. unfold straight_local, straight_lat, straight_dir. rewrite turn_norm_a.
  destruct p as [x y]. unfold vsub, vscal, vdot. cbn [fst snd]. apply f_equal2; field.
Qed.
Lemma turn_local_b x y : l_local turn_b (x, y) = (y, 100 - x).
Proof.
  unfold l_local, turn_b, default_lane. cbn [l_geom geom_local]. unfold straight_local, straight_lat, straight_dir. rewrite turn_norm_b.
  unfold vsub, vscal, vdot. cbn [fst snd]. apply f_equal2; field.
Qed.
Lemma turn_heading_a s : l_heading turn_a s = 0.
Proof.
  unfold l_heading, turn_a, default_lane. cbn [l_geom geom_heading]. unfold straight_heading. cbn [fst snd]. replace (0 - 0) with 0 by ring. replace (100 - 0) with 100 by ring.
  unfold atan2. rewrite Rltb_lt by lra. replace (0 / 100) with 0 by field. apply atan_0.
Qed.
Lemma turn_heading_b s : l_heading turn_b s = PI / 2.
Proof.
  unfold l_heading, turn_b, default_lane. cbn [l_geom geom_heading]. unfold straight_heading. cbn [fst snd]. replace (100 - 100) with 0 by ring. replace (100 - 0) with 100 by ring.
  unfold atan2. rewrite (proj2 (Rltb_false 0 0)) by lra. now rewrite Rltb_lt by lra.
Qed.
Lemma turn_get_a : get_lane turn_net road_a = Ok turn_a.
Proof. reflexivity. Qed.
Lemma turn_get_b : get_lane turn_net road_b = Ok turn_b.
Proof. reflexivity. Qed.

Lemma lone_sample g p h i o t rt li lo la_ : get_lane g i = Ok li -> get_lane g o = Ok lo -> get_lane g t = Ok la_ ->
  let v := turn_car p h t o rt in
  exists acc y, add_features (Road g [v] [] false 0) v i o = Ok (Sample acc y (steering_features li p h 5) (lv_dot (vec2 (KP_HEADING, KP_HEADING * KP_LATERAL)) (steering_features lo p h 5))).
Proof.
  intros Gi Go Gt v. unfold add_features, neighbour_vehicles, neighbours_on. cbn [rd_net v_lane_index v turn_car]. rewrite Gt. cbn [bind].
  unfold rd_entities. cbn [rd_vehicles rd_objects map app fold_left]. unfold neighbour_step at 1. 
  cbn [v_id turn_car e_id Nat.eqb]. cbn [option_map bind linear_features is_controlled v_kind turn_car negb]. rewrite Gi, Go. cbn [bind]. eexists _, _. reflexivity.
Qed.
Lemma update_known la g v m rt ss r0 rt0 l rest : mm_hyps m = [Hypothesis_ 1 2 ss] -> mm_lists m 1%nat = rt -> v_route v = Some rt ->
  rt = r0 :: rt0 -> map first_lane rt = rt -> find_intersection g 3 [] rt = None -> get_lane g r0 = Ok l -> passes la ss ->
  rest = (if after_end l (v_pos v) None then rt0 else rt) ->
  exists m1, update_possible_routes la g v m = Ok (v, m1) /\ mm_hyps m1 = [Hypothesis_ 1 2 ss] /\ mm_lists m1 1%nat = rest.
Proof.
  intros Eh El Er Ert Ef Ei Gl Ps Erest.
  assert (Sr : set_route v (Some rt) = v) by (rewrite <- Er; now destruct v).
  unfold update_possible_routes, consider_all, candidates. rewrite Er. rewrite Ert. cbv beta iota. rewrite <- Ert, Ei. cbn [fold_left].
  assert (Go : get_list v m 0 = rt) by (unfold get_list, own_route; cbn [Nat.eqb]; now rewrite Er).
  assert (G1 : get_list v m 1 = rt) by exact El.
  unfold consider. rewrite Go, Ef. unfold set_list at 1. cbn [Nat.eqb]. rewrite Sr, Go, Eh. cbn [find_known hy_route]. rewrite G1, route_eqb_refl. rewrite Eh.
  cbn [foldM]. unfold step_one at 1. cbn [hy_route]. rewrite G1, Ert, Gl. cbn [bind].
  set (m1 := if after_end l (v_pos v) None then snd (set_list v m 1 rt0) else m).
  assert (Em : (if after_end l (v_pos v) None then set_list v m 1 rt0 else (v, m)) = (v, m1)) by (unfold m1; destruct (after_end _ _ _); reflexivity).
  rewrite Em. cbn [bind].
  assert (Hm : mm_hyps m1 = [Hypothesis_ 1 2 ss]) by (unfold m1; destruct (after_end _ _ _); exact Eh).
  assert (Lm : mm_lists m1 1%nat = rest) by (rewrite Erest; unfold m1; destruct (after_end _ _ _); [reflexivity|exact El]).
  rewrite Hm. cbn [foldM]. 
  assert (Rj : reject_one la v m1 (Hypothesis_ 1 2 ss) = Ok m1).
  { unfold reject_one. cbn [hy_samples]. destruct Ps as [-> |Ps]; [reflexivity|]. destruct ss; [reflexivity|]. rewrite Ps. reflexivity. }
  rewrite Rj. cbn [bind foldM]. exists m1. split; [reflexivity|]. now split.
Qed.
Lemma tick_known la g rd v m rt ss r0 rt0 l rest r1 rt1 s : rd_net rd = g -> mm_hyps m = [Hypothesis_ 1 2 ss] -> mm_lists m 1%nat = rt -> v_route v = Some rt ->
  rt = r0 :: rt0 -> map first_lane rt = rt -> find_intersection g 3 [] rt = None -> get_lane g r0 = Ok l -> passes la ss ->
  rest = (if after_end l (v_pos v) None then rt0 else rt) -> rest = r1 :: rt1 -> add_features rd v r1 (v_target_lane v) = Ok s ->
  exists m', think la rd v m = Ok (v, m') /\ mm_hyps m' = [Hypothesis_ 1 2 (ss ++ [s])] /\ mm_lists m' 1%nat = rest.
Proof.
  intros Eg Eh El Er Ert Ef Ei Gl Ps Erest Er1 Ea.
  destruct (update_known la g v m rt ss r0 rt0 l rest Eh El Er Ert Ef Ei Gl Ps Erest) as (m1 & Eu & Hm & Lm).
  unfold think. rewrite Eg, Eu. cbn [bind]. unfold record_all. rewrite Hm. cbn [mapM]. unfold record_one at 1. cbn [hy_route hy_data hy_samples].
  change (get_list v m1 1) with (mm_lists m1 1%nat). rewrite Lm, Er1, Ea. cbn [bind]. eexists. split; [reflexivity|]. split; [reflexivity|]. cbn [set_hyps mm_lists]. now rewrite Lm.
Qed.
Lemma tick_reject la g rd v m rt ss r0 rt0 l : rd_net rd = g -> mm_hyps m = [Hypothesis_ 1 2 ss] -> mm_lists m 1%nat = rt -> v_route v = Some rt ->
  rt = r0 :: rt0 -> map first_lane rt = rt -> find_intersection g 3 [] rt = None -> get_lane g r0 = Ok l -> after_end l (v_pos v) None = false ->
  ss <> [] -> is_consistent_dataset la (lateral_data ss) (Some steering_range) = Ok false ->
  exists m', think la rd v m = Ok (v, m') /\ mm_hyps m' = [].
Proof.
  intros Eg Eh El Er Ert Ef Ei Gl Ae Ne Ps.
  assert (Sr : set_route v (Some rt) = v) by (rewrite <- Er; now destruct v).
  unfold think, update_possible_routes, consider_all, candidates. rewrite Eg, Er. rewrite Ert. cbv beta iota. rewrite <- Ert, Ei. cbn [fold_left].
  assert (Go : get_list v m 0 = rt) by (unfold get_list, own_route; cbn [Nat.eqb]; now rewrite Er).
  assert (G1 : get_list v m 1 = rt) by exact El.
  unfold consider. rewrite Go, Ef. unfold set_list at 1. cbn [Nat.eqb]. rewrite Sr, Go, Eh. cbn [find_known hy_route]. rewrite G1, route_eqb_refl. rewrite Eh.
  cbn [foldM]. unfold step_one at 1. cbn [hy_route]. rewrite G1, Ert, Gl. cbn [bind]. rewrite Ae. rewrite Eh. cbn [foldM bind].
  unfold reject_one at 1. cbn [hy_samples]. destruct ss as [|s0 ss0]; [contradiction|]. rewrite Ps, Eh. cbn [bind remove_hyp hy_route hy_data]. rewrite route_eqb_refl.
  cbn [Nat.eqb bind]. eexists. split; reflexivity.
Qed.
Lemma tick_first la g rd v rt r0 rt0 l s : rd_net rd = g -> v_route v = Some rt ->
  rt = r0 :: rt0 -> map first_lane rt = rt -> find_intersection g 3 [] rt = None -> get_lane g r0 = Ok l -> after_end l (v_pos v) None = false ->
  add_features rd v r0 (v_target_lane v) = Ok s ->
  exists m', think la rd v no_models = Ok (v, m') /\ mm_hyps m' = [Hypothesis_ 1 2 [s]] /\ mm_lists m' 1%nat = rt.
Proof.
  intros Eg Er Ert Ef Ei Gl Ae Ea.
  assert (Sr : set_route v (Some rt) = v) by (rewrite <- Er; now destruct v).
  unfold think, update_possible_routes, consider_all, candidates. rewrite Eg, Er. rewrite Ert. cbv beta iota. rewrite <- Ert, Ei. cbn [fold_left].
  assert (Go : get_list v no_models 0 = rt) by (unfold get_list, own_route; cbn [Nat.eqb]; now rewrite Er).
  unfold consider. rewrite Go, Ef. unfold set_list at 1. cbn [Nat.eqb]. rewrite Sr, Go. cbn [mm_hyps no_models find_known].
  unfold new_list. cbn [mm_hyps mm_lists mm_next no_models app foldM]. unfold step_one at 1. cbn [hy_route].
  match goal with |- context [get_list v ?M 1] => change (get_list v M 1) with rt end. rewrite Ert. cbv beta iota. rewrite Gl. cbn [bind]. rewrite Ae. cbn [bind foldM mm_hyps].
  unfold reject_one at 1. cbn [hy_samples bind]. unfold record_all. cbn [mm_hyps mapM]. unfold record_one at 1. cbn [hy_route hy_data hy_samples].
  match goal with |- context [get_list v ?M 1] => change (get_list v M 1) with (r0 :: rt0) end. cbv beta iota. rewrite Ea. cbn [bind]. eexists. split; [reflexivity|]. split; [reflexivity|]. cbn [mm_lists set_hyps Nat.eqb]. now rewrite ?Ert.
Qed.

Lemma ln_bound : ln 10000010 <= 56.
Proof.
  assert (H : ln 10000010 <= ln (8 ^ 8)) by (apply Rlt_le, ln_increasing; lra). rewrite ln_pow in H by lra.
  assert (L8 : ln 8 <= 7). { pose proof (exp_ineq1_le 7) as X. destruct (Rle_or_lt (ln 8) 7) as [|L]; [assumption|]. apply exp_increasing in L. rewrite exp_ln in L by lra. lra. }
  simpl INR in H. lra.
Qed.
Lemma turn_rejected a1 y1 a2 y2 a3 y3 :
  is_consistent_dataset la2 (lateral_data [Sample a1 y1 [1; 0] 5; Sample a2 y2 [0; 1] (25 / 3); Sample a3 y3 [PI / 2; 0] 0]) (Some steering_range) = Ok false.
Proof.
  unfold is_consistent_dataset, lateral_data. cbn [map sm_steer sm_steer_out rev app ds_outputs ds_features]. unfold confidence_polytope, steering_range, vec2, STEERING_RANGE. cbn [fst snd].
  assert (K1 : KP_HEADING = 5) by (unfold KP_HEADING, TAU_DS; field). assert (K2 : KP_HEADING * KP_LATERAL = 25 / 3) by (unfold KP_LATERAL; rewrite K1; field). rewrite K2, K1.
  assert (Eb : box_bound [5 - 7 / 100; 25 / 3 - 3 / 2] [5 + 7 / 100; 25 / 3 + 3 / 2] = 59 / 6).
  { unfold box_bound. cbn. rewrite !Rabs_right by lra. unfold Rmax. repeat destruct (Rle_dec _ _); lra. }
  rewrite Eb. 
  assert (Eg : gramian [[1; 0]; [0; 1]] LAMBDA SIGMA = [[10 + LAMBDA; 0]; [0; 10 + LAMBDA]]) by (unfold gramian, SIGMA; cbn; repeat (f_equal; try field)).
  unfold confidence_ellipsoid. cbn [ds_features ds_outputs]. rewrite Eg.
  assert (Pl : 10 + LAMBDA <> 0) by (unfold LAMBDA; lra).
  set (th := lv_scale (/ SIGMA) _). assert (Et : th = [50 / (10 + LAMBDA); 250 / 3 / (10 + LAMBDA)]).
  { unfold th, SIGMA. cbn. f_equal; [|f_equal]; field; exact Pl. }
  rewrite Et. cbn [List.length signs].
  assert (Ec : lv_clip [50 / (10 + LAMBDA); 250 / 3 / (10 + LAMBDA)] [5 - 7 / 100; 25 / 3 - 3 / 2] [5 + 7 / 100; 25 / 3 + 3 / 2] = [50 / (10 + LAMBDA); 250 / 3 / (10 + LAMBDA)]).
  { cbn [lv_clip]. unfold clip1, LAMBDA. replace (50 / (10 + 1 / 100000)) with (5000000 / 1000001) by field. replace (250 / 3 / (10 + 1 / 100000)) with (25000000 / 3000003) by field.
    f_equal; [|f_equal]; unfold Rmin, Rmax; repeat destruct (Rle_dec _ _); lra. }
  rewrite Ec. f_equal. unfold is_valid_observation. apply Rltb_false. 
  assert (Ev : lv_min (la_eigvals la2 [[10 + LAMBDA; 0]; [0; 10 + LAMBDA]]) = 10 + LAMBDA).
  { cbn. unfold gap. replace ((10 + LAMBDA - (10 + LAMBDA)) ^ 2 + 4 * 0 ^ 2) with 0 by ring. rewrite sqrt_0. unfold Rmin. destruct (Rle_dec _ _); lra. }
  rewrite Ev, !dot2. set (p := PI / 2). assert (Hp : 3 / 2 <= p <= 2) by (unfold p; pose proof PI_4; pose proof PI2_3_2; unfold PI2 in *; lra).
  set (beta := sqrt _ + sqrt _ * (59 / 6)).
  assert (Hb : 0 <= beta <= 11).
  { unfold beta. cbn [la2 la_det]. set (q := ln _). assert (Hq : q <= 56).
    { unfold q. replace (((10 + LAMBDA) * (10 + LAMBDA) - 0 * 0) / LAMBDA ^ 2) with (1000001 * 1000001) by (unfold LAMBDA; field). rewrite sqrt_square by lra. unfold DELTA. replace (1000001 / (1 / 10)) with 10000010 by field. exact ln_bound. }
    assert (S1 : sqrt (2 * q) <= 53 / 5) by (rewrite <- (sqrt_square (53 / 5)) by lra; apply sqrt_le_1_alt; lra).
    assert (S2 : sqrt (LAMBDA * INR 2) <= 1 / 200) by (rewrite <- (sqrt_square (1 / 200)) by lra; apply sqrt_le_1_alt; unfold LAMBDA; simpl INR; lra).
    pose proof (sqrt_pos (2 * q)). pose proof (sqrt_pos (LAMBDA * INR 2)). lra. }
  assert (Se : sqrt ((p * p + 0 * 0) / (10 + LAMBDA)) <= p * (1 / 3)).
  { rewrite <- (sqrt_square (p * (1 / 3))) by lra. apply sqrt_le_1_alt. replace ((p * p + 0 * 0) / (10 + LAMBDA)) with (p * p * (100000 / 1000001)) by (unfold LAMBDA; field). nra. }
  assert (Ee : Rabs (0 - (50 / (10 + LAMBDA) * p + 250 / 3 / (10 + LAMBDA) * 0)) = p * (5000000 / 1000001)).
  { replace (0 - (50 / (10 + LAMBDA) * p + 250 / 3 / (10 + LAMBDA) * 0)) with (- (p * (5000000 / 1000001))) by (unfold LAMBDA; field). rewrite Rabs_Ropp. apply Rabs_pos_eq. nra. }
  rewrite Ee. unfold SIGMA. pose proof (sqrt_pos ((p * p + 0 * 0) / (10 + LAMBDA))). 
  assert (sqrt ((p * p + 0 * 0) / (10 + LAMBDA)) * beta <= p * (1 / 3) * 11) by (apply Rmult_le_compat; lra). lra.
Qed.
(** At each of the three first calls the vehicle aims for the first road of its route;
    at the fourth, after it turned to the next road of its route, the only hypothesis,
    which is this route, is rejected. *)
Theorem C92_true_route_rejected_after_a_turn :
  numpy_contract 2 la2 /\ usual_gains (ip_steer_par linear_default) /\
  (forall rd v, In (rd, v) turn_history -> exists rest, v_route v = Some (v_target_lane v :: rest)) /\
  exists m, thinks la2 turn_history no_models = Ok m /\
    (exists h, mm_hyps m = [h] /\ List.length (hy_samples h) = 3%nat /\ get_list (turn_car (100, 5) (PI / 2) road_b road_b [road_b]) m (hy_route h) = [road_b]) /\
    let '(rd, v) := turn_moment (turn_car (100, 5) (PI / 2) road_b road_b [road_b]) in
    exists m', think la2 rd v m = Ok (v, m') /\ v_route v = Some [v_target_lane v] /\ mm_hyps m' = [].
Proof.
  split; [exact C87_contract_met_2|]. split; [unfold usual_gains, STEERING_RANGE, linear_default; cbn; lra|].
  split; [intros rd v I; cbn in I; repeat (destruct I as [I|I]; [injection I as <- <-; eexists; reflexivity|]); destruct I|].
  assert (W0 : forall x, - PI < x < PI -> wrap_to_pi x = x) by (intros; apply P_Utils.wrap_id; lra).
  assert (Pi : 3 < PI) by (pose proof PI2_3_2; unfold PI2 in *; lra).
  assert (Nz : not_zero 5 not_zero_eps = 5) by (unfold not_zero, not_zero_eps; rewrite Rabs_pos_eq by lra; now rewrite Rltb_lt by lra).
  assert (Fa : forall x y h, - PI < - h < PI -> steering_features turn_a (x, y) h 5 = [- h; - y / 5]).
  { intros x y h Hh. unfold steering_features. rewrite turn_local_a, turn_heading_a, Nz. replace (0 - h) with (- h) by ring. rewrite W0 by exact Hh. unfold V_LENGTH. f_equal; [field|f_equal; field]. }
  assert (Fb : steering_features turn_b (100, 0) 0 5 = [PI / 2; 0]).
  { unfold steering_features. rewrite turn_local_b, turn_heading_b, Nz. rewrite W0 by lra. unfold V_LENGTH. f_equal; [field|f_equal; field]. }
  assert (La : forall p, after_end turn_a p None = Rltb (100 - 5 / 2) (fst p)).
  { intros p. unfold after_end. rewrite turn_local_a. unfold l_length, turn_a, default_lane. cbn [l_geom geom_length]. rewrite turn_norm_a. reflexivity. }
  assert (Out : forall a b, lv_dot (vec2 (KP_HEADING, KP_HEADING * KP_LATERAL)) [a; b] = 5 * a + 25 / 3 * b).
  { intros a b. unfold vec2. cbn [fst snd]. rewrite dot2. unfold KP_LATERAL, KP_HEADING, TAU_DS. field. }
  destruct (lone_sample turn_net (50, 0) (-1) road_a road_a road_a [road_a; road_b] turn_a turn_a turn_a turn_get_a turn_get_a turn_get_a) as (a1 & y1 & S1).
  destruct (lone_sample turn_net (60, -5) 0 road_a road_a road_a [road_a; road_b] turn_a turn_a turn_a turn_get_a turn_get_a turn_get_a) as (a2 & y2 & S2).
  destruct (lone_sample turn_net (100, 0) 0 road_b road_a road_a [road_a; road_b] turn_b turn_a turn_a turn_get_b turn_get_a turn_get_a) as (a3 & y3 & S3).
  rewrite Fa, Out in S1 by lra. rewrite Fa, Out in S2 by lra. rewrite Fb, Fa, Out in S3 by lra.
  set (s1 := Sample a1 y1 _ _) in S1. set (s2 := Sample a2 y2 _ _) in S2. set (s3 := Sample a3 y3 _ _) in S3.
  assert (E1 : s1 = Sample a1 y1 [1; 0] 5) by (unfold s1; f_equal; [f_equal; [ring|f_equal; field]|field]).
  assert (E2 : s2 = Sample a2 y2 [0; 1] (25 / 3)) by (unfold s2; f_equal; [f_equal; [ring|f_equal; field]|field]).
  assert (E3 : s3 = Sample a3 y3 [PI / 2; 0] 0) by (unfold s3; f_equal; field).
  assert (Ps : passes la2 [s1; s2]).
  { apply (explained_passes la2 (KP_HEADING, KP_HEADING * KP_LATERAL)); [exact C87_contract_met_2|unfold usual_gains, STEERING_RANGE; cbn; lra|].
    rewrite E1, E2. constructor; [|constructor; [|constructor]]; cbn [sm_steer sm_steer_out]; (split; [reflexivity|]); rewrite Out; field. }
  destruct (tick_first la2 turn_net (fst (turn_moment (turn_car (50, 0) (-1) road_a road_a [road_a; road_b]))) (turn_car (50, 0) (-1) road_a road_a [road_a; road_b]) [road_a; road_b] road_a [road_b] turn_a s1)
    as (m1 & T1 & H1 & L1); try reflexivity; [rewrite La; apply Rltb_false; cbn; lra|exact S1|].
  destruct (tick_known la2 turn_net (fst (turn_moment (turn_car (60, -5) 0 road_a road_a [road_a; road_b]))) (turn_car (60, -5) 0 road_a road_a [road_a; road_b]) m1 [road_a; road_b] [s1] road_a [road_b] turn_a [road_a; road_b] road_a [road_b] s2)
    as (m2 & T2 & H2 & L2); try reflexivity; try assumption; [right; reflexivity|rewrite La, (proj2 (Rltb_false _ _)) by (cbn; lra); reflexivity|].
  destruct (tick_known la2 turn_net (fst (turn_moment (turn_car (100, 0) 0 road_a road_a [road_a; road_b]))) (turn_car (100, 0) 0 road_a road_a [road_a; road_b]) m2 [road_a; road_b] [s1; s2] road_a [road_b] turn_a [road_b] road_b [] s3)
    as (m3 & T3 & H3 & L3); try reflexivity; try assumption; [rewrite La, Rltb_lt by (cbn; lra); reflexivity|].
  exists m3. split; [|split].
  - unfold thinks, turn_history. cbn [map foldM]. unfold turn_moment at 1 2. cbn [fst snd]. unfold turn_moment in T1, T2, T3. cbn [fst] in T1, T2, T3. rewrite T1. cbn [bind].
    unfold turn_moment at 1 2. cbn [fst snd]. rewrite T2. cbn [bind]. unfold turn_moment. cbn [fst snd]. rewrite T3. reflexivity.
  - eexists. split; [exact H3|]. split; [reflexivity|exact L3].
  - cbn [turn_moment].
    destruct (tick_reject la2 turn_net (fst (turn_moment (turn_car (100, 5) (PI / 2) road_b road_b [road_b]))) (turn_car (100, 5) (PI / 2) road_b road_b [road_b]) m3 [road_b] [s1; s2; s3] road_b [] turn_b)
      as (m4 & T4 & H4); try reflexivity; try assumption; [| discriminate | rewrite E1, E2, E3; apply turn_rejected |].
    + unfold after_end. cbn [v_pos turn_car]. rewrite turn_local_b. unfold l_length, turn_b, default_lane. cbn [l_geom geom_length]. rewrite turn_norm_b. apply Rltb_false. unfold LANE_VEHICLE_LENGTH. cbn. lra.
    + exists m4. split; [exact T4|]. split; [reflexivity|exact H4].
Qed.

(** The hypotheses of the theorems are met: on the same network, a vehicle on the first
    road keeps the hypothesis of its route as long as it stays there, and cannot act at
    the end of the last road. *)
Definition cruise (n : nat) : list moment := repeat (turn_moment (turn_car (50, 0) 0 road_a road_a [road_a; road_b])) n.
Lemma cruise_sample : exists s, add_features (fst (turn_moment (turn_car (50, 0) 0 road_a road_a [road_a; road_b]))) (turn_car (50, 0) 0 road_a road_a [road_a; road_b]) road_a road_a = Ok s /\
  explained_samples (ip_steer_par linear_default) [s].
Proof.
  destruct (lone_sample turn_net (50, 0) 0 road_a road_a road_a [road_a; road_b] turn_a turn_a turn_a turn_get_a turn_get_a turn_get_a) as (a & y & S1).
  eexists. split; [exact S1|]. constructor; [|constructor]. cbn [sm_steer sm_steer_out]. split; [|reflexivity]. destruct (features_two turn_a (50, 0) 0 5) as (b & c & ->). reflexivity.
Qed.
Lemma cruise_on : after_end turn_a (50, 0) None = false.
Proof. unfold after_end. rewrite turn_local_a. unfold l_length, turn_a, default_lane. cbn [l_geom geom_length]. rewrite turn_norm_a. apply Rltb_false. unfold LANE_VEHICLE_LENGTH. cbn. lra. Qed.
Example C92_survival_nonvacuous n : exists m h,
  thinks la2 (cruise 1) no_models = Ok m /\ In h (mm_hyps m) /\ explained_samples (ip_steer_par linear_default) (hy_samples h) /\
  follows_hypothesis la2 (ip_steer_par linear_default) (hy_data h) m (cruise n) /\ exists m', thinks la2 (cruise n) m = Ok m'.
Proof.
  set (v := turn_car (50, 0) 0 road_a road_a [road_a; road_b]). set (rd := fst (turn_moment v)).
  destruct cruise_sample as (s & Es & Xs). fold v rd in Es.
  destruct (tick_first la2 turn_net rd v [road_a; road_b] road_a [road_b] turn_a s) as (m1 & T1 & H1 & L1); try reflexivity; [exact cruise_on|exact Es|].
  exists m1, (Hypothesis_ 1 2 [s]). split; [unfold thinks, cruise; cbn [repeat foldM fst snd turn_moment]; fold v; change (Road turn_net [v] [] false 0) with rd; rewrite T1; reflexivity|].
  split; [rewrite H1; now left|]. split; [exact Xs|].
  assert (G : forall n m ss, mm_hyps m = [Hypothesis_ 1 2 ss] -> mm_lists m 1%nat = [road_a; road_b] -> explained_samples (ip_steer_par linear_default) ss ->
     follows_hypothesis la2 (ip_steer_par linear_default) 2 m (cruise n) /\ exists m', thinks la2 (cruise n) m = Ok m').
  { clear n m1 T1 H1 L1. induction n as [|n IH]; intros m ss Hm Lm X; [split; [exact Logic.I|exists m; reflexivity]|].
    assert (Ps : passes la2 ss) by (apply (explained_passes la2 (ip_steer_par linear_default)); [exact C87_contract_met_2|unfold usual_gains, STEERING_RANGE, linear_default; cbn; lra|exact X]).
    assert (Er : [road_a; road_b] = if after_end turn_a (v_pos v) None then [road_b] else [road_a; road_b]) by (change (v_pos v) with (50, 0); now rewrite cruise_on).
    destruct (update_known la2 turn_net v m [road_a; road_b] ss road_a [road_b] turn_a [road_a; road_b]) as (mu & Eu & Hu & Lu); try reflexivity; try assumption.
    destruct (tick_known la2 turn_net rd v m [road_a; road_b] ss road_a [road_b] turn_a [road_a; road_b] road_a [road_b] s) as (m2 & T2 & H2 & L2); try reflexivity; try assumption.
    destruct (IH m2 (ss ++ [s])%list H2 L2) as (F2 & m' & E2); [apply Forall_app; split; assumption|]. split.
    - cbn [cruise repeat follows_hypothesis]. unfold turn_moment at 1. fold v. split; [reflexivity|]. split.
      + intros v1 m1 h E I _. change (rd_net (Road turn_net [v] [] false 0)) with turn_net in E. rewrite Eu in E. injection E as <- <-. rewrite Hu in I. destruct I as [<-|[]]. exists [road_b]. exact Lu.
      + intros v1 m1 E. change (Road turn_net [v] [] false 0) with rd in E. rewrite T2 in E. injection E as <- <-. exact F2.
    - exists m'. unfold thinks, cruise. cbn [repeat foldM fst snd turn_moment]. fold v. change (Road turn_net [v] [] false 0) with rd. rewrite T2. cbn [bind]. exact E2. }
  exact (G n m1 [s] H1 L1 Xs).
Qed.
Example C92_end_nonvacuous : exists e, think la2 (fst (turn_moment (turn_car (100, 99) (PI / 2) road_b road_b [road_b]))) (turn_car (100, 99) (PI / 2) road_b road_b [road_b]) no_models = Err e.
Proof.
  apply (C92_end_of_route_fails la2 _ _ _ road_b turn_b); try reflexivity; [now exists []| |easy].
  unfold after_end. cbn [v_pos turn_car]. rewrite turn_local_b. unfold l_length, turn_b, default_lane. cbn [l_geom geom_length]. rewrite turn_norm_b. rewrite Rltb_lt; [reflexivity|]. unfold LANE_VEHICLE_LENGTH. cbn. lra.
Qed.

Print Assumptions C92_no_route_no_hypothesis.
Print Assumptions C92_candidates_considered.
Print Assumptions C92_survivors.
Print Assumptions C92_followed_hypothesis_survives.
Print Assumptions C92_end_of_route_fails.
Print Assumptions C92_drives_like_linear.
Print Assumptions C92_assumed_model.
Print Assumptions C92_true_route_rejected_after_a_turn.
