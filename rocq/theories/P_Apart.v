(** Lemmas: vehicles that are elsewhere have no influence. *)
From Verif Require Import Prelude M_Utils M_Lane M_Road M_Vehicle M_Kinematics M_Control M_Behavior
  S_Geometry S_Road S_Vehicle S_Control S_Behavior S_Apart P_Base P_Utils P_Lane P_Graph P_Bfs P_Query P_Kin P_Crash P_Control P_Behavior P_Traffic P_Grid P_Repro.
From Coq Require Import Lia Lra.
Open Scope R_scope.

Lemma fold_left_skip {A B} (f : A -> B -> A) Y : (forall a y, In y Y -> f a y = a) ->
  forall X Z a, fold_left f (X ++ Y ++ Z)%list a = fold_left f (X ++ Z)%list a.
Proof.
  intros H X Z a. rewrite !fold_left_app. f_equal. generalize (fold_left f X a). clear a X.
  induction Y as [|y Y IH]; intros a; [reflexivity|]. cbn [fold_left]. rewrite H by now left. apply IH. intros b z I. apply H. now right.
Qed.
Lemma foldM_skip {A B} (f : A -> B -> res A) Y : (forall a y, In y Y -> f a y = Ok a) ->
  forall X Z a, foldM f (X ++ Y ++ Z)%list a = foldM f (X ++ Z)%list a.
Proof.
  intros H X Z a. rewrite !foldM_app. apply bind_ext. intros b _. rewrite foldM_app.
  enough (Q : foldM f Y b = Ok b) by (rewrite Q; reflexivity).
  clear a X Z. induction Y as [|y Y IH]; [reflexivity|]. cbn [foldM]. rewrite H by now left. cbn [bind]. apply IH. intros c z I. apply H. now right.
Qed.

(** ** What a vehicle decides *)
Definition unseen_from (g : graph) (i : lane_index) (Y : list vehicle) : Prop :=
  forall w, In w Y ->
    (forall k l, get_lane g (li_from i, li_to i, k) = Ok l -> ~ stands_on l (v_pos w)) /\
    (is_controlled (v_kind w) = true -> ~ (li_from (v_target_lane w) = li_from i /\ li_to (v_target_lane w) = li_to i)).

Lemma neighbour_skip l id s acc w : ~ stands_on l (v_pos w) -> neighbour_step l id s acc (EV w) = acc.
Proof.
  intros N. unfold neighbour_step. destruct (negb _ && negb _); [|reflexivity]. cbn [e_pos]. destruct (l_local l (v_pos w)) as [sv dv] eqn:E.
  assert (Q : on_lane l (v_pos w) (Some sv) (Some dv) 1 = false).
  { destruct (on_lane l (v_pos w) (Some sv) (Some dv) 1) eqn:O; [|reflexivity]. exfalso. apply N. unfold on_lane in O.
    assert (P : (if Reqb sv 0 || Reqb dv 0 then l_local l (v_pos w) else (sv, dv)) = (sv, dv)) by (rewrite E; destruct (_ || _); reflexivity).
    rewrite P in O. apply andb_true_iff in O as [O1 O2]. apply andb_true_iff in O2 as [O2 O3].
    apply Rleb_true in O1, O2. apply Rltb_true in O3. unfold stands_on. rewrite E. cbn [fst snd]. unfold l_width_at, LANE_VEHICLE_LENGTH in *. lra. }
  rewrite Q. reflexivity.
Qed.

Section Hidden.
Variables (rd : road) (X Y Z : list vehicle) (i0 : lane_index).
Let g := rd_net rd.
Hypothesis hid : unseen_from g i0 Y.
Let r1 := set_vehicles rd (X ++ Y ++ Z)%list.
Let r0 := set_vehicles rd (X ++ Z)%list.

Lemma neighbours_hidden id p i : same_road i i0 = true -> neighbours_on r1 id p i = neighbours_on r0 id p i.
Proof.
  intros Sr. apply same_road_iff in Sr as [Sa Sb]. unfold neighbours_on. change (rd_net r1) with g. change (rd_net r0) with g.
  apply bind_ext. intros l G. unfold rd_entities. cbn [r1 r0 set_vehicles rd_vehicles rd_objects]. rewrite !map_app, <- !app_assoc.
  rewrite fold_left_skip; [reflexivity|]. intros a e I. apply in_map_iff in I as (w & <- & I). apply neighbour_skip.
  apply (proj1 (hid w I) (li_id i)). rewrite <- Sa, <- Sb. destruct i as [[a' b'] k]. exact G.
Qed.
Lemma neighbour_hidden v i : v_lane_index v = i0 -> (forall j, i = Some j -> same_road j i0 = true) -> neighbour_vehicles r1 v i = neighbour_vehicles r0 v i.
Proof.
  intros L H. unfold neighbour_vehicles. apply neighbours_hidden. destruct i as [j|]; [now apply H | rewrite L]. apply same_road_iff. tauto.
Qed.
Lemma mobil_hidden v i : v_lane_index v = i0 -> same_road i i0 = true -> mobil r1 v i = mobil r0 v i.
Proof.
  intros L Sr. unfold mobil. change (rd_net r1) with g. change (rd_net r0) with g. cbv zeta.
  rewrite (neighbour_hidden v (Some i) L) by (intros j [= <-]; exact Sr). rewrite (neighbour_hidden v None L) by easy. reflexivity.
Qed.
Lemma candidates_hidden cands : forall v, v_lane_index v = i0 -> (forall j, In j cands -> same_road j i0 = true) ->
  foldM (try_candidate r1) cands v = foldM (try_candidate r0) cands v.
Proof.
  induction cands as [|j cands IH]; intros v L H; [reflexivity|]. cbn [foldM].
  assert (Q : try_candidate r1 v j = try_candidate r0 v j).
  { unfold try_candidate. change (rd_net r1) with g. change (rd_net r0) with g. rewrite mobil_hidden by (auto; apply H; now left). reflexivity. }
  rewrite Q. apply bind_ext. intros v' E. apply IH; [|intros k K; apply H; now right].
  unfold try_candidate in E. apply bind_ok in E as (l & _ & E). destruct (negb _); [injection E as <-; exact L|].
  apply bind_ok in E as (b & _ & E). injection E as <-. destruct b; exact L.
Qed.
Lemma aborts_hidden v : v_lane_index v = i0 -> same_road (v_lane_index v) (v_target_lane v) = true -> aborts r1 v = aborts r0 v.
Proof.
  intros L Sr. unfold aborts. change (rd_net r1) with g. change (rd_net r0) with g. cbn [r1 r0 set_vehicles rd_vehicles].
  apply foldM_skip. intros b w I. destruct b; [reflexivity|]. destruct (is_controlled (v_kind w)) eqn:C; [|rewrite andb_false_r; reflexivity].
  destruct (li_eqb (v_target_lane w) (v_target_lane v)) eqn:Et; [|rewrite andb_false_r; reflexivity].
  exfalso. apply li_eqb_iff in Et. apply same_road_iff in Sr. apply (proj2 (hid w I) C). rewrite Et, <- L. destruct Sr as [A B]. auto.
Qed.
Lemma side_lanes_road g' i js : side_lanes g' i = Ok js -> forall j, In j js -> same_road j i = true.
Proof.
  unfold side_lanes. destruct (li_id i) as [k|]; [|discriminate]. intros E j I. apply bind_ok in E as (ls & _ & E). injection E as <-.
  apply in_app_or in I as [I|I].
  - destruct (0 <? k)%Z; [destruct I as [<-|[]] | destruct I]. apply same_road_iff. split; reflexivity.
  - destruct (k <? _)%Z; [destruct I as [<-|[]] | destruct I]. apply same_road_iff. split; reflexivity.
Qed.
Lemma policy_hidden v : v_lane_index v = i0 -> change_lane_policy r1 v = change_lane_policy r0 v.
Proof.
  intros L. unfold change_lane_policy. change (rd_net r1) with g. change (rd_net r0) with g.
  destruct (negb (li_eqb _ _)).
  - destruct (same_road (v_lane_index v) (v_target_lane v)) eqn:Sr; [|reflexivity]. now rewrite aborts_hidden.
  - destruct (negb (do_every _ _)); [reflexivity|]. apply bind_ext. intros cands E. apply candidates_hidden; [exact L|].
    intros j I. rewrite L in E. eapply side_lanes_road; eauto.
Qed.
Lemma idm_hidden draw v : v_lane_index v = i0 -> idm_act r1 draw v = idm_act r0 draw v.
Proof.
  intros L. unfold idm_act, collect_data. change (rd_net r1) with g. change (rd_net r0) with g. rewrite (neighbour_hidden v None L) by easy.
  apply bind_ext. intros _ _. destruct (v_crashed v); [reflexivity|]. apply bind_ext. intros [f r] _. apply bind_ext. intros v1 F.
  rewrite policy_hidden; [reflexivity|]. apply follow_road_ok in F as (B & _). unfold same_body in B. rewrite <- L. tauto.
Qed.
Lemma act_hidden draw v : v_lane_index v = i0 -> vehicle_act r1 draw v = vehicle_act r0 draw v.
Proof. intros L. unfold vehicle_act. destruct (v_kind v); first [exact (idm_hidden draw v L) | reflexivity]. Qed.
End Hidden.

(** ** A round of decisions *)
Lemma update_app_l {A} k (x : A) l l' : (k < List.length l)%nat -> update_nth k x (l ++ l')%list = (update_nth k x l ++ l')%list.
Proof. revert k. induction l as [|a l IH]; intros [|k] H; cbn in *; try lia; [reflexivity|]. rewrite IH by lia. reflexivity. Qed.
Lemma update_app_r {A} k (x : A) l l' : (List.length l <= k)%nat -> update_nth k x (l ++ l')%list = (l ++ update_nth (k - List.length l) x l')%list.
Proof.
  revert k. induction l as [|a l IH]; intros k H; cbn in *; [now rewrite Nat.sub_0_r|]. destruct k as [|k]; [lia|]. cbn. rewrite IH by lia. reflexivity.
Qed.
Lemma update_same {A} k (x : A) l : nth_error l k = Some x -> update_nth k x l = l.
Proof. revert k. induction l as [|a l IH]; intros [|k] H; cbn in *; try discriminate; [injection H as ->; reflexivity|]. now rewrite IH. Qed.

Definition aimed (v w : vehicle) : Prop := v_target_lane w = v_target_lane v /\ v_lane_index w = v_lane_index v /\ v_pos w = v_pos v /\ v_kind w = v_kind v.
Lemma act_same_vehicle rd draw v v' : vehicle_act rd draw v = Ok v' -> same_vehicle v v'.
Proof. apply vehicle_act_same. Qed.

(** The first group acts: the second, elsewhere, makes no difference. *)
Lemma act_first draws rd : forall l A B r, (forall i, In i l -> (i < List.length A)%nat) ->
  (forall v, In v A -> unseen_from (rd_net rd) (v_lane_index v) B) ->
  foldM (act_one draws) l (set_vehicles rd (A ++ B)%list) = Ok r ->
  exists A', r = set_vehicles rd (A' ++ B)%list /\ foldM (act_one draws) l (set_vehicles rd A) = Ok (set_vehicles rd A') /\ Forall2 same_vehicle A A'.
Proof.
  induction l as [|i l IH]; intros A B r Hl Hu E.
  - injection E as <-. exists A. split; [reflexivity|]. split; [reflexivity|]. apply Forall2_refl', same_vehicle_refl.
  - cbn [foldM] in E. apply bind_ok in E as (s & E1 & E). assert (Hi : (i < List.length A)%nat) by (apply Hl; now left).
    destruct (nth_error A i) as [v|] eqn:N; [|apply nth_error_None in N; lia].
    unfold act_one in E1. cbn [set_vehicles rd_vehicles] in E1. rewrite nth_error_app1, N in E1 by lia.
    apply bind_ok in E1 as (v' & Ev & E1). injection E1 as <-. change (set_vehicles (set_vehicles rd (A ++ B)%list) ?x) with (set_vehicles rd x) in E.
    rewrite update_app_l in E by exact Hi.
    assert (Iv : In v A) by (eapply nth_error_In; eauto).
    pose proof (act_hidden rd A B [] (v_lane_index v) (Hu v Iv) (draws i) v eq_refl) as Q. rewrite !app_nil_r in Q. rewrite Q in Ev.
    pose proof (vehicle_act_same _ _ _ _ Ev) as Sv.
    destruct (IH (update_nth i v' A) B r) as (A' & R1 & R2 & R3).
    + intros j J. rewrite update_nth_length. apply Hl. now right.
    + intros w Iw. apply update_nth_In in Iw as [->|Iw]; [|now apply Hu]. unfold same_vehicle in Sv. destruct Sv as (_ & _ & _ & _ & _ & -> & _). now apply Hu.
    + exact E.
    + exists A'. split; [exact R1|]. split.
      * cbn [foldM]. unfold act_one at 1. cbn [set_vehicles rd_vehicles]. rewrite N, Ev. cbn [bind]. exact R2.
      * eapply Forall2_trans'; [exact same_vehicle_trans | | exact R3]. apply (P_Crash.Forall2_update same_vehicle A i v'); [exact same_vehicle_refl|].
        intros y Ny. rewrite N in Ny. injection Ny as <-. exact Sv.
Qed.
(** The second group acts. *)
Lemma act_second_any draws rd : forall l A B r, (forall i, In i l -> (List.length A <= i)%nat) ->
  foldM (act_one draws) l (set_vehicles rd (A ++ B)%list) = Ok r ->
  exists B', r = set_vehicles rd (A ++ B')%list /\ Forall2 same_vehicle B B'.
Proof.
  induction l as [|i l IH]; intros A B r Hl E.
  - injection E as <-. exists B. split; [reflexivity|]. apply Forall2_refl', same_vehicle_refl.
  - cbn [foldM] in E. apply bind_ok in E as (s & E1 & E). assert (Hi : (List.length A <= i)%nat) by (apply Hl; now left).
    unfold act_one in E1. cbn [set_vehicles rd_vehicles] in E1. rewrite nth_error_app2 in E1 by lia.
    destruct (nth_error B (i - List.length A)) as [v|] eqn:N.
    + apply bind_ok in E1 as (v' & Ev & E1). injection E1 as <-. change (set_vehicles (set_vehicles rd (A ++ B)%list) ?x) with (set_vehicles rd x) in E.
      rewrite update_app_r in E by exact Hi. destruct (IH A (update_nth (i - List.length A) v' B) r) as (B' & R1 & R2).
      * intros j J. apply Hl. now right.
      * exact E.
      * exists B'. split; [exact R1|]. eapply Forall2_trans'; [exact same_vehicle_trans | | exact R2]. apply (P_Crash.Forall2_update same_vehicle B (i - List.length A)%nat v'); [exact same_vehicle_refl|].
        intros y Ny. rewrite N in Ny. injection Ny as <-. eapply vehicle_act_same; eauto.
    + injection E1 as <-. apply (IH A B r); [intros j J; apply Hl; now right | exact E].
Qed.
Lemma act_second draws rd : forall l A B r, (forall i, In i l -> (List.length A <= i)%nat) ->
  (forall v, In v B -> unseen_from (rd_net rd) (v_lane_index v) A) ->
  foldM (act_one draws) l (set_vehicles rd (A ++ B)%list) = Ok r ->
  exists B', r = set_vehicles rd (A ++ B')%list /\
    foldM (act_one (fun i => draws (i + List.length A)%nat)) (map (fun i => i - List.length A)%nat l) (set_vehicles rd B) = Ok (set_vehicles rd B') /\
    Forall2 same_vehicle B B'.
Proof.
  induction l as [|i l IH]; intros A B r Hl Hu E.
  - injection E as <-. exists B. split; [reflexivity|]. split; [reflexivity|]. apply Forall2_refl', same_vehicle_refl.
  - cbn [foldM] in E. apply bind_ok in E as (s & E1 & E). assert (Hi : (List.length A <= i)%nat) by (apply Hl; now left).
    unfold act_one in E1. cbn [set_vehicles rd_vehicles] in E1. rewrite nth_error_app2 in E1 by lia. cbn [map foldM]. unfold act_one at 1. cbn [set_vehicles rd_vehicles].
    destruct (nth_error B (i - List.length A)) as [v|] eqn:N.
    + apply bind_ok in E1 as (v' & Ev & E1). injection E1 as <-. change (set_vehicles (set_vehicles rd (A ++ B)%list) ?x) with (set_vehicles rd x) in E.
      rewrite update_app_r in E by exact Hi. assert (Iv : In v B) by (eapply nth_error_In; eauto).
      pose proof (act_hidden rd [] A B (v_lane_index v) (Hu v Iv) (draws i) v eq_refl) as Q. cbn [app] in Q. rewrite Q in Ev.
      pose proof (vehicle_act_same _ _ _ _ Ev) as Sv. replace (i - List.length A + List.length A)%nat with i by lia. rewrite Ev. cbn [bind].
      destruct (IH A (update_nth (i - List.length A) v' B) r) as (B' & R1 & R2 & R3).
      * intros j J. apply Hl. now right.
      * intros w Iw. apply update_nth_In in Iw as [->|Iw]; [|now apply Hu]. unfold same_vehicle in Sv. destruct Sv as (_ & _ & _ & _ & _ & -> & _). now apply Hu.
      * exact E.
      * exists B'. split; [exact R1|]. split; [exact R2|]. eapply Forall2_trans'; [exact same_vehicle_trans | | exact R3]. apply (P_Crash.Forall2_update same_vehicle B (i - List.length A)%nat v'); [exact same_vehicle_refl|].
        intros y Ny. rewrite N in Ny. injection Ny as <-. exact Sv.
    + injection E1 as <-. cbn [bind]. apply (IH A B r); [intros j J; apply Hl; now right | exact Hu | exact E].
Qed.
Lemma act_first_any draws rd : forall l A B r, (forall i, In i l -> (i < List.length A)%nat) ->
  foldM (act_one draws) l (set_vehicles rd (A ++ B)%list) = Ok r ->
  exists A', r = set_vehicles rd (A' ++ B)%list /\ Forall2 same_vehicle A A'.
Proof.
  induction l as [|i l IH]; intros A B r Hl E.
  - injection E as <-. exists A. split; [reflexivity|]. apply Forall2_refl', same_vehicle_refl.
  - cbn [foldM] in E. apply bind_ok in E as (s & E1 & E). assert (Hi : (i < List.length A)%nat) by (apply Hl; now left).
    destruct (nth_error A i) as [v|] eqn:N; [|apply nth_error_None in N; lia].
    unfold act_one in E1. cbn [set_vehicles rd_vehicles] in E1. rewrite nth_error_app1, N in E1 by lia.
    apply bind_ok in E1 as (v' & Ev & E1). injection E1 as <-. change (set_vehicles (set_vehicles rd (A ++ B)%list) ?x) with (set_vehicles rd x) in E.
    rewrite update_app_l in E by exact Hi. destruct (IH (update_nth i v' A) B r) as (A' & R1 & R2).
    + intros j J. rewrite update_nth_length. apply Hl. now right.
    + exact E.
    + exists A'. split; [exact R1|]. eapply Forall2_trans'; [exact same_vehicle_trans | | exact R2]. apply (P_Crash.Forall2_update same_vehicle A i v'); [exact same_vehicle_refl|].
      intros y Ny. rewrite N in Ny. injection Ny as <-. eapply vehicle_act_same; eauto.
Qed.

(** ** The collision phase *)
Definition uncrossed (A B : list vehicle) : Prop := forall v w, In v A -> In w B -> ~ touch v w.
Definition off_objects (B : list vehicle) (os : list object) : Prop := forall v o, In v B -> In o os -> is_colliding_obj v o = false.
Lemma check_collision_off v w : ~ touch v w -> check_collision v w = (v, w).
Proof.
  intros N. unfold check_collision. destruct (v_crashed v || _) eqn:C; [reflexivity|]. apply orb_false_iff in C as [_ C]. apply Nat.eqb_neq in C.
  destruct (negb (v_collisions v) || _) eqn:D; [reflexivity|]. apply orb_false_iff in D as [D1 D2]. apply negb_false_iff in D1, D2.
  destruct (is_colliding v w) eqn:K; [|reflexivity]. exfalso. apply N. unfold touch. repeat split; auto.
Qed.
Lemma check_obj_off v o : is_colliding_obj v o = false -> check_collision_obj v o = (v, o).
Proof. intros N. unfold check_collision_obj. rewrite N. destruct (v_crashed v); [reflexivity|]. destruct (o_kind o); [destruct (negb _); reflexivity | reflexivity]. Qed.

Lemma uncrossed_evolves A B A' B' : Forall2 evolves A A' -> Forall2 evolves B B' -> uncrossed A B -> uncrossed A' B'.
Proof.
  intros FA FB U v w Iv Iw T. destruct (Forall2_In_r _ _ _ FA v Iv) as (v0 & Iv0 & Ev).
  destruct (Forall2_In_r _ _ _ FB w Iw) as (w0 & Iw0 & Ew). apply (U v0 w0 Iv0 Iw0). now apply (touch_evolves v0 w0 v w).
Qed.
Lemma off_evolves B B' os os' : Forall2 evolves B B' -> Forall2 oevolves os os' -> off_objects B os -> off_objects B' os'.
Proof.
  intros FB FO U v o Iv Io. destruct (Forall2_In_r _ _ _ FB v Iv) as (v0 & Iv0 & Ev). destruct (Forall2_In_r _ _ _ FO o Io) as (o0 & Io0 & Eo).
  rewrite (is_colliding_obj_evolves v0 o0 v o) by assumption. now apply U.
Qed.

Lemma pair_left i j A B : (i < List.length A)%nat -> (j < List.length A)%nat -> collide_pair i (A ++ B)%list j = (collide_pair i A j ++ B)%list.
Proof.
  intros Hi Hj. unfold collide_pair. rewrite !nth_error_app1 by assumption.
  destruct (nth_error A i); [|reflexivity]. destruct (nth_error A j); [|reflexivity]. destruct (check_collision _ _) as [v' w'].
  rewrite update_app_l by assumption. rewrite update_app_l by (rewrite update_nth_length; assumption). reflexivity.
Qed.
Lemma pair_right i j A B : (List.length A <= i)%nat -> (List.length A <= j)%nat ->
  collide_pair i (A ++ B)%list j = (A ++ collide_pair (i - List.length A) B (j - List.length A))%list.
Proof.
  intros Hi Hj. unfold collide_pair. rewrite !nth_error_app2 by assumption.
  destruct (nth_error B _); [|reflexivity]. destruct (nth_error B _); [|reflexivity]. destruct (check_collision _ _) as [v' w'].
  rewrite update_app_r by assumption. rewrite update_app_r by assumption. reflexivity.
Qed.
Lemma pair_off i j vs v w : nth_error vs i = Some v -> nth_error vs j = Some w -> ~ touch v w -> collide_pair i vs j = vs.
Proof. intros Ni Nj T. unfold collide_pair. rewrite Ni, Nj, check_collision_off by exact T. rewrite (update_same j w vs Nj). now apply update_same. Qed.

Lemma pairs_left i : forall l A B, (i < List.length A)%nat -> (forall j, In j l -> (j < List.length A)%nat) ->
  fold_left (collide_pair i) l (A ++ B)%list = (fold_left (collide_pair i) l A ++ B)%list.
Proof.
  induction l as [|j l IH]; intros A B Hi Hl; [reflexivity|]. cbn [fold_left]. rewrite pair_left by (auto; apply Hl; now left).
  pose proof (Forall2_length' _ _ _ (collide_pair_rel i j A)) as L. apply IH; [lia|]. intros k K. rewrite <- L. apply Hl. now right.
Qed.
Lemma pairs_right i : forall l A B, (List.length A <= i)%nat -> (forall j, In j l -> (List.length A <= j)%nat) ->
  fold_left (collide_pair i) l (A ++ B)%list = (A ++ fold_left (collide_pair (i - List.length A)) (map (fun j => j - List.length A)%nat l) B)%list.
Proof.
  induction l as [|j l IH]; intros A B Hi Hl; [reflexivity|]. cbn [fold_left map]. rewrite pair_right by (auto; apply Hl; now left).
  apply IH; [exact Hi|]. intros k K. apply Hl. now right.
Qed.
Lemma pairs_off i v vs : nth_error vs i = Some v -> forall l, (forall j w, In j l -> nth_error vs j = Some w -> ~ touch v w) -> fold_left (collide_pair i) l vs = vs.
Proof.
  intros Ni. induction l as [|j l IH]; intros H; [reflexivity|]. cbn [fold_left].
  assert (Q : collide_pair i vs j = vs).
  { destruct (nth_error vs j) as [w|] eqn:Nj; [|unfold collide_pair; rewrite Ni, Nj; reflexivity]. eapply pair_off; eauto. apply (H j w); [now left | exact Nj]. }
  rewrite Q. apply IH. intros k w K. apply H. now right.
Qed.
Lemma obj_left i k A B os : (i < List.length A)%nat ->
  collide_obj i ((A ++ B)%list, os) k = ((fst (collide_obj i (A, os) k) ++ B)%list, snd (collide_obj i (A, os) k)).
Proof.
  intros Hi. unfold collide_obj. cbn [fst snd]. rewrite nth_error_app1 by exact Hi.
  destruct (nth_error A i); [|reflexivity]. destruct (nth_error os k); [|reflexivity]. destruct (check_collision_obj _ _). cbn [fst snd]. now rewrite update_app_l.
Qed.
Lemma obj_right i k A B os : (List.length A <= i)%nat ->
  collide_obj i ((A ++ B)%list, os) k = ((A ++ fst (collide_obj (i - List.length A) (B, os) k))%list, snd (collide_obj (i - List.length A) (B, os) k)).
Proof.
  intros Hi. unfold collide_obj. cbn [fst snd]. rewrite nth_error_app2 by exact Hi.
  destruct (nth_error B _); [|reflexivity]. destruct (nth_error os k); [|reflexivity]. destruct (check_collision_obj _ _). cbn [fst snd]. now rewrite update_app_r.
Qed.
Lemma objs_left i B : forall l A os, (i < List.length A)%nat ->
  fold_left (collide_obj i) l ((A ++ B)%list, os) = ((fst (fold_left (collide_obj i) l (A, os)) ++ B)%list, snd (fold_left (collide_obj i) l (A, os))).
Proof.
  induction l as [|k l IH]; intros A os Hi; [reflexivity|]. cbn [fold_left]. rewrite obj_left by exact Hi.
  pose proof (collide_obj_rel i k (A, os)) as [L _]. apply Forall2_length' in L. cbn [fst] in L. destruct (collide_obj i (A, os) k) as [A' os']. cbn [fst snd] in *. apply IH. lia.
Qed.
Lemma objs_right i A : forall l B os, (List.length A <= i)%nat ->
  fold_left (collide_obj i) l ((A ++ B)%list, os) =
    ((A ++ fst (fold_left (collide_obj (i - List.length A)) l (B, os)))%list, snd (fold_left (collide_obj (i - List.length A)) l (B, os))).
Proof.
  induction l as [|k l IH]; intros B os Hi; [reflexivity|]. cbn [fold_left]. rewrite obj_right by exact Hi.
  destruct (collide_obj _ (B, os) k) as [B' os']. cbn [fst snd]. apply IH. exact Hi.
Qed.
Lemma objs_off i B : forall l os, off_objects B os -> fold_left (collide_obj i) l (B, os) = (B, os).
Proof.
  induction l as [|k l IH]; intros os U; [reflexivity|]. cbn [fold_left].
  assert (Q : collide_obj i (B, os) k = (B, os)).
  { unfold collide_obj. cbn [fst snd]. destruct (nth_error B i) as [v|] eqn:Ni; [|reflexivity]. destruct (nth_error os k) as [o|] eqn:Nk; [|reflexivity].
    rewrite check_obj_off by (apply U; eapply nth_error_In; eauto). now rewrite (update_same i v B Ni), (update_same k o os Nk). }
  rewrite Q. apply IH. exact U.
Qed.

Lemma row_left i A B os : (i < List.length A)%nat -> uncrossed A B ->
  collide_row ((A ++ B)%list, os) i = ((fst (collide_row (A, os) i) ++ B)%list, snd (collide_row (A, os) i)).
Proof.
  intros Hi U. unfold collide_row. cbn [fst snd]. rewrite app_length, seq_app, fold_left_app, pairs_left by (auto; intros j J; apply in_seq in J; lia).
  cbn [Nat.add]. set (A' := fold_left (collide_pair i) (seq 0 (List.length A)) A).
  assert (F : Forall2 evolves A A') by (apply (fold_rel EV2 (collide_pair i)); [apply EV2_refl | apply EV2_trans | intros; apply collide_pair_rel]).
  pose proof (Forall2_length' _ _ _ F) as L. destruct (nth_error A' i) as [v|] eqn:N; [|apply nth_error_None in N; lia].
  rewrite (pairs_off i v).
  - apply objs_left. lia.
  - rewrite nth_error_app1 by lia. exact N.
  - intros j w J Nw. apply in_seq in J. rewrite nth_error_app2 in Nw by lia.
    apply (uncrossed_evolves A B A' B F (EV2_refl B) U); eapply nth_error_In; eauto.
Qed.
Lemma row_right i A B os : (List.length A <= i < List.length A + List.length B)%nat -> uncrossed A B ->
  collide_row ((A ++ B)%list, os) i = ((A ++ fst (collide_row (B, os) (i - List.length A)))%list, snd (collide_row (B, os) (i - List.length A))).
Proof.
  intros Hi U. unfold collide_row. cbn [fst snd]. rewrite app_length, seq_app, fold_left_app. cbn [Nat.add].
  destruct (nth_error B (i - List.length A)) as [v|] eqn:N; [|apply nth_error_None in N; lia].
  rewrite (pairs_off i v (A ++ B)%list).
  - rewrite pairs_right by (try lia; intros j J; apply in_seq in J; lia).
    assert (M : map (fun j => (j - List.length A)%nat) (seq (List.length A) (List.length B)) = seq 0 (List.length B)).
    { generalize (List.length A) as n. generalize (List.length B) as m. intros m n. 
      transitivity (map (fun j => (j - n)%nat) (map (fun j => (n + j)%nat) (seq 0 m))).
      - f_equal. clear. revert n. induction m as [|m IH]; intros n; [reflexivity|]. cbn [seq map]. rewrite Nat.add_0_r. f_equal.
        rewrite IH. rewrite <- seq_shift, map_map. apply map_ext. intros a. lia.
      - rewrite map_map. rewrite <- (map_id (seq 0 m)) at 2. apply map_ext. intros a. lia. }
    rewrite M. apply objs_right. lia.
  - rewrite nth_error_app2 by lia. exact N.
  - intros j w J Nw T. apply in_seq in J. rewrite nth_error_app1 in Nw by lia.
    apply (U w v); [eapply nth_error_In; eauto | eapply nth_error_In; eauto | now apply touch_sym].
Qed.
Lemma rows_left B : forall l A os, (forall i, In i l -> (i < List.length A)%nat) -> uncrossed A B ->
  fold_left collide_row l ((A ++ B)%list, os) = ((fst (fold_left collide_row l (A, os)) ++ B)%list, snd (fold_left collide_row l (A, os))).
Proof.
  induction l as [|i l IH]; intros A os Hl U; [reflexivity|]. cbn [fold_left]. rewrite row_left by (auto; apply Hl; now left).
  pose proof (collide_row_rel (A, os) i) as [F _]. destruct (collide_row (A, os) i) as [A' os']. cbn [fst snd] in *.
  pose proof (Forall2_length' _ _ _ F) as L. apply IH; [intros j J; rewrite <- L; apply Hl; now right|].
  eapply uncrossed_evolves; [exact F | apply EV2_refl | exact U].
Qed.
Lemma rows_right A : forall l B os, (forall i, In i l -> (List.length A <= i < List.length A + List.length B)%nat) -> uncrossed A B ->
  fold_left collide_row l ((A ++ B)%list, os) =
    ((A ++ fst (fold_left collide_row (map (fun i => i - List.length A)%nat l) (B, os)))%list, snd (fold_left collide_row (map (fun i => i - List.length A)%nat l) (B, os))).
Proof.
  induction l as [|i l IH]; intros B os Hl U; [reflexivity|]. cbn [fold_left map]. rewrite row_right by (auto; apply Hl; now left).
  pose proof (collide_row_rel (B, os) (i - List.length A)) as [F _]. destruct (collide_row (B, os) _) as [B' os']. cbn [fst snd] in *.
  pose proof (Forall2_length' _ _ _ F) as L. apply IH; [intros j J; rewrite <- L; apply Hl; now right|].
  eapply uncrossed_evolves; [apply EV2_refl | exact F | exact U].
Qed.
Lemma rows_off B : forall l os, off_objects B os ->
  fold_left collide_row l (B, os) = (fst (fold_left collide_row l (B, os)), os).
Proof.
  intros l. revert B. induction l as [|i l IH]; intros B os U; [reflexivity|]. cbn [fold_left].
  assert (Q : collide_row (B, os) i = (fst (collide_row (B, os) i), os)).
  { unfold collide_row. cbn [fst snd]. rewrite objs_off; [reflexivity|]. eapply off_evolves; [|apply Forall2_refl'; now left | exact U].
    apply (fold_rel EV2 (collide_pair i)); [apply EV2_refl | apply EV2_trans | intros; apply collide_pair_rel]. }
  rewrite Q. apply IH. eapply off_evolves; [|apply Forall2_refl'; now left | exact U]. exact (proj1 (collide_row_rel (B, os) i)).
Qed.

(** ** One frame *)
Lemma mapM_app_ok {A B} (f : A -> res B) l1 l2 o1 o2 : mapM f l1 = Ok o1 -> mapM f l2 = Ok o2 -> mapM f (l1 ++ l2)%list = Ok (o1 ++ o2)%list.
Proof.
  revert o1. induction l1 as [|a l1 IH]; intros o1 E1 E2; cbn in *; [injection E1 as <-; exact E2|].
  apply bind_ok in E1 as (y & Ey & E1). apply bind_ok in E1 as (ys & Eys & E1). injection E1 as <-. rewrite Ey. cbn [bind]. rewrite (IH _ Eys E2). reflexivity.
Qed.
Lemma seq_minus n m : map (fun i => (i - n)%nat) (seq n m) = seq 0 m.
Proof.
  transitivity (map (fun j => (j - n)%nat) (map (fun j => (n + j)%nat) (seq 0 m))).
  - f_equal. revert n. induction m as [|m IH]; intros n; [reflexivity|]. cbn [seq map]. rewrite Nat.add_0_r. f_equal.
    rewrite IH. rewrite <- seq_shift, map_map. apply map_ext. intros a. lia.
  - rewrite map_map. rewrite <- (map_id (seq 0 m)) at 2. apply map_ext. intros a. lia.
Qed.
Lemma step_aim g rec dt : forall vs us, mapM (fun v => vehicle_step g rec v dt) vs = Ok us ->
  Forall2 (fun v u => v_target_lane u = v_target_lane v /\ v_kind u = v_kind v) vs us.
Proof.
  induction vs as [|v vs IH]; intros us E; cbn in E; [injection E as <-; constructor|].
  apply bind_ok in E as (y & Ey & E). apply bind_ok in E as (ys & Eys & E). injection E as <-. constructor; [|now apply IH].
  pose proof (step_fields _ _ _ _ _ Ey) as S. cbv zeta in S. tauto.
Qed.
Lemma evolves_aim v w : evolves v w -> v_target_lane w = v_target_lane v /\ v_kind w = v_kind v.
Proof. intros [->|(s & -> & _)]; split; reflexivity. Qed.

(** A frame, in two groups. *)
Lemma frame_groups draws rd rd1 rd2 dt A B : rd_vehicles rd = (A ++ B)%list ->
  road_act draws rd = Ok rd1 -> road_step rd1 dt = Ok rd2 ->
  exists A1 B1 Av Bv, rd1 = set_vehicles rd (A1 ++ B1)%list /\
    foldM (act_one draws) (seq 0 (List.length A)) (set_vehicles rd (A ++ B)%list) = Ok (set_vehicles rd (A1 ++ B)%list) /\
    foldM (act_one draws) (seq (List.length A) (List.length B)) (set_vehicles rd (A1 ++ B)%list) = Ok rd1 /\
    Forall2 same_vehicle A A1 /\ Forall2 same_vehicle B B1 /\
    mapM (fun v => vehicle_step (rd_net rd) (rd_record rd) v dt) A1 = Ok Av /\
    mapM (fun v => vehicle_step (rd_net rd) (rd_record rd) v dt) B1 = Ok Bv /\
    rd2 = (let st := collide_all ((Av ++ Bv)%list, rd_objects rd) in Road (rd_net rd) (fst st) (snd st) (rd_record rd) (rd_steps rd)).
Proof.
  intros V Ea Es. unfold road_act in Ea. rewrite V, app_length, seq_app, foldM_app in Ea. cbn [Nat.add] in Ea.
  apply bind_ok in Ea as (r & E1 & E2). assert (Q : rd = set_vehicles rd (A ++ B)%list) by (rewrite <- V; now destruct rd).
  rewrite Q in E1. destruct (act_first_any draws rd (seq 0 (List.length A)) A B r) as (A1 & -> & FA); [intros i I; apply in_seq in I; lia | exact E1 |].
  pose proof (Forall2_length' _ _ _ FA) as LA.
  destruct (act_second_any draws rd (seq (List.length A) (List.length B)) A1 B rd1) as (B1 & -> & FB); [intros i I; apply in_seq in I; lia | exact E2 |].
  unfold road_step in Es. cbn [set_vehicles rd_net rd_record rd_vehicles rd_objects rd_steps] in Es.
  apply bind_ok in Es as (us & M & Es). apply mapM_app in M as (Av & Bv & -> & MA & MB).
  exists A1, B1, Av, Bv. repeat (split; [first [reflexivity | assumption]|]).
  destruct (collide_all _) as [vs os]. injection Es as <-. reflexivity.
Qed.

Lemma collide_first A B os : uncrossed A B -> off_objects B os ->
  exists B2, collide_all ((A ++ B)%list, os) = ((fst (collide_all (A, os)) ++ B2)%list, snd (collide_all (A, os))) /\ Forall2 evolves B B2.
Proof.
  intros U O. unfold collide_all. cbn [fst]. rewrite app_length, seq_app, fold_left_app. cbn [Nat.add].
  rewrite rows_left by (auto; intros i I; apply in_seq in I; lia).
  pose proof (collide_all_rel (A, os)) as [F G]. unfold collide_all in F, G. cbn [fst] in F, G.
  destruct (fold_left collide_row (seq 0 (List.length A)) (A, os)) as [A2 os2]. cbn [fst snd] in *. pose proof (Forall2_length' _ _ _ F) as L.
  rewrite L, rows_right; [|intros i I; apply in_seq in I; lia | eapply uncrossed_evolves; [exact F | apply EV2_refl | exact U]].
  rewrite seq_minus, (rows_off B) by (eapply off_evolves; [apply EV2_refl | exact G | exact O]). cbn [fst snd].
  eexists. split; [reflexivity|]. apply (fold_rel Rel collide_row Rel_refl Rel_trans collide_row_rel (seq 0 (List.length B)) (B, os2)).
Qed.
Lemma collide_others A B os : uncrossed A B -> off_objects A os ->
  exists A2, collide_all ((A ++ B)%list, os) = ((A2 ++ fst (collide_all (B, os)))%list, snd (collide_all (B, os))) /\ Forall2 evolves A A2.
Proof.
  intros U O. unfold collide_all. cbn [fst]. rewrite app_length, seq_app, fold_left_app. cbn [Nat.add].
  rewrite rows_left by (auto; intros i I; apply in_seq in I; lia).
  pose proof (collide_all_rel (A, os)) as [F _]. unfold collide_all in F. cbn [fst] in F. rewrite (rows_off A _ os O). rewrite (rows_off A _ os O) in F.
  destruct (fold_left collide_row (seq 0 (List.length A)) (A, os)) as [A2 os2]. cbn [fst snd] in *. pose proof (Forall2_length' _ _ _ F) as L.
  rewrite L, rows_right; [|intros i I; apply in_seq in I; lia | eapply uncrossed_evolves; [exact F | apply EV2_refl | exact U]].
  rewrite seq_minus. eexists. split; [reflexivity | exact F].
Qed.

Lemma firstn_exact {A} n (a b : list A) : List.length a = n -> firstn n (a ++ b) = a.
Proof. intros <-. rewrite firstn_app, Nat.sub_diag, firstn_all, firstn_O, app_nil_r. reflexivity. Qed.
Lemma skipn_exact {A} n (a b : list A) : List.length a = n -> skipn n (a ++ b) = b.
Proof. intros <-. rewrite skipn_app, Nat.sub_diag, skipn_all. reflexivity. Qed.

(** Before the collision phase the groups do not touch, since they do not after it. *)
Lemma before_contact A B A2 B2 : Forall2 evolves A A2 -> Forall2 evolves B B2 -> uncrossed A2 B2 -> uncrossed A B.
Proof.
  intros FA FB U v w Iv Iw T. destruct (In_nth_error _ _ Iv) as [i Ni]. destruct (In_nth_error _ _ Iw) as [j Nj].
  destruct (P_Crash.Forall2_nth _ _ _ FA _ _ Ni) as (v2 & Nv & Ev). destruct (P_Crash.Forall2_nth _ _ _ FB _ _ Nj) as (w2 & Nw & Ew).
  apply (U v2 w2); [eapply nth_error_In; eauto | eapply nth_error_In; eauto|]. now apply (touch_evolves v w v2 w2).
Qed.
Lemma before_objects B B2 os os2 : Forall2 evolves B B2 -> Forall2 oevolves os os2 -> off_objects B2 os2 -> off_objects B os.
Proof.
  intros FB FO U v o Iv Io. destruct (In_nth_error _ _ Iv) as [i Ni]. destruct (In_nth_error _ _ Io) as [j Nj].
  destruct (P_Crash.Forall2_nth _ _ _ FB _ _ Ni) as (v2 & Nv & Ev). destruct (P_Crash.Forall2_nth _ _ _ FO _ _ Nj) as (o2 & No & Eo).
  rewrite <- (is_colliding_obj_evolves v o v2 o2) by assumption. apply U; eapply nth_error_In; eauto.
Qed.
Lemma Forall2_split {A B} (P : A -> B -> Prop) (l1 l2 : list A) (m : list B) : Forall2 P (l1 ++ l2) m ->
  Forall2 P l1 (firstn (List.length l1) m) /\ Forall2 P l2 (skipn (List.length l1) m).
Proof.
  intros F. apply Forall2_app_inv_l in F as (m1 & m2 & F1 & F2 & ->). pose proof (Forall2_length' _ _ _ F1) as L.
  rewrite L, firstn_exact, skipn_exact by reflexivity. split; assumption.
Qed.

Lemma frame_first draws rd rd1 rd2 dt n : (n <= List.length (rd_vehicles rd))%nat ->
  road_act draws rd = Ok rd1 -> road_step rd1 dt = Ok rd2 ->
  (forall v w, In v (firstn n (rd_vehicles rd)) -> In w (skipn n (rd_vehicles rd)) -> out_of_sight (rd_net rd) v w /\ bound_elsewhere v w) ->
  no_contact n rd2 -> no_object_hit (skipn n (rd_vehicles rd2)) rd2 ->
  (exists rd1', road_act draws (keep_first n rd) = Ok rd1' /\ road_step rd1' dt = Ok (keep_first n rd2)) /\
  rd_net rd2 = rd_net rd /\ List.length (rd_vehicles rd2) = List.length (rd_vehicles rd).
Proof.
  intros Hn Ea Es Hs Hc Ho. set (A := firstn n (rd_vehicles rd)) in *. set (B := skipn n (rd_vehicles rd)) in *.
  assert (V : rd_vehicles rd = (A ++ B)%list) by (symmetry; apply firstn_skipn). assert (LA : List.length A = n) by (apply firstn_length_le; exact Hn).
  destruct (frame_groups _ _ _ _ _ A B V Ea Es) as (A1 & B1 & Av & Bv & H1 & HA & HB & FA & FB & MA & MB & H2). cbv zeta in H2.
  pose proof (Forall2_length' _ _ _ FA) as L1. pose proof (Forall2_length' _ _ _ FB) as L1b.
  pose proof (mapM_length _ _ _ MA) as L2. pose proof (mapM_length _ _ _ MB) as L2b.
  pose proof (collide_all_rel ((Av ++ Bv)%list, rd_objects rd)) as [F G]. cbn [fst snd] in F, G. apply Forall2_split in F as [FAv FBv].
  replace (List.length Av) with n in FAv, FBv by lia.
  assert (U : uncrossed Av Bv).
  { eapply before_contact; [exact FAv | exact FBv|]. intros v w Iv Iw. apply Hc; rewrite H2; assumption. }
  assert (O : off_objects Bv (rd_objects rd)).
  { eapply before_objects; [exact FBv | exact G|]. intros v o Iv Io. rewrite H2 in Ho. apply Ho; assumption. }
  destruct (collide_first Av Bv (rd_objects rd) U O) as (B2 & Q & FB2). pose proof (collide_all_rel (Av, rd_objects rd)) as [F3 _]. cbn [fst] in F3.
  pose proof (Forall2_length' _ _ _ F3) as L3. rewrite Q in H2. cbn [fst snd] in H2. split; [|split].
  - exists (set_vehicles rd A1). split.
    + unfold road_act, keep_first. cbn [set_vehicles rd_vehicles]. fold A.
      destruct (act_first draws rd (seq 0 (List.length A)) A B (set_vehicles rd (A1 ++ B)%list)) as (A' & R1 & R2 & _).
      * intros i I. apply in_seq in I. lia.
      * intros v Iv w Iw. destruct (Hs v w Iv Iw) as [X1 X2]. split; [exact X1 | exact X2].
      * exact HA.
      * rewrite R2. f_equal. injection R1 as R1. assert (A1 = A'); [|congruence].
        apply (f_equal (firstn n)) in R1. pose proof (Forall2_length' _ _ _ FA). 
        assert (L' : List.length A' = n).
        { apply (f_equal (@List.length vehicle)) in R1. rewrite !firstn_length, !app_length in R1.
          destruct (act_first_any draws rd (seq 0 (List.length A)) A [] (set_vehicles rd A')) as (A'' & E'' & F''); [intros i I; apply in_seq in I; lia | rewrite app_nil_r; exact R2 |].
          injection E'' as E''. rewrite app_nil_r in E''. subst A''. apply Forall2_length' in F''. lia. }
        rewrite !firstn_exact in R1 by lia. exact R1.
    + unfold road_step. cbn [set_vehicles rd_net rd_record rd_vehicles rd_objects rd_steps]. rewrite MA. cbn [bind].
      unfold keep_first. rewrite H2. cbn [rd_vehicles set_vehicles rd_net rd_objects rd_record rd_steps]. rewrite firstn_exact by lia.
      destruct (collide_all (Av, rd_objects rd)). reflexivity.
  - rewrite H2. reflexivity.
  - rewrite H2. cbn [rd_vehicles]. rewrite V, !app_length. apply Forall2_length' in FB2. lia.
Qed.

Lemma frame_others draws rd rd1 rd2 dt n : (n <= List.length (rd_vehicles rd))%nat ->
  road_act draws rd = Ok rd1 -> road_step rd1 dt = Ok rd2 ->
  (forall v w, In v (firstn n (rd_vehicles rd)) -> In w (skipn n (rd_vehicles rd)) -> out_of_sight (rd_net rd) w v) ->
  (forall v w, In v (firstn n (rd_vehicles rd2)) -> In w (skipn n (rd_vehicles rd)) -> bound_elsewhere w v) ->
  no_contact n rd2 -> no_object_hit (firstn n (rd_vehicles rd2)) rd2 ->
  (exists draws' rd1', (forall i, draws' i = draws (i + n)%nat) /\ road_act draws' (keep_others n rd) = Ok rd1' /\ road_step rd1' dt = Ok (keep_others n rd2)) /\
  rd_net rd2 = rd_net rd /\ List.length (rd_vehicles rd2) = List.length (rd_vehicles rd).
Proof.
  intros Hn Ea Es Hs Hb Hc Ho. set (A := firstn n (rd_vehicles rd)) in *. set (B := skipn n (rd_vehicles rd)) in *.
  assert (V : rd_vehicles rd = (A ++ B)%list) by (symmetry; apply firstn_skipn). assert (LA : List.length A = n) by (apply firstn_length_le; exact Hn).
  destruct (frame_groups _ _ _ _ _ A B V Ea Es) as (A1 & B1 & Av & Bv & H1 & HA & HB & FA & FB & MA & MB & H2). cbv zeta in H2.
  pose proof (Forall2_length' _ _ _ FA) as L1. pose proof (Forall2_length' _ _ _ FB) as L1b.
  pose proof (mapM_length _ _ _ MA) as L2. pose proof (mapM_length _ _ _ MB) as L2b.
  pose proof (collide_all_rel ((Av ++ Bv)%list, rd_objects rd)) as [F G]. cbn [fst snd] in F, G. apply Forall2_split in F as [FAv FBv].
  replace (List.length Av) with n in FAv, FBv by lia.
  assert (U : uncrossed Av Bv).
  { eapply before_contact; [exact FAv | exact FBv|]. intros v w Iv Iw. apply Hc; rewrite H2; assumption. }
  assert (O : off_objects Av (rd_objects rd)).
  { eapply before_objects; [exact FAv | exact G|]. intros v o Iv Io. rewrite H2 in Ho. apply Ho; assumption. }
  destruct (collide_others Av Bv (rd_objects rd) U O) as (A2 & Q & FA2). pose proof (collide_all_rel (Bv, rd_objects rd)) as [F3 _]. cbn [fst] in F3.
  pose proof (Forall2_length' _ _ _ F3) as L3. pose proof (Forall2_length' _ _ _ FA2) as L4. rewrite Q in H2. cbn [fst snd] in H2. split; [|split].
  - exists (fun i => draws (i + n)%nat), (set_vehicles rd B1). split; [reflexivity|]. split.
    + unfold road_act, keep_others. cbn [set_vehicles rd_vehicles]. fold B.
      rewrite H1 in HB. destruct (act_second draws rd (seq (List.length A) (List.length B)) A1 B (set_vehicles rd (A1 ++ B1)%list)) as (B' & R1 & R2 & _).
      * intros i I. apply in_seq in I. lia.
      * intros w Iw v1 Iv1. destruct (Forall2_In_r _ _ _ FA v1 Iv1) as (v & Iv & Sv). unfold same_vehicle in Sv.
        assert (Pv : v_pos v1 = v_pos v) by tauto. assert (Kv : v_kind v1 = v_kind v) by tauto. split.
        -- rewrite Pv. exact (Hs v w Iv Iw).
        -- destruct (In_nth_error _ _ Iv1) as [i Ni]. destruct (P_Crash.Forall2_nth _ _ _ (step_aim _ _ _ _ _ MA) _ _ Ni) as (u & Nu & Tu & Ku).
           destruct (P_Crash.Forall2_nth _ _ _ FA2 _ _ Nu) as (v2 & N2 & E2). apply evolves_aim in E2 as [T2 K2].
           assert (I2 : In v2 (firstn n (rd_vehicles rd2))).
           { rewrite H2. cbn [rd_vehicles]. rewrite firstn_exact by lia. eapply nth_error_In; eauto. }
           pose proof (Hb v2 w I2 Iw) as X. unfold bound_elsewhere in X. rewrite K2, Ku, T2, Tu in X. exact X.
      * exact HB.
      * rewrite <- L1, seq_minus, LA in R2. rewrite R2. f_equal. injection R1 as R1. apply app_inv_head in R1. congruence.
    + unfold road_step. cbn [set_vehicles rd_net rd_record rd_vehicles rd_objects rd_steps]. rewrite MB. cbn [bind].
      unfold keep_others. rewrite H2. cbn [rd_vehicles set_vehicles rd_net rd_objects rd_record rd_steps]. rewrite skipn_exact by lia.
      destruct (collide_all (Bv, rd_objects rd)). reflexivity.
  - rewrite H2. reflexivity.
  - rewrite H2. cbn [rd_vehicles]. rewrite V, !app_length. lia.
Qed.
