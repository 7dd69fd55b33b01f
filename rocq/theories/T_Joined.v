(** C86: how the lanes of the provided road networks continue each other. *)
From Coq Require Import Lia Lra.
From Verif Require Import Prelude M_Utils M_Lane M_Road M_Vehicle M_Kinematics M_Control M_Behavior M_Action M_Env M_Scenes M_Nets M_Reset
  S_Geometry S_Road S_Joined P_Base P_Lane P_Graph P_Query P_Nets P_Reset P_Ready P_Crossing P_Entry P_Joined T_Road.
Open Scope R_scope.

(** C86: intersection: every lane continues the previous one, in position and in
    direction, through the whole crossing. *)
Theorem C86_intersection_continuous : forall a b c k k' l l',
  has_lane intersection_net a b k l -> has_lane intersection_net b c k' l' -> ~ In b outer_nodes -> joined l l'.
Proof.
  intros a b c k k' l l' H H' N. apply crossing_lane in H as (q & n & Hn & E). apply crossing_lane in H' as (q' & n' & Hn' & E').
  assert (J : joined (snd (crossing_of_kind q n)) (snd (crossing_of_kind q' n'))); [|now rewrite E, E' in J].
  apply crossing_joined; [exact Hn|exact Hn'|unfold node_to, node_from; now rewrite E, E'|]. intros ->. apply N.
  apply (f_equal (fun x => snd (fst x))) in E. cbn [crossing_of_kind fst snd] in E. subst b. clear -Hn. do 4 (destruct n as [|n]; [cbn; tauto|]). lia.
Qed.
Print Assumptions C86_intersection_continuous.

(** C86: but at the outer ends the network asks for a U-turn: the way back in is 4 m
    aside, in the opposite direction. *)
Theorem C86_intersection_u_turns : forall a b c k k' l l',
  has_lane intersection_net a b k l -> has_lane intersection_net b c k' l' -> In b outer_nodes ->
  gap l l' = 4 /\ facing (l_heading l (l_length l)) = vscal (-1) (facing (l_heading l' 0)).
Proof.
  intros a b c k k' l l' H H' N. apply crossing_lane in H as (q & n & Hn & E). apply crossing_lane in H' as (q' & n' & Hn' & E').
  pose proof (crossing_outside q n q' n' Hn Hn') as J. rewrite E, E' in J. apply J; [unfold node_to, node_from; now rewrite E, E'|].
  apply (f_equal (fun x => snd (fst x))) in E. cbn [fst snd] in E. subst b. clear -Hn N.
  do 4 (destruct n as [|n]; [destruct q; try reflexivity; cbn in N; repeat destruct N as [N|N]; try discriminate N; destruct N|]). lia.
Qed.
Print Assumptions C86_intersection_u_turns.
Example C86_intersection_nonvacuous : exists l l',
  has_lane intersection_net "o0" "ir0" 0 l /\ has_lane intersection_net "ir0" "il1" 0 l' /\ ~ In "ir0"%string outer_nodes.
Proof.
  exists (arm_lane 0), (left_lane 0). split; [|split].
  - rewrite crossing_eq. apply build_has. reflexivity.
  - rewrite crossing_eq. apply build_has. reflexivity.
  - cbn. intuition discriminate.
Qed.

(** The [i]-th node of the ring, cyclically. *)
Definition ring_node (i : nat) : string := nth (i mod 8) ring_nodes ""%string.

Lemma succ_mod i : (i < 8)%nat -> ring_node (i + 2) = ring_node (((i + 1) mod 8) + 1).
Proof. intros H. do 8 (destruct i as [|i]; [reflexivity|]). lia. Qed.

(** C86: roundabout: the ring has two lanes all the way round, each continuing itself
    seamlessly; one is 4 m outside the other. *)
Theorem C86_ring_continuous : forall i k k' l l', (i < 8)%nat ->
  has_lane roundabout_net (ring_node i) (ring_node (i + 1)) k l -> has_lane roundabout_net (ring_node (i + 1)) (ring_node (i + 2)) k' l' ->
  (k < 2)%nat /\ (k = k' -> joined l l') /\ (k <> k' -> gap l l' = 4 /\ facing (l_heading l (l_length l)) = facing (l_heading l' 0)).
Proof.
  intros i k k' l l' Hi H H'. destruct (ring_lane i k l Hi H) as (Hk & _ & F & _). split; [exact Hk|].
  rewrite succ_mod in H' by exact Hi.
  assert (E : ring_node (i + 1) = rn ((i + 1) mod 8)). { unfold ring_node, rn. now rewrite Nat.mod_mod by lia. }
  rewrite E in H'. destruct (ring_lane ((i + 1) mod 8) k' l') as (Hk' & B & _); [apply Nat.mod_upper_bound; lia|exact H'|].
  destruct (arc_next i Hi) as [E1 E2]. rewrite E1, E2 in F. destruct F as [Fp Ff], B as [Bp Bf]. split.
  - intros <-. split; congruence.
  - intros N. split; [|congruence]. unfold gap. rewrite Fp, Bp, facing_norm.
    destruct k as [|[|k]]; [| |lia]; (destruct k' as [|[|k']]; [| |lia]); try (now elim N); cbn [ring_radius]; unfold Rabs; destruct (Rcase_abs _); lra.
Qed.
Print Assumptions C86_ring_continuous.

(** The initials of the arms of the roundabout. *)
Definition arms : list string := ["s"; "e"; "n"; "w"]%string.
Lemma arms_initial p : In p arms -> exists i, (i < 4)%nat /\ p = initial i.
Proof. cbn. intros [<-|[<-|[<-|[<-|[]]]]]; [exists 0%nat|exists 1%nat|exists 2%nat|exists 3%nat]; (split; [lia|reflexivity]). Qed.
Lemma access_lane i n m k l x : (i < 4)%nat -> added_between n m ring_adds = [x] -> has_lane roundabout_net n m k l -> l = x.
Proof. intros Hi E H. rewrite roundabout_eq, build_has_iff, E in H. destruct k as [|k]; [now injection H as <-|destruct k; discriminate H]. Qed.

(** C86: each access road continues seamlessly into its entry curve, and each exit curve
    into its road out. *)
Theorem C86_access_continuous : forall p k k' l l', In p arms ->
  (has_lane roundabout_net (p ++ "er") (p ++ "es") k l -> has_lane roundabout_net (p ++ "es") (p ++ "e") k' l' -> joined l l') /\
  (has_lane roundabout_net (p ++ "x") (p ++ "xs") k l -> has_lane roundabout_net (p ++ "xs") (p ++ "xr") k' l' -> joined l l').
Proof.
  intros p k k' l l' Hp. destruct (arms_initial p Hp) as (i & Hi & ->). destruct (access_roads i Hi) as (A1 & A2 & A3 & A4).
  destruct (access_facts i Hi) as (B1 & B2 & _ & _ & B3 & B4). split; intros H H'.
  - apply (access_lane i _ _ _ _ _ Hi A1) in H. apply (access_lane i _ _ _ _ _ Hi A2) in H'. subst. eapply joined_by; eassumption.
  - apply (access_lane i _ _ _ _ _ Hi A3) in H. apply (access_lane i _ _ _ _ _ Hi A4) in H'. subst. eapply joined_by; eassumption.
Qed.
Print Assumptions C86_access_continuous.

Lemma ring_entry i : (i < 4)%nat -> exists j, (j < 8)%nat /\ (initial i ++ "e")%string = rn j.
Proof. intros H. do 4 (destruct i as [|i]; [first [exists 0%nat; split; [lia|reflexivity] | exists 2%nat; split; [lia|reflexivity] | exists 4%nat; split; [lia|reflexivity] | exists 6%nat; split; [lia|reflexivity]]|]). lia. Qed.
Lemma ring_exit i : (i < 4)%nat -> exists j, (j < 8)%nat /\ (initial i ++ "x")%string = rn (j + 1).
Proof. intros H. do 4 (destruct i as [|i]; [first [exists 6%nat; split; [lia|reflexivity] | exists 0%nat; split; [lia|reflexivity] | exists 2%nat; split; [lia|reflexivity] | exists 4%nat; split; [lia|reflexivity]]|]). lia. Qed.

(** C86: but neither the entry curves nor the exit curves meet the ring: they stop, or
    start, at least 1.5 m from both its lanes. *)
Theorem C86_ring_not_reached : forall p i k k' l l', In p arms -> (i < 8)%nat ->
  (has_lane roundabout_net (p ++ "es") (p ++ "e") k l -> (p ++ "e")%string = ring_node i ->
   has_lane roundabout_net (ring_node i) (ring_node (i + 1)) k' l' -> 3/2 <= gap l l') /\
  (has_lane roundabout_net (ring_node i) (ring_node (i + 1)) k' l' -> ring_node (i + 1) = (p ++ "x")%string ->
   has_lane roundabout_net (p ++ "x") (p ++ "xs") k l -> 3/2 <= gap l' l).
Proof.
  intros p j k k' l l' Hp Hj. destruct (arms_initial p Hp) as (i & Hi & ->). destruct (access_roads i Hi) as (A1 & A2 & A3 & A4).
  destruct (access_facts i Hi) as (_ & _ & [y Py] & [z Pz] & _ & _). split; intros H1 H2 H3.
  - apply (access_lane i _ _ _ _ _ Hi A2) in H1. subst l. destruct (ring_lane j k' l' Hj H3) as (_ & [B _] & _).
    unfold gap. rewrite Py, B. now apply ring_clear.
  - apply (access_lane i _ _ _ _ _ Hi A3) in H3. subst l. destruct (ring_lane j k' l' Hj H1) as (_ & _ & [B _] & _).
    unfold gap. rewrite Pz, B, dist2_sym. now apply ring_clear.
Qed.
Print Assumptions C86_ring_not_reached.
Example C86_roundabout_nonvacuous : In "n"%string arms /\ ("n" ++ "e")%string = ring_node 4 /\ ring_node (2 + 1) = ("n" ++ "x")%string /\
  (exists l, has_lane roundabout_net (ring_node 4) (ring_node (4 + 1)) 1 l) /\ exists l, has_lane roundabout_net ("n" ++ "es") ("n" ++ "e") 0 l.
Proof.
  split; [cbn; tauto|]. split; [reflexivity|]. split; [reflexivity|]. rewrite roundabout_eq. split.
  - eexists. apply build_has. change (ring_node 4) with (rn 4). change (ring_node (4 + 1)) with (rn (4 + 1)). rewrite ring_road by lia. reflexivity.
  - exists (entry_sine 2). apply build_has. change "n"%string with (initial 2). rewrite (proj1 (proj2 (access_roads 2 ltac:(lia)))). reflexivity.
Qed.

(** C86: merge: both highway lanes are continuous over the three roads, and the ramp
    continues seamlessly into the third lane of the merging section, which then stops. *)
Theorem C86_merge_continuous :
  (forall k l l', has_lane merge_net "a" "b" k l -> has_lane merge_net "b" "c" k l' -> joined l l') /\
  (forall k l l', has_lane merge_net "b" "c" k l -> has_lane merge_net "c" "d" k l' -> joined l l') /\
  (forall k k' l l', has_lane merge_net "j" "k" k l -> has_lane merge_net "k" "b" k' l' -> joined l l') /\
  (forall k l l', has_lane merge_net "k" "b" k l -> has_lane merge_net "b" "c" 2 l' -> joined l l') /\
  (forall l, ~ has_lane merge_net "c" "d" 2 l).
Proof.
  split; [|split; [|split; [|split]]].
  - intros k l l' H H'. apply merge_ab in H as (_ & _ & _ & F). apply merge_bc_facts in H' as (_ & _ & B & _). eapply joined_by; eassumption.
  - intros k l l' H H'. apply merge_bc_facts in H as (_ & _ & _ & F). apply merge_cd in H' as (_ & _ & B & _). eapply joined_by; eassumption.
  - intros k k' l l' H H'. apply merge_jk in H as [_ ->]. apply merge_kb in H' as [_ ->]. destruct merge_kb_facts as (_ & B & _).
    destruct (east merge_ljk _ _ 150 merge_jk_geom) as (_ & _ & F); [cbn [fst snd]; f_equal; lra|lra|]. eapply joined_by; eassumption.
  - intros k l l' H H'. apply merge_kb in H as [_ ->]. destruct merge_kb_facts as (_ & _ & F). apply merge_bc_facts in H' as (_ & _ & B & _). eapply joined_by; eassumption.
  - intros l H. apply merge_cd in H as (H & _). lia.
Qed.
Print Assumptions C86_merge_continuous.

Lemma merge_distance k l p : has_lane merge_net "b" "c" k l -> l_distance l p = Rabs (snd p - merge_y k) + Rmax (fst p - 310) 0 + Rmax (230 - fst p) 0.
Proof.
  intros H. pose proof (merge_bc _ _ H) as [_ G]. pose proof (merge_bc_facts _ _ H) as (_ & L & _). unfold l_distance, l_local. rewrite L, G. cbn [geom_local]. unfold straight_local.
  destruct (along_lane (230, merge_y k) (310, merge_y k) (1, 0) 80) as (_ & D & _ & _); [unfold vadd, vscal; cbn [fst snd]; f_equal; lra|cbn; ring|lra|].
  unfold straight_lat. rewrite D. unfold vdot, vsub. cbn [fst snd]. f_equal; [f_equal|]; [f_equal; ring| |]; f_equal; lra.
Qed.
Lemma merge_all : (exists l, has_lane merge_net "k" "b" 0 l) /\ (forall k, (k < 3)%nat -> exists l, has_lane merge_net "b" "c" k l).
Proof.
  rewrite merge_eq. split; [eexists; apply build_has; reflexivity|]. intros k Hk. do 3 (destruct k as [|k]; [eexists; apply build_has; reflexivity|]). lia.
Qed.
Lemma merge_wf : wf_graph merge_net. Proof. apply wf_built. exists merge_adds. reflexivity. Qed.

(** C86: a vehicle leaving the ramp (more than 2 m to the right of the highway lanes) is
    sent to that third lane. *)
Theorem C86_ramp_continues_straight : forall p draw, draw_ok draw -> 6 < snd p ->
  snd (next_lane merge_net ("k", "b", Some 0%Z)%string [] p draw) = Ok ("b", "c", Some 2%Z)%string.
Proof.
  intros p draw D Hp. destruct merge_all as [[lk Hk] Hb].
  assert (B : built merge_net) by (exists merge_adds; reflexivity).
  assert (C : lane_exists merge_net ("k", "b", Some 0%Z)%string) by (exists 0%nat, lk; split; [reflexivity|exact Hk]).
  destruct (C15_next_lane_without_route merge_net _ p draw B C D) as (i & E & _ & Q).
  destruct Q as [F Ed]; [destruct (Hb 0%nat ltac:(lia)) as [l Hl]; exists "c"%string, 0%nat, l; exact Hl|]. cbn [li_to fst snd] in F, Ed.
  assert (T : li_to i = "c"%string).
  { destruct Ed as (k & l & H). rewrite merge_eq, build_has_iff in H. apply nth_error_In, added_In in H. unfold merge_adds in H. cbn [app merge_highway_lanes In] in H.
    repeat (destruct H as [H|H]; [apply (f_equal fst) in H; cbn [fst] in H; revert H; generalize (li_to i); intros s H; try (now injection H); now injection H as <-|]). destruct H. }
  destruct (proj1 (has_lane_g _ _ _ _ _) Hk) as (here & Gh & Nh). destruct (Hb 0%nat ltac:(lia)) as [l0 H0]. destruct (proj1 (has_lane_g _ _ _ _ _) H0) as (there & Gt & Nt).
  assert (Lh : List.length here = 1%nat). { apply g_lanes_of in Gh. rewrite merge_eq, build_lanes in Gh. rewrite <- Gh. reflexivity. }
  assert (Lt : List.length there = 3%nat). { apply g_lanes_of in Gt. rewrite merge_eq, build_lanes in Gt. rewrite <- Gt. reflexivity. }
  assert (Nth : forall k l, nth_error there k = Some l -> has_lane merge_net "b" "c" k l).
  { intros k l N. apply g_lanes_of in Gt. rewrite merge_eq, build_lanes in Gt. rewrite <- Gt in N. rewrite merge_eq. apply build_has, N. }
  destruct (C15_next_lane_id merge_net _ [] p draw i here there B E) as [_ X]; [exact F|right; rewrite F; discriminate|exact Gh|rewrite F, T; exact Gt|].
  destruct X as (k & l & Ik & Nk & Min & _); [rewrite Lh, Lt; discriminate|].
  rewrite E. f_equal. destruct i as [[a b] o]. unfold li_from, li_to, li_id in *. cbn [fst snd] in *. subst a b o. f_equal. f_equal.
  destruct (nth_error there 2) as [l2|] eqn:N2; [|apply nth_error_None in N2; lia]. specialize (Min _ _ N2).
  pose proof (Nth _ _ Nk) as Hl. rewrite (merge_distance _ _ p Hl), (merge_distance _ _ p (Nth _ _ N2)) in Min. cbn [merge_y] in Min.
  assert (Hlt : (k < 3)%nat) by (rewrite <- Lt; apply nth_error_Some; congruence).
  destruct k as [|[|[|k]]]; [| |reflexivity|lia]; exfalso; cbn [merge_y] in Min; unfold Rabs in Min; destruct (Rcase_abs _), (Rcase_abs _); lra.
Qed.
Print Assumptions C86_ramp_continues_straight.

(** C86: lane keeping: the straight lane continues into the link, but the link leads
    nowhere near the start of the sine lane it is connected to. *)
Theorem C86_lane_keeping :
  (forall k k' l l', has_lane lane_keeping_net "c" "d" k l -> has_lane lane_keeping_net "d" "a" k' l' -> joined l l') /\
  (forall k k' l l', has_lane lane_keeping_net "d" "a" k l -> has_lane lane_keeping_net "a" "b" k' l' -> 135 <= gap l l').
Proof.
  assert (U : lane_keeping_net = build [("a", "b", lane_keeping_sine); ("c", "d", lane_keeping_straight); ("d", "a", lane_keeping_link)]%string) by reflexivity.
  destruct keeping_facts as (F & B & [y E] & S0).
  split; intros k k' l l' H H'; rewrite U, build_has_iff in H, H'; cbn in H, H';
    (destruct k as [|k]; [|destruct k; discriminate H]); (destruct k' as [|k']; [|destruct k'; discriminate H']); injection H as <-; injection H' as <-.
  - eapply joined_by; eassumption.
  - unfold gap. rewrite E, S0. eapply Rle_trans; [|apply dist2_fst]. cbn [fst]. unfold Rabs. destruct (Rcase_abs _); lra.
Qed.
Print Assumptions C86_lane_keeping.

(** C86: along any unbroken route the position is defined everywhere and is a continuous
    function of the distance: no jump where lanes meet. *)
Theorem C86_no_jump_along_unbroken_routes : forall g rt, unbroken g rt -> rt <> [] -> exists pos : R -> vec,
  (forall s, exists h, position_heading_along_route g rt s 0 = Ok (pos s, h)) /\
  continuity (fun s => fst (pos s)) /\ continuity (fun s => snd (pos s)).
Proof.
  intros g rt U N. destruct (route_continuous g rt U N) as (A & B & C & _).
  exists (fun s => spot (position_heading_along_route g rt s 0)). split; [exact A|]. split; assumption.
Qed.
Print Assumptions C86_no_jump_along_unbroken_routes.

Lemma ok_same (A : Type) (x y : A) : Ok x = Ok y -> x = y.
Proof. intros H. now injection H. Qed.

(** C86: for instance across the intersection, and from the ramp onto the highway. *)
Example C86_unbroken_nonvacuous :
  unbroken intersection_net [("o0", "ir0", Some 0%Z); ("ir0", "il1", Some 0%Z); ("il1", "o1", Some 0%Z)]%string /\
  unbroken merge_net [("j", "k", Some 0%Z); ("k", "b", Some 0%Z); ("b", "c", Some 2%Z)]%string.
Proof.
  assert (N1 : ~ In "ir0"%string outer_nodes) by (cbn; intuition discriminate). assert (N2 : ~ In "il1"%string outer_nodes) by (cbn; intuition discriminate).
  split.
  - assert (H1 : has_lane intersection_net "o0" "ir0" 0 (arm_lane 0)) by (rewrite crossing_eq; apply build_has; reflexivity).
    assert (H2 : has_lane intersection_net "ir0" "il1" 0 (left_lane 0)) by (rewrite crossing_eq; apply build_has; reflexivity).
    assert (H3 : has_lane intersection_net "il1" "o1" 0 (exit_lane 2)) by (rewrite crossing_eq; apply build_has; reflexivity).
    pose proof (get_lane_nat _ _ _ _ _ H1) as G1. pose proof (get_lane_nat _ _ _ _ _ H2) as G2. pose proof (get_lane_nat _ _ _ _ _ H3) as G3. cbn [Z.of_nat] in *.
    cbn [unbroken]. rewrite G1, G2, G3.
    pose proof (proj1 (proj2 (arm_geometry 0))) as L1. pose proof (proj1 (left_geometry 0 0)) as L2. pose proof (proj1 (proj2 (exit_geometry 2))) as L3. pose proof PI_RGT_0.
    split; [eexists; split; [reflexivity|rewrite L1; lra]|]. split; [split; [eexists; split; [reflexivity|rewrite L2; lra]|]|].
    + split; [split; [eexists; split; [reflexivity|rewrite L3; lra]|split; exact Logic.I]|]. intros l l' E E'. apply ok_same in E, E'. rewrite <- E, <- E'.
      exact (C86_intersection_continuous _ _ _ _ _ _ _ H2 H3 N2).
    + intros l l' E E'. apply ok_same in E, E'. rewrite <- E, <- E'. exact (C86_intersection_continuous _ _ _ _ _ _ _ H1 H2 N1).
  - assert (H1 : has_lane merge_net "j" "k" 0 merge_ljk) by (rewrite merge_eq; apply build_has; reflexivity).
    assert (H2 : has_lane merge_net "k" "b" 0 merge_lkb) by (rewrite merge_eq; apply build_has; reflexivity).
    assert (H3 : has_lane merge_net "b" "c" 2 merge_lbc) by (rewrite merge_eq; apply build_has; reflexivity).
    pose proof (get_lane_nat _ _ _ _ _ H1) as G1. pose proof (get_lane_nat _ _ _ _ _ H2) as G2. pose proof (get_lane_nat _ _ _ _ _ H3) as G3.
    change (Z.of_nat 0) with 0%Z in *. change (Z.of_nat 2) with 2%Z in *. cbn [unbroken]. rewrite G1, G2, G3.
    destruct C86_merge_continuous as (_ & _ & J1 & J2 & _).
    split; [eexists; split; [reflexivity|]|split; [split; [eexists; split; [reflexivity|]|split; [split; [eexists; split; [reflexivity|]|split; exact Logic.I]|]]|]].
    + destruct (east merge_ljk _ _ 150 merge_jk_geom) as (L & _); [cbn [fst snd]; f_equal; lra|lra|rewrite L; lra].
    + rewrite (proj1 merge_kb_facts). lra.
    + rewrite (proj1 (proj2 (merge_bc_facts _ _ H3))). lra.
    + intros l l' E E'. apply ok_same in E, E'. rewrite <- E, <- E'. exact (J2 _ _ _ H2 H3).
    + intros l l' E E'. apply ok_same in E, E'. rewrite <- E, <- E'. exact (J1 _ _ _ _ H1 H2).
Qed.
