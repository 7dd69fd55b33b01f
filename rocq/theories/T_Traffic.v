(** C53: vehicles entering and leaving the intersection. *)
From Verif Require Import Prelude M_Utils M_Lane M_Road M_Vehicle M_Kinematics M_Control M_Behavior M_Regulation M_Action M_Env M_Scenes M_Nets M_Reset S_Reset
  S_Geometry S_Road S_Vehicle S_Control S_Behavior S_Regulation S_Env P_Base P_Utils P_Lane P_Graph P_Bfs P_Query P_Kin P_Crash P_Control P_Behavior P_Traffic P_Regulation P_Action P_Env P_Scenes P_Nets P_Reset P_Ready P_Crossing P_Entry T_Reset.
From Coq Require Import Lia Lra.
Open Scope R_scope.

Lemma traffic_crossing rd : intersection_traffic_ok rd <-> crossing rd.
Proof.
  unfold intersection_traffic_ok, crossing. split.
  - intros (N & O & R & D). apply regulated_iff in R as (_ & _ & F & _). rewrite N in F. exact (conj N (conj O (conj F D))).
  - intros C. pose proof (crossing_regulated _ C) as R. destruct C as (N & O & _ & D). exact (conj N (conj O (conj R D))).
Qed.
Lemma turn_quarter a p : (a < 4)%nat -> vrot (turn a) p = turned_quarters a p.
Proof.
  intros H. unfold vrot, turn. pose proof (f_equal fst (deg90 a H)) as C. pose proof (f_equal snd (deg90 a H)) as Q. cbn [fst snd] in C, Q. rewrite C, Q. clear C Q.
  destruct a as [|[|[|[|a]]]]; [| | | |lia]; destruct p as [x y]; unfold turned_quarters; cbn [fst snd]; f_equal; ring.
Qed.
Lemma arm_at a s : (a < 4)%nat -> l_position (arm_lane a) s 0 = arm_point a s.
Proof. intros H. destruct (arm_geometry a) as (_ & _ & _ & _ & P). rewrite P. now apply turn_quarter. Qed.
Lemma exit_name a b : (a < 4)%nat -> (b < 4)%nat -> a <> b -> forall ord v, set_order ord -> v_lane_index v = (corner_name "o" a, corner_name "ir" a, Some 0%Z) ->
  plan_route_to intersection_net ord v (corner_name "o" b) = Ok (set_route v (Some (way_across a b))).
Proof. intros Ha Hb N ord v O L. unfold plan_route_to. rewrite L. unfold li_to. cbn [fst snd]. rewrite (path_across ord a b O Ha Hb N). reflexivity. Qed.

Lemma ok_inj {A} (x y : A) : Ok x = Ok y -> x = y.
Proof. congruence. Qed.
Lemma planned_route g ord v dst w : plan_route_to g ord v dst = Ok w -> exists rt, w = set_route v rt.
Proof. unfold plan_route_to. destruct (shortest_path g ord _ dst) as [[|n p]|[]]; intros E; try discriminate; apply ok_inj in E; subst w; eexists; reflexivity. Qed.
Lemma route_set v r w : Ok (set_route v r) = Ok w -> v_route w = r.
Proof. intros E. apply ok_inj in E. now subst w. Qed.

(** [_spawn_vehicle]: nothing happens when the draw exceeds the probability, or when some
    vehicle is less than 15 m away from the place drawn on the access road of the arm
    drawn; otherwise exactly one vehicle appears there, at the end of the list. *)
Theorem C53_spawn cs c d j ctl lon pos_dev speed_dev prob (straight : bool) rd : draws_ok d -> intersection_traffic_ok rd ->
  let a := fst (dr_pair d j) in
  let b := if straight then ((a + 2) mod 4)%nat else snd (dr_pair d j) in
  let s := lon + 5 + dr_normal d (2 * j) * pos_dev in
  exists rd', spawn cs c d j ctl lon pos_dev speed_dev prob straight rd = Ok rd' /\ intersection_traffic_ok rd' /\
    ((rd' = rd /\ (prob < dr_unit d (6 * j) \/ exists w, In w (rd_vehicles rd) /\ vnorm (vsub (v_pos w) (arm_point a s)) < 15)) \/
     (dr_unit d (6 * j) <= prob /\
      exists v, rd' = set_vehicles rd (rd_vehicles rd ++ [v]) /\
        (forall w, In w (rd_vehicles rd) -> v_id w <> v_id v /\ 15 <= vnorm (vsub (v_pos w) (v_pos v))) /\ ~ In (v_id v) ctl /\
        v_pos v = arm_point a s /\ (cos (v_heading v), sin (v_heading v)) = turned_quarters a (0, -1) /\
        v_speed v = 8 + dr_normal d (2 * j + 1) * speed_dev /\ v_crashed v = false /\ v_kind v = kind_of c /\
        a <> b /\ (b < 4)%nat /\
        (0 <= s < 100 -> v_lane_index v = (corner_name "o" a, corner_name "ir" a, Some 0%Z) /\ v_target_lane v = v_lane_index v /\ v_route v = Some (way_across a b)))).
Proof.
  intros D T. cbv zeta. apply traffic_crossing in T. assert (Ha : (fst (dr_pair d j) < 4)%nat) by apply D.
  destruct (spawn_total cs c d j ctl lon pos_dev speed_dev prob straight rd D T) as (rd' & E & T' & _). exists rd'. split; [exact E|]. split; [now apply traffic_crossing|].
  pose proof (spawn_cases cs c d j ctl lon pos_dev speed_dev prob straight rd D T) as Cs. cbv zeta in Cs. rewrite E in Cs. unfold spawn_arm in Cs. set (a := fst (dr_pair d j)) in *.
  set (s := lon + 5 + dr_normal d (2 * j) * pos_dev) in *. rewrite (arm_at a s Ha) in Cs.
  destruct Cs as [[U Q]|[(U & W & Q)|(U & W & v0 & v & Nv & _ & Cl & Ep & _ & Q)]]; apply ok_inj in Q; subst rd'; [left; tauto | left; tauto|].
  right. split; [exact U|]. destruct (randomize_same d (6 * j + 1) c v) as (I1 & I2 & I3 & I4 & I5 & I6 & _ & I8 & I9 & I10).
  destruct Nv as (N1 & N2 & N3 & N4 & N5 & N6 & N7 & N8 & N9 & N10).
  assert (Hv : exists rt, v = set_route v0 rt).
  { exact (planned_route _ _ _ _ _ Ep). }
  assert (Hab : a <> (if straight then ((a + 2) mod 4)%nat else snd (dr_pair d j)) /\ ((if straight then ((a + 2) mod 4) else snd (dr_pair d j)) < 4)%nat).
  { destruct straight; [|split; apply D]. split; [|apply Nat.mod_upper_bound; lia]. clearbody a. clear -Ha. destruct a as [|[|[|[|a]]]]; [| | | |lia]; discriminate. }
  assert (Q0 : v_id v = v_id v0 /\ v_kind v = v_kind v0 /\ v_lane_index v = v_lane_index v0 /\ v_target_lane v = v_target_lane v0 /\ v_pos v = v_pos v0 /\ v_heading v = v_heading v0 /\ v_speed v = v_speed v0 /\ v_crashed v = v_crashed v0)
    by (destruct Hv as [rt ->]; cbn; tauto). destruct Q0 as (Q1 & Q2 & Q3 & Q4 & Q5 & Q6 & Q7 & Q8).
  exists (randomize d (6 * j + 1) c v). split; [reflexivity|]. rewrite I1, I2, I3, I4, I5, I6, I8, I9, I10, Q1, Q2, Q3, Q4, Q5, Q6, Q7, Q8, N1, N2, N3, N4, N5, N6, N8.
  assert (Fr : forall i, In i (map v_id (rd_vehicles rd) ++ map o_id (rd_objects rd) ++ ctl)%list -> i <> fresh_id rd ctl).
  { intros i Hi. unfold fresh_id. pose proof (proj1 (list_max_le _ _) (le_n (list_max (map v_id (rd_vehicles rd) ++ map o_id (rd_objects rd) ++ ctl)%list))) as M. rewrite Forall_forall in M. specialize (M i Hi). lia. }
  split. { intros w Hw. split; [apply Fr, in_app_iff; left; now apply in_map | now apply W]. }
  split. { intros H. apply (Fr (fresh_id rd ctl)); [|reflexivity]. apply in_app_iff. right. apply in_app_iff. now right. }
  split; [reflexivity|]. split.
  { destruct (arm_geometry a) as (_ & _ & Hh & Hs & _). rewrite Hs, Hh. now apply turn_quarter. }
  do 3 (split; [reflexivity|]). split; [apply Hab|]. split; [apply Hab|].
  intros Hs. rewrite <- (arm_at a s Ha) in Cl. rewrite (closest_on_arm a s _ Ha Hs eq_refl) in Cl. apply ok_inj in Cl. split; [now symmetry|]. split; [reflexivity|].
  unfold spawn_exit, spawn_arm in Ep. fold a in Ep. rewrite (exit_name a _ Ha (proj2 Hab) (proj1 Hab) _ v0) in Ep; [|apply D|now symmetry]. now apply route_set in Ep.
Qed.

(** [_clear_vehicles] removes exactly the uncontrolled vehicles that are about to leave or
    have no route, and keeps the order of the others. *)
Lemma exit_names f t l : In (f, t, l) crossing_adds -> contains "il" f = true -> contains "o" t = true ->
  exists c, (c < 4)%nat /\ f = corner_name "il" c /\ t = corner_name "o" c /\ l = exit_lane ((c + 1) mod 4).
Proof.
  intros I C1 C2. assert (In (f, t, l) (flat_map corner_lanes (seq 0 4))) as I' by exact I. apply in_flat_map in I' as (c & Hc & I'). apply in_seq in Hc. rewrite corner_lanes_eq in I'.
  destruct c as [|[|[|[|c]]]]; [| | | |lia]; cbn [In] in I'; destruct I' as [Q|[Q|[Q|[Q|[Q|[]]]]]];
    pose proof (f_equal (fun x => fst (fst x)) Q) as Q1; pose proof (f_equal (fun x => snd (fst x)) Q) as Q2; pose proof (f_equal snd Q) as Q3; cbn [fst snd] in Q1, Q2, Q3; clear Q; subst f t l;
    try discriminate C1; try discriminate C2.
  - exists 3%nat. split; [lia|]. repeat split.
  - exists 0%nat. split; [lia|]. repeat split.
  - exists 1%nat. split; [lia|]. repeat split.
  - exists 2%nat. split; [lia|]. repeat split.
Qed.
Lemma exit_local c p : (c < 4)%nat -> l_length (exit_lane ((c + 1) mod 4)) - 4 * V_LENGTH <= fst (l_local (exit_lane ((c + 1) mod 4)) p) <-> 91 <= vdot p (turned_quarters c (0, 1)).
Proof.
  intros Hc. destruct (straight_rotated (turn ((c + 1) mod 4)) (11, 2) (1, 0) 100 (111, 2)) as (A & B & C & D); [unfold vadd, vscal; cbn; f_equal; ring | cbn; ring | lra |].
  assert (E : l_geom (exit_lane ((c + 1) mod 4)) = GStraight (vrot (turn ((c + 1) mod 4)) (11, 2)) (vrot (turn ((c + 1) mod 4)) (111, 2))).
  { unfold exit_lane, straight_lane, I_ACCESS, I_OUTER, I_RIGHT, DEFAULT_WIDTH. cbn [l_geom]. f_equal; f_equal; f_equal; lra. }
  unfold l_length, l_local. rewrite E, B. cbn [geom_local]. unfold straight_local. rewrite C. cbn [fst snd]. rewrite !turn_quarter by (apply Nat.mod_upper_bound; lia). unfold V_LENGTH, vdot, vsub.
  destruct p as [x y]. destruct c as [|[|[|[|c]]]]; [| | | |lia]; cbn [Nat.add Nat.modulo Nat.divmod fst snd Nat.sub turned_quarters]; lra.
Qed.
Lemma leaving_iff v : lane_exists intersection_net (v_lane_index v) -> (leaving v <-> about_to_leave v).
Proof.
  intros L. destruct (lane_exists_crossing _ L) as (l & I & Id & G). unfold leaving, about_to_leave. split.
  - intros (C1 & C2 & l' & G' & H). rewrite G in G'. injection G' as <-. destruct (exit_names _ _ _ I C1 C2) as (c & Hc & E1 & E2 & ->). exists c. split; [exact Hc|].
    split; [|now apply exit_local]. destruct (v_lane_index v) as [[f t] k]. unfold li_from, li_to, li_id in *. cbn [fst snd] in *. now subst.
  - intros (c & Hc & E & H). rewrite E in *. unfold li_from, li_to, li_id in *. cbn [fst snd] in *.
    assert (C1 : contains "il" (corner_name "il" c) = true) by (destruct c as [|[|[|[|c]]]]; [| | | |lia]; reflexivity).
    assert (C2 : contains "o" (corner_name "o" c) = true) by (destruct c as [|[|[|[|c]]]]; [| | | |lia]; reflexivity).
    split; [exact C1|]. split; [exact C2|]. exists l. split; [exact G|]. destruct (exit_names _ _ _ I C1 C2) as (c' & Hc' & E1 & _ & ->).
    assert (c' = c) as ->. { clear -E1 Hc Hc'. destruct c as [|[|[|[|c]]]]; [| | | |lia]; (destruct c' as [|[|[|[|c']]]]; [| | | |lia]); try reflexivity; discriminate. }
    now apply exit_local.
Qed.
Print Assumptions C53_spawn.
Theorem C53_clear ctl rd : intersection_traffic_ok rd ->
  exists keep, clear_vehicles ctl rd = Ok (set_vehicles rd (filter keep (rd_vehicles rd))) /\ intersection_traffic_ok (set_vehicles rd (filter keep (rd_vehicles rd))) /\
    forall v, In v (rd_vehicles rd) -> (keep v = true <-> In (v_id v) ctl \/ (~ about_to_leave v /\ v_route v <> None)).
Proof.
  intros T. apply traffic_crossing in T. destruct (clear_spec ctl rd T) as (keep & E & H). exists keep. split; [exact E|]. split.
  - apply traffic_crossing. apply crossing_sub; [exact T | |].
    + intros v Hv. now apply filter_In in Hv.
    + apply NoDup_map_filter, T.
  - intros v Hv. rewrite (H v Hv). rewrite leaving_iff; [reflexivity|]. destruct T as (_ & _ & F & _). rewrite Forall_forall in F. apply (F v Hv).
Qed.
Print Assumptions C53_clear.

(** During a whole episode the traffic stays valid and the controlled vehicles are never
    removed, whatever happens to the class attributes. *)
Theorem C53_controlled_never_removed : forall cs cf c n m dst prob d cs' sc e acts trace, let s := SIntersection c n m dst prob in
  draws_ok d -> classes_fit cf s -> options_fit cf s d -> cf_policy cf <> 0 ->
  reset cs cf s d = Ok (cs', sc, e) -> Forall (in_action_space (cf_action cf) n) acts -> plays cf s sc e acts trace ->
  intersection_traffic_ok (e_road (last trace e)) /\ e_controlled (last trace e) = e_controlled e /\
  forall id, In id (e_controlled e) -> exists v, In v (rd_vehicles (e_road (last trace e))) /\ v_id v = id /\ v_kind v = ego_kind cf.
Proof.
  intros cs cf c n m dst prob d cs' sc e acts trace s D C O Hp Er Fa Pl.
  destruct (plays_alive cs cf s d cs' sc e acts trace D C O Hp Er Fa Pl) as ([R Cr] & Ctl & _ & Ac & _).
  split; [now apply traffic_crossing|]. split; [exact Ctl|]. intros id I. rewrite <- Ctl in I. destruct R as (_ & _ & _ & A). rewrite Ac in A. exact (A id I).
Qed.
Print Assumptions C53_controlled_never_removed.

(** A vehicle does enter an empty intersection, and some vehicle is removed when it leaves. *)
Example C53_nonvacuous :
  draws_ok some_draws /\ intersection_traffic_ok (empty_road intersection_net intersection_common) /\
  exists v rd', spawn classes_default CIdm some_draws 0 [] 0 1 1 (6/10) false (empty_road intersection_net intersection_common) = Ok rd' /\
    rd_vehicles rd' = [v] /\ v_pos v = (2, 106) /\ v_speed v = 8 /\ v_route v = Some (way_across 0 1) /\ intersection_traffic_ok rd' /\ ~ about_to_leave v.
Proof.
  assert (T : intersection_traffic_ok (empty_road intersection_net intersection_common)).
  { apply traffic_crossing. split; [reflexivity|]. split; [reflexivity|]. split; [constructor | constructor]. }
  split; [exact some_draws_ok|]. split; [exact T|].
  destruct (C53_spawn classes_default CIdm some_draws 0 [] 0 1 1 (6/10) false _ some_draws_ok T) as (rd' & E & T' & H). cbn [some_draws dr_pair dr_unit dr_normal fst snd] in H.
  destruct H as [(_ & [H|(w & [] & _)])|(_ & v & -> & _ & _ & P & _ & Sp & _ & _ & _ & _ & Rt)]; [lra|].
  exists v. eexists. split; [exact E|]. split; [reflexivity|]. destruct (Rt ltac:(lra)) as (L & _ & Rt'). split; [rewrite P; unfold arm_point, turned_quarters; f_equal; lra|].
  split; [lra|]. split; [exact Rt'|]. split; [exact T'|]. intros (c & Hc & E' & _). rewrite L in E'. destruct c as [|[|[|[|c]]]]; [| | | |lia]; discriminate E'.
Qed.
