(** Theorems about regulated roads (C37, C38, C68-C70). *)
From Verif Require Import Prelude M_Utils M_Lane M_Road M_Vehicle M_Kinematics M_Control M_Behavior M_Regulation
  S_Geometry S_Road S_Vehicle S_Control S_Behavior S_Regulation
  P_Base P_Utils P_Lane P_Graph P_Bfs P_Query P_Collision P_Kin P_Crash P_Control P_Behavior P_Traffic P_Regulation
  T_Road T_Kin T_Control T_Behavior.
From Coq Require Import Lia Lra.
Open Scope R_scope.

(** ** C37: priorities.  [respect_priorities g v w = Ok true] means that the first
    vehicle yields, [Ok false] that the second one does. *)
Theorem C37_lower_priority_yields : forall g v w lv lw, get_lane g (v_lane_index v) = Ok lv -> get_lane g (v_lane_index w) = Ok lw ->
  ((l_priority lv < l_priority lw)%Z -> respect_priorities g v w = Ok true) /\
  ((l_priority lw < l_priority lv)%Z -> respect_priorities g v w = Ok false).
Proof.
  intros g v w lv lw Gv Gw. unfold respect_priorities. rewrite Gv, Gw. cbn [bind]. split; intros H; f_equal.
  - destruct (Z.ltb_spec (l_priority lw) (l_priority lv)); [lia|]. destruct (Z.ltb_spec (l_priority lv) (l_priority lw)); [reflexivity | lia].
  - destruct (Z.ltb_spec (l_priority lw) (l_priority lv)); [reflexivity | lia].
Qed.
Print Assumptions C37_lower_priority_yields.
Theorem C37_equal_priority : forall g v w lv lw, get_lane g (v_lane_index v) = Ok lv -> get_lane g (v_lane_index w) = Ok lw ->
  l_priority lv = l_priority lw ->
  exists b, respect_priorities g v w = Ok b /\ (b = true <-> front_distance_to w v < front_distance_to v w).
Proof.
  intros g v w lv lw Gv Gw H. unfold respect_priorities. rewrite Gv, Gw. cbn [bind]. eexists. split; [reflexivity|]. rewrite H, Z.ltb_irrefl. apply Rltb_true.
Qed.
Print Assumptions C37_equal_priority.
(** With equal priorities and equal headings, the vehicle behind yields. *)
Theorem C37_vehicle_behind_yields : forall g v w lv lw, get_lane g (v_lane_index v) = Ok lv -> get_lane g (v_lane_index w) = Ok lw ->
  l_priority lv = l_priority lw -> v_heading v = v_heading w ->
  let ahead := (fst (v_pos w) - fst (v_pos v)) * cos (v_heading v) + (snd (v_pos w) - snd (v_pos v)) * sin (v_heading v) in
  respect_priorities g v w = Ok (Rltb 0 ahead).
Proof.
  intros g v w lv lw Gv Gw H Hh ahead. destruct (C37_equal_priority g v w lv lw Gv Gw H) as (b & -> & Hb). f_equal.
  assert (E1 : front_distance_to v w = ahead) by (unfold ahead, front_distance_to, vdot, vsub, e_direction; cbn [fst snd e_heading]; ring).
  assert (E2 : front_distance_to w v = - ahead) by (unfold ahead, front_distance_to, vdot, vsub, e_direction; cbn [fst snd e_heading]; rewrite Hh; ring).
  rewrite E1, E2 in Hb. destruct (Rltb 0 ahead) eqn:Q.
  - apply Hb. apply Rltb_true in Q. lra.
  - apply Rltb_false in Q. destruct b; [|reflexivity]. pose proof (proj1 Hb eq_refl). lra.
Qed.
Print Assumptions C37_vehicle_behind_yields.
(** Who yields does not depend on the order of the arguments, except on an exact
    tie, where the second argument yields. *)
Theorem C37_order_irrelevant : forall g v w b, respect_priorities g v w = Ok b ->
  (exists lv lw, get_lane g (v_lane_index v) = Ok lv /\ get_lane g (v_lane_index w) = Ok lw /\
     (l_priority lv <> l_priority lw \/ front_distance_to v w <> front_distance_to w v) /\ respect_priorities g w v = Ok (negb b)) \/
  (front_distance_to v w = front_distance_to w v /\ b = false /\ respect_priorities g w v = Ok false).
Proof.
  intros g v w b E. unfold respect_priorities in *. apply bind_ok in E as (lv & Gv & E). apply bind_ok in E as (lw & Gw & E). injection E as <-.
  rewrite Gv, Gw. cbn [bind].
  destruct (Z.ltb_spec (l_priority lw) (l_priority lv)) as [A|A].
  { left. exists lv, lw. do 2 (split; [reflexivity|]). split; [left; lia|]. f_equal. destruct (Z.ltb_spec (l_priority lv) (l_priority lw)); [lia | reflexivity]. }
  destruct (Z.ltb_spec (l_priority lv) (l_priority lw)) as [B|B].
  { left. exists lv, lw. do 2 (split; [reflexivity|]). split; [left; lia | reflexivity]. }
  destruct (Rtotal_order (front_distance_to v w) (front_distance_to w v)) as [H|[H|H]].
  - left. exists lv, lw. do 2 (split; [reflexivity|]). split; [right; lra|]. rewrite (Rltb_lt _ _ H), Rltb_ge by lra. reflexivity.
  - right. rewrite !Rltb_ge by lra. tauto.
  - left. exists lv, lw. do 2 (split; [reflexivity|]). split; [right; lra|]. rewrite (Rltb_lt _ _ H), Rltb_ge by lra. reflexivity.
Qed.
Print Assumptions C37_order_irrelevant.
Example C37_nonvacuous : respect_priorities demo_net (demo_controlled KIDM (0, 0) 20 25 0) (demo_controlled KIDM (9, 4) 20 25 1) = Ok true.
Proof.
  pose proof (C37_vehicle_behind_yields demo_net (demo_controlled KIDM (0, 0) 20 25 0) (demo_controlled KIDM (9, 4) 20 25 1)
    _ _ (demo_get 0 ltac:(lia)) (demo_get 1 ltac:(lia)) eq_refl eq_refl) as H. cbv zeta in H. rewrite H. f_equal. apply Rltb_lt.
  cbn [v_pos v_heading demo_controlled fst snd]. rewrite cos_0, sin_0. lra.
Qed.

(** ** C68: conflict detection *)
Theorem C68_conflict_exact : forall g v w b, is_conflict_possible g v w = Ok b -> (b = true <-> conflict g v w).
Proof. exact conflict_iff. Qed.
Print Assumptions C68_conflict_exact.
Theorem C68_symmetric : forall g v w, is_conflict_possible g v w = Ok true -> is_conflict_possible g w v = Ok true.
Proof.
  intros g v w E. pose proof (proj1 (conflict_iff _ _ _ _ E) eq_refl) as C. apply conflict_sym in C.
  unfold is_conflict_possible in E. apply bind_ok in E as (p & Ep & E). apply bind_ok in E as (q & Eq & E).
  assert (exists b, is_conflict_possible g w v = Ok b) as [b Eb] by (unfold is_conflict_possible; rewrite Ep, Eq; cbn; eauto).
  rewrite Eb. f_equal. apply (conflict_iff _ _ _ _ Eb). exact C.
Qed.
Print Assumptions C68_symmetric.
(** Only controlled vehicles can be examined. *)
Theorem C68_uncontrolled_fails : forall g v w, is_controlled (v_kind v) = false \/
  (is_controlled (v_kind w) = false /\ exists p, predicted g v = Ok p) -> is_conflict_possible g v w = Err AttributeError.
Proof.
  intros g v w [H | [H [p E]]]; unfold is_conflict_possible.
  - unfold predicted at 1. rewrite H. reflexivity.
  - rewrite E. cbn [bind]. unfold predicted. rewrite H. reflexivity.
Qed.
Print Assumptions C68_uncontrolled_fails.

Lemma demo_position k s d : (k < 3)%nat -> l_position (straight_network_lane 3 k 1000 0) s d = (s, INR k * 4 + d).
Proof.
  intros _. unfold l_position, straight_network_lane. cbn [l_geom geom_position]. unfold vrot, DEFAULT_WIDTH.
  rewrite Ropp_0, cos_0, sin_0. cbn [fst snd]. set (y := INR k * 4).
  assert (D : straight_dir (1 * 0 - 0 * y, 0 * 0 + 1 * y) (1 * 1000 - 0 * y, 0 * 1000 + 1 * y) = (1, 0)).
  { unfold straight_dir. replace (vnorm _) with 1000.
    - unfold vsub, vscal. cbn [fst snd]. apply f_equal2; field.
    - unfold vnorm, vsub. cbn [fst snd]. replace (_ + _) with (1000 * 1000) by ring. symmetry. apply sqrt_square. lra. }
  unfold straight_position. rewrite D. unfold vadd, vscal, straight_lat. rewrite D. cbn [fst snd]. apply f_equal2; ring.
Qed.
Lemma demo_heading k s : (k < 3)%nat -> l_heading (straight_network_lane 3 k 1000 0) s = 0.
Proof.
  intros _. unfold l_heading, straight_network_lane. cbn [l_geom geom_heading]. unfold vrot, straight_heading, DEFAULT_WIDTH. rewrite Ropp_0, cos_0, sin_0. cbn [fst snd].
  set (y := INR k * 4). replace (0 * 1000 + 1 * y - (0 * 0 + 1 * y)) with 0 by ring. replace (1 * 1000 - 0 * y - (1 * 0 - 0 * y)) with 1000 by ring.
  unfold atan2. destruct (Rltb 0 1000) eqn:Q; [|apply Rltb_false in Q; lra]. unfold Rdiv. rewrite Rmult_0_l. apply atan_0.
Qed.
Lemma demo_future k p s t n tm : (n < 3)%nat -> forall q h, future_pose demo_net (demo_controlled k p s t (Z.of_nat n)) tm q h <-> (q = (fst p + s * tm, INR n * 4) /\ h = 0).
Proof.
  intros Hn q h. unfold future_pose. cbn [v_lane_index v_route v_pos v_speed demo_controlled position_heading_along_route]. rewrite demo_get by exact Hn. cbn [bind].
  split.
  - intros (l & [= <-] & E). rewrite demo_local, demo_heading, demo_position in E by exact Hn. cbn [fst] in E. injection E as <- <-. split; [f_equal; ring | reflexivity].
  - intros [-> ->]. exists (straight_network_lane 3 n 1000 0). split; [reflexivity|]. rewrite demo_local, demo_heading, demo_position by exact Hn. cbn [fst]. do 3 f_equal. ring.
Qed.
Lemma demo_predicted k p s t n : (n < 3)%nat -> is_controlled k = true -> exists out, predicted demo_net (demo_controlled k p s t (Z.of_nat n)) = Ok out.
Proof.
  intros Hn Hk. apply predicted_total; [exact Hk | | exact I]. pose proof (demo_targets k p s t n Hn) as T. exact (proj1 T).
Qed.
(** Two vehicles following each other at the same speed: a conflict is reported up
    to 5 m between centres, and missed between 5 m and 7.5 m although the
    enlarged boxes the check uses overlap at every instant. *)
Theorem C68_following_conflict : forall k k' x gap s t t', is_controlled k = true -> is_controlled k' = true -> 0 <= gap ->
  is_conflict_possible demo_net (demo_controlled k (x, 0) s t 0) (demo_controlled k' (x + gap, 0) s t' 0) = Ok (Rleb gap 5).
Proof.
  intros k k' x gap s t t' Hk Hk' Hg.
  destruct (demo_predicted k (x, 0) s t 0 ltac:(lia) Hk) as [p Ep]. destruct (demo_predicted k' (x + gap, 0) s t' 0 ltac:(lia) Hk') as [q Eq].
  assert (exists b, is_conflict_possible demo_net (demo_controlled k (x, 0) s t 0) (demo_controlled k' (x + gap, 0) s t' 0) = Ok b) as [b Eb].
  { unfold is_conflict_possible. cbn [Z.of_nat] in *. rewrite Ep, Eq. cbn [bind]. eauto. }
  rewrite Eb. f_equal. pose proof (conflict_iff _ _ _ _ Eb) as H.
  assert (Dg : forall u, dist2 (u, 0) (u + gap, 0) = gap).
  { intros u. unfold dist2. cbn [fst snd]. replace (_ + _) with (gap * gap) by ring. now apply sqrt_square. }
  assert (C : conflict demo_net (demo_controlled k (x, 0) s t 0) (demo_controlled k' (x + gap, 0) s t' 0) <-> gap <= 5).
  { split.
    - intros (j & a & h & c & h' & _ & F1 & F2 & D & _). apply (demo_future k (x, 0) s t 0) in F1; [|lia]. apply (demo_future k' (x + gap, 0) s t' 0) in F2; [|lia].
      destruct F1 as [-> _]. destruct F2 as [-> _]. cbn [fst INR] in D. rewrite Rmult_0_l in D. replace (x + gap + s * (INR j / 4)) with (x + s * (INR j / 4) + gap) in D by ring. rewrite Dg in D. exact D.
    - intros G. exists 1%nat, (x + s * (INR 1 / 4), 0), 0, (x + s * (INR 1 / 4) + gap, 0), 0. split; [lia|].
      split; [apply (demo_future k (x, 0) s t 0); [lia|]; split; [cbn [fst INR]; f_equal; ring | reflexivity]|].
      split; [apply (demo_future k' (x + gap, 0) s t' 0); [lia|]; split; [cbn [fst INR]; f_equal; ring | reflexivity]|].
      split; [rewrite Dg; exact G|]. apply intersect_exact_aligned; try lra. exists (x + s * (INR 1 / 4) + gap / 2, 0). split.
      + exists (gap / 2), 0. rewrite cos_0, sin_0. cbn [fst snd]. repeat split; lra.
      + exists (- (gap / 2)), 0. rewrite cos_0, sin_0. cbn [fst snd]. repeat split; lra. }
  destruct b.
  - symmetry. apply Rleb_true, C, H. reflexivity.
  - symmetry. apply Rleb_gt. destruct (Rle_lt_dec gap 5) as [Q|Q]; [|exact Q]. assert (false = true) by (apply H, C, Q). discriminate.
Qed.
Print Assumptions C68_following_conflict.
Theorem C68_precheck_misses_overlap : forall x gap, 5 < gap <= 75/10 ->
  rotated_rectangles_intersect (Rect (x, 0) (75/10) (18/10) 0) (Rect (x + gap, 0) (75/10) (18/10) 0) = true /\
  forall k k' s t t', is_controlled k = true -> is_controlled k' = true ->
    is_conflict_possible demo_net (demo_controlled k (x, 0) s t 0) (demo_controlled k' (x + gap, 0) s t' 0) = Ok false.
Proof.
  intros x gap G. split.
  - apply intersect_exact_aligned; try lra. exists (x + gap / 2, 0). split.
    + exists (gap / 2), 0. rewrite cos_0, sin_0. cbn [fst snd]. repeat split; lra.
    + exists (- (gap / 2)), 0. rewrite cos_0, sin_0. cbn [fst snd]. repeat split; lra.
  - intros k k' s t t' Hk Hk'. rewrite C68_following_conflict by (try assumption; lra). f_equal. apply Rleb_gt. lra.
Qed.
Print Assumptions C68_precheck_misses_overlap.

(** ** C38: one application of the rules *)
Lemma stoppable_iff v : can_be_forced v = true <-> stoppable v.
Proof. unfold can_be_forced, stoppable. destruct (v_kind v); split; try easy; try (intros [H|[H|H]]; discriminate); tauto. Qed.

Theorem C38_tick : forall yd rd rd', enforce_road_rules yd rd = Ok rd' ->
  rd_net rd' = rd_net rd /\ rd_objects rd' = rd_objects rd /\ List.length (rd_vehicles rd') = List.length (rd_vehicles rd) /\
  forall i v, nth_error (rd_vehicles rd) i = Some v -> exists w, nth_error (rd_vehicles rd') i = Some w /\
    (stoppable v /\ must_yield rd i v -> w = set_yield (set_target_speed v 0) true 0 true) /\
    (~ (stoppable v /\ must_yield rd i v) ->
       (v_is_yielding v = false -> w = v) /\
       (v_is_yielding v = true -> 2 * yd <= IZR (v_yield_timer v) ->
          exists l, get_lane (rd_net rd) (v_lane_index v) = Ok l /\ w = set_yield (set_target_speed v (l_speed_limit l)) false (v_yield_timer v) false) /\
       (v_is_yielding v = true -> IZR (v_yield_timer v) < 2 * yd -> w = set_yield v true (v_yield_timer v + 1) (v_has_color v))).
Proof.
  intros yd rd rd' E. apply enforce_spec in E as (En & Eo & _ & _ & Hl & H). do 3 (split; [assumption|]).
  intros i v N. destruct (H i v N) as (u & b & U & Nw & Hb). fold (must_yield rd i v) in Hb. exists (may_force b u). split; [exact Nw|].
  pose proof (unfreeze_ok _ _ _ _ U) as (_ & Cf & _).
  assert (Fu : can_be_forced u = true -> force u = set_yield (set_target_speed v 0) true 0 true).
  { intros Q. unfold force. rewrite Q. unfold unfreeze in U. destruct (v_is_yielding v); [|injection U as <-; reflexivity].
    destruct (Rleb _ _); [|injection U as <-; reflexivity]. apply bind_ok in U as (l & _ & U). destruct (v_has_color v); [|discriminate]. injection U as <-. reflexivity. }
  split.
  - intros [S M]. assert (b = true) as -> by tauto. cbn [may_force]. apply Fu. rewrite Cf. now apply stoppable_iff.
  - intros Q. assert (may_force b u = u) as ->.
    { destruct b; [|reflexivity]. cbn [may_force]. unfold force. destruct (can_be_forced u) eqn:K; [|reflexivity]. elim Q. split; [apply stoppable_iff; congruence | tauto]. }
    unfold unfreeze, REGULATION_FREQUENCY in U. split; [intros Y; rewrite Y in U; now injection U as <- |]. split; intros Y T; rewrite Y in U.
    + rewrite Rleb_le in U by lra. apply bind_ok in U as (l & Gl & U). exists l. split; [exact Gl|]. destruct (v_has_color v); [|discriminate]. now injection U as <-.
    + rewrite Rleb_gt in U by lra. now injection U as <-.
Qed.
Print Assumptions C38_tick.
(** With the duration of the code (0), the yielding vehicles after an application
    of the rules are exactly the stoppable vehicles that must yield now: everyone
    else who was yielding is released, with the speed limit of its lane as target. *)
Theorem C38_released_unless_conflict : forall rd rd', regulated rd -> enforce_road_rules YIELD_DURATION rd = Ok rd' ->
  forall i v, nth_error (rd_vehicles rd) i = Some v -> exists w, nth_error (rd_vehicles rd') i = Some w /\
    (v_is_yielding w = true <-> stoppable v /\ must_yield rd i v) /\
    (v_is_yielding w = true -> v_target_speed w = 0) /\
    (v_is_yielding v = true -> v_is_yielding w = false ->
       exists l, get_lane (rd_net rd) (v_lane_index v) = Ok l /\ v_target_speed w = l_speed_limit l) /\
    (v_is_yielding v = false -> v_is_yielding w = false -> w = v).
Proof.
  intros rd rd' [_ Rg] E i v N. apply C38_tick in E as (_ & _ & _ & H). destruct (H i v N) as (w & Nw & A & B). exists w. split; [exact Nw|].
  assert (T : v_is_yielding v = true -> 2 * YIELD_DURATION <= IZR (v_yield_timer v)).
  { intros Y. destruct (Rg v (nth_error_In _ _ N)) as (_ & _ & Ys). destruct (Ys Y) as [_ Ht]. unfold YIELD_DURATION. apply IZR_le in Ht. lra. }
  destruct (Classical_Prop.classic (stoppable v /\ must_yield rd i v)) as [Q|Q].
  - rewrite (A Q). cbn. split; [tauto|]. split; [reflexivity|]. split; [discriminate | intros _; discriminate].
  - destruct (B Q) as (B1 & B2 & _). destruct (v_is_yielding v) eqn:Y.
    + destruct (B2 eq_refl (T eq_refl)) as (l & Gl & ->). cbn. split; [split; [discriminate | tauto]|]. split; [discriminate|]. split; [eauto | discriminate].
    + rewrite (B1 eq_refl), Y. split; [split; [discriminate | tauto]|]. split; [discriminate|]. split; [discriminate | tauto].
Qed.
Print Assumptions C38_released_unless_conflict.
(** A vehicle that is not stoppable is never affected. *)
Theorem C38_mdp_and_plain_untouched : forall yd rd rd' i v, enforce_road_rules yd rd = Ok rd' -> nth_error (rd_vehicles rd) i = Some v ->
  ~ stoppable v -> v_is_yielding v = false -> nth_error (rd_vehicles rd') i = Some v.
Proof.
  intros yd rd rd' i v E N Q Y. apply C38_tick in E as (_ & _ & _ & H). destruct (H i v N) as (w & Nw & _ & B). destruct B as [B _]; [tauto|]. now rewrite (B Y) in Nw.
Qed.
Print Assumptions C38_mdp_and_plain_untouched.
(** Only targets and yield bookkeeping change. *)
Theorem C38_never_moves_anyone : forall yd rd rd' i v, enforce_road_rules yd rd = Ok rd' -> nth_error (rd_vehicles rd) i = Some v ->
  exists w, nth_error (rd_vehicles rd') i = Some w /\ v_pos w = v_pos v /\ v_heading w = v_heading v /\ v_speed w = v_speed v /\
    v_crashed w = v_crashed v /\ v_target_lane w = v_target_lane v /\ v_route w = v_route v.
Proof.
  intros yd rd rd' i v E N. apply enforce_spec in E as (_ & _ & _ & _ & _ & H). destruct (H i v N) as (u & b & U & Nw & _).
  eexists. split; [exact Nw|]. unfold unfreeze in U.
  assert (v_pos u = v_pos v /\ v_heading u = v_heading v /\ v_speed u = v_speed v /\ v_crashed u = v_crashed v /\ v_target_lane u = v_target_lane v /\ v_route u = v_route v) as Hu.
  { destruct (v_is_yielding v); [|injection U as <-; tauto]. destruct (Rleb _ _); [|injection U as <-; cbn; tauto].
    apply bind_ok in U as (l & _ & U). destruct (v_has_color v); [|discriminate]. injection U as <-. cbn. tauto. }
  destruct b; [|exact Hu]. cbn [may_force]. unfold force. destruct (can_be_forced u); exact Hu.
Qed.
Print Assumptions C38_never_moves_anyone.
(** The rules can always be applied on a regulated road, and keep it so. *)
Theorem C38_never_fails : forall yd rd, regulated rd -> exists rd', enforce_road_rules yd rd = Ok rd' /\ regulated rd'.
Proof. exact regulated_enforce. Qed.
Print Assumptions C38_never_fails.

Lemma demo_regulated k k' p p' s s' t t' : is_controlled k = true -> is_controlled k' = true ->
  regulated (demo_road [demo_controlled k p s t 0; demo_controlled k' p' s' t' 0] []).
Proof.
  intros Hk Hk'. split.
  - split; [apply demo_built|]. split; [discriminate|]. split.
    + intros v [<-|[<-|[]]]; [pose proof (demo_targets k p s t 0 ltac:(lia)) as T | pose proof (demo_targets k' p' s' t' 0 ltac:(lia)) as T];
        (split; [apply (proj1 T) | intros _; exact T]).
    + right. split; [intros v [<-|[<-|[]]]; assumption | easy].
  - intros v [<-|[<-|[]]]; (split; [assumption|]); (split; [exact I|]); intros Q; discriminate Q.
Qed.
(** Two IDM vehicles 4 m apart: the one behind is stopped. *)
Example C38_nonvacuous : exists rd', enforce_road_rules YIELD_DURATION
    (demo_road [demo_controlled KIDM (0, 0) 20 25 0; demo_controlled KIDM (4, 0) 20 25 0] []) = Ok rd' /\
  exists w, nth_error (rd_vehicles rd') 0 = Some w /\ v_is_yielding w = true /\ v_target_speed w = 0.
Proof.
  set (v := demo_controlled KIDM (0, 0) 20 25 0). set (u := demo_controlled KIDM (4, 0) 20 25 0).
  pose proof (demo_regulated KIDM KIDM (0, 0) (4, 0) 20 20 25 25 eq_refl eq_refl) as Rg. fold v u in Rg.
  destruct (C38_never_fails YIELD_DURATION _ Rg) as (rd' & E & _). exists rd'. split; [exact E|].
  destruct (C38_released_unless_conflict _ _ Rg E 0%nat v eq_refl) as (w & Nw & Iw & Tw & _). exists w. split; [exact Nw|].
  assert (Y : v_is_yielding w = true); [|split; [exact Y | now apply Tw]].
  apply Iw. split; [right; now left|]. exists 1%nat, u. split; [discriminate|]. split; [reflexivity|]. split.
  - pose proof (C68_following_conflict KIDM KIDM 0 4 20 25 25 eq_refl eq_refl ltac:(lra)) as Q. replace (0 + 4) with 4 in Q by ring. fold v u in Q.
    apply (conflict_iff _ _ _ _ Q). apply Rleb_le. lra.
  - exists (straight_network_lane 3 0 1000 0), (straight_network_lane 3 0 1000 0). split; [apply (demo_get 0); lia|]. split; [apply (demo_get 0); lia|]. right. split; [reflexivity|]. left.
    unfold front_distance_to, vdot, vsub, e_direction, u, v. cbn [e_heading v_heading demo_controlled v_pos fst snd]. rewrite cos_0, sin_0. lra.
Qed.

(** ** C69: when the rules are applied *)
(** In a run from a fresh road, frame k (counted from 1) applies the rules exactly
    when k is a multiple of the integer part of 1/(2 dt). *)
Theorem C69_cadence : forall yd dt rd, 0 < dt <= 1/2 ->
  let period := regulation_period dt in
  (0 < period)%Z /\ IZR period <= 1 / (2 * dt) < IZR period + 1 /\
  regulated_step yd rd dt =
    if ((rd_steps rd + 1) mod period =? 0)%Z
    then do rd2 <- enforce_road_rules yd (set_steps rd (rd_steps rd + 1)); road_step rd2 dt
    else road_step (set_steps rd (rd_steps rd + 1)) dt.
Proof.
  intros yd dt rd H period. pose proof (regulation_period_pos dt H) as P. split; [exact P|]. split; [apply regulation_period_spec; [lra | reflexivity]|].
  unfold regulated_step. rewrite (proj2 (Reqb_false dt 0)) by lra. fold period. destruct (Z.eqb_spec period 0) as [Q|_]; [unfold period in Q; lia|].
  cbn [rd_steps set_steps]. destruct (_ =? 0)%Z; reflexivity.
Qed.
Print Assumptions C69_cadence.
Theorem C69_counts_frames : forall yd dt rd frames, simulates_regulated yd dt rd frames ->
  forall k f, nth_error frames k = Some f -> rd_steps f = (rd_steps rd + Z.of_nat (k + 1))%Z.
Proof. intros yd dt rd frames H k f N. rewrite (simulates_regulated_steps _ _ _ _ H k f N). f_equal. lia. Qed.
Print Assumptions C69_counts_frames.
(** At the default 15 frames per second the rules are applied every 7 frames; below
    two frames per second the step fails. *)
Theorem C69_default_period : regulation_period (1/15) = 7%Z.
Proof. apply regulation_period_spec; [lra|]. replace (1 / (2 * (1 / 15))) with (15/2) by field. lra. Qed.
Print Assumptions C69_default_period.
Theorem C69_slow_simulation_fails : forall yd rd dt, 1/2 < dt -> regulated_step yd rd dt = Err ZeroDivisionError.
Proof.
  intros yd rd dt H. unfold regulated_step. rewrite (proj2 (Reqb_false dt 0)) by lra. rewrite regulation_period_zero by exact H. reflexivity.
Qed.
Print Assumptions C69_slow_simulation_fails.

(** ** C70: regulated simulations *)
Theorem C70_never_fails : forall yd dt n rd, 0 < dt <= 1/2 -> regulated rd ->
  exists frames, List.length frames = n /\ simulates_regulated yd dt rd frames.
Proof. intros. now apply simulates_regulated_total. Qed.
Print Assumptions C70_never_fails.
(** ... whatever the random draws: no frame can be the last one. *)
Theorem C70_never_stuck : forall yd dt rd draws, 0 < dt <= 1/2 -> regulated rd -> (forall i, draw_ok (draws i)) ->
  exists rd1 rd2, road_act draws rd = Ok rd1 /\ regulated_step yd rd1 dt = Ok rd2 /\ regulated rd2.
Proof.
  intros yd dt rd draws H Rg D. destruct (regulated_act draws rd D Rg) as (rd1 & A & R1). destruct (regulated_step_total yd rd1 dt H R1) as (rd2 & E & R2). eauto 6.
Qed.
Print Assumptions C70_never_stuck.
Theorem C70_stays_regulated : forall yd dt rd frames, 0 < dt <= 1/2 -> regulated rd -> simulates_regulated yd dt rd frames -> Forall regulated frames.
Proof. exact simulates_regulated_inv. Qed.
Print Assumptions C70_stays_regulated.
Example C70_nonvacuous : exists frames, List.length frames = 1000%nat /\
  simulates_regulated 0 (1/15) (demo_road [demo_controlled KIDM (0, 0) 20 25 0; demo_controlled KMDP (50, 0) 20 25 0] []) frames.
Proof. apply C70_never_fails; [lra | now apply demo_regulated]. Qed.
