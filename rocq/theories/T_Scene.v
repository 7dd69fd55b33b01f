(** C98: the scenes in which episodes start. *)
From Verif Require Import Prelude M_Utils M_Lane M_Road M_Vehicle M_Kinematics M_Control M_Behavior M_Regulation M_Action M_Env M_Scenes M_Nets M_Reset S_Reset
  S_Geometry S_Road S_Vehicle S_Control S_Behavior S_Regulation S_Env S_Joined S_Scene P_Base P_Utils P_Lane P_Graph P_Reset P_Ready P_Joined P_Share P_Scene T_Reset.
From Verif Require P_Models P_Traffic P_Utils.
From Coq Require Import Lia Lra.
Open Scope R_scope.
Open Scope list_scope.

Lemma made1 (r : res env) (cs cs' : classes) (f : env -> scenario) sc e : (do e0 <- r; Ok (cs, f e0, e0)) = Ok (cs', sc, e) -> r = Ok e.
Proof. destruct r as [x|x]; cbn [bind]; intros H; [injection H as _ _ ->; reflexivity | discriminate H]. Qed.
Lemma made2 {A} (r : res (A * env)) (cs cs' : A -> classes) (f : A -> scenario) c sc e : (do x <- r; let '(a, e0) := x in Ok (cs a, f a, e0)) = Ok (c, sc, e) -> exists a, r = Ok (a, e).
Proof. destruct r as [[a x]|x]; cbn [bind]; intros H; [injection H as _ _ ->; exists a; reflexivity | discriminate H]. Qed.
Lemma reset_two_way cs cf d cs' sc e : reset cs cf STwoWay d = Ok (cs', sc, e) -> two_way_reset cs cf d = Ok e.
Proof. apply (made1 (two_way_reset cs cf d) cs cs' (fun _ => _)). Qed.
Lemma reset_merge cs cf d cs' sc e : reset cs cf SMerge d = Ok (cs', sc, e) -> merge_reset cs cf = Ok e.
Proof. apply (made1 (merge_reset cs cf) cs cs' (fun _ => _)). Qed.
Lemma reset_parking cs cf n dur d cs' sc e : reset cs cf (SParking n dur) d = Ok (cs', sc, e) -> exists goal, parking_reset cs cf n d = Ok (goal, e).
Proof. apply (made2 (parking_reset cs cf n d) (fun _ => cs) (fun _ => cs) (fun goal => _)). Qed.
Lemma reset_summon cs cf n dur d cs' sc e : reset cs cf (SSummon n dur) d = Ok (cs', sc, e) -> exists goal, summon_reset cs cf n d = Ok (goal, e).
Proof. apply (made2 (summon_reset cs cf n d) (fun _ => cs) (fun _ => cs) (fun goal => _)). Qed.
Lemma reset_roundabout cs cf dur inc d cs' sc e : reset cs cf (SRoundabout dur inc) d = Ok (cs', sc, e) -> exists c, roundabout_reset cs cf inc d = Ok (c, e).
Proof. apply (made2 (roundabout_reset cs cf inc d) (fun c => c) (fun c => c) (fun c => _)). Qed.
Lemma reset_intersection cs cf c n m dest prob d cs' sc e : reset cs cf (SIntersection c n m dest prob) d = Ok (cs', sc, e) -> exists c, intersection_reset cs cf n m dest d = Ok (c, e).
Proof. apply (made2 (intersection_reset cs cf n m dest d) (fun c => c) (fun c => c) (fun c => _)). Qed.

(** The two-way road: three vehicles ahead of the agent, two coming towards it. *)
Theorem C98_two_way : forall cs cf d cs' sc e, reset cs cf STwoWay d = Ok (cs', sc, e) -> exists v ahead oncoming,
  rd_vehicles (e_road e) = v :: ahead ++ oncoming /\ rd_objects (e_road e) = [] /\ sole_agent cf e v /\ stands v (30, 4) (1, 0) 30 /\
  Forall2 (fun i w => traffic cf w /\ v_enable_lane_change w = false /\
    stands w (70 + 40 * INR i + 10 * dr_normal d (2 * i), 4) (1, 0) (24 + 2 * dr_normal d (2 * i + 1))) [0; 1; 2]%nat ahead /\
  Forall2 (fun i w => traffic cf w /\ v_enable_lane_change w = false /\ v_target_lane w = ("b", "a", Some 0%Z)%string /\
    stands w (600 - 100 * INR i - 10 * dr_normal d (6 + 2 * i), 0) (-1, 0) (20 + 5 * dr_normal d (6 + 2 * i + 1))) [0; 1]%nat oncoming.
Proof.
  intros cs cf d cs' sc e H. apply reset_two_way in H.
  apply two_way_scene in H as (v & ahead & oncoming & Ev & Eo & _ & Ag & Sv & F1 & F2). exists v, ahead, oncoming.
  split; [exact Ev|]. split; [exact Eo|]. split; [exact Ag|]. split; [exact Sv|]. split; [exact F1 | exact F2].
Qed.
Print Assumptions C98_two_way.
(** The lane they come on is the left lane of the agent's road, travelled backwards. *)
Theorem C98_oncoming_lane : forall cs cf d cs' sc e, reset cs cf STwoWay d = Ok (cs', sc, e) -> exists out back,
  get_lane (rd_net (e_road e)) ("a", "b", Some 0%Z)%string = Ok out /\ get_lane (rd_net (e_road e)) ("b", "a", Some 0%Z)%string = Ok back /\
  l_length out = 800 /\ l_length back = 800 /\
  forall s, l_position back s 0 = l_position out (800 - s) 0 /\ facing (l_heading out s) = (1, 0) /\ facing (l_heading back s) = (-1, 0).
Proof.
  intros cs cf d cs' sc e H. apply reset_two_way in H.
  apply two_way_scene in H as (_ & _ & _ & _ & _ & N & _). rewrite N. clear N.
  exists (straight_lane (0, 0) (800, 0) DEFAULT_WIDTH (LContinuousLine, LStriped) false 20 0%Z), tw_back.
  split; [apply (build_get _ _ _ 0); reflexivity|]. split; [apply two_way_get|].
  destruct (straight_facts (straight_lane (0, 0) (800, 0) DEFAULT_WIDTH (LContinuousLine, LStriped) false 20 0%Z) (0, 0) (800, 0) (1, 0) 800 eq_refl) as (L & P & H); [unfold vadd, vscal; cbn [fst snd]; f_equal; ring | cbn [fst snd]; ring | lra |].
  destruct (straight_facts tw_back (800, 0) (0, 0) (-1, 0) 800 eq_refl) as (L' & P' & H'); [unfold vadd, vscal; cbn [fst snd]; f_equal; ring | cbn [fst snd]; ring | lra |].
  split; [exact L|]. split; [exact L'|]. intros s. rewrite P, P'. cbn [fst snd]. split; [f_equal; ring|]. split; [apply H | apply H'].
Qed.
Print Assumptions C98_oncoming_lane.

(** The merge: the agent and three vehicles on the highway, one on the ramp that wants
    to go faster, an obstacle at the end of the ramp.  Nothing is random. *)
Theorem C98_merge : forall cs cf d cs' sc e, reset cs cf SMerge d = Ok (cs', sc, e) -> exists v a b c m o,
  rd_vehicles (e_road e) = [v; a; b; c; m] /\ rd_objects (e_road e) = [o] /\ sole_agent cf e v /\ Forall (traffic cf) [a; b; c; m] /\
  stands v (30, 4) (1, 0) 30 /\ stands a (90, 0) (1, 0) 29 /\ stands b (70, 4) (1, 0) 31 /\ stands c (5, 0) (1, 0) (63/2) /\
  stands m (110, 29/2) (1, 0) 20 /\ v_target_speed m = 30 /\ o_kind o = KObstacle /\ lies o (310, 8) (1, 0).
Proof.
  intros cs cf d cs' sc e H. apply reset_merge in H.
  apply merge_scene in H as (v & a & b & c & m & Ev & _ & Ag & Sv & Tr & Sa & Sb & Sc & Sm & Tm & o & Eo & Ko & Lo). exists v, a, b, c, m, o.
  split; [exact Ev|]. split; [exact Eo|]. split; [exact Ag|]. split; [exact Tr|]. split; [exact Sv|]. split; [exact Sa|]. split; [exact Sb|]. split; [exact Sc|]. split; [exact Sm|]. split; [exact Tm|]. split; [exact Ko | exact Lo].
Qed.
Print Assumptions C98_merge.

(** The parking lot: agents in the middle, 20 m apart, in any direction; the goal in the
    middle of one of the 30 spots, facing inwards as the lane does. *)
Theorem C98_parking : forall cs cf n duration d cs' sc e, draws_ok d -> reset cs cf (SParking n duration) d = Ok (cs', sc, e) ->
  Forall2 (fun i v => v_kind v = ego_kind cf /\ stands v (20 * INR i, 0) (facing (2 * PI * dr_unit d i)) 0) (seq 0 n) (rd_vehicles (e_road e)) /\
  e_controlled e = map v_id (rd_vehicles (e_road e)) /\
  exists goal, rd_objects (e_road e) = [goal] /\ o_kind goal = KLandmark /\
    (let j := dr_int d 0 30 in (j < 30)%nat /\
     lies goal (if (j <? 15)%nat then (4 * INR j - 30, 14) else (4 * INR (j - 15) - 30, -14)) (if (j <? 15)%nat then (0, 1) else (0, -1))).
Proof.
  intros cs cf n dur d cs' sc e D H. apply reset_parking in H as [goal H].
  apply parking_scene in H as (Eo & Ko & _ & Lo & Ctl & F); [|exact D]. split; [exact F|]. split; [exact Ctl|]. exists goal. split; [exact Eo|]. split; [exact Ko | exact Lo].
Qed.
Print Assumptions C98_parking.

(** Summon: the agent on the last spot of the lower row, the goal outside on the left or
    on the right, the others parked or driving slowly.  Those within 20 m of the agent
    are removed while the list is walked through, so that the one after a removed
    vehicle is not looked at. *)
Theorem C98_summon : forall cs cf n duration d cs' sc e, draws_ok d -> (n <= 15)%nat -> reset cs cf (SSummon n duration) d = Ok (cs', sc, e) ->
  exists v others kept goal, rd_vehicles (e_road e) = v :: kept /\ rd_objects (e_road e) = [goal] /\ sole_agent cf e v /\
    stands v (26, 16) (facing (2 * PI * dr_unit d 0)) 0 /\
    o_kind goal = KLandmark /\ lies goal (if Nat.eqb (dr_int d 0 2) 0 then (-40, 0) else (40, 0)) (1, 0) /\
    Forall2 (summon_vehicle cf d) (seq 0 n) others /\ swept (fun w => dist2 (v_pos w) (26, 16) < 20) others kept.
Proof.
  intros cs cf n dur d cs' sc e D Hn H. apply reset_summon in H as [goal H].
  apply summon_scene in H as (Eo & Ko & Lo & _ & v & others & kept & Ev & Ag & Sv & F & Sw); [|exact D | exact Hn]. exists v, others, kept, goal.
  split; [exact Ev|]. split; [exact Eo|]. split; [exact Ag|]. split; [exact Sv|]. split; [exact Ko|]. split; [exact Lo|]. split; [exact F | exact Sw].
Qed.
Print Assumptions C98_summon.

(** The roundabout. *)
Theorem C98_roundabout : forall cs cf duration incoming d cs' sc e, draws_ok d -> options_fit cf (SRoundabout duration incoming) d ->
  reset cs cf (SRoundabout duration incoming) d = Ok (cs', sc, e) -> exists v others,
  rd_vehicles (e_road e) = v :: others /\ rd_objects (e_road e) = [] /\ sole_agent cf e v /\ stands v (2, 45) (0, -1) 8 /\
  (ego_kind cf = KMDP -> bound_for (rd_net (e_road e)) v "nxs"%string) /\ Forall2 (round_vehicle cf (rd_net (e_road e)) d incoming) [0; 1; 2; 3]%nat others.
Proof.
  intros cs cf dur inc d cs' sc e D Hin H. apply reset_roundabout in H as [cs1 H].
  apply roundabout_scene in H as (v & others & Ev & Eo & En & Ag & Sv & Bf & F); [|exact D | exact Hin]. exists v, others. rewrite En.
  split; [exact Ev|]. split; [exact Eo|]. split; [exact Ag|]. split; [exact Sv|]. split; [exact Bf | exact F].
Qed.
Print Assumptions C98_roundabout.

(** The intersection: the [k]-th agent waits on the [k]-th arm, about 51 m before the
    centre, at 10 m/s with target speed 9 m/s, and its destination is planned. *)
Theorem C98_intersection : forall cs cf c n m dest prob d cs' sc e, draws_ok d -> options_fit cf (SIntersection c n m dest prob) d ->
  reset cs cf (SIntersection c n m dest prob) d = Ok (cs', sc, e) ->
  List.length (e_controlled e) = n /\
  forall k id, nth_error (e_controlled e) k = Some id -> exists v, In v (rd_vehicles (e_road e)) /\ v_id v = id /\ crossing_agent dest d k v.
Proof.
  intros cs cf c n m dest prob d cs' sc e D O H. apply reset_intersection in H as [cs1 H].
  exact (intersection_scene cs cf c n m dest prob d cs1 e D O H).
Qed.
Print Assumptions C98_intersection.

(** Nobody stays within 20 m of the summoned vehicle if no two vehicles created one
    after the other are; in particular if ten vehicles or fewer are all parked. *)
Theorem C98_summon_clear : forall cs cf n duration d cs' sc e, draws_ok d -> (n <= 15)%nat -> reset cs cf (SSummon n duration) d = Ok (cs', sc, e) ->
  ((n <= 10)%nat /\ (forall i, (i < n)%nat -> dr_unit d (2 * i + 1) <= 3/4)) \/ (n <= 1)%nat ->
  forall w, In w (rd_vehicles (e_road e)) -> ~ In (v_id w) (e_controlled e) -> 20 <= dist2 (v_pos w) (26, 16).
Proof.
  intros cs cf n dur d cs' sc e D Hn H C w Hw Nw. destruct (C98_summon cs cf n dur d cs' sc e D Hn H) as (v & others & kept & goal & Ev & _ & [Ctl _] & _ & _ & _ & F & Sw).
  rewrite Ev in Hw. destruct Hw as [<- |Hw]; [exfalso; apply Nw; rewrite Ctl; now left|].
  apply Rnot_lt_le. revert Hw. generalize w. apply Forall_forall. apply (swept_clean _ others); [|exact Sw].
  intros l1 a b l2 E Ba Bb. destruct C as [[Hn10 Pk]|Hn1].
  - assert (Ha : In a others) by (rewrite E; apply in_or_app; right; now left). destruct (P_Traffic.Forall2_In_r _ _ _ F a Ha) as (i & Hi & Q). apply in_seq in Hi.
    destruct Q as [(_ & _ & Q)|(Q & _)]; [|specialize (Pk i ltac:(lia)); lra].
    assert (Hx : INR i <= 9) by (replace 9 with (INR 9) by (cbn; lra); apply le_INR; lia).
    assert (fst (v_pos a) = 4 * INR i - 30) as X by (destruct Q as [(_ & Q & _)|(_ & Q & _)]; rewrite Q; reflexivity).
    pose proof (dist2_fst (v_pos a) (26, 16)) as Y. rewrite X in Y. cbn [fst] in Y. unfold Rabs in Y. destruct (Rcase_abs _); lra.
  - assert (L : List.length others = n) by (rewrite <- (P_Models.forall2_len _ _ _ F), seq_length; reflexivity). rewrite E, app_length in L. cbn [List.length] in L. lia.
Qed.
Print Assumptions C98_summon_clear.
(** Otherwise somebody may stay: with fifteen parked vehicles, exactly where the agent
    stands. *)
Definition summon_draws : draws := Draws (fun k => if Nat.eqb k 22 then 0 else 1/2) (fun _ => 0) (fun _ _ => 0%nat) (fun _ => (0, 1)%nat) (fun _ _ _ => 0%nat) (fun _ l => l).
Theorem C98_summon_may_overlap : draws_ok summon_draws /\ forall cs cf duration, cf_traffic cf = CIdm ->
  exists cs' sc e, reset cs cf (SSummon 15 duration) summon_draws = Ok (cs', sc, e) /\
    exists v w, sole_agent cf e v /\ In v (rd_vehicles (e_road e)) /\ In w (rd_vehicles (e_road e)) /\ v <> w /\ v_pos v = (26, 16) /\ v_pos w = (26, 16).
Proof.
  assert (D : draws_ok summon_draws).
  { split; [intros k; cbn; destruct (Nat.eqb k 22); lra|]. split; [intros k n H; exact H|]. split; [intros k; cbn; lia|]. split; [intros t i n H; exact H | intros p l; apply Permutation.Permutation_refl]. }
  split; [exact D|]. intros cs cf dur C. destruct (C82_reset_total cs cf (SSummon 15 dur) summon_draws D C (le_n _)) as (cs' & sc & e & E & _ & Dn & _). exists cs', sc, e. split; [exact E|].
  destruct (C98_summon cs cf 15 dur summon_draws cs' sc e D (le_n _) E) as (v & others & kept & goal & Ev & _ & Ag & Sv & _ & _ & F & Sw). clear E.
  assert (P : forall i w, summon_vehicle cf summon_draws i w -> i <> 10%nat -> v_pos w = (4 * INR i - 30, 16)).
  { intros i w [(_ & _ & Q)|(Q & _)] Hi; [|cbn [summon_draws dr_unit] in Q; destruct (Nat.eqb _ 22); lra]. destruct Q as [(_ & Q & _)|(Q & _)]; [exact Q|].
    cbn [summon_draws dr_unit] in Q. destruct (Nat.eqb (2 * i + 2) 22) eqn:Z; [apply Nat.eqb_eq in Z; lia | lra]. }
  assert (P10 : forall w, summon_vehicle cf summon_draws 10 w -> snd (v_pos w) = -16).
  { intros w [(_ & _ & Q)|(Q & _)]; [|cbn [summon_draws dr_unit] in Q; destruct (Nat.eqb _ 22); lra]. destruct Q as [(Q & _)|(_ & Q & _)]; [|rewrite Q; reflexivity].
    cbn in Q. lra. }
  change (seq 0 15) with (seq 0 11 ++ [11; 12; 13; 14]%nat) in F. apply Forall2_app_inv_l in F as (l1 & l2 & F1 & F2 & ->).
  inversion F2 as [|? a ? l3 Fa F3]; subst. inversion F3 as [|? b ? l4 Fb F4]; subst. inversion F4 as [|? c ? l5 Fc F5]; subst. inversion F5 as [|? w ? l6 Fw F6]; subst. inversion F6; subst.
  set (B := fun w => dist2 (v_pos w) (26, 16) < 20) in *.
  assert (Ba : forall i w, (11 <= i <= 14)%nat -> summon_vehicle cf summon_draws i w -> B w).
  { intros i x Hi Q. unfold B. rewrite (P i x Q ltac:(lia)). rewrite P_Utils.dist2_norm. unfold vnorm, vsub. cbn [fst snd].
    assert (11 <= INR i <= 14) as Hr by (replace 11 with (INR 11) by (cbn; lra); replace 14 with (INR 14) by (cbn; lra); split; apply le_INR; lia).
    replace 20 with (sqrt (20 * 20)) by (apply sqrt_square; lra). apply sqrt_lt_1; nra. }
  destruct (fun F => swept_prefix B l1 [a; b; c; w] kept F Sw) as (k1 & -> & S1).
  { apply Forall_forall. intros x Hx. destruct (P_Traffic.Forall2_In_r _ _ _ F1 x Hx) as (i & Hi & Q). apply in_seq in Hi. unfold B. apply Rle_not_lt.
    destruct (Nat.eq_dec i 10) as [-> |Ne].
    - pose proof (dist2_snd (v_pos x) (26, 16)) as Y. rewrite (P10 x Q) in Y. cbn [snd] in Y. unfold Rabs in Y. destruct (Rcase_abs _); lra.
    - pose proof (dist2_fst (v_pos x) (26, 16)) as Y. rewrite (P i x Q Ne) in Y |- *. cbn [fst] in Y. assert (Hr : INR i <= 9) by (replace 9 with (INR 9) by (cbn; lra); apply le_INR; lia).
      unfold Rabs in Y. destruct (Rcase_abs _); lra. }
  apply swept_bad2 in S1 as (k2 & -> & S2); [|apply (Ba 11%nat); [lia | exact Fa]]. apply swept_bad2 in S2 as (k3 & -> & S3); [|apply (Ba 13%nat); [lia | exact Fc]]. inversion S3; subst.
  assert (Hw : In w (rd_vehicles (e_road e))) by (rewrite Ev; right; apply in_or_app; right; right; now left).
  exists v, w. split; [exact Ag|]. split; [rewrite Ev; now left|]. split; [exact Hw|]. split; [|split; [apply Sv | rewrite (P 14%nat w Fw ltac:(lia)); f_equal; cbn; lra]].
  intros <-. unfold distinct_vehicles in Dn. rewrite Ev in Dn. apply NoDup_cons_iff in Dn. apply (proj1 Dn). apply in_map. apply in_or_app. right. right. now left.
Qed.
Print Assumptions C98_summon_may_overlap.

Example C98_nonvacuous :
  (exists cs sc e, reset classes_default meta_common STwoWay some_draws = Ok (cs, sc, e)) /\
  (exists cs sc e, reset classes_default meta_common SMerge some_draws = Ok (cs, sc, e)) /\
  (exists cs sc e, reset classes_default continuous_common (SParking 2 100) some_draws = Ok (cs, sc, e)) /\
  (exists cs sc e, reset classes_default continuous_common (SSummon 10 100) some_draws = Ok (cs, sc, e)) /\
  (exists cs sc e, reset classes_default meta_common (SRoundabout 11 None) some_draws = Ok (cs, sc, e)) /\
  (exists cs sc e, reset classes_default intersection_common intersection_default_scene some_draws = Ok (cs, sc, e)).
Proof.
  assert (X : forall cf s, classes_fit cf s -> options_fit cf s some_draws -> exists cs sc e, reset classes_default cf s some_draws = Ok (cs, sc, e)).
  { intros cf s C O. destruct (C82_reset_total classes_default cf s some_draws some_draws_ok C O) as (cs & sc & e & E & _). exists cs, sc, e. exact E. }
  split; [apply X; cbn; [now left | exact I]|]. split; [apply X; cbn; [reflexivity | exact I]|]. split; [apply X; cbn; [exact I | lia]|]. split; [apply X; cbn; [reflexivity | lia]|].
  split; [apply X; cbn; [now left | exact I]|]. apply X; cbn; [reflexivity|]. split; [lia|]. split; [lia|]. now left.
Qed.
