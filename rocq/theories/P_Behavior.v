(** Lemmas about IDM / MOBIL / linear vehicles. *)
From Verif Require Import Prelude M_Utils M_Lane M_Road M_Vehicle M_Kinematics M_Control M_Behavior
  S_Geometry S_Road S_Vehicle S_Control S_Behavior P_Base P_Utils P_Lane P_Graph P_Bfs P_Query P_Kin P_Crash P_Control.
From Coq Require Import Lia Lra.
Open Scope R_scope.

Lemma li_eqb_iff i j : li_eqb i j = true <-> i = j.
Proof.
  unfold li_eqb. rewrite andb_true_iff, same_road_iff, id_eqb_iff. destruct i as [[a b] o], j as [[c d] p]. cbn.
  split; [intros [[-> ->] ->]; reflexivity | intros [= -> -> ->]; tauto].
Qed.

(** ** Accelerations *)
Definition free_acc (par : idm_params) (e : vehicle) : R :=
  ip_comfort_max par * (1 - (Rmax (v_speed e) 0 / not_zero (target_speed_or_0 e) not_zero_eps) ^ 4).
Lemma pow4_nonneg x : 0 <= x ^ 4.
Proof. replace (x ^ 4) with ((x * x) * (x * x)) by ring. pose proof (Rle_0_sqr x). unfold Rsqr in *. nra. Qed.
Lemma pow2_nonneg x : 0 <= x ^ 2.
Proof. replace (x ^ 2) with (x * x) by ring. pose proof (Rle_0_sqr x). unfold Rsqr in *. lra. Qed.
Lemma free_acc_le par e : 0 <= ip_comfort_max par -> free_acc par e <= ip_comfort_max par.
Proof. intros H. unfold free_acc. set (x := Rmax _ _ / _). pose proof (pow4_nonneg x). nra. Qed.

Lemma idm_acc_front g par e f a : idm_acceleration g par (Some (EV e)) f = Ok a ->
  match f with
  | None => a = free_acc par e
  | Some fe => exists l, get_lane g (v_lane_index e) = Ok l /\
      a = free_acc par e - ip_comfort_max par *
            (desired_gap par e fe / not_zero (fst (l_local l (e_pos fe)) - fst (l_local l (v_pos e))) not_zero_eps) ^ 2
  end.
Proof.
  unfold idm_acceleration. destruct f as [fe|]; [|intros [= <-]; reflexivity].
  intros E. apply bind_ok in E as (d & Ed & E). injection E as <-.
  unfold lane_distance_to in Ed. apply bind_ok in Ed as (l & Gl & Ed). injection Ed as <-. exists l. split; [exact Gl | reflexivity].
Qed.

Lemma target_pos e : is_controlled (v_kind e) = true -> 1/100 < v_target_speed e ->
  not_zero (target_speed_or_0 e) not_zero_eps = v_target_speed e.
Proof.
  intros C T. unfold target_speed_or_0. rewrite C. unfold not_zero, not_zero_eps. rewrite Rabs_pos_eq by lra. rewrite Rltb_lt by lra. reflexivity.
Qed.

Lemma pow4_lt1 x : 0 <= x < 1 -> x ^ 4 < 1.
Proof. intros H. replace (x ^ 4) with ((x * x) * (x * x)) by ring. assert (0 <= x * x < 1) by nra. nra. Qed.
Lemma pow4_gt1 x : 1 < x -> 1 < x ^ 4.
Proof. intros H. replace (x ^ 4) with ((x * x) * (x * x)) by ring. assert (1 < x * x) by nra. nra. Qed.

Lemma free_acc_sign par e : 0 < ip_comfort_max par -> is_controlled (v_kind e) = true -> 1/100 < v_target_speed e ->
  (v_speed e < v_target_speed e -> 0 < free_acc par e) /\
  (v_speed e = v_target_speed e -> free_acc par e = 0) /\
  (v_target_speed e < v_speed e -> free_acc par e < 0).
Proof.
  intros Hc C T. unfold free_acc. rewrite (target_pos e C T). set (vt := v_target_speed e) in *. set (v := v_speed e) in *.
  split; [|split]; intros H.
  - assert (0 <= Rmax v 0 / vt < 1).
    { split; [apply Rmult_le_pos; [apply Rmax_r | left; apply Rinv_0_lt_compat; lra]|].
      apply (Rmult_lt_reg_r vt); [lra|]. unfold Rdiv. rewrite Rmult_assoc, Rinv_l by lra. unfold Rmax. destruct Rle_dec; lra. }
    pose proof (pow4_lt1 _ H0). nra.
  - rewrite H, Rmax_left by lra. replace (vt / vt) with 1 by (field; lra). ring.
  - rewrite Rmax_left by lra. assert (1 < v / vt).
    { apply (Rmult_lt_reg_r vt); [lra|]. unfold Rdiv. rewrite Rmult_assoc, Rinv_l by lra. lra. }
    pose proof (pow4_gt1 _ H0). nra.
Qed.

(** Contraction of the free-road acceleration towards the target. *)
Lemma pow4_between x : 0 <= x <= 1 -> 1 - x <= 1 - x ^ 4 <= 4 * (1 - x).
Proof.
  intros H. replace (1 - x ^ 4) with ((1 - x) * ((1 + x) * (1 + x * x))) by ring.
  assert (1 <= (1 + x) * (1 + x * x) <= 4) by nra. nra.
Qed.
Lemma free_acc_contract par e dt : 0 < ip_comfort_max par -> is_controlled (v_kind e) = true -> 1/100 < v_target_speed e ->
  0 <= dt -> 4 * ip_comfort_max par * dt <= v_target_speed e -> 0 <= v_speed e <= v_target_speed e ->
  0 <= free_acc par e <= ip_comfort_max par /\
  v_speed e <= v_speed e + free_acc par e * dt <= v_target_speed e /\
  v_target_speed e - (v_speed e + free_acc par e * dt) <=
    (1 - ip_comfort_max par * dt / v_target_speed e) * (v_target_speed e - v_speed e).
Proof.
  intros Hc C T Hd Hs Hv. unfold free_acc. rewrite (target_pos e C T). set (vt := v_target_speed e) in *. set (v := v_speed e) in *.
  set (c := ip_comfort_max par) in *. rewrite Rmax_left by lra.
  set (x := v / vt). assert (Ex : v = x * vt) by (unfold x; field; lra).
  assert (Hx : 0 <= x <= 1).
  { unfold x. split; [apply Rmult_le_pos; [lra | left; apply Rinv_0_lt_compat; lra]|].
    apply (Rmult_le_reg_r vt); [lra|]. unfold Rdiv. rewrite Rmult_assoc, Rinv_l by lra. lra. }
  pose proof (pow4_between x Hx) as Q. set (y := 1 - x ^ 4) in *.
  assert (0 <= y <= 1) by (pose proof (pow4_nonneg x); unfold y in *; lra).
  split; [nra|]. assert (0 <= c * dt) by nra. split.
  - split; [nra|]. rewrite Ex. assert (c * y * dt <= 4 * c * dt * (1 - x)) by nra. nra.
  - rewrite Ex. replace ((1 - c * dt / vt) * (vt - x * vt)) with (vt - x * vt - c * dt * (1 - x)) by (field; lra). nra.
Qed.

(** ** MOBIL *)
Lemma mobil_ok rd v i b : mobil rd v i = Ok b ->
  exists np nf op of_ a_nf ap_nf a_self,
    neighbour_vehicles rd v (Some i) = Ok (np, nf) /\
    acceleration (rd_net rd) v nf np = Ok a_nf /\ acceleration (rd_net rd) v nf (Some (EV v)) = Ok ap_nf /\
    ((b = false /\ ap_nf < - ip_max_braking (v_par v)) \/
     (- ip_max_braking (v_par v) <= ap_nf /\
      neighbour_vehicles rd v None = Ok (op, of_) /\
      acceleration (rd_net rd) v (Some (EV v)) np = Ok a_self /\
      match route_lane v with
      | Some k => exists c t, li_id i = Some c /\ li_id (v_target_lane v) = Some t /\
          (b = true <-> Z.sgn (c - t) = Z.sgn (k - t) /\ - ip_max_braking (v_par v) <= a_self)
      | None => exists a_old af apf, acceleration (rd_net rd) v (Some (EV v)) op = Ok a_old /\
          acceleration (rd_net rd) v of_ (Some (EV v)) = Ok af /\ acceleration (rd_net rd) v of_ op = Ok apf /\
          (b = true <-> ip_min_gain (v_par v) <= a_self - a_old + ip_politeness (v_par v) * (ap_nf - a_nf + apf - af))
      end)).
Proof.
  unfold mobil. intros E. apply bind_ok in E as ([np nf] & N1 & E). apply bind_ok in E as (a_nf & A1 & E). apply bind_ok in E as (ap_nf & A2 & E).
  destruct (Rltb ap_nf _) eqn:B1.
  - injection E as <-. apply Rltb_true in B1. exists np, nf, None, None, a_nf, ap_nf, 0. split; [exact N1|]. split; [exact A1|]. split; [exact A2|]. left. easy.
  - apply Rltb_false in B1. apply bind_ok in E as ([op of_] & N2 & E). apply bind_ok in E as (a_self & A3 & E).
    exists np, nf, op, of_, a_nf, ap_nf, a_self. split; [exact N1|]. split; [exact A1|]. split; [exact A2|]. right. split; [exact B1|]. split; [exact N2|]. split; [exact A3|].
    destruct (route_lane v) as [k|].
    + destruct (li_id i) as [c|]; [|easy]. destruct (li_id (v_target_lane v)) as [t|]; [|easy]. exists c, t. split; [easy|]. split; [easy|].
      destruct (Z.eqb_spec (Z.sgn (c - t)) (Z.sgn (k - t))) as [S|S]; cbn [negb] in E.
      * destruct (Rltb a_self _) eqn:B2; injection E as <-.
        -- apply Rltb_true in B2. split; [easy|]. intros [_ Q]. lra.
        -- apply Rltb_false in B2. tauto.
      * injection E as <-. split; [easy|]. intros [Q _]. congruence.
    + apply bind_ok in E as (a_old & A4 & E). apply bind_ok in E as (af & A5 & E). apply bind_ok in E as (apf & A6 & E). injection E as <-.
      exists a_old, af, apf. split; [exact A4|]. split; [exact A5|]. split; [exact A6|]. rewrite negb_true_iff, Rltb_false. tauto.
Qed.

(** ** Lane change policy *)
(** Vehicles that only differ by target lane (and timer). *)
Definition only_target (v w : vehicle) : Prop := exists i t, w = set_target_lane (set_timer v t) i.
Lemma set_timer_same v : set_timer v (v_timer v) = v. Proof. now destruct v. Qed.
Lemma set_target_same v : set_target_lane v (v_target_lane v) = v. Proof. now destruct v. Qed.
Lemma only_target_refl v : only_target v v.
Proof. exists (v_target_lane v), (v_timer v). rewrite set_timer_same, set_target_same. reflexivity. Qed.
Lemma only_target_trans u v w : only_target u v -> only_target v w -> only_target u w.
Proof. intros (i & t & ->) (j & s & ->). exists j, s. reflexivity. Qed.

Lemma try_candidate_ok rd v i v' : try_candidate rd v i = Ok v' ->
  v' = v \/ (v' = set_target_lane v i /\ exists l, get_lane (rd_net rd) i = Ok l /\ is_reachable_from l (v_pos v) = true /\ mobil rd v i = Ok true).
Proof.
  unfold try_candidate. intros E. apply bind_ok in E as (l & Gl & E). destruct (is_reachable_from l (v_pos v)) eqn:R; cbn [negb] in E.
  - apply bind_ok in E as (b & M & E). injection E as <-. destruct b; [right | now left]. split; [reflexivity|]. exists l. tauto.
  - injection E as <-. now left.
Qed.
Lemma candidates_ok rd cands : forall v v', foldM (try_candidate rd) cands v = Ok v' ->
  v_timer v' = v_timer v /\ (exists i, v' = set_target_lane v i) /\
  (v' = v \/ exists i l u, In i cands /\ v_target_lane v' = i /\ only_target v u /\ v_timer u = v_timer v /\ get_lane (rd_net rd) i = Ok l /\
                is_reachable_from l (v_pos v) = true /\ mobil rd u i = Ok true).
Proof.
  induction cands as [|i cands IH]; intros v v' E; cbn [foldM] in E.
  - injection E as <-. split; [reflexivity|]. split; [exists (v_target_lane v); now rewrite set_target_same | now left].
  - apply bind_ok in E as (v1 & E1 & E). apply try_candidate_ok in E1 as [-> | (-> & l & Gl & R & M)].
    + apply IH in E as (T & Sx & H). split; [exact T|]. split; [exact Sx|]. destruct H as [-> | (j & l & u & Hj & Q)]; [now left | right].
      exists j, l, u. split; [now right | exact Q].
    + apply IH in E as (T & (j & Ej) & H). split; [exact T|]. split; [exists j; rewrite Ej; reflexivity|]. right.
      destruct H as [-> | (k & l' & u & Hk & Ht & (i2 & t2 & ->) & Hu & Q)].
      * exists i, l, v. split; [now left|]. split; [reflexivity|]. split; [apply only_target_refl|]. tauto.
      * exists k, l', (set_target_lane (set_timer (set_target_lane v i) t2) i2). split; [now right|]. split; [exact Ht|].
        split; [exists i2, t2; reflexivity|]. split; [exact Hu | exact Q].
Qed.

Lemma foldM_abort_true rd v vs : foldM (fun (b : bool) w =>
    if b then Ok true
    else if negb (Nat.eqb (v_id w) (v_id v)) && negb (li_eqb (v_lane_index w) (v_target_lane v))
            && is_controlled (v_kind w) && li_eqb (v_target_lane w) (v_target_lane v) then
      do d <- lane_distance_to (rd_net rd) v (EV w);
      Ok (Rltb 0 d && Rltb d (desired_gap (v_par v) v (EV w)))
    else Ok false) vs true = Ok true.
Proof. induction vs; cbn; auto. Qed.

Definition blocks (rd : road) (v w : vehicle) : Prop :=
  v_id w <> v_id v /\ v_lane_index w <> v_target_lane v /\ is_controlled (v_kind w) = true /\ v_target_lane w = v_target_lane v /\
  exists l, get_lane (rd_net rd) (v_lane_index v) = Ok l /\
    0 < fst (l_local l (v_pos w)) - fst (l_local l (v_pos v)) < desired_gap (v_par v) v (EV w).
Lemma aborts_ok rd v b : aborts rd v = Ok b -> (b = true <-> exists w, In w (rd_vehicles rd) /\ blocks rd v w).
Proof.
  unfold aborts. generalize (rd_vehicles rd) as vs. induction vs as [|w vs IH]; intros E.
  - cbn in E. injection E as <-. split; [easy|]. intros (w & [] & _).
  - cbn [foldM] in E. apply bind_ok in E as (b1 & E1 & E).
    assert (H1 : b1 = true <-> blocks rd v w).
    { destruct (negb (Nat.eqb (v_id w) (v_id v))) eqn:A1; cbn [andb] in E1;
        [apply negb_true_iff, Nat.eqb_neq in A1 | injection E1 as <-; apply negb_false_iff, Nat.eqb_eq in A1; unfold blocks; split; [easy | tauto]].
      destruct (negb (li_eqb (v_lane_index w) (v_target_lane v))) eqn:A2; cbn [andb] in E1;
        [apply negb_true_iff in A2 | injection E1 as <-; apply negb_false_iff, li_eqb_iff in A2; unfold blocks; split; [easy | tauto]].
      assert (A2' : v_lane_index w <> v_target_lane v) by (intros Q; apply li_eqb_iff in Q; congruence).
      destruct (is_controlled (v_kind w)) eqn:A3; cbn [andb] in E1; [|injection E1 as <-; unfold blocks; split; [easy | intros (_ & _ & Q & _); congruence]].
      destruct (li_eqb (v_target_lane w) (v_target_lane v)) eqn:A4; cbn [andb] in E1.
      - apply li_eqb_iff in A4. apply bind_ok in E1 as (d & Ed & E1). injection E1 as <-. unfold lane_distance_to in Ed.
        apply bind_ok in Ed as (l & Gl & Ed). injection Ed as <-. cbn [e_pos]. unfold lane_distance. rewrite andb_true_iff, !Rltb_true. unfold blocks. rewrite A3. split.
        + intros H. do 4 (split; [easy|]). exists l. easy.
        + intros (_ & _ & _ & _ & l' & G' & H). rewrite Gl in G'. injection G' as <-. exact H.
      - injection E1 as <-. unfold blocks. split; [easy|]. intros (_ & _ & _ & Q & _). apply li_eqb_iff in Q. congruence. }
    destruct b1.
    + rewrite foldM_abort_true in E. injection E as <-. split; [|easy]. intros _. exists w. split; [now left | now apply H1].
    + apply IH in E. rewrite E. split.
      * intros (u & Hu & B). exists u. split; [now right | exact B].
      * intros (u & [<-|Hu] & B); [apply H1 in B; easy | eauto].
Qed.

Lemma policy_only_target rd v v' : change_lane_policy rd v = Ok v' -> only_target v v'.
Proof.
  unfold change_lane_policy. destruct (li_eqb _ _); cbn [negb].
  - destruct (do_every _ _); cbn [negb].
    + intros E. apply bind_ok in E as (cs & _ & E). apply candidates_ok in E as (_ & (i & ->) & _). exists i, 0. reflexivity.
    + intros [= <-]. apply only_target_refl.
  - destruct (same_road _ _); [|intros [= <-]; apply only_target_refl].
    intros E. apply bind_ok in E as (b & _ & E). injection E as <-. destruct b; [|apply only_target_refl].
    exists (v_lane_index v), (v_timer v). rewrite set_timer_same. reflexivity.
Qed.

(** ** act *)
Definition same_vehicle (v w : vehicle) : Prop :=
  v_id w = v_id v /\ v_kind w = v_kind v /\ v_pos w = v_pos v /\ v_heading w = v_heading v /\ v_speed w = v_speed v /\
  v_lane_index w = v_lane_index v /\ v_crashed w = v_crashed v /\ v_collisions w = v_collisions v /\
  v_history w = v_history v /\ v_grid w = v_grid v /\ v_enable_lane_change w = v_enable_lane_change v /\
  v_par w = v_par v /\ v_is_yielding w = v_is_yielding v /\
  v_yield_timer w = v_yield_timer v /\ v_has_color w = v_has_color v.
Lemma same_vehicle_refl v : same_vehicle v v. Proof. unfold same_vehicle. tauto. Qed.
Lemma same_body_vehicle v w : same_body v w -> same_vehicle v w.
Proof. unfold same_body, same_vehicle. tauto. Qed.
Lemma only_target_vehicle v w : only_target v w -> same_vehicle v w /\ v_target_speed w = v_target_speed v /\ v_speed_index w = v_speed_index v /\ v_route w = v_route v.
Proof. intros (i & t & ->). unfold same_vehicle. cbn. tauto. Qed.
Lemma same_vehicle_trans u v w : same_vehicle u v -> same_vehicle v w -> same_vehicle u w.
Proof. unfold same_vehicle. intuition congruence. Qed.

Lemma idm_act_ok rd draw v v' : idm_act rd draw v = Ok v' -> v_crashed v = false ->
  same_vehicle v v' /\ v_target_speed v' = v_target_speed v /\ v_speed_index v' = v_speed_index v /\
  - (PI / 3) <= v_steering v' <= PI / 3 /\
  exists f r v1 v2 st a, neighbour_vehicles rd v None = Ok (f, r) /\ follow_road (rd_net rd) draw v = Ok v1 /\
    (if v_enable_lane_change v then change_lane_policy rd v1 else Ok v1) = Ok v2 /\
    idm_steering (rd_net rd) v2 (v_target_lane v2) = Ok st /\
    acceleration (rd_net rd) v2 (Some (EV v2)) f = Ok a /\
    v' = set_action v2 (Rclip st (- MAX_STEERING_ANGLE) MAX_STEERING_ANGLE) (Rclip a (- ip_acc_max (v_par v)) (ip_acc_max (v_par v))).
Proof.
  intros E C. unfold idm_act in E. apply bind_ok in E as (_ & _ & E). rewrite C in E.
  apply bind_ok in E as ([f r] & N & E). apply bind_ok in E as (v1 & F & E). apply bind_ok in E as (v2 & P & E).
  apply bind_ok in E as (st & S & E). apply bind_ok in E as (a & A & E). injection E as <-.
  pose proof (follow_road_ok _ _ _ _ F) as (B1 & T1 & K1 & _).
  assert (En : v_enable_lane_change v1 = v_enable_lane_change v) by (unfold same_body in B1; tauto). rewrite En in P.
  assert (B2 : same_vehicle v1 v2 /\ v_target_speed v2 = v_target_speed v1 /\ v_speed_index v2 = v_speed_index v1).
  { destruct (v_enable_lane_change v).
    - apply policy_only_target, only_target_vehicle in P. tauto.
    - injection P as <-. split; [apply same_vehicle_refl | tauto]. }
  destruct B2 as (B2 & T2 & K2). pose proof (same_vehicle_trans _ _ _ (same_body_vehicle _ _ B1) B2) as B.
  split; [unfold same_vehicle in *; cbn; tauto|]. cbn [v_target_speed v_speed_index set_action v_steering].
  split; [congruence|]. split; [congruence|]. split; [apply Rclip_bounds; unfold MAX_STEERING_ANGLE; pose proof PI_RGT_0; lra|].
  exists f, r, v1, v2, st, a. tauto.
Qed.

Lemma vehicle_act_same rd draw v v' : vehicle_act rd draw v = Ok v' -> same_vehicle v v'.
Proof.
  unfold vehicle_act. destruct (v_kind v) eqn:K; intros E.
  - injection E as <-. apply same_vehicle_refl.
  - injection E as <-. apply same_vehicle_refl.
  - apply controlled_act_ok in E as (B & _). now apply same_body_vehicle.
  - apply mdp_act_ok in E as (B & _). now apply same_body_vehicle.
  - destruct (v_crashed v) eqn:C; [|apply idm_act_ok in E as (B & _); assumption].
    unfold idm_act in E. apply bind_ok in E as (_ & _ & E). rewrite C in E. injection E as <-. apply same_vehicle_refl.
  - destruct (v_crashed v) eqn:C; [|apply idm_act_ok in E as (B & _); assumption].
    unfold idm_act in E. apply bind_ok in E as (_ & _ & E). rewrite C in E. injection E as <-. apply same_vehicle_refl.
Qed.
