(** Lemmas about controlled vehicles. *)
From Verif Require Import Prelude M_Utils M_Lane M_Road M_Vehicle M_Kinematics M_Control
  S_Geometry S_Road S_Vehicle S_Control P_Base P_Utils P_Lane P_Graph P_Bfs P_Kin.
From Coq Require Import Lia Lra.
Open Scope R_scope.

(** ** Steering *)
Lemma steering_law_bounds l p h s : - (PI / 3) <= steering_law l p h s <= PI / 3.
Proof.
  unfold steering_law. destruct (l_local l p) as [a b]. cbv zeta. unfold MAX_STEERING_ANGLE.
  apply Rclip_bounds. pose proof PI_RGT_0. lra.
Qed.
Lemma steering_control_bounds g v i st : steering_control g v i = Ok st -> - (PI / 3) <= st <= PI / 3.
Proof.
  unfold steering_control. intros E. apply bind_ok in E as (l & _ & E). injection E as <-. apply steering_law_bounds.
Qed.

(** Everything [act] preserves or sets. *)
Definition same_body (v w : vehicle) : Prop :=
  v_id w = v_id v /\ v_kind w = v_kind v /\ v_pos w = v_pos v /\ v_heading w = v_heading v /\ v_speed w = v_speed v /\
  v_lane_index w = v_lane_index v /\ v_crashed w = v_crashed v /\ v_collisions w = v_collisions v /\
  v_history w = v_history v /\ v_grid w = v_grid v /\ v_enable_lane_change w = v_enable_lane_change v /\
  v_timer w = v_timer v /\ v_par w = v_par v /\ v_is_yielding w = v_is_yielding v /\
  v_yield_timer w = v_yield_timer v /\ v_has_color w = v_has_color v.
Lemma same_body_refl v : same_body v v.
Proof. unfold same_body. tauto. Qed.
Lemma same_body_trans u v w : same_body u v -> same_body v w -> same_body u w.
Proof. unfold same_body. intuition congruence. Qed.

Lemma follow_road_ok g draw v v' : follow_road g draw v = Ok v' ->
  same_body v v' /\ v_target_speed v' = v_target_speed v /\ v_speed_index v' = v_speed_index v /\
  v_steering v' = v_steering v /\ v_accel v' = v_accel v /\
  exists l, get_lane g (v_target_lane v) = Ok l /\
   ((after_end l (v_pos v) None = false /\ v' = v) \/
    (after_end l (v_pos v) None = true /\
     exists rt' i, next_lane g (v_target_lane v) (match v_route v with Some rt => rt | None => [] end) (v_pos v) draw = (rt', Ok i) /\
       v_target_lane v' = i /\ v_route v' = (match v_route v with Some _ => Some rt' | None => None end))).
Proof.
  unfold follow_road. intros E. apply bind_ok in E as (l & El & E).
  destruct (after_end l (v_pos v) None) eqn:A.
  - destruct (next_lane _ _ _ _ _) as [rt' r] eqn:N. apply bind_ok in E as (i & Ei & E). injection E as <-. subst r.
    destruct (v_route v) eqn:R.
    + split; [unfold same_body; cbn; tauto|]. do 4 (split; [reflexivity|]). exists l. split; [exact El|]. right. split; [exact A|].
      exists rt', i. cbn. tauto.
    + split; [unfold same_body; cbn; tauto|]. do 4 (split; [reflexivity|]). exists l. split; [exact El|]. right. split; [exact A|].
      exists rt', i. cbn. rewrite R. tauto.
  - injection E as <-. split; [apply same_body_refl|]. do 4 (split; [reflexivity|]). exists l. tauto.
Qed.

Lemma apply_meta_ok g v a v' : apply_meta g v a = Ok v' ->
  same_body v v' /\ v_speed_index v' = v_speed_index v /\ v_route v' = v_route v /\
  v_steering v' = v_steering v /\ v_accel v' = v_accel v /\
  v_target_speed v' = (match a with Some FASTER => v_target_speed v + 5 | Some SLOWER => v_target_speed v - 5 | _ => v_target_speed v end).
Proof.
  destruct a as [[]|]; cbn [apply_meta]; intros E;
  try (injection E as <-; cbn; unfold same_body; cbn; unfold DELTA_SPEED; tauto);
  unfold try_lane_change in E; apply bind_ok in E as (i & Ei & E); apply bind_ok in E as (l & El & E); injection E as <-;
  destruct (is_reachable_from l (v_pos v)); cbn; unfold same_body; cbn; tauto.
Qed.
Lemma low_level_ok g v v' : low_level g v = Ok v' ->
  same_body v v' /\ v_speed_index v' = v_speed_index v /\ v_route v' = v_route v /\ v_target_lane v' = v_target_lane v /\
  v_target_speed v' = v_target_speed v /\ v_accel v' = (v_target_speed v - v_speed v) / (6/10) /\
  exists l, get_lane g (v_target_lane v) = Ok l /\ v_steering v' = steering_law l (v_pos v) (v_heading v) (v_speed v).
Proof.
  unfold low_level, steering_control. intros E. apply bind_ok in E as (st & Es & E). injection E as <-.
  apply bind_ok in Es as (l & El & Es). injection Es as <-. cbn. unfold same_body. cbn.
  split; [tauto|]. do 4 (split; [reflexivity|]). split; [unfold speed_control, KP_A, TAU_A; field|].
  exists l. split; [exact El|]. pose proof (steering_law_bounds l (v_pos v) (v_heading v) (v_speed v)).
  apply Rclip_id. unfold MAX_STEERING_ANGLE. exact H.
Qed.

Lemma controlled_act_ok g draw v a v' : controlled_act g draw v a = Ok v' ->
  same_body v v' /\ v_speed_index v' = v_speed_index v /\
  v_target_speed v' = (match a with Some FASTER => v_target_speed v + 5 | Some SLOWER => v_target_speed v - 5 | _ => v_target_speed v end) /\
  v_accel v' = (v_target_speed v' - v_speed v) / (6/10) /\
  exists l, get_lane g (v_target_lane v') = Ok l /\ v_steering v' = steering_law l (v_pos v) (v_heading v) (v_speed v).
Proof.
  unfold controlled_act. intros E. apply bind_ok in E as (v1 & E1 & E). apply bind_ok in E as (v2 & E2 & E3).
  apply follow_road_ok in E1 as (B1 & T1 & I1 & _). apply apply_meta_ok in E2 as (B2 & I2 & _ & _ & _ & T2).
  apply low_level_ok in E3 as (B3 & I3 & _ & L3 & T3 & A3 & l & Gl & S3).
  pose proof (same_body_trans _ _ _ B1 B2) as B12.
  split; [exact (same_body_trans _ _ _ B12 B3)|]. split; [congruence|].
  split; [rewrite T3, T2, T1; reflexivity|].
  assert (Q : v_speed v2 = v_speed v /\ v_pos v2 = v_pos v /\ v_heading v2 = v_heading v) by (unfold same_body in B12; tauto).
  destruct Q as (Q1 & Q2 & Q3). rewrite T3, A3, Q1. split; [reflexivity|]. exists l. rewrite L3, S3, Q1, Q2, Q3. tauto.
Qed.

Lemma mdp_set_index_body v k : same_body v (mdp_set_index v k) /\ v_target_lane (mdp_set_index v k) = v_target_lane v /\
  v_route (mdp_set_index v k) = v_route v.
Proof. unfold mdp_set_index, same_body. cbn. tauto. Qed.

Lemma mdp_act_ok g draw v a v' : mdp_act g draw v a = Ok v' ->
  same_body v v' /\
  (match a with
   | Some FASTER | Some SLOWER =>
       let k := Zclip (speed_to_index (v_grid v) (v_speed v) + (match a with Some FASTER => 1 | _ => -1 end)) 0 (sg_count (v_grid v) - 1) in
       v_speed_index v' = k /\ v_target_speed v' = index_to_speed (v_grid v) k
   | _ => v_speed_index v' = v_speed_index v /\ v_target_speed v' = v_target_speed v
   end) /\
  v_accel v' = (v_target_speed v' - v_speed v) / (6/10) /\
  exists l, get_lane g (v_target_lane v') = Ok l /\ v_steering v' = steering_law l (v_pos v) (v_heading v) (v_speed v).
Proof.
  destruct a as [[]|]; cbn [mdp_act]; intros E; apply controlled_act_ok in E as (B & I & T & R); cbn [v_speed mdp_set_index set_target_speed set_speed_index v_pos v_heading v_target_speed v_speed_index v_grid] in *;
  try (split; [exact B|]; split; [split; assumption | exact R]);
  (split; [refine (same_body_trans _ _ _ _ B); apply mdp_set_index_body|]; cbv zeta; split; [split; [rewrite I | rewrite T]; reflexivity | exact R]).
Qed.

(** ** Target lanes *)
Lemma side_shift_id g a b k ls l' delta j : g_lanes g a b = Ok ls -> (k < List.length ls)%nat ->
  lane_change_candidate g (a, b, Some (Z.of_nat k)) delta = Ok j -> get_lane g j = Ok l' -> 
  exists k', j = (a, b, Some (Z.of_nat k')) /\ has_lane g a b k' l' /\
     Z.of_nat k' = Zclip (Z.of_nat k + delta) 0 (Z.of_nat (List.length ls) - 1).
Proof.
  intros Hl Hk E G. unfold lane_change_candidate in E. cbn in E. rewrite Hl in E. cbn in E. injection E as <-.
  set (z := Zclip _ _ _) in *.
  assert (Z : (0 <= z <= Z.of_nat (List.length ls) - 1)%Z) by (apply Zclip_bounds; lia).
  exists (Z.to_nat z). rewrite Z2Nat.id by lia. split; [reflexivity|]. split; [|reflexivity].
  apply (get_lane_has g (a, b, Some z) (Z.to_nat z)); [cbn; rewrite Z2Nat.id by lia; reflexivity | exact G].
Qed.

Lemma lane_exists_len g a b k : lane_exists g (a, b, Some (Z.of_nat k)) <->
  exists ls, g_lanes g a b = Ok ls /\ (k < List.length ls)%nat.
Proof.
  split.
  - intros (k' & l & E & H). cbn in *. injection E as E. apply Nat2Z.inj in E. subst k'.
    apply has_lane_g in H as (ls & H & N). exists ls. split; [easy|]. apply nth_error_Some. congruence.
  - intros (ls & H & L). destruct (nth_error ls k) as [l|] eqn:N; [|apply nth_error_None in N; lia].
    exists k, l. cbn. split; [easy|]. apply has_lane_g. exists ls. easy.
Qed.

Lemma try_lane_change_spec g v a b k delta : lane_exists g (a, b, Some (Z.of_nat k)) ->
  v_target_lane v = (a, b, Some (Z.of_nat k)) -> (delta = 1 \/ delta = -1)%Z ->
  exists v', try_lane_change g v delta = Ok v' /\ v_route v' = v_route v /\
  (v' = v \/ v' = set_target_lane v (v_target_lane v')) /\
  ((exists l, has_lane g a b (Z.to_nat (Z.of_nat k + delta)) l /\ (0 <= Z.of_nat k + delta)%Z /\ is_reachable_from l (v_pos v) = true /\
     v_target_lane v' = (a, b, Some (Z.of_nat k + delta)%Z)) \/
   (v_target_lane v' = v_target_lane v /\
    ~ exists l, has_lane g a b (Z.to_nat (Z.of_nat k + delta)) l /\ (0 <= Z.of_nat k + delta)%Z /\ is_reachable_from l (v_pos v) = true)).
Proof.
  intros X T D. apply lane_exists_len in X as (ls & Hl & Hk).
  unfold try_lane_change, lane_change_candidate. rewrite T. cbn [li_id li_from li_to fst snd]. rewrite Hl. cbn [bind].
  set (n := Z.of_nat (List.length ls)) in *.
  destruct (Z_le_dec 0 (Z.of_nat k + delta)) as [H0|H0]; [destruct (Z_lt_dec (Z.of_nat k + delta) n) as [H1|H1]|].
  - rewrite Zclip_id by lia.
    destruct (nth_error ls (Z.to_nat (Z.of_nat k + delta))) as [l|] eqn:N; [|apply nth_error_None in N; unfold n in *; lia].
    assert (HL : has_lane g a b (Z.to_nat (Z.of_nat k + delta)) l) by (apply has_lane_g; exists ls; easy).
    pose proof (get_lane_nat _ _ _ _ _ HL) as G. rewrite Z2Nat.id in G by lia. rewrite G. cbn [bind].
    eexists. split; [reflexivity|]. destruct (is_reachable_from l (v_pos v)) eqn:RR.
    + split; [reflexivity|]. split; [right; reflexivity|]. left. exists l. cbn. tauto.
    + split; [reflexivity|]. split; [left; reflexivity|]. right. split; [congruence|]. intros (l' & A & _ & C).
      rewrite (has_lane_fun _ _ _ _ _ _ A HL) in C. congruence.
  - assert (Zclip (Z.of_nat k + delta) 0 (n - 1) = Z.of_nat k) as -> by (unfold Zclip; lia).
    destruct (nth_error ls k) as [l|] eqn:N; [|apply nth_error_None in N; lia].
    assert (HL : has_lane g a b k l) by (apply has_lane_g; exists ls; easy).
    rewrite (get_lane_nat _ _ _ _ _ HL). cbn [bind]. eexists. split; [reflexivity|].
    assert (Q : ~ exists l, has_lane g a b (Z.to_nat (Z.of_nat k + delta)) l /\ (0 <= Z.of_nat k + delta)%Z /\ is_reachable_from l (v_pos v) = true).
    { intros (l' & A & _). apply has_lane_g in A as (ls' & A & B). rewrite Hl in A. injection A as <-.
      assert (Z.to_nat (Z.of_nat k + delta) < List.length ls)%nat by (apply nth_error_Some; congruence). unfold n in *. lia. }
    destruct (is_reachable_from l (v_pos v)); cbn; rewrite ?T; tauto.
  - assert (Zclip (Z.of_nat k + delta) 0 (n - 1) = Z.of_nat k) as -> by (unfold Zclip; lia).
    destruct (nth_error ls k) as [l|] eqn:N; [|apply nth_error_None in N; lia].
    assert (HL : has_lane g a b k l) by (apply has_lane_g; exists ls; easy).
    rewrite (get_lane_nat _ _ _ _ _ HL). cbn [bind]. eexists. split; [reflexivity|].
    assert (Q : ~ exists l, has_lane g a b (Z.to_nat (Z.of_nat k + delta)) l /\ (0 <= Z.of_nat k + delta)%Z /\ is_reachable_from l (v_pos v) = true)
      by (intros (l' & _ & A & _); lia).
    destruct (is_reachable_from l (v_pos v)); cbn; rewrite ?T; tauto.
Qed.

Definition targets_ok (g : graph) (v : vehicle) : Prop := lane_exists g (v_target_lane v) /\ route_on_network g (v_route v).

Lemma lane_exists_form g i : lane_exists g i -> exists a b k, i = (a, b, Some (Z.of_nat k)).
Proof. destruct i as [[a b] o]. intros (k & l & E & _). cbn in E. subst o. eauto. Qed.

Lemma follow_road_total g draw v : wf_graph g -> draw_ok draw -> targets_ok g v ->
  exists v', follow_road g draw v = Ok v' /\ targets_ok g v'.
Proof.
  intros W D [T R]. destruct (get_lane_exists g _ T) as [l Gl]. unfold follow_road. rewrite Gl. cbn [bind].
  destruct (after_end l (v_pos v) None); [|exists v; split; [reflexivity | split; assumption]].
  set (rt := match v_route v with Some rt => rt | None => [] end).
  assert (Rk : route_ok g rt) by (unfold rt; destruct (v_route v); [exact R | constructor]).
  destruct (next_lane_valid g (v_target_lane v) rt (v_pos v) draw W T Rk D) as (i & Ei & Xi).
  assert (Hr : fst (next_lane g (v_target_lane v) rt (v_pos v) draw) = fst (next_lane_route (v_target_lane v) rt)) by (rewrite next_lane_unfold; reflexivity).
  destruct (next_lane g (v_target_lane v) rt (v_pos v) draw) as [rt' r] eqn:N. cbn in Ei, Hr. subst r. cbn [bind].
  eexists. split; [reflexivity|]. unfold targets_ok. destruct (v_route v) eqn:Rv; cbn.
  - split; [exact Xi|]. subst rt'. apply route_ok_next. exact Rk.
  - rewrite Rv. split; [exact Xi | exact I].
Qed.
Lemma apply_meta_total g v a : targets_ok g v ->
  exists v', apply_meta g v a = Ok v' /\ targets_ok g v'.
Proof.
  intros [T R]. destruct (lane_exists_form g _ T) as (x & y & k & E).
  assert (Q : forall delta, (delta = 1 \/ delta = -1)%Z -> exists v', try_lane_change g v delta = Ok v' /\ targets_ok g v').
  { intros delta D. rewrite E in T. destruct (try_lane_change_spec g v x y k delta T E D) as (v' & E' & Rv & _ & S).
    exists v'. split; [exact E'|]. split; [|rewrite Rv; exact R]. destruct S as [(l & HL & H0 & _ & ->) | [-> _]].
    - exists (Z.to_nat (Z.of_nat k + delta)), l. cbn. rewrite Z2Nat.id by lia. easy.
    - rewrite E. exact T. }
  destruct a as [[]|]; cbn [apply_meta]; try (apply Q; tauto); (eexists; split; [reflexivity | split; assumption]).
Qed.
Lemma low_level_total g v : targets_ok g v -> exists v', low_level g v = Ok v' /\ targets_ok g v'.
Proof.
  intros [T R]. destruct (get_lane_exists g _ T) as [l Gl]. unfold low_level, steering_control. rewrite Gl. cbn [bind].
  eexists. split; [reflexivity | split; assumption].
Qed.
Lemma controlled_act_total g draw v a : wf_graph g -> draw_ok draw -> targets_ok g v ->
  exists v', controlled_act g draw v a = Ok v' /\ targets_ok g v'.
Proof.
  intros W D T. unfold controlled_act. destruct (follow_road_total g draw v W D T) as (v1 & -> & T1). cbn [bind].
  destruct (apply_meta_total g v1 a T1) as (v2 & -> & T2). cbn [bind]. apply low_level_total. exact T2.
Qed.
Lemma mdp_act_total g draw v a : wf_graph g -> draw_ok draw -> targets_ok g v ->
  exists v', mdp_act g draw v a = Ok v' /\ targets_ok g v'.
Proof.
  intros W D T. destruct a as [[]|]; cbn [mdp_act]; apply controlled_act_total; assumption.
Qed.
Lemma step_targets g rec v dt v' : vehicle_step g rec v dt = Ok v' -> targets_ok g v -> targets_ok g v'.
Proof.
  intros E [T R]. apply step_fields in E. cbv zeta in E. destruct E as (_ & _ & _ & _ & _ & _ & _ & ET & _ & ER & _).
  unfold targets_ok. rewrite ET, ER. split; assumption.
Qed.

(** ** Speed grid *)
Lemma index_to_speed_nat sg k : (2 <= sg_count sg)%Z ->
  index_to_speed sg k = sg_min sg + IZR k * ((sg_max sg - sg_min sg) / IZR (sg_count sg - 1)).
Proof. intros H. unfold index_to_speed. rewrite (proj2 (Z.ltb_lt _ _)) by lia. unfold Rdiv. ring. Qed.

Lemma round_nearest y (j : Z) : Rabs (y - IZR (Rround_even y)) <= Rabs (y - IZR j).
Proof.
  destruct (Z.eq_dec j (Rround_even y)) as [->|N]; [lra|].
  pose proof (Rround_even_near y) as H. set (r := Rround_even y) in *.
  assert (1 <= Rabs (IZR j - IZR r)).
  { rewrite <- minus_IZR, <- abs_IZR. apply IZR_le. lia. }
  revert H H0. unfold Rabs. repeat destruct Rcase_abs; lra.
Qed.
Lemma clip_round_nearest y n (j : Z) : (0 <= n)%Z -> (0 <= j <= n)%Z ->
  Rabs (y - IZR (Zclip (Rround_even y) 0 n)) <= Rabs (y - IZR j).
Proof.
  intros Hn Hj. pose proof (Rround_even_near y) as H. set (r := Rround_even y) in *.
  destruct (Z_lt_dec r 0) as [L|L]; [|destruct (Z_lt_dec n r) as [G|G]].
  - assert (Zclip r 0 n = 0)%Z as -> by (unfold Zclip; lia).
    assert (IZR r <= -1) by (apply IZR_le; lia). assert (0 <= IZR j) by (apply IZR_le; lia).
    revert H. unfold Rabs. repeat destruct Rcase_abs; lra.
  - assert (Zclip r 0 n = n)%Z as -> by (unfold Zclip; lia).
    assert (IZR n + 1 <= IZR r) by (rewrite <- plus_IZR; apply IZR_le; lia). assert (IZR j <= IZR n) by (apply IZR_le; lia).
    revert H. unfold Rabs. repeat destruct Rcase_abs; lra.
  - rewrite Zclip_id by lia. apply round_nearest.
Qed.

Lemma speed_to_index_range sg s : (1 <= sg_count sg)%Z -> (0 <= speed_to_index sg s <= sg_count sg - 1)%Z.
Proof. intros H. apply Zclip_bounds. lia. Qed.

Lemma index_speed_index sg k : (2 <= sg_count sg)%Z -> sg_min sg < sg_max sg -> (0 <= k <= sg_count sg - 1)%Z ->
  speed_to_index sg (index_to_speed sg k) = k.
Proof.
  intros H M K. unfold speed_to_index. rewrite index_to_speed_nat by easy.
  assert (0 < IZR (sg_count sg - 1)) by (apply IZR_lt; lia).
  replace ((sg_min sg + IZR k * ((sg_max sg - sg_min sg) / IZR (sg_count sg - 1)) - sg_min sg) / (sg_max sg - sg_min sg) * IZR (sg_count sg - 1))
    with (IZR k) by (field; split; lra).
  rewrite Rround_even_IZR. apply Zclip_id. exact K.
Qed.

Lemma speed_to_index_nearest sg s j : (1 <= sg_count sg)%Z -> sg_min sg < sg_max sg -> (0 <= j <= sg_count sg - 1)%Z ->
  Rabs (s - index_to_speed sg (speed_to_index sg s)) <= Rabs (s - index_to_speed sg j).
Proof.
  intros H M J. destruct (Z.eq_dec (sg_count sg) 1) as [E|E].
  - unfold index_to_speed. rewrite E. cbn. lra.
  - rewrite !index_to_speed_nat by lia. unfold speed_to_index.
    assert (P : 0 < IZR (sg_count sg - 1)) by (apply IZR_lt; lia).
    set (y := (s - sg_min sg) / (sg_max sg - sg_min sg) * IZR (sg_count sg - 1)).
    set (st := (sg_max sg - sg_min sg) / IZR (sg_count sg - 1)).
    assert (Ps : 0 < st) by (unfold st; apply Rdiv_lt_0_compat; lra).
    assert (Q : forall z, s - (sg_min sg + IZR z * st) = st * (y - IZR z)).
    { intros z. unfold st, y. field. split; lra. }
    rewrite !Q, !Rabs_mult, (Rabs_pos_eq st) by lra. apply Rmult_le_compat_l; [lra|].
    apply clip_round_nearest; [lia | exact J].
Qed.

(** ** Speed loop *)
Lemma closed_loop_speed g rec v' v dt w : v_speed v' = v_speed v -> v_crashed v' = false -> - 40 <= v_speed v <= 40 ->
  v_accel v' = (v_target_speed v' - v_speed v) / (6/10) ->
  vehicle_step g rec v' dt = Ok w ->
  v_speed w - v_target_speed w = (1 - dt / (6/10)) * (v_speed v - v_target_speed v').
Proof.
  intros Es C B A E. apply step_fields in E. cbv zeta in E. destruct E as (_ & _ & S & _ & _ & _ & _ & _ & T & _).
  rewrite S, T, clipped_cases, C, Es. cbv zeta. rewrite !Rltb_ge by lra. rewrite A. field.
Qed.

(** ** Steering on a straight lane *)
Lemma clip_0 a b : a <= 0 <= b -> Rclip 0 a b = 0.
Proof. apply Rclip_id. Qed.
Lemma steering_aligned l st en p h s k : l_geom l = GStraight st en -> snd (l_local l p) = 0 ->
  h = straight_heading st en + 2 * PI * IZR k -> steering_law l p h s = 0.
Proof.
  intros G D H. unfold steering_law. destruct (l_local l p) as [a b]. cbn in D. subst b. unfold l_heading. rewrite G. cbn [geom_heading].
  cbv zeta. pose proof PI_RGT_0 as PI0.
  replace (- KP_LATERAL * 0 / not_zero s not_zero_eps) with 0 by (unfold Rdiv; ring).
  rewrite (clip_0 (-1) 1), asin_0, (clip_0 (- (PI/4))) by lra.
  replace (straight_heading st en + 0 - h) with (0 + 2 * PI * IZR (- k)).
  - rewrite wrap_turn, wrap_id by lra. rewrite !Rmult_0_r, (clip_0 (-1) 1), asin_0 by lra. unfold MAX_STEERING_ANGLE. apply clip_0. lra.
  - rewrite H, opp_IZR. ring.
Qed.

(** ** Routes *)
Lemma path_route_chain path : chain (path_route path).
Proof.
  induction path as [|a [|b path] IH]; cbn; [easy|easy|]. cbn in IH. destruct path; [easy|]. split; [reflexivity | exact IH].
Qed.
Lemma path_route_head a b path : exists rt, path_route (a :: b :: path) = (a, b, None) :: rt.
Proof. cbn. eauto. Qed.
Lemma path_route_last path : forall a b, path_route (a :: b :: path) <> [] /\
  forall d, li_to (last (path_route (a :: b :: path)) d) = last (a :: b :: path) a.
Proof.
  induction path as [|c path IH]; intros a b.
  - cbn. split; easy.
  - split; [cbn; easy|]. intros d. change (path_route (a :: b :: c :: path)) with ((a, b, None) :: path_route (b :: c :: path)).
    destruct (IH b c) as [N IH']. change (last (a :: b :: c :: path) a) with (last (b :: c :: path) a).
    destruct (path_route (b :: c :: path)) as [|r0 r1] eqn:E; [easy|]. change (last ((a, b, None) :: r0 :: r1) d) with (last (r0 :: r1) d).
    rewrite IH'. apply last_default. easy.
Qed.
Lemma path_route_edges g path : walk g path -> on_network g (path_route path).
Proof.
  induction path as [|a [|b path] IH]; intros W; [constructor|constructor|]. destruct W as [E W].
  change (path_route (a :: b :: path)) with ((a, b, None) :: path_route (b :: path)). constructor; [exact E | now apply IH].
Qed.

(** ** Runs *)
Definition keeps_speed (a : option meta_action) : Prop :=
  match a with Some FASTER | Some SLOWER => False | _ => True end.
Lemma mdp_controlled g draw v a : keeps_speed a -> mdp_act g draw v a = controlled_act g draw v a.
Proof. destruct a as [[]|]; cbn; easy. Qed.

Lemma performs_mdp_controlled g rec dt v acts tr : Forall keeps_speed acts ->
  performs mdp_act g rec dt v acts tr -> performs controlled_act g rec dt v acts tr.
Proof.
  intros F P. induction P as [|v a acts draw v1 v2 tr D A S P IH]; [constructor|]. inversion F; subst.
  rewrite mdp_controlled in A by assumption. econstructor; eauto.
Qed.

Lemma performs_length act g rec dt v acts tr : performs act g rec dt v acts tr -> List.length tr = List.length acts.
Proof. induction 1; cbn; congruence. Qed.

Lemma performs_total act g rec dt acts : wf_graph g -> g <> [] ->
  (forall draw v a, draw_ok draw -> targets_ok g v -> exists v', act g draw v a = Ok v' /\ targets_ok g v') ->
  forall v, targets_ok g v -> exists tr, performs act g rec dt v acts tr.
Proof.
  intros W N H. induction acts as [|a acts IH]; intros v T; [exists []; constructor|].
  destruct (H (fun n => 0%nat) v a (fun n Hn => Hn) T) as (v1 & A & T1).
  destruct (vehicle_step_total g rec v1 dt W N) as [v2 S]. pose proof (step_targets _ _ _ _ _ S T1) as T2.
  destruct (IH v2 T2) as [tr P]. exists (v2 :: tr). econstructor; eauto. intros n Hn; exact Hn.
Qed.

Lemma performs_targets act g rec dt v acts tr :
  (forall draw v a v', draw_ok draw -> targets_ok g v -> act g draw v a = Ok v' -> targets_ok g v') ->
  targets_ok g v -> performs act g rec dt v acts tr -> Forall (targets_ok g) tr.
Proof.
  intros H T P. induction P as [|v a acts draw v1 v2 tr D A S P IH]; [constructor|].
  pose proof (step_targets _ _ _ _ _ S (H _ _ _ _ D T A)) as T2. constructor; [exact T2 | now apply IH].
Qed.

(** Invariant of the closed speed loop. *)
Lemma speed_loop g rec dt v acts tr : 0 <= dt ->
  (dt <= 6/10 /\ Rabs (v_target_speed v) <= 40 /\ Rabs (v_speed v) <= 40 \/
   dt <= 12/10 /\ Rabs (v_target_speed v) + Rabs (v_speed v - v_target_speed v) <= 40) ->
  v_crashed v = false -> Forall keeps_speed acts -> performs controlled_act g rec dt v acts tr ->
  forall j w, nth_error tr j = Some w ->
    v_target_speed w = v_target_speed v /\ v_crashed w = false /\
    v_speed w = v_target_speed v + (1 - dt / (6/10)) ^ (S j) * (v_speed v - v_target_speed v).
Proof.
  intros Hd B C F P. revert B C F. induction P as [|v a acts draw v1 v2 tr D A S P IH]; intros B C F j w Hj; [destruct j; easy|].
  inversion F as [|? ? Fa Ft]; subst.
  pose proof (controlled_act_ok _ _ _ _ _ A) as (SB & _ & T1 & A1 & _).
  assert (T1' : v_target_speed v1 = v_target_speed v) by (destruct a as [[]|]; cbn in Fa; easy).
  assert (Bv : - 40 <= v_speed v <= 40).
  { clear - B. revert B. unfold Rabs. repeat destruct Rcase_abs; lra. }
  unfold same_body in SB. destruct SB as (_ & _ & _ & _ & Es & _ & Ec & _).
  rewrite C in Ec.
  pose proof (closed_loop_speed g rec v1 v dt v2 Es Ec Bv A1 S) as Q.
  pose proof (step_fields _ _ _ _ _ S) as SF. cbv zeta in SF. destruct SF as (_ & _ & _ & C2 & _ & _ & _ & _ & T2 & _).
  rewrite T1' in Q, T2.
  set (q := 1 - dt / (6/10)) in *.
  assert (Eq : v_speed v2 = v_target_speed v + q * (v_speed v - v_target_speed v)) by lra.
  destruct j as [|j].
  - cbn in Hj. injection Hj as <-. split; [exact T2|]. split; [congruence|]. rewrite Eq. ring.
  - cbn [nth_error] in Hj.
    assert (B2 : dt <= 6/10 /\ Rabs (v_target_speed v2) <= 40 /\ Rabs (v_speed v2) <= 40 \/
                 dt <= 12/10 /\ Rabs (v_target_speed v2) + Rabs (v_speed v2 - v_target_speed v2) <= 40).
    { rewrite T2. destruct B as [(D6 & Bt & Bs) | (D12 & Bs)].
      - left. split; [exact D6|]. split; [exact Bt|]. rewrite Eq.
        assert (0 <= q <= 1) by (unfold q; lra). 
        assert (- 40 <= v_target_speed v <= 40) by (revert Bt; unfold Rabs; destruct Rcase_abs; lra).
        apply Rabs_le. nra.
      - right. split; [exact D12|]. replace (v_speed v2 - v_target_speed v) with (q * (v_speed v - v_target_speed v)) by lra.
        rewrite Rabs_mult. assert (Rabs q <= 1) by (apply Rabs_le; unfold q; lra).
        pose proof (Rabs_pos (v_speed v - v_target_speed v)). pose proof (Rabs_pos q). nra. }
    specialize (IH B2 ltac:(congruence) Ft j w Hj) as (T & C' & E).
    split; [congruence|]. split; [exact C'|]. rewrite E, T2, Eq. cbn [pow]. ring.
Qed.

(** Straight-line equilibrium. *)
Definition idle (a : option meta_action) : Prop := a = None \/ a = Some IDLE.
Lemma idle_keeps acts : Forall idle acts -> Forall keeps_speed acts.
Proof. apply Forall_impl. intros a [-> | ->]; exact I. Qed.

Lemma straight_advance st en p h dt s k : st <> en -> snd (straight_local st en p) = 0 ->
  h = straight_heading st en + 2 * PI * IZR k ->
  straight_local st en (vadd p (vscal dt (vscal s (cos h, sin h)))) = (fst (straight_local st en p) + s * dt, 0).
Proof.
  intros N D ->. rewrite cos_turn, sin_turn.
  pose proof (straight_dir_unit st en N) as U. pose proof (straight_dir_heading st en N) as H.
  rewrite <- H. unfold straight_local, straight_lat, vdot, vsub, vadd, vscal in *. cbn [fst snd] in *.
  destruct (straight_dir st en) as [dx dy]. cbn [fst snd] in *. apply f_equal2.
  - replace (s * dt) with (s * dt * (dx * dx + dy * dy)) by (rewrite U; ring). ring.
  - rewrite <- D. ring.
Qed.

Lemma equilibrium g rec dt v acts tr l st en k :
  0 <= dt <= 6/10 -> Rabs (v_target_speed v) <= 40 -> Rabs (v_speed v) <= 40 -> v_crashed v = false ->
  get_lane g (v_target_lane v) = Ok l -> l_geom l = GStraight st en -> st <> en ->
  snd (l_local l (v_pos v)) = 0 -> v_heading v = straight_heading st en + 2 * PI * IZR k ->
  Forall idle acts -> performs controlled_act g rec dt v acts tr ->
  forall j w, nth_error tr j = Some w ->
  (forall i u, (i <= j)%nat -> nth_error (v :: tr) i = Some u -> fst (l_local l (v_pos u)) <= l_length l - 5/2) ->
    v_target_lane w = v_target_lane v /\ snd (l_local l (v_pos w)) = 0 /\ v_heading w = v_heading v /\
    fst (l_local l (v_pos w)) = fst (l_local l (v_pos v)) + INR (S j) * dt * v_target_speed v
      + (6/10) * (1 - (1 - dt / (6/10)) ^ (S j)) * (v_speed v - v_target_speed v).
Proof.
  intros Hd Bt Bs C G Gm N D H F P. revert Bt Bs C G D H F.
  induction P as [|v a acts draw v1 v2 tr Dr A S P IH]; intros Bt Bs C G D H F j w Hj Hb; [destruct j; easy|].
  inversion F as [|? ? Fa Ft]; subst.
  assert (Pc : performs controlled_act g rec dt v (a :: acts) (v2 :: tr)) by (econstructor; eauto).
  assert (SP : v_target_speed v2 = v_target_speed v /\ v_crashed v2 = false /\
               v_speed v2 = v_target_speed v + (1 - dt / (6/10)) * (v_speed v - v_target_speed v)).
  { destruct (speed_loop g rec dt v (a :: acts) (v2 :: tr) (proj1 Hd) (or_introl (conj (proj2 Hd) (conj Bt Bs))) C
                (idle_keeps _ F) Pc 0%nat v2 eq_refl) as (X & Y & Z). rewrite Z. split; [exact X|]. split; [exact Y|]. ring. }
  destruct SP as (T2 & C2 & S2).
  (* the act *)
  assert (AE : after_end l (v_pos v) None = false).
  { unfold after_end. apply Rltb_ge. specialize (Hb 0%nat v ltac:(lia) eq_refl). unfold LANE_VEHICLE_LENGTH. exact Hb. }
  assert (F1 : follow_road g draw v = Ok v) by (unfold follow_road; rewrite G; cbn [bind]; rewrite AE; reflexivity).
  assert (A1 : v_target_lane v1 = v_target_lane v /\ v_steering v1 = 0 /\ v_pos v1 = v_pos v /\ v_heading v1 = v_heading v /\ v_speed v1 = v_speed v).
  { unfold controlled_act in A. rewrite F1 in A. cbn [bind] in A.
    assert (Ia : apply_meta g v a = Ok v) by (destruct Fa as [-> | ->]; reflexivity). rewrite Ia in A. cbn [bind] in A.
    apply low_level_ok in A as (SB & _ & _ & TL & _ & _ & l0 & G0 & S0). rewrite G in G0. injection G0 as <-.
    unfold same_body in SB. rewrite (steering_aligned l st en _ _ _ k Gm D H) in S0. tauto. }
  destruct A1 as (TL1 & St1 & P1 & H1 & V1).
  pose proof (step_fields _ _ _ _ _ S) as SF. cbv zeta in SF. rewrite St1 in SF.
  assert (B0 : slip (if v_crashed v1 then 0 else 0) = 0) by (destruct (v_crashed v1); apply slip_0).
  rewrite B0, Rplus_0_r, sin_0, P1, H1, V1 in SF. destruct SF as (P2 & H2 & _ & _ & _ & _ & _ & TL2 & _).
  assert (H2' : v_heading v2 = v_heading v) by (rewrite H2; unfold V_LENGTH; field).
  assert (L2 : l_local l (v_pos v2) = (fst (l_local l (v_pos v)) + v_speed v * dt, 0)).
  { rewrite P2. unfold l_local in *. rewrite Gm in *. cbn [geom_local] in *. apply (straight_advance st en _ _ _ _ k N D H). }
  assert (TL : v_target_lane v2 = v_target_lane v) by congruence.
  destruct j as [|j].
  - cbn in Hj. injection Hj as <-. rewrite L2. cbn [fst snd]. split; [exact TL|]. split; [reflexivity|]. split; [exact H2'|].
    cbn [INR pow]. field.
  - cbn [nth_error] in Hj. rewrite <- TL in G. 
    assert (Bs2 : Rabs (v_speed v2) <= 40).
    { rewrite S2. assert (- 40 <= v_target_speed v <= 40) by (revert Bt; unfold Rabs; destruct Rcase_abs; lra).
      assert (- 40 <= v_speed v <= 40) by (revert Bs; unfold Rabs; destruct Rcase_abs; lra).
      set (q := 1 - dt / (6/10)). assert (0 <= q <= 1) by (unfold q; lra). apply Rabs_le. nra. }
    specialize (IH ltac:(congruence) Bs2 C2 G ltac:(rewrite L2; reflexivity) ltac:(congruence) Ft j w Hj).
    destruct IH as (I1 & I2 & I3 & I4).
    { intros i u Hi Hu. apply (Hb (Datatypes.S i) u); [lia | exact Hu]. }
    split; [congruence|]. split; [exact I2|]. split; [congruence|].
    rewrite I4, L2, T2, S2. cbn [fst]. rewrite (S_INR (Datatypes.S j)). cbn [pow]. field.
Qed.

(** Speed index invariant of MDP vehicles. *)
Definition grid_ok (v : vehicle) : Prop :=
  (0 <= v_speed_index v <= sg_count (v_grid v) - 1)%Z /\ v_target_speed v = index_to_speed (v_grid v) (v_speed_index v).
Lemma mdp_act_grid g draw v a v' : (1 <= sg_count (v_grid v))%Z -> grid_ok v -> mdp_act g draw v a = Ok v' ->
  grid_ok v' /\ v_grid v' = v_grid v.
Proof.
  intros H [K T] E. apply mdp_act_ok in E as (SB & M & _).
  assert (G : v_grid v' = v_grid v) by (unfold same_body in SB; tauto). split; [|exact G]. unfold grid_ok. rewrite G.
  destruct a as [[]|]; cbv zeta in M; destruct M as [M1 M2];
    try (rewrite M1, M2; split; assumption); rewrite M1; (split; [apply Zclip_bounds; lia | exact M2]).
Qed.

Lemma asin_neg y : -1 <= y < 0 -> asin y < 0.
Proof.
  intros H. pose proof (sin_asin y ltac:(lra)) as E. pose proof (asin_bound y) as B. pose proof PI_RGT_0.
  destruct (Rle_lt_dec 0 (asin y)) as [L|L]; [|exact L]. pose proof (sin_ge_0 (asin y) L ltac:(lra)). lra.
Qed.
Lemma asin_pos y : 0 < y <= 1 -> 0 < asin y.
Proof.
  intros H. pose proof (sin_asin y ltac:(lra)) as E. pose proof (asin_bound y) as B. pose proof PI_RGT_0.
  destruct (Rle_lt_dec (asin y) 0) as [L|L]; [|exact L].
  pose proof (sin_ge_0 (- asin y) ltac:(lra) ltac:(lra)) as Q. rewrite sin_neg in Q. lra.
Qed.

(** ** Intersections *)
Lemma find_intersection_spec g fuel : forall pre rt,
  match find_intersection g fuel pre rt with
  | Some (p, r, ds) =>
      exists a post d, rt = a ++ r :: post /\ p = pre ++ a ++ [r] /\ (List.length a < fuel)%nat /\
        assoc (li_to r) g = Some d /\ ds = keys d /\ (2 <= List.length ds)%nat /\
        (forall r', In r' a -> forall d', assoc (li_to r') g = Some d' -> (List.length d' < 2)%nat)
  | None => forall a r post, rt = a ++ r :: post -> (List.length a < fuel)%nat ->
      forall d, assoc (li_to r) g = Some d -> (List.length d < 2)%nat
  end.
Proof.
  induction fuel as [|fuel IH]; intros pre rt; [cbn; intros; lia|]. destruct rt as [|r0 rt]; [cbn; intros [|? ?]; easy|].
  cbn [find_intersection].
  assert (Q : (forall d', assoc (li_to r0) g = Some d' -> (List.length d' < 2)%nat) ->
    match find_intersection g fuel (pre ++ [r0]) rt with
  | Some (p, r, ds) =>
      exists a post d, r0 :: rt = a ++ r :: post /\ p = pre ++ a ++ [r] /\ (List.length a < S fuel)%nat /\
        assoc (li_to r) g = Some d /\ ds = keys d /\ (2 <= List.length ds)%nat /\
        (forall r', In r' a -> forall d', assoc (li_to r') g = Some d' -> (List.length d' < 2)%nat)
  | None => forall a r post, r0 :: rt = a ++ r :: post -> (List.length a < S fuel)%nat ->
      forall d, assoc (li_to r) g = Some d -> (List.length d < 2)%nat
  end).
  { intros H0. specialize (IH (pre ++ [r0]) rt). destruct (find_intersection g fuel (pre ++ [r0]) rt) as [[[p r] ds]|].
    - destruct IH as (a & post & d & E1 & E2 & E3 & E4 & E5 & E6 & E7). exists (r0 :: a), post, d.
      split; [cbn; now rewrite E1|]. split; [rewrite E2, <- app_assoc; reflexivity|]. split; [cbn; lia|].
      split; [exact E4|]. split; [exact E5|]. split; [exact E6|].
      intros r' [<-|Hr']; [exact H0 | now apply E7].
    - intros a r post E L d. destruct a as [|a0 a]; cbn in E; injection E as <- E.
      + apply H0.
      + cbn in L. apply (IH a r post E). lia. }
  destruct (assoc (li_to r0) g) as [d|] eqn:A.
  - destruct (Nat.leb_spec 2 (List.length d)) as [L|L].
    + exists [], rt, d. split; [reflexivity|]. split; [reflexivity|]. split; [cbn; lia|]. split; [exact A|]. split; [reflexivity|].
      split; [unfold keys; now rewrite map_length|]. intros r' [].
    + apply Q. intros d' [= <-]. exact L.
  - apply Q. easy.
Qed.

Lemma chain_app a r post : chain (a ++ r :: post) -> chain (a ++ [r]).
Proof.
  induction a as [|x a IH]; [easy|]. cbn. destruct a as [|y a]; cbn in *.
  - intros [H _]. split; [exact H | exact I].
  - intros [H K]. split; [exact H | now apply IH].
Qed.
Lemma chain_snoc a r s : chain (a ++ [r]) -> li_to r = li_from s -> chain (a ++ [r; s]).
Proof.
  induction a as [|x a IH]; cbn; intros H E; [split; [exact E | exact I]|].
  destruct a as [|y a]; cbn in *.
  - destruct H as [H _]. split; [exact H|]. split; [exact E | exact I].
  - destruct H as [H K]. split; [exact H | now apply IH].
Qed.

(** ** Predicted trajectories *)
Lemma predict_ticks_count g draw dt save n : (0 < save)%nat -> forall t v t' v' out,
  predict_ticks g draw dt save n t v = Ok (t', v', out) ->
  t' = (t + n)%nat /\ (List.length out = (t + n) / save - t / save)%nat.
Proof.
  intros Hs. induction n as [|n IH]; intros t v t' v' out E; cbn [predict_ticks] in E.
  - injection E as <- <- <-. split; [lia|]. rewrite Nat.add_0_r, Nat.sub_diag. reflexivity.
  - apply bind_ok in E as (v1 & _ & E). destruct save as [|save]; [lia|].
    apply bind_ok in E as ((tv & out') & E1 & E). destruct tv as [t1 v2]. injection E as <- <- <-.
    apply IH in E1 as [-> L]. split; [lia|].
    replace (t + S n)%nat with (S t + n)%nat by lia.
    assert (D : (S t / S save = t / S save + (if Nat.eqb (S t mod S save) 0 then 1 else 0))%nat).
    { pose proof (Nat.div_mod t (S save) ltac:(lia)) as A. pose proof (Nat.mod_upper_bound t (S save) ltac:(lia)) as B.
      destruct (Nat.eqb_spec (S t mod S save) 0) as [Z|Z].
      - destruct (Nat.eq_dec (t mod S save) save) as [e|ne].
        + symmetry. apply Nat.div_unique with 0%nat; [lia|]. rewrite e in A. lia.
        + exfalso. assert (S t mod S save = S (t mod S save))%nat by (symmetry; apply (Nat.mod_unique _ _ (t / S save)); lia). lia.
      - destruct (Nat.eq_dec (t mod S save) save) as [e|ne].
        + exfalso. apply Z. symmetry. apply (Nat.mod_unique _ _ (S (t / S save))); [lia|]. rewrite e in A. lia.
        + symmetry. rewrite Nat.add_0_r. apply (Nat.div_unique _ _ _ (S (t mod S save))); lia. }
    assert (M : (S t / S save <= (S t + n) / S save)%nat) by (apply Nat.div_le_mono; lia).
    match goal with |- context [if ?b then _ :: _ else _] => change b with (Nat.eqb (S t mod S save) 0) end.
    destruct (Nat.eqb (S t mod S save) 0); cbn [List.length]; rewrite L; lia.
Qed.
Lemma predict_actions_count g draw dt save ticks actions : (0 < save)%nat -> forall t v out,
  predict_actions g draw dt save ticks actions t v = Ok out ->
  (List.length out = (t + ticks * List.length actions) / save - t / save)%nat.
Proof.
  intros Hs. induction actions as [|a actions IH]; intros t v out E; cbn [predict_actions] in E.
  - injection E as <-. cbn [List.length]. rewrite Nat.mul_0_r, Nat.add_0_r, Nat.sub_diag. reflexivity.
  - apply bind_ok in E as (v1 & _ & E). apply bind_ok in E as ([[t1 v2] o1] & E1 & E). apply bind_ok in E as (o2 & E2 & E).
    injection E as <-. apply predict_ticks_count in E1 as [-> L1]; [|exact Hs]. cbn [fst snd] in E2. apply IH in E2.
    rewrite app_length, L1, E2. cbn [List.length].
    replace (t + ticks * S (List.length actions))%nat with (t + ticks + ticks * List.length actions)%nat by lia.
    assert ((t / save <= (t + ticks) / save)%nat) by (apply Nat.div_le_mono; lia).
    assert (((t + ticks) / save <= (t + ticks + ticks * List.length actions) / save)%nat) by (apply Nat.div_le_mono; lia).
    lia.
Qed.
