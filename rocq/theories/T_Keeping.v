(** Theorems about the lane-keeping environment (C94). *)
From Verif Require Import Prelude M_Utils M_Lane M_Road M_Vehicle M_Kinematics M_Control M_Action M_Env M_Interval M_Bicycle M_Nets M_Scenes M_Reset M_Keeping
  S_Geometry S_Road S_Vehicle S_Bicycle S_Joined S_Reset S_Keeping P_Base P_Utils P_Lane P_Graph P_Kin P_Bicycle P_Reset P_Joined P_Keeping.
From Coq Require Import Lia Lra.
Open Scope R_scope.

(** ** Reset *)
(** A reset puts the vehicle 50 m along the segment, 4 m to its side, at 8.3 m/s along
    it; the recorded trajectory is kept. *)
Lemma reset_facts c tr n1 n2 : ca_dynamical (kc_action c) = true -> exists k o, keeping_reset c tr n1 n2 = Ok (k, o) /\
  steady (k_ego k) /\ straight_progress (where_is k) = 50 /\ straight_offset (where_is k) = -4 /\
  facing (v_heading (b_base (k_ego k))) = (65 / sqrt 5450, -35 / sqrt 5450) /\ b_lateral (k_ego k) = 0 /\ b_yaw (k_ego k) = 0 /\
  k_time k = 0%Z /\ k_steps k = 0%Z /\ k_done k = false /\ k_trajectory k = tr /\
  k_lane k = Some lane_keeping_straight /\ k_lanes k = [lane_keeping_sine].
Proof.
  intros D. destruct keeping_net_built as [B N]. unfold keeping_reset. rewrite keeping_cd. cbn [bind]. unfold new_bicycle.
  destruct (new_vehicle_total lane_keeping_net 0 (l_position lane_keeping_straight 50 (-4)) (l_heading lane_keeping_straight 0) (83/10) B N) as (v & E & (I & K & P & Hh & S & C & _)).
  rewrite E. cbn [bind]. rewrite D. eexists. eexists. split; [reflexivity|].
  cbn [k_ego k_lane k_lanes k_steps k_done k_trajectory k_time b_lateral b_yaw]. unfold where_is. cbn [k_ego b_base].
  change (v_pos (M_Bicycle.set_kind v KBicycle)) with (v_pos v). change (v_heading (M_Bicycle.set_kind v KBicycle)) with (v_heading v).
  rewrite P, Hh, straight_at. destruct root5450 as [Q Qp]. destruct straight_frame as (_ & _ & _ & Fh).
  split; [split; [exact C | exact S]|]. set (n := sqrt 5450) in *. unfold straight_progress, straight_offset. fold n. cbn [fst snd]. clearbody n.
  split. { apply (Rmult_eq_reg_l (n * n)); [|nra]. transitivity (50 * 65 * 65 + 50 * 35 * 35); [field; lra | rewrite Q; ring]. }
  split. { apply (Rmult_eq_reg_l (n * n)); [|nra]. transitivity (-4 * 35 * 35 + -4 * 65 * 65); [field; lra | rewrite Q; ring]. }
  split; [exact Fh|]. repeat (split; [reflexivity|]). reflexivity.
Qed.
Theorem C94_reset : forall c tr n1 n2, ca_dynamical (kc_action c) = true -> exists k o, keeping_reset c tr n1 n2 = Ok (k, o) /\
  v_speed (b_base (k_ego k)) = 83/10 /\ v_crashed (b_base (k_ego k)) = false /\
  straight_progress (where_is k) = 50 /\ straight_offset (where_is k) = -4 /\
  (cos (v_heading (b_base (k_ego k))), sin (v_heading (b_base (k_ego k)))) = (65 / sqrt 5450, -35 / sqrt 5450) /\
  b_lateral (k_ego k) = 0 /\ b_yaw (k_ego k) = 0 /\
  k_time k = 0%Z /\ k_steps k = 0%Z /\ k_done k = false /\ k_trajectory k = tr.
Proof.
  intros c tr n1 n2 D. destruct (reset_facts c tr n1 n2 D) as (k & o & E & [C S] & P & O & H & L & Y & T & St & Dn & Tr & _).
  exists k, o. repeat (split; [assumption|]). assumption.
Qed.
Print Assumptions C94_reset.
(** The configuration must make the vehicle a BicycleVehicle: any other one cannot be
    observed. *)
Theorem C94_other_vehicle_class : forall c tr n1 n2, ca_dynamical (kc_action c) = false ->
  keeping_reset c tr n1 n2 = Err AttributeError /\ keeping_new c n1 n2 = Err AttributeError.
Proof.
  intros c tr n1 n2 D. assert (A : forall t, keeping_reset c t n1 n2 = Err AttributeError).
  { intros t. destruct keeping_net_built as [B N]. unfold keeping_reset. rewrite keeping_cd. cbn [bind]. unfold new_bicycle.
    destruct (new_vehicle_total lane_keeping_net 0 (l_position lane_keeping_straight 50 (-4)) (l_heading lane_keeping_straight 0) (83/10) B N) as (v & E & _).
    rewrite E. cbn [bind]. now rewrite D. }
  split; [apply A|]. unfold keeping_new. rewrite A. reflexivity.
Qed.
Print Assumptions C94_other_vehicle_class.
(** Constructing the environment resets it but then forgets the lanes: a step before the
    first explicit reset has run its simulation when it fails. *)
Theorem C94_step_before_reset : forall c n1 n2 k a x m1 m2, steering_only c -> keeping_new c n1 n2 = Ok k ->
  keeping_step c (a :: x) m1 m2 k = Err AttributeError.
Proof.
  intros c n1 n2 k a x m1 m2 (Lo & La & Dy & Po & Si) E. unfold keeping_new in E.
  destruct (reset_facts c [] n1 n2 Dy) as (k0 & o & E0 & S & _). rewrite E0 in E. cbn [bind] in E. injection E as <-.
  unfold keeping_step, next_target. cbn [k_lanes bind]. unfold keeping_act. destruct (steer_command (kc_action c) a x Lo La) as [st ->]. cbn [bind].
  match goal with |- context[keeping_simulate c ?K] => destruct (simulate_run c K Po Si) as (k3 & E3 & _ & A & _) end; [exact S | reflexivity|].
  rewrite E3. cbn [bind]. rewrite A. reflexivity.
Qed.
Print Assumptions C94_step_before_reset.

(** ** Runs *)
(** After a reset, every sequence of actions with at least one coordinate is accepted. *)
Lemma runs_from c : steering_only c -> forall inputs k, steady (k_ego k) -> lane_state k -> (forall a n1 n2, In (a, n1, n2) inputs -> a <> []) ->
  exists tr, keeping_run c k inputs tr.
Proof.
  intros H. induction inputs as [|[[a n1] n2] inputs IH]; intros k S L A; [exists []; constructor|].
  destruct a as [|a x]; [exfalso; apply (A [] n1 n2); [now left | easy]|].
  destruct (keeping_step_run c a x n1 n2 k H S L) as (k' & r & st & E & _ & S' & L' & _).
  destruct (IH k' S' L') as [tr T]; [intros; eapply A; right; eassumption|].
  eexists. econstructor; eassumption.
Qed.
Theorem C94_any_actions : forall c tr0 m1 m2 k o inputs, steering_only c -> keeping_reset c tr0 m1 m2 = Ok (k, o) ->
  (forall a n1 n2, In (a, n1, n2) inputs -> a <> []) -> exists tr, keeping_run c k inputs tr.
Proof.
  intros c tr0 m1 m2 k o inputs H E A. destruct (reset_facts c tr0 m1 m2 (proj1 (proj2 (proj2 H)))) as (k0 & o0 & E0 & S & _ & _ & _ & _ & _ & _ & _ & _ & _ & L1 & L2).
  rewrite E0 in E. injection E as <- <-. apply runs_from; try easy. left. easy.
Qed.
Print Assumptions C94_any_actions.
Lemma empty_action c n1 n2 k r : steering_only c -> keeping_step c [] n1 n2 k <> Ok r.
Proof.
  intros (Lo & La & _). unfold keeping_step. destruct (next_target k) as [k1|]; [|discriminate]. cbn [bind].
  unfold keeping_act, continuous_command. rewrite Lo, La. cbn [andb]. destruct (ca_clip _); discriminate.
Qed.
Lemma run_facts c : steering_only c -> forall k inputs tr, keeping_run c k inputs tr -> steady (k_ego k) -> lane_state k -> k_done k = false ->
  forall i k' obs r t, nth_error tr i = Some (k', (obs, r, t)) ->
    steady (k_ego k') /\ t = false /\ k_steps k' = k_steps k /\ k_done k' = false /\ k_time k' = (k_time k + Z.of_nat (S i * frames_of c))%Z /\
    ((k_lanes k = [] \/ exists j kj, (j <= i)%nat /\ nth_error (k :: map fst tr) j = Some kj /\ ~ on_segment (where_is kj)) -> r = 1 - (sine_offset (where_is k') / 10) ^ 2 /\ k_lane k' = Some lane_keeping_sine) /\
    (k_lanes k <> [] -> (forall j kj, (j <= i)%nat -> nth_error (k :: map fst tr) j = Some kj -> on_segment (where_is kj)) -> r = 1 - (straight_offset (where_is k') / 10) ^ 2 /\ k_lane k' = Some lane_keeping_straight).
Proof.
  intros H k inputs tr D. induction D as [k|k a n1 n2 inputs k1 out tr E D IH]; intros S L Dn i k' obs r t Hi; [destruct i; discriminate|].
  destruct a as [|a x]; [exfalso; exact (empty_action c n1 n2 k _ H E)|].
  destruct (keeping_step_run c a x n1 n2 k H S L) as (k1' & r1 & st & E' & _ & S' & L' & St & Dn' & _ & Ti & Cs).
  rewrite E' in E. injection E as <- <-. rewrite Dn in Ti.
  destruct i as [|i].
  - injection Hi as <- <- <- <-. split; [exact S'|]. split; [reflexivity|]. split; [exact St|]. split; [congruence|]. split; [rewrite Ti; lia|]. split.
    + intros X. destruct Cs as [(_ & A1 & A2 & A)|(A0 & Os & _)]; [split; [exact A | exact A1]|]. exfalso. destruct X as [X|(j & kj & Hj & Hn & X)]; [rewrite A0 in X; discriminate X|].
      assert (j = 0%nat) by lia. subst j. injection Hn as <-. apply (X Os).
    + intros N X. destruct Cs as [(A & _)|(_ & _ & A1 & _ & A)]; [|split; [exact A | exact A1]]. exfalso. destruct A as [A|[A _]]; [exact (N A)|]. apply A. apply (X 0%nat); [lia | reflexivity].
  - cbn [nth_error] in Hi. destruct (IH S' L' ltac:(congruence) i k' obs r t Hi) as (F1 & F2 & F3 & F4 & F5 & F6 & F7).
    split; [exact F1|]. split; [exact F2|]. split; [congruence|]. split; [exact F4|]. split; [rewrite F5, Ti; lia|]. split.
    + intros X. apply F6. destruct Cs as [(_ & _ & A & _)|(A0 & Os & _ & A2 & _)]; [now left|].
      destruct X as [X|(j & kj & Hj & Hn & X)]; [exfalso; rewrite A0 in X; discriminate X|].
      destruct j as [|j]; [injection Hn as <-; exfalso; exact (X Os)|]. right. exists j, kj. split; [lia|]. split; [exact Hn | exact X].
    + intros N X. apply F7.
      * destruct Cs as [(A & _)|(_ & _ & _ & A & _)]; [|rewrite A; discriminate].
        exfalso. destruct A as [A|[A _]]; [exact (N A)|]. apply A. apply (X 0%nat); [lia | reflexivity].
      * intros j kj Hj Hn. apply (X (Datatypes.S j)); [lia | exact Hn].
Qed.
(** Whatever the actions: never terminal, never crashed, constant speed; [env.steps] stays
    0, so no time limit counts, while [env.time] counts the frames. *)
Theorem C94_never_ends : forall c tr0 m1 m2 k o inputs tr, steering_only c -> keeping_reset c tr0 m1 m2 = Ok (k, o) -> keeping_run c k inputs tr ->
  forall i k' obs r t, nth_error tr i = Some (k', (obs, r, t)) ->
    t = false /\ v_crashed (b_base (k_ego k')) = false /\ v_speed (b_base (k_ego k')) = 83/10 /\
    k_steps k' = 0%Z /\ k_time k' = Z.of_nat ((i + 1) * Z.to_nat (Rfloor (kc_simulation c / kc_policy c))).
Proof.
  intros c tr0 m1 m2 k o inputs tr H E D i k' obs r t Hi.
  destruct (reset_facts c tr0 m1 m2 (proj1 (proj2 (proj2 H)))) as (k0 & o0 & E0 & S & _ & _ & _ & _ & _ & T0 & S0 & D0 & _ & L1 & L2).
  rewrite E0 in E. injection E as -> ->.
  destruct (run_facts c H k inputs tr D S ltac:(left; easy) D0 i k' obs r t Hi) as ([C V] & F2 & F3 & F4 & F5 & _).
  split; [exact F2|]. split; [exact C|]. split; [exact V|]. split; [congruence|]. rewrite F5, T0. unfold frames_of. f_equal. lia.
Qed.
Print Assumptions C94_never_ends.
Lemma some_off (l : list keeper) i : (exists j kj, (j <= i)%nat /\ nth_error l j = Some kj /\ ~ on_segment (where_is kj)) \/
  (forall j kj, (j <= i)%nat -> nth_error l j = Some kj -> on_segment (where_is kj)).
Proof.
  revert i. induction l as [|k l IH]; intros i; [right; intros [|j] kj _ H; discriminate H|].
  destruct (on_segment_dec (where_is k)) as [A|A]; [|left; exists 0%nat, k; split; [lia | easy]].
  destruct i as [|i].
  - right. intros j kj Hj Hn. assert (j = 0%nat) by lia. subst. injection Hn as <-. exact A.
  - destruct (IH i) as [(j & kj & H1 & H2 & H3)|B]; [left; exists (Datatypes.S j), kj; split; [lia | easy]|].
    right. intros [|j] kj Hj Hn; [injection Hn as <-; exact A|]. apply (B j kj); [lia | exact Hn].
Qed.
(** The reward of a step: quadratic in the distance, after the step, to the segment as long
    as every step so far started on it; from the first step that starts off the segment, for
    ever quadratic in the vertical distance to the sine curve (even back on the segment). *)
Theorem C94_reward : forall c tr0 m1 m2 k o inputs tr, steering_only c -> keeping_reset c tr0 m1 m2 = Ok (k, o) -> keeping_run c k inputs tr ->
  forall i k' obs r t, nth_error tr i = Some (k', (obs, r, t)) ->
    ((forall j kj, (j <= i)%nat -> nth_error (k :: map fst tr) j = Some kj -> on_segment (where_is kj)) ->
      r = 1 - (straight_offset (where_is k') / 10) ^ 2) /\
    ((exists j kj, (j <= i)%nat /\ nth_error (k :: map fst tr) j = Some kj /\ ~ on_segment (where_is kj)) ->
      r = 1 - (sine_offset (where_is k') / 10) ^ 2) /\
    r <= 1.
Proof.
  intros c tr0 m1 m2 k o inputs tr H E D i k' obs r t Hi.
  destruct (reset_facts c tr0 m1 m2 (proj1 (proj2 (proj2 H)))) as (k0 & o0 & E0 & S & _ & _ & _ & _ & _ & T0 & S0 & D0 & _ & L1 & L2).
  rewrite E0 in E. injection E as -> ->.
  destruct (run_facts c H k inputs tr D S ltac:(left; easy) D0 i k' obs r t Hi) as (_ & _ & _ & _ & _ & F6 & F7).
  assert (N : k_lanes k <> []) by (rewrite L2; discriminate).
  split; [intros X; apply (F7 N X)|]. split; [intros X; apply (F6 (or_intror X))|].
  assert (P : forall z : R, 1 - z ^ 2 <= 1) by (intros z; nra).
  destruct (some_off (k :: map fst tr) i) as [X|Y].
  - rewrite (proj1 (F6 (or_intror X))). apply P.
  - rewrite (proj1 (F7 N Y)). apply P.
Qed.
Print Assumptions C94_reward.

(** ** What is observed *)
(** The observation returned by a step describes the vehicle before the simulation of that
    step, with the new steering command in the derivative: a perfect observer is one step late. *)
Theorem C94_observation_late : forall c a n1 n2 k k' obs r t e1 e2, steering_only c ->
  v_crashed (b_base (k_ego k)) = false -> v_speed (b_base (k_ego k)) = 83/10 -> lane_state k ->
  keeping_step c a n1 n2 k = Ok (k', (obs, r, t)) ->
  near e1 n1 [0; 0; 0; 0] -> near e2 n2 [0; 0; 0; 0] ->
  exists st, continuous_command (kc_action c) a = Ok (Controls 0 st) /\
  let b := k_ego k in let v := b_base b in
  near e1 (ko_state obs) [snd (v_pos v); v_heading v; b_lateral b; b_yaw b] /\
  near e2 (ko_derivative obs) [sin (v_heading v) * v_speed v + cos (v_heading v) * b_lateral b; b_yaw b;
    fst (lateral_derivative (83/10) (b_lateral b) (b_yaw b) st); snd (lateral_derivative (83/10) (b_lateral b) (b_yaw b) st)].
Proof.
  intros c a n1 n2 k k' obs r t e1 e2 H C V L E N1 N2.
  destruct a as [|a x]; [exfalso; exact (empty_action c n1 n2 k _ H E)|].
  destruct (keeping_step_run c a x n1 n2 k H (conj C V) L) as (k1 & r1 & st & E' & Ec & _). rewrite E' in E. injection E as _ <- _ _.
  exists st. split; [exact Ec|]. cbv zeta. unfold near in N1, N2.
  inversion N1 as [|a1 b1 ? ? P1 N1']; subst; inversion N1' as [|a2 b2 ? ? P2 N1'']; subst; inversion N1'' as [|a3 b3 ? ? P3 N1''']; subst; inversion N1''' as [|a4 b4 ? ? P4 N1'''']; subst; inversion N1''''; subst.
  inversion N2 as [|d1 c1 ? ? Q1 N2']; subst; inversion N2' as [|d2 c2 ? ? Q2 N2'']; subst; inversion N2'' as [|d3 c3 ? ? Q3 N2''']; subst; inversion N2''' as [|d4 c4 ? ? Q4 N2'''']; subst; inversion N2''''; subst.
  unfold keeping_observe, b_derivative. cbn [ko_state ko_derivative k_ego b_act b_base b_lateral b_yaw].
  change (v_speed (set_action (b_base (k_ego k)) st 0)) with (v_speed (b_base (k_ego k))). change (v_steering (set_action (b_base (k_ego k)) st 0)) with st.
  change (v_heading (set_action (b_base (k_ego k)) st 0)) with (v_heading (b_base (k_ego k))). rewrite V.
  destruct (lateral_derivative (83/10) (b_lateral (k_ego k)) (b_yaw (k_ego k)) st) as [dvy dr].
  unfold near, lateral_rows, b_state, vrot. cbn [map map2 nth fst snd b_base b_lateral b_yaw].
  change (v_pos (set_action (b_base (k_ego k)) st 0)) with (v_pos (b_base (k_ego k))). change (v_heading (set_action (b_base (k_ego k)) st 0)) with (v_heading (b_base (k_ego k))).
  assert (Cell : forall z q e, Rabs (q - 0) <= e -> Rabs (z + q - z) <= e) by (intros z q e ?; now replace (z + q - z) with (q - 0) by ring).
  split; repeat (apply Forall2_cons; [apply Cell; assumption|]); apply Forall2_nil.
Qed.
Print Assumptions C94_observation_late.
(** The reference it contains: on the sine lane, the ordinate and the direction of the curve
    at the abscissa of the vehicle.  On the segment, the ordinate minus the (perpendicular)
    distance, which is not the ordinate of the centre line unless the vehicle is on it. *)
Theorem C94_reference : forall c a n1 n2 k k' obs r t, steering_only c ->
  v_crashed (b_base (k_ego k)) = false -> v_speed (b_base (k_ego k)) = 83/10 -> lane_state k ->
  keeping_step c a n1 n2 k = Ok (k', (obs, r, t)) ->
  let p := where_is k in
  (k_lanes k = [] \/ ~ on_segment p -> exists h, ko_reference obs = [5 * sin (2 * PI * fst p / 100); h; 0; 0] /\
     - (PI / 2) < h < PI / 2 /\ tan h = 5 * (2 * PI / 100) * cos (2 * PI * fst p / 100)) /\
  (k_lanes k <> [] /\ on_segment p -> exists h, ko_reference obs = [snd p - straight_offset p; h; 0; 0] /\
     (cos h, sin h) = (65 / sqrt 5450, -35 / sqrt 5450) /\
     (snd p - straight_offset p = 50 - 35 / 65 * (fst p - 50) <-> straight_offset p = 0)).
Proof.
  intros c a n1 n2 k k' obs r t H C V L E p.
  destruct a as [|a x]; [exfalso; exact (empty_action c n1 n2 k _ H E)|].
  destruct (keeping_step_run c a x n1 n2 k H (conj C V) L) as (k1 & r1 & st & E' & Ec & _ & _ & _ & _ & _ & _ & Cs). rewrite E' in E. injection E as _ <- _ _.
  unfold keeping_observe. cbn [ko_reference]. unfold reference_state. cbn [k_lane k_ego b_act b_base].
  change (v_pos (set_action (b_base (k_ego k)) st 0)) with p.
  assert (Y : nth 0 (lateral_rows (b_state (b_act (k_ego k) st 0))) 0 = snd p) by reflexivity.
  destruct Cs as [(A & B & _)|(A & B & D & _)].
  - split.
    + intros _. rewrite B, sine_local_eq, Y. eexists. split; [unfold sine_offset; apply f_equal2; [ring | reflexivity]|].
      unfold l_heading. cbn [lane_keeping_sine sine_lane l_geom geom_heading].
      replace (straight_heading (0, 0) (500, 0)) with 0.
      2:{ unfold straight_heading, atan2. cbn [fst snd]. replace (500 - 0) with 500 by ring. rewrite Rltb_lt by lra. replace ((0 - 0) / 500) with 0 by field. now rewrite atan_0. }
      rewrite Rplus_0_l, tan_atan. replace (2 * PI / 100 * fst p + 0) with (2 * PI * fst p / 100) by field.
      match goal with |- context[atan ?z] => pose proof (atan_bound z) end. split; [lra | reflexivity].
    + intros [N O]. exfalso. destruct A as [A|[A _]]; [exact (N A) | exact (A O)].
  - split.
    + intros [X|X]; exfalso; [rewrite A in X; discriminate X | exact (X B)].
    + intros _. rewrite D, straight_local_eq, Y. eexists. split; [reflexivity|]. destruct straight_frame as (_ & _ & _ & F). split; [exact F|].
      destruct root5450 as [Q Qp]. unfold straight_offset. set (n := sqrt 5450) in *. clearbody n. set (z := 35 * (fst p - 50) + 65 * (snd p - 50)).
      replace (50 - 35 / 65 * (fst p - 50)) with (snd p - z / 65) by (unfold z; field). assert (Iz : 0 < / n < / 65).
      { split; [apply Rinv_0_lt_compat; lra | apply Rinv_lt_contravar; lra]. }
      unfold Rdiv. split; intros G; [assert (z * (/ 65 - / n) = 0) as K by lra; apply Rmult_integral in K as [-> |K]; lra|].
      apply Rmult_integral in G as [-> |G]; lra.
Qed.
Print Assumptions C94_reference.

(** ** The recorded trajectory is never cleared *)
Theorem C94_trajectory_accumulates : forall c k calls k' n, steering_only c -> session c k calls k' n ->
  v_crashed (b_base (k_ego k)) = false -> v_speed (b_base (k_ego k)) = 83/10 -> lane_state k ->
  exists new, k_trajectory k' = (k_trajectory k ++ new)%list /\ List.length new = n.
Proof.
  intros c k calls k' n H D. induction D as [k|k n1 n2 calls k1 o k' n E D IH|k a n1 n2 calls k1 out k' n E D IH]; intros C V L.
  - exists []. rewrite app_nil_r. easy.
  - destruct (reset_facts c (k_trajectory k) n1 n2 (proj1 (proj2 (proj2 H)))) as (k0 & o0 & E0 & [C0 V0] & _ & _ & _ & _ & _ & _ & _ & _ & T & L1 & L2).
    rewrite E0 in E. injection E as -> ->. rewrite <- T. apply IH; [exact C0 | exact V0 | left; easy].
  - destruct a as [|a x]; [exfalso; exact (empty_action c n1 n2 k _ H E)|].
    destruct (keeping_step_run c a x n1 n2 k H (conj C V) L) as (k1' & r1 & st & E' & _ & [C' V'] & L' & _ & _ & T & _). rewrite E' in E. injection E as <- _.
    destruct (IH C' V' L') as (new & A & B). exists (b_state (k_ego k) :: new). rewrite A, T, <- app_assoc. split; [reflexivity | cbn; now f_equal].
Qed.
Print Assumptions C94_trajectory_accumulates.
(** A closed environment can still be stepped, one frame at a time. *)
Theorem C94_closed_one_frame : forall c a n1 n2 k k' out, steering_only c -> kc_policy c <= kc_simulation c ->
  v_crashed (b_base (k_ego k)) = false -> v_speed (b_base (k_ego k)) = 83/10 -> lane_state k ->
  keeping_step c a n1 n2 (keeping_close k) = Ok (k', out) -> k_time k' = (k_time k + 1)%Z.
Proof.
  intros c a n1 n2 k k' out H F C V L E. destruct a as [|a x]; [exfalso; exact (empty_action c n1 n2 _ _ H E)|].
  destruct (keeping_step_run c a x n1 n2 (keeping_close k) H (conj C V) L) as (k1 & r1 & st & E' & _ & _ & _ & _ & _ & _ & T & _). rewrite E' in E. injection E as <- _.
  rewrite T. cbn [keeping_close k_time k_done]. destruct H as (_ & _ & _ & Po & Si).
  assert (Q : 1 <= kc_simulation c / kc_policy c). { apply (Rmult_le_reg_r (kc_policy c)); [lra|]. unfold Rdiv. rewrite Rmult_assoc, Rinv_l by lra. lra. }
  assert (Z : (1 <= Rfloor (kc_simulation c / kc_policy c))%Z).
  { pose proof (Rfloor_bounds (kc_simulation c / kc_policy c)) as [_ B]. assert (K : IZR 0 < IZR (Rfloor (kc_simulation c / kc_policy c))) by lra. apply lt_IZR in K. lia. }
  unfold frames_of. lia.
Qed.
Print Assumptions C94_closed_one_frame.

(** ** Letting go of the wheel *)
Lemma default_steers : steering_only keeping_default.
Proof. unfold steering_only. cbn. repeat split; lra. Qed.
Definition straight_ahead (s : R) (k : keeper) : Prop :=
  steady (k_ego k) /\ facing (v_heading (b_base (k_ego k))) = (65 / sqrt 5450, -35 / sqrt 5450) /\ b_lateral (k_ego k) = 0 /\ b_yaw (k_ego k) = 0 /\
  k_done k = false /\ straight_progress (where_is k) = s /\ straight_offset (where_is k) = -4.
Lemma zero_step n1 n2 k k' out s : lane_state k -> straight_ahead s k -> keeping_step keeping_default [0] n1 n2 k = Ok (k', out) -> straight_ahead (s + 83/100) k'.
Proof.
  intros L (S & Hh & La & Ya & Dn & Ps & Po) E. pose proof E as E0.
  unfold keeping_step in E. apply bind_ok in E as (k1 & E1 & E). apply bind_ok in E as (k2 & E2 & E). cbv zeta in E. apply bind_ok in E as (k3 & E3 & E). apply bind_ok in E as (r & E4 & E). injection E as -> _.
  assert (G : k_ego k1 = k_ego k /\ k_done k1 = false).
  { unfold next_target in E1. destruct (k_lanes k); [injection E1 as <-; easy|]. destruct (k_lane k); [|discriminate E1]. destruct (on_lane _ _ _ _ _); injection E1 as <-; easy. }
  destruct G as [G1 G2]. unfold keeping_act, continuous_command in E2.
  assert (Z : lmap (Rclip 0 (-1) 1) (-1, 1) (- PI / 3, PI / 3) = Ok 0).
  { rewrite Rclip_id by lra. unfold lmap, pydiv. cbn [fst snd]. rewrite (proj2 (Reqb_false _ _)) by lra. cbn [bind]. f_equal. field. }
  cbn [keeping_default kc_action ca_clip ca_longitudinal ca_lateral ca_steering andb map nth_error bind] in E2. rewrite Z in E2. cbn [bind] in E2. injection E2 as <-.
  unfold keeping_simulate, pydiv in E3. cbn [keeping_default kc_policy kc_simulation kc_record] in E3. rewrite (proj2 (Reqb_false _ _)) in E3 by lra. cbn [bind] in E3.
  replace (10 / 10) with (IZR 1) in E3 by field. rewrite Rfloor_IZR in E3. change (Z.to_nat 1) with 1%nat in E3. cbn [Nat.eqb] in E3. try (rewrite (proj2 (Reqb_false _ _)) in E3 by lra). cbn [bind keeping_frames] in E3.
  apply bind_ok in E3 as (b & E3 & E5). unfold store_data in E3, E5. cbn [k_ego k_lane k_lanes k_time k_steps k_done k_trajectory] in E3, E5. rewrite G2 in E5. injection E5 as <-. rewrite G1 in E3.
  pose proof E3 as E6. apply steady_step in E6; [|exact S | reflexivity]. destruct E6 as [S' _].
  apply b_step_fields in E3 as (X & Y & H & _ & L' & Y' & _). destruct S as [C V].
  cbn [b_act b_base b_lateral b_yaw] in X, Y, H, L', Y'.
  change (v_speed (set_action (b_base (k_ego k)) 0 0)) with (v_speed (b_base (k_ego k))) in *. change (v_steering (set_action (b_base (k_ego k)) 0 0)) with 0 in *.
  change (v_heading (set_action (b_base (k_ego k)) 0 0)) with (v_heading (b_base (k_ego k))) in *. change (v_pos (set_action (b_base (k_ego k)) 0 0)) with (v_pos (b_base (k_ego k))) in *.
  change (v_crashed (set_action (b_base (k_ego k)) 0 0)) with (v_crashed (b_base (k_ego k))) in *.
  pose proof PI_RGT_0. rewrite C, V, La, Ya in *. rewrite !(Rclip_id 0) in * by lra.
  assert (Dz : lateral_derivative (83/10) 0 0 0 = (0, 0)). { assert (F : 1 <= 83/10) by lra. now destruct (lateral_linearised _ F). }
  rewrite Dz in L', Y'. cbn [fst snd] in L', Y'. unfold facing in Hh. injection Hh as Hc Hs. rewrite Hc, Hs in X, Y.
  unfold straight_ahead. cbn [k_ego k_done]. split; [exact S'|]. replace (v_heading (b_base b)) with (v_heading (b_base (k_ego k))) by lra.
  split; [unfold facing; now rewrite Hc, Hs|]. split; [lra|]. split; [lra|]. split; [reflexivity|].
  unfold where_is in *. cbn [k_ego]. destruct root5450 as [Q Qp]. unfold straight_progress, straight_offset in *. rewrite X, Y. set (n := sqrt 5450) in *. clearbody n.
  set (x := fst (v_pos (b_base (k_ego k)))) in *. set (y := snd (v_pos (b_base (k_ego k)))) in *. split.
  - rewrite <- Ps. apply (Rmult_eq_reg_l (n * n)); [|nra].
    transitivity (n * (65 * (x - 50) - 35 * (y - 50)) + 83/100 * (65 * 65 + 35 * 35)); [field; lra|].
    transitivity (n * (65 * (x - 50) - 35 * (y - 50)) + 83/100 * (n * n)); [rewrite Q; ring | field; lra].
  - rewrite <- Po. field. lra.
Qed.
Lemma ahead_run : forall k inputs tr, keeping_run keeping_default k inputs tr -> (forall a n1 n2, In (a, n1, n2) inputs -> a = [0]) -> forall s, lane_state k -> straight_ahead s k ->
  forall j kj, nth_error (k :: map fst tr) j = Some kj -> straight_ahead (s + INR j * (83/100)) kj.
Proof.
  intros k inputs tr D. induction D as [k|k a n1 n2 inputs k1 out tr E D IH]; intros Za s L A j kj Hj.
  - destruct j as [|j]; [|destruct j; discriminate]. injection Hj as <-. cbn [INR]. replace (s + 0 * (83/100)) with s by ring. exact A.
  - destruct j as [|j]. { injection Hj as <-. cbn [INR]. replace (s + 0 * (83/100)) with s by ring. exact A. }
    assert (a = [0]) by (apply (Za a n1 n2); now left). subst a. pose proof (zero_step _ _ _ _ _ _ L A E) as A1.
    destruct (keeping_step_run keeping_default 0 [] n1 n2 k default_steers (proj1 A) L) as (k1' & r1 & st & E' & _ & _ & L' & _). rewrite E' in E. injection E as <- _.
    rewrite S_INR. replace (s + (INR j + 1) * (83/100)) with (s + 83/100 + INR j * (83/100)) by ring.
    apply IH; [intros; eapply Za; right; eassumption | exact L' | exact A1 | exact Hj].
Qed.
Lemma ahead_on s k : straight_ahead s k -> 50 <= s -> (on_segment (where_is k) <-> s < sqrt 5450 + 5).
Proof.
  intros (_ & _ & _ & _ & _ & P & O) Hs. unfold on_segment. rewrite P, O. replace (Rabs (-4)) with 4 by (rewrite Rabs_left; lra). split; [lra|]. intros; split; lra.
Qed.
(** With the default configuration and the wheel straight, the reward is 0.84 for the first
    35 steps; then the target is the sine curve although the vehicle has not moved sideways. *)
Theorem C94_coasting : forall m1 m2 tr0 k o inputs tr, keeping_reset keeping_default tr0 m1 m2 = Ok (k, o) ->
  (forall a n1 n2, In (a, n1, n2) inputs -> a = [0]) -> keeping_run keeping_default k inputs tr ->
  forall i k' obs r t, nth_error tr i = Some (k', (obs, r, t)) ->
    straight_progress (where_is k') = 50 + INR (i + 1) * (83/100) /\ straight_offset (where_is k') = -4 /\
    ((i < 35)%nat -> r = 84/100) /\ ((35 <= i)%nat -> r = 1 - (sine_offset (where_is k') / 10) ^ 2).
Proof.
  intros m1 m2 tr0 k o inputs tr E Za D i k' obs r t Hi.
  destruct (reset_facts keeping_default tr0 m1 m2 eq_refl) as (k0 & o0 & E0 & S & P & O & Hh & La & Ya & _ & _ & Dn & _ & L1 & L2).
  rewrite E0 in E. injection E as -> ->.
  assert (A0 : straight_ahead 50 k) by (unfold straight_ahead; tauto).
  pose proof (ahead_run k inputs tr D Za 50 ltac:(left; easy) A0) as AR.
  assert (Ak : straight_ahead (50 + INR (i + 1) * (83/100)) k').
  { apply AR. replace (i + 1)%nat with (Datatypes.S i) by lia. cbn [nth_error]. rewrite nth_error_map, Hi. reflexivity. }
  pose proof Ak as (_ & _ & _ & _ & _ & Pk & Ok'). split; [exact Pk|]. split; [exact Ok'|].
  destruct root5450 as [Q Qp].
  assert (Qr : 738/10 < sqrt 5450 < 73825/1000) by (split; apply Rnot_le_lt; intros X; nra).
  destruct (C94_reward keeping_default tr0 m1 m2 k o inputs tr default_steers E0 D i k' obs r t Hi) as (R1 & R2 & _).
  split; intros Hlt.
  - rewrite R1; [rewrite Ok'; field|]. intros j kj Hj Hn. apply (ahead_on _ _ (AR j kj Hn)); [pose proof (pos_INR j); lra|].
    assert (J : INR j <= 34) by (replace 34 with (INR 34) by (cbn; ring); apply le_INR; lia). lra.
  - apply R2. assert (X : exists kj, nth_error (k :: map fst tr) 35 = Some kj).
    { assert (Ln : (35 < List.length (k :: map fst tr))%nat). { cbn [List.length]. rewrite map_length. apply le_n_S. apply Nat.lt_le_incl. apply Nat.le_lt_trans with i; [lia|]. apply nth_error_Some. now rewrite Hi. }
      destruct (nth_error (k :: map fst tr) 35) as [kj|] eqn:En; [now exists kj|]. apply nth_error_None in En. lia. }
    destruct X as [kj Hn]. exists 35%nat, kj. split; [lia|]. split; [exact Hn|]. rewrite (ahead_on _ _ (AR 35%nat kj Hn)); replace (INR 35) with 35 by (cbn; ring); lra.
Qed.
Print Assumptions C94_coasting.
Example C94_nonvacuous : forall n, steering_only keeping_default /\ exists k o tr,
  keeping_reset keeping_default [] [0; 0; 0; 0] [0; 0; 0; 0] = Ok (k, o) /\ lane_state k /\
  v_crashed (b_base (k_ego k)) = false /\ v_speed (b_base (k_ego k)) = 83/10 /\ on_segment (where_is k) /\
  near (5/100) [0; 0; 0; 0] [0; 0; 0; 0] /\
  keeping_run keeping_default k (repeat ([0], [0; 0; 0; 0], [0; 0; 0; 0]) n) tr /\ List.length tr = n.
Proof.
  intros n. split; [exact default_steers|].
  destruct (reset_facts keeping_default [] [0; 0; 0; 0] [0; 0; 0; 0] eq_refl) as (k & o & E & [C V] & P & O & _ & _ & _ & _ & _ & _ & _ & L1 & L2).
  exists k, o. destruct (C94_any_actions keeping_default [] [0; 0; 0; 0] [0; 0; 0; 0] k o (repeat ([0], [0; 0; 0; 0], [0; 0; 0; 0]) n) default_steers E) as [tr T].
  { intros a n1 n2 Hi. apply repeat_spec in Hi. injection Hi as -> _ _. discriminate. }
  exists tr. split; [exact E|]. split; [left; easy|]. split; [exact C|]. split; [exact V|].
  split. { unfold on_segment. rewrite P, O. destruct root5450. rewrite Rabs_left by lra. lra. }
  split. { unfold near. repeat (apply Forall2_cons; [rewrite Rminus_0_r, Rabs_R0; lra|]). apply Forall2_nil. }
  split; [exact T|]. assert (Len : forall q ins t, keeping_run keeping_default q ins t -> List.length t = List.length ins).
  { intros q ins t Dd. induction Dd; [reflexivity | cbn; now f_equal]. }
  rewrite (Len _ _ _ T). apply repeat_length.
Qed.
