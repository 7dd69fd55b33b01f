(** Proofs about the lane-keeping environment. *)
From Verif Require Import Prelude M_Utils M_Lane M_Road M_Vehicle M_Kinematics M_Control M_Action M_Env M_Interval M_Bicycle M_Nets M_Scenes M_Reset M_Keeping
  S_Geometry S_Road S_Vehicle S_Bicycle S_Joined S_Reset S_Keeping P_Base P_Utils P_Lane P_Graph P_Kin P_Bicycle P_Reset P_Joined.
From Coq Require Import Lia Lra.
Open Scope R_scope.

Lemma root5450 : sqrt 5450 * sqrt 5450 = 5450 /\ 73 < sqrt 5450 < 74.
Proof.
  assert (N : sqrt 5450 * sqrt 5450 = 5450) by (apply sqrt_def; lra). split; [exact N|].
  split; apply Rnot_le_lt; intros H; pose proof (sqrt_pos 5450); nra.
Qed.
Lemma straight_frame : let n := sqrt 5450 in
  vnorm (vsub (115, 15) (50, 50)) = n /\ straight_dir (50, 50) (115, 15) = (65 / n, - 35 / n) /\
  (forall s d, straight_position (50, 50) (115, 15) s d = (50 + s * (65 / n) + d * (35 / n), 50 - s * (35 / n) + d * (65 / n))) /\
  facing (straight_heading (50, 50) (115, 15)) = (65 / n, - 35 / n).
Proof.
  destruct root5450 as [N Np]. cbv zeta. set (n := sqrt 5450) in *. clearbody n.
  destruct (along_lane (50, 50) (115, 15) (65 / n, - 35 / n) n) as (A & B & C & D).
  - unfold vadd, vscal. cbn [fst snd]. f_equal; field; lra.
  - cbn [fst snd]. apply (Rmult_eq_reg_l (n * n)); [|nra]. transitivity (65 * 65 + 35 * 35); [field|]; lra.
  - lra.
  - split; [exact A|]. split; [exact B|]. split; [|exact C]. intros s d. rewrite D. cbn [fst snd]. f_equal; field; lra.
Qed.
Lemma straight_local_eq p : l_local lane_keeping_straight p = (straight_progress p, straight_offset p).
Proof.
  destruct root5450 as [_ Np]. destruct straight_frame as (_ & D & _). unfold l_local. cbn [lane_keeping_straight straight_lane l_geom geom_local].
  unfold straight_local, straight_lat. rewrite D. unfold vdot, vsub, straight_progress, straight_offset. cbn [fst snd]. f_equal; field; lra.
Qed.
Lemma straight_length : l_length lane_keeping_straight = sqrt 5450.
Proof. destruct straight_frame as (A & _). exact A. Qed.
Lemma straight_at s d : l_position lane_keeping_straight s d = (50 + s * (65 / sqrt 5450) + d * (35 / sqrt 5450), 50 - s * (35 / sqrt 5450) + d * (65 / sqrt 5450)).
Proof. destruct straight_frame as (_ & _ & P & _). apply P. Qed.
Lemma sine_local_eq p : l_local lane_keeping_sine p = (fst p, sine_offset p).
Proof.
  unfold l_local. cbn [lane_keeping_sine sine_lane l_geom geom_local].
  destruct (along_lane (0, 0) (500, 0) (1, 0) 500) as (_ & D & _); [unfold vadd, vscal; cbn [fst snd]; f_equal; ring|cbn [fst snd]; ring|lra|].
  unfold straight_local, straight_lat. rewrite D. unfold vdot, vsub, sine_offset. cbn [fst snd].
  replace ((fst p - 0) * 1 + (snd p - 0) * 0) with (fst p) by ring.
  replace ((fst p - 0) * - 0 + (snd p - 0) * 1) with (snd p) by ring.
  replace (2 * PI / 100 * fst p + 0) with (2 * PI * fst p / 100) by field. reflexivity.
Qed.
Lemma on_straight_iff p : on_lane lane_keeping_straight p None None 0 = true <-> on_segment p.
Proof.
  rewrite on_lane_iff by (now left). rewrite straight_local_eq, straight_length. cbn [fst snd].
  cbn [lane_keeping_straight straight_lane l_width]. unfold on_segment. replace (10 / 2 + 0) with 5 by field. tauto.
Qed.
Lemma on_segment_dec p : on_segment p \/ ~ on_segment p.
Proof. rewrite <- on_straight_iff. destruct (on_lane _ _ _ _ _); [now left | right; easy]. Qed.
Lemma keeping_net_built : built lane_keeping_net /\ lane_keeping_net <> [].
Proof. split; [eexists; reflexivity|]. intros H. apply (f_equal (fun g => List.length g)) in H. discriminate H. Qed.
Lemma keeping_cd : get_lane lane_keeping_net ("c", "d", Some 0%Z)%string = Ok lane_keeping_straight.
Proof. reflexivity. Qed.

Lemma b_step_accel g rec b dt b' : b_step g rec b dt = Ok b' ->
  v_accel (b_base b') = v_accel (b_base (b_clip_actions b)) /\ v_steering (b_base b') = v_steering (b_base (b_clip_actions b)).
Proof.
  intros E. unfold b_step in E. apply bind_ok in E as (w & E & F). injection F as <-.
  apply on_state_update_ok in E as (i & _ & ->). destruct rec; split; reflexivity.
Qed.
(** Steady: cruising at 8.3 m/s, not crashed. *)
Definition steady (b : bicycle) : Prop := v_crashed (b_base b) = false /\ v_speed (b_base b) = 83/10.
Lemma steady_step g rec b dt b' : b_step g rec b dt = Ok b' -> steady b -> v_accel (b_base b) = 0 -> steady b' /\ v_accel (b_base b') = 0.
Proof.
  intros E [C S] A. pose proof (b_step_accel _ _ _ _ _ E) as [A' _]. apply b_step_fields in E as (_ & _ & _ & Sp & _ & _ & Cr).
  rewrite b_accel_within in * by (easy || lra). unfold steady. rewrite Cr, Sp, A', A, C, S. repeat split; lra.
Qed.
Lemma frames_run rec dt : forall n k, steady (k_ego k) -> v_accel (b_base (k_ego k)) = 0 -> exists k', keeping_frames rec dt n k = Ok k' /\
  steady (k_ego k') /\ k_lane k' = k_lane k /\ k_lanes k' = k_lanes k /\ k_steps k' = k_steps k /\ k_done k' = k_done k /\
  k_trajectory k' = k_trajectory k /\ k_time k' = (k_time k + Z.of_nat (if k_done k then Nat.min n 1 else n))%Z.
Proof.
  destruct keeping_net_built as [B N].
  induction n as [|n IH]; intros k S A.
  - exists k. cbn [keeping_frames]. repeat (split; [easy|]). destruct (k_done k); cbn; lia.
  - cbn [keeping_frames]. destruct (b_step_total lane_keeping_net rec (k_ego k) dt) as [b E]; [now apply wf_built | easy|].
    rewrite E. cbn [bind k_done]. destruct (steady_step _ _ _ _ _ E S A) as [S' A'].
    destruct (k_done k) eqn:D.
    + eexists. split; [reflexivity|]. cbn [k_ego k_lane k_lanes k_steps k_done k_trajectory k_time]. repeat (split; [easy|]). destruct n; reflexivity.
    + destruct (IH (Keeper b (k_lane k) (k_lanes k) (k_time k + 1) (k_steps k) false (k_trajectory k)) S' A') as (k' & F & S2 & L1 & L2 & P & Dn & T & Ti).
      exists k'. split; [exact F|]. cbn [k_ego k_lane k_lanes k_steps k_done k_trajectory k_time] in *.
      repeat (split; [easy|]). rewrite Ti. lia.
Qed.
(** The number of frames of one step. *)
Definition frames_of (c : keeping_config) : nat := Z.to_nat (Rfloor (kc_simulation c / kc_policy c)).
Lemma simulate_run c k : 0 < kc_policy c -> 0 < kc_simulation c -> steady (k_ego k) -> v_accel (b_base (k_ego k)) = 0 -> exists k', keeping_simulate c k = Ok k' /\
  steady (k_ego k') /\ k_lane k' = k_lane k /\ k_lanes k' = k_lanes k /\ k_steps k' = k_steps k /\ k_done k' = k_done k /\
  k_trajectory k' = k_trajectory k /\ k_time k' = (k_time k + Z.of_nat (if k_done k then Nat.min (frames_of c) 1 else frames_of c))%Z.
Proof.
  intros P Sm S A. unfold keeping_simulate, pydiv. rewrite (proj2 (Reqb_false _ _)) by lra. cbn [bind]. fold (frames_of c).
  destruct (Nat.eqb (frames_of c) 0) eqn:E.
  - apply Nat.eqb_eq in E. exists k. rewrite E. repeat (split; [easy|]). destruct (k_done k); cbn; lia.
  - rewrite (proj2 (Reqb_false _ _)) by lra. cbn [bind]. now apply frames_run.
Qed.
Lemma steer_command cf a x : ca_longitudinal cf = false -> ca_lateral cf = true -> exists st, continuous_command cf (a :: x) = Ok (Controls 0 st).
Proof.
  intros L T. unfold continuous_command. rewrite L. cbn [andb].
  destruct (ca_clip cf); cbn [map nth_error bind]; unfold lmap, pydiv; cbn [fst snd]; rewrite (proj2 (Reqb_false _ _)) by lra; cbn [bind]; eexists; reflexivity.
Qed.
(** The lane state: on the segment, or on the sine for ever. *)
Definition lane_state (k : keeper) : Prop :=
  (k_lane k = Some lane_keeping_straight /\ k_lanes k = [lane_keeping_sine]) \/ (k_lane k = Some lane_keeping_sine /\ k_lanes k = []).
Lemma keeping_step_run c a x n1 n2 k : steering_only c -> steady (k_ego k) -> lane_state k ->
  exists k' r st, keeping_step c (a :: x) n1 n2 k = Ok (k', (keeping_observe (Keeper (b_act (k_ego k) st 0) (k_lane k') (k_lanes k') 0 0 false []) n1 n2, r, false)) /\
    continuous_command (kc_action c) (a :: x) = Ok (Controls 0 st) /\
    steady (k_ego k') /\ lane_state k' /\ k_steps k' = k_steps k /\ k_done k' = k_done k /\
    k_trajectory k' = (k_trajectory k ++ [b_state (k_ego k)])%list /\
    k_time k' = (k_time k + Z.of_nat (if k_done k then Nat.min (frames_of c) 1 else frames_of c))%Z /\
    ((k_lanes k = [] \/ ~ on_segment (where_is k) /\ k_lanes k = [lane_keeping_sine]) /\ k_lane k' = Some lane_keeping_sine /\ k_lanes k' = [] /\ r = 1 - (sine_offset (where_is k') / 10) ^ 2 \/
     k_lanes k = [lane_keeping_sine] /\ on_segment (where_is k) /\ k_lane k' = Some lane_keeping_straight /\ k_lanes k' = [lane_keeping_sine] /\ r = 1 - (straight_offset (where_is k') / 10) ^ 2).
Proof.
  intros (Lo & La & Dy & Po & Si) S L.
  assert (X : exists k1, next_target k = Ok k1 /\ k_ego k1 = k_ego k /\ k_steps k1 = k_steps k /\ k_done k1 = k_done k /\ k_trajectory k1 = k_trajectory k /\ k_time k1 = k_time k /\
    ((k_lanes k = [] \/ ~ on_segment (where_is k) /\ k_lanes k = [lane_keeping_sine]) /\ k_lane k1 = Some lane_keeping_sine /\ k_lanes k1 = [] \/
     k_lanes k = [lane_keeping_sine] /\ on_segment (where_is k) /\ k_lane k1 = Some lane_keeping_straight /\ k_lanes k1 = [lane_keeping_sine])).
  { unfold next_target. destruct L as [[L1 L2]|[L1 L2]]; rewrite L1, L2.
    - destruct (on_lane lane_keeping_straight (v_pos (b_base (k_ego k))) None None 0) eqn:O.
      + apply on_straight_iff in O. exists k. repeat (split; [easy|]). right. easy.
      + assert (~ on_segment (where_is k)) by (rewrite <- on_straight_iff; unfold where_is; rewrite O; discriminate).
        eexists. split; [reflexivity|]. cbn [k_ego k_lane k_lanes k_steps k_done k_trajectory k_time]. repeat (split; [easy|]). left. split; [now right | easy].
    - exists k. repeat (split; [easy|]). left. split; [now left | easy]. }
  destruct X as (k1 & E1 & Eg & Es & Ed & Et & Ec & Cs).
  destruct (steer_command (kc_action c) a x Lo La) as [st E2].
  unfold keeping_step. rewrite E1. cbn [bind]. unfold keeping_act. rewrite E2. cbn [bind].
  set (k2 := Keeper (b_act (k_ego (store_data k1)) st 0) (k_lane (store_data k1)) (k_lanes (store_data k1)) (k_time (store_data k1)) (k_steps (store_data k1)) (k_done (store_data k1)) (k_trajectory (store_data k1))).
  destruct (simulate_run c k2 Po Si) as (k3 & E3 & S3 & A & B & Cc & D & T & Ti).
  { unfold k2, store_data. cbn [k_ego]. rewrite Eg. exact S. }
  { reflexivity. }
  rewrite E3. cbn [bind]. unfold k2, store_data in A, B, Cc, D, T, Ti. cbn [k_ego k_lane k_lanes k_steps k_done k_trajectory k_time] in A, B, Cc, D, T, Ti.
  assert (W : exists r, lane_keeping_reward (k_lane k3) (b_base (k_ego k3)) = Ok r /\
    (k_lane k3 = Some lane_keeping_sine -> r = 1 - (sine_offset (where_is k3) / 10) ^ 2) /\ (k_lane k3 = Some lane_keeping_straight -> r = 1 - (straight_offset (where_is k3) / 10) ^ 2)).
  { unfold lane_keeping_reward. rewrite A. destruct Cs as [(_ & -> & _)|(_ & _ & -> & _)]; cbn [lane_keeping_sine lane_keeping_straight sine_lane straight_lane l_width]; unfold pydiv;
      rewrite (proj2 (Reqb_false _ _)) by lra; cbn [bind]; eexists; (split; [reflexivity|]).
    - change (sine_lane (0, 0) (500, 0) 5 (2 * PI / 100) 0 10 (LStriped, LStriped) false) with lane_keeping_sine. rewrite sine_local_eq. split; [intros _; reflexivity|]. intros F. exfalso. discriminate F.
    - change (straight_lane (50, 50) (115, 15) 10 (LStriped, LStriped) false 20 0) with lane_keeping_straight. rewrite straight_local_eq. split; [|intros _; reflexivity]. intros F. exfalso. discriminate F. }
  destruct W as (r & E4 & W1 & W2). rewrite E4. cbn [bind]. exists k3, r, st.
  split.
  { do 4 f_equal. unfold keeping_observe, reference_state, k2, store_data. cbn [k_ego k_lane]. rewrite A, Eg. reflexivity. }
  split; [reflexivity|]. split; [exact S3|]. split.
  { unfold lane_state. rewrite A, B. destruct Cs as [(_ & ? & ?)|(_ & _ & ? & ?)]; [right | left]; easy. }
  rewrite Cc, D, T, Ti, Es, Ed, Et, Ec, Eg. repeat (split; [easy|]).
  rewrite B. destruct Cs as [(H & H1 & H2)|(H & H1 & H2 & H3)]; [left | right]; rewrite A in *.
  - split; [exact H|]. split; [exact H1|]. split; [exact H2|]. now apply W1.
  - split; [exact H|]. split; [exact H1|]. split; [exact H2|]. split; [exact H3|]. now apply W2.
Qed.
