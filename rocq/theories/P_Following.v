(** Proofs about car following. *)
From Verif Require Import Prelude M_Utils M_Lane M_Road M_Vehicle M_Kinematics M_Control M_Behavior
  S_Geometry S_Road S_Vehicle S_Control S_Behavior S_Following P_Base P_Utils P_Lane P_Graph P_Bfs P_Query P_Kin P_Crash P_Control P_Behavior P_Traffic.
From Coq Require Import Lia Lra Psatz.
Open Scope R_scope.

Definition braking_room (h v u : R) : R := v * v / 12 + v * h / 2 - (u * u / 12 + u * h / 2).
Definition keeps_room (h x v u : R) : Prop :=
  (0 <= v -> 27/5 <= x /\ 27/5 + braking_room h v u <= x) /\ (v < 0 -> 27/5 - h * h <= x).
Lemma q_bounds : 12907/100000 <= / (2 * sqrt 15) <= 1292/10000.
Proof.
  assert (A : 3872/1000 <= sqrt 15 <= 38730/10000).
  { split; [apply Rsqr_incr_0; unfold Rsqr; [rewrite sqrt_sqrt by lra; lra | lra | apply sqrt_pos]
           | apply Rsqr_incr_0; unfold Rsqr; [rewrite sqrt_sqrt by lra; lra | apply sqrt_pos | lra]]. }
  split; (apply (Rmult_le_reg_r (2 * sqrt 15)); [lra | rewrite Rinv_l by lra; lra]).
Qed.
Lemma wb_mono u w h : 0 <= u -> 0 <= h -> u - 6 * h <= w -> 0 <= w -> u * u / 12 - u * h / 2 <= w * w / 12 + w * h / 2.
Proof.
  intros Hu Hh Hw H0. destruct (Rle_lt_dec (6 * h) u) as [L|L].
  - replace (u * u / 12 - u * h / 2) with ((u - 6*h) * (u - 6*h) / 12 + (u - 6*h) * h / 2) by field.
    assert ((u - 6*h) * (u - 6*h) <= w * w) by (apply Rmult_le_compat; lra). assert ((u - 6*h) * h <= w * h) by (apply Rmult_le_compat_r; lra). lra.
  - assert (u * (u - 6*h) <= 0) by nra. assert (0 <= w * w) by nra. assert (0 <= w * h) by (apply Rmult_le_pos; lra). lra.
Qed.
Lemma w_mono v v' h a : 0 <= v' -> v' <= v + a * h -> 0 <= h -> v' * v' / 12 + v' * h / 2 <= v * v / 12 + v * (a * h) / 6 + a * h * (a * h) / 12 + v * h / 2 + a * h * h / 2.
Proof.
  intros H0 H1 Hh. set (b := a * h) in *. replace (v * v / 12 + v * b / 6 + b * b / 12 + v * h / 2 + b * h / 2) with ((v + b) * (v + b) / 12 + (v + b) * h / 2) by field.
  assert (v' * v' <= (v + b) * (v + b)) by (apply Rmult_le_compat; lra). assert (v' * h <= (v + b) * h) by (apply Rmult_le_compat_r; lra). lra.
Qed.
(** full braking *)
Lemma room_full h x v u u' : 0 < h <= 1/15 -> 0 <= v -> 0 <= u -> 0 <= u' -> u - 6 * h <= u' ->
  27/5 <= x -> 27/5 + braking_room h v u <= x -> keeps_room h (x + (u - v) * h) (v - 6 * h) u'.
Proof.
  unfold keeps_room, braking_room. intros Hh Hv Hu Hu' Hl Hx Hr. pose proof (wb_mono u u' h Hu ltac:(lra) Hl Hu') as Wb.
  assert (A : v <= u -> 0 <= (u - v) * h) by (intros; apply Rmult_le_pos; lra). split; intros Hv'.
  - split; [|replace ((v - 6*h) * (v - 6*h) / 12 + (v - 6*h) * h / 2) with (v * v / 12 - v * h / 2) by field; lra].
    destruct (Rle_lt_dec v u) as [L|L]; [specialize (A L); lra|].
    assert (0 <= (v - u) * (v + u - 6 * h)) by (apply Rmult_le_pos; lra). lra.
  - destruct (Rle_lt_dec v u) as [L|L]; [specialize (A L); assert (0 <= h * h) by nra; lra|].
    assert (Q : v * v / 12 + v * h / 2 - (u * u / 12 + u * h / 2) - (v - u) * h >= - (h * h)).
    { assert (0 <= u * (6 * h - u)) by (apply Rmult_le_pos; lra). pose proof (Rle_0_sqr (v - 3 * h)) as S1. pose proof (Rle_0_sqr h) as S2. unfold Rsqr in S1, S2. apply Rle_ge. lra. }
    lra.
Qed.
(** otherwise *)
Lemma room_soft h x v u u' a : 0 < h <= 1/15 -> 0 <= v <= 30 -> 0 <= u -> 0 <= u' -> u - 6 * h <= u' ->
  27/5 <= x -> a <= 3 -> -6 <= a -> (28 <= v -> a <= 75/100) -> 10 + v * (3/2) + v * (v - u) * / (2 * sqrt 15) <= 17321/10000 * x ->
  keeps_room h (x + (u - v) * h) (v + a * h) u'.
Proof.
  unfold keeps_room, braking_room. intros Hh Hv Hu Hu' Hl Hx Ha Ha6 Ha28 Hs. pose proof (wb_mono u u' h Hu ltac:(lra) Hl Hu') as Wb.
  pose proof q_bounds as Q. set (q := / (2 * sqrt 15)) in *. clearbody q.
  assert (Vh : 0 <= v * h <= v / 15) by nra. assert (Uh : 0 <= u * h <= u / 15) by nra.
  assert (Hh2 : 0 <= h * h <= 1/225) by nra.
  set (b := Rmax a 0).
  assert (Wv : 0 <= v + a * h -> (v + a * h) * (v + a * h) / 12 + (v + a * h) * h / 2 <= v * v / 12 + v * h / 2 + v * h * (b / 6) + 9/4 * (h * h)).
  { intros H0. assert (Hb : 0 <= b <= 3) by (unfold b, Rmax; destruct Rle_dec; lra). assert (a <= b) by (unfold b; apply Rmax_l).
    assert (AB : a * h <= b * h) by (apply Rmult_le_compat_r; lra). pose proof (w_mono v (v + a * h) h b H0 ltac:(lra) ltac:(lra)) as W.
    assert (B1 : b * (h * h) <= 3 * (h * h)) by (apply Rmult_le_compat_r; lra). assert (B2 : b * b * (h * h) <= 9 * (h * h)) by (apply Rmult_le_compat_r; nra).
    replace (v * (b * h) / 6) with (v * h * (b / 6)) in W by field. replace (b * h * (b * h) / 12) with (b * b * (h * h) / 12) in W by field. replace (b * h * h / 2) with (b * (h * h) / 2) in W by field. lra. }
  destruct (Rle_lt_dec (v + 9 * h) u) as [L|L].
  - (* leader clearly faster *)
    assert (0 <= (u - v) * h) by (apply Rmult_le_pos; lra). split; [|intros; lra]. intros H0. split; [lra|].
    assert (AH : a * h <= 3 * h) by (apply Rmult_le_compat_r; lra).
    assert (v + a * h <= u') by lra. assert ((v + a * h) * (v + a * h) <= u' * u') by (apply Rmult_le_compat; lra).
    assert ((v + a * h) * h <= u' * h) by (apply Rmult_le_compat_r; lra). lra.
  - assert (Hb : 0 <= b <= 3) by (unfold b, Rmax; destruct Rle_dec; lra).
    assert (Vb : v * h * (3/2 + b/6) <= v / 15 * (3/2 + b/6)) by (apply Rmult_le_compat_r; lra).
    assert (Main : 577/100 + v * (8/10) <= x /\ 27/5 + v * v / 12 + v * h * (3/2 + b/6) + 9/4 * (h * h) - u * u / 12 <= x).
    { destruct (Rle_lt_dec u v) as [M|M].
      - assert (P : 0 <= v * (v - u)) by (apply Rmult_le_pos; lra).
        assert (PQ : v * (v - u) * (12907/100000) <= v * (v - u) * q) by (apply Rmult_le_compat_l; lra).
        assert (X : 5773/1000 + v * (8659/10000) + v * (v - u) * (7451/100000) <= x) by lra.
        split; [lra|].
        assert (Y : 27/5 + 1/100 + v * v / 12 + v / 15 * (3/2 + b/6) - u * u / 12 <= 5773/1000 + v * (8659/10000) + v * (v - u) * (7451/100000)); [|lra].
        pose proof (Rle_0_sqr (u - 44706/100000 * v)) as Sq. unfold Rsqr in Sq.
        destruct (Rle_lt_dec 28 v) as [V|V].
        + assert (b <= 75/100) by (unfold b, Rmax; destruct Rle_dec; lra).
          assert (v / 15 * (b / 6) <= v / 15 * (75/600)) by (apply Rmult_le_compat_l; lra).
          assert (v * v <= v * 30) by (apply Rmult_le_compat_l; lra). lra.
        + assert (v / 15 * (b / 6) <= v / 15 * (3/6)) by (apply Rmult_le_compat_l; lra).
          assert (v * v <= v * 28) by (apply Rmult_le_compat_l; lra). lra.
      - assert (P : 0 <= v * (u - v) <= v * (9 * h)) by (split; [apply Rmult_le_pos | apply Rmult_le_compat_l]; lra).
        assert (PQ : v * (u - v) * q <= v * (u - v) * (1292/10000)) by (apply Rmult_le_compat_l; lra).
        assert (X : 577/100 + v * (8/10) <= x) by lra. split; [exact X|].
        assert (v * v <= u * u) by (apply Rmult_le_compat; lra).
        assert (v / 15 * (b / 6) <= v / 15 * (3/6)) by (apply Rmult_le_compat_l; lra). lra. }
    destruct Main as [X0 Main].
    assert (G1 : 27/5 <= x + (u - v) * h) by lra.
    split; [|intros; lra]. intros H0. split; [exact G1|]. specialize (Wv H0). lra.
Qed.
(** reversing *)
Lemma room_back h x v u u' a : 0 < h <= 1/15 -> v < 0 -> 0 <= u -> 0 <= u' -> 27/5 - h * h <= x -> (-40 <= v -> a <= 3) -> (v < -40 -> a <= 6 \/ a = 40 - v) ->
  (-1 <= v -> 0 < a -> 8 <= x) -> keeps_room h (x + (u - v) * h) (v + a * h) u'.
Proof.
  unfold keeps_room, braking_room. intros Hh Hv Hu Hu' Hx Ha Hb Hc. assert (0 <= (u - v) * h) by (apply Rmult_le_pos; lra). split; [|intros; lra].
  intros H0. assert (V : -40 <= v). { destruct (Rle_lt_dec (-40) v) as [L|L]; [exact L|]. destruct (Hb L); nra. }
  specialize (Ha V). assert (-1 <= v) by nra. assert (0 < a) by nra. specialize (Hc H1 H2).
  assert (v + a * h <= 1) by nra. assert (0 <= u' * u') by nra. assert (0 <= u' * h) by (apply Rmult_le_pos; lra).
  split; [lra|]. nra.
Qed.

(** ** What a vehicle sees only depends on where things are *)
Definition same_entity (e e' : entity) : Prop :=
  e_id e' = e_id e /\ e_pos e' = e_pos e /\ e_heading e' = e_heading e /\ e_speed e' = e_speed e /\ is_landmark e' = is_landmark e.
Lemma entities_acted rd rdm : acted rd rdm -> Forall2 same_entity (rd_entities rd) (rd_entities rdm).
Proof.
  intros (_ & O & _ & _ & F). unfold rd_entities. rewrite O. apply Forall2_app.
  - induction F as [|v w l l' Sv F IH]; cbn; [constructor|]. constructor; [|exact IH]. unfold same_vehicle in Sv. unfold same_entity. cbn. tauto.
  - clear O. induction (rd_objects rd) as [|o l IH]; cbn; [constructor|]. constructor; [unfold same_entity; tauto | exact IH].
Qed.
Definition orel (a b : option (R * entity)) : Prop :=
  match a, b with None, None => True | Some (x, e), Some (y, e') => x = y /\ same_entity e e' | _, _ => False end.
Lemma neighbour_step_same l id s a b e e' : same_entity e e' -> orel (fst a) (fst b) -> orel (snd a) (snd b) ->
  orel (fst (neighbour_step l id s a e)) (fst (neighbour_step l id s b e')) /\
  orel (snd (neighbour_step l id s a e)) (snd (neighbour_step l id s b e')).
Proof.
  intros Se Ra Rb. pose proof Se as (E1 & E2 & E3 & E4 & E5). unfold neighbour_step. rewrite E1, E2, E5.
  destruct (negb (Nat.eqb (e_id e) id) && negb (is_landmark e)); [|tauto].
  destruct (l_local l (e_pos e)) as [sv dv]. destruct (negb _); [tauto|]. cbn [fst snd].
  destruct a as [[[sf f]|] [[sr r]|]], b as [[[sf' f']|] [[sr' r']|]]; cbn [fst snd orel] in *; try tauto;
    try (destruct Ra as [Qa Ra]; subst sf'); try (destruct Rb as [Qb Rb]; subst sr');
    repeat match goal with |- context [if ?c then _ else _] => destruct c end; cbn [orel fst snd]; tauto.
Qed.
Lemma neighbour_fold_same l id s es es' : Forall2 same_entity es es' -> forall a b, orel (fst a) (fst b) -> orel (snd a) (snd b) ->
  orel (fst (fold_left (neighbour_step l id s) es a)) (fst (fold_left (neighbour_step l id s) es' b)) /\
  orel (snd (fold_left (neighbour_step l id s) es a)) (snd (fold_left (neighbour_step l id s) es' b)).
Proof.
  induction 1 as [|e e' es es' Se F IH]; intros a b Ra Rb; [tauto|]. cbn [fold_left].
  destruct (neighbour_step_same l id s a b e e' Se Ra Rb) as [H1 H2]. now apply IH.
Qed.
Lemma acted_neighbour rd rdm v f r : acted rd rdm -> neighbour_vehicles rd v None = Ok (Some f, r) ->
  exists f' r', neighbour_vehicles rdm v None = Ok (Some f', r') /\ same_entity f f'.
Proof.
  intros A E. pose proof (entities_acted _ _ A) as F. unfold neighbour_vehicles, neighbours_on in *. destruct A as (An & _). rewrite An.
  apply bind_ok in E as (l & G & E). rewrite G. cbn [bind]. cbv zeta in *.
  destruct (neighbour_fold_same l (v_id v) (fst (l_local l (v_pos v))) _ _ F (None, None) (None, None) Logic.I Logic.I) as [H _].
  destruct (fold_left (neighbour_step l (v_id v) (fst (l_local l (v_pos v)))) (rd_entities rd) (None, None)) as [a b].
  destruct (fold_left (neighbour_step l (v_id v) (fst (l_local l (v_pos v)))) (rd_entities rdm) (None, None)) as [a' b'].
  injection E as E1 _. destruct a as [[x e]|]; [|discriminate E1]. cbn in E1. injection E1 as ->. destruct a' as [[y e']|]; [|destruct H].
  cbn [fst orel] in H. exists e', (option_map snd b'). cbn. tauto.
Qed.

(** ** One frame of a centred follower *)
Lemma follow_act draws rd rd1 rd2 dt i v f r l st en k : road_act draws rd = Ok rd1 -> road_step rd1 dt = Ok rd2 ->
  nth_error (rd_vehicles rd) i = Some v ->
  v_kind v = KIDM -> v_enable_lane_change v = false -> v_crashed v = false ->
  get_lane (rd_net rd) (v_target_lane v) = Ok l -> l_geom l = GStraight st en -> st <> en ->
  snd (l_local l (v_pos v)) = 0 -> v_heading v = straight_heading st en + 2 * PI * IZR k ->
  fst (l_local l (v_pos v)) <= l_length l - 5/2 ->
  neighbour_vehicles rd v None = Ok (Some f, r) ->
  exists v1 w w2, nth_error (rd_vehicles rd1) i = Some v1 /\ vehicle_step (rd_net rd) (rd_record rd) v1 dt = Ok w /\ evolves w w2 /\ nth_error (rd_vehicles rd2) i = Some w2 /\
  v_id w = v_id v /\ v_crashed w = false /\ v_kind w = KIDM /\ v_enable_lane_change w = false /\ v_target_lane w = v_target_lane v /\ v_target_speed w = v_target_speed v /\
  v_par w = v_par v /\ v_heading w = v_heading v /\ l_local l (v_pos w) = (fst (l_local l (v_pos v)) + v_speed v * dt, 0) /\
  exists a, idm_acceleration (rd_net rd) (v_par v) (Some (EV v)) (Some f) = Ok a /\
    let c := Rclip a (- ip_acc_max (v_par v)) (ip_acc_max (v_par v)) in
    v_speed w = v_speed v + (if Rltb 40 (v_speed v) then Rmin c (40 - v_speed v) else if Rltb (v_speed v) (-40) then Rmax c (40 - v_speed v) else c) * dt.
Proof.
  intros A E Nv K El C G Gm N D H Hl Nb. pose proof (road_act_acted _ _ _ A) as (Hn0 & _ & Hr0 & _).
  destruct (road_act_nth _ _ _ _ _ A Nv) as (rdm & v1 & Am & Nm & Av & N1).
  apply road_step_stepped in E as (_ & _ & _ & F & _). destruct (Forall2_nth _ _ _ _ _ F N1) as (w2 & Nw & _ & u & Eu & Ev).
  rewrite Hn0, Hr0 in Eu. exists v1, u, w2. split; [exact N1|]. split; [exact Eu|]. split; [exact Ev|]. split; [exact Nw|]. clear F Hn0 Hr0.
  assert (Eiu : idm_act rdm (draws i) v = Ok v1) by (unfold vehicle_act in Av; rewrite K in Av; exact Av).
  destruct (idm_act_ok _ _ _ _ Eiu C) as (Sm & Ts & Si & _ & f1 & r' & va & vb & sa & a & Hn & Hf & Hp & Hs & Ha & Hv1).
  destruct (acted_neighbour _ _ _ _ _ Am Nb) as (f2 & r2 & Hn2 & Sf). rewrite Hn2 in Hn. injection Hn as <- <-.
  assert (Gm' : rd_net rdm = rd_net rd) by apply Am. rewrite Gm' in *.
  assert (AE : after_end l (v_pos v) None = false) by (unfold after_end; apply Rltb_ge; unfold LANE_VEHICLE_LENGTH; exact Hl).
  assert (F1 : follow_road (rd_net rd) (draws i) v = Ok v) by (unfold follow_road; rewrite G; cbn [bind]; rewrite AE; reflexivity).
  rewrite F1 in Hf. injection Hf as <-. rewrite El in Hp. injection Hp as <-.
  unfold idm_steering, steering_control in Hs. rewrite K, G in Hs. cbn [bind] in Hs. rewrite (steering_aligned l st en _ _ _ k Gm D H) in Hs. injection Hs as <-.
  unfold acceleration in Ha. rewrite K in Ha.
  assert (Ha' : idm_acceleration (rd_net rd) (v_par v) (Some (EV v)) (Some f) = Ok a).
  { rewrite <- Ha. unfold idm_acceleration, lane_distance_to, desired_gap, e_velocity, e_direction. destruct Sf as (_ & -> & Eh & Es & _). rewrite Eh, Es. reflexivity. }
  pose proof (step_fields _ _ _ _ _ Eu) as SF. cbv zeta in SF.
  assert (St1 : v_steering v1 = 0) by (rewrite Hv1; cbn; apply Rclip_id; pose proof PI_RGT_0; unfold MAX_STEERING_ANGLE; lra).
  assert (Ac1 : v_accel v1 = Rclip a (- ip_acc_max (v_par v)) (ip_acc_max (v_par v))) by (rewrite Hv1; reflexivity).
  assert (Q1 : v_pos v1 = v_pos v) by (rewrite Hv1; reflexivity). assert (Q2 : v_heading v1 = v_heading v) by (rewrite Hv1; reflexivity).
  assert (Q3 : v_speed v1 = v_speed v) by (rewrite Hv1; reflexivity). assert (Q4 : v_kind v1 = v_kind v) by (rewrite Hv1; reflexivity).
  assert (Q5 : v_enable_lane_change v1 = v_enable_lane_change v) by (rewrite Hv1; reflexivity). assert (Q6 : v_target_lane v1 = v_target_lane v) by (rewrite Hv1; reflexivity).
  assert (Q7 : v_target_speed v1 = v_target_speed v) by (rewrite Hv1; reflexivity). assert (Q8 : v_par v1 = v_par v) by (rewrite Hv1; reflexivity).
  assert (Q9 : v_crashed v1 = false) by (rewrite Hv1; exact C). assert (Q10 : v_id v1 = v_id v) by (rewrite Hv1; reflexivity).
  rewrite St1, Q9, slip_0, Rplus_0_r, sin_0, Q1, Q2, Q3 in SF.
  destruct SF as (P2 & H2 & S2 & C2 & I2 & K2 & _ & TL2 & TS2 & _ & _ & _ & Pa2 & En2 & _).
  split; [congruence|]. split; [congruence|].
  split; [congruence|]. split; [congruence|]. split; [congruence|]. split; [congruence|]. split; [congruence|].
  split; [rewrite H2; unfold V_LENGTH; field|].
  split. { rewrite P2. unfold l_local in *. rewrite Gm in *. cbn [geom_local] in *. apply (straight_advance st en _ _ _ _ k N D H). }
  exists a. split; [exact Ha'|]. cbv zeta. rewrite S2, clipped_cases. cbv zeta. rewrite Q9, Q3, Ac1. reflexivity.
Qed.

Lemma follow_frame draws rd rd1 rd2 dt i v w f r l st en k : road_act draws rd = Ok rd1 -> road_step rd1 dt = Ok rd2 ->
  nth_error (rd_vehicles rd) i = Some v -> nth_error (rd_vehicles rd2) i = Some w ->
  v_kind v = KIDM -> v_enable_lane_change v = false -> v_crashed v = false -> v_crashed w = false ->
  get_lane (rd_net rd) (v_target_lane v) = Ok l -> l_geom l = GStraight st en -> st <> en ->
  snd (l_local l (v_pos v)) = 0 -> v_heading v = straight_heading st en + 2 * PI * IZR k ->
  fst (l_local l (v_pos v)) <= l_length l - 5/2 ->
  neighbour_vehicles rd v None = Ok (Some f, r) ->
  v_kind w = KIDM /\ v_enable_lane_change w = false /\ v_target_lane w = v_target_lane v /\ v_target_speed w = v_target_speed v /\
  v_par w = v_par v /\ v_heading w = v_heading v /\ l_local l (v_pos w) = (fst (l_local l (v_pos v)) + v_speed v * dt, 0) /\
  exists a, idm_acceleration (rd_net rd) (v_par v) (Some (EV v)) (Some f) = Ok a /\
    let c := Rclip a (- ip_acc_max (v_par v)) (ip_acc_max (v_par v)) in
    v_speed w = v_speed v + (if Rltb 40 (v_speed v) then Rmin c (40 - v_speed v) else if Rltb (v_speed v) (-40) then Rmax c (40 - v_speed v) else c) * dt.
Proof.
  intros A E Nv Nw K El C Cw G Gm N D H Hl Nb. destruct (follow_act _ _ _ _ _ _ _ _ _ _ _ _ _ A E Nv K El C G Gm N D H Hl Nb) as (v1 & u & w2 & _ & _ & Ev & Nw2 & _ & _ & R).
  rewrite Nw in Nw2. injection Nw2 as <-. destruct Ev as [-> | (s & -> & _)]; [exact R | discriminate Cw].
Qed.

Lemma pow4_sq y : y ^ 4 = y * y * (y * y). Proof. ring. Qed.
Lemma pow4_mono a b : 0 <= a <= b -> a ^ 4 <= b ^ 4. Proof. intros H. now apply pow_incr. Qed.
Lemma free_le e : is_controlled (v_kind e) = true -> -30 <= v_target_speed e <= 30 -> 0 <= v_speed e ->
  free_acc idm_default e <= 3 * (1 - (v_speed e / 30) ^ 4).
Proof.
  intros C T V. unfold free_acc, target_speed_or_0. rewrite C, Rmax_left by exact V. cbn [ip_comfort_max idm_default].
  set (ts := not_zero (v_target_speed e) not_zero_eps).
  assert (B : 0 < Rabs ts <= 30).
  { unfold ts, not_zero, not_zero_eps. rcase; rbool. { split; [lra | apply Rabs_le; lra]. } rcase; rbool; [rewrite Rabs_pos_eq by lra; lra | rewrite Rabs_left by lra; lra]. }
  assert (M : (v_speed e / 30) ^ 4 <= (v_speed e / ts) ^ 4).
  { replace ((v_speed e / ts) ^ 4) with ((v_speed e / Rabs ts) ^ 4).
    - apply pow4_mono. split; [apply Rmult_le_pos; lra|]. apply Rmult_le_compat_l; [exact V | apply Rinv_le_contravar; lra].
    - assert (ts <> 0) by (intros Q; rewrite Q, Rabs_R0 in B; lra). unfold Rabs. destruct (Rcase_abs ts); field; lra. }
  lra.
Qed.
Lemma clip_le a : Rclip a (-6) 6 <= 6 /\ -6 <= Rclip a (-6) 6 /\ (a <= 3 -> Rclip a (-6) 6 <= Rmax a (-6) /\ Rclip a (-6) 6 <= 3) /\ (a <= -6 -> Rclip a (-6) 6 = -6) /\ (0 < Rclip a (-6) 6 -> 0 < a).
Proof. unfold Rclip, Rmin, Rmax. repeat destruct Rle_dec; lra. Qed.

(** The new speed never exceeds 30. *)
Lemma speed_cap v a h : 0 < h <= 1/15 -> 0 <= v <= 30 -> a <= 3 * (1 - (v / 30) ^ 4) -> -6 <= a -> v + Rclip a (-6) 6 * h <= 30.
Proof.
  intros Hh Hv Ha Hl. rewrite pow4_sq in Ha. set (y := v / 30) in *. assert (Hy : 0 <= y <= 1) by (unfold y; lra). replace v with (30 * y) by (unfold y; lra).
  assert (Y2 : 0 <= y * y <= 1) by nra.
  assert (Y4 : 1 - y * y * (y * y) <= 4 * (1 - y)).
  { replace (1 - y * y * (y * y)) with ((1 - y) * ((1 + y) * (1 + y * y))) by ring. rewrite (Rmult_comm 4). apply Rmult_le_compat_l; [lra|]. assert (y * (y * y) <= 1 * 1) by (apply Rmult_le_compat; lra). lra. }
  assert (Y5 : 0 <= y * y * (y * y)) by (apply Rmult_le_pos; lra).
  assert (Rc : Rclip a (-6) 6 <= 12 * (1 - y)). { destruct (clip_le a) as (_ & _ & H & _). rewrite Rclip_id by lra. lra. }
  assert (Rclip a (-6) 6 * h <= 12 * (1 - y) * h) by (apply Rmult_le_compat_r; lra). assert ((1 - y) * h <= (1 - y) * (1/15)) by (apply Rmult_le_compat_l; lra). lra.
Qed.

Lemma desired_straight e f u H : v_heading e = H -> e_velocity f = vscal u (cos H, sin H) ->
  desired_gap idm_default e f = 10 + v_speed e * (3/2) + v_speed e * (v_speed e - u) * / (2 * sqrt 15).
Proof.
  intros Hh Hf. unfold desired_gap. rewrite Hf. unfold e_velocity, e_direction. cbn [e_heading e_speed]. rewrite Hh.
  replace (- ip_comfort_max idm_default * ip_comfort_min idm_default) with 15 by (cbn; ring).
  unfold vdot, vsub, vscal. cbn [fst snd]. pose proof (sin2_cos2 H) as Q. unfold Rsqr in Q.
  replace ((v_speed e * cos H - u * cos H) * cos H + (v_speed e * sin H - u * sin H) * sin H) with ((v_speed e - u) * (sin H * sin H + cos H * cos H)) by ring.
  rewrite Q. cbn [ip_distance ip_time idm_default]. unfold V_LENGTH. assert (sqrt 15 <> 0) by (apply Rgt_not_eq, sqrt_lt_R0; lra). field. assumption.
Qed.

(** ** The invariant of one frame *)
Lemma following_step h x v u u' free a : 0 < h <= 1/15 -> v <= 30 -> 0 <= u -> 0 <= u' -> u - 6 * h <= u' -> keeps_room h x v u ->
  (0 <= v -> free <= 3 * (1 - (v / 30) ^ 4)) -> free <= 3 ->
  let s := 10 + v * (3/2) + v * (v - u) * / (2 * sqrt 15) in
  a = free - 3 * (s / not_zero x not_zero_eps) ^ 2 ->
  let c := Rclip a (-6) 6 in
  let v' := v + (if Rltb 40 v then Rmin c (40 - v) else if Rltb v (-40) then Rmax c (40 - v) else c) * h in
  v' <= 30 /\ keeps_room h (x + (u - v) * h) v' u'.
Proof.
  intros Hh Hv Hu Hu' Hl I Hf Hf3 s Ea c v'. assert (H2 : 0 <= h * h <= 1/225) by nra.
  assert (Hx : 5 < x). { destruct I as [I1 I2]. destruct (Rle_lt_dec 0 v) as [L|L]; [destruct (I1 L) | specialize (I2 L)]; lra. }
  assert (Nz : not_zero x not_zero_eps = x) by (unfold not_zero, not_zero_eps; rewrite Rabs_pos_eq, Rltb_lt by lra; reflexivity).
  rewrite Nz in Ea. clear Nz.
  assert (Sx : (s / x) ^ 2 = s * s / (x * x)) by (field; lra).
  assert (X2 : 0 < x * x) by nra. assert (Pos : 0 <= (s / x) ^ 2) by apply pow2_ge_0.
  assert (Ge : forall m, m * (x * x) <= s * s -> m <= (s / x) ^ 2).
  { intros m Hm. rewrite Sx. apply (Rmult_le_reg_r (x * x)); [exact X2|]. unfold Rdiv. rewrite (Rmult_assoc (s * s)), Rinv_l by lra. lra. }
  destruct (clip_le a) as (C1 & C2 & C3 & C4 & C5). fold c in C1, C2, C3, C4, C5. specialize (C3 ltac:(lra)).
  assert (V40 : Rltb 40 v = false) by (apply Rltb_ge; lra). unfold v'. rewrite V40.
  destruct (Rle_lt_dec 0 v) as [L|L].
  - rewrite (Rltb_ge v (-40)) by lra. destruct I as [I _]. destruct (I L) as [I1 I2]. specialize (Hf L).
    assert (Cap : v + c * h <= 30).
    { destruct (Rle_lt_dec (-6) a) as [Q|Q]; [apply speed_cap; lra|]. rewrite C4 by lra. lra. }
    split; [exact Cap|].
    destruct (Rle_lt_dec (3 * (x * x)) (s * s)) as [B|B].
    + specialize (Ge 3 B). rewrite C4 by lra. replace (v + -6 * h) with (v - 6 * h) by ring. apply room_full; lra.
    + apply room_soft; try lra.
      * intros V28. destruct C3 as [C3 _]. apply Rle_trans with (1 := C3). apply Rmax_lub; [|lra].
        assert (28/30 <= v/30) by lra. assert (784/900 <= v/30 * (v/30)) by (apply Rle_trans with (28/30 * (28/30)); [lra | apply Rmult_le_compat; lra]).
        rewrite pow4_sq in Hf. assert (784/900 * (784/900) <= v / 30 * (v / 30) * (v / 30 * (v / 30))) by (apply Rmult_le_compat; lra). lra.
      * fold s. destruct (Rle_lt_dec s (17321/10000 * x)) as [Q|Q]; [exact Q|exfalso].
        assert (17321/10000 * x * (17321/10000 * x) <= s * s) by (apply Rmult_le_compat; lra). lra.
  - destruct I as [_ I]. specialize (I L). set (d := if Rltb v (-40) then Rmax c (40 - v) else c).
    assert (D1 : -40 <= v -> d = c) by (intros Q; unfold d; rewrite Rltb_ge by lra; reflexivity).
    assert (D2 : v < -40 -> d <= 6 \/ d = 40 - v) by (intros Q; unfold d; rewrite Rltb_lt by lra; unfold Rmax; destruct Rle_dec; lra).
    split.
    + destruct (Rle_lt_dec (-40) v) as [Q|Q]; [rewrite D1 by exact Q; assert (c * h <= 6 * h) by (apply Rmult_le_compat_r; lra); lra|].
      destruct (D2 Q) as [D|D]; [assert (d * h <= 6 * h) by (apply Rmult_le_compat_r; lra); lra | rewrite D; nra].
    + apply room_back; [lra | lra | lra | lra | lra | intros Q; rewrite D1 by exact Q; lra | exact D2 |].
      intros Q Hd. rewrite D1 in Hd by lra. specialize (C5 Hd).
        destruct (Rle_lt_dec 8 x) as [X9|X9]; [exact X9|exfalso].
        pose proof q_bounds as B. set (q := / (2 * sqrt 15)) in *.
        assert (0 <= v * (v - u) * q) by (apply Rmult_le_pos; [nra | lra]).
        assert (S8 : 85/10 <= s) by (unfold s; fold q; lra).
        assert (x * x <= s * s) by (apply Rmult_le_compat; lra). specialize (Ge 1 ltac:(lra)). lra.
Qed.

(** ** Whole runs *)
Lemma follow_run dt i l st en k lead : 0 < dt <= 1/15 -> l_geom l = GStraight st en -> st <> en ->
  forall rd frames, simulates dt rd frames -> forall n0, (forall n, 0 <= snd (lead n)) ->
  (forall n, fst (lead (S n)) = fst (lead n) + snd (lead n) * dt /\ snd (lead n) - 6 * dt <= snd (lead (S n))) ->
  (forall n rdn, nth_error (rd :: frames) n = Some rdn -> follows i l (fst (lead (n0 + n)%nat)) (snd (lead (n0 + n)%nat)) rdn) ->
  forall v, nth_error (rd_vehicles rd) i = Some v -> v_kind v = KIDM -> v_par v = idm_default -> v_enable_lane_change v = false ->
  get_lane (rd_net rd) (v_target_lane v) = Ok l -> snd (l_local l (v_pos v)) = 0 ->
  v_heading v = straight_heading st en + 2 * PI * IZR k -> -30 <= v_target_speed v <= 30 -> v_speed v <= 30 ->
  keeps_room dt (fst (lead n0) - fst (l_local l (v_pos v))) (v_speed v) (snd (lead n0)) ->
  forall n rdn, nth_error (rd :: frames) n = Some rdn -> exists w, nth_error (rd_vehicles rdn) i = Some w /\ v_crashed w = false /\
    v_target_lane w = v_target_lane v /\ v_heading w = v_heading v /\ snd (l_local l (v_pos w)) = 0 /\
    v_speed w <= 30 /\ keeps_room dt (fst (lead (n0 + n)%nat) - fst (l_local l (v_pos w))) (v_speed w) (snd (lead (n0 + n)%nat)).
Proof.
  intros Hd Gm N rd frames Sim. induction Sim as [rd|rd draws rd1 rd2 fr D A E Sm IH]; intros n0 Lp Ls Fo v Nv K Pa El G Dl H Ht Hv I n rdn Nn.
  - destruct n as [|[|n]]; cbn in Nn; try discriminate. injection Nn as <-. exists v. rewrite Nat.add_0_r.
    destruct (Fo 0%nat rd eq_refl) as (v' & f & r & N' & C & _). rewrite Nv in N'. injection N' as <-. tauto.
  - destruct n as [|n].
    + cbn in Nn. injection Nn as <-. exists v. rewrite Nat.add_0_r.
      destruct (Fo 0%nat rd eq_refl) as (v' & f & r & N' & C & _). rewrite Nv in N'. injection N' as <-. tauto.
    + destruct (Fo 0%nat rd eq_refl) as (v' & f & r & N' & C & Gl & Hl & Nb & Fx & Fv). rewrite Nv in N'. injection N' as <-.
      destruct (Fo 1%nat rd2 eq_refl) as (w & f2 & r2 & Nw & Cw & _). rewrite Nat.add_0_r in Fx, Fv.
      destruct (follow_frame _ _ _ _ _ _ _ _ _ _ _ _ _ _ A E Nv Nw K El C Cw G Gm N Dl H Hl Nb) as (Kw & Ew & Tw & Sw & Pw & Hw & Lw & a & Ea & Vw).
      rewrite Pa in Ea, Vw. apply idm_acc_front in Ea as (l' & G' & Ea). rewrite Gl in G'. injection G' as <-. rewrite Fx in Ea.
      assert (Hh : e_velocity f = vscal (snd (lead n0)) (cos (v_heading v), sin (v_heading v))).
      { rewrite Fv, H, cos_turn, sin_turn. unfold l_heading. rewrite Gm. reflexivity. }
      rewrite (desired_straight v f _ _ eq_refl Hh) in Ea. cbn [ip_comfort_max idm_default] in Ea.
      destruct (Ls n0) as [L1 L2].
      assert (Cv : is_controlled (v_kind v) = true) by (rewrite K; reflexivity).
      pose proof (following_step dt (fst (lead n0) - fst (l_local l (v_pos v))) (v_speed v) (snd (lead n0)) (snd (lead (S n0))) (free_acc idm_default v) a
        Hd Hv (Lp n0) (Lp (S n0)) L2 I (free_le v Cv Ht) (free_acc_le idm_default v ltac:(cbn; lra)) Ea) as [V' I'].
      cbn [ip_acc_max idm_default] in Vw. cbv zeta in Vw, V', I'. replace (- (6)) with (-6) in Vw by lra. rewrite <- Vw in V', I'.
      assert (Net : rd_net rd2 = rd_net rd). { pose proof (road_act_acted _ _ _ A) as (Hn & _). apply road_step_stepped in E as (Hn2 & _). congruence. }
      destruct (IH (S n0) Lp Ls) with (v := w) (n := n) (rdn := rdn) as (z & Nz & Cz & Tz & Hz & Dz & Vz & Iz); try assumption.
      * intros m rdm Nm. replace (S n0 + m)%nat with (n0 + S m)%nat by lia. now apply Fo.
      * congruence.
      * rewrite Net, Tw. exact G.
      * rewrite Lw. reflexivity.
      * congruence.
      * lra.
      * rewrite Lw, L1. cbn [fst].
        replace (fst (lead n0) + snd (lead n0) * dt - (fst (l_local l (v_pos v)) + v_speed v * dt)) with (fst (lead n0) - fst (l_local l (v_pos v)) + (snd (lead n0) - v_speed v) * dt) by ring.
        exact I'.
      * exists z. replace (n0 + S n)%nat with (S n0 + n)%nat by lia. split; [exact Nz|]. split; [exact Cz|]. split; [congruence|]. split; [congruence|]. tauto.
Qed.

(** ** A stopped obstacle on a one-lane road *)
Definition one_lane (a b : string) (l : lane) : graph := add_lane [] a b l.
Lemma one_lane_get a b l : get_lane (one_lane a b l) (a, b, Some 0%Z) = Ok l.
Proof. unfold one_lane, add_lane, get_lane, g_lanes, g_succ. repeat (cbn; rewrite ?String.eqb_refl). reflexivity. Qed.
Lemma one_lane_closest a b l p h i : get_closest_lane_index (one_lane a b l) p h = Ok i -> i = (a, b, Some 0%Z).
Proof. unfold get_closest_lane_index, one_lane, add_lane. repeat (cbn; rewrite ?String.eqb_refl). intros [= <-]. reflexivity. Qed.
Lemma far_norm st en l p q : l_geom l = GStraight st en -> st <> en -> 5 < fst (l_local l q) - fst (l_local l p) -> 5 < vnorm (vsub q p).
Proof.
  intros Gm N H. unfold l_local in H. rewrite Gm in H. cbn [geom_local] in H. pose proof (straight_dir_unit st en N) as U.
  unfold straight_local in H. destruct (straight_dir st en) as [dx dy]. unfold vdot, vsub in *. cbn [fst snd] in *. unfold vnorm. cbn [fst snd].
  set (x := fst q - fst p). set (y := snd q - snd p).
  assert (E : x * dx + y * dy > 5) by (unfold x, y; lra).
  assert (25 < x * x + y * y).
  { assert (Cs : (x * dx + y * dy) * (x * dx + y * dy) <= (x * x + y * y) * (dx * dx + dy * dy)).
    { replace ((x * x + y * y) * (dx * dx + dy * dy)) with ((x * dx + y * dy) * (x * dx + y * dy) + (x * dy - y * dx) * (x * dy - y * dx)) by ring.
      pose proof (Rle_0_sqr (x * dy - y * dx)) as Q. unfold Rsqr in Q. lra. }
    rewrite U, Rmult_1_r in Cs. nra. }
  apply Rsqr_incrst_0; [unfold Rsqr; rewrite sqrt_sqrt by lra; lra | lra | apply sqrt_pos].
Qed.

(** A road with one default IDM vehicle driving centred on lane [l] towards one
    stopped obstacle [o]. *)
Definition approaching (a b : string) (l : lane) (st en : vec) (k : Z) (v : vehicle) (o : object) (rd : road) : Prop :=
  rd_net rd = one_lane a b l /\ rd_vehicles rd = [v] /\ rd_objects rd = [o] /\
  v_kind v = KIDM /\ v_par v = idm_default /\ v_enable_lane_change v = false /\ v_crashed v = false /\
  v_lane_index v = (a, b, Some 0%Z) /\ v_target_lane v = (a, b, Some 0%Z) /\
  snd (l_local l (v_pos v)) = 0 /\ v_heading v = straight_heading st en + 2 * PI * IZR k /\
  -30 <= v_target_speed v <= 30 /\ v_speed v <= 30 /\
  o_kind o = KObstacle /\ o_speed o = 0 /\ o_id o <> v_id v /\
  Rabs (snd (l_local l (o_pos o))) <= l_width l / 2 + 1 /\ 0 <= fst (l_local l (o_pos o)) <= l_length l.
Lemma keeps_gap dt x v u : 0 < dt <= 1/15 -> keeps_room dt x v u -> 5 < x.
Proof. intros Hd I. assert (0 <= dt * dt <= 1/225) by nra. destruct I as [I1 I2]. destruct (Rle_lt_dec 0 v) as [L|L]; [destruct (I1 L) | specialize (I2 L)]; lra. Qed.
Lemma approaching_frame a b l st en k dt rd draws rd1 rd2 v o : 0 < dt <= 1/15 -> l_geom l = GStraight st en -> st <> en ->
  approaching a b l st en k v o rd -> keeps_room dt (fst (l_local l (o_pos o)) - fst (l_local l (v_pos v))) (v_speed v) 0 ->
  road_act draws rd = Ok rd1 -> road_step rd1 dt = Ok rd2 ->
  exists w, approaching a b l st en k w o rd2 /\ keeps_room dt (fst (l_local l (o_pos o)) - fst (l_local l (v_pos w))) (v_speed w) 0.
Proof.
  intros Hd Gm N (Ng & Hv & Ho & K & Pa & El & C & Li & Tl & Dl & H & Ht & Sp & Ok' & Os & Oi & Ow & Ol) I A E.
  pose proof (keeps_gap _ _ _ _ Hd I) as Gap.
  assert (G : get_lane (rd_net rd) (v_target_lane v) = Ok l) by (rewrite Ng, Tl; apply one_lane_get).
  assert (Gl : get_lane (rd_net rd) (v_lane_index v) = Ok l) by (rewrite Ng, Li; apply one_lane_get).
  assert (Cand : candidate l (v_id v) (EO o)) by (unfold candidate; cbn [e_id e_pos is_landmark]; rewrite Ok'; repeat split; try assumption; lra).
  assert (Nb : exists r, neighbour_vehicles rd v None = Ok (Some (EO o), r)).
  { unfold neighbour_vehicles. destruct (neighbours_total rd (v_id v) (v_pos v) _ l Gl) as [[f r] Em]. exists r. rewrite Em.
    destruct (neighbours_spec _ _ _ _ _ _ _ Gl Em) as (Hf & Hn & _). cbv zeta in Hf, Hn.
    assert (Ie : In (EO o) (rd_entities rd)) by (unfold rd_entities; rewrite Hv, Ho; right; now left).
    destruct f as [e|]; [|specialize (Hn eq_refl (EO o) Ie Cand); cbn [e_pos] in Hn; lra].
    destruct (Hf e eq_refl) as (Ie' & (Ne & _) & _). unfold rd_entities in Ie'. rewrite Hv, Ho in Ie'. cbn in Ie'.
    destruct Ie' as [<-|[<-|[]]]; [now elim Ne | reflexivity]. }
  destruct Nb as [r Nb].
  assert (N0 : nth_error (rd_vehicles rd) 0 = Some v) by (rewrite Hv; reflexivity).
  destruct (follow_act _ _ _ _ _ _ _ _ _ _ _ _ _ A E N0 K El C G Gm N Dl H ltac:(lra) Nb)
    as (v1 & w & w2 & N1 & Ew & Ev & Nw2 & Iw & Cw & Kw & Elw & Tw & Tsw & Pw & Hw & Lw & acc & Ea & Vw).
  rewrite Pa in Ea, Vw. apply idm_acc_front in Ea as (l' & G' & Ea). rewrite Gl in G'. injection G' as <-. cbn [e_pos] in Ea.
  assert (Hh : e_velocity (EO o) = vscal 0 (cos (v_heading v), sin (v_heading v))).
  { unfold e_velocity. cbn [e_speed]. rewrite Os. unfold vscal. cbn [fst snd]. rewrite !Rmult_0_l. reflexivity. }
  rewrite (desired_straight v (EO o) _ _ eq_refl Hh) in Ea. cbn [ip_comfort_max idm_default] in Ea.
  assert (Cv : is_controlled (v_kind v) = true) by (rewrite K; reflexivity).
  pose proof (following_step dt (fst (l_local l (o_pos o)) - fst (l_local l (v_pos v))) (v_speed v) 0 0 (free_acc idm_default v) acc
    Hd Sp ltac:(lra) ltac:(lra) ltac:(lra) I (free_le v Cv Ht) (free_acc_le idm_default v ltac:(cbn; lra)) Ea) as [V' I'].
  cbn [ip_acc_max idm_default] in Vw. cbv zeta in Vw, V', I'. replace (- (6)) with (-6) in Vw by lra. rewrite <- Vw in V', I'.
  assert (I2 : keeps_room dt (fst (l_local l (o_pos o)) - fst (l_local l (v_pos w))) (v_speed w) 0).
  { rewrite Lw. cbn [fst]. replace (fst (l_local l (o_pos o)) - (fst (l_local l (v_pos v)) + v_speed v * dt)) with (fst (l_local l (o_pos o)) - fst (l_local l (v_pos v)) + (0 - v_speed v) * dt) by ring. exact I'. }
  exists w. split; [|exact I2]. pose proof (keeps_gap _ _ _ _ Hd I2) as Gap2.
  pose proof (far_norm st en l (v_pos w) (o_pos o) Gm N Gap2) as Far.
  pose proof (road_act_acted _ _ _ A) as (Hn0 & O1 & Hr0 & _ & F1). rewrite Hv in F1. inversion F1 as [|? v1' ? l1 Sv F1' E1 E2]; subst. inversion F1'; subst.
  rewrite <- E2 in N1. injection N1 as ->.
  apply road_step_ok in E as (vs & M & Hn2 & _ & _ & Cl). rewrite <- E2 in M. cbn [mapM] in M. rewrite Hn0, Hr0, Ew in M. cbn in M. injection M as <-.
  rewrite O1, Ho in Cl.
  assert (Q : check_collision w w = (w, w)) by (unfold check_collision; rewrite Nat.eqb_refl, orb_true_r; reflexivity).
  assert (Qo : check_collision_obj w o = (w, o)).
  { unfold check_collision_obj. rewrite Cw, Ok'. destruct (negb (v_collisions w)); [reflexivity|].
    unfold is_colliding_obj, colliding. rewrite Rltb_lt by exact Far. reflexivity. }
  unfold collide_all, collide_row in Cl. cbn in Cl. rewrite Q in Cl. cbn in Cl. rewrite Qo in Cl. cbn in Cl. injection Cl as Cv2 Co2.
  unfold approaching. rewrite Hn2, Hn0, Cv2, Co2. rewrite Pw, Hw, Tw, Tsw, Iw, Lw.
  assert (Lix : v_lane_index w = (a, b, Some 0%Z)).
  { apply step_fields in Ew. cbv zeta in Ew. destruct Ew as (_ & _ & _ & _ & _ & _ & _ & _ & _ & _ & _ & _ & _ & _ & _ & _ & _ & _ & _ & Cl2).
    rewrite Ng in Cl2. now apply one_lane_closest in Cl2. }
  repeat (split; [first [assumption | reflexivity | lra]|]). exact (proj2 Ol).
Qed.
Lemma approaching_run a b l st en k dt o : 0 < dt <= 1/15 -> l_geom l = GStraight st en -> st <> en ->
  forall rd frames, simulates dt rd frames -> forall v, approaching a b l st en k v o rd ->
  keeps_room dt (fst (l_local l (o_pos o)) - fst (l_local l (v_pos v))) (v_speed v) 0 ->
  forall rdn, In rdn (rd :: frames) -> exists w, approaching a b l st en k w o rdn /\ keeps_room dt (fst (l_local l (o_pos o)) - fst (l_local l (v_pos w))) (v_speed w) 0.
Proof.
  intros Hd Gm N rd frames Sim. induction Sim as [rd|rd draws rd1 rd2 fr D A E Sm IH]; intros v Ap I rdn Hr.
  - destruct Hr as [<-|[]]. eauto.
  - destruct Hr as [<-|Hr]; [eauto|]. destruct (approaching_frame _ _ _ _ _ _ _ _ _ _ _ _ _ Hd Gm N Ap I A E) as (w & Aw & Iw). now apply (IH w).
Qed.
