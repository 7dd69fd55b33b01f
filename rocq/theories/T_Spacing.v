(** C85: how vehicles are placed on the highway. *)
From Coq Require Import Lia Lra.
From Verif Require Import Prelude M_Utils M_Lane M_Road M_Vehicle M_Kinematics M_Control M_Behavior M_Action M_Env M_Scenes M_Nets M_Reset
  S_Geometry S_Road S_Env S_Reset S_Spacing P_Base P_Reset P_Spacing T_Reset.
Open Scope R_scope.

(** C85: with positive spacing and density, the vehicles are lined up in order of
    creation, controlled ones first. *)
Theorem C85_lined_up : forall cs cf h d, draws_ok d -> classes_fit cf (SHighway h) -> options_fit cf (SHighway h) d ->
  0 < hs_ego_spacing h -> 0 < hs_density h ->
  exists sc e, reset cs cf (SHighway h) d = Ok (cs, sc, e) /\ lined_up h (rd_vehicles (e_road e)) /\
    List.length (rd_vehicles (e_road e)) = (hs_controlled h + hs_vehicles h)%nat /\
    map v_id (firstn (hs_controlled h) (rd_vehicles (e_road e))) = e_controlled e.
Proof.
  intros cs cf h d D C O P1 P2. destruct (highway_lined cs cf h d D C O (conj P1 P2)) as (e & E & R).
  unfold reset. rewrite E. cbn [bind]. do 2 eexists. split; [reflexivity|exact R].
Qed.
Print Assumptions C85_lined_up.

Lemma lined_order h vs m : lined_up h vs -> positive_gaps h ->
  (forall j v, (0 < j)%nat -> nth_error vs j = Some v -> m <= 9/10 * headway h j (v_speed v)) -> 0 < m ->
  forall i n u v, nth_error vs i = Some u -> nth_error vs (i + S n) = Some v -> m <= fst (v_pos v) - fst (v_pos u).
Proof.
  intros L P M Hm i n. induction n as [|n IH]; intros u v Hu Hv.
  - replace (i + 1)%nat with (S i) in Hv by lia. destruct (L _ _ Hv) as (_ & _ & _ & _ & G). specialize (G u Hu). specialize (M _ _ (Nat.lt_0_succ _) Hv). lra.
  - replace (i + S (S n))%nat with (S (i + S n)) in Hv by lia.
    destruct (nth_error vs (i + S n)) as [w|] eqn:Hw.
    + specialize (IH u w Hu eq_refl). destruct (L _ _ Hv) as (_ & _ & _ & _ & G). specialize (G w Hw). specialize (M _ _ (Nat.lt_0_succ _) Hv). lra.
    + apply nth_error_None in Hw. assert (S (i + S n) < List.length vs)%nat by (apply nth_error_Some; congruence). lia.
Qed.
(** C85: so every vehicle is ahead of all those created before it; the first controlled
    vehicle is behind everybody. *)
Theorem C85_created_in_order : forall h vs i j u v, lined_up h vs -> 0 < hs_ego_spacing h -> 0 < hs_density h ->
  (i < j)%nat -> nth_error vs i = Some u -> nth_error vs j = Some v -> fst (v_pos u) < fst (v_pos v).
Proof.
  intros h vs i j u v L P1 P2 Hij Hu Hv. revert v Hv. replace j with (i + S (j - i - 1))%nat by lia. generalize (j - i - 1)%nat. intros n.
  induction n as [|n IH]; intros v Hv.
  - replace (i + 1)%nat with (S i) in Hv by lia. pose proof (lined_speed _ _ _ _ L Hv). destruct (L _ _ Hv) as (_ & _ & _ & _ & G). specialize (G u Hu).
    pose proof (headway_pos h (S i) (v_speed v) (conj P1 P2) ltac:(lra)). lra.
  - replace (i + S (S n))%nat with (S (i + S n)) in Hv by lia.
    destruct (nth_error vs (i + S n)) as [w|] eqn:Hw.
    + specialize (IH w eq_refl). pose proof (lined_speed _ _ _ _ L Hv). destruct (L _ _ Hv) as (_ & _ & _ & _ & G). specialize (G w Hw).
      pose proof (headway_pos h (S (i + S n)) (v_speed v) (conj P1 P2) ltac:(lra)). lra.
    + apply nth_error_None in Hw. assert (S (i + S n) < List.length vs)%nat by (apply nth_error_Some; congruence). lia.
Qed.
Print Assumptions C85_created_in_order.

(** The smallest nominal headway is more than 5 m / 0.9: between controlled vehicles, if
    there are several, and in front of the others. *)
Definition room_enough (h : highway_scene) : Prop :=
  ((1 < hs_controlled h)%nat -> 5 < 9/10 * (hs_ego_spacing h * (3/2 * 25) * exp (- INR (hs_lanes h) / 6))) /\
  5 < 9/10 * (1 / hs_density h * (3/2 * 23) * exp (- INR (hs_lanes h) / 6)).

(** C85: if there is room enough, no two vehicles start in contact: no point is in both
    bodies (5 m by 2 m), and no collision is detected. *)
Theorem C85_nobody_in_contact : forall h vs i j u v, lined_up h vs -> 0 < hs_ego_spacing h -> 0 < hs_density h -> room_enough h ->
  i <> j -> nth_error vs i = Some u -> nth_error vs j = Some v ->
  (forall p, in_rectangle (v_pos u) 5 2 (v_heading u) p -> in_rectangle (v_pos v) 5 2 (v_heading v) p -> False) /\
  check_collision u v = (u, v).
Proof.
  intros h vs i j u v L P1 P2 [R1 R2] Hij Hu Hv.
  assert (X : forall i n u v, nth_error vs i = Some u -> nth_error vs (i + S n) = Some v -> 5 < fst (v_pos v) - fst (v_pos u)).
  { set (m1 := 9/10 * (1 / hs_density h * (3/2 * 23) * exp (- INR (hs_lanes h) / 6))) in *.
    set (m2 := 9/10 * (hs_ego_spacing h * (3/2 * 25) * exp (- INR (hs_lanes h) / 6))) in *.
    intros a n x y Hx Hy.
    assert (M : forall j v, (0 < j)%nat -> nth_error vs j = Some v -> (if Nat.ltb 1 (hs_controlled h) then Rmin m1 m2 else m1) <= 9/10 * headway h j (v_speed v)).
    { intros b w Hb Hw. pose proof (lined_speed _ _ _ _ L Hw) as Sp. destruct (L _ _ Hw) as (_ & _ & _ & Sw & _). unfold headway.
      assert (Hp : 0 < exp (- INR (hs_lanes h) / 6)) by apply exp_pos. set (ex := exp (- INR (hs_lanes h) / 6)) in *.
      assert (Hi : 0 < 1 / hs_density h) by (apply Rmult_lt_0_compat; [lra|now apply Rinv_0_lt_compat]).
      destruct (Nat.ltb_spec b (hs_controlled h)) as [Hlt|Hge].
      - destruct (Nat.ltb_spec 1 (hs_controlled h)); [|lia]. rewrite Sw. apply Rmin_r.
      - apply Rle_trans with m1; [destruct (Nat.ltb _ _); [apply Rmin_l|lra]|]. unfold m1.
        apply Rmult_le_compat_l; [lra|]. apply Rmult_le_compat_r; [lra|]. apply Rmult_le_compat_l; lra. }
    assert (M5 : 5 < (if Nat.ltb 1 (hs_controlled h) then Rmin m1 m2 else m1)).
    { destruct (Nat.ltb_spec 1 (hs_controlled h)); [|exact R2]. apply Rmin_glb_lt; [exact R2|now apply R1]. }
    pose proof (lined_order h vs _ L (conj P1 P2) M ltac:(lra) a n x y Hx Hy). lra. }
  assert (Far : 5 < Rabs (fst (v_pos v) - fst (v_pos u))).
  { destruct (Nat.lt_total i j) as [H|[H|H]]; [|congruence|].
    - replace j with (i + S (j - i - 1))%nat in Hv by lia. specialize (X _ _ _ _ Hu Hv). rewrite Rabs_right; lra.
    - replace i with (j + S (i - j - 1))%nat in Hu by lia. specialize (X _ _ _ _ Hv Hu). rewrite Rabs_left; lra. }
  destruct (L _ _ Hu) as (_ & Hu0 & _). destruct (L _ _ Hv) as (_ & Hv0 & _). split.
  - intros p (a & b & Ha & _ & Ea & _) (a' & b' & Ha' & _ & Ea' & _). rewrite Hu0, cos_0, sin_0 in Ea. rewrite Hv0, cos_0, sin_0 in Ea'.
    apply (Rlt_not_le _ _ Far). apply Rabs_le. lra.
  - unfold check_collision. destruct (v_crashed u || _); [reflexivity|]. destruct (negb _ || _); [reflexivity|].
    assert (Q : is_colliding u v = false); [|now rewrite Q]. unfold is_colliding, colliding.
    assert (Dn : V_LENGTH < vnorm (vsub (v_pos v) (v_pos u))); [|now rewrite (proj2 (Rltb_true _ _) Dn)].
    unfold V_LENGTH. eapply Rlt_le_trans; [exact Far|]. unfold vnorm, vsub. cbn [fst snd]. rewrite <- sqrt_Rsqr_abs. apply sqrt_le_1_alt.
    unfold Rsqr. pose proof (Rle_0_sqr (snd (v_pos v) - snd (v_pos u))) as Q. unfold Rsqr in Q. lra.
Qed.
Print Assumptions C85_nobody_in_contact.

Lemma exp_third : 1/3 <= exp (- INR 4 / 6).
Proof. pose proof (exp_ineq1_le (- INR 4 / 6)). cbn [INR] in *. lra. Qed.
(** C85: the default options leave room enough; so does any density up to 2 with up to
    four lanes and one controlled vehicle. *)
Theorem C85_default_room : forall h, (hs_lanes h <= 4)%nat -> (hs_controlled h <= 1)%nat \/ 2 <= hs_ego_spacing h -> 0 < hs_density h <= 2 -> room_enough h.
Proof.
  intros h Ln Cn Dn.
  assert (E : 1/3 <= exp (- INR (hs_lanes h) / 6)).
  { eapply Rle_trans; [exact exp_third|]. assert (INR (hs_lanes h) <= INR 4) by (now apply le_INR).
    destruct (Rle_lt_or_eq_dec (- INR 4 / 6) (- INR (hs_lanes h) / 6)) as [Q|Q]; [lra| |rewrite Q; lra]. left. now apply exp_increasing. }
  split.
  - intros Hc. destruct Cn as [Cn|Cn]; [lia|]. nra.
  - assert (1/2 <= 1 / hs_density h).
    { unfold Rdiv. rewrite !Rmult_1_l. apply Rinv_le_contravar; lra. }
    nra.
Qed.
Print Assumptions C85_default_room.

(** C85: but nothing enforces it: on a single lane, with a density of 9 or more,
    consecutive vehicles always start one inside the other. *)
Theorem C85_dense_traffic_overlaps : forall h vs i u v, lined_up h vs -> hs_lanes h = 1%nat -> 9 <= hs_density h ->
  (hs_controlled h <= S i)%nat -> nth_error vs i = Some u -> nth_error vs (S i) = Some v ->
  exists p, in_rectangle (v_pos u) 5 2 (v_heading u) p /\ in_rectangle (v_pos v) 5 2 (v_heading v) p.
Proof.
  intros h vs i u v L Ln Dn Hi Hu Hv. destruct (L _ _ Hu) as ((k & Hk & Yu) & Hu0 & _ & _ & _).
  destruct (L _ _ Hv) as ((k' & Hk' & Yv) & Hv0 & _ & Sv & G). specialize (G u Hu). rewrite Ln in Hk, Hk'.
  assert (k = 0%nat) by lia. assert (k' = 0%nat) by lia. subst k k'. cbn [INR] in *.
  destruct (Nat.ltb_spec (S i) (hs_controlled h)) as [Q|Q]; [lia|].
  assert (Ub : headway h (S i) (v_speed v) <= 25/6).
  { unfold headway. destruct (Nat.ltb_spec (S i) (hs_controlled h)) as [Q'|Q']; [lia|].
    assert (E1 : exp (- INR (hs_lanes h) / 6) <= 1).
    { rewrite <- exp_0. left. apply exp_increasing. rewrite Ln. cbn [INR]. lra. }
    pose proof (exp_pos (- INR (hs_lanes h) / 6)) as E0. set (ex := exp (- INR (hs_lanes h) / 6)) in *.
    assert (Hd : 0 < 1 / hs_density h <= 1/9).
    { split; [apply Rmult_lt_0_compat; [lra|apply Rinv_0_lt_compat; lra]|]. unfold Rdiv. rewrite !Rmult_1_l. apply Rinv_le_contravar; lra. }
    set (q := 1 / hs_density h) in *. assert (q * (3/2 * v_speed v) <= 25/6) by nra. assert (0 <= q * (3/2 * v_speed v)) by nra. nra. }
  assert (Lb : 0 <= headway h (S i) (v_speed v)).
  { unfold headway. destruct (Nat.ltb_spec (S i) (hs_controlled h)) as [Q'|Q']; [lia|]. pose proof (exp_pos (- INR (hs_lanes h) / 6)) as E0.
    assert (0 < 1 / hs_density h) by (apply Rmult_lt_0_compat; [lra|apply Rinv_0_lt_compat; lra]).
    apply Rmult_le_pos; [|lra]. apply Rmult_le_pos; lra. }
  exists ((fst (v_pos u) + fst (v_pos v)) / 2, 0). split.
  - exists ((fst (v_pos v) - fst (v_pos u)) / 2), 0. rewrite Hu0, cos_0, sin_0. cbn [fst snd]. lra.
  - exists (- ((fst (v_pos v) - fst (v_pos u)) / 2)), 0. rewrite Hv0, cos_0, sin_0. cbn [fst snd]. lra.
Qed.
Print Assumptions C85_dense_traffic_overlaps.

(** The default highway, and a crowded one. *)
Example C85_nonvacuous :
  (exists sc e, reset classes_default meta_common (SHighway (HighwayScene 4 1 50 None 2 1 highway_default)) some_draws = Ok (classes_default, sc, e) /\
     List.length (rd_vehicles (e_road e)) = 51%nat /\ lined_up (HighwayScene 4 1 50 None 2 1 highway_default) (rd_vehicles (e_road e)) /\
     room_enough (HighwayScene 4 1 50 None 2 1 highway_default)) /\
  (exists sc e u v p, reset classes_default meta_common (SHighway (HighwayScene 1 1 5 None 2 10 highway_default)) some_draws = Ok (classes_default, sc, e) /\
     nth_error (rd_vehicles (e_road e)) 1 = Some u /\ nth_error (rd_vehicles (e_road e)) 2 = Some v /\
     in_rectangle (v_pos u) 5 2 (v_heading u) p /\ in_rectangle (v_pos v) 5 2 (v_heading v) p).
Proof.
  split.
  - set (h := HighwayScene 4 1 50 None 2 1 highway_default).
    destruct (C85_lined_up classes_default meta_common h some_draws some_draws_ok) as (sc & e & E & L & Le & _).
    { now left. } { cbn. split; [lia|]. split; [lia|]. split; [lra|exact I]. } { cbn. lra. } { cbn. lra. }
    exists sc, e. split; [exact E|]. split; [exact Le|]. split; [exact L|]. apply C85_default_room; cbn [h hs_lanes hs_controlled hs_ego_spacing hs_density]; [lia|left; lia|lra].
  - set (h := HighwayScene 1 1 5 None 2 10 highway_default).
    destruct (C85_lined_up classes_default meta_common h some_draws some_draws_ok) as (sc & e & E & L & Le & _).
    { now left. } { cbn. split; [lia|]. split; [lia|]. split; [lra|exact I]. } { cbn. lra. } { cbn. lra. }
    cbn [h hs_controlled hs_vehicles Nat.add] in Le.
    destruct (nth_error (rd_vehicles (e_road e)) 1) as [u|] eqn:Hu; [|apply nth_error_None in Hu; lia].
    destruct (nth_error (rd_vehicles (e_road e)) 2) as [v|] eqn:Hv; [|apply nth_error_None in Hv; lia].
    destruct (C85_dense_traffic_overlaps h _ 1%nat u v L eq_refl ltac:(cbn; lra) ltac:(cbn; lia) Hu Hv) as (p & P1 & P2).
    exists sc, e, u, v, p. auto.
Qed.
Print Assumptions C85_nonvacuous.
