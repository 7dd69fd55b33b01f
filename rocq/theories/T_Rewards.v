(** C42: rewards. *)
From Verif Require Import Prelude M_Utils M_Lane M_Road M_Vehicle M_Kinematics M_Control M_Behavior M_Regulation M_Action M_Env M_Scenes
  S_Geometry S_Road S_Vehicle S_Control S_Behavior S_Regulation S_Env P_Base P_Utils P_Lane P_Graph P_Bfs P_Query P_Kin P_Crash P_Control P_Behavior P_Traffic P_Regulation P_Action P_Env P_Scenes P_Lift P_Nets
  T_Kin T_Control T_Behavior T_Action T_Env.
From Coq Require Import Lia Lra.
Open Scope R_scope.

Ltac lmap_ok := unfold lmap; cbn [fst snd]; rewrite (proj2 (Reqb_false _ _)) by lra; cbn [bind].
Lemma div_unit x y : 0 < y -> 0 <= x <= y -> 0 <= x / y <= 1.
Proof.
  intros Hy Hx. split; [apply Rmult_le_pos; [lra | left; now apply Rinv_0_lt_compat]|].
  apply Rmult_le_reg_r with y; [exact Hy|]. unfold Rdiv. rewrite Rmult_assoc, Rinv_l by lra. lra.
Qed.
Lemma div_ge x y b : 0 < y -> b * y <= x -> b <= x / y.
Proof. intros Hy H. apply Rmult_le_reg_r with y; [exact Hy|]. unfold Rdiv. rewrite Rmult_assoc, Rinv_l by lra. lra. Qed.
Lemma div_le x y b : 0 < y -> x <= b * y -> x / y <= b.
Proof. intros Hy H. apply Rmult_le_reg_r with y; [exact Hy|]. unfold Rdiv. rewrite Rmult_assoc, Rinv_l by lra. lra. Qed.
Lemma b2R_range b : 0 <= b2R b <= 1.
Proof. destruct b; cbn; lra. Qed.

Lemma INR_above x : exists n, x < INR n.
Proof.
  exists (Z.to_nat (up (Rabs x))). pose proof (archimed (Rabs x)) as [A _]. pose proof (Rabs_pos x) as P. pose proof (Rle_abs x).
  rewrite INR_IZR_INZ, Z2Nat.id; [lra|]. apply le_IZR. lra.
Qed.
(** ** highway *)
(** Where the speed is in the rewarded range, cut to [0, 1]. *)
Definition speed_share (range : R * R) (speed : R) : R := Rmax 0 (Rmin 1 ((speed - fst range) / (snd range - fst range))).
(** The lane that is rewarded: the one aimed at, for vehicles that have one. *)
Definition rewarded_lane (v : vehicle) : lane_index := if is_controlled (v_kind v) then v_target_lane v else v_lane_index v.
Lemma clip_share range s : fst range <> snd range -> Rclip (0 + (s - fst range) * (1 - 0) / (snd range - fst range)) 0 1 = speed_share range s.
Proof.
  intros H. unfold speed_share, Rclip. replace (0 + (s - fst range) * (1 - 0) / (snd range - fst range)) with ((s - fst range) / (snd range - fst range)) by (field; lra).
  set (x := _ / _). unfold Rmax, Rmin. repeat destruct (Rle_dec _ _); lra.
Qed.
Theorem C42_highway_value : forall c g v x y o ls l k, v_lane_index v = (x, y, o) -> g_lanes g x y = Ok ls -> get_lane g (v_lane_index v) = Ok l ->
  li_id (rewarded_lane v) = Some k -> fst (hw_speed c) <> snd (hw_speed c) -> hw_collision c <> 1/2 ->
  exists r, highway_reward c g v = Ok r /\ (~ inside l (v_pos v) -> r = 0) /\
    (inside l (v_pos v) -> r = ((if v_crashed v then hw_collision c else 0) + 1/10 * IZR k / Rmax (INR (List.length ls) - 1) 1
                                + 4/10 * speed_share (hw_speed c) (v_speed v) - hw_collision c) / (1/2 - hw_collision c)).
Proof.
  intros c g v x y o ls l k Li G Gl Lk Hs Hc. unfold highway_reward. rewrite Li.
  assert (A : all_side_lanes g (x, y, o) = Ok (map (fun k => (x, y, Some k)) (zrange (List.length ls)))) by (unfold all_side_lanes; cbn [li_from li_to fst snd]; rewrite G; reflexivity).
  rewrite A. cbn [bind]. rewrite map_length. assert (Zl : List.length (zrange (List.length ls)) = List.length ls) by (unfold zrange; now rewrite map_length, seq_length). rewrite Zl.
  unfold rewarded_lane in Lk. unfold lane_number. rewrite <- Li. rewrite Lk. cbn [bind].
  unfold lmap at 1. cbn [fst snd]. rewrite (proj2 (Reqb_false _ _)) by lra. cbn [bind]. rewrite clip_share by exact Hs.
  unfold lmap at 1. cbn [fst snd]. unfold HW_HIGH_SPEED, HW_RIGHT_LANE. rewrite (proj2 (Reqb_false _ _)) by lra. cbn [bind].
  unfold on_road. rewrite Gl. cbn [bind].
  pose proof (on_lane_iff l (v_pos v) None None 0 (or_introl eq_refl) (or_introl eq_refl)) as OL.
  assert (I : on_lane l (v_pos v) None None 0 = true <-> inside l (v_pos v)) by (rewrite OL; unfold inside; split; intros (A1 & B1); split; lra).
  eexists. split; [reflexivity|]. split.
  - intros N. destruct (on_lane l (v_pos v) None None 0); [elim N; tauto | reflexivity].
  - intros N. rewrite (proj2 I N). cbn [negb]. destruct (v_crashed v); cbn [b2R]; field; split; try lra; unfold Rmax; destruct (Rle_dec _ _); lra.
Qed.
(** Within [0, 1] whenever the lane aimed at is one of the lanes alongside. *)
Theorem C42_highway_range : forall c g v x y o ls l k r, v_lane_index v = (x, y, o) -> g_lanes g x y = Ok ls -> get_lane g (v_lane_index v) = Ok l ->
  li_id (rewarded_lane v) = Some k -> fst (hw_speed c) <> snd (hw_speed c) -> hw_collision c <= 0 -> (0 <= k < Z.of_nat (List.length ls))%Z ->
  highway_reward c g v = Ok r -> 0 <= r <= 1.
Proof.
  intros c g v x y o ls l k r Li G Gl Lk Hs Hc Hk E.
  destruct (C42_highway_value c g v x y o ls l k Li G Gl Lk Hs ltac:(lra)) as (r' & E' & Out & In_). rewrite E in E'. injection E' as <-.
  assert (D : inside l (v_pos v) \/ ~ inside l (v_pos v)).
  { pose proof (on_lane_iff l (v_pos v) None None 0 (or_introl eq_refl) (or_introl eq_refl)) as OL.
    destruct (on_lane l (v_pos v) None None 0); [left | right; intros (A & B)].
    - pose proof (proj1 OL eq_refl) as (A & B). split; lra.
    - assert (false = true) by (apply OL; split; lra). discriminate. }
  destruct D as [D|D]; [rewrite (In_ D) | rewrite (Out D); lra].
  assert (Lane : 0 <= IZR k / Rmax (INR (List.length ls) - 1) 1 <= 1).
  { apply div_unit; [unfold Rmax; destruct (Rle_dec _ _); lra|]. split; [apply IZR_le; lia|].
    assert (IZR k <= INR (List.length ls) - 1). { rewrite INR_IZR_INZ, <- minus_IZR. apply IZR_le. lia. }
    unfold Rmax. destruct (Rle_dec _ _); lra. }
  assert (Sp : 0 <= speed_share (hw_speed c) (v_speed v) <= 1) by (unfold speed_share, Rmax, Rmin; repeat destruct (Rle_dec _ _); lra).
  replace (1/10 * IZR k / Rmax (INR (List.length ls) - 1) 1) with (1/10 * (IZR k / Rmax (INR (List.length ls) - 1) 1)) by (unfold Rdiv; ring).
  apply div_unit; [lra|]. destruct (v_crashed v); lra.
Qed.
(** With the default crash reward, any crash is worse than anything else on the road. *)
Theorem C42_highway_crash_dominates : forall c g v x y o ls l k r, v_lane_index v = (x, y, o) -> g_lanes g x y = Ok ls -> get_lane g (v_lane_index v) = Ok l ->
  li_id (rewarded_lane v) = Some k -> fst (hw_speed c) <> snd (hw_speed c) -> hw_collision c = -1 -> (0 <= k < Z.of_nat (List.length ls))%Z -> inside l (v_pos v) ->
  highway_reward c g v = Ok r -> (v_crashed v = true -> r <= 1/3) /\ (v_crashed v = false -> 2/3 <= r).
Proof.
  intros c g v x y o ls l k r Li G Gl Lk Hs Hc Hk D E.
  destruct (C42_highway_value c g v x y o ls l k Li G Gl Lk Hs ltac:(lra)) as (r' & E' & _ & In_). rewrite E in E'. injection E' as <-. rewrite (In_ D).
  assert (Lane : 0 <= IZR k / Rmax (INR (List.length ls) - 1) 1 <= 1).
  { apply div_unit; [unfold Rmax; destruct (Rle_dec _ _); lra|]. split; [apply IZR_le; lia|].
    assert (IZR k <= INR (List.length ls) - 1). { rewrite INR_IZR_INZ, <- minus_IZR. apply IZR_le. lia. }
    unfold Rmax. destruct (Rle_dec _ _); lra. }
  assert (Sp : 0 <= speed_share (hw_speed c) (v_speed v) <= 1) by (unfold speed_share, Rmax, Rmin; repeat destruct (Rle_dec _ _); lra).
  replace (1/10 * IZR k / Rmax (INR (List.length ls) - 1) 1) with (1/10 * (IZR k / Rmax (INR (List.length ls) - 1) 1)) by (unfold Rdiv; ring).
  rewrite Hc. split; intros Cr; rewrite Cr; [apply div_le; lra | apply div_ge; lra].
Qed.
(** The maximum 1 is reached exactly on the road, without crash, aiming at the last
    lane (of at least two), at or above the top of the speed range. *)
Theorem C42_highway_best : forall c g v x y o ls l k r, v_lane_index v = (x, y, o) -> g_lanes g x y = Ok ls -> get_lane g (v_lane_index v) = Ok l ->
  li_id (rewarded_lane v) = Some k -> fst (hw_speed c) < snd (hw_speed c) -> hw_collision c < 0 -> (0 <= k < Z.of_nat (List.length ls))%Z ->
  highway_reward c g v = Ok r ->
  (r = 1 <-> inside l (v_pos v) /\ v_crashed v = false /\ (1 <= k)%Z /\ k = (Z.of_nat (List.length ls) - 1)%Z /\ snd (hw_speed c) <= v_speed v).
Proof.
  intros c g v x y o ls l k r Li G Gl Lk Hs Hc Hk E.
  destruct (C42_highway_value c g v x y o ls l k Li G Gl Lk ltac:(lra) ltac:(lra)) as (r' & E' & Out & In_). rewrite E in E'. injection E' as <-.
  set (n := List.length ls) in *. set (m := Rmax (INR n - 1) 1) in *. assert (Hm : 1 <= m) by (unfold m, Rmax; destruct (Rle_dec _ _); lra).
  assert (HK : 0 <= IZR k <= INR n - 1). { split; [apply IZR_le; lia|]. rewrite INR_IZR_INZ, <- minus_IZR. apply IZR_le. lia. }
  assert (HKm : IZR k <= m) by (unfold m, Rmax; destruct (Rle_dec _ _); lra).
  assert (Lane : 0 <= IZR k / m <= 1) by (apply div_unit; lra).
  set (q := (v_speed v - fst (hw_speed c)) / (snd (hw_speed c) - fst (hw_speed c))).
  assert (Sp : 0 <= speed_share (hw_speed c) (v_speed v) <= 1) by (unfold speed_share, Rmax, Rmin; repeat destruct (Rle_dec _ _); lra).
  assert (Sq : speed_share (hw_speed c) (v_speed v) = 1 <-> snd (hw_speed c) <= v_speed v).
  { unfold speed_share. fold q. assert (Q : 1 <= q <-> snd (hw_speed c) <= v_speed v).
    { unfold q. split; intros H.
      - apply Rmult_le_compat_r with (r := snd (hw_speed c) - fst (hw_speed c)) in H; [|lra]. unfold Rdiv in H. rewrite Rmult_assoc, Rinv_l in H by lra. lra.
      - apply div_ge; lra. }
    rewrite <- Q. unfold Rmax, Rmin. repeat destruct (Rle_dec _ _); split; lra. }
  split.
  - intros R1. assert (D : inside l (v_pos v)).
    { destruct (Rle_dec (Rabs (snd (l_local l (v_pos v)))) (l_width l / 2)) as [A|A].
      - destruct (Rle_dec (-5) (fst (l_local l (v_pos v)))) as [B|B]; [|exfalso; rewrite Out in R1; [lra | intros (_ & H); lra]].
        destruct (Rlt_dec (fst (l_local l (v_pos v))) (l_length l + 5)) as [C|C]; [split; [exact A | split; assumption]|].
        exfalso; rewrite Out in R1; [lra | intros (_ & H); lra].
      - exfalso; rewrite Out in R1; [lra | intros (H & _); lra]. }
    split; [exact D|]. rewrite (In_ D) in R1.
    replace (1/10 * IZR k / m) with (1/10 * (IZR k / m)) in R1 by (unfold Rdiv; ring).
    apply (f_equal (fun z => z * (1/2 - hw_collision c))) in R1. unfold Rdiv at 1 in R1. rewrite Rmult_assoc, Rinv_l in R1 by lra.
    destruct (v_crashed v); [lra|]. split; [reflexivity|].
    assert (L1 : IZR k / m = 1) by lra. assert (S1 : speed_share (hw_speed c) (v_speed v) = 1) by lra.
    assert (Em : IZR k = m). { apply (f_equal (fun z => z * m)) in L1. unfold Rdiv in L1. rewrite Rmult_assoc, Rinv_l in L1 by lra. lra. }
    assert (K1 : (1 <= k)%Z) by (apply le_IZR; lra). split; [exact K1|]. split; [|now apply Sq].
    assert (IZR k = INR n - 1). { unfold m, Rmax in Em. destruct (Rle_dec (INR n - 1) 1); lra. }
    apply eq_IZR. rewrite minus_IZR, <- INR_IZR_INZ. exact H.
  - intros (D & Cr & K1 & Kn & S1). rewrite (In_ D), Cr, (proj2 Sq S1).
    assert (IZR k = INR n - 1) by (rewrite Kn, minus_IZR, <- INR_IZR_INZ; reflexivity).
    assert (IZR k = m). { unfold m, Rmax. destruct (Rle_dec _ _); [|lra]. assert (1 <= IZR k) by (apply IZR_le; lia). lra. }
    rewrite H0. field. lra.
Qed.
(** Through whole episodes on a highway: every reward is defined and in [0, 1]. *)
Theorem C42_highway_episode : forall c n len a sim pol manual act e acts trace, fst (hw_speed c) <> snd (hw_speed c) -> hw_collision c <= 0 ->
  pol <> 0 -> rd_net (e_road e) = straight_road_network n len a ->
  let sc := highway_scenario c sim pol manual act in
  ready sc e -> Forall (in_action_space act (List.length (e_controlled e))) acts -> episode sc e acts trace ->
  Forall (fun x => exists r, highway_env_reward c x = Ok r /\ 0 <= r <= 1) trace.
Proof.
  intros c n len a sim pol manual act e acts trace Hs Hc Hp Hn sc R I H.
  assert (D : decides sc).
  { intros x Rx. destruct (ready_ego _ _ Rx) as (v & Ev & _ & _ & L). apply get_lane_exists in L as [l Gl].
    destruct (C40_highway c x v l Ev Gl) as [_ [B|B]]; eauto. }
  assert (F : frequencies_ok sc) by (split; [exact Hp | discriminate]).
  pose proof (episode_ready _ _ _ _ F D R I H) as Rt. pose proof (episode_net _ _ _ _ H) as Nt.
  rewrite Forall_forall in *. intros x Hx. specialize (Rt x Hx). specialize (Nt x Hx). rewrite Hn in Nt.
  destruct (ready_ego _ _ Rt) as (v & Ev & Vin & Kv & L). unfold highway_env_reward. rewrite Ev. cbn [bind]. rewrite Nt in *.
  pose proof L as L'. apply straight_network_exists in L' as (k & Hk & Lk). apply get_lane_exists in L as [l Gl].
  assert (G : g_lanes (straight_road_network n len a) "0" "1" = Ok (map (fun k => straight_network_lane n k len a) (seq 0 n))) by (rewrite straight_network_eq by lia; reflexivity).
  assert (RL : exists j, (j < n)%nat /\ li_id (rewarded_lane v) = Some (Z.of_nat j)).
  { unfold rewarded_lane. destruct (is_controlled (v_kind v)) eqn:Ic; [|exists k; rewrite Lk; auto].
    destruct Rt as (Rr & _). unfold road_ready in Rr. cbn [sc_regulated sc highway_scenario] in Rr. destruct Rr as (_ & _ & W & _).
    destruct (W v Vin) as [_ T]. destruct (T Ic) as [T1 _]. rewrite Nt in T1. apply straight_network_exists in T1 as (j & Hj & ->). exists j. auto. }
  destruct RL as (j & Hj & RL). destruct (C42_highway_value c _ v _ _ _ _ l _ Lk G Gl RL Hs ltac:(lra)) as (r & E & _). exists r. split; [exact E|].
  eapply C42_highway_range; [exact Lk | exact G | exact Gl | exact RL | exact Hs | exact Hc | | exact E]. rewrite map_length, seq_length. lia.
Qed.

(** ** roundabout *)
(** Defined and in [0, 1] for every speed level and every action; a crash leaves at
    most 1/5, no crash at least 4/5. *)
Theorem C42_roundabout_range : forall cg v action, (0 <= get_speed_index cg v <= Z.max (sg_count cg - 1) 1)%Z ->
  exists r, roundabout_reward cg v action = Ok r /\ 0 <= r <= 1 /\
    (v_crashed v = true -> r <= 1/5) /\ (v_crashed v = false -> 4/5 <= r).
Proof.
  intros cg v action H. unfold roundabout_reward. set (m := Rmax (IZR (sg_count cg) - 1) 1).
  assert (Hm : IZR (get_speed_index cg v) <= m /\ 1 <= m).
  { assert (IZR (get_speed_index cg v) <= IZR (Z.max (sg_count cg - 1) 1)) by (apply IZR_le; lia).
    assert (IZR (Z.max (sg_count cg - 1) 1) = m).
    { unfold m. rewrite <- minus_IZR. destruct (Z.max_spec (sg_count cg - 1) 1) as [[A ->]|[A ->]].
      - rewrite Rmax_right; [reflexivity | apply IZR_le; lia].
      - rewrite Rmax_left; [reflexivity | apply IZR_le; lia]. }
    split; [lra|]. unfold m, Rmax. destruct (Rle_dec _ _); lra. }
  assert (H0 : 0 <= IZR (get_speed_index cg v)) by (apply IZR_le; lia).
  assert (Q : 0 <= IZR (get_speed_index cg v) / m <= 1) by (apply div_unit; lra).
  replace (2 / 10 * IZR (get_speed_index cg v) / m) with (2/10 * (IZR (get_speed_index cg v) / m)) by (unfold Rdiv; ring).
  set (q := IZR _ / m) in *. lmap_ok. pose proof (b2R_range (Z.eqb action 0 || Z.eqb action 2)) as B. set (b := b2R (_ || _)) in *.
  eexists. split; [reflexivity|].
  replace (0 + (-1 * b2R (v_crashed v) + 2 / 10 * q + -5 / 100 * b - (-1 + -5 / 100)) * (1 - 0) / (2 / 10 - (-1 + -5 / 100)))
    with ((105/100 - b2R (v_crashed v) + 2/10 * q - 5/100 * b) * (4/5)) by (field).
  destruct (v_crashed v); cbn [b2R]; split; try lra; split; intros; try discriminate; lra.
Qed.
(** Through whole episodes of an agent with discrete actions. *)
Theorem C42_roundabout_episode : forall duration sim pol manual lo la e acts trace cg action, pol <> 0 ->
  let sc := roundabout_scenario duration sim pol manual (Single (Discrete lo la)) in
  ready sc e -> Forall (in_action_space (Single (Discrete lo la)) (List.length (e_controlled e))) acts -> episode sc e acts trace ->
  (forall v, In v (rd_vehicles (e_road e)) -> v_kind v = KMDP -> v_grid v = cg /\ (0 <= v_speed_index v <= sg_count cg - 1)%Z) ->
  Forall (fun x => exists r, roundabout_env_reward cg x action = Ok r /\ 0 <= r <= 1) trace.
Proof.
  intros duration sim pol manual lo la e acts trace cg action Hp sc R I H G.
  assert (D : decides sc).
  { intros x Rx. destruct (ready_ego _ _ Rx) as (v & Ev & _). destruct (C40_roundabout duration x v Ev) as [_ [B|B]]; eauto. }
  assert (F0 : frequencies_ok sc) by (split; [exact Hp | discriminate]). pose proof (episode_ready _ _ _ _ F0 D R I H) as Rt.
  pose proof (episode_lifted _ _ _ _ _ keeps_liftable H) as Lt. rewrite Forall_forall in *. intros x Hx. specialize (Rt x Hx). destruct (Lt x Hx) as (_ & _ & _ & F).
  destruct (ready_ego _ _ Rt) as (v & Ev & Vin & Kv & _). unfold roundabout_env_reward. rewrite Ev. cbn [bind]. cbn in Kv.
  destruct (Forall2_In_r _ _ _ F v Vin) as (v0 & V0 & _ & K0 & G0 & X0). rewrite Kv in K0. destruct (G v0 V0 (eq_sym K0)) as [Gv Iv].
  assert (X : index_ok v0) by (intros _; rewrite Gv; exact Iv). specialize (X0 X Kv). rewrite G0, Gv in X0.
  destruct (C42_roundabout_range cg v action) as (r & E & Rg & _); [unfold get_speed_index; rewrite Kv; lia|]. eauto.
Qed.

(** ** merge *)
(** The vehicles that slow the reward down: controlled ones on the merging lane. *)
Definition merging (rd : road) : list vehicle :=
  filter (fun w => li_eqb (v_lane_index w) ("b"%string, "c"%string, Some 2%Z) && is_controlled (v_kind w)) (rd_vehicles rd).
Definition slowness (w : vehicle) : R := (v_target_speed w - v_speed w) / v_target_speed w.
Definition total (l : list R) : R := fold_right Rplus 0 l.
Lemma merging_fold vs : forall r, (forall w, In w (filter (fun w => li_eqb (v_lane_index w) ("b"%string, "c"%string, Some 2%Z) && is_controlled (v_kind w)) vs) -> v_target_speed w <> 0) ->
  foldM merging_penalty vs r = Ok (r - 5/10 * total (map slowness (filter (fun w => li_eqb (v_lane_index w) ("b"%string, "c"%string, Some 2%Z) && is_controlled (v_kind w)) vs))).
Proof.
  induction vs as [|w vs IH]; intros r H; cbn [foldM filter].
  - cbn. f_equal. lra.
  - unfold merging_penalty at 1. cbn [filter] in H. destruct (li_eqb _ _ && _) eqn:Q.
    + assert (Hw : v_target_speed w <> 0) by (apply H; now left). unfold pydiv. rewrite (proj2 (Reqb_false _ _)) by exact Hw. cbn [bind].
      rewrite IH by (intros u Hu; apply H; now right). cbn [map total fold_right]. unfold total. f_equal. unfold slowness at 2. field. exact Hw.
    + cbn [bind]. apply IH. exact H.
Qed.
(** The value: the normalisation is by fixed bounds, which the value can leave. *)
Theorem C72_merge_value : forall rd v action k, v_kind v = KMDP -> li_id (v_lane_index v) = Some k -> (2 <= sg_count (v_grid v))%Z -> (0 <= action <= 4)%Z ->
  (forall w, In w (merging rd) -> v_target_speed w <> 0) ->
  merge_reward rd v action =
    Ok (((if v_crashed v then -1 else 0) + 1/10 * IZR k + 2/10 * (IZR (v_speed_index v) / IZR (sg_count (v_grid v) - 1))
        - 5/10 * total (map slowness (merging rd)) - (if Z.eqb action 0 || Z.eqb action 2 then 5/100 else 0) + 15/10) / (18/10)).
Proof.
  intros rd v action k Kv Lk Hc Ha Hm. unfold merge_reward. unfold lane_number. rewrite Lk. cbn [bind]. rewrite Kv.
  assert (Hn : IZR (sg_count (v_grid v)) - 1 <> 0). { rewrite <- minus_IZR. intros E. apply eq_IZR in E. lia. }
  unfold pydiv. rewrite (proj2 (Reqb_false _ _)) by exact Hn. cbn [bind]. rewrite (merging_fold _ _ Hm). cbn [bind]. fold (merging rd).
  unfold merge_action_reward. rewrite minus_IZR. set (t := total _).
  assert (C : (action = 0 \/ action = 2 \/ (action = 1 \/ action = 3 \/ action = 4))%Z) by lia.
  destruct C as [-> |[-> |[-> |[-> | ->]]]]; cbn [Z.eqb Pos.eqb orb bind]; lmap_ok; f_equal; destruct (v_crashed v); cbn [b2R]; field; exact Hn.
Qed.
(** On the highway lanes, with at most one merging vehicle, going at most at its
    target speed, the value stays in [-1/36, 1]. *)
Theorem C72_merge_range : forall rd v action k, v_kind v = KMDP -> li_id (v_lane_index v) = Some k -> (0 <= k <= 1)%Z ->
  (2 <= sg_count (v_grid v))%Z -> (0 <= v_speed_index v <= sg_count (v_grid v) - 1)%Z -> (0 <= action <= 4)%Z ->
  (List.length (merging rd) <= 1)%nat -> (forall w, In w (merging rd) -> 0 <= v_speed w <= v_target_speed w /\ 0 < v_target_speed w) ->
  exists r, merge_reward rd v action = Ok r /\ - (1/36) <= r <= 1.
Proof.
  intros rd v action k Kv Lk Hk Hc Hi Ha Hl Hm.
  rewrite (C72_merge_value rd v action k Kv Lk Hc Ha) by (intros w Hw; destruct (Hm w Hw); lra).
  eexists. split; [reflexivity|].
  assert (T : 0 <= total (map slowness (merging rd)) <= 1).
  { destruct (merging rd) as [|w [|]]; cbn [List.length] in Hl; [cbn; lra | | lia]. cbn. destruct (Hm w (or_introl eq_refl)) as [A B].
    assert (0 <= slowness w <= 1) by (apply div_unit; lra). lra. }
  assert (Sp : 0 <= IZR (v_speed_index v) / IZR (sg_count (v_grid v) - 1) <= 1).
  { apply div_unit; [apply IZR_lt; lia|]. split; apply IZR_le; lia. }
  assert (0 <= IZR k <= 1) by (split; apply IZR_le; lia).
  split; [apply div_ge | apply div_le]; try lra; destruct (v_crashed v), (Z.eqb action 0 || Z.eqb action 2); lra.
Qed.
(** Outside these conditions it is unbounded below: [n] stopped merging vehicles. *)
Theorem C72_merge_unbounded : forall bound, exists rd v r, In v (rd_vehicles rd) /\ v_kind v = KMDP /\ (0 <= v_speed_index v <= sg_count (v_grid v) - 1)%Z /\
  merge_reward rd v 1 = Ok r /\ r < bound.
Proof.
  intros bound. set (w := set_lane_index (demo_controlled KIDM (0, 0) 0 30 0) ("b", "c", Some 2%Z)%string). set (v := demo_controlled KMDP (0, 0) 20 25 0).
  destruct (INR_above (Rabs (3 - 18/10 * bound) * 2)) as [n Hn].
  exists (demo_road (v :: repeat w n) []), v.
  assert (M : merging (demo_road (v :: repeat w n) []) = repeat w n).
  { unfold merging. cbn [rd_vehicles demo_road filter]. replace (li_eqb (v_lane_index v) _ && _) with false by reflexivity.
    clear Hn. induction n as [|n IH]; [reflexivity|]. cbn [repeat filter]. replace (li_eqb (v_lane_index w) _ && _) with true by reflexivity. now rewrite IH. }
  assert (T : total (map slowness (repeat w n)) = INR n).
  { clear Hn M. induction n as [|n IH]; [reflexivity|]. cbn [repeat map]. unfold total in *. cbn [fold_right]. rewrite IH, S_INR.
    unfold slowness. cbn. field. }
  eexists. split; [now left|]. split; [reflexivity|]. split; [cbn; lia|]. split.
  - apply (C72_merge_value _ v 1 0%Z); [reflexivity | reflexivity | cbn; lia | lia |]. rewrite M. intros u Hu. apply repeat_spec in Hu as ->. cbn. lra.
  - rewrite M, T. cbn [Z.eqb Pos.eqb orb v_crashed v demo_controlled v_speed_index v_grid grid_default sg_count]. change (3 - 1)%Z with 2%Z.
    pose proof (Rle_abs (3 - 18/10 * bound)). apply Rmult_lt_reg_r with (18/10); [lra|]. unfold Rdiv at 1. rewrite Rmult_assoc, Rinv_l by lra. idtac. lra.
Qed.
(** An action number outside 0..4 raises. *)
Theorem C72_merge_unknown_action : forall rd v action k, v_kind v = KMDP -> li_id (v_lane_index v) = Some k -> (2 <= sg_count (v_grid v))%Z ->
  (forall w, In w (merging rd) -> v_target_speed w <> 0) -> ~ (0 <= action <= 4)%Z -> merge_reward rd v action = Err KeyError.
Proof.
  intros rd v action k Kv Lk Hc Hm Ha. unfold merge_reward, lane_number. rewrite Lk. cbn [bind]. rewrite Kv.
  assert (Hn : IZR (sg_count (v_grid v)) - 1 <> 0). { rewrite <- minus_IZR. intros E. apply eq_IZR in E. lia. }
  unfold pydiv. rewrite (proj2 (Reqb_false _ _)) by exact Hn. cbn [bind]. rewrite (merging_fold _ _ Hm). cbn [bind]. unfold merge_action_reward.
  destruct (Z.eqb_spec action 0); [lia|]. destruct (Z.eqb_spec action 2); [lia|]. destruct (Z.eqb_spec action 1); [lia|].
  destruct (Z.eqb_spec action 3); [lia|]. destruct (Z.eqb_spec action 4); [lia|]. reflexivity.
Qed.
(** A stopped regulated vehicle (target speed 0) on the merging lane makes it raise. *)
Theorem C72_merge_zero_target : forall rd v action k w ws, v_kind v = KMDP -> li_id (v_lane_index v) = Some k -> (2 <= sg_count (v_grid v))%Z ->
  rd_vehicles rd = w :: ws -> v_lane_index w = ("b"%string, "c"%string, Some 2%Z) -> is_controlled (v_kind w) = true -> v_target_speed w = 0 ->
  merge_reward rd v action = Err ZeroDivisionError.
Proof.
  intros rd v action k w ws Kv Lk Hc Ew Lw Cw Tw. unfold merge_reward, lane_number. rewrite Lk. cbn [bind]. rewrite Kv.
  assert (Hn : IZR (sg_count (v_grid v)) - 1 <> 0). { rewrite <- minus_IZR. intros E. apply eq_IZR in E. lia. }
  unfold pydiv at 1. rewrite (proj2 (Reqb_false _ _)) by exact Hn. cbn [bind]. rewrite Ew. cbn [foldM]. unfold merging_penalty at 1. rewrite Lw, Cw.
  cbn [li_eqb same_road id_eqb li_from li_to li_id fst snd String.eqb Ascii.eqb andb Bool.eqb Z.eqb Pos.eqb].
  unfold pydiv. rewrite Tw, Reqb_refl. reflexivity.
Qed.

(** ** two-way *)
(** On a side with at least two lanes: defined and in [0, 1]. *)
Theorem C42_two_way_range : forall g v x y o ls k, v_kind v = KMDP -> v_lane_index v = (x, y, o) -> g_lanes g x y = Ok ls ->
  (2 <= List.length ls)%nat -> li_id (v_target_lane v) = Some k -> (0 <= k < Z.of_nat (List.length ls))%Z ->
  (2 <= sg_count (v_grid v))%Z -> (0 <= v_speed_index v <= sg_count (v_grid v) - 1)%Z ->
  exists r, two_way_reward g v = Ok r /\ 0 <= r <= 1 /\
    (r = 1 <-> v_speed_index v = (sg_count (v_grid v) - 1)%Z /\ k = 0%Z).
Proof.
  intros g v x y o ls k Kv Li G Hn Lk Hk Hc Hi. unfold two_way_reward. rewrite Li.
  assert (A : all_side_lanes g (x, y, o) = Ok (map (fun k => (x, y, Some k)) (zrange (List.length ls)))) by (unfold all_side_lanes; cbn [li_from li_to fst snd]; rewrite G; reflexivity).
  rewrite A. cbn [bind]. rewrite map_length. assert (Zl : List.length (zrange (List.length ls)) = List.length ls) by (unfold zrange; now rewrite map_length, seq_length). rewrite Zl, Kv.
  assert (C2 : 0 < IZR (sg_count (v_grid v)) - 1) by (rewrite <- minus_IZR; apply IZR_lt; lia).
  assert (N2 : 0 < INR (List.length ls) - 1) by (rewrite INR_IZR_INZ, <- minus_IZR; apply IZR_lt; lia).
  assert (HK : 0 <= IZR k <= INR (List.length ls) - 1). { split; [apply IZR_le; lia|]. rewrite INR_IZR_INZ, <- minus_IZR. apply IZR_le. lia. }
  assert (HI : 0 <= IZR (v_speed_index v) <= IZR (sg_count (v_grid v)) - 1). { rewrite <- minus_IZR. split; apply IZR_le; lia. }
  unfold pydiv at 1. rewrite (proj2 (Reqb_false _ _)) by lra. cbn [bind]. unfold lane_number. rewrite Lk. cbn [bind].
  unfold pydiv. rewrite (proj2 (Reqb_false _ _)) by lra. cbn [bind]. eexists. split; [reflexivity|].
  set (c := IZR (sg_count (v_grid v)) - 1) in *. set (n := INR (List.length ls) - 1) in *. set (i := IZR (v_speed_index v)) in *.
  replace (8 / 10 * i / c) with (8/10 * (i / c)) by (unfold Rdiv; ring). replace (2 / 10 * (n - IZR k) / n) with (2/10 * ((n - IZR k) / n)) by (unfold Rdiv; ring).
  pose proof (div_unit i c C2 HI) as Q1. pose proof (div_unit (n - IZR k) n N2 ltac:(lra)) as Q2. split; [lra|]. split.
  - intros R1. assert (E1 : i / c = 1) by lra. assert (E2 : (n - IZR k) / n = 1) by lra.
    apply (f_equal (fun z => z * c)) in E1. unfold Rdiv in E1. rewrite Rmult_assoc, Rinv_l in E1 by lra.
    apply (f_equal (fun z => z * n)) in E2. unfold Rdiv in E2. rewrite Rmult_assoc, Rinv_l in E2 by lra.
    split; [apply eq_IZR; rewrite minus_IZR; fold i c; lra | apply eq_IZR; lra].
  - intros [E1 ->]. assert (i = c) as -> by (unfold i, c; rewrite E1, minus_IZR; reflexivity). field. lra.
Qed.
(** On a one-lane side (the lanes in the other direction) the reward raises. *)
Theorem C42_two_way_one_lane : forall g v x y o l k, v_kind v = KMDP -> v_lane_index v = (x, y, o) -> g_lanes g x y = Ok [l] ->
  li_id (v_target_lane v) = Some k -> two_way_reward g v = Err ZeroDivisionError.
Proof.
  intros g v x y o l k Kv Li G Lk. unfold two_way_reward. rewrite Li. unfold all_side_lanes. cbn [li_from li_to fst snd]. rewrite G. cbn [bind]. rewrite Kv.
  unfold pydiv at 1. destruct (Reqb _ 0); [reflexivity|]. cbn [bind]. unfold lane_number. rewrite Lk. cbn [bind].
  unfold pydiv. cbn [map zrange List.length seq INR]. replace (1 - 1) with 0 by ring. rewrite Reqb_refl. reflexivity.
Qed.

(** ** intersection *)
(** One agent: 1 after arrival, else the crash penalty plus 1 at the top speed level;
    between the crash penalty and 1, or in [0, 1] when normalised. *)
Theorem C42_agent_reward : forall c g v l, v_kind v = KMDP -> get_lane g (v_lane_index v) = Ok l -> is_collision c <= 0 ->
  exists raw, ((arrived g v -> raw = 1) /\
               (~ arrived g v -> raw = (if v_crashed v then is_collision c else 0) + (if Z.eqb (v_speed_index v) (sg_count (v_grid v) - 1) then 1 else 0))) /\
    is_collision c <= raw <= 1 /\
    agent_reward c g v = Ok (if is_normalize c then (raw - is_collision c) / (1 - is_collision c) else raw).
Proof.
  intros c g v l Kv Gl Hc. unfold agent_reward. rewrite Kv. destruct (has_arrived_iff g v l Gl) as [HA [F|F]]; rewrite F; cbn [bind].
  - exists (is_collision c * b2R (v_crashed v) + 1 * b2R (Z.eqb (v_speed_index v) (sg_count (v_grid v) - 1))). split; [split|split].
    + intros A. apply HA in A. congruence.
    + intros _. destruct (v_crashed v), (Z.eqb _ _); cbn [b2R]; lra.
    + destruct (v_crashed v), (Z.eqb _ _); cbn [b2R]; lra.
    + destruct (is_normalize c); [|reflexivity]. lmap_ok. f_equal. field. lra.
  - exists 1. split; [split|split].
    + reflexivity.
    + intros N. elim N. apply HA. exact F.
    + lra.
    + destruct (is_normalize c); [|reflexivity]. lmap_ok. f_equal. field. lra.
Qed.
Lemma sum_bounds rs lo hi : Forall (fun r => lo <= r <= hi) rs -> forall a, a + lo * INR (List.length rs) <= fold_left Rplus rs a <= a + hi * INR (List.length rs).
Proof.
  induction 1 as [|r rs Hr F IH]; intros a; cbn [fold_left List.length]; [cbn; lra|]. rewrite S_INR. specialize (IH (a + r)). lra.
Qed.
(** All agents: the mean, between the crash penalty and 1 (normalised: in [0, 1]). *)
Theorem C42_intersection_range : forall c e, is_collision c <= 0 -> e_controlled e <> [] ->
  (forall id, In id (e_controlled e) -> exists v l, vehicle_by_id (e_road e) id = Some v /\ v_kind v = KMDP /\ get_lane (rd_net (e_road e)) (v_lane_index v) = Ok l) ->
  exists r, intersection_reward c e = Ok r /\ (if is_normalize c then 0 else is_collision c) <= r <= 1.
Proof.
  intros c e Hc Ne H. unfold intersection_reward, controlled.
  assert (M : exists rs, mapM (agent_reward c (rd_net (e_road e))) (flat_map (fun id => match vehicle_by_id (e_road e) id with Some v => [v] | None => [] end) (e_controlled e)) = Ok rs /\
     List.length rs = List.length (e_controlled e) /\ Forall (fun r => (if is_normalize c then 0 else is_collision c) <= r <= 1) rs).
  { clear Ne. induction (e_controlled e) as [|id ids IH]; [exists []; split; [reflexivity | split; [reflexivity | constructor]]|].
    destruct (H id (or_introl eq_refl)) as (v & l & Ev & Kv & Gl). destruct IH as (rs & Em & L & F); [intros j Hj; apply H; now right|].
    cbn [flat_map]. rewrite Ev. cbn [app mapM]. destruct (C42_agent_reward c _ v l Kv Gl Hc) as (raw & _ & B & ->). cbn [bind]. rewrite Em. cbn [bind].
    eexists. split; [reflexivity|]. split; [cbn; now rewrite L|]. constructor; [|exact F]. destruct (is_normalize c); [apply div_unit; lra | lra]. }
  destruct M as (rs & -> & L & F). cbn [bind]. unfold pydiv. assert (P : 0 < INR (List.length (e_controlled e))).
  { destruct (e_controlled e); [congruence|]. apply (lt_0_INR (S _)). lia. }
  rewrite (proj2 (Reqb_false _ _)) by lra. eexists. split; [reflexivity|]. pose proof (sum_bounds _ _ _ F 0) as B. rewrite L in B.
  split; [apply div_ge | apply div_le]; lra.
Qed.

(** ** parking and summon *)
(** The weighted distance between two poses; the speed does not count. *)
Definition pose_distance (p : vec) (h : R) (q : vec) (h' : R) : R :=
  Rabs (fst p - fst q) / 100 + 3/10 * Rabs (snd p - snd q) / 100 + 2/100 * Rabs (cos h - cos h') + 2/100 * Rabs (sin h - sin h').
Theorem C73_parking_value : forall p h s q h' s',
  parking_compute (goal_features p h s) (goal_features q h' s') = - sqrt (pose_distance p h q h').
Proof.
  intros p h s q h' s'. unfold parking_compute, goal_features, REWARD_WEIGHTS, pose_distance. cbn [combine map dot fst snd]. do 2 f_equal.
  assert (S100 : forall a b, Rabs (a / 100 - b / 100) = Rabs (a - b) / 100).
  { intros a b. replace (a / 100 - b / 100) with ((a - b) * / 100) by field. rewrite Rabs_mult, (Rabs_right (/ 100)) by lra. reflexivity. }
  rewrite !S100. replace (cos h / 1 - cos h' / 1) with (cos h - cos h') by field. replace (sin h / 1 - sin h' / 1) with (sin h - sin h') by field. field.
Qed.
Lemma pose_distance_nonneg p h q h' : 0 <= pose_distance p h q h'.
Proof. unfold pose_distance. pose proof (Rabs_pos (fst p - fst q)). pose proof (Rabs_pos (snd p - snd q)). pose proof (Rabs_pos (cos h - cos h')). pose proof (Rabs_pos (sin h - sin h')). lra. Qed.
Lemma pose_distance_zero p h q h' : pose_distance p h q h' = 0 <-> p = q /\ cos h = cos h' /\ sin h = sin h'.
Proof.
  unfold pose_distance. pose proof (Rabs_pos (fst p - fst q)). pose proof (Rabs_pos (snd p - snd q)). pose proof (Rabs_pos (cos h - cos h')). pose proof (Rabs_pos (sin h - sin h')). split.
  - intros E. assert (Z : forall x, Rabs x = 0 -> x = 0) by (intros x Hx; destruct (Req_dec x 0); [assumption | now apply Rabs_no_R0 in Hx]).
    assert (A1 : fst p - fst q = 0) by (apply Z; lra). assert (A2 : snd p - snd q = 0) by (apply Z; lra).
    assert (A3 : cos h - cos h' = 0) by (apply Z; lra). assert (A4 : sin h - sin h' = 0) by (apply Z; lra).
    split; [destruct p, q; cbn in *; f_equal; lra | split; lra].
  - intros (-> & -> & ->). rewrite !Rminus_diag_eq by reflexivity. rewrite Rabs_R0. lra.
Qed.
(** The reward of one vehicle is never positive and 0 exactly at the goal pose. *)
Theorem C73_parking_sign : forall p h s q h' s', let r := parking_compute (goal_features p h s) (goal_features q h' s') in
  r <= 0 /\ (r = 0 <-> p = q /\ cos h = cos h' /\ sin h = sin h').
Proof.
  intros p h s q h' s' r. unfold r. rewrite C73_parking_value. pose proof (sqrt_pos (pose_distance p h q h')). pose proof (pose_distance_nonneg p h q h') as N. split; [lra|].
  rewrite <- pose_distance_zero. split.
  - intros E. apply sqrt_eq_0; lra.
  - intros ->. rewrite sqrt_0. ring.
Qed.
(** Success exactly when the weighted distance is below 0.0144. *)
Theorem C73_parking_success : forall p h s q h' s', is_success (parking_compute (goal_features p h s) (goal_features q h' s')) = true <-> pose_distance p h q h' < 144/10000.
Proof.
  intros p h s q h' s'. rewrite C73_parking_value. unfold is_success. rewrite Rltb_true. pose proof (pose_distance_nonneg p h q h') as N. split; intros H.
  - assert (sqrt (pose_distance p h q h') < 12/100) by lra. pose proof (sqrt_sqrt _ N). pose proof (sqrt_pos (pose_distance p h q h')). nra.
  - assert (sqrt (pose_distance p h q h') < 12/100); [|lra]. replace (12/100) with (sqrt (144/10000)); [apply sqrt_lt_1; lra|].
    replace (144/10000) with ((12/100) * (12/100)) by field. apply sqrt_square. lra.
Qed.
(** The environment's reward adds up the controlled vehicles; it is never positive.
    In summon a crash of the ego vehicle takes 5 off every one of them, which also
    rules out success. *)
Theorem C73_parking_total : forall goal vs crashed,
  parking_reward parking_compute goal vs = total (map (fun v => - sqrt (pose_distance (v_pos v) (v_heading v) (o_pos goal) (o_heading goal))) vs) /\
  parking_reward parking_compute goal vs <= 0 /\
  parking_reward (summon_compute crashed) goal vs = parking_reward parking_compute goal vs - (if crashed then 5 * INR (List.length vs) else 0) /\
  (crashed = true -> vs <> [] -> forallb is_success (goal_rewards (summon_compute crashed) goal vs) = false).
Proof.
  intros goal vs crashed.
  assert (Fl : forall l a, fold_left Rplus l a = a + total l).
  { induction l as [|x l IH]; intros a; cbn [fold_left]; unfold total in *; cbn [fold_right]; [lra|]. rewrite IH. lra. }
  assert (P : parking_reward parking_compute goal vs = total (map (fun v => - sqrt (pose_distance (v_pos v) (v_heading v) (o_pos goal) (o_heading goal))) vs)).
  { unfold parking_reward, goal_rewards. rewrite Fl, Rplus_0_l. unfold total. f_equal. apply map_ext. intros v. apply C73_parking_value. }
  split; [exact P|]. split; [|split].
  - rewrite P. clear P. induction vs as [|v vs IH]; unfold total in *; cbn [map fold_right]; [lra|]. pose proof (sqrt_pos (pose_distance (v_pos v) (v_heading v) (o_pos goal) (o_heading goal))). lra.
  - unfold parking_reward. rewrite !Fl. clear P. induction vs as [|v vs IH]; unfold total, goal_rewards in *; cbn [map fold_right List.length]; [destruct crashed; cbn; lra|].
    rewrite S_INR. unfold summon_compute at 1. destruct crashed; cbn [b2R] in *; lra.
  - intros -> Ne. destruct vs as [|v vs]; [congruence|]. cbn [goal_rewards map forallb]. apply andb_false_iff. left. unfold is_success. apply Rltb_false.
    unfold summon_compute. rewrite C73_parking_value. pose proof (sqrt_pos (pose_distance (v_pos v) (v_heading v) (o_pos goal) (o_heading goal))). cbn [b2R]. lra.
Qed.

(** ** lane keeping *)
(** At most 1, reached exactly on the centre line, at least 3/4 within the lane's
    width; unbounded below; the reward raises before the first reset. *)
Theorem C73_lane_keeping : forall l v, 0 < l_width l ->
  exists r, lane_keeping_reward (Some l) v = Ok r /\ r <= 1 /\ (r = 1 <-> snd (l_local l (v_pos v)) = 0) /\
    (3/4 <= r <-> Rabs (snd (l_local l (v_pos v))) <= l_width l / 2).
Proof.
  intros l v W. unfold lane_keeping_reward, pydiv. rewrite (proj2 (Reqb_false _ _)) by lra. cbn [bind]. eexists. split; [reflexivity|].
  set (d := snd (l_local l (v_pos v))). set (q := d / l_width l). assert (Hd : d = q * l_width l) by (unfold q; field; lra).
  assert (Q2 : 0 <= q ^ 2) by (cbn; nra). split; [lra|]. split.
  - split; intros H.
    + assert (q = 0) by (cbn in *; nra). rewrite Hd, H0. ring.
    + assert (q = 0) as -> by (unfold q; rewrite H; unfold Rdiv; ring). ring.
  - rewrite Hd, Rabs_mult, (Rabs_right (l_width l)) by lra. assert (QA : q ^ 2 = Rabs q * Rabs q) by (rewrite <- Rabs_mult, Rabs_right; cbn in *; [ring | nra]).
    pose proof (Rabs_pos q). rewrite QA. split; intros H1.
    + assert (Rabs q <= 1/2) by nra. nra.
    + assert (Rabs q <= 1/2) by nra. nra.
Qed.
Theorem C73_lane_keeping_before_reset : forall v, lane_keeping_reward None v = Err AttributeError.
Proof. reflexivity. Qed.

(** ** Cases that meet the hypotheses *)
Example C42_nonvacuous : exists e1 e2, episode demo_scenario demo_env [ActInt 3; ActInt 0] [e1; e2] /\
  Forall (fun x => exists r, highway_env_reward highway_default x = Ok r /\ 0 <= r <= 1) [e1; e2].
Proof.
  destruct C39_nonvacuous as (e1 & e2 & Ep & _). exists e1, e2. split; [exact Ep|].
  apply (C42_highway_episode highway_default 3 1000 0 15 1 false (Single (Discrete true true)) demo_env [ActInt 3; ActInt 0] [e1; e2]); cbn; try lra; try reflexivity.
  - exact demo_ready.
  - repeat constructor; cbn; try lia; tauto.
  - exact Ep.
Qed.
(** At 25 m/s in the middle lane of three, on the road: (1/20 + 1/5 + 1) / (3/2) = 5/6. *)
Example C42_highway_nonvacuous : exists l, get_lane demo_net (v_lane_index (demo_controlled KMDP (0, 4) 25 25 1)) = Ok l /\
  inside l (0, 4) /\ highway_reward highway_default demo_net (demo_controlled KMDP (0, 4) 25 25 1) = Ok (5/6).
Proof.
  exists (straight_network_lane 3 1 1000 0). destruct (straight_network_local 3 1 1000 (0, 4) ltac:(lra)) as [A B].
  assert (G : get_lane demo_net (v_lane_index (demo_controlled KMDP (0, 4) 25 25 1)) = Ok (straight_network_lane 3 1 1000 0)) by (apply (demo_get 1); lia).
  assert (I : inside (straight_network_lane 3 1 1000 0) (0, 4)).
  { unfold inside. rewrite A, B. cbn. unfold DEFAULT_WIDTH. replace (4 - 4 * 1) with 0 by ring. rewrite Rabs_R0. lra. }
  split; [exact G|]. split; [exact I|].
  assert (GL : g_lanes demo_net "0" "1" = Ok (map (fun k => straight_network_lane 3 k 1000 0) (seq 0 3))) by (unfold demo_net; rewrite straight_network_eq by lia; reflexivity).
  destruct (C42_highway_value highway_default demo_net (demo_controlled KMDP (0, 4) 25 25 1) "0" "1" (Some 1%Z) (map (fun k => straight_network_lane 3 k 1000 0) (seq 0 3)) _ 1%Z eq_refl GL G eq_refl) as (r & E & _ & V); [cbn; lra | cbn; lra|].
  rewrite E. f_equal. rewrite (V I). unfold speed_share. cbn [hw_speed highway_default fst snd hw_collision v_crashed demo_controlled v_speed List.length].
  replace ((25 - 20) / (30 - 20)) with (1/2) by field. rewrite map_length, seq_length. replace (INR 3 - 1) with 2 by (cbn; ring). rewrite Rmin_right by lra. rewrite (Rmax_right 0) by lra. rewrite Rmax_left by lra. field.
Qed.
(** A merge reward of exactly -1/36: crash, stopped merging vehicle, lane change. *)
Example C72_merge_nonvacuous :
  let w := set_lane_index (demo_controlled KIDM (0, 0) 0 30 0) ("b", "c", Some 2%Z)%string in
  let v := set_speed_index (set_crash (demo_controlled KMDP (0, 0) 20 20 0) 0) 0 in
  merge_reward (demo_road [v; w] []) v 0 = Ok (- (1/36)).
Proof.
  intros w v. rewrite (C72_merge_value _ v 0 0%Z); [ | reflexivity | reflexivity | cbn; lia | lia |].
  - f_equal. replace (merging (demo_road [v; w] [])) with [w] by reflexivity. cbn [map total fold_right]. unfold slowness. cbn. field.
  - replace (merging (demo_road [v; w] [])) with [w] by reflexivity. intros u [<- |[]]. cbn. lra.
Qed.
Print Assumptions C42_highway_value.
Print Assumptions C42_highway_range.
Print Assumptions C42_highway_crash_dominates.
Print Assumptions C42_highway_best.
Print Assumptions C42_highway_episode.
Print Assumptions C42_roundabout_range.
Print Assumptions C42_roundabout_episode.
Print Assumptions C72_merge_value.
Print Assumptions C72_merge_range.
Print Assumptions C72_merge_unbounded.
Print Assumptions C72_merge_unknown_action.
Print Assumptions C72_merge_zero_target.
Print Assumptions C42_two_way_range.
Print Assumptions C42_two_way_one_lane.
Print Assumptions C42_agent_reward.
Print Assumptions C42_intersection_range.
Print Assumptions C73_parking_value.
Print Assumptions C73_parking_sign.
Print Assumptions C73_parking_success.
Print Assumptions C73_parking_total.
Print Assumptions C73_lane_keeping.
Print Assumptions C73_lane_keeping_before_reset.
