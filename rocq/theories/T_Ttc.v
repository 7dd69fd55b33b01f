(** Property theorems C48, C49, C74 (finite_mdp.py and the TimeToCollision observation). *)
From Verif Require Import Prelude M_Utils M_Lane M_Road M_Vehicle M_Kinematics M_Control M_Behavior M_Action M_Ttc
  S_Geometry S_Road S_Ttc P_Base P_Utils P_Lane P_Graph P_Nets P_Ttc T_Kin T_Control.
From Coq Require Import Lra Lia Psatz.
Open Scope R_scope.

(** ** C48: the time-to-collision grid *)
Theorem C48_dimensions : forall rd ev v tq horizon g, 0 < tq -> 0 <= horizon -> (forall w, In w (rd_vehicles rd) -> proper_id (v_lane_index w)) ->
  compute_ttc_grid rd ev v tq horizon = Ok g ->
  exists lanes nt, lanes_count (rd_net rd) (v_lane_index ev) lanes /\ INR nt * tq <= horizon < (INR nt + 1) * tq /\
    dims (Z.to_nat (sg_count (v_grid v))) lanes nt g.
Proof.
  intros rd ev v tq horizon g Ht Hh Pid E. destruct (grid_raises rd ev v tq horizon g Ht Pid E) as (lanes & nt & K & El & -> & T0 & V0 & R). cbv zeta in R.
  exists (List.length lanes), (Z.to_nat (Rtrunc (horizon / tq))). split; [now apply all_side_len|]. split; [|apply R, full_dims].
  assert (0 <= horizon / tq) as P by (apply Rmult_le_pos; [lra | apply Rlt_le, Rinv_0_lt_compat; lra]).
  rewrite INR_IZR_INZ, Z2Nat.id by exact T0. unfold Rtrunc. rewrite (proj2 (Rleb_true 0 _) P). destruct (floor_bounds (horizon / tq)) as [F1 F2].
  set (x := horizon / tq) in *. replace horizon with (x * tq) by (unfold x; field; lra). split; [apply Rmult_le_compat_r; lra | apply Rmult_lt_compat_r; lra].
Qed.
Print Assumptions C48_dimensions.

(** Every cell, exactly: 1 where the centres would meet, 1/2 where only a vehicle length
    away from it, 0 elsewhere.  [speed] is the ego speed of the layer. *)
Theorem C48_cells : forall rd ev v tq horizon g h i j, 0 < tq -> (forall w, In w (rd_vehicles rd) -> proper_id (v_lane_index w)) ->
  compute_ttc_grid rd ev v tq horizon = Ok g ->
  forall nl, lanes_count (rd_net rd) (v_lane_index ev) nl ->
  (h < Z.to_nat (sg_count (v_grid v)))%nat -> (i < nl)%nat -> INR j + 1 <= horizon / tq ->
  let speed := index_to_speed (v_grid v) (Z.of_nat h) in
  let met m := exists w, In w (rd_vehicles rd) /\ v_id w <> v_id v /\ v_speed w <> speed /\ would_meet (rd_net rd) v w tq speed m i j in
  (cell g h i j = 1 <-> met 0) /\
  (cell g h i j = 1/2 <-> ~ met 0 /\ (met 5 \/ met (-5))) /\
  (cell g h i j = 0 <-> ~ met 0 /\ ~ met 5 /\ ~ met (-5)).
Proof.
  intros rd ev v tq horizon g h i j Ht Pid E nl Cn Hh Hi Hj speed met. destruct (grid_raises rd ev v tq horizon g Ht Pid E) as (lanes & nt & K & El & Ent & T0 & V0 & R). cbv zeta in R.
  rewrite (lanes_count_fun _ _ _ _ Cn (all_side_len _ _ _ El)) in Hi.
  assert (Hj' : (j < nt)%nat).
  { rewrite Ent. apply Nat2Z.inj_lt. rewrite Z2Nat.id by exact T0. apply lt_IZR. rewrite <- INR_IZR_INZ. assert (0 <= horizon / tq) as P by (pose proof (pos_INR j); lra).
    unfold Rtrunc. rewrite (proj2 (Rleb_true 0 _) P). destruct (floor_bounds (horizon / tq)) as [_ F]. lra. }
  destruct (R (full_dims _ _ _ _)) as (_ & A & B). specialize (B h i j Hh Hi Hj'). rewrite full_cell in B by assumption.
  pose proof (A h i j 1 Hh Hi Hj' ltac:(lra)) as A1. pose proof (A h i j (1/2) Hh Hi Hj' ltac:(lra)) as A2. rewrite full_cell in A1, A2 by assumption.
  assert (M1 : 1 <= cell g h i j <-> met 0).
  { rewrite A1. unfold met, speed. split.
    - intros [F | (w & Hw & N1 & N2 & [[M _] | [_ F]])]; try lra. exists w. auto.
    - intros (w & Hw & N1 & N2 & M). right. exists w. split; [exact Hw|]. split; [exact N1|]. split; [auto|]. left. split; [exact M | lra]. }
  assert (M2 : 1/2 <= cell g h i j <-> met 0 \/ met 5 \/ met (-5)).
  { rewrite A2. unfold met, speed, V_LENGTH. split.
    - intros [F | (w & Hw & N1 & N2 & [[M _] | [[M | M] _]])]; [lra | left | right; left | right; right]; exists w; (split; [exact Hw|]); (split; [exact N1|]); (split; [congruence|]); exact M.
    - intros [H | [H | H]]; destruct H as (w & Hw & N1 & N2 & M); right; exists w; (split; [exact Hw|]); (split; [exact N1|]); (split; [congruence|]);
        [left | right | right]; (split; [tauto | lra]). }
  split; [|split].
  - rewrite <- M1. split; [intros ->; lra|]. intros H. destruct B as [B | [B | B]]; lra.
  - split; [intros Eq; rewrite <- M1; split; [lra|]; assert (H : 1/2 <= cell g h i j) by lra; apply M2 in H as [H | H]; [apply M1 in H; lra | exact H]|].
    intros [N H]. assert (H' : 1/2 <= cell g h i j) by (apply M2; tauto). assert (~ 1 <= cell g h i j) by (rewrite M1; exact N). destruct B as [B | [B | B]]; lra.
  - split; [intros Eq; assert (N : ~ 1/2 <= cell g h i j) by lra; rewrite M2 in N; tauto|]. intros N. assert (H' : ~ 1/2 <= cell g h i j) by (rewrite M2; tauto). destruct B as [B | [B | B]]; lra.
Qed.
Print Assumptions C48_cells.
(** No other values. *)
Theorem C48_values : forall rd ev v tq horizon g h i j, 0 < tq -> (forall w, In w (rd_vehicles rd) -> proper_id (v_lane_index w)) ->
  compute_ttc_grid rd ev v tq horizon = Ok g -> cell g h i j = 0 \/ cell g h i j = 1/2 \/ cell g h i j = 1.
Proof.
  intros rd ev v tq horizon g h i j Ht Pid E. destruct (grid_raises rd ev v tq horizon g Ht Pid E) as (lanes & nt & K & El & Ent & T0 & V0 & R). cbv zeta in R.
  destruct (R (full_dims _ _ _ _)) as (D & _ & B). set (nv := Z.to_nat (sg_count (v_grid v))) in *. set (nl := List.length lanes) in *.
  destruct (Nat.ltb_spec h nv) as [Hh|Hh]; [|left; unfold cell; rewrite (nth_overflow g) by (destruct D; lia); destruct i, j; reflexivity].
  destruct (Nat.ltb_spec i nl) as [Hi|Hi]; [|left; unfold cell; rewrite (nth_overflow (nth h g [])) by (destruct (dims_row _ _ _ _ _ D Hh); lia); destruct j; reflexivity].
  destruct (Nat.ltb_spec j nt) as [Hj|Hj]; [|left; unfold cell; apply nth_overflow; rewrite (dims_col _ _ _ _ _ _ D Hh Hi); exact Hj].
  specialize (B h i j Hh Hi Hj). rewrite full_cell in B by assumption. exact B.
Qed.
Print Assumptions C48_values.
(** The grid of env.vehicle always exists when all vehicles are on existing lanes;
    so does another observer's if its road has at most as many lanes as env.vehicle's. *)
Theorem C48_never_raises : forall rd ev v tq horizon, v_kind v = KMDP -> 0 < tq -> 0 <= horizon -> (0 <= sg_count (v_grid v))%Z ->
  lane_exists (rd_net rd) (v_lane_index ev) -> lane_exists (rd_net rd) (v_lane_index v) -> (forall w, In w (rd_vehicles rd) -> lane_exists (rd_net rd) (v_lane_index w)) ->
  (forall nv ne, lanes_count (rd_net rd) (v_lane_index v) nv -> lanes_count (rd_net rd) (v_lane_index ev) ne -> (nv <= ne)%nat) ->
  exists g, compute_ttc_grid rd ev v tq horizon = Ok g.
Proof.
  intros rd ev v tq horizon K Ht Hh Hc Le Lv Lw H. destruct (exists_side _ _ Le) as (ls & _ & Es & _). destruct (exists_side _ _ Lv) as (lv & _ & Ev & _).
  eapply grid_total; try eassumption. apply H; now apply all_side_len.
Qed.
Print Assumptions C48_never_raises.
(** A vehicle driving exactly at the speed of a layer is left out of that layer, even alongside. *)
Theorem C48_same_speed_invisible : forall rd ev v tq horizon g h i j, 0 < tq -> (forall w, In w (rd_vehicles rd) -> proper_id (v_lane_index w)) ->
  compute_ttc_grid rd ev v tq horizon = Ok g ->
  (forall w, In w (rd_vehicles rd) -> v_id w = v_id v \/ v_speed w = index_to_speed (v_grid v) (Z.of_nat h)) ->
  cell g h i j = 0.
Proof.
  intros rd ev v tq horizon g h i j Ht Pid E Sp. pose proof (grid_raises rd ev v tq horizon g Ht Pid E) as (lanes & nt & K & El & Ent & T0 & V0 & R). cbv zeta in R.
  destruct (C48_values rd ev v tq horizon g h i j Ht Pid E) as [H | H]; [exact H|]. exfalso.
  destruct (R (full_dims _ _ _ _)) as (D & A & _). set (nv := Z.to_nat (sg_count (v_grid v))) in *. set (nl := List.length lanes) in *.
  assert (0 <> cell g h i j) as N0 by lra.
  destruct (Nat.ltb_spec h nv) as [Hh|Hh]; [|elim N0; unfold cell; rewrite (nth_overflow g) by (destruct D; lia); destruct i, j; reflexivity].
  destruct (Nat.ltb_spec i nl) as [Hi|Hi]; [|elim N0; unfold cell; rewrite (nth_overflow (nth h g [])) by (destruct (dims_row _ _ _ _ _ D Hh); lia); destruct j; reflexivity].
  destruct (Nat.ltb_spec j nt) as [Hj|Hj]; [|elim N0; symmetry; unfold cell; apply nth_overflow; rewrite (dims_col _ _ _ _ _ _ D Hh Hi); exact Hj].
  assert (1/2 <= cell g h i j) as L by lra. apply A in L; [|assumption..|lra]. rewrite full_cell in L by assumption. destruct L as [L | (w & Hw & N1 & N2 & _)]; [lra|].
  destruct (Sp w Hw); congruence.
Qed.
Print Assumptions C48_same_speed_invisible.

(** On the highway (a straight network of [n] lanes along the x axis, everyone driving along it), a
    cell is 1 exactly where some vehicle of that lane, with a speed at least 0.01 away from the layer's, is caught up (or catches
    up) at a time less than one step from it. *)
Theorem C48_highway : forall n len rd v tq horizon g h i j, (0 < n)%nat -> 0 < tq -> rd_net rd = straight_road_network n len 0 -> 0 < len ->
  lane_exists (rd_net rd) (v_lane_index v) -> v_heading v = 0 ->
  let speed := index_to_speed (v_grid v) (Z.of_nat h) in
  (forall w, In w (rd_vehicles rd) -> lane_exists (rd_net rd) (v_lane_index w) /\ v_heading w = 0 /\ (v_speed w = speed \/ 1/100 < Rabs (speed - v_speed w))) ->
  compute_ttc_grid rd v v tq horizon = Ok g -> (h < Z.to_nat (sg_count (v_grid v)))%nat -> (i < n)%nat -> INR j + 1 <= horizon / tq ->
  (cell g h i j = 1 <-> exists w t, In w (rd_vehicles rd) /\ v_id w <> v_id v /\ v_speed w <> speed /\ v_lane_index w = ("0", "1", Some (Z.of_nat i))%string /\
     0 <= t /\ fst (v_pos v) + t * speed = fst (v_pos w) + t * v_speed w /\ Rabs (t - INR j * tq) < tq).
Proof.
  intros n len rd v tq horizon g h i j Hn Ht En Hl Lv Hd speed Hw E Hh Hi Hj.
  assert (Pid : forall w, In w (rd_vehicles rd) -> proper_id (v_lane_index w)) by (intros w W; destruct (Hw w W) as ((k & l & Ek & _) & _); unfold proper_id; rewrite Ek; lia).
  assert (Cn : forall a, lane_exists (rd_net rd) a -> lanes_count (rd_net rd) a n).
  { intros a La. rewrite En in La |- *. apply straight_network_exists in La as (k & Hk & ->). rewrite straight_network_eq by exact Hn. eexists _, _. split; [reflexivity|]. split; [reflexivity|]. now rewrite map_length, seq_length. }
  destruct (C48_cells rd v v tq horizon g h i j Ht Pid E n (Cn _ Lv) Hh Hi Hj) as [C1 _]. cbv zeta in C1. fold speed in C1. rewrite C1. clear C1.
  assert (Gap : forall w, lane_distance_to (rd_net rd) v (EV w) = Ok (fst (v_pos w) - fst (v_pos v))).
  { intros w. unfold lane_distance_to. rewrite En in Lv |- *. destruct (get_lane_exists _ _ Lv) as [l Gl]. rewrite Gl. cbn [bind]. f_equal.
    apply straight_network_exists in Lv as (k & Hk & Ek). rewrite Ek in Gl. pose proof (proj1 (get_lane_has _ ("0", "1", Some (Z.of_nat k))%string k l eq_refl) Gl) as Hs. cbn [li_from li_to fst snd] in Hs. apply straight_network_has in Hs as (_ & _ & _ & ->).
    unfold lane_distance, straight_network_lane, l_local. cbn [l_geom geom_local]. unfold straight_local, straight_dir, vrot, vsub, vdot, vscal, vnorm. cbn [fst snd e_pos]. rewrite Ropp_0, cos_0, sin_0.
    set (y := INR k * DEFAULT_WIDTH). replace ((1 * len - 0 * y - (1 * 0 - 0 * y)) * (1 * len - 0 * y - (1 * 0 - 0 * y)) + (0 * len + 1 * y - (0 * 0 + 1 * y)) * (0 * len + 1 * y - (0 * 0 + 1 * y))) with (len * len) by ring.
    rewrite sqrt_square by lra. field. lra. }
  assert (Dir : forall w, In w (rd_vehicles rd) -> vdot (e_direction (EV w)) (e_direction (EV v)) = 1).
  { intros w W. destruct (Hw w W) as (_ & H0 & _). unfold e_direction, vdot. cbn [e_heading fst snd]. rewrite H0, Hd, cos_0, sin_0. ring. }
  split.
  - intros (w & W & N1 & N2 & _ & (no & nv & O1 & O2 & O3) & gap & rate & Eg & Cr & t & T0 & T1 & T2). destruct (Hw w W) as (Lw & H0 & [S|S]); [contradiction|].
    rewrite Gap in Eg. injection Eg as <-. rewrite (Dir w W), Rmult_1_r in Cr. assert (rate = speed - v_speed w) as -> by (apply (closing_unique _ _ _ Cr); left; auto).
    exists w, t. split; [exact W|]. split; [exact N1|]. split; [exact N2|]. split; [|split; [exact T0|]; split; [lra | exact T2]].
    pose proof (Cn _ Lw) as C1. pose proof (Cn _ Lv) as C2. rewrite (lanes_count_fun _ _ _ _ O1 C1), (lanes_count_fun _ _ _ _ O2 C2) in O3. specialize (O3 eq_refl).
    rewrite En in Lw. apply straight_network_exists in Lw as (k & Hk & Ek). rewrite Ek in O3 |- *. cbn in O3. congruence.
  - intros (w & t & W & N1 & N2 & Li & T0 & T1 & T2). destruct (Hw w W) as (Lw & H0 & [S|S]); [contradiction|]. exists w. split; [exact W|]. split; [exact N1|]. split; [exact N2|]. split; [|split].
    + rewrite En in Lv. apply straight_network_exists in Lv as (k & Hk & Ek). rewrite Ek, Li. unfold is_connected_road. cbn [Nat.add is_connected_fuel]. unfold is_same_road, same_road. reflexivity.
    + exists n, n. split; [now apply Cn|]. split; [now apply Cn|]. intros _. now rewrite Li.
    + exists (fst (v_pos w) - fst (v_pos v)), (speed - v_speed w). split; [apply Gap|]. split; [rewrite (Dir w W), Rmult_1_r; left; auto|]. exists t. split; [exact T0|]. split; [lra | exact T2].
Qed.
Print Assumptions C48_highway.

(** Two cars 40 m apart: at 30 m/s (the third layer) the ego meets the one driving at
    20 m/s after 4 s; in the layer of 20 m/s it is not seen at all. *)
Definition ttc_ego : vehicle := demo_controlled KMDP (0, 0) 25 25 0.
Definition ttc_other : vehicle :=
  Vehicle 1 KVehicle (40, 0) 0 20 ("0", "1", Some 0%Z)%string 0 0 false true [] ("0", "1", Some 0%Z)%string 20 None 0%Z grid_default true 0 idm_default false 0%Z false.
Definition ttc_road : road := Road demo_net [ttc_ego; ttc_other] [] false 0%Z.
Lemma ttc_lane k : (k < 3)%nat -> lane_exists demo_net ("0", "1", Some (Z.of_nat k))%string.
Proof. intros H. apply straight_network_exists. eauto. Qed.
Lemma ttc_exists : exists g, compute_ttc_grid ttc_road ttc_ego ttc_ego 1 10 = Ok g.
Proof.
  apply C48_never_raises; try reflexivity; try lra.
  - cbn. lia.
  - apply (ttc_lane 0). lia.
  - apply (ttc_lane 0). lia.
  - intros w [<- | [<- | []]]; apply (ttc_lane 0); lia.
  - intros nv ne A B. now rewrite (lanes_count_fun _ _ _ _ A B).
Qed.
Example C48_nonvacuous : exists g, compute_ttc_grid ttc_road ttc_ego ttc_ego 1 10 = Ok g /\ cell g 2 0 4 = 1 /\ cell g 2 0 3 <> 1 /\ cell g 0 0 4 = 0.
Proof.
  destruct ttc_exists as [g E]. exists g. split; [exact E|].
  assert (S2 : index_to_speed grid_default 2 = 30) by (unfold index_to_speed, grid_default; cbn; lra).
  assert (S0 : index_to_speed grid_default 0 = 20) by (unfold index_to_speed, grid_default; cbn; lra).
  assert (H : forall j, INR j + 1 <= 10 / 1 -> cell g 2 0 j = 1 <-> exists w t, In w (rd_vehicles ttc_road) /\ v_id w <> v_id ttc_ego /\ v_speed w <> 30 /\ v_lane_index w = ("0", "1", Some (Z.of_nat 0))%string /\
     0 <= t /\ fst (v_pos ttc_ego) + t * 30 = fst (v_pos w) + t * v_speed w /\ Rabs (t - INR j * 1) < 1).
  { intros j Hj. rewrite <- S2. apply (C48_highway 3 1000 ttc_road ttc_ego 1 10 g 2 0 j); try reflexivity; try lia; try lra; try exact E; try exact Hj; try (cbn; lia).
    - apply (ttc_lane 0). lia.
    - change (v_grid ttc_ego) with grid_default. change (Z.of_nat 2) with 2%Z. rewrite S2. intros w [<- | [<- | []]]; (split; [apply (ttc_lane 0); lia|]; split; [reflexivity|]; right; cbn [ttc_ego ttc_other demo_controlled v_speed]; apply Rlt_le_trans with 5; [lra | unfold Rabs; destruct (Rcase_abs _); lra]). }
  split; [|split].
  - apply H; [cbn; lra|]. exists ttc_other, 4. split; [right; left; reflexivity|]. split; [cbn; lia|]. cbn [ttc_other ttc_ego demo_controlled v_speed v_pos v_lane_index fst]. split; [lra|]. split; [reflexivity|]. split; [lra|]. split; [lra|].
    cbn [INR]. replace (4 - _) with 0 by ring. rewrite Rabs_R0. lra.
  - intros F. apply H in F; [|cbn; lra]. destruct F as (w & t & [<- | [<- | []]] & N & _ & _ & T0 & T1 & T2); [now elim N|]. cbn [ttc_other ttc_ego demo_controlled v_speed v_pos fst] in T1. assert (t = 4) as -> by lra.
    cbn [INR] in T2. apply Rabs_def2 in T2. lra.
  - apply (C48_same_speed_invisible ttc_road ttc_ego ttc_ego 1 10 g 0 0 4); try lra; try exact E.
    + intros w [<- | [<- | []]]; cbn; lia.
    + intros w [<- | [<- | []]]; [now left | right; cbn [ttc_other v_speed]; symmetry; exact S0].
Qed.

(** The number of lanes is read on env.vehicle's road: for an observer on a wider road a
    vehicle of an outer lane makes the computation fail. *)
Definition wide_net : graph := [("a", [("b", [straight_network_lane 1 0 100 0])]); ("c", [("d", [straight_network_lane 2 0 100 0; straight_network_lane 2 1 100 0])])]%string.
Definition wide_vehicle (id : nat) (x s : R) (i : lane_index) : vehicle :=
  Vehicle id KMDP (x, 0) 0 s i 0 0 false true [] i s None 0%Z grid_default true 0 idm_default false 0%Z false.
Theorem C48_observer_on_wider_road_raises :
  let ego := wide_vehicle 0 0 20 ("a", "b", Some 0%Z)%string in
  let observer := wide_vehicle 1 0 20 ("c", "d", Some 0%Z)%string in
  let other := wide_vehicle 2 40 0 ("c", "d", Some 1%Z)%string in
  let rd := Road wide_net [ego; observer; other] [] false 0%Z in
  (forall w, In w (rd_vehicles rd) -> lane_exists wide_net (v_lane_index w)) /\
  compute_ttc_grid rd ego observer 1 10 = Err IndexError.
Proof.
  cbv zeta. split.
  { intros w [<- | [<- | [<- | []]]]; [exists 0%nat | exists 0%nat | exists 1%nat]; eexists; (split; [reflexivity|]); eexists _, _; (split; [reflexivity|]); (split; reflexivity). }
  set (ego := wide_vehicle 0 0 20 _). set (obs := wide_vehicle 1 0 20 _). set (other := wide_vehicle 2 40 0 _).
  assert (RT : forall k, Rtrunc (IZR k) = k).
  { intros k. unfold Rtrunc. destruct (Rleb 0 (IZR k)); [apply floor_unique; lra|]. rewrite <- opp_IZR. rewrite (floor_unique _ (- k)%Z); [lia | lra]. }
  assert (S0 : index_to_speed grid_default 0 = 20) by (unfold index_to_speed, grid_default; cbn; lra).
  assert (G : get_lane wide_net ("c", "d", Some 0%Z)%string = Ok (straight_network_lane 2 0 100 0)) by reflexivity.
  assert (D : lane_distance_to wide_net obs (EV other) = Ok 40).
  { unfold lane_distance_to. cbn [v_lane_index obs wide_vehicle]. rewrite G. cbn [bind]. f_equal. unfold lane_distance, straight_network_lane, l_local. cbn [l_geom geom_local other obs wide_vehicle v_pos e_pos].
    unfold straight_local, straight_dir, vrot, vsub, vdot, vscal, vnorm. cbn [fst snd]. rewrite Ropp_0, cos_0, sin_0. set (y := INR 0 * DEFAULT_WIDTH).
    replace ((1 * 100 - 0 * y - (1 * 0 - 0 * y)) * (1 * 100 - 0 * y - (1 * 0 - 0 * y)) + (0 * 100 + 1 * y - (0 * 0 + 1 * y)) * (0 * 100 + 1 * y - (0 * 0 + 1 * y))) with (100 * 100) by ring.
    rewrite sqrt_square by lra. field. }
  unfold compute_ttc_grid. change (all_side_lanes _ (v_lane_index ego)) with (Ok [("a", "b", Some 0%Z)]%string). cbn [bind v_kind obs wide_vehicle]. rewrite (proj2 (Reqb_false 1 0)) by lra.
  replace (10 / 1) with 10 by field. rewrite (RT 10%Z). change (Z.to_nat 10) with 10%nat. cbn [sg_count v_grid grid_default Z.ltb Z.compare orb Z.to_nat seq List.length foldM rd_vehicles rd_net].
  change (Z.of_nat 0) with 0%Z. change (v_grid obs) with grid_default. change (Z.to_nat (sg_count grid_default)) with 3%nat. change (sg_count grid_default <? 0)%Z with false. cbn [orb seq foldM]. change (Z.of_nat 0) with 0%Z. rewrite S0.
  assert (M0 : forall g, mark_vehicle wide_net obs 1 10 1 20 0 g ego = Ok g) by (intros g; unfold mark_vehicle; cbn [ego obs wide_vehicle v_speed v_id]; rewrite (proj2 (Reqb_true 20 20)), orb_true_r by reflexivity; reflexivity).
  assert (M1 : forall g, mark_vehicle wide_net obs 1 10 1 20 0 g obs = Ok g) by (intros g; unfold mark_vehicle; rewrite Nat.eqb_refl; reflexivity).
  assert (M2 : forall g, mark_vehicle wide_net obs 1 10 1 20 0 g other = Err IndexError).
  { intros g. unfold mark_vehicle. cbn [other obs wide_vehicle v_speed v_id Nat.eqb orb]. rewrite (proj2 (Reqb_false 20 0)) by lra. cbn [foldM]. unfold mark_point at 1. fold obs other. rewrite D. cbn [bind fst snd].
    change (v_speed other) with 0. rewrite Rmult_0_l, Rminus_0_r. unfold not_zero. rewrite (proj2 (Rltb_true not_zero_eps (Rabs 20))) by (rewrite Rabs_right by lra; unfold not_zero_eps; lra).
    replace ((40 + 0) / 20) with 2 by field. rewrite (proj2 (Rltb_false 2 0)) by lra.
    change (is_connected_road _ _ _ _ _ _) with true. cbv beta iota.
    change (all_side_lanes wide_net (v_lane_index other)) with (Ok [("c", "d", Some 0%Z); ("c", "d", Some 1%Z)]%string). change (all_side_lanes wide_net (v_lane_index obs)) with (Ok [("c", "d", Some 0%Z); ("c", "d", Some 1%Z)]%string).
    cbn [bind List.length Nat.eqb li_id other wide_vehicle v_lane_index snd]. replace (2 / 1) with 2 by field. unfold raise_times. cbn [foldM]. rewrite (RT 2%Z). reflexivity. }
  rewrite M0. cbn [bind]. rewrite M1. cbn [bind]. rewrite M2. reflexivity.
Qed.
Print Assumptions C48_observer_on_wider_road_raises.

(** ** C49: the finite MDP *)
(** Every action of the full table moves as its label says, inside the grid. *)
Theorem C49_transition : forall v l t a m s, action_of ACTIONS_ALL a = Ok m -> in_grid v l t s ->
  exists s', grid_move v l t m s s' /\ in_grid v l t s' /\
    (let '(h, i, j) := s in transition_model (v, l, t) h i j a) = (let '(h, i, j) := s' in ravel (v, l, t) h i j).
Proof.
  intros v l t a m [[h i] j] Ea (Hh & Hi & Hj). unfold action_of, ACTIONS_ALL in Ea. cbn [find fst snd] in Ea.
  assert (C : (a = 0 /\ m = LANE_LEFT \/ a = 1 /\ m = IDLE \/ a = 2 /\ m = LANE_RIGHT \/ a = 3 /\ m = FASTER \/ a = 4 /\ m = SLOWER)%Z).
  { destruct (Z.eqb_spec 0 a); [injection Ea; auto|]. destruct (Z.eqb_spec 1 a); [injection Ea; auto|]. destruct (Z.eqb_spec 2 a); [injection Ea; auto 10|].
    destruct (Z.eqb_spec 3 a); [injection Ea; auto 10|]. destruct (Z.eqb_spec 4 a); [injection Ea; auto 10 | discriminate]. }
  clear Ea. destruct C as [[-> ->] | [[-> ->] | [[-> ->] | [[-> ->] | [-> ->]]]]]; unfold transition_model, clip_position, Zclip; cbn [Z.eqb Pos.eqb andb].
  - eexists (_, _, _). split; [apply move_left|]. split; [unfold in_grid; lia|]. f_equal; lia.
  - eexists (_, _, _). split; [apply move_idle|]. split; [unfold in_grid; lia|]. f_equal; lia.
  - eexists (_, _, _). split; [apply move_right|]. split; [unfold in_grid; lia|]. f_equal; lia.
  - destruct (Z.eqb_spec j 0) as [->|N].
    + eexists (_, _, _). split; [apply move_faster|]. split; [unfold in_grid; lia|]. f_equal; lia.
    + eexists (_, _, _). split; [apply move_too_late; auto|]. split; [unfold in_grid; lia|]. f_equal; lia.
  - destruct (Z.eqb_spec j 0) as [->|N].
    + eexists (_, _, _). split; [apply move_slower|]. split; [unfold in_grid; lia|]. f_equal; lia.
    + eexists (_, _, _). split; [apply move_too_late; auto|]. split; [unfold in_grid; lia|]. f_equal; lia.
Qed.
Print Assumptions C49_transition.
(** The meaning is fixed: with the longitudinal-only table, action 0 (SLOWER) is
    planned as a lane change and action 2 (FASTER) as the opposite one. *)
Theorem C49_longitudinal_actions_misread : forall v l t h i j, in_grid v l t (h, i, j) ->
  action_of ACTIONS_LONGI 0 = Ok SLOWER /\ action_of ACTIONS_LONGI 2 = Ok FASTER /\
  transition_model (v, l, t) h i j 0 = ravel (v, l, t) h (Z.max (i - 1) 0) (Z.min (j + 1) (t - 1)) /\
  transition_model (v, l, t) h i j 2 = ravel (v, l, t) h (Z.min (i + 1) (l - 1)) (Z.min (j + 1) (t - 1)).
Proof.
  intros v l t h i j (Hh & Hi & Hj). split; [reflexivity|]. split; [reflexivity|]. unfold transition_model, clip_position, Zclip. cbn [Z.eqb Pos.eqb andb]. split; f_equal; lia.
Qed.
Print Assumptions C49_longitudinal_actions_misread.

(** The flattened tables: one row per position of the grid, in the order in which states are numbered. *)
Theorem C49_tables : forall rd ev rw actions tq horizon m, finite_mdp rd ev rw actions tq horizon = Ok m ->
  exists grid v l t lane, compute_ttc_grid rd ev ev tq horizon = Ok grid /\ mdp_shape m = (Z.of_nat v, Z.of_nat l, Z.of_nat t) /\
    v = Z.to_nat (sg_count (v_grid ev)) /\ lanes_count (rd_net rd) (v_lane_index ev) l /\ t = Z.to_nat (Rtrunc (horizon / tq)) /\
    li_id (v_lane_index ev) = Some lane /\ in_grid (Z.of_nat v) (Z.of_nat l) (Z.of_nat t) (v_speed_index ev, lane, 0%Z) /\
    mdp_state m = ravel (mdp_shape m) (v_speed_index ev) lane 0 /\
    List.length (mdp_transition m) = (v * l * t)%nat /\ List.length (mdp_reward m) = (v * l * t)%nat /\ List.length (mdp_terminal m) = (v * l * t)%nat /\
    forall h i j, (h < v)%nat -> (i < l)%nat -> (j < t)%nat ->
      let n := Z.to_nat (ravel (mdp_shape m) (Z.of_nat h) (Z.of_nat i) (Z.of_nat j)) in
      (exists row, nth_error (mdp_transition m) n = Some row /\ List.length row = actions /\
        forall a, (a < actions)%nat -> nth_error row a = Some (transition_model (mdp_shape m) (Z.of_nat h) (Z.of_nat i) (Z.of_nat j) (Z.of_nat a))) /\
      (exists b, nth_error (mdp_terminal m) n = Some b /\ (b = true <-> cell grid h i j = 1 \/ S j = t)) /\
      (exists row, nth_error (mdp_reward m) n = Some row /\ List.length row = 5%nat /\
        forall a, (a < 5)%nat -> exists r, nth_error row a = Some r /\
          r = mr_collision rw * cell grid h i j + mr_right rw * (INR i / Rmax (INR l - 1) 1) + mr_speed rw * (INR h / Rmax (INR v - 1) 1)
              + (if Nat.eqb a 0 || Nat.eqb a 2 then mr_change rw else 0)).
Proof.
  intros rd ev rw actions tq horizon m E. unfold finite_mdp in E. apply bind_ok in E as (grid & Eg & E). apply bind_ok in E as (lanes & El & E).
  destruct (li_id (v_lane_index ev)) as [lane|] eqn:Ei; [|discriminate]. set (v := Z.to_nat (sg_count (v_grid ev))) in *. set (l := List.length lanes) in *. set (t := Z.to_nat (Rtrunc (horizon / tq))) in *.
  destruct (_ && _ && _ && _ && _)%Z eqn:B in E; [|discriminate]. repeat (apply andb_prop in B as [B ?]).
  repeat match goal with H : (_ <? _)%Z = true |- _ => apply Z.ltb_lt in H | H : (_ <=? _)%Z = true |- _ => apply Z.leb_le in H end.
  injection E as <-. exists grid, v, l, t, lane. cbn [mdp_shape mdp_state mdp_transition mdp_reward mdp_terminal].
  split; [exact Eg|]. split; [reflexivity|]. split; [reflexivity|]. split; [now apply all_side_len|]. split; [reflexivity|]. split; [reflexivity|]. split; [unfold in_grid; lia|]. split; [reflexivity|].
  rewrite map_length, !table_len. split; [reflexivity|]. split; [reflexivity|]. split; [reflexivity|]. intros h i j Hh Hi Hj. cbv zeta.
  assert (En : Z.to_nat (ravel (Z.of_nat v, Z.of_nat l, Z.of_nat t) (Z.of_nat h) (Z.of_nat i) (Z.of_nat j)) = ((h * l + i) * t + j)%nat) by (unfold ravel; lia). rewrite En. clear En.
  split; [|split].
  - rewrite table_nth by assumption. eexists. split; [reflexivity|]. split; [now rewrite map_length, seq_length|]. intros a Ha. rewrite nth_error_map, nth_error_seq' by exact Ha. reflexivity.
  - rewrite table_nth by assumption. eexists. split; [reflexivity|]. rewrite orb_true_iff, Reqb_true, Nat.eqb_eq. split; (intros [A|A]; [now left | right; lia]).
  - rewrite nth_error_map, table_nth by assumption. eexists. split; [reflexivity|]. split; [reflexivity|]. intros a Ha.
    destruct a as [|[|[|[|[|a]]]]]; [..|lia]; eexists; (split; [reflexivity | cbn [Nat.eqb orb]; lra]).
Qed.
Print Assumptions C49_tables.

Lemma grid_move_form v l t lab h i j s' : in_grid v l t (h, i, j) -> grid_move v l t lab (h, i, j) s' ->
  exists h' i', s' = (h', i', Z.min (j + 1) (t - 1)) /\ (if Z.eqb j 0 then (Z.abs (h' - h) <= 1)%Z else h' = h).
Proof.
  intros (Gh & Gi & Gj) M. inversion M; subst; eexists _, _; (split; [reflexivity|]); try (destruct (Z.eqb_spec j 0); [lia | reflexivity]); cbn [Z.eqb]; lia.
Qed.
(** Executing a sequence of actions by reading the flattened table. *)
Fixpoint follow_table (m : mdp) (s : Z) (acts : list nat) : option Z :=
  match acts with
  | [] => Some s
  | a :: rest => match nth_error (mdp_transition m) (Z.to_nat s) with
                 | Some row => match nth_error row a with Some s' => follow_table m s' rest | None => None end
                 | None => None end
  end.
(** Every plan stays in the grid and reaches the last column, a terminal state, in as many
    steps as the horizon has columns but one; along it the speed level changes at most once. *)
Theorem C49_every_plan_reaches_the_horizon : forall rd ev rw tq horizon m v l t, finite_mdp rd ev rw 5 tq horizon = Ok m -> mdp_shape m = (v, l, t) ->
  forall acts, (forall a, In a acts -> (a < 5)%nat) ->
  exists h i, follow_table m (mdp_state m) acts = Some (ravel (v, l, t) h i (Z.min (Z.of_nat (List.length acts)) (t - 1))) /\
    in_grid v l t (h, i, Z.min (Z.of_nat (List.length acts)) (t - 1)) /\
    (1 < t -> Z.abs (h - v_speed_index ev) <= 1)%Z /\
    ((t - 1 <= Z.of_nat (List.length acts))%Z -> nth_error (mdp_terminal m) (Z.to_nat (ravel (v, l, t) h i (t - 1))) = Some true).
Proof.
  intros rd ev rw tq horizon m v l t E Sh acts Ha.
  destruct (C49_tables rd ev rw 5 tq horizon m E) as (grid & vn & ln & tn & lane & _ & Sh' & _ & _ & _ & _ & G0 & St & _ & _ & _ & T). rewrite Sh in Sh'. injection Sh' as -> -> ->. rewrite Sh in *.
  assert (Step : forall h i j a, in_grid (Z.of_nat vn) (Z.of_nat ln) (Z.of_nat tn) (h, i, j) -> (a < 5)%nat ->
     exists row h' i', nth_error (mdp_transition m) (Z.to_nat (ravel (Z.of_nat vn, Z.of_nat ln, Z.of_nat tn) h i j)) = Some row /\
       nth_error row a = Some (ravel (Z.of_nat vn, Z.of_nat ln, Z.of_nat tn) h' i' (Z.min (j + 1) (Z.of_nat tn - 1))) /\
       in_grid (Z.of_nat vn) (Z.of_nat ln) (Z.of_nat tn) (h', i', Z.min (j + 1) (Z.of_nat tn - 1)) /\ (if Z.eqb j 0 then (Z.abs (h' - h) <= 1)%Z else h' = h)).
  { intros h i j a G La. pose proof G as (Gh & Gi & Gj). destruct (T (Z.to_nat h) (Z.to_nat i) (Z.to_nat j)) as ((row & R1 & _ & R2) & _); try lia. rewrite !Z2Nat.id in R1, R2 by lia.
    exists row. assert (exists lab, action_of ACTIONS_ALL (Z.of_nat a) = Ok lab) as [lab El] by (destruct a as [|[|[|[|[|a]]]]]; [eexists; reflexivity ..|lia]).
    destruct (C49_transition _ _ _ _ _ _ El G) as (s' & Mv & G' & Et). cbv beta iota in Et.
    specialize (R2 a La). rewrite Et in R2.
    destruct (grid_move_form _ _ _ _ _ _ _ _ G Mv) as (h' & i' & -> & D). exists h', i'. auto. }
  assert (Term : forall h i, in_grid (Z.of_nat vn) (Z.of_nat ln) (Z.of_nat tn) (h, i, Z.of_nat tn - 1)%Z -> nth_error (mdp_terminal m) (Z.to_nat (ravel (Z.of_nat vn, Z.of_nat ln, Z.of_nat tn) h i (Z.of_nat tn - 1))) = Some true).
  { intros h i (Gh & Gi & Gj). destruct (T (Z.to_nat h) (Z.to_nat i) (tn - 1)%nat) as (_ & (b & B1 & B2) & _); try lia. rewrite !Z2Nat.id in B1 by lia. replace (Z.of_nat (tn - 1)) with (Z.of_nat tn - 1)%Z in B1 by lia.
    rewrite B1. f_equal. apply B2. right. lia. }
  assert (Run : forall acts h i j, (forall a, In a acts -> (a < 5)%nat) -> in_grid (Z.of_nat vn) (Z.of_nat ln) (Z.of_nat tn) (h, i, j) ->
     exists h' i', follow_table m (ravel (Z.of_nat vn, Z.of_nat ln, Z.of_nat tn) h i j) acts = Some (ravel (Z.of_nat vn, Z.of_nat ln, Z.of_nat tn) h' i' (Z.min (j + Z.of_nat (List.length acts)) (Z.of_nat tn - 1))) /\
       in_grid (Z.of_nat vn) (Z.of_nat ln) (Z.of_nat tn) (h', i', Z.min (j + Z.of_nat (List.length acts)) (Z.of_nat tn - 1)) /\ (if Z.eqb j 0 then (Z.of_nat tn = 1)%Z \/ (Z.abs (h' - h) <= 1)%Z else h' = h)).
  { clear acts Ha. induction acts as [|a acts IH]; intros h i j Ha G; pose proof G as (Gh & Gi & Gj).
    - exists h, i. cbn [follow_table List.length]. replace (Z.min (j + Z.of_nat 0) (Z.of_nat tn - 1)) with j by lia. split; [reflexivity|]. split; [exact G|]. destruct (Z.eqb j 0); [right; lia | reflexivity].
    - destruct (Step h i j a G (Ha a (or_introl eq_refl))) as (row & h1 & i1 & R1 & R2 & G1 & D). cbn [follow_table]. rewrite R1, R2.
      destruct (IH h1 i1 _ (fun a' H => Ha a' (or_intror H)) G1) as (h' & i' & F & G' & D'). exists h', i'. rewrite F.
      replace (Z.min (Z.min (j + 1) (Z.of_nat tn - 1) + Z.of_nat (List.length acts)) (Z.of_nat tn - 1)) with (Z.min (j + Z.of_nat (List.length (a :: acts))) (Z.of_nat tn - 1)) in * by (cbn [List.length]; lia).
      split; [reflexivity|]. split; [exact G'|]. destruct (Z.eqb_spec j 0) as [->|Nj].
      + destruct (Z.eqb_spec (Z.min (0 + 1) (Z.of_nat tn - 1)) 0) as [Ez|Nz]; [left; lia|]. rewrite D'. now right.
      + destruct (Z.eqb_spec (Z.min (j + 1) (Z.of_nat tn - 1)) 0) as [Ez|Nz]; [lia|]. congruence. }
  destruct (Run acts (v_speed_index ev) lane 0%Z Ha G0) as (h & i & F & G & D). exists h, i. rewrite St. split; [exact F|]. split; [exact G|]. split.
  - rewrite Z.eqb_refl in D. intros H1. destruct D as [D | D]; [lia | exact D].
  - intros Le. apply Term. replace (Z.min (0 + Z.of_nat (List.length acts)) (Z.of_nat tn - 1)) with (Z.of_nat tn - 1)%Z in G by lia. exact G.
Qed.
Print Assumptions C49_every_plan_reaches_the_horizon.
(** The MDP can be built whenever env.vehicle and the others are on lanes of the network. *)
Theorem C49_built : forall rd ev rw actions tq horizon, v_kind ev = KMDP -> 0 < tq -> tq <= horizon ->
  lane_exists (rd_net rd) (v_lane_index ev) -> (forall w, In w (rd_vehicles rd) -> lane_exists (rd_net rd) (v_lane_index w)) ->
  (0 <= v_speed_index ev < sg_count (v_grid ev))%Z -> exists m, finite_mdp rd ev rw actions tq horizon = Ok m.
Proof.
  intros rd ev rw actions tq horizon K Ht Hh Lv Lw Hs.
  destruct (C48_never_raises rd ev ev tq horizon K Ht ltac:(lra) ltac:(lia) Lv Lv Lw) as [g Eg]; [intros nv ne A B; now rewrite (lanes_count_fun _ _ _ _ A B)|].
  unfold finite_mdp. rewrite Eg. cbn [bind]. destruct (exists_side _ _ Lv) as (ls & k & El & Ek & Hk & _). rewrite El, Ek. cbn [bind].
  assert (0 < Rtrunc (horizon / tq))%Z as T.
  { assert (1 <= horizon / tq) as P by (apply (Rmult_le_reg_r tq); [lra | unfold Rdiv; rewrite Rmult_assoc, Rinv_l by lra; lra]). unfold Rtrunc. rewrite (proj2 (Rleb_true 0 _)) by lra.
    destruct (floor_bounds (horizon / tq)) as [_ F]. apply lt_IZR. lra. }
  rewrite (proj2 (Z.leb_le 0 (v_speed_index ev))), (proj2 (Z.ltb_lt (v_speed_index ev) _)), (proj2 (Z.leb_le 0 (Z.of_nat k))), (proj2 (Z.ltb_lt (Z.of_nat k) _)), (proj2 (Z.ltb_lt 0 _)) by lia.
  cbn [andb]. eauto.
Qed.
Print Assumptions C49_built.
Example C49_nonvacuous : exists m, finite_mdp ttc_road ttc_ego (MdpRewards (-1) 1 1 0) 5 1 10 = Ok m /\ mdp_shape m = (3, 3, 10)%Z /\
  nth_error (mdp_terminal m) (Z.to_nat (ravel (3, 3, 10)%Z 2 0 4)) = Some true.
Proof.
  destruct (C49_built ttc_road ttc_ego (MdpRewards (-1) 1 1 0) 5 1 10 eq_refl) as [m E]; try lra.
  - apply (ttc_lane 0). lia.
  - intros w [<- | [<- | []]]; apply (ttc_lane 0); lia.
  - cbn. lia.
  - exists m. split; [exact E|]. destruct (C49_tables _ _ _ _ _ _ _ E) as (g & v & l & t & lane & Eg & Sh & -> & Cl & -> & _ & _ & _ & _ & _ & _ & T).
    assert (l = 3%nat) as -> by (eapply lanes_count_fun; [exact Cl|]; eexists _, _; (split; [reflexivity|]); split; reflexivity).
    assert (Rtrunc (10 / 1) = 10)%Z as R10 by (replace (10 / 1) with 10 by field; unfold Rtrunc; rewrite (proj2 (Rleb_true 0 10)) by lra; apply floor_unique; lra). rewrite R10 in *.
    split; [exact Sh|]. destruct C48_nonvacuous as (g' & Eg' & C1 & _). assert (g' = g) by congruence. subst g'.
    destruct (T 2%nat 0%nat 4%nat) as (_ & (b & B1 & B2) & _); [cbn; lia | lia | cbn; lia|]. rewrite Sh in B1. change (Z.of_nat (Z.to_nat (sg_count (v_grid ttc_ego))), Z.of_nat 3, Z.of_nat (Z.to_nat 10)) with (3, 3, 10)%Z in B1.
    cbn [Z.of_nat Pos.of_succ_nat Pos.succ] in B1. rewrite B1. f_equal. apply B2. now left.
Qed.

(** ** C74: the TimeToCollision observation *)
(** With several speed levels: three speeds by three lanes around the observer; beyond the lowest and the
    highest level the nearest level is repeated, lanes that do not exist read 1. *)
Theorem C74_observation : forall rd ev v pf horizon o lane, 0 < pf -> (forall w, In w (rd_vehicles rd) -> proper_id (v_lane_index w)) ->
  ttc_observe rd ev v pf horizon = Ok o -> li_id (v_lane_index v) = Some lane ->
  forall nl, lanes_count (rd_net rd) (v_lane_index ev) nl -> (0 <= lane < Z.of_nat nl)%Z ->
  (2 <= sg_count (v_grid v))%Z -> (0 <= v_speed_index v < sg_count (v_grid v))%Z ->
  exists g, compute_ttc_grid rd ev v (1 / pf) horizon = Ok g /\ dims 3 3 (Z.to_nat (Rtrunc (horizon / (1 / pf)))) o /\
    forall a b j, (a < 3)%nat -> (b < 3)%nat -> (j < Z.to_nat (Rtrunc (horizon / (1 / pf))))%nat ->
      let level := Z.max 0 (Z.min (v_speed_index v + Z.of_nat a - 1) (sg_count (v_grid v) - 1)) in
      let row := (lane + Z.of_nat b - 1)%Z in
      cell o a b j = if ((0 <=? row) && (row <? Z.of_nat nl))%Z then cell g (Z.to_nat level) (Z.to_nat row) j else 1.
Proof.
  intros rd ev v pf horizon o lane Hp Pid E Ei nl Cn Hl Hc Hs. unfold ttc_observe in E. rewrite (proj2 (Reqb_false pf 0)) in E by lra.
  apply bind_ok in E as (g & Eg & E). apply bind_ok in E as (lanes & El & E). rewrite Ei in E.
  assert (Ht : 0 < 1 / pf) by (unfold Rdiv; rewrite Rmult_1_l; now apply Rinv_0_lt_compat).
  destruct (grid_raises rd ev v (1 / pf) horizon g Ht Pid Eg) as (lanes' & nt & K & El' & Ent & T0 & V0 & Rs). cbv zeta in Rs. rewrite El in El'. injection El' as <-.
  rewrite (lanes_count_fun _ _ _ _ Cn (all_side_len _ _ _ El)) in *. set (n := List.length lanes) in *. rewrite <- Ent. clear Cn.
  destruct (Rs (full_dims _ _ _ _)) as (D & _ & _). set (nv := Z.to_nat (sg_count (v_grid v))) in *. exists g. split; [exact Eg|].
  set (pad := fun plane : list (list R) => map (map (fun _ : R => 1)) plane ++ plane ++ map (map (fun _ => 1)) plane) in *.
  set (l0 := Z.to_nat (Z.of_nat n + lane - 1)) in *. replace (Z.to_nat (Z.of_nat n + lane + 1) + 1)%nat with (l0 + 3)%nat in E by (unfold l0; lia).
  set (cl := map (slice l0 (l0 + 3)) (map pad g)) in *. assert (Lg : List.length g = nv) by apply D. assert (Lc : List.length cl = nv) by (unfold cl; now rewrite !map_length).
  assert (Hnv : (2 <= nv)%nat) by (unfold nv; lia). assert (exists c0 c', cl = c0 :: c') as (c0 & c' & Ecl) by (destruct cl; [cbn in Lc; lia | eauto]).
  rewrite Ecl in E. cbv beta iota in E. rewrite <- Ecl in E. injection E as <-. rewrite Lg.
  set (v0 := Z.to_nat (Z.of_nat nv + v_speed_index v - 1)). replace (Z.to_nat (Z.of_nat nv + v_speed_index v + 1) + 1)%nat with (v0 + 3)%nat by (unfold v0; lia).
  assert (RE : forall p, (p < 3 * nv)%nat -> List.length (repeat_ends cl) = (3 * nv)%nat /\ nth p (repeat_ends cl) [] = nth (clamp nv p) cl []).
  { intros p Hpp. pose proof (repeat_ends_nth cl [] p) as Q. rewrite Lc in Q. apply Q; assumption. }
  assert (LRE : List.length (repeat_ends cl) = (3 * nv)%nat) by (apply (RE 0%nat); lia).
  assert (Layer : forall a, (a < 3)%nat -> nth a (slice v0 (v0 + 3) (repeat_ends cl)) [] = nth (clamp nv (v0 + a)) cl []).
  { intros a Ha. rewrite slice_nth by lia. apply RE. unfold v0. lia. }
  assert (Cla : forall a, (a < 3)%nat -> (clamp nv (v0 + a) < nv)%nat) by (intros; unfold clamp; lia).
  assert (Pl : forall h, (h < nv)%nat -> nth h cl [] = slice l0 (l0 + 3) (pad (nth h g []))).
  { intros h Hh. unfold cl. rewrite (nth_indep _ [] (slice l0 (l0 + 3) (pad []))), map_nth, map_nth by (rewrite !map_length; lia). reflexivity. }
  assert (Lpad : forall h, (h < nv)%nat -> List.length (pad (nth h g [])) = (3 * n)%nat).
  { intros h Hh. destruct (dims_row _ _ _ _ _ D Hh) as [L _]. unfold pad. rewrite !app_length, !map_length, L. lia. }
  assert (Cellpad : forall h b j, (h < nv)%nat -> (b < 3)%nat -> (j < nt)%nat -> nth j (nth b (slice l0 (l0 + 3) (pad (nth h g []))) []) 0 =
     if ((0 <=? lane + Z.of_nat b - 1) && (lane + Z.of_nat b - 1 <? Z.of_nat n))%Z then cell g h (Z.to_nat (lane + Z.of_nat b - 1)) j else 1).
  { intros h b j Hh Hb Hj. rewrite slice_nth by lia. destruct (dims_row _ _ _ _ _ D Hh) as [L F].
    assert (One : forall i, (i < n)%nat -> nth j (nth i (map (map (fun _ : R => 1)) (nth h g [])) []) 0 = 1).
    { intros i Hi. rewrite (nth_indep _ [] (map (fun _ : R => 1) [])), map_nth by (rewrite map_length; lia). rewrite (nth_indep _ 0 1) by (rewrite map_length, (dims_col _ _ _ _ _ _ D Hh Hi); exact Hj). apply (map_nth (fun _ : R => 1) _ 0 j). }
    unfold pad. destruct (Z.leb_spec 0 (lane + Z.of_nat b - 1)) as [P|P]; cbn [andb].
    - rewrite app_nth2 by (rewrite map_length, L; unfold l0; lia). rewrite map_length, L. destruct (Z.ltb_spec (lane + Z.of_nat b - 1) (Z.of_nat n)) as [Q|Q].
      + rewrite app_nth1 by (rewrite L; unfold l0; lia). unfold cell. do 2 f_equal. unfold l0. lia.
      + rewrite app_nth2 by (rewrite L; unfold l0; lia). rewrite L. apply One. unfold l0. lia.
    - rewrite app_nth1 by (rewrite map_length, L; unfold l0; lia). apply One. unfold l0. lia. }
  split.
  - split; [rewrite slice_len; [lia|]; rewrite LRE; unfold v0; lia|].
    apply Forall_forall. intros p Hp'. apply (In_nth _ _ []) in Hp' as (a & Ha & <-). rewrite slice_len in Ha by (rewrite LRE; unfold v0; lia).
    assert (Ha3 : (a < 3)%nat) by lia. rewrite Layer, Pl by auto. specialize (Lpad _ (Cla a Ha3)). split; [rewrite slice_len; unfold l0 in *; lia|].
    apply Forall_forall. intros r Hr. apply slice_in in Hr. unfold pad in Hr. destruct (dims_row _ _ _ _ _ D (Cla a Ha3)) as [_ F]. rewrite Forall_forall in F.
    rewrite !in_app_iff, !in_map_iff in Hr. destruct Hr as [(r0 & <- & H0) | [H0 | (r0 & <- & H0)]]; rewrite ?map_length; now apply F.
  - intros a b j Ha Hb Hj. cbv zeta. unfold cell at 1. rewrite Layer, Pl, Cellpad by auto. destruct (_ && _)%Z; [|reflexivity]. f_equal. unfold clamp, v0, nv. lia.
Qed.
Print Assumptions C74_observation.
(** Bounds: all entries lie in [0, 1], as the declared space says. *)
Theorem C74_bounds : forall rd ev v pf horizon o lane, 0 < pf -> (forall w, In w (rd_vehicles rd) -> proper_id (v_lane_index w)) ->
  ttc_observe rd ev v pf horizon = Ok o -> li_id (v_lane_index v) = Some lane ->
  forall nl, lanes_count (rd_net rd) (v_lane_index ev) nl -> (0 <= lane < Z.of_nat nl)%Z ->
  (2 <= sg_count (v_grid v))%Z -> (0 <= v_speed_index v < sg_count (v_grid v))%Z ->
  forall a b j, 0 <= cell o a b j <= 1.
Proof.
  intros rd ev v pf horizon o lane Hp Pid E Ei nl Cn Hl Hc Hs a b j. destruct (C74_observation rd ev v pf horizon o lane Hp Pid E Ei nl Cn Hl Hc Hs) as (g & Eg & D & C).
  assert (Ht : 0 < 1 / pf) by (unfold Rdiv; rewrite Rmult_1_l; now apply Rinv_0_lt_compat).
  destruct (Nat.ltb_spec a 3) as [Ha|Ha]; [|unfold cell; rewrite (nth_overflow o) by (destruct D; lia); destruct b, j; cbn; lra].
  destruct (Nat.ltb_spec b 3) as [Hb|Hb]; [|unfold cell; rewrite (nth_overflow (nth a o [])) by (destruct (dims_row _ _ _ _ _ D Ha); lia); destruct j; cbn; lra].
  destruct (Nat.ltb_spec j (Z.to_nat (Rtrunc (horizon / (1 / pf))))) as [Hj|Hj]; [|unfold cell; rewrite nth_overflow by (rewrite (dims_col _ _ _ _ _ _ D Ha Hb); exact Hj); lra].
  rewrite C by assumption. cbv zeta. destruct (_ && _)%Z; [|lra].
  match goal with |- 0 <= cell g ?x ?y ?z <= 1 => destruct (C48_values rd ev v (1 / pf) horizon g x y z Ht Pid Eg) as [H | [H | H]]; rewrite H; lra end.
Qed.
Print Assumptions C74_bounds.
(** With a single speed level only two layers are returned instead of three. *)
Theorem C74_single_speed_shape : forall rd ev v pf horizon o lane, 0 < pf -> (forall w, In w (rd_vehicles rd) -> proper_id (v_lane_index w)) ->
  ttc_observe rd ev v pf horizon = Ok o -> li_id (v_lane_index v) = Some lane -> sg_count (v_grid v) = 1%Z -> v_speed_index v = 0%Z ->
  List.length o = 2%nat.
Proof.
  intros rd ev v pf horizon o lane Hp Pid E Ei Hc Hs. unfold ttc_observe in E. rewrite (proj2 (Reqb_false pf 0)) in E by lra.
  apply bind_ok in E as (g & Eg & E). apply bind_ok in E as (lanes & El & E). rewrite Ei in E.
  assert (Ht : 0 < 1 / pf) by (unfold Rdiv; rewrite Rmult_1_l; now apply Rinv_0_lt_compat).
  destruct (grid_raises rd ev v (1 / pf) horizon g Ht Pid Eg) as (lanes' & nt & K & El' & Ent & T0 & V0 & Rs). cbv zeta in Rs.
  destruct (Rs (full_dims _ _ _ _)) as ((Lg & _) & _ & _). rewrite Hc in Lg. change (Z.to_nat 1) with 1%nat in Lg. destruct g as [|p [|p' g]]; try discriminate Lg.
  cbn [map List.length] in E. rewrite Hs in E. injection E as <-. reflexivity.
Qed.
Print Assumptions C74_single_speed_shape.
(** Before the road exists: zeros of the same shape. *)
Theorem C74_before_reset : forall pf horizon, 0 < pf -> ttc_observe_no_road pf horizon = full3 0 3 3 (Z.to_nat (Rtrunc (horizon / (1 / pf)))).
Proof. intros pf horizon Hp. unfold ttc_observe_no_road. do 3 f_equal. field. lra. Qed.
Print Assumptions C74_before_reset.
Example C74_nonvacuous : exists o, ttc_observe ttc_road ttc_ego ttc_ego 1 10 = Ok o /\ cell o 2 1 4 = 1 /\ cell o 0 0 0 = 1 /\ cell o 0 1 4 = 0.
Proof.
  assert (exists o, ttc_observe ttc_road ttc_ego ttc_ego 1 10 = Ok o) as [o E].
  { unfold ttc_observe. rewrite (proj2 (Reqb_false 1 0)) by lra. replace (1 / 1) with 1 by field. destruct ttc_exists as [g Eg]. rewrite Eg. cbn [bind].
    change (all_side_lanes (rd_net ttc_road) (v_lane_index ttc_ego)) with (Ok [("0", "1", Some 0%Z); ("0", "1", Some 1%Z); ("0", "1", Some 2%Z)]%string). cbn [bind li_id ttc_ego demo_controlled v_lane_index snd].
    destruct (C48_dimensions ttc_road ttc_ego ttc_ego 1 10 g) as (n & t & _ & _ & L & _); try lra; [intros w [<- | [<- | []]]; cbn; lia | exact Eg |].
    destruct g as [|p g]; [discriminate L|]. cbn [map]. eauto. }
  exists o. split; [exact E|].
  destruct (C74_observation ttc_road ttc_ego ttc_ego 1 10 o 0 ltac:(lra) ltac:(intros w [<- | [<- | []]]; cbn; lia) E eq_refl 3%nat) as (g & Eg & _ & C).
  - eexists _, _. split; [reflexivity|]. split; reflexivity.
  - lia.
  - cbn. lia.
  - cbn. lia.
  - replace (10 / (1 / 1)) with 10 in C by field. assert (Rtrunc 10 = 10)%Z as R10 by (unfold Rtrunc; rewrite (proj2 (Rleb_true 0 10)) by lra; apply floor_unique; lra). rewrite R10 in C. change (Z.to_nat 10) with 10%nat in C.
    replace (1 / 1) with 1 in Eg by field. destruct C48_nonvacuous as (g' & Eg' & C1 & _ & C2). assert (g' = g) by congruence. subst g'.
    rewrite !C by lia. split; [exact C1|]. split; [reflexivity | exact C2].
Qed.
