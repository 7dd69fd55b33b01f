(** Theorems about car following (C90, C91). *)
From Verif Require Import Prelude M_Utils M_Lane M_Road M_Vehicle M_Kinematics M_Control M_Behavior
  S_Geometry S_Road S_Vehicle S_Control S_Behavior S_Following P_Base P_Utils P_Lane P_Graph P_Bfs P_Query P_Kin P_Crash P_Control P_Behavior P_Traffic P_Following
  T_Road T_Kin T_Control T_Behavior.
From Coq Require Import Lia Lra.
Open Scope R_scope.

(** ** C90: IDM vehicles do not run into what is ahead *)
(** Behind any leader that never reverses and never brakes harder than 6 m/s2, an
    IDM vehicle that starts with room to brake keeps more than a vehicle length
    (5 m, centre to centre) at every frame, for runs of any length. *)
Theorem C90_never_rear_ends : forall dt rd frames i v l st en k lead,
  0 < dt <= 1/15 -> simulates dt rd frames -> nth_error (rd_vehicles rd) i = Some v ->
  v_kind v = KIDM -> v_par v = idm_default -> v_enable_lane_change v = false ->
  get_lane (rd_net rd) (v_target_lane v) = Ok l -> l_geom l = GStraight st en -> st <> en ->
  snd (l_local l (v_pos v)) = 0 -> v_heading v = straight_heading st en + 2 * PI * IZR k ->
  -30 <= v_target_speed v <= 30 -> 0 <= v_speed v <= 30 ->
  leads dt 6 lead ->
  (forall n rdn, nth_error (rd :: frames) n = Some rdn -> follows i l (fst (lead n)) (snd (lead n)) rdn) ->
  fst (lead 0%nat) - fst (l_local l (v_pos v)) >= 27/5 ->
  fst (lead 0%nat) - fst (l_local l (v_pos v)) >= 27/5 + braking_distance 6 dt (v_speed v) - braking_distance 6 dt (snd (lead 0%nat)) ->
  forall n rdn, nth_error (rd :: frames) n = Some rdn -> exists w, nth_error (rd_vehicles rdn) i = Some w /\
    5 < fst (lead n) - fst (l_local l (v_pos w)) /\ snd (l_local l (v_pos w)) = 0 /\ v_speed w <= 30 /\
    v_target_lane w = v_target_lane v.
Proof.
  intros dt rd frames i v l st en k lead Hd Sim Nv K Pa El G Gm N D H Ht Hv Ld Fo R1 R2 n rdn Nn.
  destruct (follow_run dt i l st en k lead Hd Gm N rd frames Sim 0%nat) with (v := v) (n := n) (rdn := rdn) as (w & Nw & _ & Tw & _ & Dw & Vw & Iw); try assumption.
  - intros m. apply Ld.
  - intros m. destruct (Ld m) as (A & _ & B). split; assumption.
  - lra.
  - split; [|lra]. intros _. unfold braking_distance, braking_room in *. split; [lra|]. replace (2 * 6) with 12 in R2 by ring. lra.
  - exists w. split; [exact Nw|]. split; [exact (keeps_gap _ _ _ _ Hd Iw)|]. tauto.
Qed.
Print Assumptions C90_never_rear_ends.
(** Alone on a one-lane road with a stopped obstacle ahead and room to brake: the
    vehicle never hits it, whatever the number of frames. *)
Theorem C90_never_hits_obstacle : forall dt rd frames a b l st en k v o,
  0 < dt <= 1/15 -> simulates dt rd frames ->
  rd_net rd = add_lane [] a b l -> rd_vehicles rd = [v] -> rd_objects rd = [o] ->
  l_geom l = GStraight st en -> st <> en ->
  v_kind v = KIDM -> v_par v = idm_default -> v_enable_lane_change v = false -> v_crashed v = false ->
  v_lane_index v = (a, b, Some 0%Z) -> v_target_lane v = (a, b, Some 0%Z) ->
  snd (l_local l (v_pos v)) = 0 -> v_heading v = straight_heading st en + 2 * PI * IZR k ->
  -30 <= v_target_speed v <= 30 -> 0 <= v_speed v <= 30 ->
  o_kind o = KObstacle -> o_speed o = 0 -> o_id o <> v_id v ->
  Rabs (snd (l_local l (o_pos o))) <= l_width l / 2 + 1 -> 0 <= fst (l_local l (o_pos o)) <= l_length l ->
  fst (l_local l (o_pos o)) - fst (l_local l (v_pos v)) >= 27/5 + braking_distance 6 dt (v_speed v) ->
  forall rdn, In rdn frames -> exists w, rd_vehicles rdn = [w] /\ rd_objects rdn = [o] /\ v_crashed w = false /\
    5 < fst (l_local l (o_pos o)) - fst (l_local l (v_pos w)).
Proof.
  intros dt rd frames a b l st en k v o Hd Sim Ng Hv Ho Gm N K Pa El C Li Tl D H Ht Sp Ko So Io Ow Ol R0 rdn Hr.
  destruct (approaching_run a b l st en k dt o Hd Gm N rd frames Sim v) with (rdn := rdn) as (w & Aw & Iw).
  - unfold approaching. repeat (split; [first [assumption | lra]|]). exact (proj2 Ol).
  - split; [|lra]. intros _. unfold braking_distance, braking_room in *. replace (2 * 6) with 12 in R0 by ring.
    assert (0 <= v_speed v * v_speed v) by nra. assert (0 <= v_speed v * dt) by (apply Rmult_le_pos; lra). lra.
  - now right.
  - exists w. destruct Aw as (_ & Hw & How & _ & _ & _ & Cw & _). split; [exact Hw|]. split; [exact How|]. split; [exact Cw|]. exact (keeps_gap _ _ _ _ Hd Iw).
Qed.
Print Assumptions C90_never_hits_obstacle.

(** A 1000 m lane, a vehicle at 25 m/s and an obstacle 100 m ahead. *)
Definition quiet_lane : lane := default_lane (GStraight (0, 0) (1000, 0)).
Definition quiet_car : vehicle :=
  Vehicle 0 KIDM (0, 0) 0 25 ("0", "1", Some 0%Z)%string 0 0 false true [] ("0", "1", Some 0%Z)%string 30 None 1%Z
    grid_default false 0 idm_default false 0%Z false.
Definition quiet_rock : object := Object 1 KObstacle (100, 1) 0 0 false.
Definition quiet_road : road := Road (add_lane [] "0" "1" quiet_lane) [quiet_car] [quiet_rock] false 0.
Lemma quiet_local p : l_local quiet_lane p = p.
Proof.
  unfold l_local, quiet_lane, default_lane. cbn [l_geom geom_local]. unfold straight_local, straight_lat, straight_dir.
  replace (vnorm (vsub (1000, 0) (0, 0))) with 1000.
  - destruct p as [x y]. unfold vsub, vscal, vdot. cbn [fst snd]. apply f_equal2; field.
  - unfold vnorm, vsub. cbn [fst snd]. symmetry. replace (_ + _) with (1000 * 1000) by ring. apply sqrt_square. lra.
Qed.
Lemma quiet_length : l_length quiet_lane = 1000.
Proof. unfold l_length, quiet_lane, default_lane. cbn [l_geom geom_length]. unfold vnorm, vsub. cbn [fst snd]. replace (_ + _) with (1000 * 1000) by ring. apply sqrt_square. lra. Qed.
Lemma quiet_heading : straight_heading (0, 0) (1000, 0) = 0.
Proof.
  unfold straight_heading. cbn [fst snd]. replace (0 - 0) with 0 by ring. replace (1000 - 0) with 1000 by ring.
  unfold atan2. rewrite Rltb_lt by lra. replace (0 / 1000) with 0 by field. apply atan_0.
Qed.
Lemma quiet_runnable : runnable quiet_road.
Proof.
  split; [exists [("0", "1", quiet_lane)]%string; reflexivity|]. split; [discriminate|]. split.
  - intros v [<-|[]]. assert (L : lane_exists (rd_net quiet_road) ("0", "1", Some 0%Z)%string).
    { exists 0%nat, quiet_lane. split; [reflexivity|]. eexists _, _. split; [reflexivity|]. split; reflexivity. }
    split; [exact L|]. intros _. split; [exact L | exact Logic.I].
  - left. intros v [<-|[]]. discriminate.
Qed.
Example C90_obstacle_nonvacuous : forall m, exists frames, List.length frames = m /\ simulates (1/15) quiet_road frames /\
  forall rdn, In rdn frames -> exists w, rd_vehicles rdn = [w] /\ v_crashed w = false /\ fst (v_pos w) < 95.
Proof.
  intros m. destruct (simulates_total (1/15) m quiet_road quiet_runnable) as (fr & Hl & Sim). exists fr. split; [exact Hl|]. split; [exact Sim|].
  intros rdn Hr. destruct (C90_never_hits_obstacle (1/15) quiet_road fr "0" "1" quiet_lane (0, 0) (1000, 0) 0 quiet_car quiet_rock) with (rdn := rdn) as (w & Hw & _ & C & G); try reflexivity; try assumption; try (cbn; lra).
  - intros [= Q]. lra.
  - rewrite quiet_local. reflexivity.
  - rewrite quiet_heading. cbn. ring.
  - discriminate.
  - rewrite quiet_local. cbn. unfold DEFAULT_WIDTH. rewrite Rabs_pos_eq; lra.
  - rewrite quiet_local, quiet_length. cbn. lra.
  - rewrite !quiet_local. unfold braking_distance. cbn. lra.
  - exists w. split; [exact Hw|]. split; [exact C|]. rewrite !quiet_local in G. cbn in G. lra.
Qed.
(** The hypotheses of the first theorem are met by the same run, for any number of
    frames, with the obstacle as the leader. *)
Example C90_leader_nonvacuous : forall m, exists frames, List.length frames = m /\ simulates (1/15) quiet_road frames /\
  leads (1/15) 6 (fun _ => (100, 0)) /\
  (forall n rdn, nth_error (quiet_road :: frames) n = Some rdn -> follows 0 quiet_lane 100 0 rdn) /\
  100 - fst (l_local quiet_lane (v_pos quiet_car)) >= 27/5 + braking_distance 6 (1/15) (v_speed quiet_car) - braking_distance 6 (1/15) 0.
Proof.
  intros m. destruct (simulates_total (1/15) m quiet_road quiet_runnable) as (fr & Hl & Sim). exists fr. split; [exact Hl|]. split; [exact Sim|].
  split; [intros n; cbn; lra|]. split; [|rewrite quiet_local; unfold braking_distance; cbn; lra].
  intros n rdn Nn. apply nth_error_In in Nn.
  assert (Ap : approaching "0" "1" quiet_lane (0, 0) (1000, 0) 0 quiet_car quiet_rock quiet_road).
  { unfold approaching. rewrite !quiet_local, quiet_length, quiet_heading. cbn. unfold DEFAULT_WIDTH.
    repeat (split; [first [reflexivity | lra | discriminate | ring]|]). split; [rewrite Rabs_pos_eq; lra | lra]. }
  destruct (approaching_run "0" "1" quiet_lane (0, 0) (1000, 0) 0 (1/15) quiet_rock) with (rd := quiet_road) (frames := fr) (v := quiet_car) (rdn := rdn) as (w & Aw & Iw); try assumption; try reflexivity.
  - lra.
  - intros [= Q]. lra.
  - rewrite !quiet_local. unfold keeps_room, braking_room. cbn [fst v_pos v_speed quiet_car quiet_rock o_pos]. split; [intros _; split; lra | intros; lra].
  - pose proof (keeps_gap (1/15) _ _ _ ltac:(lra) Iw) as Gap. rewrite !quiet_local in Gap.
    destruct Aw as (Ng & Hv & Ho & _ & _ & _ & C & Li & _ & _ & _ & _ & _ & _ & _ & Oi & _).
    assert (Gl : get_lane (rd_net rdn) (v_lane_index w) = Ok quiet_lane) by (rewrite Ng, Li; apply one_lane_get).
    assert (Rk : e_velocity (EO quiet_rock) = vscal 0 (cos (l_heading quiet_lane 100), sin (l_heading quiet_lane 100))).
    { unfold e_velocity, vscal. cbn. apply f_equal2; ring. }
    unfold follows. destruct (neighbours_total rdn (v_id w) (v_pos w) _ _ Gl) as [[f r] Em].
    destruct (neighbours_spec _ _ _ _ _ _ _ Gl Em) as (Hf & Hn & _). cbv zeta in Hf, Hn.
    exists w, (EO quiet_rock), r. rewrite Hv. split; [reflexivity|]. split; [exact C|]. split; [exact Gl|].
    rewrite quiet_length, !quiet_local. cbn [e_pos quiet_rock o_pos fst] in *. split; [lra|]. split; [|split; [reflexivity | exact Rk]].
    unfold neighbour_vehicles. rewrite Em. f_equal. f_equal. f_equal.
    destruct f as [e|].
    + destruct (Hf e eq_refl) as (Ie & (Ne & _) & _). unfold rd_entities in Ie. rewrite Hv, Ho in Ie. cbn in Ie.
      destruct Ie as [<-|[<-|[]]]; [now elim Ne | reflexivity].
    + exfalso. specialize (Hn eq_refl (EO quiet_rock)). rewrite !quiet_local in Hn. cbn [e_pos quiet_rock o_pos fst] in Hn.
      assert (100 < fst (v_pos w)); [|lra]. apply Hn.
      * unfold rd_entities. rewrite Hv, Ho. right. now left.
      * unfold candidate. rewrite quiet_local, quiet_length. cbn. unfold DEFAULT_WIDTH. rewrite Rabs_pos_eq by lra. split; [|split; [reflexivity | lra]].
        exact Oi.
Qed.

(** ** C91: linear vehicles behind something *)
(** The exact law: accelerate towards the target speed, minus a penalty when closing
    in and a penalty when nearer than the safe distance 10 + 2.5 v. *)
Theorem C91_exact : forall g self e f l p1 p2 p3, v_kind self = KLinear -> is_controlled (v_kind e) = true ->
  get_lane g (v_lane_index e) = Ok l -> ip_acc_par (v_par self) = (p1, p2, p3) ->
  let gap := fst (l_local l (e_pos f)) - fst (l_local l (v_pos e)) in
  let safe := ip_distance (v_par self) + Rmax (v_speed e) 0 * ip_time (v_par self) in
  acceleration g self (Some (EV e)) None = Ok (p1 * (v_target_speed e - v_speed e)) /\
  acceleration g self (Some (EV e)) (Some f) =
    Ok (p1 * (v_target_speed e - v_speed e) - p2 * Rmax (v_speed e - e_speed f) 0 - p3 * Rmax (safe - gap) 0).
Proof.
  intros g self e f l p1 p2 p3 K C G P gap safe. unfold acceleration. rewrite K. unfold linear_acceleration, linear_features, lane_distance_to, lane_distance.
  rewrite C, G, P. cbn [negb bind fst snd]. fold gap safe. split; f_equal; [ring|].
  replace (Rmin (e_speed f - v_speed e) 0) with (- Rmax (v_speed e - e_speed f) 0) by (unfold Rmin, Rmax; repeat destruct Rle_dec; lra).
  replace (Rmin (gap - safe) 0) with (- Rmax (safe - gap) 0) by (unfold Rmin, Rmax; repeat destruct Rle_dec; lra). ring.
Qed.
Print Assumptions C91_exact.
(** Something ahead only slows down, and has no effect exactly when it is not slower
    and beyond the safe distance. *)
Theorem C91_front_only_slows : forall g self e f l p1 p2 p3 a0 a1, v_kind self = KLinear -> is_controlled (v_kind e) = true ->
  get_lane g (v_lane_index e) = Ok l -> ip_acc_par (v_par self) = (p1, p2, p3) -> 0 < p2 -> 0 < p3 ->
  acceleration g self (Some (EV e)) None = Ok a0 -> acceleration g self (Some (EV e)) (Some f) = Ok a1 ->
  a1 <= a0 /\
  (a1 = a0 <-> v_speed e <= e_speed f /\
     ip_distance (v_par self) + Rmax (v_speed e) 0 * ip_time (v_par self) <= fst (l_local l (e_pos f)) - fst (l_local l (v_pos e))).
Proof.
  intros g self e f l p1 p2 p3 a0 a1 K C G P H2 H3 E0 E1. destruct (C91_exact g self e f l p1 p2 p3 K C G P) as [X0 X1]. cbv zeta in X1.
  rewrite E0 in X0. rewrite E1 in X1. injection X0 as ->. injection X1 as ->.
  set (gap := fst (l_local l (e_pos f)) - fst (l_local l (v_pos e))). set (safe := ip_distance (v_par self) + Rmax (v_speed e) 0 * ip_time (v_par self)).
  set (d := Rmax (v_speed e - e_speed f) 0). set (m := Rmax (safe - gap) 0).
  assert (D : 0 <= d /\ (d = 0 <-> v_speed e <= e_speed f)) by (unfold d, Rmax; destruct Rle_dec; split; try lra; split; intros; lra).
  assert (M : 0 <= m /\ (m = 0 <-> safe <= gap)) by (unfold m, Rmax; destruct Rle_dec; split; try lra; split; intros; lra).
  destruct D as [D0 D1], M as [M0 M1]. assert (0 <= p2 * d) by (apply Rmult_le_pos; lra). assert (0 <= p3 * m) by (apply Rmult_le_pos; lra).
  split; [lra|]. rewrite <- D1, <- M1. split.
  - intros Q. assert (A : p2 * d = 0) by lra. assert (B : p3 * m = 0) by lra. apply Rmult_integral in A, B. split; [destruct A | destruct B]; lra.
  - intros [-> ->]. ring.
Qed.
Print Assumptions C91_front_only_slows.
(** Behind a leader at constant speed u below the target, the only distance at which
    the follower keeps that speed is shorter than the safe distance by
    p1/p3 (target - u). *)
Theorem C91_equilibrium_gap : forall g self e f l p1 p2 p3, v_kind self = KLinear -> is_controlled (v_kind e) = true ->
  get_lane g (v_lane_index e) = Ok l -> ip_acc_par (v_par self) = (p1, p2, p3) -> 0 < p1 -> 0 < p3 ->
  0 <= v_speed e < v_target_speed e -> e_speed f = v_speed e ->
  (acceleration g self (Some (EV e)) (Some f) = Ok 0 <->
   fst (l_local l (e_pos f)) - fst (l_local l (v_pos e)) =
     ip_distance (v_par self) + v_speed e * ip_time (v_par self) - p1 / p3 * (v_target_speed e - v_speed e)).
Proof.
  intros g self e f l p1 p2 p3 K C G P H1 H3 V U. destruct (C91_exact g self e f l p1 p2 p3 K C G P) as [_ X]. cbv zeta in X. rewrite X, U.
  rewrite (Rmax_left (v_speed e) 0) by lra. replace (v_speed e - v_speed e) with 0 by ring. rewrite (Rmax_left 0 0) by lra.
  set (gap := fst (l_local l (e_pos f)) - fst (l_local l (v_pos e))). set (safe := ip_distance (v_par self) + v_speed e * ip_time (v_par self)).
  set (t := v_target_speed e - v_speed e). assert (Ht : 0 < t) by (unfold t; lra). assert (Hp : 0 < p1 * t) by (apply Rmult_lt_0_compat; lra).
  assert (Pt : p3 * (p1 / p3 * t) = p1 * t) by (field; lra).
  split.
  - intros E. injection E as E. assert (Q : p3 * Rmax (safe - gap) 0 = p1 * t) by lra.
    assert (R0 : Rmax (safe - gap) 0 = safe - gap) by (revert Q; clear - Hp; unfold Rmax; destruct Rle_dec; intros; lra).
    rewrite R0 in Q. apply (Rmult_eq_reg_l p3); [|lra]. lra.
  - intros ->. f_equal. replace (safe - (safe - p1 / p3 * t)) with (p1 / p3 * t) by ring. rewrite Rmax_left; [lra|].
    apply Rmult_le_pos; [|lra]. apply Rlt_le, Rdiv_lt_0_compat; lra.
Qed.
Print Assumptions C91_equilibrium_gap.
(** Consequence: an AggressiveVehicle wanting 30 m/s, stopped bumper to bumper behind
    a stopped one (5 m centre to centre), accelerates into it; the LinearVehicle and
    DefensiveVehicle defaults brake. *)
Theorem C91_aggressive_pushes : forall g self e f l, v_kind self = KLinear -> is_controlled (v_kind e) = true ->
  get_lane g (v_lane_index e) = Ok l -> v_speed e = 0 -> v_target_speed e = 30 -> e_speed f = 0 ->
  fst (l_local l (e_pos f)) - fst (l_local l (v_pos e)) = 5 ->
  exists a, acceleration g self (Some (EV e)) (Some f) = Ok a /\
    (v_par self = aggressive_default -> 0 < a) /\ (v_par self = linear_default -> a < 0) /\ (v_par self = defensive_default -> a < 0).
Proof.
  intros g self e f l K C G V T U Gp. destruct (ip_acc_par (v_par self)) as [[p1 p2] p3] eqn:P.
  destruct (C91_exact g self e f l p1 p2 p3 K C G P) as [_ X]. cbv zeta in X. rewrite V, T, U, Gp in X. replace (0 - 0) with 0 in X by ring. rewrite (Rmax_left 0 0) in X by lra.
  eexists. split; [exact X|]. split; [|split]; intros Pa; rewrite Pa in *; cbn in P; injection P as <- <- <-; cbn; unfold V_LENGTH; rewrite Rmax_left by lra; lra.
Qed.
Print Assumptions C91_aggressive_pushes.
Example C91_nonvacuous : exists a, acceleration demo_net (demo_controlled KLinear (0, 0) 20 25 0) (Some (EV (demo_controlled KLinear (0, 0) 20 25 0)))
  (Some (EV (demo_controlled KLinear (20, 0) 15 25 0))) = Ok a /\ a < 0.
Proof.
  destruct (C91_exact demo_net (demo_controlled KLinear (0, 0) 20 25 0) (demo_controlled KLinear (0, 0) 20 25 0) (EV (demo_controlled KLinear (20, 0) 15 25 0))
    _ (3/10) (3/10) 2 eq_refl eq_refl (demo_get 0 ltac:(lia)) eq_refl) as [_ X].
  eexists. split; [exact X|]. rewrite !demo_local by lia. cbn. unfold V_LENGTH. rewrite (Rmax_left (20 - 15) 0), (Rmax_left 20 0) by lra. rewrite Rmax_left; lra.
Qed.
