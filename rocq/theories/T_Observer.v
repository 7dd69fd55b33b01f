(** C88: the interval predictions of an IntervalVehicle (prediction.py:75-175, 336-369). *)
From Coq Require Import Lia Lra.
From Verif Require Import Prelude M_Utils M_Lane M_Road M_Vehicle M_Kinematics M_Control M_Behavior M_Interval M_Observer S_Interval S_Observer.
From Verif Require Import P_Base P_Utils P_Interval P_Query P_Observer T_Kin T_Control T_Behavior T_Regulation.
Open Scope R_scope.

(** What is assumed of the interval before a step: positive speeds, headings between
    -pi and 3 pi / 2 and less than half a turn away from the followed lane. *)
Definition within_reach (i : vinterval) (psi_l : R) : Prop :=
  0 < fst (vi_speed i) /\ - PI <= fst (vi_heading i) /\ snd (vi_heading i) <= 3 * PI / 2 /\
  - PI <= fst (vi_heading i) - psi_l /\ snd (vi_heading i) - psi_l < PI.
(** Parameter boxes with a non-negative steering gain that the time step can follow. *)
Definition usable (theta_b : list R * list R) (dt : R) : Prop := 0 <= dt /\ 0 <= entry (fst theta_b) 0 /\ entry (snd theta_b) 0 * dt <= 1.
(** The driver modelled by vehicle [v]: any parameters of the boxes, any possible front vehicle. *)
Definition driven_step (rd : road) (known : nat -> option vinterval) (theta_a theta_b : list R * list R) (v : vehicle) (own l : lane) (dt : R) (s s' : motion) : Prop :=
  let own_psi := l_heading own (fst (l_local own (v_pos v))) in
  let psi_l := l_heading l (fst (l_local l (v_pos v)) + v_speed v * PURSUIT_TAU) in
  exists fi f tha thb, get_front_interval rd known v = Ok fi /\ possible_front fi f /\
    List.length tha = 3%nat /\ boxed (fst theta_a) tha (snd theta_a) /\ List.length thb = 2%nat /\ boxed (fst theta_b) thb (snd theta_b) /\
    drives (ip_acc_max (v_par v)) (ip_distance (v_par v)) (ip_time (v_par v)) (v_target_speed v) (cos own_psi, sin own_psi)
      (fun p => snd (l_local l p)) psi_l f tha thb dt s s'.

(** Following a straight lane, the observer encloses every possible motion. *)
Theorem C88_observer_encloses rd known theta_a theta_b v i dt i' own l st en s s' :
  get_lane (rd_net rd) (v_lane_index v) = Ok own -> get_lane (rd_net rd) (v_target_lane v) = Ok l -> l_geom l = GStraight st en ->
  0 <= ip_time (v_par v) -> 0 <= ip_acc_max (v_par v) -> usable theta_b dt ->
  within_reach i (l_heading l (fst (l_local l (v_pos v)) + v_speed v * PURSUIT_TAU)) ->
  observer_step rd known theta_a theta_b v i dt = Ok i' ->
  possible i s -> driven_step rd known theta_a theta_b v own l dt s s' -> possible i' s'.
Proof.
  intros Go Gl G Ht Ha (Hd & Hk & Hkd) (R1 & R2 & R3 & R4 & R5) E Ps (fi & f & tha & thb & Ef & Pf & La & Ba & Lb & Bb & D).
  unfold observer_step in E. rewrite Ef, Go, Gl in E. cbn [bind] in E. injection E as <-.
  eapply law_encloses; eassumption.
Qed.
Print Assumptions C88_observer_encloses.

(** Any number of steps: [steps] lists the successive situations, the intervals and the motions. *)
Inductive predicts (theta_a theta_b : list R * list R) : list (road * (nat -> option vinterval) * vehicle * R) -> vinterval -> motion -> vinterval -> motion -> Prop :=
| predicts_now : forall i s, predicts theta_a theta_b [] i s i s
| predicts_step : forall rd known v dt steps i s i1 s1 i2 s2 own l st en,
    get_lane (rd_net rd) (v_lane_index v) = Ok own -> get_lane (rd_net rd) (v_target_lane v) = Ok l -> l_geom l = GStraight st en ->
    0 <= ip_time (v_par v) -> 0 <= ip_acc_max (v_par v) -> usable theta_b dt ->
    within_reach i (l_heading l (fst (l_local l (v_pos v)) + v_speed v * PURSUIT_TAU)) ->
    observer_step rd known theta_a theta_b v i dt = Ok i1 -> driven_step rd known theta_a theta_b v own l dt s s1 ->
    predicts theta_a theta_b steps i1 s1 i2 s2 -> predicts theta_a theta_b ((rd, known, v, dt) :: steps) i s i2 s2.
Theorem C88_along_a_prediction theta_a theta_b steps i s i' s' : possible i s -> predicts theta_a theta_b steps i s i' s' -> possible i' s'.
Proof.
  intros P H. induction H as [|rd known v dt steps i s i1 s1 i2 s2 own l st en Go Gl G Ht Ha U W E D _ IH]; [exact P|]. apply IH.
  eapply C88_observer_encloses; eassumption.
Qed.
Print Assumptions C88_along_a_prediction.

(** ** The default mode *)
Lemma product_point a b : intervals_product (a, a) (b, b) = (a * b, a * b).
Proof.
  unfold intervals_product, intervals_product_with, pos_part, neg_part, Rmax. cbn [fst snd].
  repeat destruct (Rle_dec _ _); f_equal; try lra; nra.
Qed.
Lemma cos_point x : cos_interval (x, x) = (cos x, cos x).
Proof.
  unfold cos_interval. cbn [fst snd]. rewrite Rmin_left, Rmax_left by lra. f_equal.
  - destruct (Rleb x PI && Rleb PI x)%bool eqn:E; [|reflexivity]. apply Bool.andb_true_iff in E. destruct E as [A B]. apply Rleb_true in A, B. replace x with PI by lra. now rewrite cos_PI.
  - destruct (Rleb x 0 && Rleb 0 x)%bool eqn:E; [|reflexivity]. apply Bool.andb_true_iff in E. destruct E as [A B]. apply Rleb_true in A, B. replace x with 0 by lra. now rewrite cos_0.
Qed.
Lemma sin_point x : sin_interval (x, x) = (sin x, sin x).
Proof. rewrite sin_as_cos. cbn [fst snd]. rewrite cos_point, cos_shift. reflexivity. Qed.
Lemma observer_position rd known theta_a theta_b v p s h dt i' : observer_step rd known theta_a theta_b v (certain p s h) dt = Ok i' ->
  vi_pos i' = ((fst p + s * cos h * dt - dt, snd p + s * sin h * dt - dt), (fst p + s * cos h * dt + dt, snd p + s * sin h * dt + dt)).
Proof.
  unfold observer_step. destruct (get_front_interval rd known v) as [fi|]; [|discriminate]. cbn [bind].
  destruct (get_lane (rd_net rd) (v_lane_index v)) as [own|]; [|discriminate]. cbn [bind].
  destruct (get_lane (rd_net rd) (v_target_lane v)) as [l|]; [|discriminate]. cbn [bind]. intros H. apply (f_equal (fun r => match r with Ok i => vi_pos i | Err _ => vi_pos i' end)) in H.
  cbn beta iota in H. rewrite <- H. unfold observer_law, certain. cbn [vi_pos vi_speed vi_heading fst snd]. rewrite cos_point, sin_point, !product_point. unfold grow. cbn [fst snd].
  f_equal; f_equal; ring.
Qed.
(** By default only the two extreme corners are propagated: each at its own speed in its
    own direction, plus the perturbation. *)
Theorem C88_default_moves_corners rd known theta_a theta_b v i dt i' :
  partial_observer_step rd known theta_a theta_b v i dt = Ok i' ->
  vi_pos i' = ((fst (fst (vi_pos i)) + fst (vi_speed i) * cos (fst (vi_heading i)) * dt - dt, snd (fst (vi_pos i)) + fst (vi_speed i) * sin (fst (vi_heading i)) * dt - dt),
               (fst (snd (vi_pos i)) + snd (vi_speed i) * cos (snd (vi_heading i)) * dt + dt, snd (snd (vi_pos i)) + snd (vi_speed i) * sin (snd (vi_heading i)) * dt + dt)).
Proof.
  unfold partial_observer_step. destruct (observer_step _ _ _ _ _ (certain (fst (vi_pos i)) _ _) _) as [lo|] eqn:E1; [|discriminate]. cbn [bind].
  destruct (observer_step _ _ _ _ _ (certain (snd (vi_pos i)) _ _) _) as [hi|] eqn:E2; [|discriminate]. cbn [bind]. intros H.
  apply (f_equal (fun r => match r with Ok i => vi_pos i | Err _ => vi_pos i' end)) in H. cbn beta iota in H. rewrite <- H. cbn [vi_pos].
  rewrite (observer_position _ _ _ _ _ _ _ _ _ _ E1), (observer_position _ _ _ _ _ _ _ _ _ _ E2). reflexivity.
Qed.
Print Assumptions C88_default_moves_corners.

(** The first step, from a certain state, is that of the observer: it encloses. *)
Theorem C88_default_first_step rd known theta_a theta_b v p s h dt i' :
  partial_observer_step rd known theta_a theta_b v (certain p s h) dt = Ok i' ->
  exists i'', observer_step rd known theta_a theta_b v (certain p s h) dt = Ok i'' /\
  forall m, possible i'' m -> possible i' m.
Proof.
  unfold partial_observer_step. cbn [certain vi_pos vi_speed vi_heading fst snd]. fold (certain p s h).
  destruct (observer_step rd known theta_a theta_b v (certain p s h) dt) as [o|]; [|discriminate]. cbn [bind]. intros H. exists o. split; [reflexivity|].
  injection H as <-. intros m (A & B & C & D). unfold possible. cbn [vi_pos vi_speed vi_heading fst snd].
  split; [exact A|]. split; [exact B|]. split; [exact C|]. rewrite Rmin_left, Rmax_left by lra. exact D.
Qed.
Print Assumptions C88_default_first_step.

(** Later the default prediction loses possible motions: at 30 m/s with a heading between
    -60 and 60 degrees, a vehicle driving straight ahead leaves the predicted interval. *)
Theorem C88_default_prediction_escapes rd known theta_a theta_b v own l (pos : vec * vec) dt fi f tha thb i' :
  get_front_interval rd known v = Ok fi -> possible_front fi f -> 0 < dt ->
  List.length tha = 3%nat -> boxed (fst theta_a) tha (snd theta_a) -> List.length thb = 2%nat -> boxed (fst theta_b) thb (snd theta_b) ->
  fst (fst pos) <= fst (snd pos) -> snd (fst pos) <= snd (snd pos) ->
  let i := VInterval pos (30, 30) (- PI / 3, PI / 3) in
  partial_observer_step rd known theta_a theta_b v i dt = Ok i' ->
  exists s s', possible i s /\ driven_step rd known theta_a theta_b v own l dt s s' /\ ~ possible i' s'.
Proof.
  intros Ef Pf Hd La Ba Lb Bb Hx Hy i E. pose proof (C88_default_moves_corners _ _ _ _ _ _ _ _ E) as P. cbn [vi_pos vi_speed vi_heading fst snd i] in P.
  pose proof PI_RGT_0. set (s := Motion (snd pos) 30 0). exists s.
  eexists (Motion (fst (snd pos) + dt * (30 * cos 0 + 0), snd (snd pos) + dt * (30 * sin 0 + 0)) _ _).
  split; [unfold possible, s, i; cbn [m_pos m_speed m_heading vi_pos vi_speed vi_heading fst snd]; repeat split; first [exact Hx | exact Hy | apply Rle_refl | lra]|]. split.
  - exists fi, f, tha, thb. do 6 (split; [assumption|]). exists 0, 0, 0. rewrite Rabs_R0.
    split; [lra|]. split; [lra|]. split; [lra|]. split; [reflexivity|]. split; [reflexivity|]. split; reflexivity.
  - intros (A & _). cbn [m_pos fst] in A. rewrite P in A. cbn [fst snd] in A. rewrite cos_PI3, cos_0 in A. lra.
Qed.
Print Assumptions C88_default_prediction_escapes.

(** It may even become empty: the lower bound passes the upper bound. *)
Theorem C88_default_prediction_empties rd known theta_a theta_b v (pos : vec * vec) dt i' :
  0 < dt -> fst (snd pos) - fst (fst pos) < 28 * dt ->
  partial_observer_step rd known theta_a theta_b v (VInterval pos (30, 30) (0, PI / 2)) dt = Ok i' ->
  forall s, ~ possible i' s.
Proof.
  intros Hd Hw E s (A & _). pose proof (C88_default_moves_corners _ _ _ _ _ _ _ _ E) as P. cbn [vi_pos vi_speed vi_heading fst snd] in P.
  rewrite P in A. cbn [fst snd] in A. rewrite cos_0, cos_PI2 in A. lra.
Qed.
Print Assumptions C88_default_prediction_empties.

(** Headings are not reduced to one turn: around 2 pi the observer's own range of the
    cosine is wrong, and a vehicle driving straight ahead escapes. *)
Theorem C88_heading_after_a_turn_escapes rd known theta_a theta_b v own l (pos : vec * vec) dt fi f tha thb i' :
  get_front_interval rd known v = Ok fi -> possible_front fi f -> 0 < dt ->
  List.length tha = 3%nat -> boxed (fst theta_a) tha (snd theta_a) -> List.length thb = 2%nat -> boxed (fst theta_b) thb (snd theta_b) ->
  fst (fst pos) <= fst (snd pos) -> snd (fst pos) <= snd (snd pos) ->
  let i := VInterval pos (30, 30) (2 * PI - PI / 3, 2 * PI + PI / 3) in
  observer_step rd known theta_a theta_b v i dt = Ok i' ->
  exists s s', possible i s /\ driven_step rd known theta_a theta_b v own l dt s s' /\ ~ possible i' s'.
Proof.
  intros Ef Pf Hd La Ba Lb Bb Hx Hy i E. pose proof PI_RGT_0 as Hpi.
  assert (C1 : cos (2 * PI + PI / 3) = 1 / 2) by (rewrite Rplus_comm, <- (cos_PI3); replace (PI / 3 + 2 * PI) with (PI / 3 + 2 * INR 1 * PI) by (cbn; ring); apply cos_period).
  assert (C2 : cos (2 * PI - PI / 3) = 1 / 2).
  { rewrite <- cos_neg. replace (- (2 * PI - PI / 3)) with (PI / 3 - 2 * PI) by ring. rewrite <- cos_PI3.
    rewrite <- (cos_period (PI / 3 - 2 * PI) 1). f_equal. cbn. ring. }
  assert (CI : cos_interval (2 * PI - PI / 3, 2 * PI + PI / 3) = (1 / 2, 1 / 2)).
  { unfold cos_interval. cbn [fst snd]. rewrite C1, C2, Rmin_left, Rmax_left by lra.
    assert (Rleb (2 * PI - PI / 3) PI = false) as -> by (apply Rleb_false; lra). assert (Rleb (2 * PI - PI / 3) 0 = false) as -> by (apply Rleb_false; lra). reflexivity. }
  assert (P : fst (snd (vi_pos i')) = fst (snd pos) + 15 * dt + dt).
  { unfold observer_step in E. rewrite Ef in E. cbn [bind] in E.
    destruct (get_lane (rd_net rd) (v_lane_index v)) as [own'|]; [|discriminate]. cbn [bind] in E.
    destruct (get_lane (rd_net rd) (v_target_lane v)) as [l'|]; [|discriminate]. cbn [bind] in E. apply (f_equal (fun r => match r with Ok i => vi_pos i | Err _ => vi_pos i' end)) in E.
    cbn beta iota in E. rewrite <- E. unfold observer_law, i. cbn [vi_pos vi_speed vi_heading fst snd]. rewrite CI, product_point. unfold grow. cbn [fst snd]. field. }
  set (s := Motion (snd pos) 30 (2 * PI)). exists s.
  eexists (Motion (fst (snd pos) + dt * (30 * cos (2 * PI) + 0), snd (snd pos) + dt * (30 * sin (2 * PI) + 0)) _ _).
  split; [unfold possible, s, i; cbn [m_pos m_speed m_heading vi_pos vi_speed vi_heading fst snd]; repeat split; first [exact Hx | exact Hy | apply Rle_refl | lra]|]. split.
  - exists fi, f, tha, thb. do 6 (split; [assumption|]). exists 0, 0, 0. rewrite Rabs_R0.
    split; [lra|]. split; [lra|]. split; [lra|]. split; [reflexivity|]. split; [reflexivity|]. split; reflexivity.
  - intros (A & _). cbn [m_pos fst] in A. rewrite P, cos_2PI in A. lra.
Qed.
Print Assumptions C88_heading_after_a_turn_escapes.

(** A crashed vehicle's interval is the state it had before the step. *)
Theorem C88_crashed_interval rd known theta_a theta_b v i dt i' v' :
  interval_step rd known theta_a theta_b v i dt = Ok (i', v') -> v_crashed v = true ->
  forall m, possible i' m <-> m = Motion (v_pos v) (v_speed v) (v_heading v).
Proof.
  unfold interval_step. intros E C. rewrite C in E. cbn [bind] in E. destruct (vehicle_step _ _ _ _) as [w|]; [|discriminate]. cbn [bind] in E.
  apply (f_equal (fun r => match r with Ok (a, _) => a | Err _ => i' end)) in E. cbn beta iota in E. subst i'.
  intros [[x y] s h]. unfold possible, certain. cbn [vi_pos vi_speed vi_heading m_pos m_speed m_heading fst snd]. split.
  - intros (A & B & D & F). destruct (v_pos v) as [px py]. cbn [fst snd] in *. f_equal; [f_equal|..]; lra.
  - intros [= E1 -> ->]. rewrite <- E1. cbn [fst snd]. lra.
Qed.
Print Assumptions C88_crashed_interval.

(** The hypotheses are met by a vehicle on the default highway, at 20 m/s, with the
    default parameter ranges and the default simulation step. *)
Definition box_a : list R * list R := ([15/100; 15/100; 1], [45/100; 45/100; 3]).
Definition box_b : list R * list R := ([KP_HEADING - 7/100; KP_HEADING * KP_LATERAL - 3/2], [KP_HEADING + 7/100; KP_HEADING * KP_LATERAL + 3/2]).
Lemma partial_total rd known theta_a theta_b v i dt : (forall j, exists o, observer_step rd known theta_a theta_b v j dt = Ok o) ->
  exists i2, partial_observer_step rd known theta_a theta_b v i dt = Ok i2.
Proof.
  intros Ob. unfold partial_observer_step.
  match goal with |- context [observer_step _ _ _ _ _ ?j _] => destruct (Ob j) as [o1 E1]; rewrite E1 end. cbn [bind].
  match goal with |- context [observer_step _ _ _ _ _ ?j _] => destruct (Ob j) as [o2 E2]; rewrite E2 end. cbn [bind]. eexists. reflexivity.
Qed.
Example C88_nonvacuous :
  let v := demo_controlled KLinear (100, 0) 20 25 0 in
  let rd := demo_road [v] [] in
  let i := VInterval ((99, -1), (101, 1)) (18, 22) (- (2/10), 2/10) in
  exists i' own l st en,
    get_lane (rd_net rd) (v_lane_index v) = Ok own /\ get_lane (rd_net rd) (v_target_lane v) = Ok l /\ l_geom l = GStraight st en /\
    0 <= ip_time (v_par v) /\ 0 <= ip_acc_max (v_par v) /\ usable box_b (1/15) /\
    within_reach i (l_heading l (fst (l_local l (v_pos v)) + v_speed v * PURSUIT_TAU)) /\
    observer_step rd (fun _ => None) box_a box_b v i (1/15) = Ok i' /\
    (exists i2, partial_observer_step rd (fun _ => None) box_a box_b v i (1/15) = Ok i2) /\
    possible i (Motion (100, 0) 20 0) /\
    exists s', driven_step rd (fun _ => None) box_a box_b v own l (1/15) (Motion (100, 0) 20 0) s'.
Proof.
  set (v := demo_controlled KLinear (100, 0) 20 25 0). set (rd := demo_road [v] []). set (i := VInterval ((99, -1), (101, 1)) (18, 22) (- (2/10), 2/10)).
  pose proof (demo_get 0 ltac:(lia)) as G.
  assert (Fr : get_front_interval rd (fun _ => None) v = Ok None).
  { unfold get_front_interval, neighbour_vehicles, neighbours_on. change (rd_net rd) with demo_net. change (v_lane_index v) with ("0", "1", Some (Z.of_nat 0))%string. rewrite G. reflexivity. }
  assert (Ob : forall j, exists o, observer_step rd (fun _ => None) box_a box_b v j (1/15) = Ok o).
  { intros j. unfold observer_step. rewrite Fr. cbn [bind]. change (rd_net rd) with demo_net. change (v_lane_index v) with ("0", "1", Some (Z.of_nat 0))%string. change (v_target_lane v) with ("0", "1", Some (Z.of_nat 0))%string. rewrite G. cbn [bind]. eexists. reflexivity. }
  destruct (Ob i) as [i' Oi]. exists i'. exists (straight_network_lane 3 0 1000 0), (straight_network_lane 3 0 1000 0). 
  eexists _, _. split; [exact G|]. split; [exact G|]. split; [reflexivity|]. split; [cbn; lra|]. split; [cbn; lra|]. 
  split; [unfold usable, box_b, KP_HEADING, TAU_DS; cbn; lra|]. split.
  { rewrite demo_heading by lia. pose proof PI2_1. unfold within_reach, i. cbn [vi_speed vi_heading fst snd]. lra. }
  split; [exact Oi|]. split.
  { apply partial_total. exact Ob. }
  split; [unfold possible, i; cbn; lra|].
  eexists (Motion (_, _) _ _). exists None, None, (fst box_a), (fst box_b). split; [exact Fr|]. split; [exact Logic.I|]. split; [reflexivity|].
  split; [split; [reflexivity|]; split; [reflexivity|]; intros [|[|[|k]]] Hk; cbn in Hk; try lia; cbn; lra|]. split; [reflexivity|].
  split; [split; [reflexivity|]; split; [reflexivity|]; intros [|[|k]] Hk; cbn in Hk; try lia; cbn; lra|].
  exists 0, 0, 0. rewrite Rabs_R0. split; [lra|]. split; [lra|]. split; [lra|]. split; [reflexivity|]. split; [reflexivity|]. split; reflexivity.
Qed.
Print Assumptions C88_nonvacuous.
