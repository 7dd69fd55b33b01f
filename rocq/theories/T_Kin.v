(** Theorems about vehicle motion and collisions (C21-C25, C57-C59). *)
From Verif Require Import Prelude M_Utils M_Lane M_Road M_Vehicle M_Kinematics S_Geometry S_Road S_Vehicle
  P_Base P_Utils P_Lane P_Graph P_Collision P_Kin P_Crash.
From Coq Require Import Lia Lra.
Open Scope R_scope.

(** ** C21: one kinematic step *)
Theorem C21_step_moves_speed_dt : forall g record v dt v', 0 <= dt -> vehicle_step g record v dt = Ok v' ->
  dist2 (v_pos v) (v_pos v') = Rabs (v_speed v) * dt.
Proof. intros g rec v dt v' H E. now apply (step_displacement g rec). Qed.
Print Assumptions C21_step_moves_speed_dt.
(** Direction, heading and speed increments of a vehicle that is not crashed and
    within the speed limits; the direction deviates by less than a quarter turn. *)
Theorem C21_step_increments : forall g record v dt v', v_crashed v = false -> - 40 <= v_speed v <= 40 ->
  vehicle_step g record v dt = Ok v' ->
  exists beta, - (PI / 2) < beta < PI / 2 /\ tan beta = tan (v_steering v) / 2 /\
    fst (v_pos v') = fst (v_pos v) + v_speed v * cos (v_heading v + beta) * dt /\
    snd (v_pos v') = snd (v_pos v) + v_speed v * sin (v_heading v + beta) * dt /\
    v_heading v' = v_heading v + v_speed v * sin beta / (5 / 2) * dt /\
    v_speed v' = v_speed v + v_accel v * dt.
Proof.
  intros g rec v dt v' C S E. apply step_fields in E as (P & H & Sp & _). cbv zeta in *. rewrite C in *.
  exists (slip (v_steering v)). split; [apply slip_bounds|]. split; [unfold slip; rewrite tan_atan; field|].
  rewrite P. unfold vadd, vscal. cbn [fst snd]. split; [ring|]. split; [ring|]. split; [exact H|].
  rewrite Sp, clipped_cases, C. cbv zeta. rewrite !Rltb_ge by lra. reflexivity.
Qed.
Print Assumptions C21_step_increments.
(** With steering within the maximum angle pi/3 the heading changes by at most
    sqrt(3/7) |v| dt / 2.5. *)
Theorem C21_turn_bounded : forall g record v dt v', 0 <= dt ->
  - (PI / 3) <= v_steering v <= PI / 3 -> vehicle_step g record v dt = Ok v' ->
  Rabs (v_heading v' - v_heading v) <= sqrt (3 / 7) * (Rabs (v_speed v) * dt / (5 / 2)).
Proof.
  intros g rec v dt v' Hd St E. apply step_fields in E as (_ & H & _). cbv zeta in H. rewrite H.
  set (b := slip _). assert (B : sin b * sin b <= 3 / 7).
  { unfold b. destruct (v_crashed v); [rewrite slip_0, sin_0; lra | now apply sin_slip_sq]. }
  replace (v_heading v + v_speed v * sin b / (V_LENGTH / 2) * dt - v_heading v) with (sin b * (v_speed v * dt / (5 / 2)))
    by (unfold V_LENGTH; field).
  rewrite Rabs_mult. replace (Rabs (v_speed v * dt / (5 / 2))) with (Rabs (v_speed v) * dt / (5 / 2)).
  - apply Rmult_le_compat_r.
    + apply Rmult_le_pos; [apply Rmult_le_pos; [apply Rabs_pos | easy] | lra].
    + rewrite <- sqrt_Rsqr_abs. apply sqrt_le_1; unfold Rsqr; [nra | lra | easy].
  - unfold Rdiv. rewrite !Rabs_mult, (Rabs_pos_eq dt), (Rabs_pos_eq (/ (5 * / 2))) by lra. reflexivity.
Qed.
Print Assumptions C21_turn_bounded.
(** Zero steering: straight along the heading, which is kept. *)
Theorem C21_straight : forall g record v dt v', v_steering v = 0 -> vehicle_step g record v dt = Ok v' ->
  v_heading v' = v_heading v /\
  fst (v_pos v') = fst (v_pos v) + v_speed v * dt * cos (v_heading v) /\
  snd (v_pos v') = snd (v_pos v) + v_speed v * dt * sin (v_heading v).
Proof.
  intros g rec v dt v' S0 E. apply step_fields in E as (P & H & _). cbv zeta in *. rewrite S0 in *.
  assert (B : slip (if v_crashed v then 0 else 0) = 0) by (destruct (v_crashed v); apply slip_0).
  rewrite B in *. rewrite sin_0 in H. rewrite P, Rplus_0_r. unfold vadd, vscal. cbn [fst snd].
  split; [rewrite H; unfold V_LENGTH; field|]. split; ring.
Qed.
Print Assumptions C21_straight.
(** A step succeeds on every network with at least one lane. *)
Theorem C21_step_total : forall g record v dt, built g -> g <> [] -> exists v', vehicle_step g record v dt = Ok v'.
Proof. intros g rec v dt B N. apply vehicle_step_total; [now apply wf_built | easy]. Qed.
Print Assumptions C21_step_total.

Definition demo_net : graph := straight_road_network 3 1000 0.
Lemma demo_built : built demo_net.
Proof.
  exists (map (fun k => ("0", "1", straight_network_lane 3 k 1000 0)%string) (seq 0 3)). reflexivity.
Qed.
Definition demo_vehicle (p : vec) (s : R) (crashed : bool) : vehicle :=
  Vehicle 0 KVehicle p 0 s ("0", "1", Some 0%Z)%string 0 0 crashed true [] ("0", "1", Some 0%Z)%string s None 0%Z
    grid_default true 0 idm_default false 0%Z false.
Example C21_nonvacuous : exists v', vehicle_step demo_net true (demo_vehicle (0, 0) 20 false) 1 = Ok v' /\
  v_pos v' = (20, 0).
Proof.
  destruct (C21_step_total demo_net true (demo_vehicle (0, 0) 20 false) 1 demo_built ltac:(discriminate)) as [v' E].
  exists v'. split; [easy|]. destruct (C21_straight demo_net true (demo_vehicle (0, 0) 20 false) 1 v' eq_refl E) as (_ & A & B). simpl in A, B.
  rewrite cos_0 in A. rewrite sin_0 in B. rewrite (surjective_pairing (v_pos v')), A, B. apply f_equal2; ring.
Qed.

(** ** C22: crashed vehicles *)
Theorem C22_crashed_only_brakes : forall g record dt v cmds tr, 0 <= dt <= 1 ->
  v_crashed v = true -> - 40 <= v_speed v -> drives g record dt v cmds tr ->
  forall k w, nth_error tr k = Some w ->
    v_crashed w = true /\ v_heading w = v_heading v /\ v_speed w = v_speed v * (1 - dt) ^ (S k) /\
    fst (v_pos w) = fst (v_pos v) + v_speed v * (1 - (1 - dt) ^ (S k)) * cos (v_heading v) /\
    snd (v_pos w) = snd (v_pos v) + v_speed v * (1 - (1 - dt) ^ (S k)) * sin (v_heading v).
Proof.
  intros g rec dt v cmds tr Hd C L D k w Hk. destruct (crashed_drives g rec dt v cmds tr Hd C L D k w Hk) as (A & B & S & P).
  rewrite P. easy.
Qed.
Print Assumptions C22_crashed_only_brakes.
(** The total distance travelled after the crash never exceeds the speed at the
    crash (in metres for m/s), however long the simulation runs. *)
Theorem C22_crashed_travel_bounded : forall g record dt v cmds tr, 0 <= dt <= 1 ->
  v_crashed v = true -> - 40 <= v_speed v -> drives g record dt v cmds tr ->
  path_length (v_pos v) tr <= Rabs (v_speed v).
Proof.
  intros g rec dt v cmds tr Hd C L D. rewrite (crashed_travel g rec dt v cmds tr Hd C L D).
  pose proof (pow_01 (1 - dt) (List.length tr) ltac:(lra)). pose proof (Rabs_pos (v_speed v)). nra.
Qed.
Print Assumptions C22_crashed_travel_bounded.
Example C22_nonvacuous : exists tr, drives demo_net false (1/15) (demo_vehicle (0, 0) 20 true) [(1, 5); (-1, 6); (0, 3)] tr /\
  List.length tr = 3%nat.
Proof.
  destruct (drives_total demo_net false (1/15) [(1, 5); (-1, 6); (0, 3)] (wf_built _ demo_built) ltac:(discriminate)
              (demo_vehicle (0, 0) 20 true)) as [tr D].
  exists tr. split; [easy|]. now apply drives_length in D.
Qed.

(** ** C23: speed envelope *)
Theorem C23_speed_envelope : forall g record dt v cmds tr a, 0 <= dt <= 1 -> 0 <= a ->
  (forall c, In c cmds -> Rabs (snd c) <= a) -> - 40 <= v_speed v <= 40 ->
  drives g record dt v cmds tr ->
  forall w, In w tr -> - (40 + a * dt) <= v_speed w <= 40 + a * dt.
Proof.
  intros g rec dt v cmds tr a Hd Ha Hc S D w Hw.
  assert (0 <= a * dt) by nra.
  pose proof (speed_drives g rec dt v cmds tr a Hd Hc Ha ltac:(lra) D w Hw). lra.
Qed.
Print Assumptions C23_speed_envelope.
(** The reverse side is not the mirror image of the forward side: beyond -40 m/s
    the vehicle is pushed with an acceleration of more than 80 m/s^2 whatever
    smaller command it got, crashed or not; a 1 s step sends it to +40 m/s. *)
Theorem C23_reverse_limit : forall g record v dt v', v_speed v < - 40 -> v_accel v <= 40 ->
  vehicle_step g record v dt = Ok v' ->
  v_speed v' = v_speed v + (40 - v_speed v) * dt /\ 80 < 40 - v_speed v /\
  (dt = 1 -> v_speed v' = 40).
Proof.
  intros g rec v dt v' S A E. apply step_fields in E as (_ & _ & Sp & _). cbv zeta in Sp. rewrite clipped_cases in Sp. cbv zeta in Sp.
  rewrite (Rltb_ge 40), (Rltb_lt _ (-40)) in Sp by lra.
  assert (Q : Rmax (if v_crashed v then - v_speed v else v_accel v) (40 - v_speed v) = 40 - v_speed v).
  { apply Rmax_right. destruct (v_crashed v); lra. }
  rewrite Q in Sp. split; [exact Sp|]. split; [lra|]. intros ->. lra.
Qed.
Print Assumptions C23_reverse_limit.

(** ** C24: history *)
Theorem C24_history_is_last_30 : forall g dt v cmds tr, v_history v = [] ->
  drives g true dt v cmds tr -> v_history (last tr v) = firstn 30 (rev (map snap tr)).
Proof.
  intros g dt v cmds tr H D. rewrite (history_drives g dt v cmds tr D (last tr v) eq_refl).
  - now rewrite H, app_nil_r.
  - intros _. rewrite H. simpl. lia.
Qed.
Print Assumptions C24_history_is_last_30.
Theorem C24_no_recording : forall g dt v cmds tr, drives g false dt v cmds tr ->
  forall w, In w tr -> v_history w = v_history v.
Proof. exact history_off. Qed.
Print Assumptions C24_no_recording.
Example C24_nonvacuous : exists tr, drives demo_net true (1/15) (demo_vehicle (0, 0) 20 false) (repeat (0, 1) 40) tr /\
  List.length (v_history (last tr (demo_vehicle (0, 0) 20 false))) = 30%nat.
Proof.
  destruct (drives_total demo_net true (1/15) (repeat (0, 1) 40) (wf_built _ demo_built) ltac:(discriminate)
              (demo_vehicle (0, 0) 20 false)) as [tr D].
  exists tr. split; [easy|]. rewrite (C24_history_is_last_30 demo_net (1/15) (demo_vehicle (0, 0) 20 false) _ tr eq_refl D), firstn_length, rev_length, map_length.
  rewrite (drives_length _ _ _ _ _ _ D), repeat_length. reflexivity.
Qed.

(** ** C25: collisions *)
(** After a road step every touching pair is crashed, whatever the order. *)
Theorem C25_touching_pair_crashed : forall rd dt rd' i j v w, road_step rd dt = Ok rd' -> i <> j ->
  nth_error (rd_vehicles rd') i = Some v -> nth_error (rd_vehicles rd') j = Some w -> touch v w ->
  v_crashed v = true /\ v_crashed w = true.
Proof.
  intros rd dt rd' i j v w E N Ei Ej T. apply road_step_ok in E as (vs & _ & _ & _ & _ & Ec).
  pose proof (collide_all_rel (vs, rd_objects rd)) as [R _]. rewrite <- Ec in R. simpl in R.
  destruct (Forall2_nth_r _ _ _ R _ _ Ei) as (v0 & Ei0 & V). destruct (Forall2_nth_r _ _ _ R _ _ Ej) as (w0 & Ej0 & W).
  assert (T0 : touch v0 w0) by now apply (touch_evolves v0 w0 v w).
  destruct (all_crashes (vs, rd_objects rd) i j v0 w0 N Ei0 Ej0 T0) as (v1 & E1 & C1).
  destruct (all_crashes (vs, rd_objects rd) j i w0 v0 ltac:(auto) Ej0 Ei0 (touch_sym _ _ T0)) as (w1 & F1 & D1).
  rewrite <- Ec in E1, F1. simpl in E1, F1. split; congruence.
Qed.
Print Assumptions C25_touching_pair_crashed.
Theorem C25_touching_obstacle_crashed : forall rd dt rd' i k v o, road_step rd dt = Ok rd' ->
  nth_error (rd_vehicles rd') i = Some v -> nth_error (rd_objects rd') k = Some o -> touch_obstacle v o ->
  v_crashed v = true.
Proof.
  intros rd dt rd' i k v o E Ei Ek T. apply road_step_ok in E as (vs & _ & _ & _ & _ & Ec).
  pose proof (collide_all_rel (vs, rd_objects rd)) as [R Ro]. rewrite <- Ec in R, Ro. simpl in R, Ro.
  destruct (Forall2_nth_r _ _ _ R _ _ Ei) as (v0 & Ei0 & V). destruct (Forall2_nth_r _ _ _ Ro _ _ Ek) as (o0 & Ek0 & O).
  assert (T0 : touch_obstacle v0 o0).
  { destruct T as (T1 & T2 & T3). unfold touch_obstacle. rewrite <- (is_colliding_obj_evolves v0 o0 v o) by easy.
    apply evolves_fields in V as (_ & _ & _ & <- & _). apply oevolves_fields in O as (_ & _ & <- & _). easy. }
  destruct (all_crashes_obstacle (vs, rd_objects rd) i k v0 o0 Ei0 Ek0 T0) as (v1 & E1 & C1).
  rewrite <- Ec in E1. simpl in E1. congruence.
Qed.
Print Assumptions C25_touching_obstacle_crashed.
(** A vehicle becomes crashed only by touching another vehicle or an obstacle; it
    never recovers; collision handling moves nothing and never increases a speed;
    vehicles keep their rank, identity and class. *)
Theorem C25_crash_has_cause : forall rd dt rd' i v, road_step rd dt = Ok rd' ->
  nth_error (rd_vehicles rd) i = Some v ->
  exists u v', vehicle_step (rd_net rd) (rd_record rd) v dt = Ok u /\ nth_error (rd_vehicles rd') i = Some v' /\
    v_id v' = v_id v /\ v_kind v' = v_kind v /\ v_pos v' = v_pos u /\ v_heading v' = v_heading u /\
    Rabs (v_speed v') <= Rabs (v_speed u) /\
    (v_crashed v = true -> v_crashed v' = true) /\
    (v_crashed v' = true -> v_crashed v = true \/
       (exists j w, j <> i /\ nth_error (rd_vehicles rd') j = Some w /\ touch v' w) \/
       (exists k o, nth_error (rd_objects rd') k = Some o /\ touch_obstacle v' o)) /\
    (v_crashed v' = v_crashed v -> v_crashed v = false -> v' = u).
Proof.
  intros rd dt rd' i v E Ei. apply road_step_ok in E as (vs & Em & _ & _ & _ & Ec).
  apply mapM_ok_Forall2 in Em. destruct (Forall2_nth _ _ _ Em _ _ Ei) as (u & Eu & Su).
  pose proof (inv_all (vs, rd_objects rd)) as [[R Ro] C]. rewrite <- Ec in R, Ro, C. simpl in R, Ro, C.
  destruct (Forall2_nth _ _ _ R _ _ Eu) as (v' & Ev' & V). exists u, v'. split; [easy|]. split; [easy|].
  pose proof (step_fields _ _ _ _ _ Su) as (_ & _ & _ & Cu & Iu & Ku & _). cbv zeta in *.
  pose proof (evolves_fields _ _ V) as (F1 & F2 & F3 & F4 & F5 & F6 & F7).
  split; [congruence|]. split; [congruence|]. split; [easy|]. split; [easy|]. split; [easy|]. split; [rewrite <- Cu; easy|]. split.
  - intros K. destruct (v_crashed v) eqn:Cv; [now left|]. right.
    destruct (C i u v' Eu Ev' ltac:(congruence) K) as [(j & w0 & N & Ej & T)|(k & o0 & Ek & T)].
    + left. destruct (Forall2_nth _ _ _ R _ _ Ej) as (w & Ew & W). exists j, w. split; [easy|]. split; [easy|]. now apply (touch_evolves u w0).
    + right. destruct (Forall2_nth _ _ _ Ro _ _ Ek) as (o & Eo & O). exists k, o. split; [easy|].
      destruct T as (T1 & T2 & T3). unfold touch_obstacle. rewrite (is_colliding_obj_evolves u o0 v' o) by easy.
      rewrite F4. apply oevolves_fields in O as (_ & _ & -> & _). easy.
  - intros K1 K2. destruct V as [->|(s & -> & _)]; [easy|]. simpl in K1. congruence.
Qed.
Print Assumptions C25_crash_has_cause.
(** The colliding pair leaves with the slower of the two velocities. *)
Theorem C25_pair_speed : forall v w v' w', v_crashed v = false -> touch v w ->
  check_collision v w = (v', w') ->
  v_crashed v' = true /\ v_crashed w' = true /\ v_speed v' = v_speed w' /\
  (v_speed v' = v_speed v \/ v_speed v' = v_speed w) /\
  Rabs (v_speed v') <= Rabs (v_speed v) /\ Rabs (v_speed v') <= Rabs (v_speed w).
Proof.
  intros v w v' w' C (T1 & T2 & T3 & T4) E. unfold check_collision in E. rewrite C, T2, T3, T4 in E.
  replace (Nat.eqb (v_id w) (v_id v)) with false in E by (symmetry; apply Nat.eqb_neq; auto). simpl in E.
  injection E as <- <-. destruct (min_abs_spec (v_speed v) (v_speed w)) as (A & B & D). simpl. tauto.
Qed.
Print Assumptions C25_pair_speed.
(** An obstacle is flagged as hit only by vehicles that were not yet crashed: a
    crashed vehicle sliding into it leaves [hit] unset. *)
Theorem C25_obstacle_hit_not_flagged : exists v o, touch_obstacle v o /\ o_hit o = false /\
  collide_all ([v], [o]) = ([v], [o]).
Proof.
  exists (demo_vehicle (0, 0) 20 true), (Object 1 KObstacle (0, 0) 0 0 false). split; [|split; reflexivity].
  split; [reflexivity|]. split; [reflexivity|].
  rewrite is_colliding_obj_eq. unfold rotated_rectangles_intersect. apply orb_true_iff. left.
  apply has_corner_inside_iff. exists (0, 0). split; [left; reflexivity|].
  unfold in_rectangle, vadd, vrot, V_LENGTH, V_WIDTH, O_LENGTH, O_WIDTH; simpl. exists 0, 0. repeat split; lra || ring.
Qed.
Print Assumptions C25_obstacle_hit_not_flagged.
Theorem C25_step_total : forall rd dt, built (rd_net rd) -> rd_net rd <> [] -> exists rd', road_step rd dt = Ok rd'.
Proof. intros rd dt B N. apply road_step_total; [now apply wf_built|easy]. Qed.
Print Assumptions C25_step_total.

(** ** C57: road objects made on a lane *)
(** The constructor arguments are swapped: the object always has heading 0 and
    its speed is the lane heading. *)
Theorem C57_object_alignment : forall g id k i s l, get_lane g i = Ok l ->
  exists o, object_make_on_lane g id k i s = Ok o /\ o_pos o = l_position l s 0 /\
    o_heading o = 0 /\ o_speed o = l_heading l s.
Proof. intros g id k i s l E. unfold object_make_on_lane. rewrite E. simpl. eexists. repeat split. Qed.
Print Assumptions C57_object_alignment.

(** ** C58: vehicles made on a lane *)
Theorem C58_vehicle_made_on_lane : forall g id i s speed l, built g -> get_lane g i = Ok l -> g <> [] ->
  exists v, make_on_lane g id i s speed = Ok v /\ v_pos v = l_position l s 0 /\ v_heading v = l_heading l s /\
    v_speed v = match speed with Some x => x | None => l_speed_limit l end /\ v_crashed v = false /\
    lane_exists g (v_lane_index v).
Proof.
  intros g id i s sp l B E N. unfold make_on_lane, new_vehicle. rewrite E. cbn [bind].
  destruct (closest_total g (l_position l s 0) (Some (l_heading l s)) (wf_built _ B) N) as [j Hj]. rewrite Hj. cbn [bind].
  eexists. split; [reflexivity|]. simpl. repeat split. apply (closest_exists g _ _ _ (wf_built _ B) Hj).
Qed.
Print Assumptions C58_vehicle_made_on_lane.

(** ** C59: destination *)
Theorem C59_destination_direction : forall g v d, destination g v = Ok d ->
  exists u, destination_direction g v = Ok u /\
    (d = v_pos v -> u = (0, 0)) /\
    (d <> v_pos v -> vnorm u = 1 /\ vadd (v_pos v) (vscal (dist2 d (v_pos v)) u) = d).
Proof.
  intros g v d E. unfold destination_direction. rewrite E. cbn [bind]. eexists. split; [reflexivity|]. split.
  - intros ->. now rewrite !Reqb_refl.
  - intros N. destruct (Reqb (fst d) (fst (v_pos v)) && Reqb (snd d) (snd (v_pos v))) eqn:Q.
    + rbool. exfalso. apply N. destruct d, (v_pos v). simpl in *. congruence.
    + assert (P : 0 < vnorm (vsub d (v_pos v))) by (apply norm_pos; auto).
      rewrite vnorm_scal, Rabs_inv, (Rabs_pos_eq (vnorm _)) by lra. split; [field; lra|].
      rewrite dist2_norm. unfold vadd, vscal, vsub. destruct d as [a b], (v_pos v) as [x y]. simpl.
      set (n := vnorm _) in *. apply f_equal2; unfold vsub in n; simpl in n; fold n; field; lra.
Qed.
Print Assumptions C59_destination_direction.
(** With a route the destination is the end of its last lane, otherwise the
    current position. *)
Theorem C59_destination : forall g v,
  (forall pre r l, v_route v = Some (pre ++ [r]) -> get_lane g r = Ok l ->
     destination g v = Ok (l_position l (l_length l) 0)) /\
  (v_route v = None \/ v_route v = Some [] -> destination g v = Ok (v_pos v)).
Proof.
  intros g v. unfold destination. split.
  - intros pre r l -> E. destruct (pre ++ [r]) as [|x t] eqn:Q; [destruct pre; easy|].
    rewrite <- Q, last_last, E. reflexivity.
  - intros [-> | ->]; reflexivity.
Qed.
Print Assumptions C59_destination.
