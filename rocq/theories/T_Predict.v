(** C93: the predictor mode of an IntervalVehicle (prediction.py:182-293). *)
From Coq Require Import Lia Lra Psatz.
From Verif Require Import Prelude M_Utils M_Lane M_Road M_Vehicle M_Kinematics M_Control M_Behavior M_Interval M_Regression M_Observer M_Models M_Predictor.
From Verif Require Import S_Interval S_Observer S_Predictor P_Base P_Utils P_Interval P_Query P_Behavior P_Predictor T_Interval T_Predictor T_Kin T_Control T_Behavior T_Regulation.
Open Scope R_scope.

(** Successive steps in mode "predictor": [steps] lists the situations (the road, the
    intervals of the other vehicles, the vehicle itself). *)
Fixpoint predictions (eig : lmat -> option (lmat * lmat)) (theta_a theta_b : itv lvec) (dt : R)
    (steps : list (road * (nat -> option vinterval) * vehicle)) (i : vinterval) (pr : predictor) : res (vinterval * predictor) :=
  match steps with
  | [] => Ok (i, pr)
  | (rd, known, v) :: rest =>
      do (i', pr') <- predictor_step eig IsInterval rd known theta_a theta_b v i pr dt;
      predictions eig theta_a theta_b dt rest i' pr'
  end.
(** The vehicle keeps following the same lane. *)
Definition keeps_lane (li : lane_index) (l : lane) (s : road * (nat -> option vinterval) * vehicle) : Prop :=
  let '(rd, _, v) := s in v_target_lane v = li /\ get_lane (rd_net rd) li = Ok l.
(** The distance to the front vehicle is not exactly the wanted one. *)
Definition no_gap_control (rd : road) (v : vehicle) (front : option entity) : Prop :=
  forall f d, front = Some f -> lane_distance_to (rd_net rd) v f = Ok d -> d <> ip_distance (v_par v) + ip_time (v_par v) * v_speed v.
(** The front vehicle is there and not faster. *)
Definition slower_front (v : vehicle) (front : option entity) : bool := match front with None => false | Some f => negb (Rltb (v_speed v) (e_speed f)) end.

Lemma long_structure_is rd v front rear : neighbour_vehicles rd v None = Ok (front, rear) -> no_gap_control rd v front ->
  forall s, longitudinal_structure rd v = Ok s -> s = long_structure (slower_front v front).
Proof.
  intros E N s H. unfold longitudinal_structure in H. rewrite E in H. cbn [bind] in H. destruct front as [f|]; [|injection H as <-; reflexivity].
  destruct (lane_distance_to (rd_net rd) v f) as [d|] eqn:D; [|discriminate]. cbn [bind] in H. specialize (N f d eq_refl D).
  rewrite (proj2 (Reqb_false _ _) N) in H. injection H as <-. unfold long_structure, slower_front. now destruct (Rltb (v_speed v) (e_speed f)).
Qed.
Definition shown (l : lane) (long lat_ : lpv) : vinterval :=
  let x := reported long in let y := reported lat_ in
  VInterval (interval_local_to_absolute (nth 0 (fst x) 0, nth 0 (snd x) 0) (nth 0 (fst y) 0, nth 0 (snd y) 0) l)
            (nth 2 (fst x) 0, nth 2 (snd x) 0) (nth 1 (fst y) 0, nth 1 (snd y) 0).
Lemma step_again eig c rd known ta tb v i long lat_ dt l i' pr' : get_lane (rd_net rd) (v_target_lane v) = Ok l ->
  predictor_step eig c rd known ta tb v i (Predictor (Some long) (Some lat_) (v_target_lane v)) dt = Ok (i', pr') ->
  pr' = Predictor (Some (lpv_step long dt)) (Some (lpv_step lat_ dt)) (v_target_lane v) /\ i' = shown l (lpv_step long dt) (lpv_step lat_ dt).
Proof.
  intros G H. unfold predictor_step, predictor_init in H. rewrite G in H. cbn [bind] in H. destruct (interval_absolute_to_local (vi_pos i) l) as [longi lat].
  destruct (get_lane (rd_net rd) (v_lane_index v)) as [own|]; [|discriminate]. cbn [bind pr_long pr_lat pr_previous] in H.
  rewrite (proj2 (P_Behavior.li_eqb_iff _ _) eq_refl) in H. cbn [bind] in H. injection H as <- <-. split; reflexivity.
Qed.
Lemma steps_shift n s dt : lpv_steps (Datatypes.S n) s dt = lpv_steps n (lpv_step s dt) dt.
Proof. unfold lpv_steps. revert s. induction n as [|n IH]; intros s; [reflexivity|]. unfold Nat.iter in *. cbn [nat_rect] in *. now rewrite IH. Qed.
Lemma steps_again eig ta tb dt li l : forall steps i long lat_ i' pr', Forall (keeps_lane li l) steps ->
  predictions eig ta tb dt steps i (Predictor (Some long) (Some lat_) li) = Ok (i', pr') ->
  let n := List.length steps in
  pr' = Predictor (Some (lpv_steps n long dt)) (Some (lpv_steps n lat_ dt)) li /\ i' = match steps with [] => i | _ => shown l (lpv_steps n long dt) (lpv_steps n lat_ dt) end.
Proof.
  induction steps as [|[[rd known] v] steps IH]; intros i long lat_ i' pr' F H; cbn [predictions List.length] in *; [injection H as <- <-; split; reflexivity|].
  apply Forall_cons_iff in F as [[Et G] F']. subst li.
  destruct (predictor_step eig IsInterval rd known ta tb v i (Predictor (Some long) (Some lat_) (v_target_lane v)) dt) as [[i1 pr1]|] eqn:E; [|discriminate].
  cbn [bind] in H. apply (step_again _ _ _ _ _ _ _ _ _ _ _ l) in E as [-> ->]; [|exact G].
  destruct (IH _ _ _ _ _ F' H) as [-> ->]. rewrite !steps_shift. split; [reflexivity|]. destruct steps; reflexivity.
Qed.

(** Where the prediction starts: the lower corner of the interval. *)
Definition lower_corner (i : vinterval) (l : lane) (own_heading : R) (front : option vinterval) : course :=
  let '(longi, lat) := interval_absolute_to_local (vi_pos i) l in
  Course (fst longi) (match front with None => 0 | Some f => fst (fst (interval_absolute_to_local (vi_pos f) l)) end)
         (fst (vi_speed i)) (match front with None => 0 | Some f => fst (vi_speed f) end) (fst lat) (fst (vi_heading i) - own_heading).

(** The heading of the lane the vehicle is on, at the middle of its interval. *)
Definition own_heading (own l : lane) (i : vinterval) : R := l_heading own (mean (fst (interval_absolute_to_local (vi_pos i) l))).
Lemma first_step eig rd known ta tb v i dt l own front rear fi i' pr' : get_lane (rd_net rd) (v_target_lane v) = Ok l -> get_lane (rd_net rd) (v_lane_index v) = Ok own ->
  neighbour_vehicles rd v None = Ok (front, rear) -> get_front_interval rd known v = Ok fi -> no_gap_control rd v front ->
  predictor_step eig IsInterval rd known ta tb v i (new_predictor v) dt = Ok (i', pr') ->
  let c := lower_corner i l (own_heading own l i) fi in
  let ts := v_target_speed v in
  let long := long_of eig ta ts (- ip_distance (v_par v) - ts * ip_time (v_par v)) (slower_front v front) (long_vec c) in
  let lat_ := lat_of eig tb (lat_vec c) in
  pr' = Predictor (Some (lpv_step long dt)) (Some (lpv_step lat_ dt)) (v_target_lane v) /\ i' = shown l (lpv_step long dt) (lpv_step lat_ dt).
Proof.
  intros G Go En Ef N H. unfold predictor_step, predictor_init in H. rewrite G in H. cbn [bind] in H. unfold lower_corner, own_heading.
  destruct (interval_absolute_to_local (vi_pos i) l) as [longi lat]. rewrite Go in H. cbn [bind new_predictor pr_long pr_lat pr_previous] in H.
  rewrite Ef in H. cbn [bind] in H. cbn [fst snd]. cbv zeta. unfold long_vec, lat_vec. cbn [c_s c_front c_speed c_front_speed c_lat c_psi].
  set (fp := match fi with Some f => _ | None => _ end) in H.
  assert (Efp : fp = (match fi with None => 0 | Some f => fst (fst (interval_absolute_to_local (vi_pos f) l)) end, match fi with None => 0 | Some f => fst (vi_speed f) end)) by (unfold fp; now destruct fi).
  rewrite Efp in H. clear fp Efp. unfold matrix_polytope in H.
  destruct (longitudinal_structure rd v) as [s|] eqn:Es; [|discriminate]. cbn [bind] in H. apply (long_structure_is _ _ _ _ En N) in Es. subst s.
  unfold long_of, lat_of. destruct (parameter_box_to_polytope 4 (long_structure (slower_front v front)) ta) as [a0 da].
  destruct (parameter_box_to_polytope 2 lateral_structure tb) as [b0 db]. cbn [bind pr_long pr_lat pr_previous] in H.
  rewrite (proj2 (P_Behavior.li_eqb_iff _ _) eq_refl) in H. cbn [bind] in H. injection H as <- <-. split; reflexivity.
Qed.
Lemma shown_encloses l st en long lat_ c : l_geom l = GStraight st en ->
  boxed (fst (reported long)) (long_vec c) (snd (reported long)) -> boxed (fst (reported lat_)) (lat_vec c) (snd (reported lat_)) ->
  possible (shown l long lat_) (Motion (l_position l (c_s c) (c_lat c)) (c_speed c) (c_psi c)).
Proof.
  intros Gl (_ & _ & B) (_ & _ & B'). unfold shown.
  pose proof (B 0%nat ltac:(cbn; lia)) as B0. pose proof (B 2%nat ltac:(cbn; lia)) as B2. pose proof (B' 0%nat ltac:(cbn; lia)) as D0. pose proof (B' 1%nat ltac:(cbn; lia)) as D1.
  unfold entry in *. unfold long_vec, lat_vec in *. cbn [nth] in B0, B2, D0, D1.
  set (x := reported long) in *. set (y := reported lat_) in *. clearbody x y. clear B B'.
  destruct l as [g w lt fb sl pr]. cbn [l_geom] in Gl. subst g.
  pose proof (C50_straight_conversions_exact st en w lt fb sl pr (nth 0 (fst x) 0, nth 0 (fst y) 0) (nth 0 (snd x) 0, nth 0 (snd y) 0)) as C. cbn [fst snd] in C.
  destruct C as (_ & _ & C1 & C2); [lra | lra |]. destruct C1 as (C1 & _), C2 as (C2 & _). unfold possible. cbn [vi_pos vi_speed vi_heading m_pos m_speed m_heading fst snd].
  split; [|split; [|split]].
  - apply C1. exists (c_s c, c_lat c). cbn [fst snd]. split; [split; assumption | reflexivity].
  - apply C2. exists (c_s c, c_lat c). cbn [fst snd]. split; [split; assumption | reflexivity].
  - exact B2.
  - exact D1.
Qed.

(** Along a straight lane, after any number of steps, the interval contains the motion of every
    driver of the boxes that starts at the lower corner of the initial interval -- its
    heading being relative to the lane. *)
Theorem C93_prediction_encloses eig theta_a theta_b dt rd known v rest i i' pr' li l st en own front rear fi c' :
  eigenvectors eig -> 0 <= dt -> pbox 3 theta_a -> pbox 2 theta_b -> 0 <= entry (fst theta_a) 1 ->
  dt * (entry (fst theta_a) 0 + entry (snd theta_a) 0 + entry (fst theta_a) 1 + entry (snd theta_a) 1) <= 2 ->
  METZLER_EPS < (entry (fst theta_b) 1 + entry (snd theta_b) 1) / 2 ->
  (entry (fst theta_b) 0 + entry (snd theta_b) 0) * (entry (fst theta_b) 0 + entry (snd theta_b) 0) < 8 * (entry (fst theta_b) 1 + entry (snd theta_b) 1) ->
  Forall (keeps_lane li l) ((rd, known, v) :: rest) -> l_geom l = GStraight st en -> get_lane (rd_net rd) (v_lane_index v) = Ok own ->
  neighbour_vehicles rd v None = Ok (front, rear) -> get_front_interval rd known v = Ok fi -> no_gap_control rd v front ->
  predictions eig theta_a theta_b dt ((rd, known, v) :: rest) i (new_predictor v) = Ok (i', pr') ->
  travels theta_a theta_b (v_target_speed v) (slower_front v front) dt (S (List.length rest)) (lower_corner i l (own_heading own l i) fi) c' ->
  possible i' (Motion (l_position l (c_s c') (c_lat c')) (c_speed c') (c_psi c')).
Proof.
  intros Ev Hdt Pa Pb Ka Kd Me Di F Gl Go En Ef N H T. apply Forall_cons_iff in F as [[Et G] F']. subst li. cbn [predictions] in H.
  destruct (predictor_step eig IsInterval rd known theta_a theta_b v i (new_predictor v) dt) as [[i1 pr1]|] eqn:E; [|discriminate]. cbn [bind] in H.
  apply (first_step _ _ _ _ _ _ _ _ l own front rear fi) in E as [-> ->]; try assumption.
  apply (steps_again _ _ _ _ (v_target_lane v) l) in H as [_ ->]; [|exact F'].
  set (c := lower_corner i l (own_heading own l i) fi) in *. rewrite <- !steps_shift.
  set (long := long_of eig _ _ _ _ _). set (lat_ := lat_of eig _ _).
  replace (match rest with [] => _ | _ => _ end) with (shown l (lpv_steps (Datatypes.S (List.length rest)) long dt) (lpv_steps (Datatypes.S (List.length rest)) lat_ dt)) by (destruct rest; reflexivity).
  eapply shown_encloses; [exact Gl | |].
  - eapply long_encloses; eassumption.
  - eapply lat_encloses; eassumption.
Qed.
Print Assumptions C93_prediction_encloses.

(** ** Only the lower bounds are used *)
(** The upper bounds of speed and heading have no influence. *)
Theorem C93_upper_bounds_ignored : forall eig c rd known theta_a theta_b v i1 i2 dt,
  vi_pos i1 = vi_pos i2 -> fst (vi_speed i1) = fst (vi_speed i2) -> fst (vi_heading i1) = fst (vi_heading i2) ->
  predictor_step eig c rd known theta_a theta_b v i1 (new_predictor v) dt = predictor_step eig c rd known theta_a theta_b v i2 (new_predictor v) dt.
Proof.
  intros eig c rd known ta tb v i1 i2 dt P S H.
  assert (E : predictor_init eig c rd known ta tb v i1 (new_predictor v) = predictor_init eig c rd known ta tb v i2 (new_predictor v)).
  { unfold predictor_init. rewrite P, S, H. reflexivity. }
  unfold predictor_step. rewrite E. destruct (predictor_init eig c rd known ta tb v i2 (new_predictor v)) as [pr|] eqn:Ei; [|reflexivity]. cbn [bind].
  assert (Pp : pr_previous pr = v_target_lane v).
  { unfold predictor_init in Ei. apply bind_ok in Ei as (l & _ & Ei). destruct (interval_absolute_to_local (vi_pos i2) l) as [longi lat].
    apply bind_ok in Ei as (own & _ & Ei). cbn [new_predictor pr_long pr_lat pr_previous] in Ei. apply bind_ok in Ei as (fi & _ & Ei).
    destruct (match fi with None => _ | Some _ => _ end) as [fp fv]. apply bind_ok in Ei as ([a0 da] & _ & Ei). apply bind_ok in Ei as ([b0 db] & _ & Ei). injection Ei as <-. reflexivity. }
  rewrite Pp, (proj2 (li_eqb_iff _ _) eq_refl). reflexivity.
Qed.
Print Assumptions C93_upper_bounds_ignored.
(** A vehicle whose speed is known to lie between the target speed and more is predicted to drive at
    exactly the target speed; a driver at any higher possible speed has left the interval. *)
Theorem C93_upper_states_lost : forall eig rd known theta_a theta_b v i dt l own front rear fi i' pr',
  pbox 3 theta_a -> get_lane (rd_net rd) (v_target_lane v) = Ok l -> get_lane (rd_net rd) (v_lane_index v) = Ok own ->
  neighbour_vehicles rd v None = Ok (front, rear) -> get_front_interval rd known v = Ok fi -> no_gap_control rd v front -> slower_front v front = false ->
  fst (vi_speed i) = v_target_speed v -> predictor_step eig IsInterval rd known theta_a theta_b v i (new_predictor v) dt = Ok (i', pr') ->
  vi_speed i' = (v_target_speed v, v_target_speed v) /\
  forall c c', v_target_speed v < c_speed c -> 0 <= dt -> dt * entry (snd theta_a) 0 < 1 -> advances theta_a theta_b (v_target_speed v) false dt c c' ->
    ~ (fst (vi_speed i') <= c_speed c' <= snd (vi_speed i')).
Proof.
  intros eig rd known ta tb v i dt l own front rear fi i' pr' Pa G Go En Ef N Sl Sp H.
  apply (first_step _ _ _ _ _ _ _ _ l own front rear fi) in H as [_ ->]; try assumption. unfold shown. cbn [vi_speed]. rewrite Sl. unfold long_vec, lower_corner.
  destruct (interval_absolute_to_local (vi_pos i) l) as [longi lat]. cbn [c_s c_front c_speed c_front_speed c_lat c_psi]. rewrite Sp.
  match goal with |- context [long_of eig ta ?ts ?di false [?s; ?f; _; ?w]] => destruct (long_first eig ta ts di s f w dt Pa) as [E0 E1] end.
  unfold entry in E0, E1. rewrite E0, E1. split; [reflexivity|]. cbn [fst snd].
  intros c c' Hc Hd Hk (k1 & k2 & g1 & g2 & e1 & e2 & K1 & _ & _ & _ & _ & _ & _ & _ & M & _). rewrite M. intros [_ Q].
  assert (dt * k1 <= dt * entry (snd ta) 0) by (apply Rmult_le_compat_l; lra). nra.
Qed.
Print Assumptions C93_upper_states_lost.

(** ** The lateral motion is that of a vehicle driving at 1 m/s *)
Lemma axis_lane l x0 y0 x1 : l_geom l = GStraight (x0, y0) (x1, y0) -> x0 < x1 ->
  (forall p, l_local l p = (fst p - x0, snd p - y0)) /\ (forall s d, l_position l s d = (x0 + s, y0 + d)) /\ forall s, l_heading l s = 0.
Proof.
  intros Gl Lt. destruct l as [g w lt fb sl pr]. cbn [l_geom] in Gl. subst g.
  assert (Nm : vnorm (vsub (x1, y0) (x0, y0)) = x1 - x0).
  { unfold vnorm, vsub. cbn [fst snd]. replace (_ + _) with ((x1 - x0) * (x1 - x0)) by ring. apply sqrt_square. lra. }
  assert (Di : straight_dir (x0, y0) (x1, y0) = (1, 0)).
  { unfold straight_dir. rewrite Nm. unfold vsub, vscal. cbn [fst snd]. apply f_equal2; field; lra. }
  split; [|split].
  - intros p. unfold l_local. cbn [l_geom geom_local]. unfold straight_local, straight_lat. rewrite Di. unfold vdot, vsub. cbn [fst snd]. apply f_equal2; ring.
  - intros s d. unfold l_position. cbn [l_geom geom_position]. unfold straight_position, straight_lat. rewrite Di. unfold vadd, vscal. cbn [fst snd]. apply f_equal2; ring.
  - intros s. unfold l_heading. cbn [l_geom geom_heading]. unfold straight_heading. cbn [fst snd]. replace (y0 - y0) with 0 by ring.
    unfold atan2. rewrite Rltb_lt by lra. replace (0 / (x1 - x0)) with 0 by (field; lra). apply atan_0.
Qed.
Lemma Rmin_self x : Rmin x x = x.
Proof. apply Rmin_left. lra. Qed.
Lemma first_lat eig rd known ta tb v i dt l own i' pr' : get_lane (rd_net rd) (v_target_lane v) = Ok l -> get_lane (rd_net rd) (v_lane_index v) = Ok own ->
  predictor_step eig IsInterval rd known ta tb v i (new_predictor v) dt = Ok (i', pr') ->
  let lat := snd (interval_absolute_to_local (vi_pos i) l) in
  let y := reported (lpv_step (lat_of eig tb [fst lat; fst (vi_heading i) - own_heading own l i]) dt) in
  exists x sp, i' = VInterval (interval_local_to_absolute x (nth 0 (fst y) 0, nth 0 (snd y) 0) l) sp (nth 1 (fst y) 0, nth 1 (snd y) 0).
Proof.
  intros G Go H. unfold predictor_step, predictor_init in H. rewrite G in H. cbn [bind] in H. unfold own_heading.
  destruct (interval_absolute_to_local (vi_pos i) l) as [longi lat]. rewrite Go in H. cbn [bind new_predictor pr_long pr_lat pr_previous fst snd] in H |- *.
  destruct (get_front_interval rd known v) as [fi|]; [|discriminate]. cbn [bind] in H. destruct (match fi with None => _ | Some _ => _ end) as [fp fv].
  destruct (matrix_polytope IsInterval false ta 4 (longitudinal_structure rd v)) as [[a0 da]|]; [|discriminate]. cbn [bind] in H. cbn [matrix_polytope bind] in H.
  unfold lat_of. destruct (parameter_box_to_polytope 2 lateral_structure tb) as [b0 db]. cbn [bind pr_long pr_lat pr_previous] in H.
  rewrite (proj2 (li_eqb_iff _ _) eq_refl) in H. cbn [bind] in H. injection H as <- <-. eexists _, _. reflexivity.
Qed.
(** Steering gains whose mean is damped less than critically (as the default ones are). *)
Definition underdamped (theta_b : list R * list R) : Prop := METZLER_EPS < (entry (fst theta_b) 1 + entry (snd theta_b) 1) / 2 /\
  (entry (fst theta_b) 0 + entry (snd theta_b) 0) * (entry (fst theta_b) 0 + entry (snd theta_b) 0) < 8 * (entry (fst theta_b) 1 + entry (snd theta_b) 1).
(** A vehicle on a lane along the x axis that drives straight ahead with a heading h such that
    speed * sin h > h + 0.5 is out of its own predicted interval after one step. *)
Theorem C93_vehicle_itself_escapes : forall eig rd known theta_a theta_b v dt l x0 y0 x1 i' pr' v',
  eigenvectors eig -> pbox 2 theta_b -> underdamped theta_b -> 0 < dt ->
  get_lane (rd_net rd) (v_target_lane v) = Ok l -> v_lane_index v = v_target_lane v -> l_geom l = GStraight (x0, y0) (x1, y0) -> x0 < x1 ->
  v_crashed v = false -> v_steering v = 0 -> v_heading v + 1 / 2 < v_speed v * sin (v_heading v) ->
  predictor_mode_step eig IsInterval rd known theta_a theta_b v (certain (v_pos v) (v_speed v) (v_heading v)) (new_predictor v) dt = Ok (i', pr', v') ->
  snd (snd (vi_pos i')) < snd (v_pos v').
Proof.
  intros eig rd known ta tb v dt l x0 y0 x1 i' pr' v' Ev Pb [Me Di] Hd G Li Gl Lt Nc St Hh H.
  unfold predictor_mode_step in H. rewrite Nc in H. apply bind_ok in H as ([j pj] & E & H). apply bind_ok in H as (v1 & Es & H). injection H as -> -> ->.
  destruct (C21_straight _ _ _ _ _ St Es) as (_ & _ & Y). rewrite Y.
  apply (first_lat _ _ _ _ _ _ _ _ l l) in E; [|exact G|now rewrite Li]. cbv zeta in E. destruct E as (x & sp & ->). cbn [vi_pos].
  destruct (axis_lane l x0 y0 x1 Gl Lt) as (Lo & Po & He). unfold own_heading. rewrite He.
  assert (La : fst (snd (interval_absolute_to_local (v_pos v, v_pos v) l)) = snd (v_pos v) - y0).
  { unfold interval_absolute_to_local, box_corners. cbn [map fst snd hd tl]. rewrite !Lo. cbn [fst snd]. unfold list_min. cbn [fold_left]. rewrite !Rmin_self. reflexivity. }
  cbn [certain vi_pos vi_heading fst snd] in *. rewrite La.
  destruct (lat_first eig tb (snd (v_pos v) - y0) (v_heading v - 0) dt Pb Ev Me Di) as (E0 & E1 & _). unfold entry in E0, E1. rewrite E0, E1.
  unfold interval_local_to_absolute, box_corners. cbn [map fst snd hd tl]. rewrite !Po. cbn [fst snd].
  match goal with |- list_max ?a ?r < _ => destruct (list_max_spec r a) as [_ Q]; set (z := list_max a r) in *; clearbody z end.
  cbn [In] in Q. assert (dt * (v_heading v + 1 / 2) < dt * (v_speed v * sin (v_heading v))) by (apply Rmult_lt_compat_l; assumption).
  destruct Q as [Q | [Q | [Q | [Q | []]]]]; lra.
Qed.
Print Assumptions C93_vehicle_itself_escapes.

(** ** The heading becomes relative to the lane *)
Theorem C93_heading_relative : forall eig rd known theta_a theta_b v dt l i' pr' v',
  eigenvectors eig -> pbox 2 theta_b -> underdamped theta_b ->
  get_lane (rd_net rd) (v_target_lane v) = Ok l -> v_lane_index v = v_target_lane v -> snd (l_local l (v_pos v)) = 0 ->
  (forall s, l_heading l s = v_heading v) -> v_crashed v = false -> v_steering v = 0 ->
  predictor_mode_step eig IsInterval rd known theta_a theta_b v (certain (v_pos v) (v_speed v) (v_heading v)) (new_predictor v) dt = Ok (i', pr', v') ->
  vi_heading i' = (0, 0) /\ v_heading v' = v_heading v.
Proof.
  intros eig rd known ta tb v dt l i' pr' v' Ev Pb [Me Di] G Li La He Nc St H.
  unfold predictor_mode_step in H. rewrite Nc in H. apply bind_ok in H as ([j pj] & E & H). apply bind_ok in H as (v1 & Es & H). injection H as -> -> ->.
  destruct (C21_straight _ _ _ _ _ St Es) as (Hh & _ & _). split; [|exact Hh].
  apply (first_lat _ _ _ _ _ _ _ _ l l) in E; [|exact G|now rewrite Li]. cbv zeta in E. destruct E as (x & sp & ->). cbn [vi_heading].
  unfold own_heading. rewrite He. cbn [certain vi_pos vi_heading fst snd].
  assert (Lt : fst (snd (interval_absolute_to_local (v_pos v, v_pos v) l)) = 0).
  { unfold interval_absolute_to_local, box_corners. cbn [fst snd]. rewrite <- surjective_pairing. cbn [map hd tl]. rewrite La. unfold list_min. cbn [fold_left fst snd]. rewrite !Rmin_self. reflexivity. }
  rewrite Lt. destruct (lat_first eig tb 0 (v_heading v - v_heading v) dt Pb Ev Me Di) as (_ & _ & Q). destruct Q as [Q0 Q1]; [reflexivity | ring|].
  unfold entry in Q0, Q1. rewrite Q0, Q1. reflexivity.
Qed.
Print Assumptions C93_heading_relative.

(** ** The control of the gap is (almost) never predicted *)
(** A linear driver at its target speed, too close to a front vehicle that is faster, brakes; its
    speed is predicted to stay the same with certainty. *)
Theorem C93_braking_not_predicted : forall eig rd known theta_a theta_b v f rear fi l own d a p1 p2 p3 dt i' pr' v',
  pbox 3 theta_a -> get_lane (rd_net rd) (v_target_lane v) = Ok l -> get_lane (rd_net rd) (v_lane_index v) = Ok own ->
  neighbour_vehicles rd v None = Ok (Some f, rear) -> get_front_interval rd known v = Ok fi -> lane_distance_to (rd_net rd) v f = Ok d ->
  v_crashed v = false -> v_speed v = v_target_speed v -> 0 <= v_speed v <= 40 -> v_speed v < e_speed f ->
  d < ip_distance (v_par v) + ip_time (v_par v) * v_speed v ->
  ip_acc_par (v_par v) = (p1, p2, p3) -> 0 < p3 -> 0 < ip_acc_max (v_par v) -> 0 < dt -> is_controlled (v_kind v) = true ->
  linear_acceleration (rd_net rd) (v_par v) (Some (EV v)) (Some f) = Ok a -> v_accel v = Rclip a (- ip_acc_max (v_par v)) (ip_acc_max (v_par v)) ->
  predictor_mode_step eig IsInterval rd known theta_a theta_b v (certain (v_pos v) (v_speed v) (v_heading v)) (new_predictor v) dt = Ok (i', pr', v') ->
  vi_speed i' = (v_speed v, v_speed v) /\ v_speed v' < v_speed v.
Proof.
  intros eig rd known ta tb v f rear fi l own d a p1 p2 p3 dt i' pr' v' Pa G Go En Ef Ed Nc Sp S40 Fa Cl Ep P3 Am Hd Co Ea Ac H.
  unfold predictor_mode_step in H. rewrite Nc in H. apply bind_ok in H as ([j pj] & E & H). apply bind_ok in H as (v1 & Es & H). injection H as -> -> ->.
  split.
  - destruct (C93_upper_states_lost eig rd known ta tb v (certain (v_pos v) (v_speed v) (v_heading v)) dt l own (Some f) rear fi i' pr') as [Q _]; try assumption.
    + intros f0 d0 [= <-] D0. rewrite Ed in D0. injection D0 as <-. lra.
    + cbn [slower_front]. rewrite Rltb_lt by exact Fa. reflexivity.
    + rewrite Q, Sp. reflexivity.
  - destruct (C21_step_increments _ _ _ _ _ Nc ltac:(lra) Es) as (b & _ & _ & _ & _ & _ & V). rewrite V.
    assert (Na : v_accel v < 0); [|nra].
    unfold linear_acceleration, linear_features in Ea. rewrite Co in Ea. cbn [negb] in Ea. rewrite Ed in Ea. cbn [bind] in Ea. rewrite Ep in Ea. cbn [fst snd] in Ea. injection Ea as <-.
    rewrite Ac. replace (v_target_speed v - v_speed v) with 0 by lra. rewrite (Rmin_right (e_speed f - v_speed v) 0) by lra.
    rewrite (Rmax_left (v_speed v) 0) by lra. rewrite (Rmin_left (d - (ip_distance (v_par v) + v_speed v * ip_time (v_par v))) 0) by lra. unfold Rclip.
    match goal with |- context [?x + p3 * ?y] => replace x with 0 by ring; assert (p3 * y < 0) by nra end.
    unfold Rmin, Rmax; repeat destruct (Rle_dec _ _); lra.
Qed.
Print Assumptions C93_braking_not_predicted.

(** ** Changes of lane *)
(** The interval of the vehicle is read at its first step and when it changes lanes only:
    at the following steps the prediction goes on from its own state, whatever the interval
    is at that time. *)
Theorem C93_interval_not_read_again : forall eig c rd known theta_a theta_b v i pr dt i' pr',
  predictor_step eig c rd known theta_a theta_b v i pr dt = Ok (i', pr') ->
  forall c2 rd2 known2 theta_a2 theta_b2 v2 dt2 i1 i2, v_target_lane v2 = v_target_lane v ->
  predictor_step eig c2 rd2 known2 theta_a2 theta_b2 v2 i1 pr' dt2 = predictor_step eig c2 rd2 known2 theta_a2 theta_b2 v2 i2 pr' dt2.
Proof.
  intros eig c rd known theta_a theta_b v i pr dt i' pr' H c2 rd2 known2 theta_a2 theta_b2 v2 dt2 i1 i2 T.
  assert (Q : exists long lat_, pr' = Predictor (Some long) (Some lat_) (v_target_lane v)).
  { unfold predictor_step in H. apply bind_ok in H as (p0 & _ & H). destruct (pr_long p0) as [long|]; [|discriminate]. destruct (pr_lat p0) as [lat_|]; [|discriminate].
    apply bind_ok in H as ([lo la] & _ & H). apply bind_ok in H as (l & _ & H). injection H as _ <-. eexists; eexists; reflexivity. }
  destruct Q as (long & lat_ & ->). unfold predictor_step, predictor_init. unfold bind.
  destruct (get_lane (rd_net rd2) (v_target_lane v2)) as [l|]; [|reflexivity].
  destruct (interval_absolute_to_local (vi_pos i1) l) as [? ?]. destruct (interval_absolute_to_local (vi_pos i2) l) as [? ?].
  destruct (get_lane (rd_net rd2) (v_lane_index v2)) as [own|]; [|reflexivity]. cbn [pr_long pr_lat pr_previous].
  rewrite T, (proj2 (li_eqb_iff _ _) eq_refl). reflexivity.
Qed.
Print Assumptions C93_interval_not_read_again.
(** The heading relative to the previous lane is shifted by the difference of the headings of the
    lanes in the wrong direction: its centre ends up twice that difference away. *)
Theorem C93_lane_change_turns_wrong_way : forall g v i previous long lat_ long' lat' t p theta,
  change_lane g v i previous long lat_ = Ok (long', lat') -> get_lane g (v_target_lane v) = Ok t -> get_lane g previous = Ok p ->
  lp_coord lat_ = None -> List.length (fst (lp_xi lat_)) = 2%nat -> List.length (snd (lp_xi lat_)) = 2%nat ->
  let s := mean (fst (interval_absolute_to_local (vi_pos i) t)) in
  mean (vi_heading i) = theta - l_heading p s ->
  mean (entry (fst (lp_xi lat')) 1, entry (snd (lp_xi lat')) 1) = (theta - l_heading t s) + 2 * (l_heading t s - l_heading p s).
Proof.
  intros g v i previous long lat_ long' lat' t p theta H Gt Gp Nc L0 L1 s Hm. unfold change_lane in H. rewrite Gt, Gp in H. cbn [bind] in H.
  unfold s in *. clear s. destruct (interval_absolute_to_local (vi_pos i) t) as [longi lat]. cbn [fst] in *. injection H as _ <-.
  rewrite Nc. unfold recentre, set_xi, change_interval, middle. cbn [lp_xi fst snd].
  destruct (lp_xi lat_) as [xl xh]. cbn [fst snd] in *.
  assert (E : forall u w : lvec, List.length u = 2%nat -> List.length w = 2%nat -> List.length (lv_add u w) = 2%nat /\ List.length (lv_sub u w) = 2%nat).
  { intros u w Lu Lw. rewrite len_add, len_sub by congruence. split; exact Lu. }
  set (m1 := lv_scale (1 / 2) (lv_add [fst lat; _] [snd lat; _])). set (m2 := lv_scale (1 / 2) (lv_add xl xh)).
  assert (Lm1 : List.length m1 = 2%nat) by reflexivity. assert (Lm2 : List.length m2 = 2%nat) by (unfold m2; rewrite len_scale; apply E; assumption).
  rewrite !entry_add by (rewrite (proj2 (E m1 m2 Lm1 Lm2)); assumption). rewrite !entry_sub by congruence.
  unfold m2. rewrite entry_scale, entry_add by congruence. set (w := l_heading t (mean longi) - l_heading p (mean longi)) in *.
  assert (E1 : entry m1 1 = 1 / 2 * (fst (vi_heading i) + w + (snd (vi_heading i) + w))) by reflexivity. rewrite E1. unfold w, mean. cbn [fst snd].
  unfold mean in Hm. lra.
Qed.
Print Assumptions C93_lane_change_turns_wrong_way.

(** ** Failures of a RegressionVehicle without data, crashed vehicles *)
Theorem C93_no_data : forall eig la rd known theta_a theta_b v i dt l own fi k,
  get_lane (rd_net rd) (v_target_lane v) = Ok l -> get_lane (rd_net rd) (v_lane_index v) = Ok own -> get_front_interval rd known v = Ok fi ->
  k = NoData \/ k = EmptyData ->
  predictor_step eig (IsRegression la k) rd known theta_a theta_b v i (new_predictor v) dt = Err (match k with NoData => TypeError | _ => KeyError end).
Proof.
  intros eig la rd known ta tb v i dt l own fi k G Go Ef K. unfold predictor_step, predictor_init. rewrite G. cbn [bind].
  destruct (interval_absolute_to_local (vi_pos i) l) as [longi lat]. rewrite Go. cbn [bind new_predictor pr_long]. rewrite Ef. cbn [bind].
  destruct (match fi with None => _ | Some _ => _ end) as [fp fv]. destruct K as [-> | ->]; reflexivity.
Qed.
Print Assumptions C93_no_data.
Theorem C93_crashed_certain : forall eig c rd known theta_a theta_b v i pr dt i' pr' v', v_crashed v = true ->
  predictor_mode_step eig c rd known theta_a theta_b v i pr dt = Ok (i', pr', v') -> i' = certain (v_pos v) (v_speed v) (v_heading v) /\ pr' = pr.
Proof.
  intros eig c rd known ta tb v i pr dt i' pr' v' C H. unfold predictor_mode_step in H. rewrite C in H. cbn [bind] in H.
  apply bind_ok in H as (v1 & _ & H). injection H as <- <- _. split; reflexivity.
Qed.
Print Assumptions C93_crashed_certain.

(** ** The hypotheses can be met *)
Lemma first_total eig rd known ta tb v i dt l own fi s : get_lane (rd_net rd) (v_target_lane v) = Ok l -> get_lane (rd_net rd) (v_lane_index v) = Ok own ->
  get_front_interval rd known v = Ok fi -> longitudinal_structure rd v = Ok s ->
  exists i' pr', predictor_step eig IsInterval rd known ta tb v i (new_predictor v) dt = Ok (i', pr').
Proof.
  intros G Go Ef Es. unfold predictor_step, predictor_init. rewrite G. cbn [bind].
  destruct (interval_absolute_to_local (vi_pos i) l) as [longi lat]. rewrite Go. cbn [bind new_predictor pr_long pr_lat pr_previous]. rewrite Ef. cbn [bind].
  destruct (match fi with None => _ | Some _ => _ end) as [fp fv]. unfold matrix_polytope. rewrite Es. cbn [bind].
  destruct (parameter_box_to_polytope 4 s ta) as [a0 da]. destruct (parameter_box_to_polytope 2 lateral_structure tb) as [b0 db]. cbn [bind pr_long pr_lat pr_previous].
  rewrite (proj2 (li_eqb_iff _ _) eq_refl). cbn [bind]. eexists _, _. reflexivity.
Qed.
Definition alone (p : vec) (heading speed target : R) : vehicle :=
  Vehicle 0 KLinear p heading speed ("0", "1", Some 0%Z)%string 0 0 false true [] ("0", "1", Some 0%Z)%string target None 1%Z
    grid_default true 0 idm_default false 0%Z false.
Definition alone_road (p : vec) (heading speed target : R) : road := demo_road [alone p heading speed target] [].
Lemma alone_no_neighbour p h s t : neighbour_vehicles (alone_road p h s t) (alone p h s t) None = Ok (None, None).
Proof.
  unfold neighbour_vehicles. cbn [v_id v_pos v_lane_index alone]. unfold neighbours_on. change (rd_net (alone_road p h s t)) with demo_net.
  pose proof (demo_get 0 ltac:(lia)) as G. change (Z.of_nat 0) with 0%Z in G. rewrite G. reflexivity.
Qed.
(** LinearVehicle.ACCELERATION_RANGE and STEERING_RANGE as boxes. *)
Definition default_a : itv lvec := ([15 / 100; 15 / 100; 1], [45 / 100; 45 / 100; 3]).
Lemma default_a_is : default_a = ([1/2 * (3/10); 1/2 * (3/10); 1/2 * 2], [3/2 * (3/10); 3/2 * (3/10); 3/2 * 2]).
Proof. unfold default_a. apply f_equal2; repeat (apply f_equal2; [lra|]); reflexivity. Qed.
Lemma default_boxes : pbox 3 default_a /\ pbox 2 steering_range /\ underdamped steering_range.
Proof.
  split; [|split].
  - split; [reflexivity|]. split; [reflexivity|]. intros i Hi. destruct i as [|[|[|i]]]; [| | |lia]; unfold entry; cbn; lra.
  - split; [reflexivity|]. split; [reflexivity|]. intros i Hi. destruct i as [|[|i]]; [| |lia]; unfold entry, steering_range, STEERING_RANGE, vec2, KP_LATERAL, KP_HEADING, TAU_DS; cbn; lra.
  - unfold underdamped, entry, steering_range, STEERING_RANGE, vec2, METZLER_EPS, KP_LATERAL, KP_HEADING, TAU_DS; cbn. split; lra.
Qed.
(** A vehicle alone on a 1000 m lane, the default parameter boxes, steps of 1/15 s. *)
Example C93_nonvacuous : let rd := alone_road (100, 1) 0 20 25 in let v := alone (100, 1) 0 20 25 in let known := fun _ : nat => @None vinterval in
  exists i' pr' c', predictions (fun _ => None) default_a steering_range (1 / 15) [(rd, known, v); (rd, known, v)] (certain (100, 1) 20 0) (new_predictor v) = Ok (i', pr') /\
    travels default_a steering_range 25 false (1 / 15) 2 (lower_corner (certain (100, 1) 20 0) (straight_network_lane 3 0 1000 0) 0 None) c' /\
    20 < c_speed c' /\ c_lat c' < 1 /\ possible i' (Motion (l_position (straight_network_lane 3 0 1000 0) (c_s c') (c_lat c')) (c_speed c') (c_psi c')).
Proof.
  cbv zeta. set (rd := alone_road (100, 1) 0 20 25). set (v := alone (100, 1) 0 20 25). set (known := fun _ : nat => @None vinterval). set (l := straight_network_lane 3 0 1000 0).
  assert (G : get_lane (rd_net rd) ("0", "1", Some 0%Z)%string = Ok l) by (apply (demo_get 0); lia).
  assert (En : neighbour_vehicles rd v None = Ok (None, None)) by apply alone_no_neighbour.
  assert (Ef : get_front_interval rd known v = Ok None) by (unfold get_front_interval; rewrite En; reflexivity).
  assert (Es : exists s, longitudinal_structure rd v = Ok s) by (unfold longitudinal_structure; rewrite En; eexists; reflexivity). destruct Es as (s & Es).
  assert (H : exists i' pr', predictions (fun _ => None) default_a steering_range (1 / 15) [(rd, known, v); (rd, known, v)] (certain (100, 1) 20 0) (new_predictor v) = Ok (i', pr')).
  { cbn [predictions]. destruct (first_total (fun _ => None) rd known default_a steering_range v (certain (100, 1) 20 0) (1 / 15) l l None s G G Ef Es) as (i1 & pr1 & E1). rewrite E1. cbn [bind].
    apply (first_step _ _ _ _ _ _ _ _ l l None None None) in E1 as [-> ->]; try assumption; [|intros f d Hf; discriminate].
    eexists _, _. unfold predictor_step, predictor_init. cbn [v_target_lane v alone v_lane_index] in *. rewrite G. cbn [bind].
    match goal with |- context [interval_absolute_to_local ?p l] => destruct (interval_absolute_to_local p l) as [lo la] end. cbn [bind pr_long pr_lat pr_previous].
    rewrite (proj2 (li_eqb_iff _ _) eq_refl). cbn [bind]. reflexivity. }
  destruct H as (i' & pr' & H).
  assert (Lc : lower_corner (certain (100, 1) 20 0) l 0 None = Course 100 0 20 0 1 0).
  { unfold lower_corner, interval_absolute_to_local, box_corners, certain. cbn [vi_pos vi_speed vi_heading fst snd map hd tl]. unfold l. rewrite !demo_local by lia. cbn [fst snd INR]. unfold list_min. cbn [fold_left]. rewrite !Rmin_self. f_equal; ring. }
  destruct default_boxes as (Pa & Pb & Me & Di).
  set (c1 := Course (100 + 1 / 15 * 20) 0 (20 + 1 / 15 * (3 / 10 * 5)) (1 / 15 * (3 / 10 * 25)) 1 (- (1 / 15 * 8))).
  set (c2 := Course (c_s c1 + 1 / 15 * c_speed c1) (1 / 15 * c_front_speed c1) (c_speed c1 + 1 / 15 * (3 / 10 * (25 - c_speed c1))) (c_front_speed c1 + 1 / 15 * (3 / 10 * (25 - c_front_speed c1)))
     (1 + 1 / 15 * c_psi c1) (c_psi c1 - 1 / 15 * (5 * c_psi c1 + 8))).
  exists i', pr', c2.
  assert (Gb : entry (fst default_a) 0 <= 3 / 10 <= entry (snd default_a) 0 /\ entry (fst default_a) 1 <= 3 / 10 <= entry (snd default_a) 1 /\
    entry (fst steering_range) 0 <= 5 <= entry (snd steering_range) 0 /\ entry (fst steering_range) 1 <= 8 <= entry (snd steering_range) 1).
  { unfold entry, default_a, steering_range, STEERING_RANGE, vec2, KP_LATERAL, KP_HEADING, TAU_DS; cbn. lra. }
  destruct Gb as (Gb1 & Gb2 & Gb3 & Gb4).
  assert (R0 : Rabs 0 <= 1 /\ Rabs 0 <= 1 / 2) by (rewrite Rabs_R0; lra). destruct R0 as [R0 R1].
  assert (T : travels default_a steering_range 25 false (1 / 15) 2 (lower_corner (certain (100, 1) 20 0) l 0 None) c2).
  { rewrite Lc. apply travels_more with (c1 := c1); [|apply travels_more with (c1 := c2); [|apply travels_none]]; exists (3 / 10), (3 / 10), 5, 8, 0, 0;
      (repeat (split; [assumption|])); unfold c2, c1; cbn [c_s c_front c_speed c_front_speed c_lat c_psi]; repeat split; lra. }
  split; [exact H|]. split; [exact T|]. split; [unfold c2, c1; cbn [c_s c_front c_speed c_front_speed c_lat c_psi]; lra|].
  split; [unfold c2, c1; cbn [c_s c_front c_speed c_front_speed c_lat c_psi]; lra|].
  eapply (C93_prediction_encloses (fun _ => None) default_a steering_range (1 / 15) rd known v [(rd, known, v)] (certain (100, 1) 20 0) i' pr' ("0", "1", Some 0%Z)%string l);
    try eassumption; try lra.
  - intros n a t ti _ _ Q. discriminate.
  - unfold entry, default_a. cbn. lra.
  - unfold entry, default_a. cbn. lra.
  - repeat constructor; exact G.
  - reflexivity.
  - intros f d Hf. discriminate.
  - replace (own_heading l l (certain (100, 1) 20 0)) with 0; [exact T|]. unfold own_heading, l. rewrite demo_heading by lia. reflexivity.
Qed.
(** A vehicle at 25 m/s that turns away by 0.2 rad leaves its own prediction at the first step. *)
Example C93_escape_nonvacuous : let v := alone (100, 0) (1 / 5) 25 25 in
  exists i' pr' v', predictor_mode_step (fun _ => None) IsInterval (alone_road (100, 0) (1 / 5) 25 25) (fun _ => None) default_a steering_range v
    (certain (v_pos v) (v_speed v) (v_heading v)) (new_predictor v) (1 / 15) = Ok (i', pr', v') /\ snd (snd (vi_pos i')) < snd (v_pos v').
Proof.
  intros v. set (rd := alone_road (100, 0) (1 / 5) 25 25). set (l := straight_network_lane 3 0 1000 0).
  assert (G : get_lane (rd_net rd) ("0", "1", Some 0%Z)%string = Ok l) by (apply (demo_get 0); lia).
  assert (En : neighbour_vehicles rd v None = Ok (None, None)) by apply alone_no_neighbour.
  assert (Ef : get_front_interval rd (fun _ => None) v = Ok None) by (unfold get_front_interval; rewrite En; reflexivity).
  assert (Es : exists s, longitudinal_structure rd v = Ok s) by (unfold longitudinal_structure; rewrite En; eexists; reflexivity). destruct Es as (s & Es).
  destruct (first_total (fun _ => None) rd (fun _ => None) default_a steering_range v (certain (v_pos v) (v_speed v) (v_heading v)) (1 / 15) l l None s G G Ef Es) as (i1 & pr1 & E1).
  destruct (C21_step_total demo_net (rd_record rd) v (1 / 15) demo_built ltac:(discriminate)) as [v' Ev].
  assert (H : predictor_mode_step (fun _ => None) IsInterval rd (fun _ => None) default_a steering_range v (certain (v_pos v) (v_speed v) (v_heading v)) (new_predictor v) (1 / 15) = Ok (i1, pr1, v')).
  { unfold predictor_mode_step. change (v_crashed v) with false. cbv iota. rewrite E1. cbn [bind]. change (rd_net rd) with demo_net. rewrite Ev. reflexivity. }
  exists i1, pr1, v'. split; [exact H|]. destruct default_boxes as (Pa & Pb & Un).
  eapply (C93_vehicle_itself_escapes (fun _ => None) rd (fun _ => None) default_a steering_range v (1 / 15) l 0 0 1000); try eassumption; try reflexivity; try lra.
  - intros n a t ti _ _ Q. discriminate.
  - unfold l, straight_network_lane. cbn [l_geom INR]. unfold vrot. cbn [fst snd]. replace (- 0) with 0 by ring. rewrite cos_0, sin_0. f_equal; apply f_equal2; ring.
  - cbn [v alone v_heading v_speed]. destruct (sin_bound (1 / 5) 0 ltac:(lra) ltac:(pose proof PI_RGT_0; pose proof PI2_1; lra)) as [Lb _]. unfold sin_approx, sin_term in Lb. cbn in Lb. lra.
Qed.
