(** Where the scene lies does not matter: roads and environments (C111). *)
From Verif Require Import Prelude M_Utils M_Lane M_Road M_Vehicle M_Kinematics M_Control M_Behavior M_Regulation M_Action M_Env
  S_Moved P_Base P_Utils P_Lane P_Rename P_Moved.
From Coq Require Import Lra Lia.
Open Scope R_scope.

Lemma foldM_put : forall {A S T} (I : S -> Prop) (f : S -> T) (k : S -> A -> res S) (k' : T -> A -> res T) l s,
  (forall s x, I s -> k' (f s) x = rmap f (k s x)) -> (forall s x s', I s -> k s x = Ok s' -> I s') -> I s ->
  foldM k' l (f s) = rmap f (foldM k l s).
Proof.
  intros A S T I f k k' l. induction l as [|x l IH]; intros s H K Hs; cbn; [reflexivity|].
  rewrite H by exact Hs. rewrite bind_rmap, rmap_bind. apply bind_on. intros y E. apply IH; auto. now apply (K s x).
Qed.

(** ** Collisions *)
Lemma half_turns : forall k, (cos (PI * IZR k) = 1 /\ sin (PI * IZR k) = 0) \/ (cos (PI * IZR k) = -1 /\ sin (PI * IZR k) = 0).
Proof.
  intro k. destruct (Z.Even_or_Odd k) as [[j ->]|[j ->]].
  - left. rewrite mult_IZR. replace (PI * (2 * IZR j)) with (0 + 2 * PI * IZR j) by ring. now rewrite cos_turn, sin_turn, cos_0, sin_0.
  - right. rewrite plus_IZR, mult_IZR. replace (PI * (2 * IZR j + 1)) with (PI + 2 * PI * IZR j) by ring.
    now rewrite cos_turn, sin_turn, cos_PI, sin_PI.
Qed.
Section Roads.
  Variable m : motion.
  Notation pt := (put m).
  Notation pl := (put_lane m).
  Notation pg := (put_graph m).
  Notation pv := (put_vehicle m).
  Notation po := (put_object m).
  Notation pr := (put_road m).
  Notation pe := (put_env m).
  Definition put_entity (e : entity) : entity := match e with EV v => EV (pv v) | EO o => EO (po o) end.
  Notation pn := put_entity.

  Lemma turned_rot : forall h h' p, turned m h h' -> vrot h' p = vrot h (vrot (m_angle m) p).
  Proof. intros h h' p [k ->]. now rewrite vrot_turns, vrot_plus. Qed.
  Lemma vrot_swap : forall s t p, vrot s (vrot t p) = vrot t (vrot s p).
  Proof. intros s t p. rewrite <- !vrot_plus. now rewrite Rplus_comm. Qed.
  Lemma put_point : quarterly m -> forall p q h h' l w, turned m h h' ->
    point_in_rotated_rectangle (pt p) (pt q) l w h' = point_in_rotated_rectangle p q l w h.
  Proof.
    intros [k K] p q h h' l w H. unfold point_in_rotated_rectangle. cbv zeta. rewrite put_sub, (turned_rot _ _ _ H).
    rewrite <- (vrot_plus (m_angle m) (m_angle m)). replace (m_angle m + m_angle m) with (PI * IZR k) by (rewrite K; field).
    rewrite vrot_swap. set (u := vrot h (vsub p q)).
    assert (E : vrot (PI * IZR k) u = u \/ vrot (PI * IZR k) u = (- fst u, - snd u)).
    { unfold vrot. destruct (half_turns k) as [[-> ->]|[-> ->]]; [left|right]; destruct u as [x y]; cbn [fst snd]; f_equal; ring. }
    destruct E as [->| ->]; [reflexivity|]. unfold point_in_rectangle. cbn [fst snd].
    assert (F : forall a x, Rleb (- a) (- x) && Rleb (- x) a = Rleb (- a) x && Rleb x a).
    { intros a x. destruct (Rleb (- a) (- x)) eqn:E1, (Rleb (- x) a) eqn:E2, (Rleb (- a) x) eqn:E3, (Rleb x a) eqn:E4; rbool; cbn [andb]; try reflexivity; lra. }
    rewrite !F. reflexivity.
  Qed.
  Lemma put_corner : quarterly m -> forall p l w h h' q l' w' k k', turned m h h' -> turned m k k' ->
    has_corner_inside (Rect (pt p) l w h') (Rect (pt q) l' w' k') = has_corner_inside (Rect p l w h) (Rect q l' w' k).
  Proof.
    intros Q p l w h h' q l' w' k k' H K. unfold has_corner_inside. cbn [r_center r_length r_width r_angle].
    induction (nine_points l w) as [|x xs IH]; [reflexivity|]. cbn [existsb]. rewrite IH. f_equal.
    rewrite (turned_rot _ _ _ H), vrot_swap, put_add. now apply put_point.
  Qed.
  Lemma put_rects : quarterly m -> forall p l w h h' q l' w' k k', turned m h h' -> turned m k k' ->
    rotated_rectangles_intersect (Rect (pt p) l w h') (Rect (pt q) l' w' k') = rotated_rectangles_intersect (Rect p l w h) (Rect q l' w' k).
  Proof. intros Q p l w h h' q l' w' k k' H K. unfold rotated_rectangles_intersect. now rewrite (put_corner Q p l w h h' q l' w' k k' H K), (put_corner Q q l' w' k k' p l w h h' K H). Qed.
  Lemma face_turned : forall i h, turned m h (face m i h).
  Proof. intros i h. exists (m_turns m i). reflexivity. Qed.
  Lemma put_colliding : quarterly m -> forall p i h q j k l w,
    colliding (pt p) (face m i h) (pt q) (face m j k) l w = colliding p h q k l w.
  Proof.
    intros Q p i h q j k l w. unfold colliding. rewrite put_norm. destruct (Rltb _ _); [reflexivity|].
    apply put_rects; auto using face_turned.
  Qed.
  Lemma fits_quarterly : forall g, fits m g -> quarterly m.
  Proof. intros g [[k K]|[Q _]]; [|exact Q]. exists (4 * k)%Z. rewrite K, mult_IZR. field. Qed.

  (** ** Neighbours *)
  Lemma pn_id : forall e, e_id (pn e) = e_id e. Proof. intros [v|o]; reflexivity. Qed.
  Lemma pn_pos : forall e, e_pos (pn e) = pt (e_pos e). Proof. intros [v|o]; reflexivity. Qed.
  Lemma pn_landmark : forall e, is_landmark (pn e) = is_landmark e. Proof. intros [v|o]; reflexivity. Qed.
  Lemma pn_speed : forall e, e_speed (pn e) = e_speed e. Proof. intros [v|o]; reflexivity. Qed.
  Lemma pn_direction : forall e, e_direction (pn e) = vrot (m_angle m) (e_direction e).
  Proof. intros [v|o]; unfold e_direction; cbn [put_entity e_heading]; [exact (face_cos m (v_id v) (v_heading v))|exact (face_cos m (o_id o) (o_heading o))]. Qed.
  Lemma pn_velocity : forall e, e_velocity (pn e) = vrot (m_angle m) (e_velocity e).
  Proof. intros e. unfold e_velocity. now rewrite pn_speed, pn_direction, vrot_scal. Qed.
  Definition put_acc (acc : neighbour_acc) : neighbour_acc :=
    (option_map (fun x => (fst x, pn (snd x))) (fst acc), option_map (fun x => (fst x, pn (snd x))) (snd acc)).
  Lemma put_neighbour_step : forall l id s acc e, sound m l ->
    neighbour_step (pl l) id s (put_acc acc) (pn e) = put_acc (neighbour_step l id s acc e).
  Proof.
    intros l id s [a b] e H. unfold neighbour_step. rewrite pn_id, pn_landmark, pn_pos, put_local by exact H.
    destruct (negb (e_id e =? id)%nat && negb (is_landmark e)); [|reflexivity].
    destruct (l_local l (e_pos e)) as [sv dv]. rewrite put_on_lane_hint by exact H.
    destruct (negb (on_lane l (e_pos e) (Some sv) (Some dv) 1)); [reflexivity|].
    unfold put_acc. cbn [fst snd]. f_equal.
    - destruct a as [[sf x]|]; cbn [option_map fst snd]; [destruct (Rleb s sv && Rleb sv sf)|destruct (Rleb s sv)]; reflexivity.
    - destruct b as [[sf x]|]; cbn [option_map fst snd]; [destruct (Rltb sv s && Rltb sf sv)|destruct (Rltb sv s)]; reflexivity.
  Qed.
  Lemma put_fold_neighbours : forall l id s es acc, sound m l ->
    fold_left (neighbour_step (pl l) id s) (map pn es) (put_acc acc) = put_acc (fold_left (neighbour_step l id s) es acc).
  Proof. intros l id s es. induction es as [|e es IH]; intros acc H; cbn [fold_left map]; [reflexivity|]. rewrite put_neighbour_step, IH by exact H. reflexivity. Qed.
  Lemma put_entities : forall rd, rd_entities (pr rd) = map pn (rd_entities rd).
  Proof. intros rd. unfold rd_entities. cbn [rd_vehicles rd_objects put_road]. now rewrite map_app, !map_map. Qed.
  Definition put_pair (p : option entity * option entity) : option entity * option entity :=
    (option_map pn (fst p), option_map pn (snd p)).

  Variable g : graph.
  Hypothesis ok : fits m g.
  Notation on rd := (rd_net rd = g).
  Lemma put_neighbours_on : forall rd id p i, on rd -> neighbours_on (pr rd) id (pt p) i = rmap put_pair (neighbours_on rd id p i).
  Proof.
    intros rd id p i E. unfold neighbours_on. cbn [rd_net put_road]. rewrite E, rmap_bind. apply (at_lane m g ok). intros l H.
    rewrite put_local by exact H. rewrite put_entities. change ((None, None) : neighbour_acc) with (put_acc (None, None)).
    cbv zeta. rewrite put_fold_neighbours by exact H.
    destruct (fold_left (neighbour_step l id _) (rd_entities rd) _) as [[[x e]|] [[y e']|]]; reflexivity.
  Qed.
  Lemma put_neighbours : forall rd v i, on rd -> neighbour_vehicles (pr rd) (pv v) i = rmap put_pair (neighbour_vehicles rd v i).
  Proof. intros rd v i. unfold neighbour_vehicles. apply put_neighbours_on. Qed.

  (** ** IDM and MOBIL *)
  Lemma put_distance_to : forall v e, lane_distance_to (pg g) (pv v) (pn e) = lane_distance_to g v e.
  Proof.
    intros v e. unfold lane_distance_to. change (v_lane_index (pv v)) with (v_lane_index v). apply (at_lane m g ok). intros l H.
    change (v_pos (pv v)) with (pt (v_pos v)). unfold lane_distance. rewrite pn_pos, !put_local by exact H. reflexivity.
  Qed.
  Lemma put_gap : forall p v e, desired_gap p (pv v) (pn e) = desired_gap p v e.
  Proof.
    intros p v e. unfold desired_gap. change (EV (pv v)) with (pn (EV v)).
    rewrite !pn_velocity, pn_direction, vrot_sub, vrot_dot. reflexivity.
  Qed.
  Lemma put_linear_features : forall p ego front, linear_features (pg g) p (option_map pn ego) (option_map pn front) = linear_features g p ego front.
  Proof.
    intros p ego front. destruct ego as [[e|o]|]; cbn [option_map put_entity linear_features]; try reflexivity.
    change (v_kind (pv e)) with (v_kind e). destruct (negb (is_controlled (v_kind e))); [reflexivity|].
    destruct front as [fr|]; cbn [option_map]; [|reflexivity]. rewrite put_distance_to, pn_speed. reflexivity.
  Qed.
  Lemma put_acceleration : forall self ego front,
    acceleration (pg g) (pv self) (option_map pn ego) (option_map pn front) = acceleration g self ego front.
  Proof.
    intros self ego front. unfold acceleration. change (v_kind (pv self)) with (v_kind self). change (v_par (pv self)) with (v_par self).
    assert (I : idm_acceleration (pg g) (v_par self) (option_map pn ego) (option_map pn front) = idm_acceleration g (v_par self) ego front).
    { destruct ego as [[e|o]|]; cbn [option_map put_entity idm_acceleration]; try reflexivity.
      destruct front as [fr|]; cbn [option_map]; [|reflexivity].
      rewrite put_distance_to, put_gap. reflexivity. }
    destruct (v_kind self); try exact I. unfold linear_acceleration. now rewrite put_linear_features.
  Qed.
  Lemma put_side : forall i, side_lanes (pg g) i = side_lanes g i.
  Proof.
    intros i. unfold side_lanes. destruct (li_id i); [|reflexivity]. rewrite put_g_lanes, bind_rmap. apply bind_ext. intro ls.
    now rewrite map_length.
  Qed.
  Lemma put_mobil : forall rd v i, on rd -> mobil (pr rd) (pv v) i = mobil rd v i.
  Proof.
    intros rd v i E. unfold mobil. rewrite !put_neighbours by exact E. rewrite bind_rmap. apply bind_ext. intros [a b].
    cbn [put_pair fst snd]. change (rd_net (pr rd)) with (pg (rd_net rd)). rewrite E.
    change (Some (EV (pv v))) with (option_map pn (Some (EV v))).
    rewrite !put_acceleration. apply bind_ext. intro x. apply bind_ext. intro y.
    change (v_par (pv v)) with (v_par v). destruct (Rltb y _); [reflexivity|].
    rewrite bind_rmap. apply bind_ext. intros [c d]. cbn [put_pair fst snd].
    rewrite !put_acceleration. apply bind_ext. intro z.
    change (route_lane (pv v)) with (route_lane v). change (v_target_lane (pv v)) with (v_target_lane v).
    destruct (route_lane v) as [k|]; reflexivity.
  Qed.
  Lemma put_aborts : forall rd v, on rd -> aborts (pr rd) (pv v) = aborts rd v.
  Proof.
    intros rd v E. unfold aborts. cbn [rd_vehicles rd_net put_road]. rewrite E, foldM_map. apply foldM_eq. intros b w.
    change (EV (pv w)) with (pn (EV w)). rewrite put_distance_to, put_gap. reflexivity.
  Qed.
  Lemma put_candidate : forall rd v i, on rd -> try_candidate (pr rd) (pv v) i = rmap pv (try_candidate rd v i).
  Proof.
    intros rd v i E. unfold try_candidate. change (rd_net (pr rd)) with (pg (rd_net rd)). rewrite E, rmap_bind.
    apply (at_lane m g ok). intros l H. change (v_pos (pv v)) with (pt (v_pos v)). rewrite put_reachable by exact H.
    destruct (negb (is_reachable_from l (v_pos v))); [reflexivity|].
    rewrite put_mobil by exact E. rewrite rmap_bind. apply bind_ext. intros []; reflexivity.
  Qed.
  Lemma put_policy : forall rd v, on rd -> change_lane_policy (pr rd) (pv v) = rmap pv (change_lane_policy rd v).
  Proof.
    intros rd v E. unfold change_lane_policy. change (v_lane_index (pv v)) with (v_lane_index v).
    change (v_target_lane (pv v)) with (v_target_lane v). change (v_par (pv v)) with (v_par v). change (v_timer (pv v)) with (v_timer v).
    destruct (negb (li_eqb (v_lane_index v) (v_target_lane v))).
    - destruct (same_road (v_lane_index v) (v_target_lane v)); [|reflexivity].
      rewrite put_aborts by exact E. rewrite rmap_bind. apply bind_ext. intros []; reflexivity.
    - destruct (negb (do_every (ip_delay (v_par v)) (v_timer v))); [reflexivity|].
      change (rd_net (pr rd)) with (pg (rd_net rd)). rewrite E, put_side, rmap_bind. apply bind_ext. intro cands.
      change (set_timer (pv v) 0) with (pv (set_timer v 0)). apply foldM_ren. intros w i. now apply put_candidate.
  Qed.
  Lemma put_collect : forall rd v, on rd -> collect_data (pr rd) (pv v) = collect_data rd v.
  Proof.
    intros rd v E. unfold collect_data. change (v_kind (pv v)) with (v_kind v). destruct (v_kind v); try reflexivity.
    rewrite put_neighbours by exact E. rewrite bind_rmap. apply bind_ext. intros [a b].
    cbn [put_pair fst snd]. change (rd_net (pr rd)) with (pg (rd_net rd)). rewrite E. change (v_par (pv v)) with (v_par v).
    change (Some (EV (pv v))) with (option_map pn (Some (EV v))). rewrite put_linear_features.
    change (v_target_lane (pv v)) with (v_target_lane v). rewrite (put_idm_steering m g ok). reflexivity.
  Qed.
  Lemma put_idm_act : forall rd d v, on rd -> idm_act (pr rd) d (pv v) = rmap pv (idm_act rd d v).
  Proof.
    intros rd d v E. unfold idm_act. rewrite put_collect by exact E. rewrite rmap_bind. apply bind_ext. intros _.
    change (v_crashed (pv v)) with (v_crashed v). destruct (v_crashed v); [reflexivity|].
    rewrite put_neighbours by exact E. rewrite bind_rmap, rmap_bind. apply bind_ext. intros [a b]. cbn [put_pair fst snd].
    change (rd_net (pr rd)) with (pg (rd_net rd)). rewrite E. cbv zeta.
    rewrite (put_follow m g ok), bind_rmap, rmap_bind. apply bind_ext. intro v1.
    change (v_enable_lane_change (pv v1)) with (v_enable_lane_change v1).
    assert (F : (if v_enable_lane_change v1 then change_lane_policy (pr rd) (pv v1) else Ok (pv v1)) =
                rmap pv (if v_enable_lane_change v1 then change_lane_policy rd v1 else Ok v1)).
    { destruct (v_enable_lane_change v1); [now apply put_policy|reflexivity]. }
    rewrite F, bind_rmap, rmap_bind. apply bind_ext. intro v2.
    change (v_target_lane (pv v2)) with (v_target_lane v2). rewrite (put_idm_steering m g ok), rmap_bind. apply bind_ext. intro s.
    change (Some (EV (pv v2))) with (option_map pn (Some (EV v2))). rewrite put_acceleration, rmap_bind.
    apply bind_ext. intro c. reflexivity.
  Qed.
  Lemma put_vehicle_act : forall rd d v, on rd -> vehicle_act (pr rd) d (pv v) = rmap pv (vehicle_act rd d v).
  Proof.
    intros rd d v E. unfold vehicle_act. change (v_kind (pv v)) with (v_kind v). change (rd_net (pr rd)) with (pg (rd_net rd)).
    destruct (v_kind v); try reflexivity; try (now apply put_idm_act); rewrite E.
    - now apply put_controlled_act. - now apply put_mdp_act.
  Qed.
  Lemma put_act_one : forall d rd i, on rd -> act_one d (pr rd) i = rmap pr (act_one d rd i).
  Proof.
    intros d rd i E. unfold act_one. cbn [rd_vehicles put_road]. rewrite nth_error_map.
    destruct (nth_error (rd_vehicles rd) i) as [v|]; [|reflexivity]. cbn [option_map].
    change (Road (pg (rd_net rd)) (map pv (rd_vehicles rd)) (map po (rd_objects rd)) (rd_record rd) (rd_steps rd)) with (pr rd).
    rewrite put_vehicle_act by exact E. rewrite bind_rmap, rmap_bind. apply bind_ext. intro w. rewrite update_map. reflexivity.
  Qed.
  Lemma act_one_on : forall d rd i rd', on rd -> act_one d rd i = Ok rd' -> on rd'.
  Proof.
    intros d rd i rd' E H. unfold act_one in H. destruct (nth_error (rd_vehicles rd) i) as [v|]; [|injection H as <-; exact E].
    destruct (vehicle_act rd (d i) v); [|discriminate]. cbn [bind] in H. injection H as <-. exact E.
  Qed.
  Lemma put_road_act : forall d rd, on rd -> road_act d (pr rd) = rmap pr (road_act d rd).
  Proof.
    intros d rd E. unfold road_act. cbn [rd_vehicles put_road]. rewrite map_length.
    change (Road (pg (rd_net rd)) (map pv (rd_vehicles rd)) (map po (rd_objects rd)) (rd_record rd) (rd_steps rd)) with (pr rd).
    apply (foldM_put (fun rd => on rd)); [intros; now apply put_act_one|intros s x s'; now apply act_one_on|exact E].
  Qed.
  Lemma road_act_on : forall d rd rd', on rd -> road_act d rd = Ok rd' -> on rd'.
  Proof.
    intros d rd rd' E H. unfold road_act in H. revert E H. generalize (seq 0 (List.length (rd_vehicles rd))). intros is. revert rd.
    induction is as [|i is IH]; intros s E H; cbn [foldM] in H; [injection H as <-; exact E|].
    destruct (act_one d s i) as [s'|] eqn:A; [|discriminate]. cbn [bind] in H. apply (IH s'); [now apply (act_one_on d s i)|exact H].
  Qed.

  (** ** The collision phase *)
  Lemma put_collision : forall v w, check_collision (pv v) (pv w) = (pv (fst (check_collision v w)), pv (snd (check_collision v w))).
  Proof.
    intros v w. unfold check_collision. change (v_id (pv w)) with (v_id w). change (v_id (pv v)) with (v_id v).
    change (v_crashed (pv v)) with (v_crashed v).
    destruct (v_crashed v || (v_id w =? v_id v)%nat); [reflexivity|].
    change (v_collisions (pv v)) with (v_collisions v). change (v_collisions (pv w)) with (v_collisions w).
    destruct (negb (v_collisions v) || negb (v_collisions w)); [reflexivity|].
    assert (C : is_colliding (pv v) (pv w) = is_colliding v w) by (apply put_colliding, (fits_quarterly g ok)).
    rewrite C. destruct (is_colliding v w); reflexivity.
  Qed.
  Lemma put_collision_obj : forall v o, check_collision_obj (pv v) (po o) = (pv (fst (check_collision_obj v o)), po (snd (check_collision_obj v o))).
  Proof.
    intros v o. unfold check_collision_obj. change (v_crashed (pv v)) with (v_crashed v).
    destruct (v_crashed v); [reflexivity|]. change (o_kind (po o)) with (o_kind o).
    assert (C : is_colliding_obj (pv v) (po o) = is_colliding_obj v o) by (apply put_colliding, (fits_quarterly g ok)).
    rewrite C. change (v_collisions (pv v)) with (v_collisions v).
    destruct (o_kind o); [destruct (negb (v_collisions v)); [reflexivity|]|]; destruct (is_colliding_obj v o); reflexivity.
  Qed.
  Lemma put_collide_pair : forall i vs j, collide_pair i (map pv vs) j = map pv (collide_pair i vs j).
  Proof.
    intros i vs j. unfold collide_pair. rewrite !nth_error_map.
    destruct (nth_error vs i) as [v|], (nth_error vs j) as [w|]; cbn [option_map]; try reflexivity.
    rewrite put_collision. destruct (check_collision v w) as [v' w']. cbn [fst snd]. now rewrite !update_map.
  Qed.
  Definition put_st (st : list vehicle * list object) := (map pv (fst st), map po (snd st)).
  Lemma put_collide_obj : forall i st k, collide_obj i (put_st st) k = put_st (collide_obj i st k).
  Proof.
    intros i [vs os] k. unfold collide_obj, put_st. cbn [fst snd]. rewrite !nth_error_map.
    destruct (nth_error vs i) as [v|], (nth_error os k) as [o|]; cbn [option_map]; try reflexivity.
    rewrite put_collision_obj. destruct (check_collision_obj v o) as [v' o']. cbn [fst snd]. now rewrite !update_map.
  Qed.
  Lemma put_collide_row : forall st i, collide_row (put_st st) i = put_st (collide_row st i).
  Proof.
    intros [vs os] i. unfold collide_row, put_st. cbn [fst snd]. rewrite !map_length.
    rewrite (fold_left_ren (map pv) (collide_pair i)) by (intros; apply put_collide_pair).
    change (map pv ?a, map po os) with (put_st (a, os)).
    apply (fold_left_ren put_st (collide_obj i)). intros. apply put_collide_obj.
  Qed.
  Lemma put_collide_all : forall vs os, collide_all (map pv vs, map po os) = put_st (collide_all (vs, os)).
  Proof.
    intros vs os. unfold collide_all. cbn [fst]. rewrite map_length. change (map pv vs, map po os) with (put_st (vs, os)).
    apply (fold_left_ren put_st collide_row). intros. apply put_collide_row.
  Qed.
  Lemma put_road_step : forall rd dt, on rd -> road_step (pr rd) dt = rmap pr (road_step rd dt).
  Proof.
    intros rd dt E. unfold road_step. cbn [rd_vehicles rd_net rd_record rd_objects rd_steps put_road].
    rewrite mapM_map. rewrite (mapM_eq _ (fun v => rmap pv (vehicle_step (rd_net rd) (rd_record rd) v dt))).
    2: { intros v. rewrite E. apply (put_vehicle_step m g ok). }
    rewrite mapM_rmap, bind_rmap, rmap_bind. apply bind_ext. intro vs. rewrite put_collide_all.
    destruct (collide_all (vs, rd_objects rd)) as [vs' os']. reflexivity.
  Qed.
  Lemma road_step_on : forall rd dt rd', on rd -> road_step rd dt = Ok rd' -> on rd'.
  Proof.
    intros rd dt rd' E H. unfold road_step in H. destruct (mapM _ _); [|discriminate]. cbn [bind] in H.
    destruct (collide_all _) as [vs' os']. injection H as <-. exact E.
  Qed.

  (** ** Regulation *)
  Definition turned_pose (a b : vec * R) : Prop := fst b = pt (fst a) /\ turned m (snd a) (snd b).
  Definition both {A B} (P : A -> B -> Prop) (r : res A) (r' : res B) : Prop :=
    match r, r' with Ok x, Ok y => P x y | Err x, Err y => x = y | _, _ => False end.
  Lemma put_along : forall rt s d, both turned_pose (position_heading_along_route g rt s d) (position_heading_along_route (pg g) rt s d).
  Proof.
    induction rt as [|i rt IH]; intros s d; cbn [position_heading_along_route]; [reflexivity|].
    rewrite (put_get_lane m). destruct (get_lane g i) as [l|x] eqn:E; cbn [rmap bind]; [|reflexivity].
    assert (H : sound m l) by (apply (fits_lanes m g); [exact ok|now apply get_lane_of in E]).
    assert (P : turned_pose (l_position l s d, l_heading l s) (l_position (pl l) s d, l_heading (pl l) s)).
    { split; cbn [fst snd]; [apply put_position|now apply put_heading]. }
    destruct rt as [|j rt]; [exact P|]. rewrite put_length. destruct (Rltb (l_length l) s); [apply IH|exact P].
  Qed.
  Lemma both_mapM : forall {A B C} (P : B -> C -> Prop) (f : A -> res B) (f' : A -> res C) xs, (forall x, both P (f x) (f' x)) ->
    both (Forall2 P) (mapM f xs) (mapM f' xs).
  Proof.
    intros A B C P f f' xs H. induction xs as [|x xs IH]; cbn [mapM both]; [constructor|].
    specialize (H x). destruct (f x) as [y|e], (f' x) as [y'|e']; cbn [both bind] in *; try contradiction; [|exact H].
    destruct (mapM f xs) as [ys|e], (mapM f' xs) as [ys'|e']; cbn [both bind] in *; try contradiction; [|exact IH].
    now constructor.
  Qed.
  Lemma put_predicted : forall v, both (Forall2 turned_pose) (predicted g v) (predicted (pg g) (pv v)).
  Proof.
    intros v. unfold predicted. change (v_kind (pv v)) with (v_kind v). destruct (is_controlled (v_kind v)); [|reflexivity].
    unfold predict_constant_speed. change (v_lane_index (pv v)) with (v_lane_index v). rewrite put_get_lane.
    destruct (get_lane g (v_lane_index v)) as [l|x] eqn:E; cbn [rmap bind]; [|reflexivity].
    assert (H : sound m l) by (apply (fits_lanes m g); [exact ok|now apply get_lane_of in E]).
    change (v_pos (pv v)) with (pt (v_pos v)). rewrite put_local by exact H. apply both_mapM. intros t. apply put_along.
  Qed.
  Lemma put_poses_conflict : forall a b a' b', turned_pose a a' -> turned_pose b b' -> poses_conflict a' b' = poses_conflict a b.
  Proof.
    intros [p h] [q k] [p' h'] [q' k'] [H1 H2] [K1 K2]. cbn [fst snd] in *. subst p' q'. unfold poses_conflict. cbn [fst snd].
    rewrite put_norm. destruct (Rltb _ _); [reflexivity|]. apply put_rects; auto. apply (fits_quarterly g ok).
  Qed.
  Lemma put_conflict : forall v w, is_conflict_possible (pg g) (pv v) (pv w) = is_conflict_possible g v w.
  Proof.
    intros v w. unfold is_conflict_possible. pose proof (put_predicted v) as V. pose proof (put_predicted w) as W.
    destruct (predicted g v) as [ps|e], (predicted (pg g) (pv v)) as [ps'|e']; cbn [both bind] in *; try contradiction; [|congruence].
    destruct (predicted g w) as [qs|e], (predicted (pg g) (pv w)) as [qs'|e']; cbn [both bind] in *; try contradiction; [|congruence].
    f_equal. revert qs qs' W. induction V as [|a a' ps ps' Ha V IH]; intros qs qs' W; [reflexivity|].
    destruct W as [|b b' qs qs' Hb W]; [reflexivity|]. cbn [combine existsb fst snd]. rewrite (IH _ _ W).
    now rewrite (put_poses_conflict _ _ _ _ Ha Hb).
  Qed.
  Lemma put_front : forall v w, front_distance_to (pv v) (pv w) = front_distance_to v w.
  Proof.
    intros v w. unfold front_distance_to. change (EV (pv v)) with (pn (EV v)). rewrite pn_direction.
    change (v_pos (pv v)) with (pt (v_pos v)). change (v_pos (pv w)) with (pt (v_pos w)). now rewrite put_sub, vrot_dot.
  Qed.
  Lemma put_priorities : forall v w, respect_priorities (pg g) (pv v) (pv w) = respect_priorities g v w.
  Proof.
    intros v w. unfold respect_priorities. change (v_lane_index (pv v)) with (v_lane_index v). change (v_lane_index (pv w)) with (v_lane_index w).
    apply (at_lane m g ok). intros l _. apply (at_lane m g ok). intros l' _. rewrite !put_front. reflexivity.
  Qed.
  Lemma put_unfreeze : forall yd v, unfreeze yd (pg g) (pv v) = rmap pv (unfreeze yd g v).
  Proof.
    intros yd v. unfold unfreeze. change (v_is_yielding (pv v)) with (v_is_yielding v). change (v_yield_timer (pv v)) with (v_yield_timer v).
    change (v_lane_index (pv v)) with (v_lane_index v). change (v_has_color (pv v)) with (v_has_color v).
    destruct (v_is_yielding v); [|reflexivity]. destruct (Rleb _ _); [|reflexivity].
    rewrite rmap_bind. apply (at_lane m g ok). intros l _. destruct (v_has_color v); reflexivity.
  Qed.
  Lemma put_force : forall v, force (pv v) = pv (force v).
  Proof. intro v. unfold force. change (can_be_forced (pv v)) with (can_be_forced v). destruct (can_be_forced v); reflexivity. Qed.
  Lemma put_enforce_pair : forall vs ij, enforce_pair (pg g) (map pv vs) ij = rmap (map pv) (enforce_pair g vs ij).
  Proof.
    intros vs [i j]. unfold enforce_pair. cbn [fst snd]. rewrite !nth_error_map.
    destruct (nth_error vs i) as [v|], (nth_error vs j) as [w|]; cbn [option_map]; try reflexivity.
    rewrite put_conflict, rmap_bind. apply bind_ext. intros []; [|reflexivity].
    rewrite put_priorities, rmap_bind. apply bind_ext. intros []; rewrite !put_force, update_map; reflexivity.
  Qed.
  Lemma put_enforce : forall yd rd, on rd -> enforce_road_rules yd (pr rd) = rmap pr (enforce_road_rules yd rd).
  Proof.
    intros yd rd E. unfold enforce_road_rules. cbn [rd_net rd_vehicles put_road]. rewrite E.
    rewrite mapM_map, (mapM_eq _ (fun v => rmap pv (unfreeze yd g v))) by (intros; apply put_unfreeze).
    rewrite mapM_rmap, bind_rmap, rmap_bind. apply bind_ext. intro vs. rewrite map_length.
    rewrite (foldM_ren (map pv) (enforce_pair g)) by (intros; apply put_enforce_pair).
    rewrite bind_rmap, rmap_bind. apply bind_ext. intro vs'. cbn [rmap bind]. unfold set_vehicles, put_road. cbn. rewrite E. reflexivity.
  Qed.
  Lemma enforce_on : forall yd rd rd', on rd -> enforce_road_rules yd rd = Ok rd' -> on rd'.
  Proof.
    intros yd rd rd' E H. unfold enforce_road_rules in H. destruct (mapM _ _); [|discriminate]. cbn [bind] in H.
    destruct (foldM _ _ _); [|discriminate]. cbn [bind] in H. injection H as <-. exact E.
  Qed.
  Lemma put_regulated : forall yd rd dt, on rd -> regulated_step yd (pr rd) dt = rmap pr (regulated_step yd rd dt).
  Proof.
    intros yd rd dt E. unfold regulated_step. change (rd_steps (pr rd)) with (rd_steps rd).
    change (set_steps (pr rd) (rd_steps rd + 1)) with (pr (set_steps rd (rd_steps rd + 1))).
    destruct (Reqb dt 0); [reflexivity|]. destruct (regulation_period dt =? 0)%Z; [reflexivity|].
    change (rd_steps (pr (set_steps rd (rd_steps rd + 1)))) with (rd_steps (set_steps rd (rd_steps rd + 1))).
    assert (E1 : on (set_steps rd (rd_steps rd + 1))) by exact E.
    destruct (_ =? 0)%Z.
    - rewrite put_enforce by exact E1. rewrite bind_rmap, rmap_bind. apply bind_on. intros rd2 H. apply put_road_step.
      now apply enforce_on in H.
    - cbn [bind]. now apply put_road_step.
  Qed.
  Lemma regulated_on : forall yd rd dt rd', on rd -> regulated_step yd rd dt = Ok rd' -> on rd'.
  Proof.
    intros yd rd dt rd' E H. unfold regulated_step in H. destruct (Reqb dt 0); [discriminate|].
    destruct (regulation_period dt =? 0)%Z; [discriminate|]. destruct (_ =? 0)%Z.
    - destruct (enforce_road_rules _ _) as [rd2|] eqn:F; [|discriminate]. cbn [bind] in H. apply enforce_on in F; [|exact E].
      now apply road_step_on in H.
    - cbn [bind] in H. now apply road_step_on in H.
  Qed.

  (** ** Actions *)
  Lemma put_command : forall rd d v c, on rd -> vehicle_command (pr rd) d (pv v) c = rmap pv (vehicle_command rd d v c).
  Proof.
    intros rd d v c E. unfold vehicle_command. change (v_kind (pv v)) with (v_kind v). change (rd_net (pr rd)) with (pg (rd_net rd)).
    destruct (v_kind v), c; try reflexivity; try (now apply put_idm_act); rewrite E;
      first [now apply put_controlled_act | now apply put_mdp_act].
  Qed.
  Lemma put_rank : forall id vs, rank_of id (map pv vs) = rank_of id vs.
  Proof.
    intros id vs. induction vs as [|v vs IH]; cbn [map rank_of]; [reflexivity|].
    change (v_id (pv v)) with (v_id v). rewrite IH. reflexivity.
  Qed.
  Lemma put_command_vehicle : forall rd d id c, on rd -> command_vehicle (pr rd) d id c = rmap pr (command_vehicle rd d id c).
  Proof.
    intros rd d id c E. unfold command_vehicle. cbn [rd_vehicles put_road]. rewrite put_rank.
    destruct (rank_of id (rd_vehicles rd)) as [k|]; [|reflexivity]. rewrite nth_error_map.
    destruct (nth_error (rd_vehicles rd) k) as [v|]; [|reflexivity]. cbn [option_map].
    change (Road (pg (rd_net rd)) (map pv (rd_vehicles rd)) (map po (rd_objects rd)) (rd_record rd) (rd_steps rd)) with (pr rd).
    rewrite put_command by exact E. rewrite bind_rmap, rmap_bind. apply bind_ext. intro w. rewrite update_map. reflexivity.
  Qed.
  Lemma command_on : forall rd d id c rd', on rd -> command_vehicle rd d id c = Ok rd' -> on rd'.
  Proof.
    intros rd d id c rd' E H. unfold command_vehicle in H. destruct (rank_of id (rd_vehicles rd)) as [k|]; [|injection H as <-; exact E].
    destruct (nth_error (rd_vehicles rd) k) as [v|]; [|injection H as <-; exact E].
    destruct (vehicle_command _ _ _ _); [|discriminate]. cbn [bind] in H. injection H as <-. exact E.
  Qed.
  Lemma put_act_single : forall s d rd id a, on rd -> act_single s d (pr rd) id a = rmap pr (act_single s d rd id a).
  Proof. intros s d rd id a E. unfold act_single. rewrite rmap_bind. apply bind_ext. intro c. now apply put_command_vehicle. Qed.
  Lemma act_single_on : forall s d rd id a rd', on rd -> act_single s d rd id a = Ok rd' -> on rd'.
  Proof.
    intros s d rd id a rd' E H. unfold act_single in H. destruct (single_command s a) as [c|]; [|discriminate]. cbn [bind] in H.
    now apply command_on in H.
  Qed.
  Lemma put_act_multi : forall s d ids acts rd, on rd -> act_multi s d (pr rd) ids acts = rmap pr (act_multi s d rd ids acts).
  Proof.
    intros s d ids. induction ids as [|i ids IH]; intros [|a acts] rd E; cbn [act_multi]; try reflexivity.
    rewrite put_act_single by exact E. rewrite bind_rmap, rmap_bind. apply bind_on. intros rd1 H. apply IH. now apply act_single_on in H.
  Qed.
  Lemma act_multi_on : forall s d ids acts rd rd', on rd -> act_multi s d rd ids acts = Ok rd' -> on rd'.
  Proof.
    intros s d ids. induction ids as [|i ids IH]; intros [|a acts] rd rd' E H; cbn [act_multi] in H; try (injection H as <-; exact E).
    destruct (act_single s (d i) rd i a) as [rd1|] eqn:F; [|discriminate]. cbn [bind] in H. apply act_single_on in F; [|exact E].
    now apply (IH acts rd1).
  Qed.
  Lemma put_action : forall t d rd ids a, on rd -> action_act t d (pr rd) ids a = rmap pr (action_act t d rd ids a).
  Proof.
    intros [s|s] d rd ids a E; cbn [action_act].
    - destruct ids as [|i ids].
      + rewrite rmap_bind. now apply bind_ext.
      + now apply put_act_single.
    - destruct a; try reflexivity. now apply put_act_multi.
  Qed.
  Lemma action_on : forall t d rd ids a rd', on rd -> action_act t d rd ids a = Ok rd' -> on rd'.
  Proof.
    intros [s|s] d rd ids a rd' E H; cbn [action_act] in H.
    - destruct ids as [|i ids]; [|now apply act_single_on in H].
      destruct (single_command s a); discriminate.
    - destruct a; try discriminate. now apply act_multi_on in H.
  Qed.

  (** ** Environments *)
  Definition place_blind (sc : scenario) : Prop := forall e, rd_net (e_road e) = g -> sc_terminal sc (pe e) = sc_terminal sc e.
  Notation onE e := (rd_net (e_road e) = g).
  Lemma put_scenario_step : forall sc rd dt, on rd -> scenario_step sc (pr rd) dt = rmap pr (scenario_step sc rd dt).
  Proof. intros sc rd dt E. unfold scenario_step. destruct (sc_regulated sc); [now apply put_regulated|now apply put_road_step]. Qed.
  Lemma put_forward : forall sc o e a, onE e -> forward sc o (pe e) a = rmap pe (forward sc o e a).
  Proof.
    intros sc o e a E. unfold forward. destruct a as [x|]; [|reflexivity].
    change (e_time (pe e)) with (e_time e). destruct (negb (sc_manual sc) && _); [|reflexivity].
    change (e_road (pe e)) with (pr (e_road e)). change (e_controlled (pe e)) with (e_controlled e).
    rewrite put_action by exact E. rewrite bind_rmap, rmap_bind. apply bind_ext. intro rd. reflexivity.
  Qed.
  Lemma forward_on : forall sc o e a e', onE e -> forward sc o e a = Ok e' -> onE e'.
  Proof.
    intros sc o e a e' E H. unfold forward in H. destruct a as [x|]; [|injection H as <-; exact E].
    destruct (negb (sc_manual sc) && _); [|injection H as <-; exact E].
    destruct (action_act _ _ _ _ _) as [rd|] eqn:A; [|discriminate]. cbn [bind] in H. injection H as <-. cbn [set_road e_road].
    now apply action_on in A.
  Qed.
  Lemma put_frame : forall sc o e, onE e -> frame sc o (pe e) = rmap pe (frame sc o e).
  Proof.
    intros sc o e E. unfold frame. change (e_time (pe e)) with (e_time e).
    change (e_road (pe e)) with (pr (e_road e)). rewrite put_road_act by exact E. rewrite bind_rmap, rmap_bind. apply bind_on. intros rd1 H.
    rewrite put_scenario_step by (now apply road_act_on in H). rewrite bind_rmap, rmap_bind. apply bind_ext. intro rd2. reflexivity.
  Qed.
  Lemma frame_on : forall sc o e e', onE e -> frame sc o e = Ok e' -> onE e'.
  Proof.
    intros sc o e e' E H. unfold frame in H. destruct (road_act _ _) as [rd1|] eqn:A; [|discriminate]. cbn [bind] in H.
    apply road_act_on in A; [|exact E]. destruct (scenario_step _ _ _) as [rd2|] eqn:F; [|discriminate]. cbn [bind] in H.
    injection H as <-. cbn [tick set_road e_road]. unfold scenario_step in F. destruct (sc_regulated sc); [now apply regulated_on in F|now apply road_step_on in F].
  Qed.
  Lemma put_simulate_frames : forall sc o, place_blind sc ->
    forall n e a, onE e -> simulate_frames sc o n (pe e) a = rmap pe (simulate_frames sc o n e a).
  Proof.
    intros sc o T. induction n as [|n IH]; intros e a E; cbn [simulate_frames]; [reflexivity|].
    rewrite put_forward by exact E. rewrite bind_rmap, rmap_bind. apply bind_on. intros e1 H1. apply forward_on in H1; [|exact E].
    rewrite put_frame by exact H1. rewrite bind_rmap, rmap_bind. apply bind_on. intros e2 H2. apply frame_on in H2; [|exact H1].
    change (e_done (pe e2)) with (e_done e2). destruct (e_done e2); [reflexivity|].
    rewrite T by exact H2. rewrite rmap_bind. apply bind_ext. intros []; [reflexivity|now apply IH].
  Qed.
  Lemma put_env_step : forall sc o e a, place_blind sc -> onE e -> env_step sc o (pe e) a = rmap pe (env_step sc o e a).
  Proof.
    intros sc o e a T E. unfold env_step. change (e_controlled (pe e)) with (e_controlled e).
    destruct (e_controlled e) as [|i ids]; [reflexivity|]. unfold simulate.
    destruct (Reqb (sc_policy sc) 0); [reflexivity|].
    change (count_step (pe e)) with (pe (count_step e)). now apply put_simulate_frames.
  Qed.
End Roads.
