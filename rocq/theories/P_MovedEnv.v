(** Where the scene lies does not matter: ends of episodes, rewards, observations (C111). *)
From Verif Require Import Prelude M_Utils M_Lane M_Road M_Vehicle M_Kinematics M_Control M_Behavior M_Regulation M_Action M_Env M_Scenes
  M_Ttc M_Obs S_Moved P_Base P_Utils P_Lane P_Rename P_Moved P_MovedRoad.
From Coq Require Import Lra Lia.
Open Scope R_scope.

Section Envs.
  Variable m : motion.
  Notation pt := (put m).
  Notation pl := (put_lane m).
  Notation pg := (put_graph m).
  Notation pv := (put_vehicle m).
  Notation po := (put_object m).
  Notation pr := (put_road m).
  Notation pe := (put_env m).
  Variable g : graph.
  Hypothesis ok : fits m g.
  Notation onE e := (rd_net (e_road e) = g).

  Lemma put_by_id : forall rd id, vehicle_by_id (pr rd) id = option_map pv (vehicle_by_id rd id).
  Proof.
    intros rd id. unfold vehicle_by_id. cbn [rd_vehicles put_road]. induction (rd_vehicles rd) as [|v vs IH]; cbn [map find]; [reflexivity|].
    change (v_id (pv v)) with (v_id v). destruct (v_id v =? id)%nat; [reflexivity|exact IH].
  Qed.
  Lemma put_ego : forall e, ego (pe e) = rmap pv (ego e).
  Proof.
    intro e. unfold ego. cbn [e_controlled put_env e_road]. destruct (e_controlled e) as [|i ids]; [reflexivity|].
    rewrite put_by_id. destruct (vehicle_by_id (e_road e) i); reflexivity.
  Qed.
  Lemma put_controlled : forall e, controlled (pe e) = map pv (controlled e).
  Proof.
    intro e. unfold controlled. cbn [e_controlled put_env e_road]. induction (e_controlled e) as [|i ids IH]; [reflexivity|].
    cbn [map flat_map]. rewrite put_by_id, IH, map_app. destruct (vehicle_by_id (e_road e) i); reflexivity.
  Qed.
  Lemma put_on_road : forall v, on_road (pg g) (pv v) = on_road g v.
  Proof.
    intros v. unfold on_road. change (v_lane_index (pv v)) with (v_lane_index v). apply (at_lane m g ok). intros l H.
    change (v_pos (pv v)) with (pt (v_pos v)). now rewrite put_on_lane_hint.
  Qed.
  Lemma put_all_side : forall i, all_side_lanes (pg g) i = all_side_lanes g i.
  Proof. intros i. unfold all_side_lanes. rewrite put_g_lanes, bind_rmap. apply bind_ext. intro ls. now rewrite map_length. Qed.
  Lemma put_arrived : forall v, has_arrived (pg g) (pv v) = has_arrived g v.
  Proof.
    intros v. unfold has_arrived. change (v_lane_index (pv v)) with (v_lane_index v). destruct (_ && _); [|reflexivity].
    apply (at_lane m g ok). intros l H. change (v_pos (pv v)) with (pt (v_pos v)). now rewrite put_local.
  Qed.
  Lemma blind_highway_put : forall c sim pol mn a, place_blind m g (highway_scenario c sim pol mn a).
  Proof.
    intros c sim pol mn a e E. cbn [sc_terminal highway_scenario]. unfold highway_terminal. rewrite put_ego, bind_rmap. apply bind_ext.
    intro v. change (rd_net (e_road (pe e))) with (pg (rd_net (e_road e))). rewrite E, put_on_road. reflexivity.
  Qed.
  Lemma blind_roundabout_put : forall d sim pol mn a, place_blind m g (roundabout_scenario d sim pol mn a).
  Proof.
    intros d sim pol mn a e E. cbn [sc_terminal roundabout_scenario]. unfold roundabout_terminal. rewrite put_ego, bind_rmap. apply bind_ext. reflexivity.
  Qed.
  Lemma blind_two_way_put : forall sim pol mn a, place_blind m g (two_way_scenario sim pol mn a).
  Proof.
    intros sim pol mn a e E. cbn [sc_terminal two_way_scenario]. unfold two_way_terminal. rewrite put_ego, bind_rmap. apply bind_ext. reflexivity.
  Qed.
  Lemma allM_ext : forall {A} (p q : A -> res bool) l, (forall x, p x = q x) -> allM p l = allM q l.
  Proof. intros A p q l H. induction l as [|x l IH]; cbn; [reflexivity|]. now rewrite H, IH. Qed.
  Lemma blind_intersection_put : forall c sim pol mn a, place_blind m g (intersection_scenario c sim pol mn a).
  Proof.
    intros c sim pol mn a e E. cbn [sc_terminal intersection_scenario]. unfold intersection_terminal.
    change (rd_net (e_road (pe e))) with (pg (rd_net (e_road e))). rewrite E.
    rewrite put_controlled, existsb_map, allM_map, (allM_ext _ (has_arrived g)) by apply put_arrived. reflexivity.
  Qed.

  Lemma put_reward_highway : forall c e, onE e -> highway_env_reward c (pe e) = highway_env_reward c e.
  Proof.
    intros c e E. unfold highway_env_reward. rewrite put_ego, bind_rmap. apply bind_ext. intro v.
    change (rd_net (e_road (pe e))) with (pg (rd_net (e_road e))). rewrite E. unfold highway_reward.
    change (v_lane_index (pv v)) with (v_lane_index v). rewrite put_all_side, put_on_road. reflexivity.
  Qed.
  Lemma put_reward_roundabout : forall cg e a, roundabout_env_reward cg (pe e) a = roundabout_env_reward cg e a.
  Proof. intros cg e a. unfold roundabout_env_reward. rewrite put_ego, bind_rmap. apply bind_ext. reflexivity. Qed.
  Lemma put_reward_merge : forall e a, merge_env_reward (pe e) a = merge_env_reward e a.
  Proof.
    intros e a. unfold merge_env_reward. rewrite put_ego, bind_rmap. apply bind_ext. intro v. unfold merge_reward.
    change (v_lane_index (pv v)) with (v_lane_index v). change (v_kind (pv v)) with (v_kind v).
    apply bind_ext. intro l. destruct (v_kind v); try reflexivity. apply bind_ext. intro sp.
    cbn [e_road put_env rd_vehicles put_road]. rewrite foldM_map. reflexivity.
  Qed.
  Lemma put_reward_two_way : forall e, onE e -> two_way_env_reward (pe e) = two_way_env_reward e.
  Proof.
    intros e E. unfold two_way_env_reward. rewrite put_ego, bind_rmap. apply bind_ext. intro v.
    change (rd_net (e_road (pe e))) with (pg (rd_net (e_road e))). rewrite E. unfold two_way_reward.
    change (v_lane_index (pv v)) with (v_lane_index v). rewrite put_all_side. reflexivity.
  Qed.
  Lemma put_reward_intersection : forall c e, onE e -> intersection_reward c (pe e) = intersection_reward c e.
  Proof.
    intros c e E. unfold intersection_reward. rewrite put_controlled, mapM_map. change (e_controlled (pe e)) with (e_controlled e).
    change (rd_net (e_road (pe e))) with (pg (rd_net (e_road e))). rewrite E.
    rewrite (mapM_eq _ (agent_reward c g)); [reflexivity|]. intro v. unfold agent_reward. change (v_kind (pv v)) with (v_kind v).
    destruct (v_kind v); try reflexivity. cbv zeta. rewrite put_arrived. reflexivity.
  Qed.
  Lemma put_available : forall sc e, onE e -> get_available_actions sc (pe e) = get_available_actions sc e.
  Proof.
    intros sc e E. unfold get_available_actions. destruct (sc_action sc) as [[lo la|c]|s]; try reflexivity.
    apply bind_ext. intro t. apply bind_ext. intro idle. rewrite put_ego, bind_rmap. apply bind_ext. intro v.
    change (rd_net (e_road (pe e))) with (pg (rd_net (e_road e))). rewrite E. cbv zeta.
    change (v_lane_index (pv v)) with (v_lane_index v). rewrite (put_side m). apply bind_ext. intro sides.
    rewrite (foldM_eq (available_lane (pe e) (pg g) (pv v) t la) (available_lane e g v t la)); [reflexivity|].
    intros acc i. unfold available_lane. change (v_lane_index (pv v)) with (v_lane_index v).
    destruct (li_id i) as [k|], (li_id (v_lane_index v)) as [c|]; try reflexivity.
    apply (at_lane m g ok). intros l H. change (v_pos (pv v)) with (pt (v_pos v)). now rewrite put_reachable.
  Qed.
  Lemma put_connected : forall fuel i j rt b n, is_connected_fuel fuel (pg g) i j rt b n = is_connected_fuel fuel g i j rt b n.
  Proof.
    assert (K : forall i, keys (match assoc (li_to i) (pg g) with Some d => d | None => [] end) =
                          keys (match assoc (li_to i) g with Some d => d | None => [] end)).
    { intros i. rewrite put_assoc. destruct (assoc (li_to i) g) as [d|]; [apply put_roads_keys|reflexivity]. }
    induction fuel as [|fuel IH]; intros i j rt b n; cbn [is_connected_fuel]; [reflexivity|].
    destruct (_ || _); [reflexivity|]. destruct n as [|n]; [reflexivity|]. cbv zeta. rewrite K.
    assert (X : forall ks, existsb (fun x => is_connected_fuel fuel (pg g) (li_to i, x, li_id i) j rt b n) ks =
                           existsb (fun x => is_connected_fuel fuel g (li_to i, x, li_id i) j rt b n) ks).
    { induction ks as [|k ks IHk]; cbn [existsb]; [reflexivity|]. now rewrite IHk, IH. }
    rewrite X. destruct rt as [|r rt]; [reflexivity|]. now rewrite !IH.
  Qed.
  Lemma put_ttc : forall rd ev v tq h, rd_net rd = g -> compute_ttc_grid (pr rd) (pv ev) (pv v) tq h = compute_ttc_grid rd ev v tq h.
  Proof.
    intros rd ev v tq h E. unfold compute_ttc_grid. change (rd_net (pr rd)) with (pg (rd_net rd)). rewrite E. cbv zeta.
    change (v_lane_index (pv ev)) with (v_lane_index ev). change (v_kind (pv v)) with (v_kind v). change (v_grid (pv v)) with (v_grid v).
    rewrite put_all_side. apply bind_ext. intro ls. destruct (v_kind v); try reflexivity.
    destruct (Reqb tq 0); [reflexivity|]. destruct (_ || _)%bool; [reflexivity|].
    apply foldM_eq. intros gr k. cbn [rd_vehicles put_road]. rewrite foldM_map. apply foldM_eq. intros g' w. unfold mark_vehicle.
    change (v_id (pv w)) with (v_id w). change (v_id (pv v)) with (v_id v). change (v_speed (pv w)) with (v_speed w).
    destruct (_ || _); [reflexivity|]. apply foldM_eq. intros g'' p. unfold mark_point.
    change (EV (pv w)) with (put_entity m (EV w)). rewrite (put_distance_to m g ok). apply bind_ext. intro d.
    change (EV (pv v)) with (put_entity m (EV v)). rewrite !pn_direction, vrot_dot. cbv zeta.
    change (v_lane_index (pv w)) with (v_lane_index w). change (v_lane_index (pv v)) with (v_lane_index v).
    change (v_route (pv v)) with (v_route v). change (v_speed (pv w)) with (v_speed w). unfold is_connected_road. rewrite put_connected, !put_all_side. reflexivity.
  Qed.

  (** ** Observations, when the scene is only shifted *)
  Hypothesis sh : shifts m.
  Lemma shift_put : forall p, pt p = vadd (m_shift m) p.
  Proof.
    intros [x y]. destruct sh as [A _]. unfold put. rewrite A. unfold vrot; cbn [fst snd]. rewrite cos_0, sin_0.
    f_equal. f_equal; ring.
  Qed.
  Lemma shift_face : forall i h, face m i h = h.
  Proof. intros i h. destruct sh as [A T]. unfold face. rewrite A, T. ring. Qed.
  Lemma put_close : forall rd v d n b, rd_net rd = g -> close_vehicles_to (pr rd) (pv v) d n b = rmap (map pv) (close_vehicles_to rd v d n b).
  Proof.
    intros rd v d n b E. unfold close_vehicles_to. cbn [rd_net put_road rd_vehicles]. rewrite E.
    change (v_lane_index (pv v)) with (v_lane_index v). rewrite rmap_bind. apply (at_lane m g ok). intros l H. cbv zeta.
    rewrite filter_map. change (v_pos (pv v)) with (pt (v_pos v)).
    assert (D : forall w, lane_distance (pl l) (pt (v_pos v)) (v_pos (pv w)) = lane_distance l (v_pos v) (v_pos w)).
    { intros w. unfold lane_distance. change (v_pos (pv w)) with (pt (v_pos w)). now rewrite !put_local. }
    rewrite (filter_eq _ (close_filter v l d b)).
    2:{ intro w. unfold close_filter. change (v_id (pv w)) with (v_id w). change (v_id (pv v)) with (v_id v).
        change (v_pos (pv v)) with (pt (v_pos v)). rewrite D. change (v_pos (pv w)) with (pt (v_pos w)). now rewrite put_norm. }
    rewrite (sort_map pv (fun w => Rabs (lane_distance l (v_pos v) (v_pos w)))) by (intros w; now rewrite D).
    destruct n as [k|]; [|reflexivity]. destruct (k =? 0)%Z; [reflexivity|].
    unfold py_take. rewrite map_length. destruct (0 <=? k)%Z; cbn [rmap bind]; now rewrite firstn_map.
  Qed.
  Lemma put_destination : forall v, destination (pg g) (pv v) = rmap pt (destination g v).
  Proof.
    intros v. unfold destination. change (v_route (pv v)) with (v_route v). destruct (v_route v) as [[|r rt]|]; try reflexivity.
    rewrite rmap_bind. apply (at_lane m g ok). intros l H. cbn [rmap bind]. now rewrite put_length, put_position.
  Qed.
  Lemma put_destination_direction : forall v, destination_direction (pg g) (pv v) = destination_direction g v.
  Proof.
    intros v. unfold destination_direction. rewrite put_destination, bind_rmap. apply bind_ext. intros d.
    change (v_pos (pv v)) with (pt (v_pos v)). cbv zeta. rewrite put_sub.
    assert (A : vrot (m_angle m) (vsub d (v_pos v)) = vsub d (v_pos v)).
    { destruct sh as [-> _]. destruct (vsub d (v_pos v)) as [x y]. unfold vrot; cbn [fst snd]. rewrite cos_0, sin_0. f_equal; ring. }
    rewrite A, !shift_put. unfold vadd; cbn [fst snd].
    assert (Q : forall a x y, Reqb (a + x) (a + y) = Reqb x y).
    { intros a x y. destruct (Reqb x y) eqn:F; rbool; [subst; apply (proj2 (Reqb_true _ _)); reflexivity|].
      destruct (Reqb (a + x) (a + y)) eqn:F2; rbool; [exfalso; apply F; lra|reflexivity]. }
    now rewrite !Q.
  Qed.
  (** The dictionary of a vehicle: only its position changes. *)
  Definition shift_dict (d : features) : features :=
    map (fun kx => (fst kx, if String.eqb (fst kx) "x" then fst (m_shift m) + snd kx
                            else if String.eqb (fst kx) "y" then snd (m_shift m) + snd kx else snd kx)) d.
  Lemma put_vehicle_dict : forall v b, vehicle_dict (pg g) (pv v) b = rmap shift_dict (vehicle_dict g v b).
  Proof.
    intros v b. unfold vehicle_dict. rewrite put_destination_direction, rmap_bind. apply bind_ext. intros d. cbv zeta.
    unfold e_velocity, e_direction, e_heading, e_speed. change (v_heading (pv v)) with (face m (v_id v) (v_heading v)).
    rewrite shift_face. change (v_pos (pv v)) with (pt (v_pos v)). rewrite shift_put. reflexivity.
  Qed.
  Lemma put_to_dict_relative : forall v o b, to_dict (pg g) (pv v) (Some (pv o)) b = to_dict g v (Some o) b.
  Proof.
    intros v o b. unfold to_dict. rewrite !put_vehicle_dict, bind_rmap.
    unfold vehicle_dict at 1 3. destruct (destination_direction g v) as [d|]; cbn [bind]; [|reflexivity].
    rewrite bind_rmap. unfold vehicle_dict. destruct (destination_direction g o) as [d'|]; cbn [bind]; [|reflexivity].
    cbn [shift_dict map fst snd String.eqb Ascii.eqb Bool.eqb].
    unfold relative_dict. cbn [fold_left sub_feature bind assoc assoc_set String.eqb Ascii.eqb Bool.eqb].
    assert (Q : forall a x y, (a + x) - (a + y) = x - y) by (intros; ring).
    rewrite !Q. reflexivity.
  Qed.

  Lemma shift_dict_keys : forall d k, assoc k (shift_dict d) =
    option_map (fun x => if String.eqb k "x" then fst (m_shift m) + x else if String.eqb k "y" then snd (m_shift m) + x else x) (assoc k d).
  Proof.
    intros d k. unfold shift_dict. induction d as [|[k' x] d IH]; cbn [map assoc fst snd option_map]; [reflexivity|].
    destruct (String.eqb_spec k k') as [<-|N]; [reflexivity|exact IH].
  Qed.
  (** Rows that agree on every column but "x" and "y". *)
  Definition alike (names : list string) (row row' : list R) : Prop :=
    List.length row' = List.length row /\
    forall k name, nth_error names k = Some name -> name <> "x"%string -> name <> "y"%string -> nth_error row' k = nth_error row k.
  Lemma select_shift : forall names d, both (alike names) (select names d) (select names (shift_dict d)).
  Proof.
    intros names d. unfold select, alike. induction names as [|n names IH]; cbn [mapM].
    - cbn. split; [reflexivity|]. intros k name H. destruct k; discriminate H.
    - rewrite shift_dict_keys. destruct (assoc n d) as [x|]; cbn [option_map bind both]; [|reflexivity].
      destruct (mapM _ names) as [row|] eqn:E1; cbn [both] in IH.
      + destruct (mapM (fun k => match assoc k (shift_dict d) with Some x0 => Ok x0 | None => Err KeyError end) names) as [row'|] eqn:E2; [|destruct IH].
        destruct IH as [L IH]. cbn [bind both]. split; [cbn [List.length]; now rewrite L|].
        intros [|k] name H N1 N2; cbn [nth_error] in H |- *.
        * injection H as <-. apply String.eqb_neq in N1. apply String.eqb_neq in N2. now rewrite N1, N2.
        * apply (IH k name H N1 N2).
      + destruct (mapM (fun k => match assoc k (shift_dict d) with Some x0 => Ok x0 | None => Err KeyError end) names) as [row'|] eqn:E2;
          cbn [both] in IH; [destruct IH|]. cbn [bind both]. exact IH.
  Qed.
  Definition heads_alike (names : list string) (rows rows' : list (list R)) : Prop :=
    match rows, rows' with r :: rest, r' :: rest' => rest' = rest /\ alike names r r' | _, _ => False end.
  Lemma put_kin_rows : forall c p rd v, rd_net rd = g -> kc_absolute c = false ->
    both (heads_alike (kin_features c)) (kin_rows c p rd v) (kin_rows c p (pr rd) (pv v)).
  Proof.
    intros c p rd v E A. unfold kin_rows. rewrite A. cbv zeta. cbn [rd_net put_road]. rewrite E.
    unfold to_dict at 1 3. rewrite put_vehicle_dict. destruct (vehicle_dict g v true) as [d|]; cbn [rmap bind]; [|reflexivity].
    pose proof (select_shift (kin_features c) d) as B.
    destruct (select (kin_features c) d) as [r|], (select (kin_features c) (shift_dict d)) as [r'|]; cbn [both] in B; try (destruct B; fail).
    2: cbn [bind both]; exact B.
    cbn [bind]. rewrite put_close by exact E. destruct (close_vehicles_to rd v p _ _) as [cl|]; cbn [rmap bind]; [|reflexivity].
    destruct cl as [|w cl]; [cbn [map both heads_alike]; now split|].
    change (map pv (w :: cl)) with (pv w :: map pv cl). cbv iota.
    assert (F : py_from (- kc_count c + 1) (pv w :: map pv cl) = map pv (py_from (- kc_count c + 1) (w :: cl))).
    { change (pv w :: map pv cl) with (map pv (w :: cl)). unfold py_from. rewrite map_length. destruct (_ <=? _)%Z; now rewrite skipn_map. }
    rewrite F. destruct (py_from (- kc_count c + 1) (w :: cl)) as [|u us]; [reflexivity|].
    change (map pv (u :: us)) with (pv u :: map pv us). cbv iota. change (pv u :: map pv us) with (map pv (u :: us)).
    rewrite mapM_map.
    rewrite (mapM_eq (fun w => do d <- to_dict (pg g) (pv w) (Some (pv v)) (kc_intentions c); select (kin_features c) d)
      (fun w => do d <- to_dict g w (Some v) (kc_intentions c); select (kin_features c) d)).
    2: intro x; now rewrite put_to_dict_relative.
    destruct (mapM _ (u :: us)) as [rows|]; cbn [bind both heads_alike]; [now split|reflexivity].
  Qed.
  Lemma put_default_ranges : forall smax v, default_ranges (pg g) smax (pv v) = default_ranges g smax v.
  Proof. intros smax v. unfold default_ranges. change (v_lane_index (pv v)) with (v_lane_index v). now rewrite put_all_side. Qed.
  Lemma put_kin_ranges : forall smax v r, kin_ranges (pg g) smax (pv v) r = kin_ranges g smax v r.
  Proof. intros smax v r. unfold kin_ranges. destruct (ranges_set r); [reflexivity|apply put_default_ranges]. Qed.
  Lemma normalize_alike : forall r clip names row row', alike names row row' ->
    both (alike names) (normalize_row r clip names row) (normalize_row r clip names row').
  Proof.
    intros r clip names row row' A. unfold normalize_row. revert row row' A.
    induction names as [|n names IH]; intros row row' [L A].
    { cbn. split; [reflexivity|]. intros k name H; destruct k; discriminate H. }
    destruct row as [|x row], row' as [|x' row']; cbn [List.length] in L; try discriminate L.
    { cbn [combine mapM both]. split; [reflexivity|]. reflexivity. }
    cbn [combine mapM fst snd].
    assert (A' : alike names row row').
    { split; [congruence|]. intros k name H N1 N2. exact (A (Datatypes.S k) name H N1 N2). }
    specialize (IH row row' A').
    assert (V : both (fun y y' => n <> "x"%string -> n <> "y"%string -> y' = y) (normalize_value r clip n x) (normalize_value r clip n x')).
    { unfold normalize_value. destruct (assoc n r) as [ab|].
      - unfold lmap. destruct (Reqb _ 0) eqn:Z; cbn [bind both]; [reflexivity|]. intros N1 N2.
        specialize (A 0%nat n eq_refl N1 N2). cbn [nth_error] in A. injection A as ->. reflexivity.
      - cbn [both]. intros N1 N2. specialize (A 0%nat n eq_refl N1 N2). cbn [nth_error] in A. injection A as ->. reflexivity. }
    destruct (normalize_value r clip n x) as [y|], (normalize_value r clip n x') as [y'|]; cbn [both] in V; try (destruct V; fail).
    2: cbn [bind both]; exact V.
    cbn [bind].
    destruct (mapM _ (combine names row)) as [ys|], (mapM _ (combine names row')) as [ys'|]; cbn [both] in IH; try (destruct IH; fail).
    2: cbn [bind both]; exact IH.
    destruct IH as [L' B]. cbn [bind both]. split; [cbn [List.length]; congruence|].
    intros [|k] name H N1 N2; cbn [nth_error] in H |- *.
    - injection H as ->. now rewrite V.
    - exact (B k name H N1 N2).
  Qed.
  Lemma put_kin_observe : forall c smax p sh' r rd v, rd_net rd = g -> kc_absolute c = false ->
    both (fun o o' => heads_alike (kin_features c) (fst o) (fst o') /\ snd o' = snd o)
      (kin_observe c smax p sh' r (Some rd) v) (kin_observe c smax p sh' r (Some (pr rd)) (pv v)).
  Proof.
    intros c smax p sh' r rd v E A. unfold kin_observe. cbv zeta. pose proof (put_kin_rows c p rd v E A) as B.
    destruct (kin_rows c p rd v) as [rows|], (kin_rows c p (pr rd) (pv v)) as [rows'|]; cbn [both] in B; try (destruct B; fail).
    2: cbn [bind both]; exact B.
    cbn [bind]. cbn [rd_net put_road]. rewrite E, put_kin_ranges.
    assert (K : forall r1 (x x' : list (list R)), heads_alike (kin_features c) x x' ->
      heads_alike (kin_features c)
        (fst (if String.eqb (kc_order c) "shuffled" then match pad_rows (kc_count c) (List.length (kin_features c)) x with [] => [] | e :: rest => e :: sh' rest end
              else pad_rows (kc_count c) (List.length (kin_features c)) x, r1 : option ranges))
        (fst (if String.eqb (kc_order c) "shuffled" then match pad_rows (kc_count c) (List.length (kin_features c)) x' with [] => [] | e :: rest => e :: sh' rest end
              else pad_rows (kc_count c) (List.length (kin_features c)) x', r1))).
    { intros r1 x x' H. cbn [fst]. unfold heads_alike in H. destruct x as [|a x], x' as [|a' x']; try (destruct H; fail).
      destruct H as [-> H]. unfold pad_rows. cbn [app List.length]. destruct (String.eqb _ _); cbn [heads_alike]; now split. }
    destruct (kc_normalize c).
    - destruct (kin_ranges g smax v r) as [r'|]; cbn [bind both]; [|reflexivity].
      unfold heads_alike in B. destruct rows as [|a rows], rows' as [|a' rows']; try (destruct B; fail). destruct B as [-> B].
      cbn [mapM]. pose proof (normalize_alike r' (kc_clip c) (kin_features c) a a' B) as N.
      destruct (normalize_row r' _ _ a) as [y|], (normalize_row r' _ _ a') as [y'|]; cbn [both] in N; try (destruct N; fail).
      2: cbn [bind both]; exact N.
      cbn [bind]. destruct (mapM _ rows) as [ys|]; cbn [bind both]; [|reflexivity].
      split; [|reflexivity]. apply (K (Some r') (y :: ys) (y' :: ys)). cbn [heads_alike]. now split.
    - cbn [bind both]. split; [|reflexivity]. apply (K r rows rows' B).
  Qed.
  Lemma put_occ_observe : forall c smax r rd v, rd_net rd = g ->
    occ_observe c smax r (Some (pr rd)) (pv v) = occ_observe c smax r (Some rd) v.
  Proof.
    intros c smax r rd v E. unfold occ_observe. destruct (oc_absolute c); [reflexivity|]. cbv zeta. cbn [rd_net rd_vehicles put_road].
    rewrite E, mapM_map. rewrite (mapM_eq (fun w => to_dict (pg g) (pv w) (Some (pv v)) true) (fun w => to_dict g w (Some v) true)); [reflexivity|].
    intro w. apply put_to_dict_relative.
  Qed.
End Envs.
