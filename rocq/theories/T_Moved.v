(** C111: where the scene lies on the plane does not matter. *)
From Coq Require Import Lia Lra.
From Verif Require Import Prelude M_Utils M_Lane M_Road M_Vehicle M_Kinematics M_Control M_Behavior M_Regulation M_Action M_Env M_Scenes M_Nets M_Ttc M_Obs
  S_Geometry S_Road S_Vehicle S_Control S_Behavior S_Regulation S_Env S_Moved
  P_Base P_Utils P_Lane P_Graph P_Rename P_Env P_Crossing P_Moved P_MovedRoad P_MovedEnv T_Kin T_Control T_Behavior T_Action T_Env T_Reset.
Import ListNotations.
Open Scope R_scope.

(** Lanes move rigidly. *)
Theorem C111_lane m g i l : fits m g -> get_lane g i = Ok l ->
  exists l', get_lane (put_graph m g) i = Ok l' /\ l_length l' = l_length l /\
    (forall s d, l_position l' s d = put m (l_position l s d)) /\
    (forall p, l_local l' (put m p) = l_local l p) /\
    (forall s, cos (l_heading l' s) = cos (l_heading l s + m_angle m) /\ sin (l_heading l' s) = sin (l_heading l s + m_angle m)).
Proof.
  intros F H. pose proof (get_lane_of g i l H) as I. pose proof (fits_lanes m g l F I) as So. exists (put_lane m l).
  split; [now rewrite put_get_lane, H|]. split; [apply put_length|]. split; [intros; apply put_position|].
  split; [intros; now apply put_local|]. intros s. destruct (put_heading m l s So) as [k ->]. now rewrite cos_turn, sin_turn.
Qed.
Print Assumptions C111_lane.
(** Vehicles are on the same lanes. *)
Theorem C111_closest m g p i h : fits m g ->
  get_closest_lane_index (put_graph m g) (put m p) (Some (face m i h)) = get_closest_lane_index g p (Some h).
Proof. intros F. now apply put_closest. Qed.
Print Assumptions C111_closest.
(** Two vehicles collide where the scene is moved to if and only if they collide here. *)
Theorem C111_collision m v w : quarterly m -> is_colliding (put_vehicle m v) (put_vehicle m w) = is_colliding v w.
Proof. intros Q. apply (put_colliding m Q). Qed.
Print Assumptions C111_collision.

(** Decisions of the traffic, one frame, and one frame with the rules of priority. *)
Theorem C111_act m d rd : fits m (rd_net rd) -> road_act d (put_road m rd) = rmap (put_road m) (road_act d rd).
Proof. intros F. now apply (put_road_act m (rd_net rd)). Qed.
Print Assumptions C111_act.
Theorem C111_step m rd dt : fits m (rd_net rd) -> road_step (put_road m rd) dt = rmap (put_road m) (road_step rd dt).
Proof. intros F. now apply (put_road_step m (rd_net rd)). Qed.
Print Assumptions C111_step.
Theorem C111_regulated m yd rd dt : fits m (rd_net rd) -> regulated_step yd (put_road m rd) dt = rmap (put_road m) (regulated_step yd rd dt).
Proof. intros F. now apply (put_regulated m (rd_net rd)). Qed.
Print Assumptions C111_regulated.

Lemma placeless_blind m g sc : fits m g -> placeless sc -> place_blind m g sc.
Proof.
  intros F H. destruct H; [now apply blind_highway_put | now apply blind_roundabout_put | now apply blind_two_way_put | now apply blind_intersection_put].
Qed.
(** One step of an environment: the same state, moved, or the same exception. *)
Theorem C111_env_step m sc o e a : fits m (rd_net (e_road e)) -> placeless sc ->
  env_step sc o (put_env m e) a = rmap (put_env m) (env_step sc o e a).
Proof. intros F P. apply (put_env_step m (rd_net (e_road e)) F); [now apply placeless_blind|reflexivity]. Qed.
Print Assumptions C111_env_step.
(** Episodes of any length. *)
Theorem C111_episode m sc xs e : fits m (rd_net (e_road e)) -> placeless sc ->
  plays_out sc xs (put_env m e) = rmap (put_env m) (plays_out sc xs e).
Proof.
  intros F P. revert e F. induction xs as [|[o a] xs IH]; intros e F; cbn [plays_out fst snd]; [reflexivity|].
  rewrite C111_env_step by assumption. rewrite bind_rmap, rmap_bind. apply bind_on. intros e' H. apply IH.
  now rewrite (proj1 (env_step_net _ _ _ _ _ H)).
Qed.
Print Assumptions C111_episode.

(** The end, the rewards, the actions on offer and the time-to-collision grid. *)
Theorem C111_end m sc e : fits m (rd_net (e_road e)) -> placeless sc -> sc_terminal sc (put_env m e) = sc_terminal sc e.
Proof. intros F P. now apply (placeless_blind m (rd_net (e_road e))). Qed.
Print Assumptions C111_end.
Theorem C111_rewards m e a : fits m (rd_net (e_road e)) ->
  (forall c, highway_env_reward c (put_env m e) = highway_env_reward c e) /\
  (forall c, roundabout_env_reward c (put_env m e) a = roundabout_env_reward c e a) /\
  merge_env_reward (put_env m e) a = merge_env_reward e a /\
  two_way_env_reward (put_env m e) = two_way_env_reward e /\
  (forall c, intersection_reward c (put_env m e) = intersection_reward c e).
Proof.
  intros F. repeat split; intros.
  - now apply (put_reward_highway m (rd_net (e_road e))).
  - now apply put_reward_roundabout.
  - now apply put_reward_merge.
  - now apply (put_reward_two_way m (rd_net (e_road e))).
  - now apply (put_reward_intersection m (rd_net (e_road e))).
Qed.
Print Assumptions C111_rewards.
Theorem C111_available m sc e : fits m (rd_net (e_road e)) -> get_available_actions sc (put_env m e) = get_available_actions sc e.
Proof. intros F. now apply (put_available m (rd_net (e_road e))). Qed.
Print Assumptions C111_available.
Theorem C111_ttc m rd observer v tq horizon : fits m (rd_net rd) ->
  compute_ttc_grid (put_road m rd) (put_vehicle m observer) (put_vehicle m v) tq horizon = compute_ttc_grid rd observer v tq horizon.
Proof. intros F. now apply (put_ttc m (rd_net rd)). Qed.
Print Assumptions C111_ttc.

(** Observations, when the scene is only shifted: those relative to the observer are the
    same, but for the absolute coordinates of the observer in its own row. *)
Theorem C111_kinematics m c smax p sh r rd v row rows r' : fits m (rd_net rd) -> shifts m -> kc_absolute c = false ->
  kin_observe c smax p sh r (Some rd) v = Ok (row :: rows, r') ->
  exists row', kin_observe c smax p sh r (Some (put_road m rd)) (put_vehicle m v) = Ok (row' :: rows, r') /\
    List.length row' = List.length row /\
    forall k name, nth_error (kin_features c) k = Some name -> name <> "x"%string -> name <> "y"%string -> nth_error row' k = nth_error row k.
Proof.
  intros F Sh A H. pose proof (put_kin_observe m (rd_net rd) F Sh c smax p sh r rd v eq_refl A) as B. rewrite H in B. unfold both in B.
  destruct (kin_observe c smax p sh r (Some (put_road m rd)) (put_vehicle m v)) as [[o r2]|]; [|destruct B].
  cbn [fst snd] in B. destruct B as [B ->]. unfold heads_alike in B. destruct o as [|row' rows']; [destruct B|]. destruct B as [-> [L B]].
  exists row'. now split.
Qed.
Print Assumptions C111_kinematics.
Theorem C111_kinematics_error m c smax p sh r rd v x : fits m (rd_net rd) -> shifts m -> kc_absolute c = false ->
  kin_observe c smax p sh r (Some rd) v = Err x -> kin_observe c smax p sh r (Some (put_road m rd)) (put_vehicle m v) = Err x.
Proof.
  intros F Sh A H. pose proof (put_kin_observe m (rd_net rd) F Sh c smax p sh r rd v eq_refl A) as B. rewrite H in B. unfold both in B.
  destruct (kin_observe c smax p sh r (Some (put_road m rd)) (put_vehicle m v)) as [|y]; [destruct B|]. now rewrite B.
Qed.
Print Assumptions C111_kinematics_error.
Theorem C111_occupancy m c smax r rd v : fits m (rd_net rd) -> shifts m ->
  occ_observe c smax r (Some (put_road m rd)) (put_vehicle m v) = occ_observe c smax r (Some rd) v.
Proof. intros F Sh. now apply (put_occ_observe m (rd_net rd)). Qed.
Print Assumptions C111_occupancy.

(** The representative of a heading among those that differ by whole turns never matters. *)
Theorem C111_whole_turns turns g : fits (Motion 0 (0, 0) turns) g /\ (forall p, put (Motion 0 (0, 0) turns) p = p) /\
  (forall i h, face (Motion 0 (0, 0) turns) i h = h + 2 * PI * IZR (turns i)).
Proof.
  split; [left; exists 0%Z; cbn; ring|]. split.
  - intros [x y]. unfold put, vadd, vrot; cbn [m_angle m_shift fst snd]. rewrite cos_0, sin_0. f_equal; ring.
  - intros i h. unfold face; cbn [m_angle m_turns]. ring.
Qed.
Print Assumptions C111_whole_turns.

(** A straight road built at an angle is the road built at angle zero, turned. *)
Lemma put_add_lane m g a b l : add_lane (put_graph m g) a b (put_lane m l) = put_graph m (add_lane g a b l).
Proof.
  assert (K : forall {A B} (f : A -> B) k x (d : list (string * A)),
    assoc_set k (f x) (map (fun ad => (fst ad, f (snd ad))) d) = map (fun ad => (fst ad, f (snd ad))) (assoc_set k x d)).
  { intros A B f k x d. induction d as [|[k' y] d IH]; cbn [map assoc_set fst snd]; [reflexivity|]. destruct (String.eqb k k'); cbn [map fst snd]; [reflexivity|]. now rewrite IH. }
  unfold add_lane. rewrite put_assoc. cbv zeta.
  set (f := fun d : list (string * list lane) => map (fun bl => (fst bl, map (put_lane m) (snd bl))) d).
  assert (G : forall h, put_graph m h = map (fun ad => (fst ad, f (snd ad))) h) by reflexivity.
  set (g1 := match assoc a g with Some _ => g | None => assoc_set a [] g end).
  assert (E1 : match option_map (put_roads m) (assoc a g) with Some _ => put_graph m g | None => assoc_set a [] (put_graph m g) end = put_graph m g1).
  { unfold g1. destruct (assoc a g); cbn [option_map]; [reflexivity|]. rewrite !G. exact (K _ _ f a [] g). }
  rewrite E1. rewrite put_assoc.
  set (d := match assoc a g1 with Some d => d | None => [] end).
  assert (E2 : match option_map (put_roads m) (assoc a g1) with Some d => d | None => [] end = f d).
  { unfold d. destruct (assoc a g1); reflexivity. }
  rewrite E2.
  assert (Fa : forall k h, assoc k (f h) = option_map (map (put_lane m)) (assoc k h)) by (intros; unfold f; apply assoc_map).
  rewrite Fa. set (d1 := match assoc b d with Some _ => d | None => assoc_set b [] d end).
  assert (E3 : match option_map (map (put_lane m)) (assoc b d) with Some _ => f d | None => assoc_set b [] (f d) end = f d1).
  { unfold d1. destruct (assoc b d); cbn [option_map]; [reflexivity|]. exact (K _ _ (map (put_lane m)) b [] d). }
  rewrite E3, Fa. set (ls := match assoc b d1 with Some ls => ls | None => [] end).
  assert (E4 : match option_map (map (put_lane m)) (assoc b d1) with Some ls => ls | None => [] end = map (put_lane m) ls).
  { unfold ls. destruct (assoc b d1); reflexivity. }
  rewrite E4. change [put_lane m l] with (map (put_lane m) [l]). rewrite <- map_app.
  assert (E5 : assoc_set b (map (put_lane m) (ls ++ [l])%list) (f d1) = f (assoc_set b (ls ++ [l])%list d1)) by exact (K _ _ (map (put_lane m)) b (ls ++ [l])%list d1).
  rewrite E5, !G. exact (K _ _ f a (assoc_set b (ls ++ [l])%list d1) g1).
Qed.
Theorem C111_straight_road n l a turns :
  straight_road_network n l a = put_graph (Motion (- a) (0, 0) turns) (straight_road_network n l 0).
Proof.
  unfold straight_road_network. set (m := Motion (- a) (0, 0) turns).
  assert (L : forall k, straight_network_lane n k l a = put_lane m (straight_network_lane n k l 0)).
  { intros k. unfold straight_network_lane, put_lane. cbn [l_geom put_geometry l_width l_line_types l_forbidden l_speed_limit l_priority].
    assert (V : forall p, vrot (- a) p = put m (vrot (- 0) p)).
    { intros [x y]. unfold m, put, vadd; cbn [m_angle m_shift fst snd]. rewrite Ropp_0. unfold vrot; cbn [fst snd]. rewrite cos_0, sin_0. f_equal; ring. }
    now rewrite <- !V. }
  change empty_graph with (put_graph m empty_graph) at 1. generalize empty_graph.
  induction (seq 0 n) as [|k ks IH]; intros g; cbn [fold_left]; [reflexivity|]. rewrite L, put_add_lane. apply IH.
Qed.
Print Assumptions C111_straight_road.

(** Traffic: a vehicle created with its own timer. *)
Theorem C111_creation m g k par id p h s tl ts rt enable t : fits m g -> t <> 0 ->
  new_idm (put_graph m g) k par id (put m p) (face m id h) s tl ts rt enable (Some t) = rmap (put_vehicle m) (new_idm g k par id p h s tl ts rt enable (Some t)).
Proof.
  intros F T. unfold new_idm, new_controlled, new_vehicle. rewrite put_closest by exact F.
  destruct (get_closest_lane_index g p (Some h)) as [i|]; cbn [bind rmap]; [|reflexivity].
  cbn [v_lane_index v_target_lane v_target_speed float_or]. rewrite (proj2 (Reqb_false t 0) T). reflexivity.
Qed.
Print Assumptions C111_creation.

(** Parking: the goal moves with the scene. *)
Theorem C111_parking m goal vs duration e : shifts m ->
  parking_reward parking_compute (put_object m goal) (map (put_vehicle m) vs) = parking_reward parking_compute goal vs /\
  parking_terminal parking_compute (put_object m goal) duration (put_env m e) = parking_terminal parking_compute goal duration e.
Proof.
  intros Sh.
  assert (G : forall us, goal_rewards parking_compute (put_object m goal) (map (put_vehicle m) us) = goal_rewards parking_compute goal us).
  { intros us. unfold goal_rewards. rewrite map_map. apply map_ext. intros v.
    change (v_pos (put_vehicle m v)) with (put m (v_pos v)). change (v_heading (put_vehicle m v)) with (face m (v_id v) (v_heading v)).
    change (v_speed (put_vehicle m v)) with (v_speed v). cbn [o_pos o_heading o_speed put_object].
    rewrite !shift_put, !shift_face by exact Sh. unfold parking_compute, goal_features, vadd. cbn [fst snd combine map].
    replace ((fst (m_shift m) + fst (v_pos v)) / 100 - (fst (m_shift m) + fst (o_pos goal)) / 100) with (fst (v_pos v) / 100 - fst (o_pos goal) / 100) by field.
    replace ((snd (m_shift m) + snd (v_pos v)) / 100 - (snd (m_shift m) + snd (o_pos goal)) / 100) with (snd (v_pos v) / 100 - snd (o_pos goal) / 100) by field. reflexivity. }
  unfold parking_reward, parking_terminal. rewrite put_controlled, !G, existsb_map. now split.
Qed.
Print Assumptions C111_parking.

(** What does depend on the place.  At other angles, collisions: [point_in_rotated_rectangle]
    turns by the angle instead of back by it, which is right up to quarter turns only. *)
Definition car (i : nat) (p : vec) : vehicle := with_id (demo_controlled KVehicle p 0 0 0) i.
Lemma vrot_0 p : vrot 0 p = p.
Proof. destruct p as [x y]. unfold vrot; cbn [fst snd]. rewrite cos_0, sin_0. f_equal; ring. Qed.
Theorem C111_not_other_angles : exists m, m_angle m = PI / 4 /\
  is_colliding (car 1 (0, 0)) (car 2 (0, 3)) = false /\
  is_colliding (put_vehicle m (car 1 (0, 0))) (put_vehicle m (car 2 (0, 3))) = true.
Proof.
  exists (Motion (PI / 4) (0, 0) (fun _ => 0%Z)). split; [reflexivity|]. split.
  - unfold is_colliding, colliding. cbn [car with_id demo_controlled v_pos v_heading].
    destruct (Rltb _ _); [reflexivity|]. unfold rotated_rectangles_intersect, has_corner_inside. cbn [r_center r_length r_width r_angle].
    unfold nine_points, vscal, vadd, vsub, V_LENGTH, V_WIDTH. cbn [existsb fst snd].
    assert (K : forall p c l w, w / 2 < Rabs (snd p - snd c) -> point_in_rotated_rectangle p c l w 0 = false).
    { intros p c l w H. unfold point_in_rotated_rectangle. rewrite vrot_0. unfold point_in_rectangle, vsub. cbn [fst snd].
      unfold Rabs in H. destruct (Rcase_abs _) in H.
      - rewrite (Rleb_gt (- (w / 2))) by lra. now rewrite andb_false_l, !andb_false_r.
      - rewrite (Rleb_gt (snd p - snd c)) by lra. now rewrite !andb_false_r. }
    rewrite !K; [reflexivity|..]; rewrite vrot_0; cbn [fst snd]; unfold Rabs; destruct (Rcase_abs _); lra.
  - set (m := Motion _ _ _). unfold is_colliding, colliding.
    change (v_pos (put_vehicle m (car 1 (0, 0)))) with (put m (0, 0)). change (v_pos (put_vehicle m (car 2 (0, 3)))) with (put m (0, 3)).
    change (v_heading (put_vehicle m (car 1 (0, 0)))) with (face m 1 0). change (v_heading (put_vehicle m (car 2 (0, 3)))) with (face m 2 0).
    rewrite put_norm. rewrite (Rltb_ge V_LENGTH).
    2:{ unfold vnorm, vsub, V_LENGTH. cbn [fst snd]. apply Rsqr_incr_0_var; [|lra]. rewrite Rsqr_sqrt; unfold Rsqr; lra. }
    assert (F : forall i, face m i 0 = PI / 4) by (intros i; unfold face, m; cbn [m_angle m_turns]; lra). rewrite !F.
    unfold rotated_rectangles_intersect. apply orb_true_iff. left. unfold has_corner_inside. cbn [r_center r_length r_width r_angle].
    apply existsb_exists. exists (0, 9/10). split.
    { unfold nine_points, V_WIDTH. right. cbn. assert (E : (0, 9 / 10 * 2 / 2) = (0, 9/10)) by (f_equal; lra). rewrite E. tauto. }
    unfold point_in_rotated_rectangle. change (PI / 4) with (m_angle m) at 1. rewrite put_add, put_sub. change (m_angle m) with (PI / 4).
    rewrite <- vrot_plus. replace (PI / 4 + PI / 4) with (PI / 2) by lra.
    unfold point_in_rectangle, vrot, vsub, vadd, V_LENGTH, V_WIDTH. cbn [fst snd]. rewrite cos_PI2, sin_PI2.
    rewrite !(Rleb_le) by lra. reflexivity.
Qed.
Print Assumptions C111_not_other_angles.
(** The timer of the lane changes of a vehicle created without one is a function of its
    absolute position: a shift by half a period of it changes the timer. *)
Theorem C111_creation_timer g k par id p h s tl ts rt enable v : ip_delay par <> 0 ->
  new_idm g k par id p h s tl ts rt enable None = Ok v ->
  let m := Motion 0 (ip_delay par / (2 * PI), 0) (fun _ => 0%Z) in
  fits m g /\ exists v', new_idm (put_graph m g) k par id (put m p) (face m id h) s tl ts rt enable None = Ok v' /\ v_timer v' <> v_timer v.
Proof.
  intros D H m. assert (F : fits m g) by (left; exists 0%Z; cbn; ring). split; [exact F|]. revert H.
  unfold new_idm, new_controlled, new_vehicle. rewrite put_closest by exact F.
  destruct (get_closest_lane_index g p (Some h)) as [i|]; cbn [bind]; [|discriminate]. intros [= <-].
  eexists. split; [reflexivity|]. cbn [v_timer float_or]. unfold Rpymod. pose proof PI_RGT_0 as P.
  assert (E : (fst (put m p) + snd (put m p)) * PI = (fst p + snd p) * PI + ip_delay par / 2).
  { unfold put, m, vadd; cbn [m_angle m_shift]. rewrite vrot_0. cbn [fst snd]. field. lra. }
  rewrite E. set (a := (fst p + snd p) * PI). set (n := Rfloor ((a + ip_delay par / 2) / ip_delay par)). set (j := Rfloor (a / ip_delay par)).
  intros X. assert (Y : ip_delay par * (1 / 2 - IZR (n - j)) = 0) by (rewrite minus_IZR; lra).
  apply Rmult_integral in Y as [Y|Y]; [lra|]. assert (Z2 : IZR (2 * (n - j)) = IZR 1) by (rewrite mult_IZR; lra). apply eq_IZR in Z2. lia.
Qed.
Print Assumptions C111_creation_timer.
(** merge: the episode ends at the absolute abscissa 370. *)
Theorem C111_merge_end e v : ego e = Ok v -> exists m, shifts m /\ merge_terminal (put_env m e) = Ok true.
Proof.
  intros H. exists (Motion 0 (371 - fst (v_pos v), 0) (fun _ => 0%Z)). split; [now split|].
  unfold merge_terminal. rewrite put_ego, H. cbn [rmap bind].
  assert (X : Rltb 370 (fst (v_pos (put_vehicle (Motion 0 (371 - fst (v_pos v), 0) (fun _ => 0%Z)) v))) = true).
  { apply Rltb_lt. change (370 < fst (put (Motion 0 (371 - fst (v_pos v), 0) (fun _ => 0%Z)) (v_pos v))).
    unfold put, vadd; cbn [m_angle m_shift]. rewrite vrot_0. cbn [fst]. lra. }
  rewrite X. now rewrite orb_true_r.
Qed.
Print Assumptions C111_merge_end.
(** The row of the observer itself holds its absolute coordinates, even in relative
    observations. *)
Theorem C111_own_row m g v d : fits m g -> shifts m -> to_dict g v None true = Ok d ->
  exists d', to_dict (put_graph m g) (put_vehicle m v) None true = Ok d' /\
    assoc "x" d = Some (fst (v_pos v)) /\ assoc "x" d' = Some (fst (m_shift m) + fst (v_pos v)) /\
    assoc "y" d = Some (snd (v_pos v)) /\ assoc "y" d' = Some (snd (m_shift m) + snd (v_pos v)).
Proof.
  intros F Sh. unfold to_dict. rewrite (put_vehicle_dict m g F Sh). unfold vehicle_dict.
  destruct (destination_direction g v) as [u|]; cbn [bind rmap]; [|discriminate]. intros [= <-].
  eexists. split; [reflexivity|]. repeat split.
Qed.
Print Assumptions C111_own_row.

Definition quarter : motion := Motion (PI / 2) (100, -7) (fun i => Z.of_nat i).
Lemma quarter_fits : fits quarter demo_net.
Proof.
  right. split; [exists 1%Z; cbn; ring|]. intros l H. cbn in H. destruct H as [<- |[<- |[<- |[]]]];
    unfold goes_somewhere, straight_network_lane; cbn [l_geom]; rewrite Ropp_0, !vrot_0; intros E; injection E; lra.
Qed.
Example C111_nonvacuous : fits quarter demo_net /\ shifts (Motion 0 (3, 4) (fun _ => 0%Z)) /\ fits (Motion 0 (3, 4) (fun _ => 0%Z)) roundabout_net /\
  exists o e', env_step demo_scenario o demo_env (ActInt 3) = Ok e' /\ env_step demo_scenario o (put_env quarter demo_env) (ActInt 3) = Ok (put_env quarter e').
Proof.
  split; [exact quarter_fits|]. split; [now split|]. split; [left; exists 0%Z; cbn [m_angle]; ring|].
  exists some_oracle.
  destruct (env_step_total demo_scenario some_oracle demo_env (ActInt 3)) as (e' & E & _).
  - split; [cbn; lra | discriminate].
  - apply (C40_always_decided 15 1 false (Single (Discrete true true))).
  - exact some_oracle_ok.
  - exact demo_ready.
  - cbn; lia || tauto.
  - exists e'. split; [exact E|]. rewrite C111_env_step; [now rewrite E | exact quarter_fits | apply placeless_highway].
Qed.
