(** Identities do not matter: renaming the objects of an environment commutes with
    everything that happens to it. *)
From Verif Require Import Prelude M_Utils M_Lane M_Road M_Vehicle M_Kinematics M_Control M_Behavior M_Regulation M_Action M_Env M_Scenes M_Nets M_Reset M_Copies M_Ttc M_Obs.
From Coq Require Import Lia FunctionalExtensionality.
Open Scope R_scope.

Section Rename.
  Variable f : nat -> nat.
  Hypothesis inj : forall i j, f i = f j -> i = j.
  Notation rv := (ren_vehicle f).
  Notation ro := (ren_object f).
  Notation rr := (ren_road f).
  Notation re := (ren_env f).
  Definition ren_entity (e : entity) : entity := match e with EV v => EV (rv v) | EO o => EO (ro o) end.
  Notation rn := ren_entity.

  Lemma eqb_ren : forall i j, Nat.eqb (f i) (f j) = Nat.eqb i j.
  Proof.
    intros i j. destruct (Nat.eqb_spec i j) as [->|N]; [apply Nat.eqb_refl|].
    apply Nat.eqb_neq. intro E. now apply N, inj.
  Qed.
  Lemma bind_rmap : forall {A B C} (r : res A) (g : A -> B) (k : B -> res C), bind (rmap g r) k = bind r (fun x => k (g x)).
  Proof. intros A B C [x|x] g k; reflexivity. Qed.
  Lemma rmap_bind : forall {A B C} (r : res A) (k : A -> res B) (g : B -> C), rmap g (bind r k) = bind r (fun x => rmap g (k x)).
  Proof. intros A B C [x|x] k g; reflexivity. Qed.
  Lemma bind_ext : forall {A B} (r : res A) (k k' : A -> res B), (forall x, k x = k' x) -> bind r k = bind r k'.
  Proof. intros A B [x|x] k k' H; cbn; auto. Qed.
  Lemma mapM_map : forall {A B C} (g : A -> B) (k : B -> res C) l, mapM k (map g l) = mapM (fun x => k (g x)) l.
  Proof. induction l as [|x l IH]; cbn; [reflexivity|]. now rewrite IH. Qed.
  Lemma mapM_rmap : forall {A B C} (k : A -> res B) (g : B -> C) l, mapM (fun x => rmap g (k x)) l = rmap (map g) (mapM k l).
  Proof.
    induction l as [|x l IH]; cbn; [reflexivity|]. rewrite IH, bind_rmap, rmap_bind. apply bind_ext. intro y.
    rewrite bind_rmap, rmap_bind. now apply bind_ext.
  Qed.
  Lemma mapM_eq : forall {A B} (k k' : A -> res B) l, (forall x, k x = k' x) -> mapM k l = mapM k' l.
  Proof. intros A B k k' l H. induction l as [|x l IH]; cbn; [reflexivity|]. now rewrite H, IH. Qed.
  Lemma foldM_ren : forall {A S T} (g : S -> T) (k : S -> A -> res S) (k' : T -> A -> res T) l s,
    (forall s x, k' (g s) x = rmap g (k s x)) -> foldM k' l (g s) = rmap g (foldM k l s).
  Proof.
    intros A S T g k k' l. induction l as [|x l IH]; intros s H; cbn; [reflexivity|].
    rewrite H, bind_rmap, rmap_bind. apply bind_ext. intro y. now apply IH.
  Qed.
  Lemma nth_error_map : forall {A B} (g : A -> B) l i, nth_error (map g l) i = option_map g (nth_error l i).
  Proof. induction l as [|x l IH]; intros [|i]; cbn; auto. Qed.
  Lemma update_map : forall {A B} (g : A -> B) l i x, update_nth i (g x) (map g l) = map g (update_nth i x l).
  Proof. induction l as [|y l IH]; intros [|i] x; cbn; auto. now rewrite IH. Qed.
  Lemma last_map : forall {A B} (g : A -> B) l d, last (map g l) (g d) = g (last l d).
  Proof. induction l as [|x [|y l] IH]; intros d; [reflexivity|reflexivity|]. cbn [map last] in *. apply IH. Qed.

  (** ** What does not look at identities *)
  Lemma ren_steering : forall g v i, steering_control g (rv v) i = steering_control g v i. Proof. reflexivity. Qed.
  Lemma ren_follow : forall g d v, follow_road g d (rv v) = rmap rv (follow_road g d v).
  Proof.
    intros g d v. unfold follow_road. cbn [v_target_lane rv set_id ren_vehicle v_pos v_route].
    rewrite rmap_bind. apply bind_ext. intro l. destruct (after_end l (v_pos v) None); [|reflexivity].
    destruct (next_lane g (v_target_lane v) _ (v_pos v) d) as [rt' r]. rewrite rmap_bind. apply bind_ext. intro i.
    destruct (v_route v); reflexivity.
  Qed.
  Lemma ren_try : forall g v k, try_lane_change g (rv v) k = rmap rv (try_lane_change g v k).
  Proof.
    intros g v k. unfold try_lane_change. cbn [v_target_lane rv set_id ren_vehicle v_pos].
    rewrite rmap_bind. apply bind_ext. intro i. rewrite rmap_bind. apply bind_ext. intro l.
    destruct (is_reachable_from l (v_pos v)); reflexivity.
  Qed.
  Lemma ren_meta : forall g v a, apply_meta g (rv v) a = rmap rv (apply_meta g v a).
  Proof. intros g v [[]|]; cbn [apply_meta]; try reflexivity; apply ren_try. Qed.
  Lemma ren_low : forall g v, low_level g (rv v) = rmap rv (low_level g v).
  Proof.
    intros g v. unfold low_level. rewrite ren_steering. cbn [v_target_lane rv set_id ren_vehicle].
    rewrite rmap_bind. apply bind_ext. intro s. reflexivity.
  Qed.
  Lemma ren_controlled_act : forall g d v a, controlled_act g d (rv v) a = rmap rv (controlled_act g d v a).
  Proof.
    intros g d v a. unfold controlled_act. rewrite ren_follow, bind_rmap, rmap_bind. apply bind_ext. intro v1.
    rewrite ren_meta, bind_rmap, rmap_bind. apply bind_ext. intro v2. apply ren_low.
  Qed.
  Lemma ren_mdp_act : forall g d v a, mdp_act g d (rv v) a = rmap rv (mdp_act g d v a).
  Proof.
    intros g d v [[]|]; cbn [mdp_act]; try apply ren_controlled_act;
      (rewrite <- ren_controlled_act; reflexivity).
  Qed.

  (** ** Neighbours *)
  Definition ren_acc (acc : neighbour_acc) : neighbour_acc :=
    (option_map (fun x => (fst x, rn (snd x))) (fst acc), option_map (fun x => (fst x, rn (snd x))) (snd acc)).
  Lemma rn_id : forall e, e_id (rn e) = f (e_id e). Proof. intros [v|o]; reflexivity. Qed.
  Lemma rn_pos : forall e, e_pos (rn e) = e_pos e. Proof. intros [v|o]; reflexivity. Qed.
  Lemma rn_landmark : forall e, is_landmark (rn e) = is_landmark e. Proof. intros [v|o]; reflexivity. Qed.
  Lemma rn_speed : forall e, e_speed (rn e) = e_speed e. Proof. intros [v|o]; reflexivity. Qed.
  Lemma rn_heading : forall e, e_heading (rn e) = e_heading e. Proof. intros [v|o]; reflexivity. Qed.

  Lemma ren_neighbour_step : forall l id s acc e,
    neighbour_step l (f id) s (ren_acc acc) (rn e) = ren_acc (neighbour_step l id s acc e).
  Proof.
    intros l id s [a b] e. unfold neighbour_step. rewrite rn_id, eqb_ren, rn_landmark, rn_pos.
    destruct (negb (e_id e =? id)%nat && negb (is_landmark e)); [|reflexivity].
    destruct (l_local l (e_pos e)) as [sv dv].
    destruct (negb (on_lane l (e_pos e) (Some sv) (Some dv) 1)); [reflexivity|].
    unfold ren_acc. cbn [fst snd]. f_equal.
    - destruct a as [[sf x]|]; cbn [option_map fst snd]; [destruct (Rleb s sv && Rleb sv sf)|destruct (Rleb s sv)]; reflexivity.
    - destruct b as [[sf x]|]; cbn [option_map fst snd]; [destruct (Rltb sv s && Rltb sf sv)|destruct (Rltb sv s)]; reflexivity.
  Qed.
  Lemma ren_fold_neighbours : forall l id s es acc,
    fold_left (neighbour_step l (f id) s) (map rn es) (ren_acc acc) = ren_acc (fold_left (neighbour_step l id s) es acc).
  Proof. induction es as [|e es IH]; intros acc; cbn [fold_left map]; [reflexivity|]. now rewrite ren_neighbour_step, IH. Qed.
  Lemma ren_entities : forall rd, rd_entities (rr rd) = map rn (rd_entities rd).
  Proof. intros rd. unfold rd_entities. cbn [rd_vehicles rd_objects rr]. now rewrite map_app, !map_map. Qed.
  Definition ren_pair (p : option entity * option entity) : option entity * option entity :=
    (option_map rn (fst p), option_map rn (snd p)).
  Lemma ren_neighbours_on : forall rd id p i, neighbours_on (rr rd) (f id) p i = rmap ren_pair (neighbours_on rd id p i).
  Proof.
    intros rd id p i. unfold neighbours_on. cbn [rd_net rr]. rewrite rmap_bind. apply bind_ext. intro l.
    rewrite ren_entities. change ((None, None) : neighbour_acc) with (ren_acc (None, None)).
    rewrite ren_fold_neighbours.
    destruct (fold_left (neighbour_step l id _) (rd_entities rd) _) as [[[x e]|] [[y e']|]]; reflexivity.
  Qed.
  Lemma ren_neighbours : forall rd v i, neighbour_vehicles (rr rd) (rv v) i = rmap ren_pair (neighbour_vehicles rd v i).
  Proof. intros rd v i. unfold neighbour_vehicles. apply ren_neighbours_on. Qed.

  (** ** IDM *)
  Lemma ren_distance : forall g v e, lane_distance_to g (rv v) (rn e) = lane_distance_to g v e.
  Proof. intros g v e. unfold lane_distance_to. cbn [v_lane_index rv set_id ren_vehicle v_pos]. now rewrite rn_pos. Qed.
  Lemma ren_velocity : forall e, e_velocity (rn e) = e_velocity e.
  Proof. intros [v|o]; reflexivity. Qed.
  Lemma ren_gap : forall p v e, desired_gap p (rv v) (rn e) = desired_gap p v e.
  Proof. intros p v e. unfold desired_gap. rewrite ren_velocity. reflexivity. Qed.
  Lemma ren_acceleration : forall g self ego front,
    acceleration g (rv self) (option_map rn ego) (option_map rn front) = acceleration g self ego front.
  Proof.
    intros g self ego front. unfold acceleration. cbn [v_kind rv set_id ren_vehicle v_par].
    assert (I : idm_acceleration g (v_par self) (option_map rn ego) (option_map rn front) = idm_acceleration g (v_par self) ego front).
    { destruct ego as [[e|o]|]; cbn [option_map ren_entity idm_acceleration]; try reflexivity.
      destruct front as [fr|]; cbn [option_map]; [|reflexivity].
      rewrite ren_distance, ren_gap. reflexivity. }
    assert (L : linear_features g (v_par self) (option_map rn ego) (option_map rn front) = linear_features g (v_par self) ego front).
    { destruct ego as [[e|o]|]; cbn [option_map ren_entity linear_features]; try reflexivity.
      cbn [v_kind rv set_id ren_vehicle]. destruct (negb (is_controlled (v_kind e))); [reflexivity|].
      destruct front as [fr|]; cbn [option_map]; [|reflexivity].
      rewrite ren_distance, rn_speed. reflexivity. }
    destruct (v_kind self); try exact I. unfold linear_acceleration. now rewrite L.
  Qed.
  Lemma ren_idm_steering : forall g v i, idm_steering g (rv v) i = idm_steering g v i.
  Proof. reflexivity. Qed.
  Lemma ren_mobil : forall rd v i, mobil (rr rd) (rv v) i = mobil rd v i.
  Proof.
    intros rd v i. unfold mobil. rewrite !ren_neighbours, bind_rmap. apply bind_ext. intros [a b].
    cbn [ren_pair fst snd rd_net rr].
    change (Some (EV (rv v))) with (option_map rn (Some (EV v))).
    rewrite !ren_acceleration. apply bind_ext. intro x. apply bind_ext. intro y.
    cbn [v_par rv set_id ren_vehicle]. destruct (Rltb y _); [reflexivity|].
    rewrite bind_rmap. apply bind_ext. intros [c d]. cbn [ren_pair fst snd].
    rewrite !ren_acceleration. apply bind_ext. intro z.
    change (route_lane (rv v)) with (route_lane v). destruct (route_lane v) as [k|]; [reflexivity|].
    reflexivity.
  Qed.
  Lemma foldM_map : forall {A B S} (g : A -> B) (k : S -> B -> res S) l s, foldM k (map g l) s = foldM (fun s x => k s (g x)) l s.
  Proof. intros A B S g k. induction l as [|x l IH]; intro s; cbn; [reflexivity|]. apply bind_ext. apply IH. Qed.
  Lemma foldM_eq : forall {A S} (k k' : S -> A -> res S) l s, (forall s x, k s x = k' s x) -> foldM k l s = foldM k' l s.
  Proof. intros A S k k' l s H. revert s. induction l as [|x l IH]; intro s; cbn; [reflexivity|]. rewrite H. apply bind_ext. exact IH. Qed.
  Lemma ren_aborts : forall rd v, aborts (rr rd) (rv v) = aborts rd v.
  Proof.
    intros rd v. unfold aborts. cbn [rd_vehicles rd_net ren_road]. rewrite foldM_map. apply foldM_eq. intros b w.
    change (v_id (rv w)) with (f (v_id w)). change (v_id (rv v)) with (f (v_id v)). rewrite eqb_ren.
    change (EV (rv w)) with (rn (EV w)). rewrite ren_distance, ren_gap. reflexivity.
  Qed.
  Lemma ren_candidate : forall rd v i, try_candidate (rr rd) (rv v) i = rmap rv (try_candidate rd v i).
  Proof.
    intros rd v i. unfold try_candidate. cbn [rd_net rr]. rewrite rmap_bind. apply bind_ext. intro l.
    cbn [v_pos rv set_id ren_vehicle]. destruct (negb (is_reachable_from l (v_pos v))); [reflexivity|].
    change (set_id v (f (v_id v))) with (rv v). rewrite ren_mobil, rmap_bind. apply bind_ext. intros []; reflexivity.
  Qed.
  Lemma ren_policy : forall rd v, change_lane_policy (rr rd) (rv v) = rmap rv (change_lane_policy rd v).
  Proof.
    intros rd v. unfold change_lane_policy. cbn [v_lane_index v_target_lane v_par v_timer rv set_id ren_vehicle].
    change (set_id v (f (v_id v))) with (rv v).
    destruct (negb (li_eqb (v_lane_index v) (v_target_lane v))).
    - destruct (same_road (v_lane_index v) (v_target_lane v)); [|reflexivity].
      rewrite ren_aborts, rmap_bind. apply bind_ext. intros []; reflexivity.
    - destruct (negb (do_every (ip_delay (v_par v)) (v_timer v))); [reflexivity|].
      cbn [rd_net rr]. rewrite rmap_bind. apply bind_ext. intro cands.
      change (set_timer (rv v) 0) with (rv (set_timer v 0)). apply foldM_ren. intros w i. apply ren_candidate.
  Qed.
  Lemma ren_collect : forall rd v, collect_data (rr rd) (rv v) = collect_data rd v.
  Proof.
    intros rd v. unfold collect_data. cbn [v_kind rv set_id ren_vehicle]. destruct (v_kind v); try reflexivity.
    change (set_id v (f (v_id v))) with (rv v). rewrite ren_neighbours, bind_rmap. apply bind_ext. intros [a b].
    cbn [ren_pair fst snd rd_net rr v_par rv set_id ren_vehicle].
    assert (L : linear_features (rd_net rd) (v_par v) (Some (EV (rv v))) (option_map rn a) = linear_features (rd_net rd) (v_par v) (Some (EV v)) a).
    { cbn [linear_features]. cbn [v_kind rv set_id ren_vehicle].
      destruct (negb (is_controlled (v_kind v))); [reflexivity|].
      destruct a as [e|]; cbn [option_map]; [|reflexivity].
      change (set_id v (f (v_id v))) with (rv v). rewrite ren_distance, rn_speed. reflexivity. }
    change (set_id v (f (v_id v))) with (rv v). rewrite L. reflexivity.
  Qed.
  Lemma ren_idm_act : forall rd d v, idm_act (rr rd) d (rv v) = rmap rv (idm_act rd d v).
  Proof.
    intros rd d v. unfold idm_act. rewrite ren_collect, rmap_bind. apply bind_ext. intros _.
    change (v_crashed (rv v)) with (v_crashed v). destruct (v_crashed v); [reflexivity|].
    rewrite ren_neighbours, bind_rmap, rmap_bind. apply bind_ext. intros [a b]. cbn [ren_pair fst snd rd_net rr].
    rewrite ren_follow, bind_rmap, rmap_bind. apply bind_ext. intro v1.
    change (v_enable_lane_change (rv v1)) with (v_enable_lane_change v1).
    assert (E : (if v_enable_lane_change v1 then change_lane_policy (rr rd) (rv v1) else Ok (rv v1)) =
                rmap rv (if v_enable_lane_change v1 then change_lane_policy rd v1 else Ok v1)).
    { destruct (v_enable_lane_change v1); [apply ren_policy|reflexivity]. }
    change (Road (rd_net rd) (map rv (rd_vehicles rd)) (map ro (rd_objects rd)) (rd_record rd) (rd_steps rd)) with (rr rd).
    rewrite E, bind_rmap, rmap_bind. apply bind_ext. intro v2.
    rewrite ren_idm_steering. change (v_target_lane (rv v2)) with (v_target_lane v2). rewrite rmap_bind. apply bind_ext. intro s.
    change (Some (EV (rv v2))) with (option_map rn (Some (EV v2))). rewrite ren_acceleration, rmap_bind.
    apply bind_ext. intro c. reflexivity.
  Qed.
  Lemma ren_vehicle_act : forall rd d v, vehicle_act (rr rd) d (rv v) = rmap rv (vehicle_act rd d v).
  Proof.
    intros rd d v. unfold vehicle_act. change (v_kind (rv v)) with (v_kind v).
    destruct (v_kind v); try reflexivity; cbn [rd_net rr].
    - apply ren_controlled_act. - apply ren_mdp_act. - apply ren_idm_act. - apply ren_idm_act.
  Qed.
  Lemma ren_set_vehicles : forall rd vs, set_vehicles (rr rd) (map rv vs) = rr (set_vehicles rd vs). Proof. reflexivity. Qed.
  Lemma ren_act_one : forall d rd i, act_one d (rr rd) i = rmap rr (act_one d rd i).
  Proof.
    intros d rd i. unfold act_one. cbn [rd_vehicles rr]. rewrite nth_error_map.
    destruct (nth_error (rd_vehicles rd) i) as [v|]; [|reflexivity]. cbn [option_map].
    change (Road (rd_net rd) (map rv (rd_vehicles rd)) (map ro (rd_objects rd)) (rd_record rd) (rd_steps rd)) with (rr rd).
    rewrite ren_vehicle_act, bind_rmap, rmap_bind. apply bind_ext. intro w.
    rewrite update_map. reflexivity.
  Qed.
  Lemma ren_road_act : forall d rd, road_act d (rr rd) = rmap rr (road_act d rd).
  Proof.
    intros d rd. unfold road_act. cbn [rd_vehicles rr]. rewrite map_length.
    change (Road (rd_net rd) (map rv (rd_vehicles rd)) (map ro (rd_objects rd)) (rd_record rd) (rd_steps rd)) with (rr rd).
    apply foldM_ren. intros s i. apply ren_act_one.
  Qed.

  (** ** Motion and collisions *)
  Lemma ren_vehicle_step : forall g b v dt, vehicle_step g b (rv v) dt = rmap rv (vehicle_step g b v dt).
  Proof.
    intros g b v dt. unfold vehicle_step. change (v_kind (rv v)) with (v_kind v).
    destruct (is_idm (v_kind v)); unfold on_state_update; cbn [v_pos v_heading integrate clip_actions set_action set_pose rv set_id ren_vehicle set_timer v_timer v_speed v_steering v_accel v_crashed];
      rewrite rmap_bind; apply bind_ext; intro i; destruct b; reflexivity.
  Qed.
  Lemma ren_collision : forall v w, check_collision (rv v) (rv w) = (rv (fst (check_collision v w)), rv (snd (check_collision v w))).
  Proof.
    intros v w. unfold check_collision. change (v_id (rv w)) with (f (v_id w)). change (v_id (rv v)) with (f (v_id v)).
    rewrite eqb_ren. change (v_crashed (rv v)) with (v_crashed v).
    destruct (v_crashed v || (v_id w =? v_id v)%nat); [reflexivity|].
    change (v_collisions (rv v)) with (v_collisions v). change (v_collisions (rv w)) with (v_collisions w).
    destruct (negb (v_collisions v) || negb (v_collisions w)); [reflexivity|].
    change (is_colliding (rv v) (rv w)) with (is_colliding v w).
    destruct (is_colliding v w); reflexivity.
  Qed.
  Lemma ren_collision_obj : forall v o, check_collision_obj (rv v) (ro o) = (rv (fst (check_collision_obj v o)), ro (snd (check_collision_obj v o))).
  Proof.
    intros v o. unfold check_collision_obj. change (v_crashed (rv v)) with (v_crashed v).
    destruct (v_crashed v); [reflexivity|]. change (o_kind (ro o)) with (o_kind o).
    change (is_colliding_obj (rv v) (ro o)) with (is_colliding_obj v o). change (v_collisions (rv v)) with (v_collisions v).
    destruct (o_kind o); [destruct (negb (v_collisions v)); [reflexivity|]|]; destruct (is_colliding_obj v o); reflexivity.
  Qed.
  Lemma ren_collide_pair : forall i vs j, collide_pair i (map rv vs) j = map rv (collide_pair i vs j).
  Proof.
    intros i vs j. unfold collide_pair. rewrite !nth_error_map.
    destruct (nth_error vs i) as [v|], (nth_error vs j) as [w|]; cbn [option_map]; try reflexivity.
    rewrite ren_collision. destruct (check_collision v w) as [v' w']. cbn [fst snd]. now rewrite !update_map.
  Qed.
  Definition ren_st (st : list vehicle * list object) := (map rv (fst st), map ro (snd st)).
  Lemma ren_collide_obj : forall i st k, collide_obj i (ren_st st) k = ren_st (collide_obj i st k).
  Proof.
    intros i [vs os] k. unfold collide_obj, ren_st. cbn [fst snd]. rewrite !nth_error_map.
    destruct (nth_error vs i) as [v|], (nth_error os k) as [o|]; cbn [option_map]; try reflexivity.
    rewrite ren_collision_obj. destruct (check_collision_obj v o) as [v' o']. cbn [fst snd]. now rewrite !update_map.
  Qed.
  Lemma fold_left_ren : forall {A S T} (g : S -> T) (k : S -> A -> S) (k' : T -> A -> T) l s,
    (forall s x, k' (g s) x = g (k s x)) -> fold_left k' l (g s) = g (fold_left k l s).
  Proof. intros A S T g k k' l. induction l as [|x l IH]; intros s H; cbn; [reflexivity|]. rewrite H. now apply IH. Qed.
  Lemma ren_collide_row : forall st i, collide_row (ren_st st) i = ren_st (collide_row st i).
  Proof.
    intros [vs os] i. unfold collide_row, ren_st. cbn [fst snd]. rewrite !map_length.
    rewrite (fold_left_ren (map rv) (collide_pair i)) by (intros; apply ren_collide_pair).
    change (map rv ?a, map ro os) with (ren_st (a, os)).
    apply (fold_left_ren ren_st (collide_obj i)). intros. apply ren_collide_obj.
  Qed.
  Lemma ren_collide_all : forall vs os, collide_all (map rv vs, map ro os) = ren_st (collide_all (vs, os)).
  Proof.
    intros vs os. unfold collide_all. cbn [fst]. rewrite map_length. change (map rv vs, map ro os) with (ren_st (vs, os)).
    apply (fold_left_ren ren_st collide_row). intros. apply ren_collide_row.
  Qed.
  Lemma ren_road_step : forall rd dt, road_step (rr rd) dt = rmap rr (road_step rd dt).
  Proof.
    intros rd dt. unfold road_step. cbn [rd_vehicles rd_net rd_record rd_objects rd_steps rr].
    rewrite mapM_map. rewrite (mapM_eq _ (fun v => rmap rv (vehicle_step (rd_net rd) (rd_record rd) v dt))) by (intros; apply ren_vehicle_step).
    rewrite mapM_rmap, bind_rmap, rmap_bind. apply bind_ext. intro vs. rewrite ren_collide_all.
    destruct (collide_all (vs, rd_objects rd)) as [vs' os']. reflexivity.
  Qed.

  (** ** Regulation *)
  Lemma ren_unfreeze : forall yd g v, unfreeze yd g (rv v) = rmap rv (unfreeze yd g v).
  Proof.
    intros yd g v. unfold unfreeze. cbn [v_is_yielding v_yield_timer v_lane_index v_has_color rv set_id ren_vehicle].
    destruct (v_is_yielding v); [|reflexivity]. destruct (Rleb _ _); [|reflexivity].
    rewrite rmap_bind. apply bind_ext. intro l. destruct (v_has_color v); reflexivity.
  Qed.
  Lemma ren_conflict : forall g v w, is_conflict_possible g (rv v) (rv w) = is_conflict_possible g v w.
  Proof. reflexivity. Qed.
  Lemma ren_priorities : forall g v w, respect_priorities g (rv v) (rv w) = respect_priorities g v w.
  Proof. reflexivity. Qed.
  Lemma ren_force : forall v, force (rv v) = rv (force v).
  Proof. intro v. unfold force. change (can_be_forced (rv v)) with (can_be_forced v). destruct (can_be_forced v); reflexivity. Qed.
  Lemma ren_enforce_pair : forall g vs ij, enforce_pair g (map rv vs) ij = rmap (map rv) (enforce_pair g vs ij).
  Proof.
    intros g vs [i j]. unfold enforce_pair. cbn [fst snd]. rewrite !nth_error_map.
    destruct (nth_error vs i) as [v|], (nth_error vs j) as [w|]; cbn [option_map]; try reflexivity.
    rewrite ren_conflict, rmap_bind. apply bind_ext. intros []; [|reflexivity].
    rewrite ren_priorities, rmap_bind. apply bind_ext. intros []; rewrite !ren_force, update_map; reflexivity.
  Qed.
  Lemma ren_enforce : forall yd rd, enforce_road_rules yd (rr rd) = rmap rr (enforce_road_rules yd rd).
  Proof.
    intros yd rd. unfold enforce_road_rules. cbn [rd_net rd_vehicles rr].
    rewrite mapM_map, (mapM_eq _ (fun v => rmap rv (unfreeze yd (rd_net rd) v))) by (intros; apply ren_unfreeze).
    rewrite mapM_rmap, bind_rmap, rmap_bind. apply bind_ext. intro vs. rewrite map_length.
    rewrite (foldM_ren (map rv) (enforce_pair (rd_net rd))) by (intros; apply ren_enforce_pair).
    rewrite bind_rmap, rmap_bind. apply bind_ext. intro vs'. reflexivity.
  Qed.
  Lemma ren_regulated : forall yd rd dt, regulated_step yd (rr rd) dt = rmap rr (regulated_step yd rd dt).
  Proof.
    intros yd rd dt. unfold regulated_step. change (rd_steps (rr rd)) with (rd_steps rd).
    change (set_steps (rr rd) (rd_steps rd + 1)) with (rr (set_steps rd (rd_steps rd + 1))).
    destruct (Reqb dt 0); [reflexivity|]. destruct (regulation_period dt =? 0)%Z; [reflexivity|].
    change (rd_steps (rr (set_steps rd (rd_steps rd + 1)))) with (rd_steps (set_steps rd (rd_steps rd + 1))).
    destruct (_ =? 0)%Z.
    - rewrite ren_enforce, bind_rmap, rmap_bind. apply bind_ext. intro rd2. apply ren_road_step.
    - cbn [bind]. apply ren_road_step.
  Qed.

  (** ** Actions *)
  Lemma ren_command : forall rd d v c, vehicle_command (rr rd) d (rv v) c = rmap rv (vehicle_command rd d v c).
  Proof.
    intros rd d v c. unfold vehicle_command. change (v_kind (rv v)) with (v_kind v).
    destruct (v_kind v), c; try reflexivity; cbn [rd_net rr];
      first [apply ren_controlled_act | apply ren_mdp_act | apply ren_idm_act].
  Qed.
  Lemma ren_rank : forall id vs, rank_of (f id) (map rv vs) = rank_of id vs.
  Proof.
    intros id vs. induction vs as [|v vs IH]; cbn [map rank_of]; [reflexivity|].
    change (v_id (rv v)) with (f (v_id v)). rewrite eqb_ren, IH. reflexivity.
  Qed.
  Lemma ren_command_vehicle : forall rd d id c, command_vehicle (rr rd) d (f id) c = rmap rr (command_vehicle rd d id c).
  Proof.
    intros rd d id c. unfold command_vehicle. cbn [rd_vehicles rr]. rewrite ren_rank.
    destruct (rank_of id (rd_vehicles rd)) as [k|]; [|reflexivity]. rewrite nth_error_map.
    destruct (nth_error (rd_vehicles rd) k) as [v|]; [|reflexivity]. cbn [option_map].
    change (Road (rd_net rd) (map rv (rd_vehicles rd)) (map ro (rd_objects rd)) (rd_record rd) (rd_steps rd)) with (rr rd).
    rewrite ren_command, bind_rmap, rmap_bind. apply bind_ext. intro w. rewrite update_map. reflexivity.
  Qed.
  Lemma ren_act_single : forall s d rd id a, act_single s d (rr rd) (f id) a = rmap rr (act_single s d rd id a).
  Proof. intros s d rd id a. unfold act_single. rewrite rmap_bind. apply bind_ext. intro c. apply ren_command_vehicle. Qed.
  Lemma ren_act_multi : forall s d d' ids acts rd, (forall i, d' (f i) = d i) ->
    act_multi s d' (rr rd) (map f ids) acts = rmap rr (act_multi s d rd ids acts).
  Proof.
    intros s d d' ids. induction ids as [|i ids IH]; intros [|a acts] rd H; cbn [map act_multi]; try reflexivity.
    rewrite H, ren_act_single, bind_rmap, rmap_bind. apply bind_ext. intro rd1. now apply IH.
  Qed.
  Lemma ren_action : forall t d d' rd ids a, (forall i, d' (f i) = d i) ->
    action_act t d' (rr rd) (map f ids) a = rmap rr (action_act t d rd ids a).
  Proof.
    intros [s|s] d d' rd ids a H; cbn [action_act].
    - destruct ids as [|i ids]; cbn [map].
      + rewrite rmap_bind. now apply bind_ext.
      + rewrite H. apply ren_act_single.
    - destruct a; try reflexivity. now apply ren_act_multi.
  Qed.

  (** ** Environments *)
  Definition terminal_blind (sc : scenario) : Prop := forall e, sc_terminal sc (re e) = sc_terminal sc e.
  Definition same_draws (o o' : oracle) : Prop :=
    (forall t i, o_act o' t (f i) = o_act o t i) /\ (forall t, o_road o' t = o_road o t).

  Lemma ren_scenario_step : forall sc rd dt, scenario_step sc (rr rd) dt = rmap rr (scenario_step sc rd dt).
  Proof. intros sc rd dt. unfold scenario_step. destruct (sc_regulated sc); [apply ren_regulated|apply ren_road_step]. Qed.
  Lemma ren_set_road : forall e rd, set_road (re e) (rr rd) = re (set_road e rd). Proof. reflexivity. Qed.
  Lemma ren_forward : forall sc o o' e a, same_draws o o' -> forward sc o' (re e) a = rmap re (forward sc o e a).
  Proof.
    intros sc o o' e a [H _]. unfold forward. destruct a as [x|]; [|reflexivity].
    change (e_time (re e)) with (e_time e). destruct (negb (sc_manual sc) && _); [|reflexivity].
    change (e_road (re e)) with (rr (e_road e)). change (e_controlled (re e)) with (map f (e_controlled e)).
    rewrite (ren_action (sc_action sc) (o_act o (e_time e))) by (intros; apply H).
    rewrite bind_rmap, rmap_bind. apply bind_ext. intro rd. reflexivity.
  Qed.
  Lemma ren_frame : forall sc o o' e, same_draws o o' -> frame sc o' (re e) = rmap re (frame sc o e).
  Proof.
    intros sc o o' e [_ H]. unfold frame. change (e_time (re e)) with (e_time e). rewrite H.
    change (e_road (re e)) with (rr (e_road e)). rewrite ren_road_act, bind_rmap, rmap_bind. apply bind_ext. intro rd1.
    rewrite ren_scenario_step, bind_rmap, rmap_bind. apply bind_ext. intro rd2. reflexivity.
  Qed.
  Lemma ren_simulate_frames : forall sc o o', same_draws o o' -> terminal_blind sc ->
    forall n e a, simulate_frames sc o' n (re e) a = rmap re (simulate_frames sc o n e a).
  Proof.
    intros sc o o' H T. induction n as [|n IH]; intros e a; cbn [simulate_frames]; [reflexivity|].
    rewrite (ren_forward sc o o') by exact H. rewrite bind_rmap, rmap_bind. apply bind_ext. intro e1.
    rewrite (ren_frame sc o o') by exact H. rewrite bind_rmap, rmap_bind. apply bind_ext. intro e2.
    change (e_done (re e2)) with (e_done e2). destruct (e_done e2); [reflexivity|].
    rewrite T, rmap_bind. apply bind_ext. intros []; [reflexivity|apply IH].
  Qed.
  Lemma ren_env_step : forall sc o o' e a, same_draws o o' -> terminal_blind sc ->
    env_step sc o' (re e) a = rmap re (env_step sc o e a).
  Proof.
    intros sc o o' e a H T. unfold env_step. cbn [e_controlled ren_env].
    destruct (e_controlled e) as [|i ids]; [reflexivity|]. cbn [map]. unfold simulate.
    destruct (Reqb (sc_policy sc) 0); [reflexivity|].
    change (count_step (re e)) with (re (count_step e)). now apply ren_simulate_frames.
  Qed.

  (** ** Ends of episodes and rewards *)
  Lemma ren_by_id : forall rd id, vehicle_by_id (rr rd) (f id) = option_map rv (vehicle_by_id rd id).
  Proof.
    intros rd id. unfold vehicle_by_id. cbn [rd_vehicles rr]. induction (rd_vehicles rd) as [|v vs IH]; cbn [map find]; [reflexivity|].
    change (v_id (rv v)) with (f (v_id v)). rewrite eqb_ren. destruct (v_id v =? id)%nat; [reflexivity|exact IH].
  Qed.
  Lemma ren_ego : forall e, ego (re e) = rmap rv (ego e).
  Proof.
    intro e. unfold ego. cbn [e_controlled ren_env e_road]. destruct (e_controlled e) as [|i ids]; [reflexivity|]. cbn [map].
    rewrite ren_by_id. destruct (vehicle_by_id (e_road e) i); reflexivity.
  Qed.
  Lemma ren_controlled : forall e, controlled (re e) = map rv (controlled e).
  Proof.
    intro e. unfold controlled. cbn [e_controlled ren_env e_road]. induction (e_controlled e) as [|i ids IH]; [reflexivity|].
    cbn [map flat_map]. rewrite ren_by_id, IH, map_app. destruct (vehicle_by_id (e_road e) i); reflexivity.
  Qed.
  Lemma blind_highway : forall c sim pol m a, terminal_blind (highway_scenario c sim pol m a).
  Proof.
    intros c sim pol m a e. cbn [sc_terminal highway_scenario]. unfold highway_terminal. rewrite ren_ego, bind_rmap. apply bind_ext. reflexivity.
  Qed.
  Lemma blind_roundabout : forall d sim pol m a, terminal_blind (roundabout_scenario d sim pol m a).
  Proof.
    intros d sim pol m a e. cbn [sc_terminal roundabout_scenario]. unfold roundabout_terminal. rewrite ren_ego, bind_rmap. apply bind_ext. reflexivity.
  Qed.
  Lemma blind_merge : forall sim pol m a, terminal_blind (merge_scenario sim pol m a).
  Proof.
    intros sim pol m a e. cbn [sc_terminal merge_scenario]. unfold merge_terminal. rewrite ren_ego, bind_rmap. apply bind_ext. reflexivity.
  Qed.
  Lemma blind_two_way : forall sim pol m a, terminal_blind (two_way_scenario sim pol m a).
  Proof.
    intros sim pol m a e. cbn [sc_terminal two_way_scenario]. unfold two_way_terminal. rewrite ren_ego, bind_rmap. apply bind_ext. reflexivity.
  Qed.
  Lemma existsb_map : forall {A B} (g : A -> B) p l, existsb p (map g l) = existsb (fun x => p (g x)) l.
  Proof. induction l as [|x l IH]; cbn; [reflexivity|]. now rewrite IH. Qed.
  Lemma allM_map : forall {A B} (g : A -> B) p l, allM p (map g l) = allM (fun x => p (g x)) l.
  Proof. induction l as [|x l IH]; cbn; [reflexivity|]. now rewrite IH. Qed.
  Lemma blind_intersection : forall c sim pol m a, terminal_blind (intersection_scenario c sim pol m a).
  Proof.
    intros c sim pol m a e. cbn [sc_terminal intersection_scenario]. unfold intersection_terminal.
    rewrite ren_controlled, existsb_map, allM_map. reflexivity.
  Qed.
  Lemma ren_goal_rewards : forall c goal vs, goal_rewards c goal (map rv vs) = goal_rewards c goal vs.
  Proof. intros c goal vs. unfold goal_rewards. now rewrite map_map. Qed.
  Lemma blind_parking : forall c g d sim pol m a, terminal_blind (parking_scenario c g d sim pol m a).
  Proof.
    intros c g d sim pol m a e. cbn [sc_terminal parking_scenario]. unfold parking_terminal.
    rewrite ren_controlled, existsb_map, ren_goal_rewards. reflexivity.
  Qed.
  Lemma blind_summon : forall g d sim pol m a, terminal_blind (summon_scenario g d sim pol m a).
  Proof.
    intros g d sim pol m a e. cbn [sc_terminal summon_scenario]. unfold summon_terminal.
    rewrite ren_ego, bind_rmap. apply bind_ext. intro v. unfold parking_terminal.
    rewrite ren_controlled, existsb_map, ren_goal_rewards. reflexivity.
  Qed.

  Lemma ren_reward_highway : forall c e, highway_env_reward c (re e) = highway_env_reward c e.
  Proof. intros c e. unfold highway_env_reward. rewrite ren_ego, bind_rmap. apply bind_ext. reflexivity. Qed.
  Lemma ren_reward_roundabout : forall cg e a, roundabout_env_reward cg (re e) a = roundabout_env_reward cg e a.
  Proof. intros cg e a. unfold roundabout_env_reward. rewrite ren_ego, bind_rmap. apply bind_ext. reflexivity. Qed.
  Lemma ren_reward_merge : forall e a, merge_env_reward (re e) a = merge_env_reward e a.
  Proof.
    intros e a. unfold merge_env_reward. rewrite ren_ego, bind_rmap. apply bind_ext. intro v. unfold merge_reward.
    cbn [v_lane_index v_kind v_speed_index v_grid v_crashed ren_vehicle set_id e_road ren_env rd_vehicles ren_road].
    apply bind_ext. intro l. destruct (v_kind v); try reflexivity. apply bind_ext. intro sp. rewrite foldM_map. reflexivity.
  Qed.
  Lemma ren_reward_two_way : forall e, two_way_env_reward (re e) = two_way_env_reward e.
  Proof. intros e. unfold two_way_env_reward. rewrite ren_ego, bind_rmap. apply bind_ext. reflexivity. Qed.
  Lemma ren_reward_intersection : forall c e, intersection_reward c (re e) = intersection_reward c e.
  Proof. intros c e. unfold intersection_reward. rewrite ren_controlled, mapM_map. cbn [e_controlled ren_env]. rewrite map_length. reflexivity. Qed.
  Lemma ren_reward_parking : forall c goal e, parking_reward c goal (controlled (re e)) = parking_reward c goal (controlled e).
  Proof. intros c goal e. unfold parking_reward. now rewrite ren_controlled, ren_goal_rewards. Qed.

  (** ** Observations *)
  Lemma filter_map : forall {A B} (g : A -> B) p l, filter p (map g l) = map g (filter (fun x => p (g x)) l).
  Proof. induction l as [|x l IH]; cbn; [reflexivity|]. rewrite IH. destruct (p (g x)); reflexivity. Qed.
  Lemma filter_eq : forall {A} (p q : A -> bool) l, (forall x, p x = q x) -> filter p l = filter q l.
  Proof. intros A p q l H. induction l as [|x l IH]; cbn; [reflexivity|]. now rewrite H, IH. Qed.
  Lemma sort_map : forall {A B} (g : A -> B) k k' l, (forall x, k' (g x) = k x) -> sort_by k' (map g l) = map g (sort_by k l).
  Proof.
    intros A B g k k' l H. induction l as [|x l IH]; cbn; [reflexivity|]. rewrite IH. generalize (sort_by k l) as m.
    induction m as [|y m IHm]; cbn; [reflexivity|]. rewrite !H. destruct (Rleb (k x) (k y)); [reflexivity|].
    cbn. now rewrite IHm.
  Qed.
  Lemma ren_close : forall rd v d n b, close_vehicles_to (rr rd) (rv v) d n b = rmap (map rv) (close_vehicles_to rd v d n b).
  Proof.
    intros rd v d n b. unfold close_vehicles_to. cbn [rd_net ren_road v_lane_index ren_vehicle set_id rd_vehicles].
    change (set_id v (f (v_id v))) with (rv v). rewrite rmap_bind. apply bind_ext. intro l. cbn [rmap].
    rewrite filter_map. rewrite (filter_eq _ (close_filter v l d b)).
    2:{ intro w. unfold close_filter. change (v_id (rv w)) with (f (v_id w)). change (v_id (rv v)) with (f (v_id v)). now rewrite eqb_ren. }
    rewrite (sort_map rv (fun w => Rabs (lane_distance l (v_pos v) (v_pos w)))) by reflexivity.
    destruct n as [k|]; [|reflexivity]. destruct (k =? 0)%Z; [reflexivity|].
    unfold py_take. rewrite map_length. destruct (0 <=? k)%Z; now rewrite firstn_map.
  Qed.
  Lemma ren_kin_rows : forall c p rd v, kin_rows c p (rr rd) (rv v) = kin_rows c p rd v.
  Proof.
    intros c p rd v. unfold kin_rows. rewrite ren_close. apply bind_ext. intro d. apply bind_ext. intro first.
    rewrite bind_rmap. apply bind_ext. intros [|w ws]; [reflexivity|].
    change (map rv (w :: ws)) with (rv w :: map rv ws).
    assert (E : py_from (- kc_count c + 1) (rv w :: map rv ws) = map rv (py_from (- kc_count c + 1) (w :: ws))).
    { change (rv w :: map rv ws) with (map rv (w :: ws)). unfold py_from. rewrite map_length.
      destruct (0 <=? _)%Z; now rewrite skipn_map. }
    rewrite E. destruct (py_from (- kc_count c + 1) (w :: ws)) as [|x xs]; [reflexivity|].
    transitivity (do rows <- mapM (fun w0 => do d0 <- to_dict (rd_net rd) w0 (if kc_absolute c then None else Some (rv v)) (kc_intentions c); select (kin_features c) d0) (map rv (x :: xs)); Ok (first :: rows)); [reflexivity|].
    rewrite mapM_map. destruct (kc_absolute c); reflexivity.
  Qed.
  Lemma ren_kin : forall c smax p sh r rd v, kin_observe c smax p sh r (option_map rr rd) (rv v) = kin_observe c smax p sh r rd v.
  Proof.
    intros c smax p sh r [rd|] v; [|reflexivity]. cbn [option_map]. unfold kin_observe. rewrite ren_kin_rows. reflexivity.
  Qed.
  Lemma ren_occ : forall c smax r rd v, occ_observe c smax r (option_map rr rd) (rv v) = occ_observe c smax r rd v.
  Proof.
    intros c smax r [rd|] v; [|reflexivity]. cbn [option_map]. unfold occ_observe. cbn [rd_vehicles rd_net ren_road].
    rewrite mapM_map. reflexivity.
  Qed.
  Lemma ren_ttc : forall rd ev v tq h, compute_ttc_grid (rr rd) (rv ev) (rv v) tq h = compute_ttc_grid rd ev v tq h.
  Proof.
    intros rd ev v tq h. unfold compute_ttc_grid.
    cbn [v_lane_index v_kind v_grid ren_vehicle set_id rd_net ren_road rd_vehicles].
    change (set_id v (f (v_id v))) with (rv v).
    apply bind_ext. intro ls. destruct (v_kind v); try reflexivity.
    destruct (Reqb tq 0); [reflexivity|]. destruct (_ || _)%bool; [reflexivity|].
    apply foldM_eq. intros g k. rewrite foldM_map. apply foldM_eq. intros g' w. unfold mark_vehicle.
    change (v_id (rv w)) with (f (v_id w)). change (v_id (rv v)) with (f (v_id v)). rewrite eqb_ren. reflexivity.
  Qed.
  Lemma ren_available : forall sc e, get_available_actions sc (re e) = get_available_actions sc e.
  Proof.
    intros sc e. unfold get_available_actions. destruct (sc_action sc) as [[lo la|c]|s]; try reflexivity.
    apply bind_ext. intro t. apply bind_ext. intro idle. rewrite ren_ego, bind_rmap. apply bind_ext. intro v.
    cbn [v_lane_index v_speed_index v_grid ren_vehicle set_id e_road ren_env rd_net ren_road]. reflexivity.
  Qed.
End Rename.

(** ** Shifting all the identities *)
Lemma shift_inj : forall n i j, Nat.add n i = Nat.add n j -> i = j.
Proof. intros. lia. Qed.
Lemma list_max_shift : forall n l, l <> [] -> list_max (map (Nat.add n) l) = (n + list_max l)%nat.
Proof.
  intros n l. induction l as [|x l IH]; intro H; [congruence|]. cbn [map list_max fold_right].
  destruct l as [|y l]; [cbn; lia|]. unfold list_max in IH. rewrite IH by discriminate. cbn [fold_right]. lia.
Qed.
Lemma shift_fresh : forall n rd ctl, (ctl <> [] \/ rd_vehicles rd <> []) ->
  fresh_id (ren_road (Nat.add n) rd) (map (Nat.add n) ctl) = (n + fresh_id rd ctl)%nat.
Proof.
  intros n rd ctl H. unfold fresh_id. cbn [rd_vehicles rd_objects ren_road]. rewrite !map_map.
  change (map (fun x => v_id (ren_vehicle (Nat.add n) x)) (rd_vehicles rd)) with (map (fun x => (n + v_id x)%nat) (rd_vehicles rd)).
  change (map (fun x => o_id (ren_object (Nat.add n) x)) (rd_objects rd)) with (map (fun x => (n + o_id x)%nat) (rd_objects rd)).
  rewrite <- (map_map v_id (Nat.add n)), <- (map_map o_id (Nat.add n)), <- !map_app. rewrite list_max_shift; [lia|].
  intro E. apply app_eq_nil in E as [E1 E2]. apply app_eq_nil in E2 as [_ E3].
  destruct H as [H|H]; [congruence|]. destruct (rd_vehicles rd); [congruence|discriminate].
Qed.
Lemma ren_plan : forall f g ord v dst, plan_route_to g ord (ren_vehicle f v) dst = rmap (ren_vehicle f) (plan_route_to g ord v dst).
Proof.
  intros f g ord v dst. unfold plan_route_to. cbn [v_lane_index ren_vehicle set_id].
  destruct (shortest_path g ord _ dst) as [[|n p]|[]]; reflexivity.
Qed.
Lemma rmap_Ok : forall {A B} (g : A -> B) x, rmap g (Ok x) = Ok (g x). Proof. reflexivity. Qed.
Lemma new_idm_shift : forall f g k par id p h sp tl ts rt en tm,
  new_idm g k par (f id) p h sp tl ts rt en tm = rmap (ren_vehicle f) (new_idm g k par id p h sp tl ts rt en tm).
Proof.
  intros. unfold new_idm, new_controlled, new_vehicle. destruct (get_closest_lane_index g p (Some h)); reflexivity.
Qed.
Lemma shift_spawn : forall cs c d j ctl lo pd sd pr st rd n, ctl <> [] ->
  spawn cs c d j (map (Nat.add n) ctl) lo pd sd pr st (ren_road (Nat.add n) rd) =
  rmap (ren_road (Nat.add n)) (spawn cs c d j ctl lo pd sd pr st rd).
Proof.
  intros cs c d j ctl lo pd sd pr st rd n H. unfold spawn. destruct (Rltb pr _); [reflexivity|].
  change (rd_net (ren_road (Nat.add n) rd)) with (rd_net rd). rewrite shift_fresh by now left.
  unfold traffic_on_lane, new_traffic. rewrite !rmap_bind.
  match goal with |- context [get_lane ?g ?i] => destruct (get_lane g i) as [l|]; cbn [bind]; [|reflexivity] end.
  rewrite new_idm_shift. rewrite bind_rmap. apply bind_ext. intro v.
  cbn [rd_vehicles ren_road]. rewrite existsb_map. 
  change (fun x => Rltb (vnorm (vsub (v_pos (ren_vehicle (Nat.add n) x)) (v_pos (ren_vehicle (Nat.add n) v)))) 15)
    with (fun x => Rltb (vnorm (vsub (v_pos x) (v_pos v))) 15).
  destruct (existsb _ (rd_vehicles rd)); [reflexivity|].
  rewrite ren_plan, bind_rmap, rmap_bind. apply bind_ext. intro w. cbn [rmap]. f_equal.
  unfold add_vehicle. cbn [rd_vehicles ren_road set_vehicles]. unfold ren_road. cbn [rd_vehicles rd_net rd_objects rd_record rd_steps set_vehicles].
  rewrite map_app. cbn [map]. unfold randomize. destruct c; reflexivity.
Qed.
Lemma shift_clear : forall n ctl rd, clear_vehicles (map (Nat.add n) ctl) (ren_road (Nat.add n) rd) = rmap (ren_road (Nat.add n)) (clear_vehicles ctl rd).
Proof.
  intros n ctl rd. unfold clear_vehicles. cbn [rd_net rd_vehicles ren_road].
  assert (E : filterM (clear_keep (rd_net rd) (map (Nat.add n) ctl)) (map (ren_vehicle (Nat.add n)) (rd_vehicles rd)) =
              rmap (map (ren_vehicle (Nat.add n))) (filterM (clear_keep (rd_net rd) ctl) (rd_vehicles rd))).
  { induction (rd_vehicles rd) as [|v vs IH]; cbn [map filterM]; [reflexivity|].
    assert (K : clear_keep (rd_net rd) (map (Nat.add n) ctl) (ren_vehicle (Nat.add n) v) = clear_keep (rd_net rd) ctl v).
    { unfold clear_keep. rewrite existsb_map. cbn [v_id ren_vehicle set_id].
      assert (Q : existsb (fun x => Nat.eqb (n + v_id v) (n + x)) ctl = existsb (Nat.eqb (v_id v)) ctl).
      { clear. induction ctl as [|x l IHl]; cbn [existsb]; [reflexivity|]. rewrite IHl.
        rewrite (eqb_ren (Nat.add n) (shift_inj n) (v_id v) x). reflexivity. }
      rewrite Q. reflexivity. }
    rewrite K, rmap_bind. apply bind_ext. intro b. rewrite IH, bind_rmap, rmap_bind. apply bind_ext. intro l.
    destruct b; reflexivity. }
  rewrite E, bind_rmap, rmap_bind. apply bind_ext. intro vs. reflexivity.
Qed.
Lemma env_step_controlled : forall sc o e a e1, env_step sc o e a = Ok e1 -> e_controlled e <> [].
Proof. intros sc o e a e1. unfold env_step. destruct (e_controlled e); congruence. Qed.
Lemma simulate_keeps_ctl : forall sc o n e a e1, simulate_frames sc o n e a = Ok e1 -> e_controlled e1 = e_controlled e.
Proof.
  intros sc o. induction n as [|n IH]; intros e a e1 H; cbn [simulate_frames] in H; [now injection H as ->|].
  destruct (forward sc o e a) as [e2|] eqn:F; [|discriminate]. cbn [bind] in H.
  assert (C2 : e_controlled e2 = e_controlled e).
  { unfold forward in F. destruct a as [x|]; [|now injection F as <-].
    destruct (negb (sc_manual sc) && _); [|now injection F as <-].
    destruct (action_act _ _ _ _ _); [|discriminate]. cbn [bind] in F. now injection F as <-. }
  destruct (frame sc o e2) as [e3|] eqn:F3; [|discriminate]. cbn [bind] in H.
  assert (C3 : e_controlled e3 = e_controlled e2).
  { unfold frame in F3. destruct (road_act _ _); [|discriminate]. cbn [bind] in F3.
    destruct (scenario_step _ _ _); [|discriminate]. cbn [bind] in F3. now injection F3 as <-. }
  destruct (e_done e3).
  - injection H as <-. congruence.
  - destruct (sc_terminal sc e3) as [b|]; [|discriminate]. cbn [bind] in H. destruct b.
    + injection H as <-. congruence.
    + rewrite (IH e3 a e1 H). congruence.
Qed.
Lemma env_step_keeps_ctl : forall sc o e a e1, env_step sc o e a = Ok e1 -> e_controlled e1 = e_controlled e.
Proof.
  intros sc o e a e1 H. unfold env_step in H. destruct (e_controlled e) eqn:C; [discriminate|].
  unfold simulate in H. destruct (Reqb (sc_policy sc) 0); [discriminate|].
  apply simulate_keeps_ctl in H. rewrite H. exact C.
Qed.
Lemma ren_seen : forall f cs cf s e, seen_env cs cf s (ren_env f e) = ren_env f (seen_env cs cf s e).
Proof.
  intros f cs cf s e. unfold seen_env, set_road, set_vehicles, ren_env, ren_road.
  cbn [e_road e_controlled e_time e_steps e_done rd_net rd_vehicles rd_objects rd_record rd_steps].
  rewrite !map_map. do 2 f_equal. apply map_ext. intro v. unfold look_up. cbn [v_kind ren_vehicle set_id].
  destruct (v_kind v); try reflexivity. destruct (has_own_grid s); reflexivity.
Qed.
Lemma shift_scene_step : forall n cs cf s sc o o' d e a, same_draws (Nat.add n) o o' -> terminal_blind (Nat.add n) sc ->
  scene_step cs cf s sc o' d (ren_env (Nat.add n) e) a = rmap (ren_env (Nat.add n)) (scene_step cs cf s sc o d e a).
Proof.
  intros n cs cf s sc o o' d e a H T.
  assert (E : env_step sc o' (ren_env (Nat.add n) e) a = rmap (ren_env (Nat.add n)) (env_step sc o e a)).
  { apply ren_env_step; auto. apply shift_inj. }
  destruct s; cbn [scene_step]; try exact E.
  unfold intersection_step. rewrite E. destruct (env_step sc o e a) as [e1|x] eqn:S1; [|reflexivity]. cbn [rmap bind].
  assert (C : e_controlled e1 <> []).
  { rewrite (env_step_keeps_ctl _ _ _ _ _ S1). eapply env_step_controlled; eauto. }
  change (e_controlled (ren_env (Nat.add n) e1)) with (map (Nat.add n) (e_controlled e1)).
  change (e_road (ren_env (Nat.add n) e1)) with (ren_road (Nat.add n) (e_road e1)).
  rewrite shift_clear, bind_rmap, rmap_bind. apply bind_ext. intro rd.
  rewrite shift_spawn by exact C. rewrite bind_rmap, rmap_bind. apply bind_ext. intro rd2. reflexivity.
Qed.
Lemma blind_reset : forall f cs cf s d cs' sc e, (forall i j, f i = f j -> i = j) -> reset cs cf s d = Ok (cs', sc, e) -> terminal_blind f sc.
Proof.
  intros f cs cf s d cs' sc e I H. unfold reset in H. destruct s.
  - destruct (highway_reset _ _ _ _) as [x|]; [|discriminate]. cbn [bind] in H.
    assert (sc = highway_scenario (hs_cfg h) (INR (cf_simulation cf)) (cf_policy cf) (cf_manual cf) (cf_action cf)) as -> by congruence. now apply blind_highway.
  - destruct (two_way_reset _ _ _) as [x|]; [|discriminate]. cbn [bind] in H.
    assert (sc = two_way_scenario (INR (cf_simulation cf)) (cf_policy cf) (cf_manual cf) (cf_action cf)) as -> by congruence. now apply blind_two_way.
  - destruct (merge_reset _ _) as [x|]; [|discriminate]. cbn [bind] in H.
    assert (sc = merge_scenario (INR (cf_simulation cf)) (cf_policy cf) (cf_manual cf) (cf_action cf)) as -> by congruence. now apply blind_merge.
  - destruct (parking_reset _ _ _ _) as [[g x]|]; [|discriminate]. cbn [bind] in H.
    assert (sc = parking_scenario parking_compute g duration (INR (cf_simulation cf)) (cf_policy cf) (cf_manual cf) (cf_action cf)) as -> by congruence. now apply blind_parking.
  - destruct (summon_reset _ _ _ _) as [[g x]|]; [|discriminate]. cbn [bind] in H.
    assert (sc = summon_scenario g duration (INR (cf_simulation cf)) (cf_policy cf) (cf_manual cf) (cf_action cf)) as -> by congruence. now apply blind_summon.
  - destruct (roundabout_reset _ _ _ _) as [[g x]|]; [|discriminate]. cbn [bind] in H.
    assert (sc = roundabout_scenario duration (INR (cf_simulation cf)) (cf_policy cf) (cf_manual cf) (cf_action cf)) as -> by congruence. now apply blind_roundabout.
  - destruct (intersection_reset _ _ _ _ _ _) as [[g x]|]; [|discriminate]. cbn [bind] in H.
    assert (sc = intersection_scenario c (INR (cf_simulation cf)) (cf_policy cf) (cf_manual cf) (cf_action cf)) as -> by congruence. now apply blind_intersection.
Qed.
