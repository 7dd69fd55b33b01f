(** C43-C45: action types. *)
From Verif Require Import Prelude M_Utils M_Lane M_Road M_Vehicle M_Kinematics M_Control M_Behavior M_Regulation M_Action M_Env
  S_Geometry S_Road S_Vehicle S_Control S_Behavior S_Regulation S_Env P_Base P_Utils P_Lane P_Graph P_Bfs P_Query P_Kin P_Crash P_Control P_Behavior P_Traffic P_Regulation P_Action
  T_Kin T_Control T_Behavior.
From Coq Require Import Lia Lra.
Open Scope R_scope.

(** ** C43: encodings of the meta-actions *)
(** Neither axis is refused; otherwise the indices are 0 .. n-1 in order, an index
    means a label exactly if the label has that index, and the labels are exactly
    IDLE and those of the enabled axes. *)
Theorem C43_needs_an_axis : meta_table false false = Err ValueError /\
  (forall lo la, (lo = true \/ la = true) -> exists t, meta_table lo la = Ok t).
Proof. split; [reflexivity|]. intros [] [] [H|H]; try discriminate; cbn; eauto. Qed.
Print Assumptions C43_needs_an_axis.
Theorem C43_bijective : forall lo la t, meta_table lo la = Ok t ->
  map fst t = map Z.of_nat (seq 0 (List.length t)) /\
  List.length t = (if lo && la then 5%nat else 3%nat) /\
  (forall k m, action_of t k = Ok m <-> index_of t m = Ok k) /\
  (forall k, (0 <= k < Z.of_nat (List.length t))%Z <-> exists m, action_of t k = Ok m) /\
  (forall m, (exists k, index_of t m = Ok k) <->
     match m with IDLE => True | FASTER | SLOWER => lo = true | LANE_LEFT | LANE_RIGHT => la = true end).
Proof.
  intros lo la t E. pose proof (table_inverse lo la t E) as Inv.
  assert (L : map fst t = map Z.of_nat (seq 0 (List.length t)) /\ List.length t = (if lo && la then 5%nat else 3%nat)).
  { unfold meta_table in E. destruct lo, la; cbn in E; try discriminate; injection E as <-; split; reflexivity. }
  split; [apply L|]. split; [apply L|]. split; [exact Inv|]. split.
  - intros k. rewrite (proj2 L). split.
    + intros H. assert (Hk : (k = 0 \/ k = 1 \/ k = 2 \/ k = 3 \/ k = 4)%Z) by (destruct (lo && la); lia).
      unfold meta_table in E. destruct lo, la; cbn in E, H; try discriminate; injection E as <-;
      destruct Hk as [->|[->|[->|[->| ->]]]]; try lia; cbn; eauto.
    + intros [m H]. apply Inv in H. unfold meta_table in E. destruct lo, la; cbn in E; try discriminate; injection E as <-; destruct m; cbn in H; try discriminate; injection H as <-; cbn; lia.
  - intros m. unfold meta_table in E. destruct lo, la; cbn in E; try discriminate; injection E as <-; destruct m; cbn; split; try tauto; try discriminate; eauto; intros [k H]; discriminate.
Qed.
Print Assumptions C43_bijective.
Theorem C43_default_indices : exists t, meta_table true true = Ok t /\ action_of t 0 = Ok LANE_LEFT /\ action_of t 1 = Ok IDLE /\
  action_of t 2 = Ok LANE_RIGHT /\ action_of t 3 = Ok FASTER /\ action_of t 4 = Ok SLOWER.
Proof. eexists. split; [reflexivity|]. cbn. tauto. Qed.
Print Assumptions C43_default_indices.
(** IDLE has index 1 in every mode, but other labels move: FASTER is 3 with both
    axes and 2 with the longitudinal axis only. *)
Theorem C43_idle_is_one : forall lo la t, meta_table lo la = Ok t -> action_of t 1 = Ok IDLE.
Proof. intros lo la t E. unfold meta_table in E. destruct lo, la; cbn in E; try discriminate; injection E as <-; reflexivity. Qed.
Print Assumptions C43_idle_is_one.
(** A label that is not in the mode's table raises KeyError. *)
Theorem C43_unknown_raises : forall lo la t k, meta_table lo la = Ok t -> ~ (0 <= k < Z.of_nat (List.length t))%Z -> action_of t k = Err KeyError.
Proof.
  intros lo la t k E H. destruct (action_of t k) as [m|x] eqn:A.
  - destruct (C43_bijective lo la t E) as (_ & _ & _ & Q & _). elim H. apply Q. eauto.
  - unfold action_of in A. destruct (find _ t); congruence.
Qed.
Print Assumptions C43_unknown_raises.

(** ** C44: continuous actions *)
(** Both axes: first the acceleration, then the steering, each mapped affinely from
    [-1, 1] to its range, after clipping to [-1, 1] if enabled. *)
Definition clipped (c : continuous) (x : R) : R := if ca_clip c then Rmin (Rmax x (-1)) 1 else x.
Theorem C44_affine : forall c x0 x1,
  (ca_longitudinal c = true -> ca_lateral c = true ->
     single_command (Continuous c) (ActVec [x0; x1]) = Ok (Controls (affine (ca_acceleration c) (clipped c x0)) (affine (ca_steering c) (clipped c x1)))) /\
  (ca_longitudinal c = true -> ca_lateral c = false ->
     single_command (Continuous c) (ActVec [x0]) = Ok (Controls (affine (ca_acceleration c) (clipped c x0)) 0)) /\
  (ca_longitudinal c = false -> ca_lateral c = true ->
     single_command (Continuous c) (ActVec [x0]) = Ok (Controls 0 (affine (ca_steering c) (clipped c x0)))).
Proof.
  intros c x0 x1. cbn [single_command]. unfold continuous_command, clipped, Rclip. split; [|split]; intros -> ->; cbn [andb];
  destruct (ca_clip c); cbn [map nth_error bind]; rewrite ?lmap_affine; cbn [bind]; rewrite ?lmap_affine; reflexivity.
Qed.
Print Assumptions C44_affine.
Theorem C44_ends : forall r, affine r (-1) = fst r /\ affine r 0 = (fst r + snd r) / 2 /\ affine r 1 = snd r.
Proof. intros r. unfold affine. lra. Qed.
Print Assumptions C44_ends.
(** With clipping every real input stays within the ranges. *)
Theorem C44_clip_in_range : forall c x cmd, ca_clip c = true -> fst (ca_acceleration c) <= snd (ca_acceleration c) ->
  fst (ca_steering c) <= snd (ca_steering c) -> single_command (Continuous c) (ActVec x) = Ok cmd ->
  exists ac st, cmd = Controls ac st /\
    (if ca_longitudinal c then fst (ca_acceleration c) <= ac <= snd (ca_acceleration c) else ac = 0) /\
    (if ca_lateral c || negb (ca_longitudinal c) then fst (ca_steering c) <= st <= snd (ca_steering c) else st = 0).
Proof.
  intros c x cmd Cl Ra Rs. cbn [single_command]. unfold continuous_command. rewrite Cl. set (y := map _ x).
  assert (B : forall k a, nth_error y k = Some a -> -1 <= a <= 1).
  { intros k a H. apply nth_error_In in H. apply in_map_iff in H as (b & <- & _). apply Rclip_bounds. lra. }
  clearbody y. intros E. destruct (ca_longitudinal c), (ca_lateral c); cbn [andb orb negb] in *.
  - apply bind_ok in E as (a0 & E0 & E). rewrite lmap_affine in E. cbn [bind] in E. apply bind_ok in E as (a1 & E1 & E). rewrite lmap_affine in E. cbn in E. injection E as <-.
    destruct (nth_error y 0) eqn:N0; [|discriminate]. destruct (nth_error y 1) eqn:N1; [|discriminate]. injection E0 as <-. injection E1 as <-.
    do 2 eexists. split; [reflexivity|]. split; apply affine_range; eauto.
  - apply bind_ok in E as (a0 & E0 & E). rewrite lmap_affine in E. cbn in E. injection E as <-.
    destruct (nth_error y 0) eqn:N0; [|discriminate]. injection E0 as <-. do 2 eexists. split; [reflexivity|]. split; [apply affine_range; eauto | reflexivity].
  - apply bind_ok in E as (a0 & E0 & E). rewrite lmap_affine in E. cbn in E. injection E as <-.
    destruct (nth_error y 0) eqn:N0; [|discriminate]. injection E0 as <-. do 2 eexists. split; [reflexivity|]. split; [reflexivity | apply affine_range; eauto].
  - apply bind_ok in E as (a0 & E0 & E). rewrite lmap_affine in E. cbn in E. injection E as <-.
    destruct (nth_error y 0) eqn:N0; [|discriminate]. injection E0 as <-. do 2 eexists. split; [reflexivity|]. split; [reflexivity | apply affine_range; eauto].
Qed.
Print Assumptions C44_clip_in_range.
(** The ranges are reached, and within [-1, 1] clipping changes nothing. *)
Theorem C44_onto : forall r y, fst r < snd r -> fst r <= y <= snd r -> exists x, -1 <= x <= 1 /\ affine r x = y.
Proof.
  intros r y H Hy. exists (2 * (y - fst r) / (snd r - fst r) - 1). split.
  - assert (0 <= 2 * (y - fst r) / (snd r - fst r) <= 2); [|lra].
    split; [apply Rmult_le_pos; [lra | left; apply Rinv_0_lt_compat; lra]|].
    apply Rmult_le_reg_r with (snd r - fst r); [lra|]. unfold Rdiv. rewrite Rmult_assoc, Rinv_l by lra. lra.
  - unfold affine. field. lra.
Qed.
Print Assumptions C44_onto.
Theorem C44_no_clip_inside : forall c x, -1 <= x <= 1 -> clipped c x = x.
Proof. intros c x H. unfold clipped. destruct (ca_clip c); [|reflexivity]. apply (Rclip_id x (-1) 1). lra. Qed.
Print Assumptions C44_no_clip_inside.
(** Without clipping inputs are extrapolated: any acceleration can be commanded. *)
Theorem C44_no_clip_unbounded : forall c y, ca_clip c = false -> ca_longitudinal c = true -> ca_lateral c = false ->
  fst (ca_acceleration c) < snd (ca_acceleration c) -> exists x, single_command (Continuous c) (ActVec [x]) = Ok (Controls y 0).
Proof.
  intros c y Cl Lo La H. exists (2 * (y - fst (ca_acceleration c)) / (snd (ca_acceleration c) - fst (ca_acceleration c)) - 1).
  destruct (C44_affine c (2 * (y - fst (ca_acceleration c)) / (snd (ca_acceleration c) - fst (ca_acceleration c)) - 1) 0) as (_ & Q & _).
  rewrite (Q Lo La). unfold clipped. rewrite Cl. f_equal. f_equal. unfold affine. field. lra.
Qed.
Print Assumptions C44_no_clip_unbounded.
(** The type cannot be built without an axis; its default ranges. *)
Theorem C44_construction : forall acc st lo la dy cl, 
  (make_continuous acc st lo la dy cl = Err ValueError <-> lo = false /\ la = false) /\
  (forall c, make_continuous None None lo la dy cl = Ok c -> ca_acceleration c = (-5, 5) /\ ca_steering c = (- PI / 4, PI / 4)).
Proof.
  intros. unfold make_continuous. split.
  - destruct lo, la; cbn; split; try discriminate; intros; try tauto; destruct H; discriminate.
  - destruct lo, la; cbn; intros c [= <-]; split; reflexivity.
Qed.
Print Assumptions C44_construction.
(** The controlled vehicle stores the command. *)
Theorem C44_reaches_vehicle : forall rd draw v ac st, v_kind v = KVehicle -> vehicle_command rd draw v (Controls ac st) = Ok (set_action v st ac).
Proof. intros rd draw v ac st K. unfold vehicle_command. now rewrite K. Qed.
Print Assumptions C44_reaches_vehicle.
Example C44_nonvacuous : single_command (Continuous continuous_default) (ActVec [1/2; -3]) = Ok (Controls (5/2) (- PI / 4)).
Proof.
  destruct (C44_affine continuous_default (1/2) (-3)) as (Q & _). rewrite Q by reflexivity. f_equal. unfold clipped. cbn [ca_clip continuous_default].
  f_equal; unfold affine, Rmin, Rmax; cbn; destruct (Rle_dec _ _); try lra; destruct (Rle_dec _ _); try lra.
Qed.

(** ** C45: multi-agent actions *)
(** With distinct vehicles, the i-th action is executed by the i-th controlled
    vehicle as if it were alone ... *)
Theorem C45_own_vehicle : forall s draws rd ids acts rd' i id a j v,
  action_act (Multi s) draws rd ids (ActTuple acts) = Ok rd' -> distinct_vehicles rd -> NoDup ids ->
  nth_error ids i = Some id -> nth_error acts i = Some a ->
  nth_error (rd_vehicles rd) j = Some v -> v_id v = id -> is_idm (v_kind v) = false ->
  exists c v', single_command s a = Ok c /\ vehicle_command rd (draws id) v c = Ok v' /\ nth_error (rd_vehicles rd') j = Some v'.
Proof.
  intros s draws rd ids acts rd' i id a j v E Nd Ni Hi Ha N Ev K. cbn in E.
  destruct (act_multi_self s draws ids acts rd rd' i id a j v E Nd Ni Hi Ha N Ev) as (rdm & c & v' & (An & _) & _ & Ec & Ac & N').
  exists c, v'. split; [exact Ec|]. split; [|exact N']. rewrite <- Ac. symmetry. apply vehicle_command_net; assumption.
Qed.
Print Assumptions C45_own_vehicle.
(** ... and nobody else is touched: neither the network, the objects, nor any
    vehicle that is not among the controlled ones with an action. *)
Theorem C45_nobody_else : forall s draws rd ids acts rd' j v,
  action_act (Multi s) draws rd ids (ActTuple acts) = Ok rd' ->
  nth_error (rd_vehicles rd) j = Some v -> ~ In (v_id v) (firstn (List.length acts) ids) ->
  nth_error (rd_vehicles rd') j = Some v /\ rd_net rd' = rd_net rd /\ rd_objects rd' = rd_objects rd.
Proof.
  intros s draws rd ids acts rd' j v E N H. split; [cbn in E; eapply act_multi_other; eassumption|].
  apply action_act_acted in E as (A1 & A2 & _). tauto.
Qed.
Print Assumptions C45_nobody_else.
(** Even its own action only changes a vehicle's targets and stored controls: no
    vehicle moves, changes speed or crashes. *)
Theorem C45_nobody_moves : forall t draws rd ids a rd', action_act t draws rd ids a = Ok rd' ->
  Forall2 (fun v v' => v_id v' = v_id v /\ v_kind v' = v_kind v /\ v_pos v' = v_pos v /\ v_heading v' = v_heading v /\ v_speed v' = v_speed v /\
    v_lane_index v' = v_lane_index v /\ v_crashed v' = v_crashed v) (rd_vehicles rd) (rd_vehicles rd').
Proof.
  intros t draws rd ids a rd' E. apply action_act_acted in E as (_ & _ & _ & _ & F).
  induction F; constructor; auto. unfold same_vehicle in *. tauto.
Qed.
Print Assumptions C45_nobody_moves.
(** Missing actions leave the last vehicles alone, extra ones are ignored (with no
    error), and anything that is not a tuple is refused. *)
Theorem C45_lengths : forall s draws rd ids acts extra,
  List.length acts = List.length ids ->
  action_act (Multi s) draws rd ids (ActTuple (acts ++ extra)) = action_act (Multi s) draws rd ids (ActTuple acts).
Proof.
  intros s draws rd ids. cbn. revert rd. induction ids as [|id ids IH]; intros rd [|a acts] extra H; cbn in H; try discriminate.
  - destruct extra; reflexivity.
  - cbn. destruct (act_single s (draws id) rd id a); cbn; [apply IH; congruence | reflexivity].
Qed.
Print Assumptions C45_lengths.
Theorem C45_tuple_required : forall s draws rd ids a, (forall l, a <> ActTuple l) -> exists x, action_act (Multi s) draws rd ids a = Err x.
Proof. intros s draws rd ids a H. destruct a as [k|x|l]; cbn; eauto. now elim (H l). Qed.
Print Assumptions C45_tuple_required.
(** A single-agent action reaches the first controlled vehicle only. *)
Theorem C45_single_agent : forall s draws rd id ids a rd', action_act (Single s) draws rd (id :: ids) a = Ok rd' -> distinct_vehicles rd ->
  forall j v, nth_error (rd_vehicles rd) j = Some v ->
  exists v', nth_error (rd_vehicles rd') j = Some v' /\
    (v_id v <> id -> v' = v) /\
    (v_id v = id -> exists c, single_command s a = Ok c /\ vehicle_command rd (draws id) v c = Ok v').
Proof.
  intros s draws rd id ids a rd' E Nd j v N. cbn in E. unfold act_single in E. apply bind_ok in E as (c & Ec & E).
  destruct (Nat.eq_dec (v_id v) id) as [Q|Q].
  - destruct (command_self _ _ _ _ _ _ _ Nd E N Q) as (v' & A & N'). exists v'. split; [exact N'|]. split; [easy|]. eauto.
  - exists v. split; [eapply command_other; eassumption|]. split; easy.
Qed.
Print Assumptions C45_single_agent.
(** Actions of the space are always accepted. *)
Theorem C45_accepted : forall t draws rd ids a, (forall i, draw_ok (draws i)) -> runnable rd -> ids <> [] ->
  in_action_space t (List.length ids) a ->
  (forall v, In v (rd_vehicles rd) -> In (v_id v) ids -> v_kind v = vehicle_class (agent_of t)) ->
  exists rd', action_act t draws rd ids a = Ok rd' /\ runnable rd'.
Proof. intros t draws rd ids a D Rn Ne I K. apply (action_act_total false); auto. Qed.
Print Assumptions C45_accepted.
Definition with_id (v : vehicle) (i : nat) : vehicle :=
  Vehicle i (v_kind v) (v_pos v) (v_heading v) (v_speed v) (v_lane_index v) (v_steering v) (v_accel v) (v_crashed v)
    (v_collisions v) (v_history v) (v_target_lane v) (v_target_speed v) (v_route v) (v_speed_index v)
    (v_grid v) (v_enable_lane_change v) (v_timer v) (v_par v) (v_is_yielding v) (v_yield_timer v) (v_has_color v).
Lemma demo_pair_runnable p q : runnable (demo_road [with_id (demo_controlled KMDP p 20 25 0) 1; with_id (demo_controlled KMDP q 20 25 1) 2] []).
Proof.
  split; [apply demo_built|]. split; [discriminate|]. split.
  - intros v [<-|[<-|[]]].
    + pose proof (demo_targets KMDP p 20 25 0 ltac:(lia)) as T. split; [apply (proj1 T) | intros _; exact T].
    + pose proof (demo_targets KMDP q 20 25 1 ltac:(lia)) as T. split; [apply (proj1 T) | intros _; exact T].
  - left. intros v [<-|[<-|[]]]; discriminate.
Qed.
(** Two agents: the second one is told to speed up, the first one keeps its target. *)
Example C45_nonvacuous : exists rd' v w,
  action_act (Multi (Discrete true true)) (fun _ _ => 0%nat) (demo_road [with_id (demo_controlled KMDP (0, 0) 20 25 0) 1; with_id (demo_controlled KMDP (0, 4) 20 25 1) 2] [])
    [2%nat; 1%nat] (ActTuple [ActInt 3; ActInt 1]) = Ok rd' /\
  nth_error (rd_vehicles rd') 0 = Some v /\ v_speed_index v = 1%Z /\ nth_error (rd_vehicles rd') 1 = Some w /\ v_speed_index w = Zclip (speed_to_index grid_default 20 + 1) 0 2.
Proof.
  set (rd := demo_road _ _). assert (D : forall i : nat, draw_ok (fun n => 0%nat)) by (intros i m Hm; exact Hm).
  destruct (C45_accepted (Multi (Discrete true true)) (fun _ _ => 0%nat) rd [2%nat; 1%nat] (ActTuple [ActInt 3; ActInt 1]) D (demo_pair_runnable _ _) ltac:(discriminate)) as (rd' & E & _).
  { cbn. split; [reflexivity|]. repeat constructor; cbn; try lia; now left. }
  { intros v [<-|[<-|[]]] _; reflexivity. }
  assert (Nd : distinct_vehicles rd) by (unfold distinct_vehicles; cbn; repeat constructor; cbn; intuition discriminate).
  assert (Ni : NoDup [2%nat; 1%nat]) by (repeat constructor; cbn; intuition discriminate).
  destruct (C45_own_vehicle _ _ _ _ _ _ 1%nat 1%nat (ActInt 1) 0%nat _ E Nd Ni eq_refl eq_refl eq_refl eq_refl eq_refl) as (c & v & Ec & Av & Nv).
  destruct (C45_own_vehicle _ _ _ _ _ _ 0%nat 2%nat (ActInt 3) 1%nat _ E Nd Ni eq_refl eq_refl eq_refl eq_refl eq_refl) as (d & w & Ed & Aw & Nw).
  exists rd', v, w. split; [exact E|]. split; [exact Nv|]. cbn in Ec, Ed. injection Ec as <-. injection Ed as <-.
  unfold vehicle_command in Av, Aw. cbn [with_id demo_controlled v_kind] in Av, Aw.
  apply mdp_act_ok in Av as (_ & [Iv _] & _). apply mdp_act_ok in Aw as (_ & [Iw _] & _). split; [exact Iv|]. split; [exact Nw | exact Iw].
Qed.
