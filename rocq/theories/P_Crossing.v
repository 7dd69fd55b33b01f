(** Lemmas about the intersection. *)
From Verif Require Import Prelude M_Utils M_Lane M_Road M_Vehicle M_Kinematics M_Control M_Behavior M_Regulation M_Action M_Env M_Scenes M_Nets M_Reset S_Reset
  S_Geometry S_Road S_Vehicle S_Control S_Behavior S_Regulation S_Env P_Base P_Utils P_Lane P_Graph P_Bfs P_Query P_Kin P_Crash P_Control P_Behavior P_Traffic P_Regulation P_Action P_Env P_Scenes P_Nets P_Reset P_Ready.
From Coq Require Import Lia Lra.
Open Scope R_scope.

(** ** The network: every road has a single lane *)
Definition crossing_adds : list (string * string * lane) := flat_map corner_lanes (seq 0 4).
Lemma crossing_eq : intersection_net = build crossing_adds.
Proof. reflexivity. Qed.
Lemma crossing_built : built intersection_net.
Proof. exists crossing_adds. reflexivity. Qed.
Lemma crossing_nonempty : intersection_net <> [].
Proof. apply build_nonempty. discriminate. Qed.
Lemma added_In a b l adds : In l (added_between a b adds) -> In (a, b, l) adds.
Proof.
  unfold added_between. intros H. apply in_map_iff in H as ([[a' b'] l'] & <- & H). apply filter_In in H as [H E].
  cbn in E. apply andb_prop in E as [E1 E2]. apply String.eqb_eq in E1, E2. now subst.
Qed.
Lemma build_has_iff adds a b k l : has_lane (build adds) a b k l <-> nth_error (added_between a b adds) k = Some l.
Proof.
  split; [|apply build_has]. intros H. apply has_lane_g in H as (ls & H & E). apply g_lanes_of in H. rewrite build_lanes in H. now rewrite H.
Qed.
Lemma crossing_single a b : edge intersection_net a b -> exists l, added_between a b crossing_adds = [l].
Proof.
  intros (k & l & H). rewrite crossing_eq, build_has_iff in H. apply nth_error_In in H. apply added_In in H.
  assert (F : forallb (fun x => Nat.eqb (List.length (added_between (fst (fst x)) (snd (fst x)) crossing_adds)) 1) crossing_adds = true) by reflexivity.
  rewrite forallb_forall in F. specialize (F _ H). apply Nat.eqb_eq in F. cbn [fst snd] in F.
  destruct (added_between a b crossing_adds) as [|x [|y ls]]; [discriminate | now exists x | discriminate].
Qed.
Lemma crossing_resolves a b : edge intersection_net a b -> exists l, get_lane intersection_net (a, b, None) = Ok l /\ has_lane intersection_net a b 0 l.
Proof.
  intros H. destruct (crossing_single a b H) as [l E]. exists l.
  assert (Hl : has_lane intersection_net a b 0 l) by (rewrite crossing_eq, build_has_iff, E; reflexivity). split; [|exact Hl].
  apply has_lane_g in Hl as (ls & G & Nl). unfold get_lane. cbn [li_from li_to li_id fst snd]. rewrite G. cbn [bind].
  apply g_lanes_of in G. rewrite crossing_eq, build_lanes, E in G. subst ls. reflexivity.
Qed.
Definition arm_lane (k : nat) : lane :=
  let angle := deg (90 * INR k) in
  straight_lane (vrot angle (DEFAULT_WIDTH / 2, I_ACCESS + I_OUTER)) (vrot angle (DEFAULT_WIDTH / 2, I_OUTER)) DEFAULT_WIDTH (LStriped, LContinuous) false 10 (if Nat.odd k then 3 else 1)%Z.
Lemma crossing_arm k : (k < 4)%nat -> get_lane intersection_net (corner_name "o" k, corner_name "ir" k, Some 0%Z) = Ok (arm_lane k).
Proof.
  intros H. rewrite crossing_eq. apply (build_get crossing_adds _ _ 0).
  do 4 (destruct k as [|k]; [reflexivity|]). lia.
Qed.

Global Opaque intersection_net.

(** ** Traffic *)
Definition crossing (rd : road) : Prop :=
  rd_net rd = intersection_net /\ rd_objects rd = [] /\ Forall (reg_ok intersection_net) (rd_vehicles rd) /\ NoDup (map v_id (rd_vehicles rd)).
Lemma crossing_regulated rd : crossing rd -> regulated rd.
Proof.
  intros (N & O & F & _). apply regulated_iff. rewrite N. split; [exact crossing_built|]. split; [exact crossing_nonempty|]. split; [exact F|].
  right. rewrite O. split; [|intros o []]. rewrite Forall_forall in F. intros v Hv. apply F, Hv.
Qed.
Lemma crossing_of rd : regulated rd -> rd_net rd = intersection_net -> rd_objects rd = [] -> NoDup (map v_id (rd_vehicles rd)) -> crossing rd.
Proof. intros R N O D. apply regulated_iff in R as (_ & _ & F & _). rewrite N in F. now repeat split. Qed.
Lemma crossing_add rd v : crossing rd -> reg_ok intersection_net v -> ~ In (v_id v) (map v_id (rd_vehicles rd)) -> crossing (add_vehicle rd v).
Proof.
  intros (N & O & F & D) Hv Hi. split; [exact N|]. split; [exact O|]. cbn [add_vehicle set_vehicles rd_vehicles]. split; [apply Forall_app; split; [exact F | constructor; [exact Hv | constructor]]|].
  rewrite map_app. apply NoDup_app'; [exact D | constructor; [tauto | constructor] |]. intros x Hx [<- |[]]. contradiction.
Qed.
Lemma crossing_sub rd vs : crossing rd -> (forall v, In v vs -> In v (rd_vehicles rd)) -> NoDup (map v_id vs) -> crossing (set_vehicles rd vs).
Proof. intros (N & O & F & D) S Hn. split; [exact N|]. split; [exact O|]. cbn. split; [|exact Hn]. rewrite Forall_forall in *. auto. Qed.
(** A route from an existing lane along single-lane roads can be looked up. *)
Lemma resolvable_route i rt : lane_exists intersection_net i -> on_network intersection_net (i :: rt) -> Forall (fun j => li_id j = None) rt ->
  Forall (fun i => exists l, get_lane intersection_net i = Ok l) (i :: rt).
Proof.
  intros L O F. constructor; [now apply get_lane_exists|]. inversion O as [|? ? _ O']; subst. clear L O.
  induction rt as [|[[a b] k] rt IH]; [constructor|]. inversion F as [|? ? F1 F2]; subst. inversion O' as [|? ? O1 O2]; subst.
  constructor; [|now apply IH]. unfold li_id in F1. cbn in F1. subst k. destruct (crossing_resolves a b O1) as (l & E & _). now exists l.
Qed.
Lemma planned_ok ord v d : set_order ord -> well_placed intersection_net v -> is_controlled (v_kind v) = true -> v_is_yielding v = false ->
  exists rt, plan_route_to intersection_net ord v d = Ok (set_route v (Some (v_lane_index v :: rt))) /\ reg_ok intersection_net (set_route v (Some (v_lane_index v :: rt))).
Proof.
  intros O W C Y. destruct (plan_route_total intersection_net ord v d) as (rt & -> & On & F); [exact crossing_built | exact O | apply W |].
  exists rt. split; [reflexivity|]. split; [now apply routed_placed|]. split; [exact C|]. split; [|intros Q; cbn in Q; congruence].
  unfold route_resolvable. cbn. apply resolvable_route; [apply W | exact On | exact F].
Qed.
Lemma randomize_reg_ok g d k c v : reg_ok g v -> reg_ok g (randomize d k c v).
Proof.
  intros (W & C & Rr & Y). split; [now apply randomize_placed|]. destruct (randomize_same d k c v) as (_ & K & _ & _ & R & _ & Yl & _).
  split; [now rewrite K|]. split; [unfold route_resolvable; now rewrite R|]. destruct c; exact Y.
Qed.
(** ** New vehicles *)
Definition spawn_arm (d : draws) (j : nat) : nat := fst (dr_pair d j).
Definition spawn_exit (d : draws) (j : nat) (straight : bool) : nat := if straight then ((fst (dr_pair d j) + 2) mod 4)%nat else snd (dr_pair d j).
Lemma traffic_lane cs c g id i l s speed v : get_lane g i = Ok l -> traffic_on_lane cs c g id i s speed = Ok v ->
  get_closest_lane_index g (l_position l s 0) (Some (l_heading l s)) = Ok (v_lane_index v).
Proof.
  intros G. unfold traffic_on_lane, new_traffic, new_idm, new_controlled, new_vehicle. rewrite G. cbn [bind].
  destruct (get_closest_lane_index g _ _) as [k|]; cbn [bind]; [|discriminate]. intros E.
  apply (f_equal (fun r => match r with Ok w => v_lane_index w | Err _ => k end)) in E. cbn [v_lane_index] in E. now rewrite <- E.
Qed.
Lemma spawn_cases cs c d j ctl lon pd sd prob straight rd : draws_ok d -> crossing rd ->
  let a := spawn_arm d j in
  let s := lon + 5 + dr_normal d (2 * j) * pd in
  let p := l_position (arm_lane a) s 0 in
  (prob < dr_unit d (6 * j) /\ spawn cs c d j ctl lon pd sd prob straight rd = Ok rd) \/
  (dr_unit d (6 * j) <= prob /\ (exists w, In w (rd_vehicles rd) /\ vnorm (vsub (v_pos w) p) < 15) /\ spawn cs c d j ctl lon pd sd prob straight rd = Ok rd) \/
  (dr_unit d (6 * j) <= prob /\ (forall w, In w (rd_vehicles rd) -> 15 <= vnorm (vsub (v_pos w) p)) /\
   exists v0 v, newborn intersection_net (kind_of c) (fresh_id rd ctl) p (l_heading (arm_lane a) s) (8 + dr_normal d (2 * j + 1) * sd) v0 /\ v_par v0 = class_params cs c /\
     get_closest_lane_index intersection_net p (Some (l_heading (arm_lane a) s)) = Ok (v_lane_index v0) /\
     plan_route_to intersection_net (dr_ord d) v0 (corner_name "o" (spawn_exit d j straight)) = Ok v /\
     reg_ok intersection_net (randomize d (6 * j + 1) c v) /\
     spawn cs c d j ctl lon pd sd prob straight rd = Ok (add_vehicle rd (randomize d (6 * j + 1) c v))).
Proof.
  intros D Cr. cbv zeta. unfold spawn. destruct (Rltb prob (dr_unit d (6 * j))) eqn:U; [left; split; [now apply Rltb_true | reflexivity]|].
  apply Rltb_false in U. right. rewrite (proj1 Cr). cbv zeta.
  assert (Ha : (fst (dr_pair d j) < 4)%nat) by apply D.
  destruct (traffic_on_lane_total cs c intersection_net (fresh_id rd ctl) _ (lon + 5 + dr_normal d (2 * j) * pd) (8 + dr_normal d (2 * j + 1) * sd) _ crossing_built crossing_nonempty (crossing_arm _ Ha)) as (v0 & E & Nv & Pv).
  rewrite E. cbn [bind]. assert (Pp : v_pos v0 = l_position (arm_lane (spawn_arm d j)) (lon + 5 + dr_normal d (2 * j) * pd) 0) by apply Nv.
  destruct (existsb _ _) eqn:X.
  - left. split; [lra|]. split; [|reflexivity]. apply existsb_exists in X as (w & Hw & X). apply Rltb_true in X. exists w. rewrite <- Pp. now split.
  - right. split; [lra|]. split.
    + intros w Hw. rewrite <- Pp. apply Rnot_lt_le. intros L. assert (true = false); [|discriminate]. rewrite <- X. symmetry. apply existsb_exists. exists w. split; [exact Hw | now apply Rltb_true].
    + destruct (planned_ok (dr_ord d) v0 (corner_name "o" (spawn_exit d j straight))) as (rt & Ep & Ok_); [apply D | eapply newborn_placed, Nv | destruct Nv as (_ & -> & _); apply kind_of_controlled | apply Nv |].
      exists v0, (set_route v0 (Some (v_lane_index v0 :: rt))). split; [exact Nv|]. split; [exact Pv|]. split.
      { apply (traffic_lane _ _ _ _ _ _ _ _ _ (crossing_arm _ Ha) E). }
      split; [exact Ep|]. split; [now apply randomize_reg_ok|].
      unfold spawn_exit in Ep. rewrite Ep. reflexivity.
Qed.
Lemma spawn_total cs c d j ctl lon pd sd prob straight rd : draws_ok d -> crossing rd ->
  exists rd', spawn cs c d j ctl lon pd sd prob straight rd = Ok rd' /\ crossing rd' /\ forall v, In v (rd_vehicles rd) -> In v (rd_vehicles rd').
Proof.
  intros D Cr. destruct (spawn_cases cs c d j ctl lon pd sd prob straight rd D Cr) as [[_ ->]|[(_ & _ & ->)|(_ & _ & v0 & v & Nv & _ & _ & Ep & Rk & ->)]]; [eauto | eauto |].
  eexists. split; [reflexivity|]. split; [|intros w Hw; cbn; apply in_or_app; now left]. apply crossing_add; [exact Cr | exact Rk|].
  assert (v_id v = v_id v0) as Iv.
  { destruct (plan_route_total intersection_net (dr_ord d) v0 (corner_name "o" (spawn_exit d j straight))) as (rt & Ep' & _); [exact crossing_built | apply D | apply Nv |].
    rewrite Ep' in Ep. injection Ep as <-. reflexivity. }
  destruct (randomize_same d (6 * j + 1) c v) as (-> & _). rewrite Iv, (proj1 Nv). apply fresh_not_in.
Qed.

(** ** Frames *)
Lemma enforce_objects yd rd rd' : enforce_road_rules yd rd = Ok rd' -> rd_net rd' = rd_net rd /\ rd_objects rd' = rd_objects rd.
Proof. unfold enforce_road_rules. intros E. apply bind_ok in E as (us & _ & E). apply bind_ok in E as (vs & _ & E). now injection E as <-. Qed.
Lemma regulated_step_net yd rd dt rd' : regulated_step yd rd dt = Ok rd' -> rd_net rd' = rd_net rd /\ (rd_objects rd = [] -> rd_objects rd' = []).
Proof.
  unfold regulated_step. destruct (Reqb dt 0); [discriminate|]. destruct (Z.eqb _ 0); [discriminate|].
  intros E. apply bind_ok in E as (rd1 & E1 & E). apply road_step_stepped in E as (N & _ & _ & _ & O).
  assert (rd_net rd1 = rd_net rd /\ rd_objects rd1 = rd_objects rd) as [N1 O1] by (destruct (Z.eqb _ 0); [apply enforce_objects in E1; exact E1 | now injection E1 as <-]).
  split; [congruence|]. intros Z. rewrite O1, Z in O. now inversion O.
Qed.
Lemma warm_frame_total dt d rd t : draws_ok d -> 0 < dt <= 1/2 -> crossing rd -> exists rd', warm_frame dt d rd t = Ok rd' /\ crossing rd'.
Proof.
  intros D Hdt Cr. unfold warm_frame. destruct (regulated_act (dr_frame d t) rd) as (rd1 & E1 & R1); [apply D | now apply crossing_regulated |].
  rewrite E1. cbn [bind]. destruct (regulated_step_total YIELD_DURATION rd1 dt Hdt R1) as (rd2 & E2 & R2). exists rd2. split; [exact E2|].
  apply road_act_acted in E1. pose proof (acted_persists _ _ E1) as P1. destruct E1 as (N1 & O1 & _). pose proof (regulated_step_persists _ _ _ _ E2) as P2. apply regulated_step_net in E2 as [N2 O2].
  destruct Cr as (N & O & _ & Dn). apply crossing_of; [exact R2 | congruence | apply O2; congruence | now rewrite (persists_ids _ _ P2), (persists_ids _ _ P1)].
Qed.
Lemma advances_crossing sc o e e' : advances sc o e e' -> rd_net (e_road e') = rd_net (e_road e) /\ (rd_objects (e_road e) = [] -> rd_objects (e_road e') = []).
Proof.
  intros (rd1 & rd2 & A & B & ->). cbn. apply road_act_acted in A as (N1 & O1 & _). destruct (sc_regulated sc).
  - apply regulated_step_net in B as [N2 O2]. split; [congruence|]. intros H. apply O2. congruence.
  - apply road_step_stepped in B as (N2 & _ & _ & _ & O2). split; [congruence|]. intros H. rewrite O1, H in O2. now inversion O2.
Qed.
Lemma simulate_frames_net sc o a n : forall e e', simulate_frames sc o n e a = Ok e' -> rd_net (e_road e') = rd_net (e_road e) /\ (rd_objects (e_road e) = [] -> rd_objects (e_road e') = []).
Proof.
  induction n as [|n IH]; intros e e' E; cbn [simulate_frames] in E; [injection E as <-; tauto|].
  apply bind_ok in E as (e1 & F & E). apply bind_ok in E as (e2 & G & E).
  assert (H1 : rd_net (e_road e1) = rd_net (e_road e) /\ rd_objects (e_road e1) = rd_objects (e_road e)).
  { unfold forward in F. destruct a as [x|]; [|injection F as <-; tauto]. destruct (_ && _); [|injection F as <-; tauto].
    apply bind_ok in F as (rd & A & F). injection F as <-. apply action_act_acted in A as (N & O & _). cbn. tauto. }
  apply frame_advances, advances_crossing in G as [N2 O2]. destruct H1 as [N1 O1].
  assert (H2 : rd_net (e_road e2) = rd_net (e_road e) /\ (rd_objects (e_road e) = [] -> rd_objects (e_road e2) = [])) by (split; [congruence | intros H; apply O2; congruence]).
  destruct (e_done e2); [injection E as <-; exact H2|]. apply bind_ok in E as (t & _ & E). destruct t; [injection E as <-; exact H2|].
  apply IH in E as [N3 O3]. split; [rewrite N3; apply H2 | intros H; apply O3, H2, H].
Qed.
Lemma env_step_net sc o e a e' : env_step sc o e a = Ok e' -> rd_net (e_road e') = rd_net (e_road e) /\ (rd_objects (e_road e) = [] -> rd_objects (e_road e') = []).
Proof.
  unfold env_step. destruct (e_controlled e); [discriminate|]. unfold simulate. destruct (Reqb _ _); [discriminate|]. intros E. apply simulate_frames_net in E. exact E.
Qed.

(** ** Clearing *)
Definition leaving (v : vehicle) : Prop :=
  contains "il" (li_from (v_lane_index v)) = true /\ contains "o" (li_to (v_lane_index v)) = true /\
  exists l, get_lane intersection_net (v_lane_index v) = Ok l /\ l_length l - 4 * V_LENGTH <= fst (l_local l (v_pos v)).
Lemma is_leaving_spec v : lane_exists intersection_net (v_lane_index v) -> exists b, is_leaving intersection_net v = Ok b /\ (b = true <-> leaving v).
Proof.
  intros L. unfold is_leaving, leaving. destruct (get_lane_exists _ _ L) as [l Gl]. destruct (contains "il" _) eqn:C1, (contains "o" _) eqn:C2; cbn [andb];
    try (exists false; split; [reflexivity|]; split; [discriminate | intros (H1 & H2 & _); discriminate]).
  rewrite Gl. cbn [bind]. eexists. split; [reflexivity|]. split.
  - intros H. apply Rleb_true in H. do 2 (split; [reflexivity|]). exists l. now split.
  - intros (_ & _ & l' & E & H). injection E as <-. now apply Rleb_true.
Qed.
Lemma clear_keep_spec ctl v : lane_exists intersection_net (v_lane_index v) ->
  exists b, clear_keep intersection_net ctl v = Ok b /\ (b = true <-> In (v_id v) ctl \/ (~ leaving v /\ v_route v <> None)).
Proof.
  intros L. unfold clear_keep. destruct (existsb _ ctl) eqn:X.
  - exists true. split; [reflexivity|]. apply existsb_exists in X as (i & Hi & E). apply Nat.eqb_eq in E. subst. tauto.
  - destruct (is_leaving_spec v L) as (b & -> & Hb). cbn [bind]. eexists. split; [reflexivity|].
    assert (~ In (v_id v) ctl) by (intros I; assert (true = false); [|discriminate]; rewrite <- X; symmetry; apply existsb_exists; exists (v_id v); split; [exact I | apply Nat.eqb_refl]).
    destruct b; cbn; [split; [discriminate|]; intros [|[Q _]]; [tauto | elim Q; tauto]|].
    assert (NL : ~ leaving v) by (intros Q; apply Hb in Q; discriminate).
    destruct (v_route v); cbn; (split; [intros Q | intros [Q|[_ Q]]]); try discriminate; try tauto; try reflexivity.
    right. split; [exact NL | discriminate].
Qed.
Lemma filterM_spec {A} (f : A -> res bool) (P : A -> Prop) l : (forall x, In x l -> exists b, f x = Ok b /\ (b = true <-> P x)) ->
  exists keep, filterM f l = Ok (filter keep l) /\ (forall x, In x l -> (keep x = true <-> P x)).
Proof.
  intros H. exists (fun x => match f x with Ok b => b | Err _ => false end). induction l as [|x l IH]; [split; [reflexivity | intros x []]|].
  destruct IH as [IH1 IH2]; [intros y Hy; apply H; now right|]. destruct (H x (or_introl eq_refl)) as (b & E & Hb). cbn [filterM filter]. rewrite E, IH1. cbn [bind].
  split; [reflexivity|]. intros y [<- |Hy]; [now rewrite E | now apply IH2].
Qed.
Lemma clear_spec ctl rd : crossing rd -> exists keep, clear_vehicles ctl rd = Ok (set_vehicles rd (filter keep (rd_vehicles rd))) /\
  (forall v, In v (rd_vehicles rd) -> (keep v = true <-> In (v_id v) ctl \/ (~ leaving v /\ v_route v <> None))).
Proof.
  intros (N & O & F & D). unfold clear_vehicles. rewrite N.
  destruct (filterM_spec (clear_keep intersection_net ctl) (fun v => In (v_id v) ctl \/ (~ leaving v /\ v_route v <> None)) (rd_vehicles rd)) as (keep & -> & H).
  { intros v Hv. apply clear_keep_spec. rewrite Forall_forall in F. apply (proj1 (proj1 (F v Hv))). }
  exists keep. split; [reflexivity | exact H].
Qed.
Lemma NoDup_map_filter {A B} (f : A -> B) keep l : NoDup (map f l) -> NoDup (map f (filter keep l)).
Proof.
  induction l as [|x l IH]; [easy|]. cbn. intros H. inversion H as [|? ? N1 N2]; subst. destruct (keep x); [|auto]. cbn. constructor; [|auto].
  intros I. apply N1. apply in_map_iff in I as (y & <- & I). apply filter_In in I. now apply in_map.
Qed.
Lemma clear_total ctl rd : crossing rd -> exists rd', clear_vehicles ctl rd = Ok rd' /\ crossing rd' /\ forall v, In v (rd_vehicles rd) -> In (v_id v) ctl -> In v (rd_vehicles rd').
Proof.
  intros Cr. destruct (clear_spec ctl rd Cr) as (keep & -> & H). eexists. split; [reflexivity|]. split.
  - apply crossing_sub; [exact Cr | intros v Hv; now apply filter_In in Hv | apply NoDup_map_filter, Cr].
  - intros v Hv I. cbn. apply filter_In. split; [exact Hv | apply H; [exact Hv | now left]].
Qed.

(** ** Steps *)
Definition crossing_env (sc : scenario) (e : env) : Prop := ready sc e /\ crossing (e_road e).
Lemma crossing_env_make sc e rd : sc_regulated sc = true -> crossing rd -> e_controlled e <> [] ->
  agents (vehicle_class (agent_of (sc_action sc))) rd (e_controlled e) -> crossing_env sc (set_road e rd).
Proof.
  intros Rg Cr C A. split; [|exact Cr]. split; [unfold road_ready; rewrite Rg; cbn; now apply crossing_regulated|]. split; [apply Cr|]. split; [exact C | exact A].
Qed.
Lemma intersection_step_total cs c prob sc o d e a : sc_regulated sc = true -> frequencies_ok sc -> decides sc -> oracle_ok o -> draws_ok d -> crossing_env sc e ->
  in_action_space (sc_action sc) (List.length (e_controlled e)) a ->
  exists e', intersection_step cs c prob sc o d e a = Ok e' /\ crossing_env sc e' /\ e_controlled e' = e_controlled e.
Proof.
  intros Rg Hf Hd Ho D [R Cr] Ha. unfold intersection_step. destruct (env_step_total sc o e a Hf Hd Ho R Ha) as (e1 & E & R1). rewrite E. cbn [bind].
  pose proof (env_step_persists _ _ _ _ _ E) as (P & C & _). apply env_step_net in E as [N O].
  assert (Cr1 : crossing (e_road e1)).
  { apply crossing_of; [destruct R1 as (R1 & _); unfold road_ready in R1; now rewrite Rg in R1 | rewrite N; apply Cr | apply O, Cr | rewrite (persists_ids _ _ P); apply Cr]. }
  destruct (clear_total (e_controlled e1) (e_road e1) Cr1) as (rd2 & -> & Cr2 & K2). cbn [bind].
  destruct (spawn_total cs c d 0 (e_controlled e1) 0 1 1 prob false rd2 D Cr2) as (rd3 & -> & Cr3 & K3). cbn [bind].
  eexists. split; [reflexivity|]. split; [|exact C]. apply crossing_env_make; [exact Rg | exact Cr3 | apply R1 |].
  intros id I. destruct R1 as (_ & _ & _ & A). destruct (A id I) as (v & Hv & Ev & Kv). exists v. split; [apply K3, K2; [exact Hv | now rewrite Ev] | now split].
Qed.

(** ** Controlled vehicles *)
Lemma deg90 k : (k < 4)%nat -> (cos (deg (90 * INR k)), sin (deg (90 * INR k))) = match k with 0%nat => (1, 0) | 1%nat => (0, 1) | 2%nat => (-1, 0) | _ => (0, -1) end.
Proof.
  intros H. unfold deg. destruct k as [|[|[|[|k]]]]; [| | | |lia].
  - replace (90 * INR 0 * PI / 180) with 0 by (cbn; lra). now rewrite cos_0, sin_0.
  - replace (90 * INR 1 * PI / 180) with (PI / 2) by (cbn; lra). now rewrite cos_PI2, sin_PI2.
  - replace (90 * INR 2 * PI / 180) with PI by (cbn; lra). now rewrite cos_PI, sin_PI.
  - replace (90 * INR 3 * PI / 180) with (3 * (PI / 2)) by (cbn; lra). now rewrite cos_3PI2, sin_3PI2.
Qed.
(** The point at longitudinal [s] on an arm, in the frame of the arm. *)
Lemma arm_position k s : l_position (arm_lane k) s 0 = vrot (deg (90 * INR k)) (2, 111 - s).
Proof.
  unfold l_position, arm_lane, straight_lane. cbn [l_geom geom_position]. unfold straight_position, straight_dir, straight_lat.
  set (t := deg (90 * INR k)). unfold vrot, DEFAULT_WIDTH, I_ACCESS, I_OUTER, I_RIGHT, DEFAULT_WIDTH. cbn [fst snd].
  pose proof (sin2_cos2 t) as T. unfold Rsqr in T. set (c := cos t) in *. set (q := sin t) in *. clearbody c q.
  unfold vsub, vnorm, vadd, vscal. cbn [fst snd].
  replace (_ * _ + _ * _) with (100 * 100 * (q * q + c * c)) by ring. rewrite T.
  replace (100 * 100 * 1) with (100 * 100) by ring. rewrite sqrt_square by lra. f_equal; field.
Qed.
Lemma vnorm_ge v r : 0 <= r -> r * r <= fst v * fst v + snd v * snd v -> r <= vnorm v.
Proof. intros H L. unfold vnorm. rewrite <- (sqrt_square r) by exact H. now apply sqrt_le_1_alt. Qed.
Lemma arms_apart j k y z : (j < 4)%nat -> (k < 4)%nat -> j <> k -> 22 <= y -> 22 <= z ->
  20 <= vnorm (vsub (vrot (deg (90 * INR j)) (2, y)) (vrot (deg (90 * INR k)) (2, z))).
Proof.
  intros Hj Hk N Hy Hz. apply vnorm_ge; [lra|]. pose proof (f_equal fst (deg90 j Hj)) as Cj. pose proof (f_equal fst (deg90 k Hk)) as Ck. pose proof (f_equal snd (deg90 j Hj)) as Sj. pose proof (f_equal snd (deg90 k Hk)) as Sk. unfold vsub, vrot. cbn [fst snd] in *.
  destruct j as [|[|[|[|j]]]]; [| | | |lia]; (destruct k as [|[|[|[|k]]]]; [| | | |lia]); try (now elim N); cbn [fst snd] in *; rewrite Cj, Sj, Ck, Sk; nra.
Qed.
(** The place of the [k]-th controlled vehicle. *)
Definition ego_place (d : draws) (k : nat) : vec := l_position (arm_lane k) (60 + 5 * dr_normal d (1000 + k)) 0.
Lemma ego_places_apart d j k : (j < 4)%nat -> (k < 4)%nat -> j <> k -> Rabs (dr_normal d (1000 + j)) <= 5 -> Rabs (dr_normal d (1000 + k)) <= 5 ->
  20 <= vnorm (vsub (ego_place d j) (ego_place d k)).
Proof.
  intros Hj Hk N A B. unfold ego_place. rewrite !arm_position.
  assert (A' : -5 <= dr_normal d (1000 + j) <= 5) by (unfold Rabs in A; destruct (Rcase_abs _); lra).
  assert (B' : -5 <= dr_normal d (1000 + k) <= 5) by (unfold Rabs in B; destruct (Rcase_abs _); lra).
  apply arms_apart; try assumption; lra.
Qed.
Definition egos_placed (cf : common) (d : draws) (rd : road) (ctl : list nat) : Prop :=
  forall i id, nth_error ctl i = Some id -> exists v, In v (rd_vehicles rd) /\ v_id v = id /\ v_kind v = ego_kind cf /\ v_pos v = ego_place d i.
Lemma intersection_ego_total cs cf dest d rd ctl k : draws_ok d -> ego_kind cf = KMDP -> crossing rd -> List.length ctl = k -> (k < 4)%nat ->
  egos_placed cf d rd ctl -> (forall j, (j < k)%nat -> Rabs (dr_normal d (1000 + j)) <= 5 /\ Rabs (dr_normal d (1000 + k)) <= 5) ->
  exists rd', intersection_ego cs cf dest d (rd, ctl) k = Ok (rd', (ctl ++ [fresh_id rd ctl])%list) /\ crossing rd' /\ List.length (ctl ++ [fresh_id rd ctl]) = S k /\ egos_placed cf d rd' (ctl ++ [fresh_id rd ctl]).
Proof.
  intros D Ke Cr L Hk Pl Nr. unfold intersection_ego. rewrite (proj1 Cr), crossing_arm by exact Hk. cbn [bind].
  match goal with |- context [new_ego ?a ?b ?c ?x ?p ?h ?s] => destruct (new_ego_total a b c x p h s crossing_built crossing_nonempty (ego_kind_cases cf)) as (e & -> & Ne & _) end.
  cbn [bind]. replace (is_controlled (ego_kind cf)) with true by (rewrite Ke; reflexivity). cbn [negb].
  match goal with |- context [plan_route_to _ ?o e ?x] => destruct (planned_ok o e x) as (rt & -> & Rk) end;
    [apply D | eapply newborn_placed, Ne | destruct Ne as (_ & -> & _); rewrite Ke; reflexivity | apply Ne |].
  cbn [bind]. match goal with |- context [add_vehicle rd ?x] => set (e' := x) end. eexists. split; [reflexivity|].
  assert (Ie : v_id e' = fresh_id rd ctl) by apply Ne. assert (Pe : v_pos e' = ego_place d k) by apply Ne. assert (Kd : v_kind e' = ego_kind cf) by apply Ne.
  assert (Re : reg_ok intersection_net e') by exact Rk.
  assert (Cr1 : crossing (add_vehicle rd e')) by (apply crossing_add; [exact Cr | exact Re | rewrite Ie; apply fresh_not_in]).
  split; [apply crossing_sub; [exact Cr1 | intros v; apply (purge_sub _ _ _ (le_n _)) | apply (purge_nodup _ _ _ (le_n _)), Cr1]|].
  split; [rewrite app_length; cbn; lia|]. intros i id Hi. cbn [set_vehicles rd_vehicles].
  destruct (Nat.eq_dec i k) as [-> |Hne].
  - rewrite nth_error_app2, L, Nat.sub_diag in Hi by lia. injection Hi as <-. exists e'. split; [|now repeat split].
    apply (purge_keeps _ _ _ (le_n _)); [cbn; apply in_or_app; right; now left | apply too_close_self].
  - assert (Hlt : (i < k)%nat).
    { assert (i < List.length (ctl ++ [fresh_id rd ctl]))%nat by (apply nth_error_Some; congruence). rewrite app_length in H. cbn in H. lia. }
    rewrite nth_error_app1 in Hi by lia. destruct (Pl i id Hi) as (v & Hv & Iv & Kv & Pv). exists v. split; [|now repeat split].
    apply (purge_keeps _ _ _ (le_n _)); [cbn; apply in_or_app; now left|]. unfold too_close. rewrite Pv, Pe.
    destruct (Nr i Hlt). rewrite (proj2 (Rltb_false _ _)); [apply andb_false_r|]. apply ego_places_apart; try assumption; lia.
Qed.
Lemma intersection_traffic cs c m d cf : draws_ok d -> (2 <= cf_simulation cf)%nat -> exists rd1 rd2 rd3,
  foldM (fun rd t => spawn cs c d t [] (spawn_place m t) 1 1 (6/10) false rd) (seq 0 (m - 1)) (empty_road intersection_net cf) = Ok rd1 /\
  foldM (warm_frame (1 / INR (cf_simulation cf)) d) (seq 0 (3 * cf_simulation cf)) rd1 = Ok rd2 /\
  spawn cs c d (m - 1) [] 60 (1/10) 0 1 true rd2 = Ok rd3 /\ crossing rd1 /\ crossing rd2 /\ crossing rd3.
Proof.
  intros D Hs.
  destruct (foldM_inv (fun _ => crossing) (fun rd t => spawn cs c d t [] (spawn_place m t) 1 1 (6/10) false rd) (seq 0 (m - 1)) (empty_road intersection_net cf)) as (rd1 & E1 & C1).
  { intros k rd t _ Cr. destruct (spawn_total cs c d t [] (spawn_place m t) 1 1 (6/10) false rd D Cr) as (rd' & E & Cr' & _). now exists rd'. }
  { split; [reflexivity|]. split; [reflexivity|]. split; constructor. }
  assert (Hdt : 0 < 1 / INR (cf_simulation cf) <= 1/2).
  { assert (2 <= INR (cf_simulation cf)) by (apply (le_INR 2) in Hs; cbn in Hs; lra). split; [apply Rdiv_lt_0_compat; lra|]. apply Rmult_le_reg_r with (INR (cf_simulation cf)); [lra|]. unfold Rdiv. rewrite !Rmult_1_l. rewrite Rinv_l by lra. lra. }
  destruct (foldM_inv (fun _ => crossing) (warm_frame (1 / INR (cf_simulation cf)) d) (seq 0 (3 * cf_simulation cf)) rd1) as (rd2 & E2 & C2).
  { intros k rd t _ Cr. now apply warm_frame_total. } { exact C1. }
  destruct (spawn_total cs c d (m - 1) [] 60 (1/10) 0 1 true rd2 D C2) as (rd3 & E3 & C3 & _). exists rd1, rd2, rd3. do 5 (split; [assumption|]). exact C3.
Qed.
Lemma intersection_ready cs cf c n m dest prob d sc : draws_ok d -> classes_fit cf (SIntersection c n m dest prob) -> options_fit cf (SIntersection c n m dest prob) d ->
  sc_regulated sc = true -> sc_action sc = cf_action cf -> exists e, intersection_reset cs cf n m dest d = Ok (set_tuning cs (cf_traffic cf) tuning_intersection, e) /\ crossing_env sc e /\ starts e n.
Proof.
  intros D Ke (Hn & Hs & Nr) Rg Ac. cbn in Ke. unfold intersection_reset. set (cs' := set_tuning cs (cf_traffic cf) tuning_intersection).
  destruct (intersection_traffic cs' (cf_traffic cf) m d cf D Hs) as (rd1 & rd2 & rd3 & -> & E2 & E3 & C1 & C2 & C3). cbn [bind]. rewrite E2. cbn [bind]. rewrite E3. cbn [bind].
  set (Inv := fun (k : nat) (st : road * list nat) => crossing (fst st) /\ List.length (snd st) = k /\ egos_placed cf d (fst st) (snd st) /\ NoDup (snd st)).
  destruct (foldM_inv Inv (intersection_ego cs' cf dest d) (seq 0 n) (rd3, [])) as ([rd4 ctl] & -> & (C4 & L & Pl & ND)).
  { intros k [rd ctl] i Hk (Cr & L & Pl & ND). cbn [fst snd] in *.
    assert (Hkn : (k < n)%nat) by (assert (k < List.length (seq 0 n))%nat by (apply nth_error_Some; congruence); rewrite seq_length in H; exact H).
    rewrite nth_error_seq' in Hk by exact Hkn. injection Hk as <-. cbn [Nat.add].
    destruct (intersection_ego_total cs' cf dest d rd ctl k D Ke Cr L ltac:(lia) Pl) as (rd' & E & Cr' & L' & Pl').
    - intros j Hj. destruct Nr as [Nr|Nr]; [lia|]. split; apply Nr; lia.
    - eexists. split; [exact E|]. split; [exact Cr'|]. split; [exact L'|]. split; [exact Pl' | apply NoDup_fresh, ND]. }
  { split; [exact C3|]. split; [reflexivity|]. split; [intros i id Hi; destruct i; discriminate | constructor]. }
  cbn [bind fst snd] in *. rewrite seq_length in L. eexists. split; [reflexivity|]. split; [|rewrite <- L; apply starts_fresh, ND].
  change (fresh_env rd4 ctl) with (set_road (fresh_env rd4 ctl) rd4). apply crossing_env_make; [exact Rg | exact C4 | cbn; destruct ctl; [cbn in L; lia | discriminate] |].
  cbn [fresh_env e_controlled]. intros id I. apply In_nth_error in I as [i Hi]. destruct (Pl i id Hi) as (v & Hv & Iv & Kv & _). exists v. rewrite Ac. now repeat split.
Qed.
