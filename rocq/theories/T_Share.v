(** C54: environments of one process share class attributes. *)
From Verif Require Import Prelude M_Utils M_Lane M_Road M_Vehicle M_Kinematics M_Control M_Behavior M_Regulation M_Action M_Env M_Scenes M_Nets M_Reset S_Reset
  S_Geometry S_Road S_Vehicle S_Control S_Behavior S_Regulation S_Env P_Base P_Utils P_Lane P_Graph P_Bfs P_Query P_Kin P_Crash P_Control P_Behavior P_Traffic P_Regulation P_Action P_Env P_Scenes P_Lift P_Nets P_Reset P_Ready P_Crossing P_Share T_Reset M_Obs S_Obs P_Obs T_Obs.
From Coq Require Import Lia Lra.
Open Scope R_scope.

Definition own_tuning (cs : classes) (c : traffic_class) : option tuning :=
  match c with CIdm => Some (cl_idm cs) | CLinear => cl_linear cs | CAggressive => cl_aggressive cs | CDefensive => cl_defensive cs end.
Definition assign_op (cs : classes) (op : operation) : classes :=
  match op with OReset _ cf s _ => assigned cs cf s | OStep _ _ _ _ => cs end.
Lemma run_op_store cs envs op cs' envs' : run_op (cs, envs) op = Ok (cs', envs') -> cs' = assign_op cs op.
Proof.
  unfold run_op. destruct op as [k cf s d|k o d a]; intros E.
  - apply bind_ok in E as ([[cs1 sc] e] & Er & E). apply reset_fits in Er as [-> _]. cbn [fst snd assign_op] in *. congruence.
  - destruct (lookup_env k envs); [|discriminate]. apply bind_ok in E as (e & _ & E). cbn. congruence.
Qed.
Lemma run_ops_store ops : forall cs envs cs' envs', run_ops (cs, envs) ops = Ok (cs', envs') -> cs' = fold_left assign_op ops cs.
Proof.
  induction ops as [|op ops IH]; intros cs envs cs' envs' E; unfold run_ops in *; cbn [foldM fold_left] in *; [congruence|].
  apply bind_ok in E as ([cs1 envs1] & E1 & E). apply run_op_store in E1 as ->. eapply IH; exact E.
Qed.
Lemma assign_grid cs op : (is_roundabout_reset op -> cl_grid (assign_op cs op) = SpeedGrid 0 16 3) /\ (~ is_roundabout_reset op -> cl_grid (assign_op cs op) = cl_grid cs).
Proof. destruct op as [k cf s d|k o d a]; [|split; [intros []|reflexivity]]. destruct s; cbn; (split; [try (intros []); reflexivity | intros H; try reflexivity]); try (destruct (cf_traffic cf); reflexivity). now elim H. Qed.
Lemma assign_tuning cs op c : (is_intersection_reset c op -> own_tuning (assign_op cs op) c = Some (Tuning 7 6 (-3))) /\ (~ is_intersection_reset c op -> own_tuning (assign_op cs op) c = own_tuning cs c).
Proof.
  destruct op as [k cf s d|k o d a]; [|split; [intros []|reflexivity]].
  destruct s; cbn [is_intersection_reset assign_op assigned]; try (split; [intros [] | intros _; destruct c; reflexivity]).
  split; [intros <-; destruct (cf_traffic cf); reflexivity|]. intros H. destruct (cf_traffic cf), c; try reflexivity; now elim H.
Qed.
Lemma fold_grid ops : forall cs, ((exists op, In op ops /\ is_roundabout_reset op) -> cl_grid (fold_left assign_op ops cs) = SpeedGrid 0 16 3) /\
  ((forall op, In op ops -> ~ is_roundabout_reset op) -> cl_grid (fold_left assign_op ops cs) = cl_grid cs).
Proof.
  assert (K : forall op, is_roundabout_reset op \/ ~ is_roundabout_reset op) by (intros [k cf [] d|]; cbn; tauto).
  induction ops as [|op ops IH]; intros cs; cbn [fold_left]; [split; [intros (op & [] & _) | reflexivity]|].
  destruct (IH (assign_op cs op)) as [I1 I2]. destruct (assign_grid cs op) as [A1 A2]. split.
  - intros (x & [<- |Hx] & Rx); [|apply I1; eauto].
    assert (D : (exists y, In y ops /\ is_roundabout_reset y) \/ (forall y, In y ops -> ~ is_roundabout_reset y)).
    { clear -K. induction ops as [|y ops IH]; [right; intros y []|]. destruct (K y); [left; exists y; split; [now left | assumption]|]. destruct IH as [(z & Hz & Rz)|N]; [left; exists z; split; [now right | exact Rz] | right; intros z [<- |Hz]; auto]. }
    destruct D as [D|D]; [now apply I1|]. rewrite I2 by exact D. now apply A1.
  - intros N. rewrite I2 by (intros y Hy; apply N; now right). apply A2, N. now left.
Qed.
Lemma fold_tuning ops c : forall cs, ((exists op, In op ops /\ is_intersection_reset c op) -> own_tuning (fold_left assign_op ops cs) c = Some (Tuning 7 6 (-3))) /\
  ((forall op, In op ops -> ~ is_intersection_reset c op) -> own_tuning (fold_left assign_op ops cs) c = own_tuning cs c).
Proof.
  assert (K : forall op, is_intersection_reset c op \/ ~ is_intersection_reset c op) by (intros [k cf [] d|]; cbn; try tauto; destruct (cf_traffic cf), c; (now left) || (right; discriminate)).
  induction ops as [|op ops IH]; intros cs; cbn [fold_left]; [split; [intros (op & [] & _) | reflexivity]|].
  destruct (IH (assign_op cs op)) as [I1 I2]. destruct (assign_tuning cs op c) as [A1 A2]. split.
  - intros (x & [<- |Hx] & Rx); [|apply I1; eauto].
    assert (D : (exists y, In y ops /\ is_intersection_reset c y) \/ (forall y, In y ops -> ~ is_intersection_reset c y)).
    { clear -K. induction ops as [|y ops IH]; [right; intros y []|]. destruct (K y); [left; exists y; split; [now left | assumption]|]. destruct IH as [(z & Hz & Rz)|N]; [left; exists z; split; [now right | exact Rz] | right; intros z [<- |Hz]; auto]. }
    destruct D as [D|D]; [now apply I1|]. rewrite I2 by exact D. now apply A1.
  - intros N. rewrite I2 by (intros y Hy; apply N; now right). apply A2, N. now left.
Qed.

(** The class attributes of a process after any operations: resets of roundabouts replace
    the speed grid of all meta-action vehicles, resets of intersections the three IDM
    constants of their traffic class and of the classes that inherit from it; nothing ever
    restores them. *)
Theorem C54_class_attributes : forall ops envs cs envs', run_ops (classes_default, envs) ops = Ok (cs, envs') ->
  ((exists op, In op ops /\ is_roundabout_reset op) -> cl_grid cs = SpeedGrid 0 16 3) /\
  ((forall op, In op ops -> ~ is_roundabout_reset op) -> cl_grid cs = SpeedGrid 20 30 3) /\
  forall c, ((exists op c', In op ops /\ In c' (ancestors c) /\ is_intersection_reset c' op) -> tuning_of cs c = Tuning 7 6 (-3)) /\
    ((forall op c', In op ops -> In c' (ancestors c) -> ~ is_intersection_reset c' op) -> tuning_of cs c = Tuning 10 3 (-5)).
Proof.
  intros ops envs cs envs' E. apply run_ops_store in E as ->. split; [apply fold_grid|]. split; [apply fold_grid|].
  set (cs := fold_left assign_op ops classes_default).
  assert (F : forall c, own_tuning cs c = own_tuning classes_default c \/ own_tuning cs c = Some (Tuning 7 6 (-3))).
  { intros c. unfold cs. generalize classes_default. clear. induction ops as [|op ops IH]; intros cs; [now left|]. cbn [fold_left].
    destruct (IH (assign_op cs op)) as [-> | ->]; [|now right]. destruct (assign_tuning cs op c) as [A1 A2].
    assert (D : is_intersection_reset c op \/ ~ is_intersection_reset c op) by (destruct op as [k cf [] d|]; cbn; try tauto; destruct (cf_traffic cf), c; (now left) || (right; discriminate)).
    destruct D as [D|D]; [right; now apply A1 | left; now apply A2]. }
  assert (Df : Tuning 10 3 (-5) = tuning_default) by (unfold tuning_default, V_LENGTH; f_equal; lra).
  intros c. split.
  - intros (op & c' & I & A & Rr). assert (T : own_tuning cs c' = Some (Tuning 7 6 (-3))) by (apply (fold_tuning ops c' classes_default); eauto).
    pose proof (F CIdm) as F1. pose proof (F CLinear) as F2. pose proof (F CAggressive) as F3. pose proof (F CDefensive) as F4. clearbody cs. cbn [own_tuning classes_default cl_idm cl_linear cl_aggressive cl_defensive] in *.
    destruct c; cbn [ancestors In] in A; repeat (destruct A as [<- |A]); try (now elim A); cbn [own_tuning] in T; unfold tuning_of, or_else;
      repeat match goal with |- context [match ?x with Some _ => _ | None => _ end] => destruct x eqn:?X end;
      repeat match goal with H : _ \/ _ |- _ => destruct H end; congruence.
  - intros N. rewrite Df.
    assert (T : forall c', In c' (ancestors c) -> own_tuning cs c' = own_tuning classes_default c') by (intros c' A; apply (fold_tuning ops c' classes_default); intros op I; now apply N).
    clearbody cs. destruct c; cbn [ancestors In] in T.
    + specialize (T CIdm (or_introl eq_refl)). cbn in *. congruence.
    + pose proof (T CLinear (or_introl eq_refl)) as T1. pose proof (T CIdm (or_intror (or_introl eq_refl))) as T2. cbn in *. rewrite T1. cbn. congruence.
    + pose proof (T CAggressive (or_introl eq_refl)) as T0. pose proof (T CLinear (or_intror (or_introl eq_refl))) as T1. pose proof (T CIdm (or_intror (or_intror (or_introl eq_refl)))) as T2. cbn in *. rewrite T0, T1. cbn. congruence.
    + pose proof (T CDefensive (or_introl eq_refl)) as T0. pose proof (T CLinear (or_intror (or_introl eq_refl))) as T1. pose proof (T CIdm (or_intror (or_intror (or_introl eq_refl)))) as T2. cbn in *. rewrite T0, T1. cbn. congruence.
Qed.
Print Assumptions C54_class_attributes.

Lemma already_same cs op : already_assigned cs op -> assign_op cs op = cs.
Proof.
  intros [H1 H2]. destruct op as [k cf s d|]; [|reflexivity]. destruct s; try reflexivity; cbn [assign_op assigned].
  - specialize (H1 I). unfold set_class_grid. destruct cs. cbn in *. now subst.
  - specialize (H2 _ eq_refl). unfold set_tuning, tuning_intersection. destruct cs, (cf_traffic cf); cbn in *; congruence.
Qed.
Lemma run_op_settled cs envs op ps : already_assigned cs op -> run_op (cs, envs) op = Ok ps -> fst ps = cs.
Proof. intros A E. destruct ps as [cs' envs']. apply run_op_store in E. rewrite already_same in E by exact A. exact E. Qed.

(** As long as no operation assigns a new value (in particular without roundabouts and
    intersections), an environment evolves exactly as if it were alone in the process. *)
Theorem C54_independent : forall ops cs envs cs' envs' k, Forall (already_assigned cs) ops -> run_ops (cs, envs) ops = Ok (cs', envs') ->
  cs' = cs /\ exists envs'', run_ops (cs, envs) (filter (concerns k) ops) = Ok (cs, envs'') /\ lookup_env k envs'' = lookup_env k envs'.
Proof.
  intros ops cs envs cs' envs' k F E.
  assert (G : forall ops envs0 envs1 cs' envs', Forall (already_assigned cs) ops -> run_ops (cs, envs0) ops = Ok (cs', envs') -> lookup_env k envs1 = lookup_env k envs0 ->
    cs' = cs /\ exists envs'', run_ops (cs, envs1) (filter (concerns k) ops) = Ok (cs, envs'') /\ lookup_env k envs'' = lookup_env k envs').
  { clear. unfold run_ops. induction ops as [|op ops IH]; intros envs0 envs1 cs' envs' F E L; cbn [foldM filter] in *.
    - assert (cs = cs' /\ envs0 = envs') as [<- <-] by (split; congruence). split; [reflexivity|]. exists envs1. now split.
    - inversion F as [|? ? F1 F2]; subst. apply bind_ok in E as ([cs1 envs2] & E1 & E). pose proof (run_op_settled _ _ _ _ F1 E1) as S1. cbn in S1. subst cs1.
      destruct (concerns k op) eqn:C.
      + cbn [foldM]. assert (Q : exists envs3, run_op (cs, envs1) op = Ok (cs, envs3) /\ lookup_env k envs3 = lookup_env k envs2).
        { unfold run_op in *. destruct op as [j cf s d|j o d a]; cbn [concerns] in C; apply Nat.eqb_eq in C; subst j.
          - apply bind_ok in E1 as ([[cs2 sc] e] & -> & E1). cbn [bind fst snd] in *. assert (cs2 = cs) as -> by congruence. eexists. split; [reflexivity|].
            match type of E1 with Ok (_, ?x) = _ => assert (envs2 = x) as -> by congruence end. cbn. now rewrite Nat.eqb_refl.
          - rewrite L. destruct (lookup_env k envs0) as [i|]; [|discriminate]. apply bind_ok in E1 as (e & -> & E1). cbn [bind]. eexists. split; [reflexivity|].
            match type of E1 with Ok (_, ?x) = _ => assert (envs2 = x) as -> by congruence end. cbn. now rewrite Nat.eqb_refl. }
        destruct Q as (envs3 & -> & L3). cbn [bind]. eapply IH; eassumption.
      + apply (IH envs2 envs1 cs' envs' F2 E). rewrite L. unfold run_op in E1. destruct op as [j cf s d|j o d a]; cbn [concerns] in C.
        * apply bind_ok in E1 as ([[cs2 sc] e] & _ & E1). match type of E1 with Ok (_, ?x) = _ => assert (envs2 = x) as -> by congruence end. cbn. now rewrite C.
        * destruct (lookup_env j envs0) as [i|]; [|discriminate]. apply bind_ok in E1 as (e & _ & E1). match type of E1 with Ok (_, ?x) = _ => assert (envs2 = x) as -> by congruence end. cbn. now rewrite C. }
  now apply (G ops envs envs).
Qed.
Print Assumptions C54_independent.
(** ... which is the case for every operation once it has been executed once. *)
Theorem C54_settles : forall ops cs envs cs' envs', run_ops (cs, envs) ops = Ok (cs', envs') -> Forall (already_assigned cs') ops.
Proof.
  intros ops cs envs cs' envs' E. apply run_ops_store in E as ->. apply Forall_forall. intros op I. split.
  - intros Rr. apply fold_grid. eauto.
  - intros c Rr. change (own_tuning (fold_left assign_op ops cs) c = Some (Tuning 7 6 (-3))). apply fold_tuning. eauto.
Qed.
Print Assumptions C54_settles.
(** Then looking the attributes up again at every use changes nothing. *)
Theorem C54_alone_unaffected : forall ops cs cs' envs, Forall (already_assigned cs) ops -> run_ops (cs, []) ops = Ok (cs', envs) ->
  forall k i, lookup_env k envs = Some i -> seen_env cs (in_cf i) (in_scene i) (in_env i) = in_env i.
Proof.
  intros ops cs cs' envs F E.
  assert (G : forall ops envs0 cs' envs, Forall (already_assigned cs) ops -> run_ops (cs, envs0) ops = Ok (cs', envs) ->
    (forall k i, lookup_env k envs0 = Some i -> all_fit cs (cf_traffic (in_cf i)) (has_own_grid (in_scene i)) (e_road (in_env i))) ->
    forall k i, lookup_env k envs = Some i -> all_fit cs (cf_traffic (in_cf i)) (has_own_grid (in_scene i)) (e_road (in_env i))).
  { clear. unfold run_ops. induction ops as [|op ops IH]; intros envs0 cs' envs F E H; cbn [foldM] in E; [assert (envs0 = envs) as <- by congruence; exact H|].
    inversion F as [|? ? F1 F2]; subst. apply bind_ok in E as ([cs1 envs1] & E1 & E). pose proof (run_op_settled _ _ _ _ F1 E1) as S1. cbn in S1. subst cs1.
    apply (IH envs1 cs' envs F2 E). intros k i. unfold run_op in E1. destruct op as [j cf s d|j o d a].
    - apply bind_ok in E1 as ([[cs2 sc] e] & Er & E1). cbn [fst snd] in E1. assert (cs2 = cs) as -> by congruence. match type of E1 with Ok (_, ?x) = _ => assert (envs1 = x) as -> by congruence end. cbn [lookup_env].
      destruct (Nat.eqb k j); [|apply H]. intros Q. match type of Q with Some ?x = _ => assert (i = x) as -> by congruence end. cbn [in_cf in_scene in_env]. now apply reset_fits in Er as [_ Er].
    - destruct (lookup_env j envs0) as [i0|] eqn:L; [|discriminate]. apply bind_ok in E1 as (e & Es & E1). match type of E1 with Ok (_, ?x) = _ => assert (envs1 = x) as -> by congruence end. cbn [lookup_env].
      destruct (Nat.eqb k j); [|apply H]. intros Q. match type of Q with Some ?x = _ => assert (i = x) as -> by congruence end. cbn [in_cf in_scene in_env]. eapply scene_step_fits; [exact Es | apply seen_fit]. }
  intros k i L. apply seen_same. eapply G; [exact F | exact E | intros ? ? Q; discriminate | exact L].
Qed.
Print Assumptions C54_alone_unaffected.

(** ** Interference *)
Lemma round_is x z : Rabs (x - IZR z) < 1/2 -> Rround_even x = z.
Proof.
  intros H. pose proof (Rround_even_near x) as N. set (r := Rround_even x) in *.
  assert (Rabs (IZR (r - z)) < 1). { rewrite minus_IZR. replace (IZR r - IZR z) with ((x - IZR z) - (x - IZR r)) by ring. eapply Rle_lt_trans; [apply Rabs_triang|]. rewrite Rabs_Ropp. lra. }
  rewrite <- abs_IZR in H0. apply lt_IZR in H0. lia.
Qed.
Lemma grid_speeds : index_to_speed grid_default (speed_to_index grid_default 25) = 25 /\ index_to_speed grid_default (speed_to_index grid_default 8) = 20 /\
  index_to_speed roundabout_grid (speed_to_index roundabout_grid 25) = 16 /\ index_to_speed roundabout_grid (speed_to_index roundabout_grid 8) = 8.
Proof.
  unfold speed_to_index, index_to_speed, grid_default, roundabout_grid. cbn [sg_min sg_max sg_count Z.sub Z.add Z.opp Z.pos_sub Pos.pred_double Z.ltb Z.compare Pos.compare Pos.compare_cont].
  rewrite (round_is _ 1), (round_is ((8 - 20) / (30 - 20) * 2) (-2)), (round_is ((25 - 0) / (16 - 0) * 2) 3), (round_is ((8 - 0) / (16 - 0) * 2) 1);
    try (match goal with |- Rabs ?x < _ => unfold Rabs; destruct (Rcase_abs x); lra end).
  unfold Zclip. cbn. repeat split; lra.
Qed.
Lemma highway_made cs cf h d e : highway_reset cs cf h d = Ok e -> forall v, In v (rd_vehicles (e_road e)) -> v_kind v = KMDP -> mdp_made cs KMDP 25 v.
Proof.
  unfold highway_reset. intros H. apply bind_ok in H as ([rd ctl] & E1 & H). apply bind_ok in H as (rd2 & E2 & H). okinj H. cbn [fresh_env e_road].
  set (Q := fun rd : road => forall v, In v (rd_vehicles rd) -> v_kind v = KMDP -> mdp_made cs KMDP 25 v).
  assert (Ad : forall rd v, Q rd -> (v_kind v = KMDP -> mdp_made cs KMDP 25 v) -> Q (add_vehicle rd v)).
  { intros r v Hr Hv w Hw. cbn in Hw. apply in_app_or in Hw as [Hw|[<- |[]]]; [now apply Hr | exact Hv]. }
  change (Q rd2). eapply (foldM_keeps Q); [|exact E2|].
  - intros s j s' _ E Hs. unfold highway_other in E. apply bind_ok in E as (sp & _ & E). apply bind_ok in E as ([p hd] & _ & E). apply bind_ok in E as (v & Ev & E). okinj E.
    apply Ad; [exact Hs|]. intros K. exfalso. unfold new_traffic, new_idm in Ev. apply bind_ok in Ev as (w & _ & Ev).
    apply (f_equal (fun r => match r with Ok x => v_kind x | Err _ => KMDP end)) in Ev. cbn in Ev. rewrite K in Ev. destruct (cf_traffic cf); discriminate.
  - change (Q (fst (rd, ctl))). eapply (foldM_keeps (fun st => Q (fst st))); [|exact E1 | intros v []].
    intros [s l] j [s' l'] _ E Hs. unfold highway_ego in E. apply bind_ok in E as ([p hd] & _ & E). apply bind_ok in E as (v & Ev & E).
    assert (s' = add_vehicle s v) as -> by congruence. apply Ad; [exact Hs|]. intros K. pose proof (ego_made _ _ _ _ _ _ _ _ (ego_kind_cases cf) (or_intror I) Ev) as M. assert (v_kind v = ego_kind cf) as Kv by apply M. rewrite K in Kv. now rewrite <- Kv in M.
Qed.
Lemma roundabout_made cs cf inc d cs' e : roundabout_reset cs cf inc d = Ok (cs', e) -> forall v, In v (rd_vehicles (e_road e)) -> v_kind v = KMDP ->
  v_target_speed v = index_to_speed (cl_grid cs) (speed_to_index (cl_grid cs) 8).
Proof.
  unfold roundabout_reset. intros H. cbv zeta in H. apply bind_ok in H as (l & _ & H). apply bind_ok in H as (v & Ev & H). apply bind_ok in H as (w & Ew & H). apply bind_ok in H as (rd1 & E1 & H).
  match type of H with Ok (?a, ?b) = _ => assert (b = e) as <- by congruence end. clear H. cbn [fresh_env e_road].
  set (Q := fun rd : road => forall v, In v (rd_vehicles rd) -> v_kind v = KMDP -> v_target_speed v = index_to_speed (cl_grid cs) (speed_to_index (cl_grid cs) 8)).
  assert (Ad : forall rd v, Q rd -> (v_kind v = KMDP -> v_target_speed v = index_to_speed (cl_grid cs) (speed_to_index (cl_grid cs) 8)) -> Q (add_vehicle rd v)).
  { intros r u Hr Hv x Hx. cbn in Hx. apply in_app_or in Hx as [Hx|[<- |[]]]; [now apply Hr | exact Hv]. }
  change (Q rd1). eapply (foldM_keeps Q); [|exact E1|].
  - intros s [[j i] x] s' _ E Hs. unfold roundabout_other in E. apply bind_ok in E as (u & Eu & E). apply bind_ok in E as (dest & _ & E). apply bind_ok in E as (u' & Eu' & E). okinj E.
    apply Ad; [exact Hs|]. intros K. exfalso. destruct (randomize_same d (5 * j) (cf_traffic cf) u') as (_ & K' & _). rewrite K' in K. apply planned_same in Eu' as [rt ->]. cbn in K.
    unfold traffic_on_lane, new_traffic, new_idm in Eu. apply bind_ok in Eu as (? & _ & Eu). apply bind_ok in Eu as (? & _ & Eu).
    apply (f_equal (fun r => match r with Ok x => v_kind x | Err _ => KMDP end)) in Eu. cbn in Eu. rewrite K in Eu. destruct (cf_traffic cf); discriminate.
  - apply Ad; [intros ? []|]. intros K. cbn in K. pose proof (ego_made _ _ _ _ _ _ _ _ (ego_kind_cases cf) (or_intror I) Ev) as [Mk M].
    assert (T : v_kind w = v_kind v /\ v_target_speed w = v_target_speed v).
    { destruct (is_controlled (ego_kind cf)); [apply planned_same in Ew as [rt ->]; now split | okinj Ew; now split]. }
    destruct T as [T1 T2]. cbn [set_grid v_target_speed]. rewrite T2. apply M. congruence.
Qed.

Lemma reset_roundabout cs cf du inc d cs' sc e : reset cs cf (SRoundabout du inc) d = Ok (cs', sc, e) -> roundabout_reset cs cf inc d = Ok (cs', e).
Proof.
  unfold reset. intros E. apply bind_ok in E as ([cs1 e1] & E & E'). assert (Q : (cs1, e1) = (cs', e)) by congruence. rewrite <- Q. exact E.
Qed.
(** The first episode of a roundabout is not like the others: its ego, driving at 8 m/s,
    aims at 20 m/s in the first and at 8 m/s in all later ones. *)
Theorem C54_roundabout_first_episode : forall cf duration incoming d cs sc e, reset classes_default cf (SRoundabout duration incoming) d = Ok (cs, sc, e) ->
  (forall v, In v (rd_vehicles (e_road e)) -> v_kind v = KMDP -> v_target_speed v = 20) /\
  forall cf' duration' incoming' d' cs' sc' e', reset cs cf' (SRoundabout duration' incoming') d' = Ok (cs', sc', e') ->
    forall v, In v (rd_vehicles (e_road e')) -> v_kind v = KMDP -> v_target_speed v = 8.
Proof.
  intros cf du inc d cs sc e E. pose proof (proj1 (reset_fits _ _ _ _ _ _ _ E)) as Q. apply reset_roundabout in E. destruct grid_speeds as (_ & G2 & _ & G4).
  assert (Gc : cl_grid cs = roundabout_grid) by (rewrite Q; reflexivity). clear Q. split.
  - intros v Hv K. rewrite (roundabout_made _ _ _ _ _ _ E v Hv K). exact G2.
  - intros cf' du' inc' d' cs' sc' e' F v Hv K. apply reset_roundabout in F. rewrite (roundabout_made _ _ _ _ _ _ F v Hv K), Gc. exact G4.
Qed.
Print Assumptions C54_roundabout_first_episode.
(** A highway environment created before any roundabout is reset starts with egos aiming at
    their 25 m/s; created after one, with egos aiming at 16 m/s. *)
Theorem C54_highway_after_roundabout : forall ops envs cs envs' cf h d cs' sc e, run_ops (classes_default, envs) ops = Ok (cs, envs') ->
  reset cs cf (SHighway h) d = Ok (cs', sc, e) ->
  ((forall op, In op ops -> ~ is_roundabout_reset op) -> forall v, In v (rd_vehicles (e_road e)) -> v_kind v = KMDP -> v_target_speed v = 25) /\
  ((exists op, In op ops /\ is_roundabout_reset op) -> forall v, In v (rd_vehicles (e_road e)) -> v_kind v = KMDP -> v_target_speed v = 16).
Proof.
  intros ops envs cs envs' cf h d cs' sc e E F. destruct (C54_class_attributes _ _ _ _ E) as (G1 & G2 & _). cbn [reset] in F. apply bind_ok in F as (e1 & F & F'). assert (e1 = e) as -> by congruence.
  destruct grid_speeds as (S1 & _ & S3 & _).
  split; intros H v Hv K; destruct (highway_made _ _ _ _ _ F v Hv K) as [_ M]; destruct (M eq_refl) as (_ & _ & ->); [rewrite (G2 H); exact S1 | rewrite (G1 H); exact S3].
Qed.
Print Assumptions C54_highway_after_roundabout.
(** A vehicle of an environment already running is affected too: from 23 m/s FASTER means
    30 m/s until some roundabout is reset, and then 16 m/s. *)
Theorem C54_running_environment_changes : forall ops envs cs envs' c g draw v w, run_ops (classes_default, envs) ops = Ok (cs, envs') ->
  v_kind v = KMDP -> 23 <= v_speed v -> mdp_act g draw (look_up cs c false v) (Some FASTER) = Ok w ->
  ((forall op, In op ops -> ~ is_roundabout_reset op) -> v_target_speed w = 30) /\
  ((exists op, In op ops /\ is_roundabout_reset op) -> v_target_speed w = 16).
Proof.
  intros ops envs cs envs' c g draw v w E K Hs A. destruct (C54_class_attributes _ _ _ _ E) as (G1 & G2 & _). apply mdp_act_ok in A as (_ & M & _). cbv zeta in M. destruct M as [_ T].
  unfold look_up in T. rewrite K in T. cbn [set_grid v_grid v_speed] in T.
  split; intros H; [rewrite (G2 H) in T | rewrite (G1 H) in T]; rewrite T; unfold speed_to_index, index_to_speed; cbn [sg_min sg_max sg_count Z.sub Z.add Z.opp Z.pos_sub Pos.pred_double Z.ltb Z.compare Pos.compare Pos.compare_cont];
    match goal with |- context [Rround_even ?x] => pose proof (Rround_even_near x) as N; set (r := Rround_even x) in *; assert (Hr : (1 <= r)%Z) end.
  - apply Znot_gt_le. intros Hr. assert (r <= 0)%Z as Hr' by lia. apply IZR_le in Hr'. unfold Rabs in N. destruct (Rcase_abs _) in N; lra.
  - replace (Zclip (Zclip r 0 2 + 1) 0 2) with 2%Z by (unfold Zclip; lia). lra.
  - apply Znot_gt_le. intros Hr. assert (r <= 0)%Z as Hr' by lia. apply IZR_le in Hr'. unfold Rabs in N. destruct (Rcase_abs _) in N; lra.
  - replace (Zclip (Zclip r 0 2 + 1) 0 2) with 2%Z by (unfold Zclip; lia). lra.
Qed.
Print Assumptions C54_running_environment_changes.
(** Traffic of any environment created later, or already running, follows at the distance
    and with the comfort accelerations of the intersection once one has been reset with its
    class or a class it inherits from. *)
Theorem C54_traffic_retuned : forall ops envs cs envs' cf s e v, run_ops (classes_default, envs) ops = Ok (cs, envs') ->
  In v (rd_vehicles (e_road (seen_env cs cf s e))) -> v_kind v = KIDM \/ v_kind v = KLinear ->
  ((exists op c', In op ops /\ In c' (ancestors (cf_traffic cf)) /\ is_intersection_reset c' op) ->
     ip_distance (v_par v) = 7 /\ ip_comfort_max (v_par v) = 6 /\ ip_comfort_min (v_par v) = -3) /\
  ((forall op c', In op ops -> In c' (ancestors (cf_traffic cf)) -> ~ is_intersection_reset c' op) ->
     ip_distance (v_par v) = 10 /\ ip_comfort_max (v_par v) = 3 /\ ip_comfort_min (v_par v) = -5).
Proof.
  intros ops envs cs envs' cf s e v E Hv K. destruct (C54_class_attributes _ _ _ _ E) as (_ & _ & T). destruct (T (cf_traffic cf)) as [T1 T2].
  pose proof (seen_fit cs cf s e v Hv) as F. apply fits_iff in F as [F _]. specialize (F K).
  split; intros H; rewrite <- F; unfold tuned; cbn [ip_distance ip_comfort_max ip_comfort_min]; [rewrite (T1 H) | rewrite (T2 H)]; cbn; repeat split.
Qed.
Print Assumptions C54_traffic_retuned.

(** The normalisation of observations by the maximal speed changes as well: an ego at 100 m
    reads 2/3 before, 1 after. *)
Theorem C54_observation_changes : forall ops envs cs envs' c perception shuffle rd o out r j, run_ops (classes_default, envs) ops = Ok (cs, envs') ->
  (2 <= kc_count c)%Z -> kc_order c <> "shuffled"%string -> kc_normalize c = true -> kc_clip c = true -> nth_error (kin_features c) j = Some "x"%string ->
  fst (v_pos o) = 100 -> kin_observe c (sg_max (cl_grid cs)) perception shuffle None (Some rd) o = Ok (out, r) ->
  ((forall op, In op ops -> ~ is_roundabout_reset op) -> entry out 0 j = Some (2/3)) /\ ((exists op, In op ops /\ is_roundabout_reset op) -> entry out 0 j = Some 1).
Proof.
  intros ops envs cs envs' c perc sh rd o out r j E C No N Cp Hj Hx Eo. destruct (C54_class_attributes _ _ _ _ E) as (G1 & G2 & _). split; intros H.
  - rewrite (G2 H) in Eo. cbn [sg_max] in Eo. destruct (C46_table _ _ _ _ _ _ _ _ _ C No Eo) as (close & Cl & Ln & Lr & Z0 & _).
    destruct (Z0 j "x"%string Hj) as (x & y & -> & F & Sc). destruct (proj2 (C46_ranges _ _ _ _ _ _ _ _ _ C N Eo) (or_introl eq_refl)) as (rr & lanes & -> & _ & A).
    rewrite N, Cp in Sc. unfold range_in in Sc. rewrite A in Sc. cbn in Sc. destruct Sc as (_ & z & -> & S0). inversion F; subst. rewrite Hx in S0.
    f_equal. unfold saturate in S0. lra.
  - rewrite (G1 H) in Eo. cbn [sg_max] in Eo. eapply C75_ego_position_saturates; [exact C | | exact No | exact N | exact Cp | exact Hj | | exact Eo]; lra.
Qed.
Print Assumptions C54_observation_changes.

(** Such processes exist. *)
Example C54_nonvacuous :
  (exists ps, run_ops (classes_default, []) [OReset 0 meta_common highway_default_scene some_draws; OReset 1 meta_common (SRoundabout 11 None) some_draws;
     OReset 2 intersection_common intersection_default_scene some_draws; OReset 0 meta_common highway_default_scene some_draws] = Ok ps) /\
  Forall (already_assigned classes_default) [OReset 0 meta_common highway_default_scene some_draws; OReset 1 meta_common SMerge some_draws; OStep 0 some_oracle some_draws (ActInt 0)] /\
  exists ps, run_ops (classes_default, []) [OReset 0 meta_common highway_default_scene some_draws; OReset 1 meta_common SMerge some_draws; OStep 0 some_oracle some_draws (ActInt 0)] = Ok ps.
Proof.
  destruct C82_nonvacuous as ((H1 & H2) & _ & (M1 & M2) & _ & _ & (R1 & R2) & (I1 & I2) & _). assert (D := some_draws_ok).
  split; [|split].
  - unfold run_ops. cbn [foldM]. unfold run_op at 1. destruct (C82_reset_total classes_default _ _ _ D H1 H2) as (cs1 & sc1 & e1 & -> & _). cbn [bind fst snd].
    unfold run_op at 1. destruct (C82_reset_total cs1 _ _ _ D R1 R2) as (cs2 & sc2 & e2 & -> & _). cbn [bind fst snd].
    unfold run_op at 1. destruct (C82_reset_total cs2 _ _ _ D I1 I2) as (cs3 & sc3 & e3 & -> & _). cbn [bind fst snd].
    unfold run_op at 1. destruct (C82_reset_total cs3 _ _ _ D H1 H2) as (cs4 & sc4 & e4 & -> & _). cbn [bind fst snd]. eexists. reflexivity.
  - do 3 (constructor; [split; [intros [] | intros c []]|]). constructor.
  - unfold run_ops. cbn [foldM]. unfold run_op at 1. destruct (C82_reset_total classes_default _ _ _ D H1 H2) as (cs1 & sc1 & e1 & E1 & _). rewrite E1. cbn [bind fst snd].
    unfold run_op at 1. destruct (C82_reset_total cs1 _ _ _ D M1 M2) as (cs2 & sc2 & e2 & -> & _). cbn [bind fst snd].
    unfold run_op at 1. cbn [lookup_env Nat.eqb in_cf in_scene in_scenario in_env].
    assert (A : in_action_space (cf_action meta_common) (agents_count highway_default_scene) (ActInt 0)) by (split; [cbn; lia | now left]).
    assert (Hp : cf_policy meta_common <> 0) by (cbn; lra).
    destruct (C82_no_step_fails _ _ _ _ _ _ _ [] [] D H1 H2 Hp E1 ltac:(constructor) ltac:(constructor) cs2 some_oracle some_draws (ActInt 0) some_oracle_ok D A) as (e' & E').
    cbn [last] in E'. rewrite E'. cbn [bind]. eexists. reflexivity.
Qed.
