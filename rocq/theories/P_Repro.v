(** Lemmas about the order of sets. *)
From Coq Require Import Lia Permutation Lra.
From Verif Require Import Prelude M_Utils M_Lane M_Road M_Vehicle M_Kinematics M_Control M_Behavior M_Regulation M_Action M_Env M_Scenes M_Nets M_Reset M_Ttc M_Obs M_Gym
  S_Geometry S_Road S_Vehicle S_Control S_Behavior S_Regulation S_Env S_Reset S_Gym S_Repro
  P_Base P_Utils P_Lane P_Graph P_Bfs P_Reset P_Behavior P_Regulation P_Traffic P_Action P_Env P_Ready P_Share P_Crossing P_Entry P_Scene P_Paths.
Import ListNotations.
Open Scope R_scope.

Lemma bind_ext {A B} (m : res A) (f g : A -> res B) : (forall x, m = Ok x -> f x = g x) -> bind m f = bind m g.
Proof. intros H. destruct m as [x|]; cbn [bind]; [now apply H | reflexivity]. Qed.
Lemma foldM_ext {A B} (I : nat -> B -> Prop) (f g : B -> A -> res B) l :
  (forall k x, nth_error l k = Some x -> forall s, I k s -> f s x = g s x /\ forall s', f s x = Ok s' -> I (S k) s') ->
  forall s, I 0%nat s -> foldM f l s = foldM g l s.
Proof.
  intros H s Hs. enough (X : forall k, (forall j x, nth_error l j = Some x -> forall s, I (k + j)%nat s -> f s x = g s x /\ forall s', f s x = Ok s' -> I (S (k + j)) s') -> forall s, I k s -> foldM f l s = foldM g l s).
  { apply (X 0%nat); [exact H | exact Hs]. }
  clear H s Hs. induction l as [|x l IH]; intros k H s Hs; [reflexivity|]. cbn [foldM]. destruct (H 0%nat x eq_refl s) as [E N]; [now rewrite Nat.add_0_r|].
  rewrite <- E. apply bind_ext. intros s' E'. apply (IH (S k)).
  - intros j y Hy t Ht. replace (S k + j)%nat with (k + S j)%nat in * by lia. now apply (H (S j) y Hy).
  - rewrite Nat.add_0_r in N. now apply N.
Qed.
Lemma plan_same g ord ord' v dst : shortest_path g ord (li_to (v_lane_index v)) dst = shortest_path g ord' (li_to (v_lane_index v)) dst ->
  plan_route_to g ord v dst = plan_route_to g ord' v dst.
Proof. unfold plan_route_to. now intros ->. Qed.

(** Pairs that are not turning back. *)
Lemma not_turning a dst : (a < 4)%nat -> dst <> corner_name "o" a -> dst <> corner_name "il" a -> ~ In (corner_name "ir" a, dst) turning_back.
Proof.
  intros Ha N1 N2 H. unfold turning_back in H. apply in_flat_map in H as (k & Hk & H). apply in_seq in Hk.
  destruct a as [|[|[|[|a]]]]; [| | | |lia]; (destruct k as [|[|[|[|k]]]]; [| | | |lia]); destruct H as [E|[E|[E|[]]]];
    pose proof (f_equal fst E) as E1; pose proof (f_equal snd E) as E2; cbn [fst snd] in E1, E2; try discriminate E1; congruence.
Qed.
Lemma corner_o_inj a b : (a < 4)%nat -> (b < 4)%nat -> corner_name "o" a = corner_name "o" b -> a = b.
Proof. intros Ha Hb. destruct a as [|[|[|[|a]]]]; [| | | |lia]; (destruct b as [|[|[|[|b]]]]; [| | | |lia]); intros E; try reflexivity; discriminate E. Qed.
Lemma corner_o_il a b : (a < 4)%nat -> (b < 4)%nat -> corner_name "o" a <> corner_name "il" b.
Proof. intros Ha Hb. destruct a as [|[|[|[|a]]]]; [| | | |lia]; (destruct b as [|[|[|[|b]]]]; [| | | |lia]); intros E; discriminate E. Qed.
Lemma near_normal d k : near_draws d -> -5 <= dr_normal d k <= 5.
Proof. intros H. specialize (H k). unfold Rabs in H. destruct (Rcase_abs _); lra. Qed.

(** ** Spawning *)
Lemma spawn_same cs c d ord j ctl lon pd sd prob straight rd : draws_ok d -> set_order ord -> rd_net rd = intersection_net ->
  0 <= lon + 5 + dr_normal d (2 * j) * pd < 100 ->
  spawn cs c d j ctl lon pd sd prob straight rd = spawn cs c (reorder d ord) j ctl lon pd sd prob straight rd.
Proof.
  intros D O Nr Hs. unfold spawn. cbn [reorder dr_unit dr_pair dr_normal dr_ord]. destruct (Rltb _ _); [reflexivity|]. cbv zeta. rewrite Nr.
  assert (Dp : (fst (dr_pair d j) < 4)%nat /\ (snd (dr_pair d j) < 4)%nat /\ fst (dr_pair d j) <> snd (dr_pair d j)) by apply D. destruct Dp as (Ha & Hb & Hab).
  apply bind_ext. intros v Ev. destruct (existsb _ _); [reflexivity|].
  apply (traffic_lane _ _ _ _ _ _ _ _ _ (crossing_arm _ Ha)) in Ev. rewrite (closest_on_arm _ _ _ Ha Hs eq_refl) in Ev.
  assert (Lv : v_lane_index v = (corner_name "o" (fst (dr_pair d j)), corner_name "ir" (fst (dr_pair d j)), Some 0%Z)) by congruence.
  rewrite (plan_same intersection_net (dr_ord d) ord v); [reflexivity|]. rewrite Lv. unfold li_to. cbn [fst snd].
  apply intersection_unique; [|apply D | exact O].
  assert (Hx : forall b, (b < 4)%nat -> fst (dr_pair d j) <> b -> ~ In (corner_name "ir" (fst (dr_pair d j)), corner_name "o" b) turning_back).
  { intros b Hb' N. apply not_turning; [exact Ha | intros E; apply N; symmetry; now apply corner_o_inj | now apply corner_o_il]. }
  destruct straight; apply Hx; [apply Nat.mod_upper_bound; lia | | exact Hb | exact Hab].
  destruct (fst (dr_pair d j)) as [|[|[|[|a]]]]; [| | | |lia]; cbn; lia.
Qed.
Lemma spawn_net cs c d j ctl lon pd sd prob straight rd rd' : spawn cs c d j ctl lon pd sd prob straight rd = Ok rd' -> rd_net rd' = rd_net rd.
Proof.
  unfold spawn. destruct (Rltb _ _); [intros E; now okinj E|]. cbv zeta. intros E. apply bind_ok in E as (v & _ & E). destruct (existsb _ _); [now okinj E|].
  apply bind_ok in E as (w & _ & E). now okinj E.
Qed.
Lemma warm_net dt d rd t rd' : warm_frame dt d rd t = Ok rd' -> rd_net rd' = rd_net rd.
Proof.
  unfold warm_frame. intros E. apply bind_ok in E as (rd1 & E1 & E). apply road_act_acted in E1 as (N1 & _). apply regulated_step_net in E as [N2 _]. congruence.
Qed.

(** ** Agents *)
Lemma destination_is dest d k : match truthy_node dest with Some s => s | None => corner_name "o" (1 + dr_int d k 3%nat) end = agent_destination dest d k.
Proof. destruct dest as [s|]; [|reflexivity]. unfold truthy_node. destruct (String.eqb_spec s "") as [-> |N]; [reflexivity|]. destruct s; [now elim N | reflexivity]. Qed.
Lemma ego_lane cs cf g id p h s v : new_ego cs (ego_kind cf) g id p h s = Ok v -> get_closest_lane_index g p (Some h) = Ok (v_lane_index v).
Proof.
  assert (X : forall w, new_vehicle g id p h s = Ok w -> get_closest_lane_index g p (Some h) = Ok (v_lane_index w)).
  { intros w E. unfold new_vehicle in E. destruct (get_closest_lane_index g p (Some h)) as [i|]; cbn [bind] in E; [|discriminate]. okinj E. reflexivity. }
  unfold new_ego. destruct (ego_kind cf); intros E.
  all: try (apply bind_ok in E as (w & Ew & E); okinj E; cbn [set_kind v_lane_index]; exact (X _ Ew)).
  unfold new_mdp, new_controlled in E. apply bind_ok in E as (u & E & E'). apply bind_ok in E as (w & Ew & E). rewrite (X _ Ew). okinj E. now okinj E'.
Qed.
Lemma ego_same cs cf dest d ord k rd ctl : draws_ok d -> set_order ord -> near_draws d -> rd_net rd = intersection_net -> (k < 4)%nat -> goes_elsewhere dest d k ->
  intersection_ego cs cf dest d (rd, ctl) k = intersection_ego cs cf dest (reorder d ord) (rd, ctl) k.
Proof.
  intros D O Nd Nr Hk [N1 N2]. unfold intersection_ego. cbn [reorder dr_normal dr_int dr_ord]. rewrite Nr, crossing_arm by exact Hk. cbn [bind]. cbv zeta.
  apply bind_ext. intros v Ev. apply ego_lane in Ev.
  destruct (negb _); [reflexivity|]. rewrite destination_is. rewrite (plan_same intersection_net (dr_ord d) ord v); [reflexivity|].
  pose proof (near_normal d (1000 + k) Nd) as Hn. rewrite (closest_on_arm k _ _ Hk) in Ev; [|lra | reflexivity].
  assert (Lv : v_lane_index v = (corner_name "o" k, corner_name "ir" k, Some 0%Z)) by congruence.
  rewrite Lv. unfold li_to. cbn [fst snd]. apply intersection_unique; [now apply not_turning | apply D | exact O].
Qed.
Lemma ego_net cs cf dest d rd ctl k rd' ctl' : intersection_ego cs cf dest d (rd, ctl) k = Ok (rd', ctl') -> rd_net rd' = rd_net rd.
Proof.
  unfold intersection_ego. intros E. apply bind_ok in E as (l & _ & E). cbv zeta in E. apply bind_ok in E as (v & _ & E). destruct (negb _); [discriminate|].
  apply bind_ok in E as (w & _ & E). match type of E with Ok (?a, _) = _ => assert (a = rd') as <- by congruence end. reflexivity.
Qed.

(** ** Reset *)
Lemma intersection_same cs cf n m dest d ord : draws_ok d -> set_order ord -> near_draws d -> (n <= 4)%nat -> (forall k, (k < n)%nat -> goes_elsewhere dest d k) ->
  intersection_reset cs cf n m dest d = intersection_reset cs cf n m dest (reorder d ord).
Proof.
  intros D O Nd Hn Hg. unfold intersection_reset. cbv zeta. set (cs' := set_tuning _ _ _).
  assert (P1 : foldM (fun rd t => spawn cs' (cf_traffic cf) d t [] (spawn_place m t) 1 1 (6/10) false rd) (seq 0 (m - 1)) (empty_road intersection_net cf) =
               foldM (fun rd t => spawn cs' (cf_traffic cf) (reorder d ord) t [] (spawn_place m t) 1 1 (6/10) false rd) (seq 0 (m - 1)) (empty_road intersection_net cf)).
  { apply (foldM_ext (fun _ rd => rd_net rd = intersection_net)); [|reflexivity]. intros k t Ht rd Nr. apply nth_error_In, in_seq in Ht. split.
    - apply spawn_same; [exact D | exact O | exact Nr|]. pose proof (near_normal d (2 * t) Nd). unfold spawn_place.
      assert (H1 : 0 < INR (m - 1)) by (apply lt_0_INR; lia). assert (H2 : INR t < INR (m - 1)) by (apply lt_INR; lia). pose proof (pos_INR t).
      assert (0 <= 80 * INR t / INR (m - 1) <= 80); [|lra]. split; [apply Rmult_le_pos; [lra | left; now apply Rinv_0_lt_compat]|].
      apply Rmult_le_reg_r with (INR (m - 1)); [exact H1|]. unfold Rdiv. rewrite Rmult_assoc, Rinv_l by lra. lra.
    - intros rd' E. apply spawn_net in E. congruence. }
  rewrite P1. apply bind_ext. intros rd1 E1.
  assert (N1 : rd_net rd1 = intersection_net).
  { refine (foldM_keeps (fun rd => rd_net rd = intersection_net) _ _ _ _ _ E1 eq_refl). intros s x s' _ E Hs. apply spawn_net in E. congruence. }
  change (warm_frame (1 / INR (cf_simulation cf)) (reorder d ord)) with (warm_frame (1 / INR (cf_simulation cf)) d).
  apply bind_ext. intros rd2 E2.
  assert (N2 : rd_net rd2 = intersection_net).
  { refine (foldM_keeps (fun rd => rd_net rd = intersection_net) _ _ _ _ _ E2 N1). intros s x s' _ E Hs. apply warm_net in E. congruence. }
  rewrite <- (spawn_same cs' (cf_traffic cf) d ord); [|exact D | exact O | exact N2 | pose proof (near_normal d (2 * (m - 1)) Nd); lra].
  apply bind_ext. intros rd3 E3. apply spawn_net in E3.
  rewrite (foldM_ext (fun _ st => rd_net (fst st) = intersection_net) (intersection_ego cs' cf dest d) (intersection_ego cs' cf dest (reorder d ord))); [reflexivity | | cbn [fst]; congruence].
  intros k x Hx [rd ctl] Nr. cbn [fst] in Nr. apply nth_error_In, in_seq in Hx. split; [apply ego_same; try assumption; [lia | apply Hg; lia]|].
  intros [rd' ctl'] E. apply ego_net in E. cbn [fst]. congruence.
Qed.
Lemma roundabout_same cs cf inc d ord : draws_ok d -> set_order ord -> roundabout_reset cs cf inc d = roundabout_reset cs cf inc (reorder d ord).
Proof.
  intros D O. assert (U : forall v dst, plan_route_to roundabout_net (dr_ord d) v dst = plan_route_to roundabout_net ord v dst) by (intros v dst; apply plan_same, roundabout_unique; [apply D | exact O]).
  unfold roundabout_reset. cbv zeta. cbn [reorder dr_ord]. apply bind_ext. intros l _. apply bind_ext. intros e _. cbn [empty_road rd_net].
  assert (E : (if is_controlled (ego_kind cf) then plan_route_to roundabout_net (dr_ord d) e "nxs" else Ok e) = (if is_controlled (ego_kind cf) then plan_route_to roundabout_net ord e "nxs" else Ok e)).
  { destruct (is_controlled _); [apply U | reflexivity]. }
  rewrite E. apply bind_ext. intros e' _.
  match goal with |- bind (foldM ?f ?l ?s) _ = bind (foldM ?g _ _) _ => rewrite (foldM_ext (fun _ rd => rd_net rd = roundabout_net) f g l) end; [reflexivity | | reflexivity].
  intros k [[j i] s] _ rd Nr. split.
  - unfold roundabout_other. cbn [reorder dr_normal dr_int dr_ord]. cbv zeta. apply bind_ext. intros v _. apply bind_ext. intros dst _. rewrite Nr, U. reflexivity.
  - intros rd' E'. unfold roundabout_other in E'. cbv zeta in E'. apply bind_ok in E' as (v & _ & E'). apply bind_ok in E' as (dst & _ & E'). apply bind_ok in E' as (w & _ & E'). okinj E'. exact Nr.
Qed.
Lemma reset_same cs cf s d ord : draws_ok d -> set_order ord -> order_free s d -> reset cs cf s d = reset cs cf s (reorder d ord).
Proof.
  intros D O F. unfold reset. destruct s as [h| | |n dur|n dur|dur inc|c n m dst prob]; try reflexivity.
  - cbv zeta. now rewrite (roundabout_same cs cf inc d ord D O).
  - destruct F as (Nd & Hn & Hg). cbv zeta. now rewrite (intersection_same cs cf n m dst d ord).
Qed.

(** ** Steps *)
Definition on_crossing (s : scene) (e : env) : Prop := match s with SIntersection _ _ _ _ _ => rd_net (e_road e) = intersection_net | _ => True end.
Lemma clear_net ctl rd rd' : clear_vehicles ctl rd = Ok rd' -> rd_net rd' = rd_net rd.
Proof. unfold clear_vehicles. intros E. apply bind_ok in E as (vs & _ & E). now okinj E. Qed.
Lemma spawn_step_same cs c d ord ctl prob rd : draws_ok d -> set_order ord -> near_draws d -> rd_net rd = intersection_net ->
  spawn cs c d 0 ctl 0 1 1 prob false rd = spawn cs c (reorder d ord) 0 ctl 0 1 1 prob false rd.
Proof. intros D O Nd Nr. apply spawn_same; [exact D | exact O | exact Nr|]. pose proof (near_normal d (2 * 0) Nd). lra. Qed.
Lemma scene_step_same cs cf s sc o d ord e a : draws_ok d -> near_draws d -> set_order ord -> on_crossing s e ->
  scene_step cs cf s sc o d e a = scene_step cs cf s sc o (reorder d ord) e a /\ forall e', scene_step cs cf s sc o d e a = Ok e' -> on_crossing s e'.
Proof.
  intros D Nd O Nc. destruct s as [h| | |n dur|n dur|dur inc|c n m dst prob]; try (split; [reflexivity | intros; exact I]).
  cbn [scene_step on_crossing] in *. unfold intersection_step. split.
  - apply bind_ext. intros e1 E1. apply env_step_net in E1 as [N1 _]. apply bind_ext. intros rd E2. apply clear_net in E2.
    rewrite (spawn_step_same _ _ d ord); [reflexivity | exact D | exact O | exact Nd | congruence].
  - intros e' E. apply bind_ok in E as (e1 & E1 & E). apply bind_ok in E as (rd & E2 & E). apply bind_ok in E as (rd' & E3 & E). okinj E.
    apply env_step_net in E1 as [N1 _]. apply clear_net in E2. apply spawn_net in E3. cbn [set_road e_road]. congruence.
Qed.
Lemma on_seen cs cf s e : on_crossing s e -> on_crossing s (seen_env cs cf s e).
Proof. intros H. destruct s; exact H. Qed.
Lemma gym_step_same cs g o d ord sh a : draws_ok d -> near_draws d -> set_order ord -> on_crossing (gy_scene g) (gy_env g) ->
  gym_step cs g o d sh a = gym_step cs g o (reorder d ord) sh a /\
  forall g' out, gym_step cs g o d sh a = Ok (g', out) -> gy_scene g' = gy_scene g /\ on_crossing (gy_scene g') (gy_env g').
Proof.
  intros D Nd O Nc. unfold gym_step. apply (on_seen cs (gy_cf g)) in Nc. set (e := seen_env _ _ _ _) in *. clearbody e. destruct g as [cf s t sc go st e0]. cbn [gy_cf gy_scene gy_scenario gy_type gy_goal gy_states gy_env] in *.
  split.
  - apply bind_ext. intros e1 E1. apply bind_ext. intros os _. apply bind_ext. intros r _. apply bind_ext. intros tm _. apply bind_ext. intros v _.
    destruct s as [h| | |n dur|n dur|dur inc|c n m dst prob]; try reflexivity. cbn [on_crossing] in Nc. apply env_step_net in E1 as [N1 _].
    apply bind_ext. intros rd E2. apply clear_net in E2. rewrite (spawn_step_same _ _ d ord); [reflexivity | exact D | exact O | exact Nd | congruence].
  - intros g' out E. apply bind_ok in E as (e1 & E1 & E). apply bind_ok in E as (os & _ & E). apply bind_ok in E as (r & _ & E). apply bind_ok in E as (tm & _ & E). apply bind_ok in E as (v & _ & E). cbv zeta in E.
    destruct s as [h| | |n dur|n dur|dur inc|c n m dst prob].
    1-3, 6: (match type of E with Ok (?a, _) = _ => assert (a = g') as <- by congruence end; split; [reflexivity | exact I]).
    1-2: (apply bind_ok in E as (su & _ & E); match type of E with Ok (?a, _) = _ => assert (a = g') as <- by congruence end; split; [reflexivity | exact I]).
    cbn [on_crossing] in Nc. apply env_step_net in E1 as [N1 _]. apply bind_ok in E as (rd & E2 & E). apply bind_ok in E as (rd' & E3 & E). apply bind_ok in E as (ag & _ & E).
    match type of E with Ok (?a, _) = _ => assert (a = g') as <- by congruence end. split; [reflexivity|]. cbn [gy_scene gy_env on_crossing set_road e_road]. apply clear_net in E2. apply spawn_net in E3. congruence.
Qed.
Lemma reset_on cs cf s d x e : reset cs cf s d = Ok (x, e) -> on_crossing s e.
Proof.
  unfold reset. destruct s as [h| | |n dur|n dur|dur inc|c n m dst prob]; try (intros; exact I). cbn [on_crossing]. cbv zeta. intros E. apply bind_ok in E as ([cs' e0] & E & E0).
  assert (e0 = e) as -> by congruence. clear E0. unfold intersection_reset in E. cbv zeta in E.
  apply bind_ok in E as (rd1 & E1 & E). apply bind_ok in E as (rd2 & E2 & E). apply bind_ok in E as (rd3 & E3 & E). apply bind_ok in E as ([rd4 ctl] & E4 & E).
  assert (fresh_env rd4 ctl = e) as <- by congruence. cbn [fresh_env e_road].
  assert (N1 : rd_net rd1 = intersection_net).
  { refine (foldM_keeps (fun rd => rd_net rd = intersection_net) _ _ _ _ _ E1 eq_refl). intros s y s' _ E' Hs. apply spawn_net in E'. congruence. }
  assert (N2 : rd_net rd2 = intersection_net).
  { refine (foldM_keeps (fun rd => rd_net rd = intersection_net) _ _ _ _ _ E2 N1). intros s y s' _ E' Hs. apply warm_net in E'. congruence. }
  apply spawn_net in E3. change (rd_net (fst (rd4, ctl)) = intersection_net). refine (foldM_keeps (fun st => rd_net (fst st) = intersection_net) _ _ _ _ _ E4 _); [|cbn [fst]; congruence].
  intros [s q] y [s' q'] _ E' Hs. apply ego_net in E'. cbn [fst] in *. congruence.
Qed.
Lemma gym_reset_same cs cf s t d ord sh : draws_ok d -> set_order ord -> order_free s d -> gym_reset cs cf s t d sh = gym_reset cs cf s t (reorder d ord) sh.
Proof. intros D O F. unfold gym_reset. now rewrite (reset_same cs cf s d ord D O F). Qed.
Lemma gym_reset_on cs cf s t d sh cs' g obs : gym_reset cs cf s t d sh = Ok (cs', g, obs) -> gy_scene g = s /\ on_crossing s (gy_env g).
Proof.
  unfold gym_reset. intros E. apply bind_ok in E as ([x e] & Er & E). cbv zeta in E. apply bind_ok in E as (os & _ & E).
  match type of E with Ok (_, ?a, _) = _ => assert (a = g) as <- by congruence end. split; [reflexivity|]. cbn [gy_env]. eapply reset_on; exact Er.
Qed.
Lemma play_on_same cs l l' : Forall2 same_step l l' -> forall g, on_crossing (gy_scene g) (gy_env g) -> play_on cs g l = play_on cs g l'.
Proof.
  induction 1 as [|x y l l' [o d ord sh a D Nd O] _ IH]; intros g Nc; [reflexivity|]. cbn [play_on os_oracle os_draws os_shuffle os_action].
  destruct (gym_step_same cs g o d ord sh a D Nd O Nc) as [E K]. rewrite <- E. apply bind_ext. intros [g1 out] E1. destruct (K _ _ E1) as [_ K1]. now rewrite (IH g1 K1).
Qed.

(** ** Processes *)
Definition all_crossing (ps : process) : Prop := forall k i, lookup_env k (snd ps) = Some i -> on_crossing (in_scene i) (in_env i).
Lemma all_crossing_add cs envs k i : all_crossing (cs, envs) -> on_crossing (in_scene i) (in_env i) -> forall cs', all_crossing (cs', (k, i) :: envs).
Proof. intros H Hi cs' j x. cbn [snd lookup_env]. destruct (Nat.eqb j k); [intros E; assert (i = x) as <- by congruence; exact Hi | apply H]. Qed.
Lemma run_op_same op op' ps : same_operation op op' -> all_crossing ps -> run_op ps op = run_op ps op' /\ forall ps', run_op ps op = Ok ps' -> all_crossing ps'.
Proof.
  intros S H. destruct ps as [cs envs]. destruct S as [k cf s d ord D O F|k o d ord a D Nd O]; cbn [run_op].
  - rewrite <- (reset_same cs cf s d ord D O F). split; [reflexivity|]. intros ps' E. apply bind_ok in E as ([cse e] & E & E').
    match type of E' with Ok ?a = _ => assert (a = ps') as <- by congruence end. apply reset_on in E. now apply (all_crossing_add cs).
  - destruct (lookup_env k envs) as [i|] eqn:L; [|split; [reflexivity | discriminate]]. pose proof (H k i L) as Hi. apply (on_seen cs (in_cf i)) in Hi.
    destruct (scene_step_same cs (in_cf i) (in_scene i) (in_scenario i) o d ord (seen_env cs (in_cf i) (in_scene i) (in_env i)) a D Nd O Hi) as [E K]. rewrite <- E. split; [reflexivity|].
    intros ps' E'. apply bind_ok in E' as (e' & E1 & E'). match type of E' with Ok ?a = _ => assert (a = ps') as <- by congruence end. apply (all_crossing_add cs); [exact H | exact (K _ E1)].
Qed.
Lemma run_ops_same ops ops' : Forall2 same_operation ops ops' -> forall ps, all_crossing ps -> run_ops ps ops = run_ops ps ops'.
Proof.
  unfold run_ops. induction 1 as [|x y l l' S _ IH]; intros ps H; [reflexivity|]. cbn [foldM]. destruct (run_op_same x y ps S H) as [E K]. rewrite <- E. apply bind_ext. intros ps' E'. apply IH. exact (K _ E').
Qed.

(** ** Turning back *)
Definition planned (ord : list string -> list string -> list string) (dst : string) (k : nat) : list lane_index :=
  (corner_name "o" k, corner_name "ir" k, Some 0%Z) :: match shortest_path intersection_net ord (corner_name "ir" k) dst with Ok p => path_route p | Err _ => [] end.
Definition agents_routed (d : draws) (dest : option string) (rd : road) (ctl : list nat) : Prop :=
  forall i id, nth_error ctl i = Some id -> exists v, In v (rd_vehicles rd) /\ v_id v = id /\ v_pos v = ego_place d i /\ v_route v = Some (planned (dr_ord d) (agent_destination dest d i) i).
Lemma ego_routed cs cf dest d rd ctl k rd' ctl' : near_draws d -> rd_net rd = intersection_net -> List.length ctl = k -> (k < 4)%nat ->
  agents_routed d dest rd ctl -> intersection_ego cs cf dest d (rd, ctl) k = Ok (rd', ctl') ->
  rd_net rd' = intersection_net /\ List.length ctl' = S k /\ agents_routed d dest rd' ctl'.
Proof.
  intros Nd Nr L Hk Pl E. split; [apply ego_net in E; congruence|]. unfold intersection_ego in E. rewrite Nr, crossing_arm in E by exact Hk. cbn [bind] in E. cbv zeta in E.
  apply bind_ok in E as (v & Ev & E). destruct (negb _); [discriminate|]. rewrite destination_is in E. apply bind_ok in E as (w & Ew & E).
  pose proof (ego_lane _ _ _ _ _ _ _ _ Ev) as Lv. pose proof (near_normal d (1000 + k) Nd) as Hn. rewrite (closest_on_arm k _ _ Hk) in Lv; [|lra | reflexivity].
  assert (Lv' : v_lane_index v = (corner_name "o" k, corner_name "ir" k, Some 0%Z)) by congruence. clear Lv.
  apply (ego_born _ _ _ _ _ _ _ _ crossing_built crossing_nonempty) in Ev.
  assert (Rw : v_route w = Some (planned (dr_ord d) (agent_destination dest d k) k) /\ v_id w = v_id v /\ v_pos w = v_pos v).
  { unfold plan_route_to in Ew. unfold planned. rewrite Lv' in Ew. unfold li_to in Ew. cbn [fst snd] in Ew.
    destruct (shortest_path _ _ _ _) as [[|n p]|[]]; try discriminate Ew; okinj Ew; repeat split; reflexivity. }
  destruct Rw as (Rw & Iw & Pw).
  match type of E with Ok (set_vehicles (add_vehicle rd ?x) _, _) = _ => set (u := x) in E end.
  assert (Iu : v_id u = fresh_id rd ctl) by (change (v_id u) with (v_id w); rewrite Iw; apply Ev).
  assert (Pu : v_pos u = ego_place d k) by (change (v_pos u) with (v_pos w); rewrite Pw; apply Ev).
  assert (Ru : v_route u = Some (planned (dr_ord d) (agent_destination dest d k) k)) by exact Rw.
  clearbody u. match type of E with Ok (?a, ?b) = _ => assert (a = rd' /\ b = ctl') as [<- <-] by (split; congruence) end. clear E.
  split; [rewrite app_length; cbn; lia|]. intros i id Hi. cbn [set_vehicles rd_vehicles].
  destruct (Nat.eq_dec i k) as [-> |Hne].
  - rewrite nth_error_app2, L, Nat.sub_diag in Hi by lia. cbn [nth_error] in Hi. assert (fresh_id rd ctl = id) as <- by congruence. exists u. split; [|split; [exact Iu | now split]].
    apply (purge_keeps _ _ _ (le_n _)); [cbn; apply in_or_app; right; now left | apply too_close_self].
  - assert (Hlt : (i < k)%nat).
    { assert (i < List.length (ctl ++ [fresh_id rd ctl]))%nat by (apply nth_error_Some; congruence). rewrite app_length in H. cbn in H. lia. }
    rewrite nth_error_app1 in Hi by lia. destruct (Pl i id Hi) as (x & Hx & Ix & Px & Rx). exists x. split; [|now repeat split].
    apply (purge_keeps _ _ _ (le_n _)); [cbn; apply in_or_app; now left|]. unfold too_close. rewrite Px, Pu.
    rewrite (proj2 (Rltb_false _ _)); [apply andb_false_r|]. apply ego_places_apart; try apply Nd; lia.
Qed.
Lemma reset_routed cs cf n m dest d cs' e : near_draws d -> (n <= 4)%nat -> intersection_reset cs cf n m dest d = Ok (cs', e) ->
  List.length (e_controlled e) = n /\ agents_routed d dest (e_road e) (e_controlled e).
Proof.
  intros Nd Hn E. unfold intersection_reset in E. cbv zeta in E.
  apply bind_ok in E as (rd1 & E1 & E). apply bind_ok in E as (rd2 & E2 & E). apply bind_ok in E as (rd3 & E3 & E). apply bind_ok in E as ([rd4 ctl] & E4 & E).
  assert (fresh_env rd4 ctl = e) as <- by congruence. cbn [fresh_env e_road e_controlled]. clear E.
  assert (N1 : rd_net rd1 = intersection_net).
  { refine (foldM_keeps (fun rd => rd_net rd = intersection_net) _ _ _ _ _ E1 eq_refl). intros s y s' _ E' Hs. apply spawn_net in E'. congruence. }
  assert (N2 : rd_net rd2 = intersection_net).
  { refine (foldM_keeps (fun rd => rd_net rd = intersection_net) _ _ _ _ _ E2 N1). intros s y s' _ E' Hs. apply warm_net in E'. congruence. }
  apply spawn_net in E3. assert (N3 : rd_net rd3 = intersection_net) by congruence. clear E1 E2 E3 N1 N2.
  set (cs2 := set_tuning _ _ _) in *. clearbody cs2.
  assert (X : forall j k st rdx ctlx, (k + j <= 4)%nat -> rd_net (fst st) = intersection_net -> List.length (snd st) = k -> agents_routed d dest (fst st) (snd st) ->
    foldM (intersection_ego cs2 cf dest d) (seq k j) st = Ok (rdx, ctlx) -> List.length ctlx = (k + j)%nat /\ agents_routed d dest rdx ctlx).
  { clear -Nd. induction j as [|j IH]; intros k [rd ctl] rdx ctlx Hk Nr L Pl E; cbn [seq foldM fst snd] in *.
    - assert (rd = rdx /\ ctl = ctlx) as [<- <-] by (split; congruence). split; [lia | exact Pl].
    - apply bind_ok in E as ([rd1 ctl1] & E1 & E). apply ego_routed in E1 as (N1 & L1 & P1); try assumption; [|lia].
      replace (k + S j)%nat with (S k + j)%nat by lia. apply (IH (S k) (rd1, ctl1)); [lia | exact N1 | exact L1 | exact P1 | exact E]. }
  apply (X n 0%nat (rd3, [])); [lia | exact N3 | reflexivity | intros i id Hi; destruct i; discriminate Hi | exact E4].
Qed.
Definition forward_order : list string -> list string -> list string := fun _ l => l.
Definition backward_order : list string -> list string -> list string := fun _ l => rev l.
Lemma orders_ok : set_order forward_order /\ set_order backward_order.
Proof. split; intros p l; [apply Permutation_refl | apply Permutation_sym, Permutation_rev]. Qed.
Lemma planned_differ k dst : (k < 4)%nat -> dst = corner_name "o" k \/ dst = corner_name "il" k -> planned forward_order dst k <> planned backward_order dst k.
Proof.
  intros Hk Hd. unfold planned. rewrite crossing_eq.
  destruct k as [|[|[|[|k]]]]; [| | | |lia]; destruct Hd as [-> | ->];
    match goal with |- ?a :: ?x <> ?b :: ?y => let u := eval lazy in x in let w := eval lazy in y in assert (x = u) as -> by (lazy; reflexivity); assert (y = w) as -> by (lazy; reflexivity) end; intros E; discriminate E.
Qed.
Lemma ids_inj {A} (f : A -> nat) l : NoDup (map f l) -> forall a b, In a l -> In b l -> f a = f b -> a = b.
Proof.
  induction l as [|x l IH]; intros N a b Ha Hb E; [destruct Ha|]. cbn [map] in N. inversion N as [|? ? N1 N2]; subst.
  destruct Ha as [-> |Ha], Hb as [-> |Hb]; [reflexivity | | | now apply IH]; elim N1; [rewrite E; now apply in_map | rewrite <- E; now apply in_map].
Qed.
