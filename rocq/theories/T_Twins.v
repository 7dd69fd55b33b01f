(** C83: a copy of an environment behaves exactly like the original. *)
From Coq Require Import Lia Lra.
From Verif Require Import Prelude M_Utils M_Lane M_Road M_Vehicle M_Kinematics M_Control M_Behavior M_Action M_Env M_Scenes M_Nets M_Reset M_Copies M_Ttc M_Obs S_Copies S_Env S_Reset P_Rename T_Reset.
Open Scope R_scope.

Lemma same_vehicle_ren f v w : same_vehicle f v w <-> w = ren_vehicle f v.
Proof.
  split.
  - intros [? ? ? ? ? ? [? ?] ? ? ? ? ? ? ? ? ? ? ? [? ?] ?]. destruct v, w. cbn in *. subst. reflexivity.
  - intros ->. destruct v. constructor; cbn; auto.
Qed.
Lemma same_obstacle_ren f a b : same_obstacle f a b <-> b = ren_object f a.
Proof.
  split.
  - intros [? ? ? ? ? ?]. destruct a, b. cbn in *. subst. reflexivity.
  - intros ->. destruct a. constructor; reflexivity.
Qed.
Lemma forall2_map {A B} (P : A -> B -> Prop) g l l' : (forall x y, P x y <-> y = g x) -> (Forall2 P l l' <-> l' = map g l).
Proof.
  intro H. split.
  - induction 1 as [|x y l l' Q _ IH]; [reflexivity|]. cbn [map]. apply H in Q. congruence.
  - intros ->. induction l; cbn [map]; constructor; [now apply H|assumption].
Qed.
Lemma alike_ren f e e' : alike f e e' <-> e' = ren_env f e.
Proof.
  split.
  - intros [N V O [R1 R2] C [T1 [T2 T3]]].
    apply (proj1 (forall2_map _ _ _ _ (same_vehicle_ren f))) in V. apply (proj1 (forall2_map _ _ _ _ (same_obstacle_ren f))) in O.
    destruct e as [[g vs os b n] ctl t st dn], e' as [[g' vs' os' b' n'] ctl' t' st' dn'].
    cbn [e_road e_controlled e_time e_steps e_done rd_net rd_vehicles rd_objects rd_record rd_steps] in *. subst. reflexivity.
  - intros ->. constructor; cbn; auto.
    + now apply (forall2_map _ _ _ _ (same_vehicle_ren f)).
    + now apply (forall2_map _ _ _ _ (same_obstacle_ren f)).
Qed.
Lemma outcome_ren f r r' : r' = rmap (ren_env f) r -> same_outcome f r r'.
Proof. intros ->. destruct r; cbn; [now apply alike_ren|reflexivity]. Qed.

Lemma list_max_in n l : In n l -> (n <= list_max l)%nat.
Proof. intro H. pose proof (proj1 (list_max_le l (list_max l)) (le_n _)) as F. rewrite Forall_forall in F. now apply F. Qed.
Lemma part_below i e : part_of i e -> (i < first_free e)%nat.
Proof.
  intro H. unfold first_free, fresh_id. apply Nat.lt_succ_r, list_max_in. rewrite !in_app_iff.
  destruct H as [H|[(v & H & <-)|(o & H & <-)]]; [tauto|left; now apply in_map|right; left; now apply in_map].
Qed.

(** C83: a copy has all the attributes of the original, and none of its objects. *)
Theorem C83_copy_alike : forall e,
  alike (Nat.add (first_free e)) e (copy_env e) /\
  forall i, part_of i e -> ~ part_of i (copy_env e).
Proof.
  intro e. split; [now apply alike_ren|]. intros i Hi Hc. apply part_below in Hi.
  assert (first_free e <= i)%nat; [|lia].
  destruct Hc as [H|[(v & H & <-)|(o & H & <-)]]; unfold copy_env, ren_env, ren_road in H; cbn [e_controlled e_road rd_vehicles rd_objects] in H.
  - apply in_map_iff in H as (j & <- & _). lia.
  - apply in_map_iff in H as (w & <- & _). cbn [v_id ren_vehicle set_id]. lia.
  - apply in_map_iff in H as (w & <- & _). cbn [o_id ren_object]. lia.
Qed.
Print Assumptions C83_copy_alike.

(** C83: in every environment, whatever its objects are called, the generic step has the
    same outcome: the same exception or again environments that are alike. *)
Theorem C83_same_step : forall f cs cf s d cs' sc e0 o o' e e' a, (forall i j, f i = f j -> i = j) ->
  reset cs cf s d = Ok (cs', sc, e0) -> alike f e e' -> same_numbers f o o' ->
  same_outcome f (env_step sc o e a) (env_step sc o' e' a).
Proof.
  intros f cs cf s d cs' sc e0 o o' e e' a I R A N. apply alike_ren in A as ->. apply outcome_ren.
  apply ren_env_step; [exact I|exact N|eapply blind_reset; eauto].
Qed.
Print Assumptions C83_same_step.

(** C83: and so do whole episodes, in which vehicles appear and disappear and the class
    attributes of the process change: as many steps, alike one by one, and the same
    exception at the end, if any. *)
Theorem C83_same_episode : forall n cs cf s d cs' sc e0 xs ys e e',
  reset cs cf s d = Ok (cs', sc, e0) -> alike (Nat.add n) e e' -> Forall2 (same_input (Nat.add n)) xs ys ->
  Forall2 (alike (Nat.add n)) (fst (play_out cf s sc e xs)) (fst (play_out cf s sc e' ys)) /\
  snd (play_out cf s sc e' ys) = snd (play_out cf s sc e xs).
Proof.
  intros n cs cf s d cs' sc e0 xs ys e e' R A F. revert e e' A.
  induction F as [|x y xs ys (C & N & D & Ac) F IH]; intros e e' A; cbn [play_out fst snd]; [split; constructor|].
  apply alike_ren in A as ->. rewrite C, D, Ac, ren_seen.
  rewrite (shift_scene_step n (in_classes x) cf s sc (in_oracle x)); [|exact N|exact (blind_reset _ _ _ _ _ _ _ _ (shift_inj n) R)].
  destruct (scene_step _ cf s sc _ _ _ _) as [e1|r]; cbn [rmap fst snd]; [|split; constructor].
  destruct (IH e1 (ren_env (Nat.add n) e1) (proj2 (alike_ren _ _ _) eq_refl)) as [I1 I2].
  destruct (play_out cf s sc e1 xs) as [l r]. destruct (play_out cf s sc (ren_env _ e1) ys) as [l' r']. cbn [fst snd] in *.
  split; [|exact I2]. constructor; [now apply alike_ren|exact I1].
Qed.
Print Assumptions C83_same_episode.

(** C83: environments that are alike give the same rewards, end at the same time and
    allow the same actions. *)
Theorem C83_same_rewards : forall f e e', (forall i j, f i = f j -> i = j) -> alike f e e' ->
  (forall c, highway_env_reward c e' = highway_env_reward c e) /\
  (forall cg a, roundabout_env_reward cg e' a = roundabout_env_reward cg e a) /\
  (forall a, merge_env_reward e' a = merge_env_reward e a) /\
  two_way_env_reward e' = two_way_env_reward e /\
  (forall c, intersection_reward c e' = intersection_reward c e) /\
  (forall c goal, parking_reward c goal (controlled e') = parking_reward c goal (controlled e)).
Proof.
  intros f e e' I A. apply alike_ren in A as ->.
  split; [intro; now apply ren_reward_highway|]. split; [intros; now apply ren_reward_roundabout|].
  split; [intro; now apply ren_reward_merge|]. split; [now apply ren_reward_two_way|].
  split; [intro; now apply ren_reward_intersection|intros; now apply ren_reward_parking].
Qed.
Print Assumptions C83_same_rewards.
Theorem C83_same_ends : forall f cs cf s d cs' sc e0 e e', (forall i j, f i = f j -> i = j) ->
  reset cs cf s d = Ok (cs', sc, e0) -> alike f e e' ->
  sc_terminal sc e' = sc_terminal sc e /\ get_available_actions sc e' = get_available_actions sc e.
Proof.
  intros f cs cf s d cs' sc e0 e e' I R A. apply alike_ren in A as ->.
  split; [exact (blind_reset _ _ _ _ _ _ _ _ I R e)|now apply ren_available].
Qed.
Print Assumptions C83_same_ends.

(** C83: corresponding vehicles are observed alike. *)
Theorem C83_same_observations : forall f e e' v v', (forall i j, f i = f j -> i = j) -> alike f e e' -> same_vehicle f v v' ->
  (forall c smax p sh r, kin_observe c smax p sh r (Some (e_road e')) v' = kin_observe c smax p sh r (Some (e_road e)) v) /\
  (forall c smax r, occ_observe c smax r (Some (e_road e')) v' = occ_observe c smax r (Some (e_road e)) v) /\
  (forall ev ev' pf h, same_vehicle f ev ev' -> ttc_observe (e_road e') ev' v' pf h = ttc_observe (e_road e) ev v pf h).
Proof.
  intros f e e' v v' I A V. apply alike_ren in A as ->. apply same_vehicle_ren in V as ->.
  split; [intros; exact (ren_kin f I c smax p sh r (Some (e_road e)) v)|].
  split; [intros; exact (ren_occ f c smax r (Some (e_road e)) v)|].
  intros ev ev' pf h E. apply same_vehicle_ren in E as ->. unfold ttc_observe.
  destruct (Reqb pf 0); [reflexivity|]. change (e_road (ren_env f e)) with (ren_road f (e_road e)).
  rewrite ren_ttc by exact I. reflexivity.
Qed.
Print Assumptions C83_same_observations.

(** C83 on a concrete case: an intersection, its copy, and one step of each. *)
Example C83_nonvacuous :
  exists cs sc e e1,
    reset classes_default intersection_common intersection_default_scene some_draws = Ok (cs, sc, e) /\
    (exists v, In v (rd_vehicles (e_road e)) /\ part_of (v_id v) e) /\
    same_input (Nat.add (first_free e)) (StepInput cs some_oracle some_draws (ActInt 0)) (StepInput cs some_oracle some_draws (ActInt 0)) /\
    play_out intersection_common intersection_default_scene sc e [StepInput cs some_oracle some_draws (ActInt 0)] = ([e1], None) /\
    exists e1', play_out intersection_common intersection_default_scene sc (copy_env e) [StepInput cs some_oracle some_draws (ActInt 0)] = ([e1'], None) /\
      alike (Nat.add (first_free e)) e1 e1'.
Proof.
  assert (Dk := some_draws_ok).
  assert (Ci : classes_fit intersection_common intersection_default_scene) by reflexivity.
  assert (Oi : options_fit intersection_common intersection_default_scene some_draws) by (cbn; split; [lia|]; split; [lia|]; now left).
  assert (Ai : in_action_space (cf_action intersection_common) 1 (ActInt 0)) by (split; [cbn; lia | now left]).
  destruct (C82_reset_total classes_default _ _ _ Dk Ci Oi) as (cs & sc & e & E & St). 
  assert (Hp : cf_policy intersection_common <> 0) by (cbn; lra).
  destruct (C82_no_step_fails _ _ _ _ _ _ _ [] [] Dk Ci Oi Hp E ltac:(constructor) ltac:(constructor) cs some_oracle some_draws (ActInt 0) some_oracle_ok Dk Ai) as (e1 & E1).
  cbn [last] in E1.
  assert (Si : same_input (Nat.add (first_free e)) (StepInput cs some_oracle some_draws (ActInt 0)) (StepInput cs some_oracle some_draws (ActInt 0))).
  { split; [reflexivity|]. split; [split; intros; reflexivity|]. split; reflexivity. }
  assert (Ep : play_out intersection_common intersection_default_scene sc e [StepInput cs some_oracle some_draws (ActInt 0)] = ([e1], None)).
  { cbn [play_out in_classes in_oracle in_draws in_action]. rewrite E1. reflexivity. }
  exists cs, sc, e, e1. split; [exact E|]. split; [|split; [exact Si|split; [exact Ep|]]].
  - destruct St as ((_ & _ & _ & Ln & _) & _ & M). cbn [agents_count intersection_default_scene] in Ln.
    destruct (e_controlled e) as [|i ids] eqn:Ec; [discriminate Ln|].
    destruct (M i (or_introl eq_refl)) as (v & Hv & _). exists v. split; [exact Hv|]. right. left. now exists v.
  - destruct (C83_same_episode (first_free e) _ _ _ _ _ _ _ _ _ e (copy_env e) E (proj1 (C83_copy_alike e)) (Forall2_cons _ _ Si (Forall2_nil _))) as [F1 F2].
    rewrite Ep in F1, F2. cbn [fst snd] in *.
    destruct (play_out intersection_common intersection_default_scene sc (copy_env e) _) as [l r]. cbn [fst snd] in *.
    inversion F1 as [|a e1' l1 l2 Q Q2 A1 A2]. inversion Q2. subst. exists e1'. split; [reflexivity|exact Q].
Qed.
Print Assumptions C83_nonvacuous.
