(** C110: the same random draws give the same episode, whatever the order in which python
    iterates over sets, that is, whatever PYTHONHASHSEED; except for agents of the
    intersection that turn back. *)
From Coq Require Import Lia Permutation Lra.
From Verif Require Import Prelude M_Utils M_Lane M_Road M_Vehicle M_Kinematics M_Control M_Behavior M_Regulation M_Action M_Env M_Scenes M_Nets M_Reset M_Ttc M_Obs M_Gym M_Config
  S_Geometry S_Road S_Vehicle S_Control S_Behavior S_Regulation S_Env S_Reset S_Gym S_Config S_Repro
  P_Base P_Graph P_Bfs P_Reset P_Ready P_Share P_Crossing P_Entry P_Paths P_Repro T_Reset T_Gym.
Import ListNotations.
Open Scope R_scope.

(** Routes.  On the networks of the package there is at most one shortest route, so the
    order of sets does not matter; at the intersection, unless one turns back. *)
Theorem C110_routes ord ord' a b : set_order ord -> set_order ord' ->
  (forall g, shipped_network g -> shortest_path g ord a b = shortest_path g ord' a b) /\
  (~ turns_back a b -> shortest_path intersection_net ord a b = shortest_path intersection_net ord' a b).
Proof.
  intros O O'. split.
  - intros g H. destruct H; [now apply highway_unique | now apply two_way_unique | now apply merge_unique | now apply keeping_unique | now apply roundabout_unique | now apply parking_unique | now apply summon_unique].
  - intros N. apply intersection_unique; [|exact O | exact O']. intros H. apply N. unfold turning_back in H. apply in_flat_map in H as (k & Hk & H). apply in_seq in Hk. exists k. split; [lia|].
    destruct H as [E|[E|[E|[]]]]; pose proof (f_equal fst E) as E1; pose proof (f_equal snd E) as E2; cbn [fst snd] in E1, E2; subst a b; tauto.
Qed.
(** Turning back, it does matter. *)
Theorem C110_turning_back_routes a b : turns_back a b ->
  exists ord ord', set_order ord /\ set_order ord' /\ shortest_path intersection_net ord a b <> shortest_path intersection_net ord' a b.
Proof.
  intros (k & Hk & H). exists forward_order, backward_order. split; [apply orders_ok|]. split; [apply orders_ok|]. rewrite crossing_eq.
  destruct k as [|[|[|[|k]]]]; [| | | |lia]; destruct H as [[-> [-> | ->]]|[-> ->]];
    match goal with |- ?x <> ?y => let u := eval lazy in x in let w := eval lazy in y in assert (x = u) as -> by (lazy; reflexivity); assert (y = w) as -> by (lazy; reflexivity) end; intros E; discriminate E.
Qed.
Print Assumptions C110_routes.

(** Reset: class attributes, environment, observations. *)
Theorem C110_reset cs cf s t d ord sh : draws_ok d -> set_order ord -> order_free s d ->
  gym_reset cs cf s t (reorder d ord) sh = gym_reset cs cf s t d sh.
Proof. intros D O F. symmetry. now apply gym_reset_same. Qed.
Print Assumptions C110_reset.
(** Whole episodes, with everything they return (or the exception they raise). *)
Theorem C110_episode cs cf s t d ord sh l l' : draws_ok d -> set_order ord -> order_free s d -> Forall2 same_step l l' ->
  whole_episode cs cf s t (reorder d ord) sh l' = whole_episode cs cf s t d sh l.
Proof.
  intros D O F H. symmetry. unfold whole_episode. rewrite <- (gym_reset_same cs cf s t d ord sh D O F). apply bind_ext. intros [[cs' g] obs] E. cbn [fst snd].
  apply gym_reset_on in E as [Es E]. rewrite (play_on_same cs' l l' H g); [reflexivity|]. now rewrite Es.
Qed.
Print Assumptions C110_episode.
(** Processes with several environments, whatever is interleaved. *)
Theorem C110_process cs ops ops' : Forall2 same_operation ops ops' -> run_ops (cs, []) ops' = run_ops (cs, []) ops.
Proof. intros H. symmetry. apply run_ops_same; [exact H|]. intros k i E. discriminate E. Qed.
Print Assumptions C110_process.

(** The condition on the destinations is needed: if some agent of the intersection is sent
    back to its own arm, two processes with the same random draws can start different
    episodes. *)
Theorem C110_turning_back cs cf c n m dest prob d k : draws_ok d -> near_draws d -> (1 <= n <= 4)%nat -> (2 <= cf_simulation cf)%nat -> ego_kind cf = KMDP ->
  (k < n)%nat -> ~ goes_elsewhere dest d k ->
  exists ord ord' r r', set_order ord /\ set_order ord' /\
    reset cs cf (SIntersection c n m dest prob) (reorder d ord) = Ok r /\ reset cs cf (SIntersection c n m dest prob) (reorder d ord') = Ok r' /\ r <> r'.
Proof.
  intros D Nd Hn Hs Ke Hk Ng. set (s := SIntersection c n m dest prob).
  assert (Dr : forall ord, set_order ord -> draws_ok (reorder d ord)).
  { intros ord O. destruct D as (D1 & D2 & D3 & D4 & _). now repeat split; try apply D1; try apply D2; try apply D3; try apply D4. }
  assert (R : forall ord, set_order ord -> exists e, reset cs cf s (reorder d ord) = Ok (set_tuning cs (cf_traffic cf) tuning_intersection, intersection_scenario c (INR (cf_simulation cf)) (cf_policy cf) (cf_manual cf) (cf_action cf), e) /\
    NoDup (map v_id (rd_vehicles (e_road e))) /\ List.length (e_controlled e) = n /\ agents_routed (reorder d ord) dest (e_road e) (e_controlled e)).
  { intros ord O. destruct (intersection_ready cs cf c n m dest prob (reorder d ord) (intersection_scenario c (INR (cf_simulation cf)) (cf_policy cf) (cf_manual cf) (cf_action cf)) (Dr ord O)) as (e & E & Rdy & _).
    - exact Ke.
    - split; [exact Hn|]. split; [exact Hs|]. right. intros j _. apply Nd.
    - reflexivity.
    - reflexivity.
    - exists e. unfold reset, s. cbv zeta. rewrite E. cbn [bind]. split; [reflexivity|]. split; [apply Rdy|]. apply (reset_routed cs cf n m dest (reorder d ord) _ _ Nd (proj2 Hn) E). }
  destruct orders_ok as [O1 O2]. destruct (R _ O1) as (e1 & E1 & Nd1 & L1 & A1). destruct (R _ O2) as (e2 & E2 & _ & _ & A2).
  exists forward_order, backward_order. eexists. eexists. split; [exact O1|]. split; [exact O2|]. split; [exact E1|]. split; [exact E2|]. intros Q.
  apply (f_equal snd) in Q. cbn [snd] in Q. subst e2.
  destruct (nth_error (e_controlled e1) k) as [id|] eqn:Hid; [|apply nth_error_None in Hid; lia].
  destruct (A1 k id Hid) as (v & Hv & Iv & _ & Rv). destruct (A2 k id Hid) as (w & Hw & Iw & _ & Rw). cbn [reorder dr_ord] in Rv, Rw.
  assert (v = w) as <- by (apply (ids_inj v_id (rd_vehicles (e_road e1)) Nd1 v w Hv Hw); congruence).
  assert (Ag : forall ord, agent_destination dest (reorder d ord) k = agent_destination dest d k) by reflexivity. rewrite Ag in Rv, Rw.
  apply (planned_differ k (agent_destination dest d k)); [lia | | congruence].
  unfold goes_elsewhere in Ng. destruct (string_dec (agent_destination dest d k) (corner_name "o" k)) as [Q|Q]; [now left|]. destruct (string_dec (agent_destination dest d k) (corner_name "il" k)) as [Q'|Q']; [now right|]. elim Ng. now split.
Qed.
Print Assumptions C110_turning_back.

(** The games in their default configuration: all of them are reproducible but the
    intersection with several agents, whose second agent starts on the arm all agents are
    sent to. *)
Theorem C110_defaults g d : near_draws d -> g <> GAgents -> order_free (st_scene (default_settings g)) d.
Proof.
  intros Nd Ng. destruct g; try exact I; [|now elim Ng]. split; [exact Nd|]. split; [lia|]. intros k Hk. assert (k = 0)%nat as -> by lia. split; discriminate.
Qed.
Theorem C110_agents_not_reproducible cs d : draws_ok d -> near_draws d ->
  let st := default_settings GAgents in
  exists ord ord' r r', set_order ord /\ set_order ord' /\
    reset cs (st_common st) (st_scene st) (reorder d ord) = Ok r /\ reset cs (st_common st) (st_scene st) (reorder d ord') = Ok r' /\ r <> r'.
Proof.
  intros D Nd. cbv zeta. cbn [default_settings st_common st_scene]. apply (C110_turning_back _ _ _ _ _ _ _ _ 1); [exact D | exact Nd | lia | cbn; lia | reflexivity | lia|].
  intros [N _]. now apply N.
Qed.
(** An agent of a random destination cannot turn back if it is the only one. *)
Theorem C110_random_destination d c m prob : draws_ok d -> near_draws d -> order_free (SIntersection c 1 m None prob) d.
Proof.
  intros D Nd. split; [exact Nd|]. split; [lia|]. intros k Hk. assert (k = 0)%nat as -> by lia. unfold goes_elsewhere, agent_destination.
  assert (H : (dr_int d 0 3 < 3)%nat) by (apply D; lia). destruct (dr_int d 0 3) as [|[|[|j]]]; [| | |lia]; split; discriminate.
Qed.
Print Assumptions C110_agents_not_reproducible.

Example C110_nonvacuous :
  draws_ok some_draws /\ near_draws some_draws /\ set_order backward_order /\
  order_free intersection_default_scene some_draws /\ order_free highway_default_scene some_draws /\
  same_step (OneStep some_oracle some_draws no_shuffle (ActInt 1)) (OneStep some_oracle (reorder some_draws backward_order) no_shuffle (ActInt 1)) /\
  same_operation (OReset 0 intersection_common intersection_default_scene some_draws) (OReset 0 intersection_common intersection_default_scene (reorder some_draws backward_order)) /\
  ~ turns_back "ir0" "o1" /\ turns_back "ir1" "o1" /\ ~ goes_elsewhere (Some "o1"%string) some_draws 1 /\
  shortest_path intersection_net (fun _ l => l) "ir1" "o1" = Ok ["ir1"; "il0"; "o0"; "ir0"; "il1"; "o1"]%string.
Proof.
  assert (Nd : near_draws some_draws) by (intros k; cbn [some_draws dr_normal]; rewrite Rabs_R0; lra).
  assert (Fi : order_free intersection_default_scene some_draws).
  { split; [exact Nd|]. split; [lia|]. intros k Hk. assert (k = 0)%nat as -> by lia. split; discriminate. }
  split; [exact some_draws_ok|]. split; [exact Nd|]. split; [apply orders_ok|]. split; [exact Fi|]. split; [exact I|].
  split; [constructor; [exact some_draws_ok | exact Nd | apply orders_ok]|]. split; [constructor; [exact some_draws_ok | apply orders_ok | exact Fi]|].
  split. { intros (k & Hk & H). destruct k as [|[|[|[|k]]]]; [| | | |lia]; destruct H as [[E1 [E2|E2]]|[E1 E2]]; discriminate. }
  split; [exists 1%nat; split; [lia|]; left; split; [reflexivity | now left]|]. split; [intros [N _]; now apply N|].
  rewrite crossing_eq. lazy. reflexivity.
Qed.
Print Assumptions C110_nonvacuous.
