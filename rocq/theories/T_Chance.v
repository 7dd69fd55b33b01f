(** Theorems about chance after [reset] (C114). *)
From Verif Require Import Prelude M_Utils M_Lane M_Road M_Vehicle M_Kinematics M_Control M_Behavior M_Regulation M_Action M_Env M_Scenes M_Nets M_Reset M_Ttc M_Obs M_Gym
  S_Geometry S_Road S_Vehicle S_Control S_Behavior S_Regulation S_Env S_Reset S_Gym S_Repro S_Chance
  P_Base P_Utils P_Lane P_Graph P_Bfs P_Reset P_Behavior P_Regulation P_Traffic P_Action P_Env P_Ready P_Share P_Crossing P_Gym P_Repro P_Chance T_Control T_Reset T_Gym T_Apart.
From Coq Require Import Lia Lra.
Import ListNotations.
Open Scope R_scope.

(** ** C114: nothing is random after reset, except at forks and crossroads *)
(** Which networks have no fork. *)
Theorem C114_networks :
  (forall n, one_way_out (highway_net n)) /\ (forall len, one_way_out (two_way_net len)) /\ one_way_out merge_net /\
  (forall n, one_way_out (parking_net n)) /\ (forall n, one_way_out (summon_net n)) /\ one_way_out lane_keeping_net.
Proof.
  repeat split; [apply highway_one_way | apply two_way_one_way | apply merge_one_way | apply parking_one_way | apply summon_one_way | apply keeping_one_way].
Qed.
Print Assumptions C114_networks.
(** On such a network, the traffic of any vehicles is a function of the initial road:
    one run for each number of frames. *)
Theorem C114_traffic : forall dt rd frames frames', one_way_out (rd_net rd) ->
  simulates dt rd frames -> simulates dt rd frames' -> List.length frames = List.length frames' -> frames = frames'.
Proof.
  intros dt rd frames frames' W Sim. revert frames'. induction Sim as [rd|rd draws rd1 rd2 fr D A E Sim IH]; intros fr' Sim' L; [destruct fr'; [reflexivity | discriminate]|].
  inversion Sim' as [|? draws' rd1' rd2' fr2 D' A' E' Sim2]; subst; [discriminate|].
  rewrite <- (road_act_same (rd_net rd) W draws draws' rd eq_refl D D'), A in A'. injection A' as <-. rewrite E in E'. injection E' as <-.
  f_equal. apply IH; [|exact Sim2 | now injection L]. apply road_act_acted in A as (N1 & _). apply road_step_stepped in E as (N2 & _). now rewrite N2, N1.
Qed.
Print Assumptions C114_traffic.
(** A whole step, with all it returns: new state, observations, reward, end of the
    episode, info, or the exception. *)
Theorem C114_step : forall cs g o o' d d' sh a, without_chance (gy_scene g) -> rd_net (e_road (gy_env g)) = scene_net (gy_scene g) ->
  oracle_ok o -> oracle_ok o' -> gym_step cs g o d sh a = gym_step cs g o' d' sh a.
Proof. intros. now apply gym_step_chance. Qed.
Print Assumptions C114_step.
(** After any reset: the rest of the episode is a function of the actions. *)
Theorem C114_episode : forall cs cf s t d sh cs' g obs l l', without_chance s ->
  gym_reset cs cf s t d sh = Ok (cs', g, obs) -> Forall2 other_draws l l' -> play_on cs' g l = play_on cs' g l'.
Proof.
  intros cs cf s t d sh cs' g obs l l' W E F. apply gym_reset_net in E as [Es En]; [|exact W]. subst s. now apply play_on_chance.
Qed.
Print Assumptions C114_episode.
(** The merge has no draw at all: every episode with the same actions is the same. *)
Theorem C114_merge : forall cs cf t d d' sh l l', Forall2 other_draws l l' ->
  whole_episode cs cf SMerge t d sh l = whole_episode cs cf SMerge t d' sh l'.
Proof.
  intros cs cf t d d' sh l l' F. unfold whole_episode. assert (Q : gym_reset cs cf SMerge t d' sh = gym_reset cs cf SMerge t d sh) by (unfold gym_reset, reset; reflexivity). rewrite Q.
  apply bind_ext. intros [[cs' g] obs] E. cbn [fst snd]. now rewrite (C114_episode cs cf SMerge t d sh cs' g obs l l' Logic.I E F).
Qed.
Print Assumptions C114_merge.
(** The hypothesis is needed: a vehicle that reaches a fork without a planned route
    leaves by either road, depending on the draw. *)
Theorem C114_fork : forall g v a b k l here n1 n2, fork g b n1 n2 -> v_route v = None -> v_target_lane v = (a, b, k) ->
  get_lane g (a, b, k) = Ok l -> after_end l (v_pos v) None = true -> g_lanes g a b = Ok here ->
  exists d1 d2 v1 v2, draw_ok d1 /\ draw_ok d2 /\ follow_road g d1 v = Ok v1 /\ follow_road g d2 v = Ok v2 /\
    li_to (v_target_lane v1) = n1 /\ li_to (v_target_lane v2) = n2.
Proof.
  intros g v a b k l here n1 n2 (Ne & N1 & N2 & (ls1 & G1 & L1) & (ls2 & G2 & L2)) Hr Ht Gl End Gh.
  assert (X : forall n ls, g_lanes g b n = Ok ls -> ls <> [] ->
    exists dr w, draw_ok dr /\ follow_road g dr v = Ok w /\ li_to (v_target_lane w) = n).
  { intros n ls Gn Ln. assert (A : exists d, assoc b g = Some d /\ In n (keys d)).
    { unfold g_lanes, g_succ in Gn. destruct (assoc b g) as [d|]; [|discriminate]. exists d. split; [reflexivity|]. cbn [bind] in Gn. destruct (assoc n d) as [x|] eqn:Q; [|discriminate].
      apply assoc_In in Q. unfold keys. now apply (in_map fst) in Q. }
    destruct A as (d & A & Hin). apply In_nth_error in Hin as (kn & Kn).
    exists (fun m => if (kn <? m)%nat then kn else 0%nat).
    assert (Hk : (kn < List.length d)%nat).
    { assert (kn < List.length (keys d))%nat by (apply nth_error_Some; congruence). unfold keys in H. now rewrite map_length in H. }
    assert (Dr : draw_ok (fun m => if (kn <? m)%nat then kn else 0%nat)) by (intros m Hm; destruct (Nat.ltb_spec kn m); lia).
    assert (Kk : nth_error (keys d) (if (kn <? List.length d)%nat then kn else 0%nat) = Some n).
    { replace (kn <? List.length d)%nat with true by (symmetry; now apply Nat.ltb_lt). exact Kn. }
    unfold follow_road. rewrite Ht, Gl. cbn [bind]. rewrite End, Hr. unfold next_lane. cbn [next_lane_route truthy_node li_to li_from li_id fst snd]. rewrite A.
    destruct d as [|x d]; [cbn in Hk; lia|]. rewrite Kk. cbn [li_from li_to fst snd]. rewrite Gh, Gn. cbn [bind].
    destruct (Nat.eqb (List.length here) (List.length ls)).
    - cbn [bind]. eexists. split; [exact Dr | split; reflexivity].
    - destruct (closest_lane_id_total ls (v_pos v) Ln) as [z ->]. cbn [bind]. eexists. split; [exact Dr | split; reflexivity]. }
  destruct (X n1 ls1 G1 L1) as (d1 & v1 & D1 & F1 & T1). destruct (X n2 ls2 G2 L2) as (d2 & v2 & D2 & F2 & T2).
  exists d1, d2, v1, v2. tauto.
Qed.
Print Assumptions C114_fork.
(** The roundabout and the intersection have forks: every exit, and every arm. *)
Theorem C114_forks : fork roundabout_net "ex" "ee" "exs" /\ fork roundabout_net "nx" "ne" "nxs" /\ fork roundabout_net "wx" "we" "wxs" /\ fork roundabout_net "sx" "se" "sxs" /\
  fork intersection_net "ir0" "il1" "il2" /\ fork intersection_net "ir1" "il2" "il3" /\ fork intersection_net "ir2" "il3" "il0" /\ fork intersection_net "ir3" "il0" "il1".
Proof.
  assert (X : forall adds n n1 n2, n1 <> n2 -> n1 <> ""%string -> n2 <> ""%string -> added_between n n1 adds <> [] -> added_between n n2 adds <> [] -> fork (build adds) n n1 n2).
  { intros adds n n1 n2 H1 H2 H3 B1 B2. split; [exact H1|]. split; [exact H2|]. split; [exact H3|].
    split; [exists (added_between n n1 adds) | exists (added_between n n2 adds)]; (split; [|assumption]); rewrite g_lanes_wf by (apply wf_built, built_build); rewrite build_lanes;
      [destruct (added_between n n1 adds) | destruct (added_between n n2 adds)]; congruence. }
  rewrite roundabout_eq, crossing_eq.
  split; [apply X; discriminate|]. split; [apply X; discriminate|]. split; [apply X; discriminate|]. split; [apply X; discriminate|].
  split; [apply X; discriminate|]. split; [apply X; discriminate|]. split; apply X; discriminate.
Qed.
Print Assumptions C114_forks.

Definition y_junction : graph := build [("a", "b", lane_at 0); ("b", "c", lane_at 0); ("b", "d", lane_at 4)]%string.
Definition y_car : vehicle :=
  Vehicle 0 KControlled (1000, 0) 0 20 ("a", "b", Some 0%Z)%string 0 0 false true [] ("a", "b", Some 0%Z)%string 25 None 1%Z grid_default false 0 idm_default false 0%Z false.
Example C114_nonvacuous :
  without_chance highway_default_scene /\ other_draws (OneStep some_oracle some_draws no_shuffle (ActInt 1)) (OneStep some_oracle some_draws no_shuffle (ActInt 1)) /\
  (exists cs' g obs, gym_reset classes_default meta_common highway_default_scene (default_observation highway_default_scene) some_draws no_shuffle = Ok (cs', g, obs)) /\
  fork y_junction "b" "c" "d" /\ exists d1 d2 v1 v2, draw_ok d1 /\ draw_ok d2 /\ follow_road y_junction d1 y_car = Ok v1 /\ follow_road y_junction d2 y_car = Ok v2 /\
    v_target_lane v1 <> v_target_lane v2.
Proof.
  split; [exact I|]. split; [constructor; exact some_oracle_ok|]. split.
  { destruct (proj1 C95_nonvacuous meta_common highway_default_scene (ActInt 1) (or_introl eq_refl)) as (_ & _ & cs & g & obs & tr & E & _). exists cs, g, obs. exact E. }
  assert (F : fork y_junction "b" "c" "d").
  { split; [discriminate|]. split; [discriminate|]. split; [discriminate|]. split; eexists; (split; [reflexivity | discriminate]). }
  split; [exact F|]. destruct (C114_fork y_junction y_car "a" "b" (Some 0%Z) (lane_at 0) [lane_at 0] "c" "d" F eq_refl eq_refl eq_refl) as (d1 & d2 & v1 & v2 & D1 & D2 & F1 & F2 & T1 & T2).
  - unfold after_end. rewrite lane_at_local. cbn [fst y_car v_pos]. apply Rltb_lt. unfold l_length, lane_at. cbn [l_geom geom_length].
    replace (vnorm _) with 1000; [unfold LANE_VEHICLE_LENGTH; lra|]. unfold vnorm, vsub. cbn [fst snd]. symmetry. replace (_ + _) with (1000 * 1000) by ring. apply sqrt_square. lra.
  - reflexivity.
  - exists d1, d2, v1, v2. repeat (split; [assumption|]). intros Q. rewrite Q in T1. rewrite T1 in T2. discriminate T2.
Qed.
Print Assumptions C114_nonvacuous.
