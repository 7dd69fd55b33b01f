(** C39, C40, C71: episodes. *)
From Verif Require Import Prelude M_Utils M_Lane M_Road M_Vehicle M_Kinematics M_Control M_Behavior M_Regulation M_Action M_Env M_Scenes
  S_Geometry S_Road S_Vehicle S_Control S_Behavior S_Regulation S_Env P_Base P_Utils P_Lane P_Graph P_Bfs P_Query P_Kin P_Crash P_Control P_Behavior P_Traffic P_Regulation P_Action P_Env P_Scenes
  T_Kin T_Control T_Behavior T_Action.
From Coq Require Import Lia Lra.
Open Scope R_scope.

(** ** C39: frames and actions *)
(** The number of frames is the integer part of the ratio of the frequencies. *)
Theorem C39_number_of_frames : forall sc n, frames_per_step sc = n <-> IZR n <= sc_simulation sc / sc_policy sc < IZR n + 1.
Proof. intros sc n. unfold frames_per_step. split; [intros <-; apply Rfloor_bounds | apply Rfloor_unique]. Qed.
Print Assumptions C39_number_of_frames.

(** A step that starts at a multiple of the number of frames: the action is applied
    first, then one to [n] frames run; fewer than [n] only if the episode is over. *)
Theorem C39_step : forall sc o e a e' n, frames_per_step sc = n -> (0 < n)%Z -> sc_manual sc = false -> (e_time e mod n = 0)%Z ->
  env_step sc o e a = Ok e' ->
  exists e1 j, applies sc o a (Env (e_road e) (e_controlled e) (e_time e) (e_steps e + 1) (e_done e)) e1 /\
    (1 <= Z.of_nat j <= n)%Z /\ runs sc o j e1 e' /\ (Z.of_nat j = n \/ over sc e') /\
    e_time e' = (e_time e + Z.of_nat j)%Z /\ e_steps e' = (e_steps e + 1)%Z.
Proof.
  intros sc o e a e' n <- Hn Hm Ht E. pose proof (env_step_persists _ _ _ _ _ E) as (_ & _ & St & _).
  apply env_step_frames in E as (E & _ & _).
  assert (Hk : (0 < Z.to_nat (frames_per_step sc) <= Z.to_nat (frames_per_step sc))%nat) by lia.
  destruct (fun T => simulate_aligned _ _ _ _ _ _ Hn Hm T Hk E) as (e1 & j & A & Hj & R & F); [exact Ht|].
  exists e1, j. split; [exact A|]. split; [lia|]. split; [exact R|]. split; [destruct F; [left; lia | now right]|].
  apply applies_time in A as (At & _). apply runs_time in R as (_ & Rt & _). cbn in At. split; [lia | exact St].
Qed.
Print Assumptions C39_step.
(** A step that starts [r] frames after a multiple of [n] (after an episode end cut a
    step short): the new action only comes after [n - r] frames of the old one. *)
Theorem C39_late_step : forall sc o e a e' n r, frames_per_step sc = n -> (0 < n)%Z -> sc_manual sc = false -> (e_time e mod n = r)%Z -> (r <> 0)%Z ->
  env_step sc o e a = Ok e' ->
  let e0 := Env (e_road e) (e_controlled e) (e_time e) (e_steps e + 1) (e_done e) in
  (exists j, (1 <= Z.of_nat j <= n - r)%Z /\ runs sc o j e0 e' /\ over sc e') \/
  (exists k e1 e2 j, Z.of_nat k = (n - r)%Z /\ runs sc o k e0 e1 /\ e_done e1 = false /\ sc_terminal sc e1 = Ok false /\
     applies sc o a e1 e2 /\ (1 <= Z.of_nat j <= r)%Z /\ runs sc o j e2 e' /\ (Z.of_nat j = r \/ over sc e')).
Proof.
  intros sc o e a e' n r <- Hn Hm Ht Hr E. cbn zeta. set (e0 := Env _ _ _ _ _).
  apply env_step_frames in E as (E & Ce0 & _). fold e0 in E.
  pose proof (Z.mod_pos_bound (e_time e) (frames_per_step sc) Hn) as B. rewrite Ht in B.
  set (k := Z.to_nat (frames_per_step sc - r)). set (m := Z.to_nat r).
  replace (Z.to_nat (frames_per_step sc)) with (k + m)%nat in E by (unfold k, m; lia).
  assert (S : silent sc (Some a) (e_time e0) k).
  { right. right. intros i Hi. cbn [e_time e0]. intros M.
    assert (D : ((r + Z.of_nat i) mod frames_per_step sc = 0)%Z) by (rewrite <- M; rewrite <- Ht at 1; rewrite Z.add_mod_idemp_l by lia; reflexivity).
    rewrite Z.mod_small in D; unfold k in Hi; lia. }
  destruct (simulate_split sc o m (Some a) k e0 e' E S) as [(j & Hj & R & O)|[[Hk _]|(e1 & _ & R & D & T & E1)]].
  - left. exists j. split; [unfold k in Hj; lia|]. split; [exact R | exact O].
  - unfold k in Hk. lia.
  - right. pose proof (runs_time _ _ _ _ _ R) as (_ & Rt & _). cbn [e_time e0] in Rt.
    destruct (simulate_aligned sc o a m e1 e') as (e2 & j & A & Hj & R2 & F); [exact Hn | exact Hm | | unfold m; lia | exact E1 |].
    { rewrite Rt. unfold k. rewrite Z2Nat.id by lia. replace (e_time e + (frames_per_step sc - r))%Z with ((e_time e - r) + 1 * frames_per_step sc)%Z by lia.
      rewrite Z.mod_add by lia. rewrite <- Ht. rewrite Zminus_mod_idemp_r. rewrite Z.sub_diag. reflexivity. }
    exists k, e1, e2, j. split; [unfold k; lia|]. split; [exact R|]. split; [exact D|]. split; [exact T|]. split; [exact A|].
    split; [unfold m in Hj; lia|]. split; [exact R2|]. destruct F as [-> |]; [left; unfold m; lia | now right].
Qed.
Print Assumptions C39_late_step.
(** Through an uninterrupted episode every step takes exactly [n] frames: after [i]
    steps the clock shows [i * n], so [C39_step] applies to every one of them. *)
Theorem C39_episode_clock : forall sc e acts trace n, frames_per_step sc = n -> (0 < n)%Z -> sc_manual sc = false -> (e_time e mod n = 0)%Z ->
  episode sc e acts trace -> Forall (fun x => ~ over sc x) trace ->
  forall i x, nth_error trace i = Some x -> e_time x = (e_time e + n * (Z.of_nat i + 1))%Z /\ e_steps x = (e_steps e + Z.of_nat i + 1)%Z.
Proof.
  intros sc e acts trace n Hn Hp Hm Ht H. revert Ht. induction H as [e|e o a acts e1 trace _ E H IH]; intros Ht F i x Hi; [destruct i; discriminate|].
  inversion F as [|? ? N1 F']; subst. destruct (C39_step sc o e a e1 _ eq_refl Hp Hm Ht E) as (e0 & j & _ & _ & _ & [J|J] & T & St); [|contradiction].
  rewrite J in T. destruct i as [|i]; cbn [nth_error] in Hi.
  - injection Hi as <-. lia.
  - destruct (IH ltac:(rewrite T; replace (e_time e + frames_per_step sc)%Z with (e_time e + 1 * frames_per_step sc)%Z by lia; rewrite Z.mod_add by lia; exact Ht) F' i x Hi) as [A B]. lia.
Qed.
Print Assumptions C39_episode_clock.
(** After the end: stepping a closed environment, or one whose controlled vehicle has
    crashed (in every environment where that ends the episode), simulates a single
    frame, and the action is only applied at the multiples of [n]. *)
Definition crash_ends (sc : scenario) : Prop := forall e v, ego e = Ok v -> v_crashed v = true -> sc_terminal sc e = Ok true.
Theorem C39_after_the_end : forall sc o e a e' n, frames_per_step sc = n -> (0 < n)%Z -> sc_manual sc = false ->
  e_done e = true \/ (crash_ends sc /\ exists v, ego e = Ok v /\ v_crashed v = true) ->
  env_step sc o e a = Ok e' ->
  let e0 := Env (e_road e) (e_controlled e) (e_time e) (e_steps e + 1) (e_done e) in
  e_time e' = (e_time e + 1)%Z /\
  ((e_time e mod n = 0)%Z -> exists e1, applies sc o a e0 e1 /\ advances sc o e1 e') /\
  ((e_time e mod n <> 0)%Z -> advances sc o e0 e').
Proof.
  intros sc o e a e' n <- Hn Hm Hend E. cbn zeta. set (e0 := Env _ _ _ _ _).
  apply env_step_frames in E as (E & Ce0 & _). fold e0 in E.
  destruct (Z.to_nat (frames_per_step sc)) as [|k] eqn:K; [lia|]. cbn [simulate_frames] in E.
  apply bind_ok in E as (e1 & F & E). apply bind_ok in E as (e2 & G & E). pose proof (forward_persists _ _ _ _ _ F) as (P1 & C1 & T1 & S1 & D1).
  apply frame_advances in G. pose proof (advances_persists _ _ _ _ G) as P2. pose proof (advances_time _ _ _ _ G) as (T2 & S2 & D2 & C2).
  assert (e' = e2) as ->.
  { destruct (e_done e2) eqn:De; [congruence|]. destruct Hend as [Hd|[Ce (v & Ev & Cv)]]; [cbn [e_done e0] in *; congruence|].
    unfold ego in Ev. destruct (e_controlled e) as [|id ids] eqn:C; [discriminate|]. destruct (vehicle_by_id (e_road e) id) as [v0|] eqn:V; [|discriminate]. injection Ev as ->.
    destruct (persists_find _ _ _ _ (persists_trans _ _ _ P1 P2) V) as (w & Vw & _ & _ & Cw).
    rewrite (Ce e2 w) in E; [cbn in E; congruence | | auto]. unfold ego. rewrite C2, C1. cbn [e_controlled e0]. rewrite ?C, Vw. reflexivity. }
  split; [cbn [e_time e0] in T1; lia|]. unfold forward in F. rewrite Hm in F. cbn [negb andb] in F. cbn [e_time e0] in F. split; intros M.
  - rewrite M in F. cbn in F. apply bind_ok in F as (rd & A & F). injection F as <-. exists (set_road e0 rd). split; [|exact G]. exists rd. split; [exact A | reflexivity].
  - destruct (Z.eqb_spec (e_time e mod frames_per_step sc) 0); [contradiction|]. injection F as <-. exact G.
Qed.
Print Assumptions C39_after_the_end.
(** With a policy frequency above the simulation frequency nothing is simulated; with
    manual control the action is never forwarded; a zero policy frequency raises. *)
Theorem C39_too_fast_policy : forall sc o e a e', sc_policy sc <> 0 -> (frames_per_step sc <= 0)%Z -> env_step sc o e a = Ok e' ->
  e' = Env (e_road e) (e_controlled e) (e_time e) (e_steps e + 1) (e_done e).
Proof.
  intros sc o e a e' Hp Hn E. apply env_step_frames in E as (E & _ & _). destruct (Z.to_nat (frames_per_step sc)) eqn:K; [|lia]. cbn in E. now injection E as <-.
Qed.
Print Assumptions C39_too_fast_policy.
Theorem C39_manual_control : forall sc o e a e' n, frames_per_step sc = n -> (0 < n)%Z -> sc_manual sc = true -> env_step sc o e a = Ok e' ->
  exists j, (1 <= Z.of_nat j <= n)%Z /\ runs sc o j (Env (e_road e) (e_controlled e) (e_time e) (e_steps e + 1) (e_done e)) e' /\ (Z.of_nat j = n \/ over sc e').
Proof.
  intros sc o e a e' n <- Hn Hm E. apply env_step_frames in E as (E & _ & _).
  destruct (simulate_silent sc o (Some a) _ _ _ E ltac:(lia)) as (j & Hj & R & F); [right; now left|]. exists j. split; [lia|].
  split; [exact R|]. destruct F as [-> |]; [left; lia | now right].
Qed.
Print Assumptions C39_manual_control.
Theorem C39_zero_policy_frequency : forall sc o e a, e_controlled e <> [] -> sc_policy sc = 0 -> env_step sc o e a = Err ZeroDivisionError.
Proof.
  intros sc o e a C Hp. unfold env_step. destruct (e_controlled e); [congruence|]. unfold simulate. rewrite (proj2 (Reqb_true _ _)) by exact Hp. reflexivity.
Qed.
Print Assumptions C39_zero_policy_frequency.

(** ** C40: when episodes end *)
(** Being on the road: within half a width of the centre line of the current lane,
    and at most 5 m before its start or (excluded) after its end. *)
Definition inside (l : lane) (p : vec) : Prop :=
  Rabs (snd (l_local l p)) <= l_width l / 2 /\ -5 <= fst (l_local l p) < l_length l + 5.
Theorem C40_highway : forall c e v l, ego e = Ok v -> get_lane (rd_net (e_road e)) (v_lane_index v) = Ok l ->
  (highway_terminal c e = Ok true <->
     v_crashed v = true \/ hw_duration c <= IZR (e_steps e) \/ (hw_offroad c = true /\ ~ inside l (v_pos v))) /\
  (highway_terminal c e = Ok false \/ highway_terminal c e = Ok true).
Proof.
  intros c e v l Ev Gl. unfold highway_terminal. rewrite Ev. cbn [bind]. unfold on_road. rewrite Gl. cbn [bind].
  pose proof (on_lane_iff l (v_pos v) None None 0 (or_introl eq_refl) (or_introl eq_refl)) as OL.
  assert (I : on_lane l (v_pos v) None None 0 = true <-> inside l (v_pos v)).
  { rewrite OL. unfold inside. split; intros (A & B); split; lra. }
  destruct (v_crashed v); [tauto|]. destruct (Rleb (hw_duration c) (IZR (e_steps e))) eqn:D; [apply Rleb_true in D; tauto|].
  apply Rleb_false in D. destruct (hw_offroad c).
  - destruct (on_lane l (v_pos v) None None 0); cbn [negb]; (split; [|tauto]).
    + split; [discriminate|]. intros [H|[H|[_ H]]]; [discriminate | lra | elim H; tauto].
    + split; [intros _ | reflexivity]. right. right. split; [reflexivity|]. intros J. apply I in J. discriminate.
  - split; [|tauto]. split; [discriminate|]. intros [H|[H|[H _]]]; [discriminate | lra | discriminate].
Qed.
Print Assumptions C40_highway.
Theorem C40_roundabout : forall duration e v, ego e = Ok v ->
  (roundabout_terminal duration e = Ok true <-> v_crashed v = true \/ duration <= IZR (e_steps e)) /\
  (roundabout_terminal duration e = Ok false \/ roundabout_terminal duration e = Ok true).
Proof.
  intros d e v Ev. unfold roundabout_terminal. rewrite Ev. cbn [bind]. destruct (v_crashed v); [tauto|]. cbn [orb].
  destruct (Rleb d (IZR (e_steps e))) eqn:D; [apply Rleb_true in D; tauto|]. apply Rleb_false in D. split; [|tauto].
  split; [discriminate | intros [H|H]; [discriminate | lra]].
Qed.
Print Assumptions C40_roundabout.
(** merge: crash, or the ego vehicle beyond x = 370 m; no time limit. *)
Theorem C40_merge : forall e v, ego e = Ok v ->
  (merge_terminal e = Ok true <-> v_crashed v = true \/ 370 < fst (v_pos v)) /\
  (merge_terminal e = Ok false \/ merge_terminal e = Ok true).
Proof.
  intros e v Ev. unfold merge_terminal. rewrite Ev. cbn [bind]. destruct (v_crashed v); [tauto|]. cbn [orb].
  destruct (Rltb 370 (fst (v_pos v))) eqn:D; [apply Rltb_true in D; tauto|]. apply Rltb_false in D. split; [|tauto].
  split; [discriminate | intros [H|H]; [discriminate | lra]].
Qed.
Print Assumptions C40_merge.
(** two-way: only a crash. *)
Theorem C40_two_way : forall e v, ego e = Ok v -> two_way_terminal e = Ok (v_crashed v).
Proof. intros e v Ev. unfold two_way_terminal. now rewrite Ev. Qed.
Print Assumptions C40_two_way.
(** intersection: one controlled vehicle crashed, or all arrived (at least 25 m down
    an exit lane, recognised by its node names), or [duration * policy_frequency]
    policy steps. *)
Definition arrived (g : graph) (v : vehicle) : Prop :=
  (exists a b, li_from (v_lane_index v) = (a ++ "il" ++ b)%string) /\ (exists a b, li_to (v_lane_index v) = (a ++ "o" ++ b)%string) /\
  exists l, get_lane g (v_lane_index v) = Ok l /\ 25 <= fst (l_local l (v_pos v)).
Lemma has_arrived_iff g v l : get_lane g (v_lane_index v) = Ok l -> (has_arrived g v = Ok true <-> arrived g v) /\ (has_arrived g v = Ok false \/ has_arrived g v = Ok true).
Proof.
  intros Gl. unfold has_arrived, arrived. pose proof (contains_iff "il" (li_from (v_lane_index v))) as A. pose proof (contains_iff "o" (li_to (v_lane_index v))) as B.
  destruct (contains "il" _); cbn [andb]; [|split; [|tauto]; split; [discriminate | intros (H & _); apply A in H; discriminate]].
  destruct (contains "o" _); [|split; [|tauto]; split; [discriminate | intros (_ & H & _); apply B in H; discriminate]].
  rewrite Gl. cbn [bind]. destruct (Rleb 25 (fst (l_local l (v_pos v)))) eqn:D; split; try tauto.
  - apply Rleb_true in D. split; [intros _ | reflexivity]. split; [tauto|]. split; [tauto|]. exists l. tauto.
  - apply Rleb_false in D. split; [discriminate|]. intros (_ & _ & l' & E & H). injection E as <-. lra.
Qed.
Theorem C40_intersection : forall c pol e, (forall v, In v (controlled e) -> exists l, get_lane (rd_net (e_road e)) (v_lane_index v) = Ok l) ->
  (intersection_terminal c pol e = Ok true <->
     (exists v, In v (controlled e) /\ v_crashed v = true) \/
     (forall v, In v (controlled e) -> arrived (rd_net (e_road e)) v) \/
     is_duration c * pol <= IZR (e_steps e)) /\
  (intersection_terminal c pol e = Ok false \/ intersection_terminal c pol e = Ok true).
Proof.
  intros c pol e G. unfold intersection_terminal. destruct (existsb v_crashed (controlled e)) eqn:X.
  - apply existsb_exists in X as (v & Hv & Cv). split; [|tauto]. split; [intros _; left; eauto | reflexivity].
  - assert (NX : ~ exists v, In v (controlled e) /\ v_crashed v = true).
    { intros H. assert (existsb v_crashed (controlled e) = true) by (apply existsb_exists; exact H). congruence. }
    destruct (allM_iff (has_arrived (rd_net (e_road e))) (arrived (rd_net (e_road e))) (controlled e)) as (b & -> & Hb).
    { intros v Hv. destruct (G v Hv) as [l Gl]. apply (has_arrived_iff _ v l Gl). }
    cbn [bind]. destruct b; [split; [|tauto]; tauto|].
    assert (NA : ~ forall v, In v (controlled e) -> arrived (rd_net (e_road e)) v) by (intros H; apply Hb in H; discriminate).
    destruct (Rleb (is_duration c * pol) (IZR (e_steps e))) eqn:D; [apply Rleb_true in D; tauto|]. apply Rleb_false in D. split; [|tauto].
    split; [discriminate|]. intros [H|[H|H]]; [tauto | tauto | lra].
Qed.
Print Assumptions C40_intersection.
(** parking: the time limit, a crash, or success of every controlled vehicle. *)
Theorem C40_parking : forall compute goal duration e,
  (parking_terminal compute goal duration e = Ok true <->
     duration <= IZR (e_steps e) \/ (exists v, In v (controlled e) /\ v_crashed v = true) \/
     (forall v, In v (controlled e) ->
        - (12/100) < compute (goal_features (v_pos v) (v_heading v) (v_speed v)) (goal_features (o_pos goal) (o_heading goal) (o_speed goal)))) /\
  (parking_terminal compute goal duration e = Ok false \/ parking_terminal compute goal duration e = Ok true).
Proof.
  intros compute goal d e. unfold parking_terminal. set (P := forall v, In v (controlled e) -> _ < _).
  assert (S : forallb is_success (goal_rewards compute goal (controlled e)) = true <-> P).
  { rewrite forallb_forall. unfold goal_rewards, is_success, P. split.
    - intros H v Hv. apply Rltb_true. apply H. apply in_map_iff. eauto.
    - intros H x Hx. apply in_map_iff in Hx as (v & <- & Hv). apply Rltb_true. now apply H. }
  destruct (Rleb d (IZR (e_steps e))) eqn:D; [apply Rleb_true in D; cbn; tauto|]. apply Rleb_false in D. cbn [orb].
  destruct (existsb v_crashed (controlled e)) eqn:X; cbn [orb].
  - apply existsb_exists in X. tauto.
  - assert (NX : ~ exists v, In v (controlled e) /\ v_crashed v = true).
    { intros H. assert (existsb v_crashed (controlled e) = true) by (apply existsb_exists; exact H). congruence. }
    destruct (forallb _ _); split; try tauto. split; [discriminate|]. intros [H|[H|H]]; [lra | tauto | apply S in H; discriminate].
Qed.
Print Assumptions C40_parking.
Theorem C40_lane_keeping_never_ends : forall e, lane_keeping_terminal e = Ok false.
Proof. reflexivity. Qed.
Print Assumptions C40_lane_keeping_never_ends.

(** Steps are policy steps. *)
Theorem C40_steps_count : forall sc e acts trace, episode sc e acts trace ->
  forall i x, nth_error trace i = Some x -> e_steps x = (e_steps e + Z.of_nat i + 1)%Z.
Proof.
  intros sc e acts trace H. induction H as [e|e o a acts e1 trace _ E H IH]; intros i x Hi; [destruct i; discriminate|].
  apply env_step_persists in E as (_ & _ & E & _). destruct i as [|i]; cbn [nth_error] in Hi; [injection Hi as <-; lia|].
  rewrite (IH i x Hi). lia.
Qed.
Print Assumptions C40_steps_count.
(** Crashes are for ever: once a vehicle of the road has crashed it remains so, and
    where the crash of the ego vehicle ends the episode, it stays over. *)
Theorem C40_crash_absorbing : forall sc e acts trace, episode sc e acts trace ->
  (forall id v, vehicle_by_id (e_road e) id = Some v -> v_crashed v = true ->
     Forall (fun x => exists w, vehicle_by_id (e_road x) id = Some w /\ v_crashed w = true) trace) /\
  (crash_ends sc -> (exists v, ego e = Ok v /\ v_crashed v = true) -> Forall (over sc) trace).
Proof.
  intros sc e acts trace H. split.
  - induction H as [e|e o a acts e1 trace _ E H IH]; intros id v Vi Cv; constructor;
    apply env_step_persists in E as (P & _); destruct (persists_find _ _ _ _ P Vi) as (w & Vw & _ & _ & Cw); [exists w; auto|].
    eapply IH; [exact Vw | auto].
  - intros Ce. induction H as [e|e o a acts e1 trace _ E H IH]; intros (v & Ev & Cv); constructor;
    apply env_step_persists in E as (P & C & _); unfold ego in Ev; destruct (e_controlled e) as [|id ids] eqn:Ci; try discriminate;
    destruct (vehicle_by_id (e_road e) id) as [v0|] eqn:V; try discriminate; injection Ev as ->;
    destruct (persists_find _ _ _ _ P V) as (w & Vw & _ & _ & Cw);
    assert (Ew : ego e1 = Ok w) by (unfold ego; now rewrite C, Vw); [right; eapply Ce; eauto | eauto].
Qed.
Print Assumptions C40_crash_absorbing.
Theorem C40_crash_ends_every_driving_environment : forall sim pol manual act,
  (forall c, crash_ends (highway_scenario c sim pol manual act)) /\
  (forall d, crash_ends (roundabout_scenario d sim pol manual act)) /\
  crash_ends (merge_scenario sim pol manual act) /\ crash_ends (two_way_scenario sim pol manual act) /\
  (forall c, crash_ends (intersection_scenario c sim pol manual act)) /\
  (forall compute goal d, crash_ends (parking_scenario compute goal d sim pol manual act)).
Proof.
  intros sim pol manual act. unfold crash_ends.
  assert (In_ego : forall e v, ego e = Ok v -> v_crashed v = true -> existsb v_crashed (controlled e) = true).
  { intros e v Ev Cv. unfold ego in Ev. unfold controlled. destruct (e_controlled e) as [|id ids]; [discriminate|]. cbn [flat_map].
    destruct (vehicle_by_id (e_road e) id); [|discriminate]. injection Ev as ->. cbn. now rewrite Cv. }
  split; [|split; [|split; [|split; [|split]]]].
  - intros c e v Ev Cv. cbn. unfold highway_terminal. rewrite Ev. cbn. now rewrite Cv.
  - intros d e v Ev Cv. cbn. unfold roundabout_terminal. rewrite Ev. cbn. now rewrite Cv.
  - intros e v Ev Cv. cbn. unfold merge_terminal. rewrite Ev. cbn. now rewrite Cv.
  - intros e v Ev Cv. cbn. unfold two_way_terminal. rewrite Ev. cbn. now rewrite Cv.
  - intros c e v Ev Cv. cbn. unfold intersection_terminal. now rewrite (In_ego e v Ev Cv).
  - intros c g d e v Ev Cv. cbn. unfold parking_terminal. rewrite (In_ego e v Ev Cv). cbn. now rewrite orb_true_r.
Qed.
Print Assumptions C40_crash_ends_every_driving_environment.
(** The step during which the time limit is reached is cut after its first frame,
    because the step is counted before it is simulated: a highway episode of
    duration 40 with 15 frames per step simulates 39 * 15 + 1 frames. *)
Definition time_limited (sc : scenario) (limit : R) : Prop := forall e, limit <= IZR (e_steps e) -> (exists b, sc_terminal sc e = Ok b) -> sc_terminal sc e = Ok true.
Theorem C40_last_step_is_one_frame : forall sc limit o e a e', time_limited sc limit -> (0 < frames_per_step sc)%Z ->
  limit <= IZR (e_steps e) + 1 -> env_step sc o e a = Ok e' -> e_time e' = (e_time e + 1)%Z.
Proof.
  intros sc limit o e a e' TL Hn Hl E. apply env_step_frames in E as (E & _ & _). destruct (Z.to_nat (frames_per_step sc)) as [|k] eqn:K; [lia|].
  cbn [simulate_frames] in E. apply bind_ok in E as (e1 & F & E). apply bind_ok in E as (e2 & G & E).
  apply forward_persists in F as (_ & _ & T1 & S1 & D1). apply frame_advances, advances_time in G as (T2 & S2 & _ & _). cbn [e_time e_steps] in *.
  destruct (e_done e2); [injection E as <-; lia|]. apply bind_ok in E as (b & T & E).
  assert (sc_terminal sc e2 = Ok true) as T' by (apply TL; [rewrite S2, S1, plus_IZR; exact Hl | eauto]).
  rewrite T' in T. injection T as <-. injection E as <-. lia.
Qed.
Print Assumptions C40_last_step_is_one_frame.
Theorem C40_time_limits : forall sim pol manual act,
  (forall c, time_limited (highway_scenario c sim pol manual act) (hw_duration c)) /\
  (forall d, time_limited (roundabout_scenario d sim pol manual act) d) /\
  (forall c, time_limited (intersection_scenario c sim pol manual act) (is_duration c * pol)) /\
  (forall compute goal d, time_limited (parking_scenario compute goal d sim pol manual act) d).
Proof.
  intros sim pol manual act. unfold time_limited. split; [|split; [|split]].
  - intros c e L [b T]. cbn in *. unfold highway_terminal in *. destruct (ego e) as [v|]; [|discriminate]. cbn [bind] in *. destruct (v_crashed v); [reflexivity|].
    now rewrite (proj2 (Rleb_true _ _) L) in *.
  - intros d e L [b T]. cbn in *. unfold roundabout_terminal in *. destruct (ego e) as [v|]; [|discriminate]. cbn [bind] in *.
    rewrite (proj2 (Rleb_true _ _) L) in *. now rewrite orb_true_r.
  - intros c e L [b T]. cbn in *. unfold intersection_terminal in *. destruct (existsb _ _); [reflexivity|].
    destruct (allM _ _) as [[]|]; [reflexivity | | discriminate]. cbn [bind] in *. now rewrite (proj2 (Rleb_true _ _) L) in *.
  - intros c g d e L _. cbn in *. unfold parking_terminal. now rewrite (proj2 (Rleb_true _ _) L).
Qed.
Print Assumptions C40_time_limits.
(** In every situation met by the simulation the end of the episode can be decided. *)
Theorem C40_always_decided : forall sim pol manual act,
  (forall c, decides (highway_scenario c sim pol manual act)) /\ (forall d, decides (roundabout_scenario d sim pol manual act)) /\
  decides (merge_scenario sim pol manual act) /\ decides (two_way_scenario sim pol manual act) /\
  (forall c, decides (intersection_scenario c sim pol manual act)) /\
  (forall compute goal d, decides (parking_scenario compute goal d sim pol manual act)).
Proof.
  intros sim pol manual act. unfold decides. split; [|split; [|split; [|split; [|split]]]].
  - intros c e R. destruct (ready_ego _ _ R) as (v & Ev & _ & _ & L). destruct (get_lane_exists _ _ L) as [l Gl].
    destruct (C40_highway c e v l Ev Gl) as [_ [H|H]]; eauto.
  - intros d e R. destruct (ready_ego _ _ R) as (v & Ev & _). destruct (C40_roundabout d e v Ev) as [_ [H|H]]; eauto.
  - intros e R. destruct (ready_ego _ _ R) as (v & Ev & _). destruct (C40_merge e v Ev) as [_ [H|H]]; eauto.
  - intros e R. destruct (ready_ego _ _ R) as (v & Ev & _). exists (v_crashed v). apply (C40_two_way e v Ev).
  - intros c e R. destruct (C40_intersection c pol e) as [_ [H|H]]; eauto.
    intros v Hv. destruct (ready_controlled _ _ R v Hv) as (_ & _ & _ & L). now apply get_lane_exists.
  - intros compute goal d e R. destruct (C40_parking compute goal d e) as [_ [H|H]]; eauto.
Qed.
Print Assumptions C40_always_decided.

(** ** C71: episodes never fail *)
(** Whatever the random draws, a step with an action of the action space succeeds
    from every environment that is ready, and leaves it ready. *)
Theorem C71_step_never_fails : forall sc o e a, frequencies_ok sc -> decides sc -> oracle_ok o -> ready sc e ->
  in_action_space (sc_action sc) (List.length (e_controlled e)) a -> exists e', env_step sc o e a = Ok e' /\ ready sc e'.
Proof. exact env_step_total. Qed.
Print Assumptions C71_step_never_fails.
(** Hence episodes of any length exist, all their states are ready, and the
    population of the road and the controlled vehicles never change. *)
Theorem C71_episodes_of_any_length : forall sc e acts, frequencies_ok sc -> decides sc -> ready sc e ->
  Forall (in_action_space (sc_action sc) (List.length (e_controlled e))) acts ->
  exists trace, List.length trace = List.length acts /\ episode sc e acts trace /\ Forall (ready sc) trace.
Proof.
  intros sc e acts Hf Hd. revert e. induction acts as [|a acts IH]; intros e R F.
  - exists []. split; [reflexivity|]. split; [constructor | constructor].
  - inversion F as [|? ? Ha F']; subst. set (o := Oracle (fun _ _ _ => 0%nat) (fun _ _ _ => 0%nat)).
    assert (Ho : oracle_ok o) by (split; intros ? ? n Hn; exact Hn).
    destruct (env_step_total sc o e a Hf Hd Ho R Ha) as (e1 & E & R1).
    pose proof (env_step_persists _ _ _ _ _ E) as (_ & C & _). destruct (IH e1 R1) as (trace & L & Ep & Fr); [rewrite C; exact F'|].
    exists (e1 :: trace). split; [cbn; now rewrite L|]. split; [econstructor; eassumption | now constructor].
Qed.
Print Assumptions C71_episodes_of_any_length.
Theorem C71_population : forall sc e acts trace, episode sc e acts trace ->
  Forall (fun x => e_controlled x = e_controlled e /\ map v_id (rd_vehicles (e_road x)) = map v_id (rd_vehicles (e_road e)) /\
                   map v_kind (rd_vehicles (e_road x)) = map v_kind (rd_vehicles (e_road e))) trace.
Proof.
  intros sc e acts trace H. induction H as [e|e o a acts e1 trace _ E H IH]; constructor; apply env_step_persists in E as (P & C & _).
  - split; [exact C|]. split; [now apply persists_ids|]. clear -P. unfold persists in P. induction P as [|v w vs ws (_ & B & _) P IH]; [reflexivity|]. cbn. congruence.
  - assert (Km : map v_kind (rd_vehicles (e_road e1)) = map v_kind (rd_vehicles (e_road e))).
    { clear -P. unfold persists in P. induction P as [|v w vs ws (_ & B & _) P IH]; [reflexivity|]. cbn. congruence. }
    apply persists_ids in P. eapply Forall_impl; [|exact IH]. cbn. intros x (A & B & D). split; [congruence|]. split; congruence.
Qed.
Print Assumptions C71_population.

(** A three-lane highway with an ego vehicle and one more vehicle. *)
Definition demo_env : env :=
  Env (demo_road [with_id (demo_controlled KMDP (0, 0) 20 25 0) 1; with_id (demo_controlled KMDP (50, 4) 20 25 1) 2] []) [1%nat] 0 0 false.
Definition demo_scenario : scenario := highway_scenario highway_default 15 1 false (Single (Discrete true true)).
Lemma demo_ready : ready demo_scenario demo_env.
Proof.
  split; [apply demo_pair_runnable|]. split; [repeat constructor; cbn; intuition discriminate|]. split; [discriminate|].
  intros id [<- |[]]. eexists. split; [left; reflexivity|]. split; reflexivity.
Qed.
Lemma demo_frames : frames_per_step demo_scenario = 15%Z.
Proof. unfold frames_per_step. cbn. apply Rfloor_unique. cbn. lra. Qed.
Example C39_nonvacuous : exists e1 e2, episode demo_scenario demo_env [ActInt 3; ActInt 0] [e1; e2] /\ (e_time demo_env mod frames_per_step demo_scenario = 0)%Z.
Proof.
  destruct (C71_episodes_of_any_length demo_scenario demo_env [ActInt 3; ActInt 0]) as (tr & L & Ep & _).
  - split; [cbn; lra | discriminate].
  - apply (C40_always_decided 15 1 false (Single (Discrete true true))).
  - exact demo_ready.
  - repeat constructor; cbn; lia || tauto.
  - destruct tr as [|e1 [|e2 [|]]]; try discriminate. exists e1, e2. split; [exact Ep|]. now rewrite demo_frames.
Qed.
Example C40_nonvacuous : exists v l, ego demo_env = Ok v /\ get_lane (rd_net (e_road demo_env)) (v_lane_index v) = Ok l /\ highway_terminal highway_default demo_env = Ok false.
Proof.
  do 2 eexists. split; [reflexivity|]. split; [apply (demo_get 0); lia|]. unfold highway_terminal. cbn -[Rleb demo_net]. rewrite (proj2 (Rleb_false _ _)) by lra. reflexivity.
Qed.
Example C71_nonvacuous : ready demo_scenario demo_env /\ frequencies_ok demo_scenario /\ decides demo_scenario /\
  in_action_space (sc_action demo_scenario) (List.length (e_controlled demo_env)) (ActInt 4).
Proof.
  split; [exact demo_ready|]. split; [split; [cbn; lra | discriminate]|]. split; [apply (C40_always_decided 15 1 false (Single (Discrete true true)))|]. cbn. lia || (split; [lia | tauto]).
Qed.
