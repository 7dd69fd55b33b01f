(** Lemmas about the concrete environments. *)
From Verif Require Import Prelude M_Utils M_Lane M_Road M_Vehicle M_Kinematics M_Control M_Behavior M_Regulation M_Action M_Env M_Scenes
  S_Geometry S_Road S_Vehicle S_Control S_Behavior S_Regulation S_Env P_Base P_Utils P_Lane P_Graph P_Bfs P_Query P_Kin P_Crash P_Control P_Behavior P_Traffic P_Regulation P_Action P_Env.
From Coq Require Import Lia Lra.
Open Scope R_scope.

(** Episode ends. *)
Lemma prefix_iff p s : String.prefix p s = true <-> exists b, s = (p ++ b)%string.
Proof.
  revert s. induction p as [|c p IH]; intros s.
  - split; [intros _; now exists s | now destruct s].
  - destruct s as [|c' s]; cbn.
    + split; [discriminate | intros [b H]; discriminate].
    + destruct (Ascii.ascii_dec c c') as [-> |N].
      * rewrite IH. split; intros [b H]; exists b; [now rewrite H | now injection H].
      * split; [discriminate|]. intros [b H]. injection H as H _. congruence.
Qed.
Lemma contains_iff sub s : contains sub s = true <-> exists a b, s = (a ++ sub ++ b)%string.
Proof.
  induction s as [|c s IH].
  - cbn [contains]. rewrite orb_false_r, prefix_iff. split.
    + intros [b H]. exists ""%string, b. exact H.
    + intros (a & b & H). destruct a; [|discriminate]. exists b. exact H.
  - cbn [contains]. rewrite orb_true_iff, prefix_iff, IH. split.
    + intros [[b H]|(a & b & H)]; [exists ""%string, b; exact H | exists (String c a), b; cbn; now rewrite H].
    + intros (a & b & H). destruct a as [|c' a]; [left; exists b; exact H|]. right. injection H as _ H. exists a, b. exact H.
Qed.
Lemma allM_iff {A} (f : A -> res bool) (P : A -> Prop) l :
  (forall x, In x l -> (f x = Ok true <-> P x) /\ (f x = Ok false \/ f x = Ok true)) ->
  exists b, allM f l = Ok b /\ (b = true <-> forall x, In x l -> P x).
Proof.
  induction l as [|x l IH]; intros H; cbn [allM].
  - exists true. split; [reflexivity|]. split; [intros _ ? [] | reflexivity].
  - destruct (H x (or_introl eq_refl)) as [Hx [Fx|Fx]]; rewrite Fx; cbn [bind].
    + exists false. split; [reflexivity|]. split; [discriminate|]. intros Q. specialize (Q x (or_introl eq_refl)). apply Hx in Q. congruence.
    + destruct IH as (b & -> & Hb); [intros y Hy; apply H; now right|]. exists b. split; [reflexivity|]. rewrite Hb. split.
      * intros Q y [<- |Hy]; [now apply Hx | auto].
      * intros Q y Hy. apply Q. now right.
Qed.

Lemma ready_ego sc e : ready sc e -> exists v, ego e = Ok v /\ In v (rd_vehicles (e_road e)) /\ v_kind v = vehicle_class (agent_of (sc_action sc)) /\ lane_exists (rd_net (e_road e)) (v_lane_index v).
Proof.
  intros R. pose proof (ready_kinds _ _ R) as K. destruct R as (Rr & Nd & Ne & H). unfold ego. destruct (e_controlled e) as [|id ids] eqn:C; [congruence|].
  destruct (H id (or_introl eq_refl)) as (v & Hv & Ev & Kv). unfold vehicle_by_id.
  destruct (find _ _) as [w|] eqn:F.
  - apply find_some in F as [Hw Ew]. apply Nat.eqb_eq in Ew. exists w. split; [reflexivity|]. split; [exact Hw|]. split; [apply K; [exact Hw | left; congruence]|].
    unfold road_ready in Rr. assert (Ru : runnable (e_road e)) by (destruct (sc_regulated sc); [apply Rr | exact Rr]). destruct Ru as (_ & _ & W & _). now apply W.
  - exfalso. eapply find_none in F; [|exact Hv]. apply Nat.eqb_neq in F. congruence.
Qed.
Lemma ready_controlled sc e : ready sc e -> forall v, In v (controlled e) -> In v (rd_vehicles (e_road e)) /\ In (v_id v) (e_controlled e) /\ v_kind v = vehicle_class (agent_of (sc_action sc)) /\ lane_exists (rd_net (e_road e)) (v_lane_index v).
Proof.
  intros R v Hv. unfold controlled in Hv. apply in_flat_map in Hv as (id & Hid & Hv). unfold vehicle_by_id in Hv. destruct (find _ _) as [w|] eqn:F; [|contradiction].
  destruct Hv as [-> |[]]. apply find_some in F as [Hw Ew]. apply Nat.eqb_eq in Ew. subst id. split; [exact Hw|]. split; [exact Hid|]. split; [eapply ready_kinds; eauto|].
  destruct R as (Rr & _). unfold road_ready in Rr. assert (Ru : runnable (e_road e)) by (destruct (sc_regulated sc); [apply Rr | exact Rr]). destruct Ru as (_ & _ & W & _). now apply W.
Qed.
(** The lanes of an unrotated straight road. *)
Lemma straight_network_local n k len p : 0 < len ->
  l_local (straight_network_lane n k len 0) p = (fst p, snd p - 4 * INR k) /\ l_length (straight_network_lane n k len 0) = len.
Proof.
  intros H. destruct (straight_x_local len (4 * INR k) p H) as [A B].
  assert (Ev : forall z, vrot (- 0) (z, INR k * DEFAULT_WIDTH) = (z, 4 * INR k)).
  { intros z. unfold vrot, DEFAULT_WIDTH. cbn [fst snd]. rewrite Ropp_0, cos_0, sin_0. apply f_equal2; ring. }
  unfold l_local, l_length, straight_network_lane. cbn [l_geom]. rewrite !Ev. cbn [geom_local]. split; assumption.
Qed.
Lemma index_to_speed_lt sg i j : sg_min sg < sg_max sg -> (0 <= i < j)%Z -> (j <= sg_count sg - 1)%Z -> index_to_speed sg i < index_to_speed sg j.
Proof.
  intros H Hij Hj. unfold index_to_speed. rewrite (proj2 (Z.ltb_lt _ _)) by lia.
  assert (0 < IZR (sg_count sg - 1)) by (apply IZR_lt; lia). assert (IZR i < IZR j) by (apply IZR_lt; lia).
  apply Rplus_lt_compat_l. unfold Rdiv. apply Rmult_lt_compat_r; [now apply Rinv_0_lt_compat|]. apply Rmult_lt_compat_r; lra.
Qed.
