(** Lemmas about lanes that continue each other. *)
From Verif Require Import Prelude M_Utils M_Lane M_Road M_Vehicle M_Kinematics M_Control M_Behavior M_Regulation M_Action M_Env M_Scenes M_Nets M_Reset S_Reset
  S_Geometry S_Road S_Vehicle S_Control S_Behavior S_Regulation S_Env S_Joined P_Base P_Utils P_Lane P_Graph P_Bfs P_Query P_Kin P_Crash P_Control P_Behavior P_Traffic P_Regulation P_Action P_Env P_Scenes P_Nets P_Reset P_Ready P_Crossing P_Entry.
From Coq Require Import Lia Lra.
Open Scope R_scope.

(** ** Straight and sine lanes along a unit vector *)
Lemma along_lane st en u L : en = vadd st (vscal L u) -> fst u * fst u + snd u * snd u = 1 -> 0 < L ->
  vnorm (vsub en st) = L /\ straight_dir st en = u /\ facing (straight_heading st en) = u /\
  forall s d, straight_position st en s d = (fst st + s * fst u - d * snd u, snd st + s * snd u + d * fst u).
Proof.
  intros -> Hu HL. destruct (straight_along st u L Hu HL) as (A & B & C & _). set (en := vadd st (vscal L u)) in *. clearbody en.
  split; [exact C|]. split; [exact B|]. split; [unfold facing; rewrite <- (straight_dir_heading st en A); exact B|].
  intros s d. unfold straight_position, straight_lat. rewrite B. unfold vadd, vscal. cbn [fst snd]. f_equal; ring.
Qed.
Lemma straight_facts l st en u L : l_geom l = GStraight st en -> en = vadd st (vscal L u) -> fst u * fst u + snd u * snd u = 1 -> 0 < L ->
  l_length l = L /\ (forall s, l_position l s 0 = (fst st + s * fst u, snd st + s * snd u)) /\ forall s, facing (l_heading l s) = u.
Proof.
  intros G E Hu HL. destruct (along_lane st en u L E Hu HL) as (A & B & C & D). unfold l_length, l_position, l_heading. rewrite G. cbn [geom_length geom_position geom_heading].
  split; [exact A|]. split; [|intros _; exact C]. intros s. rewrite D. f_equal; ring.
Qed.
Lemma sine_facts l st en a w ph u L : l_geom l = GSine st en a w ph -> en = vadd st (vscal L u) -> fst u * fst u + snd u * snd u = 1 -> 0 < L ->
  l_length l = L /\ (forall s, l_position l s 0 = (fst st + s * fst u - a * sin (w * s + ph) * snd u, snd st + s * snd u + a * sin (w * s + ph) * fst u)) /\
  forall s, cos (w * s + ph) = 0 -> facing (l_heading l s) = u.
Proof.
  intros G E Hu HL. destruct (along_lane st en u L E Hu HL) as (A & B & C & D). unfold l_length, l_position, l_heading. rewrite G. cbn [geom_length geom_position geom_heading].
  split; [exact A|]. split; [|intros s Z; rewrite Z, Rmult_0_r, atan_0, Rplus_0_r; exact C]. intros s. rewrite D. f_equal; ring.
Qed.

(** ** The intersection *)
Lemma turn_cs k : (k < 4)%nat -> cos (turn k) = fst (match k with 0%nat => (1, 0) | 1%nat => (0, 1) | 2%nat => (-1, 0) | _ => (0, -1) end) /\
  sin (turn k) = snd (match k with 0%nat => (1, 0) | 1%nat => (0, 1) | 2%nat => (-1, 0) | _ => (0, -1) end).
Proof. intros H. pose proof (deg90 k H) as E. unfold turn. split; [exact (f_equal fst E)|exact (f_equal snd E)]. Qed.
Definition begins (l : lane) (p u : vec) : Prop := l_position l 0 0 = p /\ facing (l_heading l 0) = u.
Definition finishes (l : lane) (p u : vec) : Prop := l_position l (l_length l) 0 = p /\ facing (l_heading l (l_length l)) = u.
Lemma joined_by l l' p u : finishes l p u -> begins l' p u -> joined l l'.
Proof. intros [A B] [C D]. split; congruence. Qed.
Lemma arm_begins c : begins (arm_lane c) (vrot (turn c) (2, 111)) (vrot (turn c) (0, -1)).
Proof. destruct (arm_geometry c) as (_ & _ & H & _ & P). split; [rewrite P; do 2 f_equal; lra|exact H]. Qed.
Lemma arm_finishes c : finishes (arm_lane c) (vrot (turn c) (2, 11)) (vrot (turn c) (0, -1)).
Proof. destruct (arm_geometry c) as (_ & L & H & Hc & P). split; rewrite L; [rewrite P; do 2 f_equal; lra|rewrite Hc; exact H]. Qed.
Lemma ahead_begins c : begins (ahead_lane c) (vrot (turn c) (2, 11)) (vrot (turn c) (0, -1)).
Proof. destruct (ahead_geometry c) as (_ & _ & H & _ & P). split; [rewrite P; do 2 f_equal; lra|exact H]. Qed.
Lemma ahead_finishes c : finishes (ahead_lane c) (vrot (turn c) (2, -11)) (vrot (turn c) (0, -1)).
Proof. destruct (ahead_geometry c) as (_ & L & H & Hc & P). split; rewrite L; [rewrite P; do 2 f_equal; lra|rewrite Hc; exact H]. Qed.
Lemma exit_begins c : begins (exit_lane c) (vrot (turn c) (11, 2)) (vrot (turn c) (1, 0)).
Proof. destruct (exit_geometry c) as (_ & _ & H & _ & P). split; [rewrite P; do 2 f_equal; lra|exact H]. Qed.
Lemma exit_finishes c : finishes (exit_lane c) (vrot (turn c) (111, 2)) (vrot (turn c) (1, 0)).
Proof. destruct (exit_geometry c) as (_ & L & H & Hc & P). split; rewrite L; [rewrite P; do 2 f_equal; lra|rewrite Hc; exact H]. Qed.
Lemma facing_plus t x : facing (t + x) = vrot t (facing x).
Proof. unfold facing, vrot. cbn [fst snd]. rewrite cos_plus, sin_plus. f_equal; ring. Qed.
Lemma right_begins c : begins (right_lane c) (vrot (turn c) (2, 11)) (vrot (turn c) (0, -1)).
Proof.
  destruct (right_geometry c 0) as (_ & P & H). split.
  - rewrite P. replace (0 / 9) with 0 by field. rewrite cos_0, sin_0. do 2 f_equal; lra.
  - rewrite H. replace (turn c + 0 / 9 + 3 * (PI / 2)) with (turn c + 3 * (PI / 2)) by field. rewrite facing_plus. f_equal. unfold facing. f_equal; [apply cos_3PI2|apply sin_3PI2].
Qed.
Lemma right_finishes c : finishes (right_lane c) (vrot (turn c) (11, 2)) (vrot (turn c) (1, 0)).
Proof.
  destruct (right_geometry c (9 * (PI / 2))) as (L & P & H). split; rewrite L.
  - rewrite P. replace (9 * (PI / 2) / 9) with (PI / 2) by field. rewrite cos_PI2, sin_PI2. do 2 f_equal; lra.
  - rewrite H. replace (turn c + 9 * (PI / 2) / 9 + 3 * (PI / 2)) with (turn c + 2 * PI) by field. rewrite facing_plus. f_equal. unfold facing. now rewrite cos_2PI, sin_2PI.
Qed.
Lemma left_begins c : begins (left_lane c) (vrot (turn c) (2, 11)) (vrot (turn c) (0, -1)).
Proof.
  destruct (left_geometry c 0) as (_ & P & H). split.
  - rewrite P. replace (0 / 13) with 0 by field. rewrite cos_0, sin_0. do 2 f_equal; lra.
  - rewrite H. replace (turn c - 0 / 13 - PI / 2) with (turn c + - (PI / 2)) by field. rewrite facing_plus. f_equal. unfold facing. rewrite cos_neg, sin_neg, cos_PI2, sin_PI2. reflexivity.
Qed.
Lemma left_finishes c : finishes (left_lane c) (vrot (turn c) (-11, -2)) (vrot (turn c) (-1, 0)).
Proof.
  destruct (left_geometry c (13 * (PI / 2))) as (L & P & H). split; rewrite L.
  - rewrite P. replace (13 * (PI / 2) / 13) with (PI / 2) by field. rewrite cos_PI2, sin_PI2. do 2 f_equal; lra.
  - rewrite H. replace (turn c - 13 * (PI / 2) / 13 - PI / 2) with (turn c + - PI) by field. rewrite facing_plus. f_equal. unfold facing. rewrite cos_neg, sin_neg, cos_PI, sin_PI. f_equal; ring.
Qed.

(** The lanes of corner [c] by kind. *)
Inductive crossing_kind : Type := KArm | KRight | KLeft | KAhead | KExit.
Definition crossing_of_kind (q : crossing_kind) (c : nat) : string * string * lane :=
  match q with
  | KArm => (corner_name "o" c, corner_name "ir" c, arm_lane c) | KRight => (corner_name "ir" c, corner_name "il" (c + 3), right_lane c)
  | KLeft => (corner_name "ir" c, corner_name "il" (c + 1), left_lane c) | KAhead => (corner_name "ir" c, corner_name "il" (c + 2), ahead_lane c)
  | KExit => (corner_name "il" (c + 3), corner_name "o" (c + 3), exit_lane c)
  end.
Lemma crossing_lane a b k l : has_lane intersection_net a b k l -> exists q c, (c < 4)%nat /\ crossing_of_kind q c = (a, b, l).
Proof.
  intros H. rewrite crossing_eq, build_has_iff in H. apply nth_error_In, added_In in H. unfold crossing_adds in H. apply in_flat_map in H as (c & Hc & H).
  apply in_seq in Hc. rewrite corner_lanes_eq in H. cbn [In] in H.
  destruct H as [H|[H|[H|[H|[H|[]]]]]]; [exists KArm, c|exists KRight, c|exists KLeft, c|exists KAhead, c|exists KExit, c]; (split; [lia|exact H]).
Qed.
Definition node_from (q : crossing_kind) (c : nat) := fst (fst (crossing_of_kind q c)).
Definition node_to (q : crossing_kind) (c : nat) := snd (fst (crossing_of_kind q c)).
Lemma vrot_quarters c c' p p' : (c < 4)%nat -> (c' < 4)%nat ->
  vrot (turn c) p = vrot (turn c') p' <->
  (let cs k : R * R := match k with 0%nat => (1, 0) | 1%nat => (0, 1) | 2%nat => (-1, 0) | _ => (0, -1) end in
   fst (cs c) * fst p - snd (cs c) * snd p = fst (cs c') * fst p' - snd (cs c') * snd p' /\
   snd (cs c) * fst p + fst (cs c) * snd p = snd (cs c') * fst p' + fst (cs c') * snd p').
Proof.
  intros H H'. cbv zeta. destruct (turn_cs c H) as [A B]. destruct (turn_cs c' H') as [A' B']. unfold vrot. rewrite A, B, A', B'. split.
  - intros E. split; [apply (f_equal fst) in E|apply (f_equal snd) in E]; cbn [fst snd] in E; lra.
  - intros [E1 E2]. f_equal; lra.
Qed.
Lemma crossing_joined q c q' c' : (c < 4)%nat -> (c' < 4)%nat -> node_to q c = node_from q' c' -> q <> KExit ->
  joined (snd (crossing_of_kind q c)) (snd (crossing_of_kind q' c')).
Proof.
  intros H H' E NE.
  assert (X : (q = KArm /\ c' = c /\ (q' = KRight \/ q' = KLeft \/ q' = KAhead)) \/ (q = KRight /\ q' = KExit /\ c' = c) \/
              (q = KLeft /\ q' = KExit /\ c' = ((c + 2) mod 4)%nat) \/ (q = KAhead /\ q' = KExit /\ c' = ((c + 3) mod 4)%nat)).
  { unfold node_to, node_from in E. destruct c as [|[|[|[|c]]]]; [| | | |lia]; (destruct c' as [|[|[|[|c']]]]; [| | | |lia]);
      destruct q; try (now elim NE); destruct q'; cbn in E; try discriminate E; cbn; tauto. }
  destruct X as [(-> & -> & [-> |[-> | ->]])|[(-> & -> & ->)|[(-> & -> & ->)|(-> & -> & ->)]]]; cbn [crossing_of_kind snd].
  - eapply joined_by; [apply arm_finishes|apply right_begins].
  - eapply joined_by; [apply arm_finishes|apply left_begins].
  - eapply joined_by; [apply arm_finishes|apply ahead_begins].
  - eapply joined_by; [apply right_finishes|apply exit_begins].
  - destruct (left_finishes c) as [P U]. destruct (exit_begins ((c + 2) mod 4)) as [P' U']. split; [rewrite P, P'|rewrite U, U']; apply vrot_quarters; auto;
      (destruct c as [|[|[|[|c]]]]; [| | | |lia]); cbn; split; lra.
  - destruct (ahead_finishes c) as [P U]. destruct (exit_begins ((c + 3) mod 4)) as [P' U']. split; [rewrite P, P'|rewrite U, U']; apply vrot_quarters; auto;
      (destruct c as [|[|[|[|c]]]]; [| | | |lia]); cbn; split; lra.
Qed.
Lemma crossing_outside q c q' c' : (c < 4)%nat -> (c' < 4)%nat -> node_to q c = node_from q' c' -> q = KExit ->
  gap (snd (crossing_of_kind q c)) (snd (crossing_of_kind q' c')) = 4 /\
  facing (l_heading (snd (crossing_of_kind q c)) (l_length (snd (crossing_of_kind q c)))) = vscal (-1) (facing (l_heading (snd (crossing_of_kind q' c')) 0)).
Proof.
  intros H H' E ->.
  assert (X : q' = KArm /\ c' = ((c + 3) mod 4)%nat).
  { unfold node_to, node_from in E. destruct c as [|[|[|[|c]]]]; [| | | |lia]; (destruct c' as [|[|[|[|c']]]]; [| | | |lia]);
      destruct q'; cbn in E; try discriminate E; cbn; tauto. }
  destruct X as [-> ->]. cbn [crossing_of_kind snd]. destruct (exit_finishes c) as [P U]. destruct (arm_begins ((c + 3) mod 4)) as [P' U'].
  unfold gap. rewrite P, P', U, U'. destruct (turn_cs c H) as [A B]. destruct (turn_cs ((c + 3) mod 4) H') as [A' B'].
  unfold dist2, vrot, vscal. cbn [fst snd]. rewrite A, B, A', B'. split.
  - rewrite <- (sqrt_square 4) by lra. f_equal. (destruct c as [|[|[|[|c]]]]; [| | | |lia]); cbn; lra.
  - (destruct c as [|[|[|[|c]]]]; [| | | |lia]); cbn; f_equal; lra.
Qed.

(** ** The roundabout *)
Definition ring_adds : list (string * string * lane) := ring_lanes 20 (LContinuous, LStriped) ++ ring_lanes (20 + 4) (LNone, LContinuous) ++ access_lanes.
Lemma roundabout_eq : roundabout_net = build ring_adds.
Proof. reflexivity. Qed.
Definition rn (i : nat) : string := nth (i mod 8) ring_nodes ""%string.
Definition arc_from (i : nat) : R := match i with 0%nat => 90 - 24 | 1%nat => 24 | 2%nat => - 24 | 3%nat => - 90 + 24 | 4%nat => - 90 - 24 | 5%nat => - 180 + 24 | 6%nat => 180 - 24 | _ => 90 + 24 end.
Definition arc_to (i : nat) : R := match i with 0%nat => 24 | 1%nat => - 24 | 2%nat => - 90 + 24 | 3%nat => - 90 - 24 | 4%nat => - 180 + 24 | 5%nat => - 180 - 24 | 6%nat => 90 + 24 | _ => 90 - 24 end.
Definition ring_arc (r : R) (lt : line_type * line_type) (i : nat) : lane := circular_lane (0, 0) r (deg (arc_from i)) (deg (arc_to i)) false lt 20 0%Z.
Lemma ring_road i : (i < 8)%nat -> added_between (rn i) (rn (i + 1)) ring_adds = [ring_arc 20 (LContinuous, LStriped) i; ring_arc (20 + 4) (LNone, LContinuous) i].
Proof. intros H. do 8 (destruct i as [|i]; [reflexivity|]). lia. Qed.
Definition ring_radius (k : nat) : R := match k with 0%nat => 20 | _ => 24 end.
Lemma ring_lane i k l : (i < 8)%nat -> has_lane roundabout_net (rn i) (rn (i + 1)) k l -> (k < 2)%nat /\
  begins l (vscal (ring_radius k) (facing (deg (arc_from i)))) (facing (deg (arc_from i) - PI / 2)) /\
  finishes l (vscal (ring_radius k) (facing (deg (arc_to i)))) (facing (deg (arc_to i) - PI / 2)) /\ 0 < l_length l.
Proof.
  intros Hi H. rewrite roundabout_eq, build_has_iff, (ring_road i Hi) in H.
  assert (X : forall r lt, 0 < r -> let l := ring_arc r lt i in begins l (vscal r (facing (deg (arc_from i)))) (facing (deg (arc_from i) - PI / 2)) /\
    finishes l (vscal r (facing (deg (arc_to i)))) (facing (deg (arc_to i) - PI / 2)) /\ 0 < l_length l).
  { intros r lt Hr. cbv zeta. unfold begins, finishes, l_position, l_heading, l_length, ring_arc, circular_lane. cbn [l_geom geom_position geom_heading geom_length circ_dir]. unfold circ_dir, facing, vadd, vscal. cbn [fst snd].
    replace (-1 * 0 / r + deg (arc_from i)) with (deg (arc_from i)) by (field; lra).
    replace (-1 * (r * (deg (arc_to i) - deg (arc_from i)) * -1) / r + deg (arc_from i)) with (deg (arc_to i)) by (field; lra).
    assert (Q : forall x, x + PI / 2 * -1 = x - PI / 2) by (intros; field). rewrite !Q.
    split; [split; [f_equal; ring|reflexivity]|]. split; [split; [f_equal; ring|reflexivity]|].
    replace (r * (deg (arc_to i) - deg (arc_from i)) * -1) with (r * (deg (arc_from i) - deg (arc_to i))) by ring. apply Rmult_lt_0_compat; [exact Hr|].
    pose proof PI_RGT_0. unfold deg, arc_from, arc_to. do 8 (destruct i as [|i]; [lra|]). lia. }
  destruct k as [|[|k]]; [| |destruct k; discriminate]; cbn [nth_error] in H; injection H as <-; (split; [lia|]).
  - apply (X 20 (LContinuous, LStriped)). lra.
  - unfold ring_radius. replace 24 with (20 + 4) by lra. apply X. lra.
Qed.
Lemma facing_turn x : facing (x + 2 * PI) = facing x.
Proof. unfold facing. rewrite cos_plus, sin_plus, cos_2PI, sin_2PI. f_equal; ring. Qed.
Lemma arc_next i : (i < 8)%nat -> facing (deg (arc_to i)) = facing (deg (arc_from ((i + 1) mod 8))) /\ facing (deg (arc_to i) - PI / 2) = facing (deg (arc_from ((i + 1) mod 8)) - PI / 2).
Proof.
  intros H. assert (X : deg (arc_to i) = deg (arc_from ((i + 1) mod 8)) \/ deg (arc_to i) + 2 * PI = deg (arc_from ((i + 1) mod 8))).
  { do 5 (destruct i as [|i]; [left; reflexivity|]). destruct i as [|i]; [right; cbn; unfold deg; field|]. do 2 (destruct i as [|i]; [left; cbn; unfold deg; reflexivity|]). lia. }
  destruct X as [<- | <-]; [easy|]. split; [now rewrite facing_turn|]. replace (deg (arc_to i) + 2 * PI - PI / 2) with (deg (arc_to i) - PI / 2 + 2 * PI) by ring. now rewrite facing_turn.
Qed.
Lemma facing_norm p r x : dist2 (vscal p (facing x)) (vscal r (facing x)) = Rabs (p - r).
Proof.
  unfold dist2, vscal, facing. cbn [fst snd]. replace (_ + _) with (Rsqr (p - r) * (sin x * sin x + cos x * cos x)) by (unfold Rsqr; ring).
  pose proof (sin2_cos2 x) as T. unfold Rsqr in T. rewrite T, Rmult_1_r. apply sqrt_Rsqr_abs.
Qed.

(** The sine accesses: [p] is the initial of the arm. *)
Definition initial (i : nat) : string := nth i ["s"; "e"; "n"; "w"]%string ""%string.
(** Frame of an arm: [x] along the way out, [y] towards the side of the way in. *)
Definition frame (i : nat) (x y : R) : vec :=
  match i with 0%nat => (y, x) | 1%nat => (x, - y) | 2%nat => (- y, - x) | _ => (- x, y) end.
Definition way_in (i : nat) : lane := r_straight (frame i 170 2) (frame i (85/2) 2) (LStriped, LContinuous).
Definition entry_sine (i : nat) : lane := r_entry (frame i (85/2) 7) (frame i (51/2) 7).
Definition exit_sine (i : nat) : lane := r_exit (frame i (51/2) (-7)) (frame i (85/2) (-7)).
Definition way_out (i : nat) : lane := r_straight (frame i (85/2) (-2)) (frame i 170 (-2)) (LNone, LContinuous).
Lemma access_roads i : (i < 4)%nat -> let p := initial i in
  added_between (p ++ "er") (p ++ "es") ring_adds = [way_in i] /\ added_between (p ++ "es") (p ++ "e") ring_adds = [entry_sine i] /\
  added_between (p ++ "x") (p ++ "xs") ring_adds = [exit_sine i] /\ added_between (p ++ "xs") (p ++ "xr") ring_adds = [way_out i].
Proof.
  intros H. cbv zeta. unfold way_in, entry_sine, exit_sine, way_out. do 4 (destruct i as [|i]; [
    repeat split; cbn; unfold r_straight, r_entry, r_exit, straight_lane, sine_lane, r_delta_en, r_delta_st, r_access, r_dev, r_a; cbn [frame]; (do 3 f_equal; try (f_equal; lra)) |]). lia.
Qed.
Lemma access_facts i : (i < 4)%nat ->
  finishes (way_in i) (frame i (85/2) 2) (frame i (-1) 0) /\ begins (entry_sine i) (frame i (85/2) 2) (frame i (-1) 0) /\
  (exists y, l_position (entry_sine i) (l_length (entry_sine i)) 0 = frame i (51/2) y) /\
  (exists y, l_position (exit_sine i) 0 0 = frame i (51/2) y) /\
  finishes (exit_sine i) (frame i (85/2) (-2)) (frame i 1 0) /\ begins (way_out i) (frame i (85/2) (-2)) (frame i 1 0).
Proof.
  intros Hi.
  assert (U : forall x, x = 1 \/ x = -1 -> fst (frame i x 0) * fst (frame i x 0) + snd (frame i x 0) * snd (frame i x 0) = 1).
  { intros x Hx. destruct i as [|[|[|[|i]]]]; [| | | |lia]; cbn [frame fst snd]; destruct Hx; subst x; ring. }
  destruct (straight_facts (way_in i) _ _ (frame i (-1) 0) (255/2) eq_refl) as (L1 & P1 & H1); [destruct i as [|[|[|[|i]]]]; [| | | |lia]; unfold vadd, vscal; cbn [frame fst snd]; f_equal; lra | apply U; tauto | lra |].
  destruct (straight_facts (way_out i) _ _ (frame i 1 0) (255/2) eq_refl) as (L4 & P4 & H4); [destruct i as [|[|[|[|i]]]]; [| | | |lia]; unfold vadd, vscal; cbn [frame fst snd]; f_equal; lra | apply U; tauto | lra |].
  destruct (sine_facts (entry_sine i) _ _ _ _ _ (frame i (-1) 0) 17 eq_refl) as (L2 & P2 & H2); [destruct i as [|[|[|[|i]]]]; [| | | |lia]; unfold vadd, vscal; cbn [frame fst snd]; f_equal; lra | apply U; tauto | lra |].
  destruct (sine_facts (exit_sine i) _ _ _ _ _ (frame i 1 0) 17 eq_refl) as (L3 & P3 & H3); [destruct i as [|[|[|[|i]]]]; [| | | |lia]; unfold vadd, vscal; cbn [frame fst snd]; f_equal; lra | apply U; tauto | lra |].
  assert (A0 : r_w * 0 + - PI / 2 = - (PI / 2)) by field.
  assert (A1 : r_w * 17 + (- PI / 2 + r_w * r_delta_en) = - (PI / 2) + 2 * PI) by (unfold r_w, r_delta_en, r_delta_st, r_dev; field).
  assert (S0 : sin (- (PI / 2)) = -1) by (rewrite sin_neg, sin_PI2; ring). assert (C0 : cos (- (PI / 2)) = 0) by (rewrite cos_neg; apply cos_PI2).
  assert (S1 : sin (- (PI / 2) + 2 * PI) = -1) by (rewrite sin_plus, sin_2PI, cos_2PI, S0, C0; ring).
  assert (C1 : cos (- (PI / 2) + 2 * PI) = 0) by (rewrite cos_plus, sin_2PI, cos_2PI, S0, C0; ring).
  split; [split; [rewrite L1, P1; clear -Hi; destruct i as [|[|[|[|i]]]]; [| | | |lia]; cbn [frame fst snd]; f_equal; lra|apply H1]|].
  split; [split; [rewrite P2, A0, S0; unfold r_a; clear -Hi; destruct i as [|[|[|[|i]]]]; [| | | |lia]; cbn [frame fst snd]; f_equal; lra|apply H2; rewrite A0; exact C0]|].
  split; [exists (7 + 5 * sin (r_w * 17 + - PI / 2)); rewrite L2, P2; unfold r_a; set (z := sin _); clearbody z; clear -Hi; destruct i as [|[|[|[|i]]]]; [| | | |lia]; cbn [frame fst snd]; f_equal; lra|].
  split; [exists (-7 - 5 * sin (r_w * 0 + (- PI / 2 + r_w * r_delta_en))); rewrite P3; unfold r_a; set (z := sin _); clearbody z; clear -Hi; destruct i as [|[|[|[|i]]]]; [| | | |lia]; cbn [frame fst snd]; f_equal; lra|].
  split; [split; rewrite L3; [rewrite P3, A1, S1; unfold r_a; clear -Hi; destruct i as [|[|[|[|i]]]]; [| | | |lia]; cbn [frame fst snd]; f_equal; lra|apply H3; rewrite A1; exact C1]|].
  split; [rewrite P4; clear -Hi; destruct i as [|[|[|[|i]]]]; [| | | |lia]; cbn [frame fst snd]; f_equal; lra|apply H4].
Qed.
Lemma dist2_fst p q : Rabs (fst p - fst q) <= dist2 p q.
Proof. unfold dist2. rewrite <- sqrt_Rsqr_abs. apply sqrt_le_1_alt. unfold Rsqr. pose proof (pow2_ge_0 (snd p - snd q)). nra. Qed.
Lemma dist2_snd p q : Rabs (snd p - snd q) <= dist2 p q.
Proof. unfold dist2. rewrite <- sqrt_Rsqr_abs. apply sqrt_le_1_alt. unfold Rsqr. pose proof (pow2_ge_0 (fst p - fst q)). nra. Qed.
Lemma dist2_sym p q : dist2 p q = dist2 q p.
Proof. unfold dist2. f_equal. ring. Qed.
Lemma ring_clear i y k x : (i < 4)%nat -> 3/2 <= dist2 (frame i (51/2) y) (vscal (ring_radius k) (facing x)).
Proof.
  intros Hi. pose proof (COS_bound x). pose proof (SIN_bound x). assert (R : 20 <= ring_radius k <= 24) by (destruct k; cbn; lra). set (r := ring_radius k) in *. clearbody r.
  assert (-24 <= r * cos x <= 24) by nra. assert (-24 <= r * sin x <= 24) by nra.
  set (p := frame i (51/2) y). set (q := vscal r (facing x)).
  pose proof (dist2_fst p q) as A. pose proof (dist2_snd p q) as B. unfold Rabs in A, B.
  unfold p, q in *. destruct i as [|[|[|[|i]]]]; [| | | |lia]; unfold vscal, facing in *; cbn [frame fst snd] in *; destruct (Rcase_abs _); destruct (Rcase_abs _); lra.
Qed.

(** ** The other networks *)
Definition merge_adds : list (string * string * lane) := (merge_highway_lanes 0 (LContinuousLine, LStriped) (LContinuousLine, LStriped) ++
  merge_highway_lanes DEFAULT_WIDTH (LNone, LContinuousLine) (LNone, LStriped) ++ [("j", "k", merge_ljk); ("k", "b", merge_lkb); ("b", "c", merge_lbc)]%string)%list.
Lemma merge_eq : merge_net = build merge_adds.
Proof. reflexivity. Qed.
Lemma east l st en L : l_geom l = GStraight st en -> en = (fst st + L, snd st) -> 0 < L ->
  l_length l = L /\ begins l st (1, 0) /\ finishes l en (1, 0).
Proof.
  intros G -> HL. destruct (straight_facts l st _ (1, 0) L G) as (A & B & C); [unfold vadd, vscal; cbn [fst snd]; f_equal; ring|cbn; ring|exact HL|].
  split; [exact A|]. unfold begins, finishes. rewrite A, !B, !C. cbn [fst snd]. destruct st as [x y]. cbn [fst snd]. repeat split; f_equal; ring.
Qed.
Definition merge_y (k : nat) : R := match k with 0%nat => 0 | 1%nat => 4 | _ => 8 end.
Lemma merge_ab k l : has_lane merge_net "a" "b" k l -> (k < 2)%nat /\ l_length l = 230 /\ begins l (0, merge_y k) (1, 0) /\ finishes l (230, merge_y k) (1, 0).
Proof.
  rewrite merge_eq, build_has_iff. intros H. cbn in H. destruct k as [|[|k]]; [| |destruct k; discriminate H]; cbn [nth_error] in H; injection H as <-; (split; [lia|]);
    apply east; unfold straight_lane, DEFAULT_WIDTH; cbn [l_geom merge_y fst snd]; try lra; f_equal; f_equal; lra.
Qed.
Lemma merge_cd k l : has_lane merge_net "c" "d" k l -> (k < 2)%nat /\ l_length l = 150 /\ begins l (310, merge_y k) (1, 0) /\ finishes l (460, merge_y k) (1, 0).
Proof.
  rewrite merge_eq, build_has_iff. intros H. cbn in H. destruct k as [|[|k]]; [| |destruct k; discriminate H]; cbn [nth_error] in H; injection H as <-; (split; [lia|]);
    apply east; unfold straight_lane, DEFAULT_WIDTH; cbn [l_geom merge_y fst snd]; try lra; f_equal; f_equal; lra.
Qed.
Lemma merge_jk_geom : l_geom merge_ljk = GStraight (0, 29/2) (150, 29/2).
Proof. unfold merge_ljk, straight_lane. cbn [l_geom]. f_equal; f_equal; lra. Qed.
Lemma merge_kb_geom : l_geom merge_lkb = GSine (150, 45/4) (230, 45/4) (325/100) (2 * PI / (2 * 80)) (PI / 2).
Proof.
  unfold merge_lkb, sine_lane. cbn [l_geom]. destruct (along_lane (0, 29/2) (150, 29/2) (1, 0) 150) as (_ & _ & _ & P); [unfold vadd, vscal; cbn [fst snd]; f_equal; lra|cbn; ring|lra|].
  unfold l_position. rewrite merge_jk_geom. cbn [geom_position]. rewrite !P. cbn [fst snd]. f_equal; f_equal; lra.
Qed.
Lemma merge_kb_facts : l_length merge_lkb = 80 /\ begins merge_lkb (150, 29/2) (1, 0) /\ finishes merge_lkb (230, 8) (1, 0).
Proof.
  destruct (sine_facts merge_lkb _ _ _ _ _ (1, 0) 80 merge_kb_geom) as (A & B & C); [unfold vadd, vscal; cbn [fst snd]; f_equal; lra|cbn; ring|lra|].
  assert (E0 : 2 * PI / (2 * 80) * 0 + PI / 2 = PI / 2) by field. assert (E1 : 2 * PI / (2 * 80) * 80 + PI / 2 = 3 * (PI / 2)) by field.
  split; [exact A|]. split; split.
  - rewrite B, E0, sin_PI2. cbn [fst snd]. f_equal; lra.
  - apply C. rewrite E0. apply cos_PI2.
  - rewrite A, B, E1, sin_3PI2. cbn [fst snd]. f_equal; lra.
  - rewrite A. apply C. rewrite E1. apply cos_3PI2.
Qed.
Lemma merge_bc_geom : l_geom merge_lbc = GStraight (230, 8) (310, 8).
Proof.
  destruct merge_kb_facts as (L & _ & [P _]). unfold merge_lbc, straight_lane. cbn [l_geom]. rewrite L in P. rewrite P. unfold vadd. cbn [fst snd]. f_equal; f_equal; lra.
Qed.
Lemma merge_bc k l : has_lane merge_net "b" "c" k l -> (k < 3)%nat /\ l_geom l = GStraight (230, merge_y k) (310, merge_y k).
Proof.
  rewrite merge_eq, build_has_iff. intros H. cbn in H. destruct k as [|[|[|k]]]; [| | |destruct k; discriminate H]; cbn [nth_error] in H; injection H as <-; (split; [lia|]);
    [| |exact merge_bc_geom]; unfold straight_lane, DEFAULT_WIDTH; cbn [l_geom merge_y fst snd]; f_equal; f_equal; lra.
Qed.
Lemma merge_bc_facts k l : has_lane merge_net "b" "c" k l -> (k < 3)%nat /\ l_length l = 80 /\ begins l (230, merge_y k) (1, 0) /\ finishes l (310, merge_y k) (1, 0).
Proof. intros H. apply merge_bc in H as [Hk H]. split; [exact Hk|]. apply (east _ _ _ _ H); cbn [fst snd]; [f_equal; lra|lra]. Qed.
Lemma merge_jk k l : has_lane merge_net "j" "k" k l -> k = 0%nat /\ l = merge_ljk.
Proof. rewrite merge_eq, build_has_iff. intros H. cbn in H. destruct k as [|k]; [|destruct k; discriminate H]. injection H as <-. easy. Qed.
Lemma merge_kb k l : has_lane merge_net "k" "b" k l -> k = 0%nat /\ l = merge_lkb.
Proof. rewrite merge_eq, build_has_iff. intros H. cbn in H. destruct k as [|k]; [|destruct k; discriminate H]. injection H as <-. easy. Qed.

Lemma keeping_facts : finishes lane_keeping_straight (115, 15) (vscal (/ sqrt 5450) (65, -35)) /\ begins lane_keeping_link (115, 15) (vscal (/ sqrt 5450) (65, -35)) /\
  (exists y, l_position lane_keeping_link (l_length lane_keeping_link) 0 = (135, y)) /\ l_position lane_keeping_sine 0 0 = (0, 0).
Proof.
  set (n := sqrt 5450). assert (N : n * n = 5450) by (apply sqrt_def; lra). assert (Np : 0 < n) by (apply sqrt_lt_R0; lra). clearbody n.
  assert (U : fst (vscal (/ n) (65, -35)) * fst (vscal (/ n) (65, -35)) + snd (vscal (/ n) (65, -35)) * snd (vscal (/ n) (65, -35)) = 1).
  { unfold vscal. cbn [fst snd]. apply (Rmult_eq_reg_l (n * n)); [|nra]. transitivity (65 * 65 + 35 * 35); [field|]; lra. }
  destruct (straight_facts lane_keeping_straight _ _ (vscal (/ n) (65, -35)) n eq_refl) as (A & B & C); [unfold vadd, vscal; cbn [fst snd]; f_equal; field; lra|exact U|exact Np|].
  destruct (straight_facts lane_keeping_link _ _ (vscal (/ n) (65, -35)) (4/13 * n) eq_refl) as (A' & B' & C'); [unfold vadd, vscal; cbn [fst snd]; f_equal; field; lra|exact U|lra|].
  split; [split; [rewrite A, B; unfold vscal; cbn [fst snd]; f_equal; field; lra|apply C]|].
  split; [split; [rewrite B'; unfold vscal; cbn [fst snd]; f_equal; field; lra|apply C']|].
  split; [eexists; rewrite A', B'; unfold vscal; cbn [fst snd]; f_equal; field; lra|].
  destruct (sine_facts lane_keeping_sine _ _ _ _ _ (1, 0) 500 eq_refl) as (_ & P & _); [unfold vadd, vscal; cbn [fst snd]; f_equal; ring|cbn; ring|lra|].
  rewrite P. replace (2 * PI / 100 * 0 + 0) with 0 by field. rewrite sin_0. cbn [fst snd]. f_equal; ring.
Qed.

(** ** Positions along a route *)
Lemma geom_position_continuous g d : continuity (fun s => fst (geom_position g s d)) /\ continuity (fun s => snd (geom_position g s d)).
Proof.
  destruct g as [st en|st en a w ph|c r sp ep cw]; cbn [geom_position]; unfold straight_position, vadd, vscal; cbn [fst snd].
  - split; reg.
  - split; reg.
  - unfold Rdiv. split; reg.
Qed.
Lemma glue (f h : R -> R) a : continuity f -> continuity h -> f a = h a -> continuity (fun s => if Rltb a s then h s else f s).
Proof.
  intros F H E x eps He. destruct (F x eps He) as (d1 & D1 & F1). destruct (H x eps He) as (d2 & D2 & H2).
  unfold dist, R_met, Base, R_dist in *. cbn in *. unfold R_dist in *.
  destruct (Rtotal_order x a) as [L|[L|L]].
  - exists (Rmin d1 (a - x)). split; [apply Rmin_case; lra|]. intros y [Dy Ny]. rewrite (Rltb_ge a x) by lra.
    assert (y < a). { pose proof (Rmin_r d1 (a - x)). pose proof (Rle_abs (y - x)). lra. }
    rewrite (Rltb_ge a y) by lra. apply F1. split; [exact Dy|]. pose proof (Rmin_l d1 (a - x)). lra.
  - subst x. exists (Rmin d1 d2). split; [apply Rmin_case; lra|]. intros y [Dy Ny]. rewrite (Rltb_ge a a) by lra. destruct (Rltb a y).
    + rewrite E. apply H2. split; [exact Dy|]. pose proof (Rmin_r d1 d2). lra.
    + apply F1. split; [exact Dy|]. pose proof (Rmin_l d1 d2). lra.
  - exists (Rmin d2 (x - a)). split; [apply Rmin_case; lra|]. intros y [Dy Ny]. rewrite (Rltb_lt a x) by lra.
    assert (a < y). { pose proof (Rmin_r d2 (x - a)). pose proof (Rle_abs (- (y - x))). rewrite Rabs_Ropp in *. lra. }
    rewrite (Rltb_lt a y) by lra. apply H2. split; [exact Dy|]. pose proof (Rmin_l d2 (x - a)). lra.
Qed.
Lemma continuity_ext f h : (forall x, f x = h x) -> continuity f -> continuity h.
Proof. intros E C x eps He. destruct (C x eps He) as (d & D & Q). exists d. split; [exact D|]. intros y Y. rewrite <- !E. apply Q, Y. Qed.
Definition spot (r : res (vec * R)) : vec := match r with Ok (p, _) => p | Err _ => (0, 0) end.
Lemma route_continuous g rt : unbroken g rt -> rt <> [] ->
  (forall s, exists h, position_heading_along_route g rt s 0 = Ok (spot (position_heading_along_route g rt s 0), h)) /\
  continuity (fun s => fst (spot (position_heading_along_route g rt s 0))) /\ continuity (fun s => snd (spot (position_heading_along_route g rt s 0))) /\
  (forall r l, hd_error rt = Some r -> get_lane g r = Ok l -> spot (position_heading_along_route g rt 0 0) = l_position l 0 0).
Proof.
  induction rt as [|r rt IH]; [easy|]. intros U _. cbn [unbroken] in U. destruct U as ((l & Gl & Ll) & U & J).
  destruct (geom_position_continuous (l_geom l) 0) as [C1 C2].
  destruct rt as [|r' rt].
  - split; [|split; [|split]].
    + intros s. rewrite (along_last _ _ _ _ _ Gl). cbn [spot]. eauto.
    + eapply continuity_ext; [|exact C1]. intros s. cbn beta. now rewrite (along_last _ _ _ _ _ Gl).
    + eapply continuity_ext; [|exact C2]. intros s. cbn beta. now rewrite (along_last _ _ _ _ _ Gl).
    + intros q l' Eq Gq. injection Eq as <-. rewrite Gl in Gq. injection Gq as <-. now rewrite (along_last _ _ _ _ _ Gl).
  - destruct (IH U ltac:(discriminate)) as (T & D1 & D2 & Z). clear IH.
    pose proof U as U0. cbn [unbroken] in U0. destruct U0 as ((l' & Gl' & _) & _). destruct (J _ _ Gl Gl') as [Jp _].
    specialize (Z r' l' eq_refl Gl').
    set (tail := fun s => spot (position_heading_along_route g (r' :: rt) s 0)) in *.
    assert (Ef : forall s, (l_length l < s /\ position_heading_along_route g (r :: r' :: rt) s 0 = position_heading_along_route g (r' :: rt) (s - l_length l) 0) \/
                           (s <= l_length l /\ position_heading_along_route g (r :: r' :: rt) s 0 = Ok (l_position l s 0, l_heading l s))).
    { intros s. destruct (Rlt_le_dec (l_length l) s) as [A|A]; [left; split; [exact A|now apply along_beyond]|right; split; [exact A|now apply along_within]]. }
    assert (Cont : forall pr : vec -> R, continuity (fun s => pr (tail s)) -> continuity (fun s => pr (l_position l s 0)) ->
                   continuity (fun s => pr (spot (position_heading_along_route g (r :: r' :: rt) s 0)))).
    { intros pr Ct Cl. apply (continuity_ext (fun s => if Rltb (l_length l) s then pr (tail (s - l_length l)) else pr (l_position l s 0))).
      - intros s. destruct (Ef s) as [[A E]|[A E]]; rewrite E; [now rewrite Rltb_lt|now rewrite Rltb_ge].
      - apply (glue (fun s => pr (l_position l s 0)) (fun s => pr (tail (s - l_length l)))); [exact Cl| |].
        + apply (continuity_comp (fun s => s - l_length l) (fun s => pr (tail s))); [reg|exact Ct].
        + rewrite Rminus_eq_0. unfold tail. rewrite Z, Jp. reflexivity. }
    split; [|split; [|split]].
    + intros s. destruct (Ef s) as [[A E]|[A E]]; rewrite E; [apply T|cbn [spot]; eauto].
    + now apply (Cont fst).
    + now apply (Cont snd).
    + intros q m Eq Gq. injection Eq as <-. rewrite Gl in Gq. injection Gq as <-. destruct (Ef 0) as [[A E]|[A E]]; [lra|now rewrite E].
Qed.
