(** Geometry of the intersection: where its lanes are, and which lane is closest to a
    point of an arm. *)
From Verif Require Import Prelude M_Utils M_Lane M_Road M_Vehicle M_Kinematics M_Control M_Behavior M_Regulation M_Action M_Env M_Scenes M_Nets M_Reset S_Reset
  S_Geometry S_Road S_Vehicle S_Control S_Behavior S_Regulation S_Env P_Base P_Utils P_Lane P_Graph P_Bfs P_Query P_Kin P_Crash P_Control P_Behavior P_Traffic P_Regulation P_Action P_Env P_Scenes P_Nets P_Reset P_Ready P_Crossing.
From Coq Require Import Lia Lra.
Open Scope R_scope.

Lemma straight_along st u L : fst u * fst u + snd u * snd u = 1 -> 0 < L -> let en := vadd st (vscal L u) in
  st <> en /\ straight_dir st en = u /\ geom_length (GStraight st en) = L /\ forall s, straight_position st en s 0 = vadd st (vscal s u).
Proof.
  intros Hu HL. cbv zeta. set (en := vadd st (vscal L u)).
  assert (Hn : vnorm (vsub en st) = L).
  { unfold vnorm, vsub, en, vadd, vscal. cbn [fst snd]. replace (_ + _) with (L * L * (fst u * fst u + snd u * snd u)) by ring. rewrite Hu, Rmult_1_r. apply sqrt_square. lra. }
  assert (Hd : straight_dir st en = u).
  { unfold straight_dir. rewrite Hn. unfold en, vsub, vadd, vscal. destruct u as [a b]. cbn [fst snd]. f_equal; field; lra. }
  split; [|split; [exact Hd|split; [exact Hn|]]].
  - intros E. rewrite <- E in Hn. unfold vnorm, vsub in Hn. cbn [fst snd] in Hn. replace (_ + _) with 0 in Hn by ring. rewrite sqrt_0 in Hn. lra.
  - intros s. unfold straight_position. rewrite Hd. unfold vadd, vscal. cbn [fst snd]. f_equal; ring.
Qed.
Lemma vrot_unit t u : fst u * fst u + snd u * snd u = 1 -> fst (vrot t u) * fst (vrot t u) + snd (vrot t u) * snd (vrot t u) = 1.
Proof. intros H. unfold vrot. cbn [fst snd]. pose proof (sin2_cos2 t) as T. unfold Rsqr in T. replace (_ + _) with ((sin t * sin t + cos t * cos t) * (fst u * fst u + snd u * snd u)) by ring. rewrite H, T. ring. Qed.
Lemma vrot_add t p u k : vadd (vrot t p) (vscal k (vrot t u)) = vrot t (vadd p (vscal k u)).
Proof. unfold vadd, vscal, vrot. cbn [fst snd]. f_equal; ring. Qed.
Lemma vrot_norm t p : fst (vrot t p) * fst (vrot t p) + snd (vrot t p) * snd (vrot t p) = fst p * fst p + snd p * snd p.
Proof. unfold vrot. cbn [fst snd]. pose proof (sin2_cos2 t) as T. unfold Rsqr in T. replace (_ + _) with ((sin t * sin t + cos t * cos t) * (fst p * fst p + snd p * snd p)) by ring. rewrite T. ring. Qed.

(** The five lanes of corner [c] (arm_lane is the first). *)
Definition turn (c : nat) : R := deg (90 * INR c).
Definition prio (c : nat) : Z := (if Nat.odd c then 3 else 1)%Z.
Definition right_lane (c : nat) : lane :=
  circular_lane (vrot (turn c) (I_OUTER, I_OUTER)) I_RIGHT (turn c + deg 180) (turn c + deg 270) true (LNone, LContinuous) 10 (prio c).
Definition left_lane (c : nat) : lane :=
  circular_lane (vrot (turn c) (- I_LEFT + DEFAULT_WIDTH / 2, I_LEFT - DEFAULT_WIDTH / 2)) I_LEFT (turn c + deg 0) (turn c + deg (- 90)) false (LNone, LNone) 10 (prio c - 1).
Definition ahead_lane (c : nat) : lane :=
  straight_lane (vrot (turn c) (DEFAULT_WIDTH / 2, I_OUTER)) (vrot (turn c) (DEFAULT_WIDTH / 2, - I_OUTER)) DEFAULT_WIDTH (LStriped, LNone) false 10 (prio c).
Definition exit_lane (c : nat) : lane :=
  straight_lane (vrot (turn c) (I_OUTER, DEFAULT_WIDTH / 2)) (vrot (turn c) (I_ACCESS + I_OUTER, DEFAULT_WIDTH / 2)) DEFAULT_WIDTH (LNone, LContinuous) false 10 (prio c).
Lemma corner_lanes_eq c : corner_lanes c = [
  (corner_name "o" c, corner_name "ir" c, arm_lane c); (corner_name "ir" c, corner_name "il" (c + 3), right_lane c);
  (corner_name "ir" c, corner_name "il" (c + 1), left_lane c); (corner_name "ir" c, corner_name "il" (c + 2), ahead_lane c);
  (corner_name "il" (c + 3), corner_name "o" (c + 3), exit_lane c)].
Proof. reflexivity. Qed.
Lemma right_geometry c s : l_length (right_lane c) = 9 * (PI / 2) /\ l_position (right_lane c) s 0 = vrot (turn c) (11 - 9 * cos (s / 9), 11 - 9 * sin (s / 9)) /\
  l_heading (right_lane c) s = turn c + s / 9 + 3 * (PI / 2).
Proof.
  unfold l_length, l_position, l_heading, right_lane, circular_lane, I_RIGHT, I_OUTER, I_RIGHT, DEFAULT_WIDTH. cbn [l_geom geom_length geom_position geom_heading circ_dir]. unfold circ_dir, deg.
  split; [field|]. split; [|field]. replace (1 * s / (4 + 5) + (turn c + 180 * PI / 180)) with ((turn c + s / 9) + PI) by field. rewrite neg_cos, neg_sin, cos_plus, sin_plus.
  unfold vadd, vscal, vrot. cbn [fst snd]. set (x := cos (s/9)). set (y := sin (s/9)). f_equal; field.
Qed.
Lemma left_geometry c s : l_length (left_lane c) = 13 * (PI / 2) /\ l_position (left_lane c) s 0 = vrot (turn c) (-11 + 13 * cos (s / 13), 11 - 13 * sin (s / 13)) /\
  l_heading (left_lane c) s = turn c - s / 13 - PI / 2.
Proof.
  unfold l_length, l_position, l_heading, left_lane, circular_lane, I_LEFT, I_RIGHT, DEFAULT_WIDTH. cbn [l_geom geom_length geom_position geom_heading circ_dir]. unfold circ_dir, deg.
  split; [field|]. split; [|field]. replace (-1 * s / (4 + 5 + 4) + (turn c + 0 * PI / 180)) with (turn c - s / 13) by field. rewrite cos_minus, sin_minus.
  unfold vadd, vscal, vrot. cbn [fst snd]. set (x := cos (s/13)). set (y := sin (s/13)). f_equal; field.
Qed.
Lemma straight_rotated t p u L q : vadd p (vscal L u) = q -> fst u * fst u + snd u * snd u = 1 -> 0 < L ->
  vrot t p <> vrot t q /\ geom_length (GStraight (vrot t p) (vrot t q)) = L /\ straight_dir (vrot t p) (vrot t q) = vrot t u /\
  forall s, geom_position (GStraight (vrot t p) (vrot t q)) s 0 = vrot t (vadd p (vscal s u)).
Proof.
  intros <- Hu HL. destruct (straight_along (vrot t p) (vrot t u) L (vrot_unit t u Hu) HL) as (A & B & C & D). rewrite vrot_add in A, B, C, D.
  split; [exact A|]. split; [exact C|]. split; [exact B|]. intros s. cbn [geom_position]. rewrite D. apply vrot_add.
Qed.
Lemma arm_geometry c : let l := arm_lane c in wf_geom (l_geom l) /\ l_length l = 100 /\ (cos (l_heading l 0), sin (l_heading l 0)) = vrot (turn c) (0, -1) /\
  (forall s, l_heading l s = l_heading l 0) /\ forall s, l_position l s 0 = vrot (turn c) (2, 111 - s).
Proof.
  cbv zeta. destruct (straight_rotated (turn c) (2, 111) (0, -1) 100 (2, 11)) as (A & B & C & D); [unfold vadd, vscal; cbn; f_equal; ring | cbn; ring | lra |].
  assert (E : l_geom (arm_lane c) = GStraight (vrot (turn c) (2, 111)) (vrot (turn c) (2, 11))).
  { unfold arm_lane, straight_lane, turn, I_ACCESS, I_OUTER, I_RIGHT, DEFAULT_WIDTH. cbn [l_geom]. f_equal; f_equal; f_equal; lra. }
  unfold l_length, l_position, l_heading. rewrite E. split; [exact A|]. split; [exact B|]. split; [cbn [geom_heading]; rewrite <- C; symmetry; now apply straight_dir_heading|]. split; [reflexivity|].
  intros s. rewrite D. unfold vadd, vscal. cbn [fst snd]. f_equal; f_equal; ring.
Qed.
Lemma ahead_geometry c : let l := ahead_lane c in wf_geom (l_geom l) /\ l_length l = 22 /\ (cos (l_heading l 0), sin (l_heading l 0)) = vrot (turn c) (0, -1) /\
  (forall s, l_heading l s = l_heading l 0) /\ forall s, l_position l s 0 = vrot (turn c) (2, 11 - s).
Proof.
  cbv zeta. destruct (straight_rotated (turn c) (2, 11) (0, -1) 22 (2, - 11)) as (A & B & C & D); [unfold vadd, vscal; cbn; f_equal; ring | cbn; ring | lra |].
  assert (E : l_geom (ahead_lane c) = GStraight (vrot (turn c) (2, 11)) (vrot (turn c) (2, - 11))).
  { unfold ahead_lane, straight_lane, I_OUTER, I_RIGHT, DEFAULT_WIDTH. cbn [l_geom]. f_equal; f_equal; f_equal; lra. }
  unfold l_length, l_position, l_heading. rewrite E. split; [exact A|]. split; [exact B|]. split; [cbn [geom_heading]; rewrite <- C; symmetry; now apply straight_dir_heading|]. split; [reflexivity|].
  intros s. rewrite D. unfold vadd, vscal. cbn [fst snd]. f_equal; f_equal; ring.
Qed.
Lemma exit_geometry c : let l := exit_lane c in wf_geom (l_geom l) /\ l_length l = 100 /\ (cos (l_heading l 0), sin (l_heading l 0)) = vrot (turn c) (1, 0) /\
  (forall s, l_heading l s = l_heading l 0) /\ forall s, l_position l s 0 = vrot (turn c) (11 + s, 2).
Proof.
  cbv zeta. destruct (straight_rotated (turn c) (11, 2) (1, 0) 100 (111, 2)) as (A & B & C & D); [unfold vadd, vscal; cbn; f_equal; ring | cbn; ring | lra |].
  assert (E : l_geom (exit_lane c) = GStraight (vrot (turn c) (11, 2)) (vrot (turn c) (111, 2))).
  { unfold exit_lane, straight_lane, I_ACCESS, I_OUTER, I_RIGHT, DEFAULT_WIDTH. cbn [l_geom]. f_equal; f_equal; f_equal; lra. }
  unfold l_length, l_position, l_heading. rewrite E. split; [exact A|]. split; [exact B|]. split; [cbn [geom_heading]; rewrite <- C; symmetry; now apply straight_dir_heading|]. split; [reflexivity|].
  intros s. rewrite D. unfold vadd, vscal. cbn [fst snd]. f_equal; f_equal; ring.
Qed.

(** ** The lane closest to a point of an arm *)
Definition sqn (p : vec) : R := fst p * fst p + snd p * snd p.
Lemma quarter x : 0 <= x <= PI / 2 -> 0 <= cos x /\ 0 <= sin x /\ 1 <= cos x + sin x.
Proof.
  intros H. pose proof PI_RGT_0. assert (0 <= cos x) by (apply cos_ge_0; lra). assert (0 <= sin x) by (apply sin_ge_0; lra).
  pose proof (sin2_cos2 x) as T. unfold Rsqr in T. split; [assumption|]. split; [assumption|]. nra.
Qed.
Lemma right_inside c s : 0 <= s <= l_length (right_lane c) -> sqn (l_position (right_lane c) s 0) <= 125.
Proof.
  destruct (right_geometry c s) as (-> & -> & _). intros H. unfold sqn. rewrite vrot_norm. cbn [fst snd].
  destruct (quarter (s / 9)) as (A & B & C); [lra|]. pose proof (sin2_cos2 (s / 9)) as T. unfold Rsqr in T. nra.
Qed.
Lemma left_inside c s : 0 <= s <= l_length (left_lane c) -> sqn (l_position (left_lane c) s 0) <= 125.
Proof.
  destruct (left_geometry c s) as (-> & -> & _). intros H. unfold sqn. rewrite vrot_norm. cbn [fst snd].
  destruct (quarter (s / 13)) as (A & B & C); [lra|]. pose proof (sin2_cos2 (s / 13)) as T. unfold Rsqr in T. nra.
Qed.
Lemma ahead_inside c s : 0 <= s <= l_length (ahead_lane c) -> sqn (l_position (ahead_lane c) s 0) <= 125.
Proof.
  destruct (ahead_geometry c) as (_ & -> & _ & _ & ->). intros H. unfold sqn. rewrite vrot_norm. cbn [fst snd]. nra.
Qed.
Lemma arms_differ j k y z : (j < 4)%nat -> (k < 4)%nat -> j <> k -> 11 <= y -> 11 <= z -> vrot (turn j) (2, y) <> vrot (turn k) (2, z).
Proof.
  intros Hj Hk N Hy Hz E. pose proof (f_equal fst (deg90 j Hj)) as Cj. pose proof (f_equal fst (deg90 k Hk)) as Ck. pose proof (f_equal snd (deg90 j Hj)) as Sj. pose proof (f_equal snd (deg90 k Hk)) as Sk.
  pose proof (f_equal fst E) as E1. pose proof (f_equal snd E) as E2. clear E. unfold turn, vrot in E1, E2. cbn [fst snd] in *. rewrite Cj, Sj, Ck, Sk in E1, E2. clear Cj Sj Ck Sk.
  destruct j as [|[|[|[|j]]]]; [| | | |lia]; (destruct k as [|[|[|[|k]]]]; [| | | |lia]); try (now elim N); cbn [fst snd] in *; lra.
Qed.
Lemma exits_differ j k y z : (j < 4)%nat -> (k < 4)%nat -> 11 <= y -> 11 <= z -> vrot (turn j) (2, y) <> vrot (turn k) (z, 2).
Proof.
  intros Hj Hk Hy Hz E. pose proof (f_equal fst (deg90 j Hj)) as Cj. pose proof (f_equal fst (deg90 k Hk)) as Ck. pose proof (f_equal snd (deg90 j Hj)) as Sj. pose proof (f_equal snd (deg90 k Hk)) as Sk.
  pose proof (f_equal fst E) as E1. pose proof (f_equal snd E) as E2. clear E. unfold turn, vrot in E1, E2. cbn [fst snd] in *. rewrite Cj, Sj, Ck, Sk in E1, E2. clear Cj Sj Ck Sk.
  destruct j as [|[|[|[|j]]]]; [| | | |lia]; (destruct k as [|[|[|[|k]]]]; [| | | |lia]); cbn [fst snd] in *; lra.
Qed.
(** No other lane passes there. *)
Lemma arm_alone k s a b l : (k < 4)%nat -> 0 <= s < 100 -> In (a, b, l) crossing_adds -> (a, b) <> (corner_name "o" k, corner_name "ir" k) -> l_distance l (l_position (arm_lane k) s 0) <> 0.
Proof.
  intros Hk Hs I N Z. destruct (arm_geometry k) as (_ & _ & _ & _ & P). rewrite P in Z. clear P.
  assert (Far : sqn (vrot (turn k) (2, 111 - s)) > 125) by (unfold sqn; rewrite vrot_norm; cbn [fst snd]; nra).
  unfold crossing_adds in I. apply in_flat_map in I as (c & Hc & I). apply in_seq in Hc. rewrite corner_lanes_eq in I. cbn [In] in I.
  destruct I as [I|[I|[I|[I|[I|[]]]]]]; injection I as <- <- <-.
  - destruct (arm_geometry c) as (W & L & _ & _ & P). apply (distance_zero_curve (l_geom (arm_lane c)) _ _ _ _ _ _ W) in Z as (s' & Hs' & Ep); [|change (0 <= l_length (arm_lane c)); lra].
    change (0 <= s' <= l_length (arm_lane c)) in Hs'. change (vrot (turn k) (2, 111 - s) = l_position (arm_lane c) s' 0) in Ep.
    destruct (Nat.eq_dec c k) as [-> |D]; [now elim N|]. rewrite P in Ep. rewrite L in Hs'. revert Ep. apply arms_differ; try lia; lra.
  - assert (W : wf_geom (l_geom (right_lane c))) by (cbn; unfold I_RIGHT, DEFAULT_WIDTH; lra). pose proof PI_RGT_0.
    apply (distance_zero_curve (l_geom (right_lane c)) _ _ _ _ _ _ W) in Z as (s' & Hs' & Ep); [|change (0 <= l_length (right_lane c)); rewrite (proj1 (right_geometry c 0)); lra].
    apply right_inside in Hs'. change (vrot (turn k) (2, 111 - s) = l_position (right_lane c) s' 0) in Ep. change (sqn (l_position (right_lane c) s' 0) <= 125) in Hs'. rewrite <- Ep in Hs'. lra.
  - assert (W : wf_geom (l_geom (left_lane c))) by (cbn; unfold I_LEFT, I_RIGHT, DEFAULT_WIDTH; lra). pose proof PI_RGT_0.
    apply (distance_zero_curve (l_geom (left_lane c)) _ _ _ _ _ _ W) in Z as (s' & Hs' & Ep); [|change (0 <= l_length (left_lane c)); rewrite (proj1 (left_geometry c 0)); lra].
    apply left_inside in Hs'. change (vrot (turn k) (2, 111 - s) = l_position (left_lane c) s' 0) in Ep. change (sqn (l_position (left_lane c) s' 0) <= 125) in Hs'. rewrite <- Ep in Hs'. lra.
  - destruct (ahead_geometry c) as (W & L & _).
    apply (distance_zero_curve (l_geom (ahead_lane c)) _ _ _ _ _ _ W) in Z as (s' & Hs' & Ep); [|change (0 <= l_length (ahead_lane c)); lra].
    apply ahead_inside in Hs'. change (vrot (turn k) (2, 111 - s) = l_position (ahead_lane c) s' 0) in Ep. change (sqn (l_position (ahead_lane c) s' 0) <= 125) in Hs'. rewrite <- Ep in Hs'. lra.
  - destruct (exit_geometry c) as (W & L & _ & _ & P). apply (distance_zero_curve (l_geom (exit_lane c)) _ _ _ _ _ _ W) in Z as (s' & Hs' & Ep); [|change (0 <= l_length (exit_lane c)); lra].
    change (0 <= s' <= l_length (exit_lane c)) in Hs'. change (vrot (turn k) (2, 111 - s) = l_position (exit_lane c) s' 0) in Ep.
    rewrite P in Ep. revert Ep. apply exits_differ; try lia; lra.
Qed.
Lemma lane_exists_crossing i : lane_exists intersection_net i -> exists l, In (li_from i, li_to i, l) crossing_adds /\ li_id i = Some 0%Z /\ get_lane intersection_net i = Ok l.
Proof.
  intros (k & l & Ek & H). assert (E : edge intersection_net (li_from i) (li_to i)) by (now exists k, l). destruct (crossing_single _ _ E) as [l' A].
  pose proof H as H'. rewrite crossing_eq, build_has_iff, A in H'. destruct k as [|k]; [|destruct k; discriminate]. injection H' as ->.
  exists l. split; [apply added_In; rewrite A; now left|]. split; [exact Ek|]. now apply (get_lane_has _ i 0 l Ek).
Qed.
Lemma closest_on_arm k s h : (k < 4)%nat -> 0 <= s < 100 -> h = l_heading (arm_lane k) s ->
  get_closest_lane_index intersection_net (l_position (arm_lane k) s 0) (Some h) = Ok (corner_name "o" k, corner_name "ir" k, Some 0%Z).
Proof.
  intros Hk Hs Hh. pose proof (wf_built _ crossing_built) as W.
  destruct (closest_total intersection_net (l_position (arm_lane k) s 0) (Some h) W crossing_nonempty) as [i E]. rewrite E. f_equal.
  apply closest_spec in E as (l & pre & post & _ & Gl & Ex & _ & Min); [|exact W].
  pose proof (crossing_arm k Hk) as Ga. destruct (arm_geometry k) as (Wa & La & _ & Ha & Pa).
  assert (Zero : l_distance_with_heading (arm_lane k) (l_position (arm_lane k) s 0) (Some h) 1 = 0).
  { unfold l_distance_with_heading. assert (Loc : l_local (arm_lane k) (l_position (arm_lane k) s 0) = (s, 0)) by (exact (local_of_position_straight _ _ s 0 Wa)).
    rewrite Loc, La, Hh. replace (l_heading (arm_lane k) s - l_heading (arm_lane k) s) with 0 by ring. rewrite (wrap_id 0) by (pose proof PI_RGT_0; lra). rewrite Rabs_R0, !Rmax_right by lra. ring. }
  specialize (Min _ _ (get_lane_has_id _ _ _ 0 _ Ga) Ga). rewrite Zero in Min.
  destruct (lane_exists_crossing i Ex) as (l' & I & Id & Gl'). rewrite Gl in Gl'. injection Gl' as <-.
  destruct (list_eq_dec string_dec [li_from i; li_to i] [corner_name "o" k; corner_name "ir" k]) as [Eq|Ne].
  - injection Eq as E1 E2. destruct i as [[a b] c]. unfold li_from, li_to, li_id in *. cbn in *. now subst.
  - exfalso. apply (arm_alone k s (li_from i) (li_to i) l Hk Hs I).
    + intros Eq. apply Ne. now injection Eq as -> ->.
    + pose proof (distance_nonneg l (l_position (arm_lane k) s 0)). pose proof (distance_heading_bounds l (l_position (arm_lane k) s 0) h 1 ltac:(lra)). lra.
Qed.

(** ** Routes across the intersection *)
Definition edges : list (string * string) := map fst crossing_adds.
Lemma edge_iff a b : edge intersection_net a b <-> In (a, b) edges.
Proof.
  split.
  - intros (k & l & H). rewrite crossing_eq, build_has_iff in H. apply nth_error_In, added_In in H. unfold edges. apply (in_map fst) in H. exact H.
  - intros H. unfold edges in H. apply in_map_iff in H as ([[a' b'] l] & E & H). cbn in E. injection E as -> ->.
    assert (In l (added_between a b crossing_adds)) as I.
    { unfold added_between. apply in_map_iff. exists (a, b, l). split; [reflexivity|]. apply filter_In. split; [exact H|]. cbn. now rewrite !String.eqb_refl. }
    apply In_nth_error in I as [k Hk]. exists k, l. rewrite crossing_eq, build_has_iff. exact Hk.
Qed.
Definition eqs (p q : string * string) : bool := String.eqb (fst p) (fst q) && String.eqb (snd p) (snd q).
Lemma eqs_iff p q : eqs p q = true <-> p = q.
Proof. unfold eqs. rewrite andb_true_iff, !String.eqb_eq. destruct p, q. cbn. split; [intros [-> ->]; reflexivity | intros [= -> ->]; tauto]. Qed.
Lemma edges_across a b : (a < 4)%nat -> (b < 4)%nat -> a <> b ->
  In (corner_name "ir" a, corner_name "il" b) edges /\ In (corner_name "il" b, corner_name "o" b) edges /\ ~ In (corner_name "ir" a, corner_name "o" b) edges /\
  forall x, In (corner_name "ir" a, x) edges -> In (x, corner_name "o" b) edges -> x = corner_name "il" b.
Proof.
  intros Ha Hb N.
  assert (T : existsb (eqs (corner_name "ir" a, corner_name "il" b)) edges && existsb (eqs (corner_name "il" b, corner_name "o" b)) edges &&
    negb (existsb (eqs (corner_name "ir" a, corner_name "o" b)) edges) &&
    forallb (fun e => negb (String.eqb (fst e) (corner_name "ir" a) && existsb (eqs (snd e, corner_name "o" b)) edges) || String.eqb (snd e) (corner_name "il" b)) edges = true).
  { destruct a as [|[|[|[|a]]]]; [| | | |lia]; (destruct b as [|[|[|[|b]]]]; [| | | |lia]); try (now elim N); reflexivity. }
  apply andb_prop in T as [T T4]. apply andb_prop in T as [T T3]. apply andb_prop in T as [T1 T2].
  assert (Ex : forall e, existsb (eqs e) edges = true <-> In e edges).
  { intros e. rewrite existsb_exists. split; [intros (x & Hx & E); apply eqs_iff in E; now subst | intros H; exists e; split; [exact H | now apply eqs_iff]]. }
  split; [now apply Ex|]. split; [now apply Ex|]. split; [intros H; apply Ex in H; rewrite H in T3; discriminate|].
  intros x H1 H2. rewrite forallb_forall in T4. specialize (T4 _ H1). cbn [fst snd] in T4. rewrite String.eqb_refl in T4. apply Ex in H2. rewrite H2 in T4. now apply String.eqb_eq in T4.
Qed.
Lemma path_across ord a b : set_order ord -> (a < 4)%nat -> (b < 4)%nat -> a <> b ->
  shortest_path intersection_net ord (corner_name "ir" a) (corner_name "o" b) = Ok [corner_name "ir" a; corner_name "il" b; corner_name "o" b].
Proof.
  intros O Ha Hb N. destruct (edges_across a b Ha Hb N) as (E1 & E2 & E3 & E4).
  destruct (shortest_path_spec intersection_net ord (corner_name "ir" a) (corner_name "o" b) (wf_built _ crossing_built) O) as (p & -> & P0 & P1). f_equal.
  assert (Wk : walk_from_to intersection_net (corner_name "ir" a) (corner_name "o" b) [corner_name "ir" a; corner_name "il" b; corner_name "o" b]).
  { split; [cbn; rewrite !edge_iff; tauto|]. split; [eexists; split; [reflexivity | discriminate] | reflexivity]. }
  assert (Np : p <> []).
  { intros Z. apply P0 in Z. apply Z. eexists. split; [exact Wk|]. assert (corner_name "ir" a <> corner_name "il" b /\ corner_name "ir" a <> corner_name "o" b /\ corner_name "il" b <> corner_name "o" b) as (A & B & C) by (repeat split; discriminate).
    constructor; [intros [H|[H|[]]]; congruence|]. constructor; [intros [H|[]]; congruence|]. constructor; [intros [] | constructor]. }
  destruct (P1 Np) as [[(Wp & (q & -> & Nq) & La) _] Mn]. specialize (Mn _ Wk). cbn [List.length] in Mn.
  destruct q as [|x [|y [|z q]]]; [easy | | |cbn in Mn; lia].
  - cbn in La. subst x. destruct Wp as [Wp _]. apply edge_iff in Wp. contradiction.
  - cbn in La. subst y. destruct Wp as (W1 & W2 & _). apply edge_iff in W1, W2. now rewrite (E4 x W1 W2).
Qed.
