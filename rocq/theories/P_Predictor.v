(** Proofs about the predictor mode. *)
From Coq Require Import Lra Lia Psatz.
From Verif Require Import Prelude M_Utils M_Lane M_Road M_Vehicle M_Kinematics M_Control M_Behavior M_Interval M_Regression M_Observer M_Models M_Predictor.
From Verif Require Import S_Interval S_Predictor P_Base P_Interval T_Interval T_Predictor.
Open Scope R_scope.

(** ** Weighted means *)
Lemma mean_weights l m x : (forall y, In y l -> List.length y = m) -> mean_of l x ->
  exists lam, List.length lam = List.length l /\ (forall k, (k < List.length l)%nat -> 0 <= entry lam k <= 1) /\
    forall i, (i < m)%nat -> entry x i = sum_to (List.length l) (fun k => entry lam k * entry (nth k l []) i).
Proof.
  intros Hl H. induction H as [x Hx | x y z t Hx IHx Hy IHy Ht Lxy Lz Hz].
  - apply (In_nth _ _ []) in Hx as (p & Hp & Ep). set (F := fun k => if Nat.eqb p k then 1 else 0).
    assert (E : forall k, (k < List.length l)%nat -> entry (map F (seq 0 (List.length l))) k = F k).
    { intros k Hk. unfold entry. rewrite (nth_map_in F _ k O 0) by (rewrite seq_length; exact Hk). rewrite seq_nth by exact Hk. reflexivity. }
    exists (map F (seq 0 (List.length l))). split; [rewrite map_length, seq_length; reflexivity|]. split.
    + intros k Hk. rewrite E by exact Hk. unfold F. destruct (Nat.eqb p k); lra.
    + intros i Hi. rewrite <- Ep, <- (sum_if (List.length l) p (fun k => entry (nth k l []) i) Hp). apply sum_ext. intros k Hk. rewrite E by exact Hk. reflexivity.
  - destruct IHx as (lx & L1 & B1 & E1), IHy as (ly & L2 & B2 & E2). exists (lv_add (lv_scale (1 - t) lx) (lv_scale t ly)).
    split; [rewrite len_add; rewrite !len_scale; congruence|].
    assert (Lx : List.length x = m) by (eapply mean_len; eassumption).
    assert (E : forall k, entry (lv_add (lv_scale (1 - t) lx) (lv_scale t ly)) k = (1 - t) * entry lx k + t * entry ly k).
    { intros k. rewrite entry_add by (rewrite !len_scale; congruence). rewrite !entry_scale. reflexivity. }
    split.
    + intros k Hk. rewrite E. pose proof (B1 k Hk). pose proof (B2 k Hk). nra.
    + intros i Hi. rewrite Hz by lia. rewrite (E1 i Hi), (E2 i Hi), <- !sum_mul, <- sum_add. apply sum_ext. intros k Hk. rewrite E. ring.
Qed.

(** ** Rows of a flattened matrix *)
Lemma firstn_nth {A} (l : list A) n j d : (j < n)%nat -> nth j (firstn n l) d = nth j l d.
Proof. revert n j. induction l as [|x l IH]; intros [|n] [|j] H; try lia; cbn; try reflexivity. - apply IH. lia. Qed.
Lemma skipn_nth {A} (l : list A) n j d : nth j (skipn n l) d = nth (n + j) l d.
Proof. revert l. induction n as [|n IH]; intros [|x l]; cbn; try reflexivity; [now destruct j | apply IH]. Qed.
Lemma rows_shape k n v : List.length v = (k * n)%nat -> shape k n (rows k n v).
Proof.
  revert v. induction k as [|k IH]; intros v L; [split; [reflexivity | constructor]|]. cbn [rows]. cbn in L.
  destruct (IH (skipn n v)) as [H1 H2]; [rewrite skipn_length; lia|]. split; [cbn; now f_equal|]. constructor; [rewrite firstn_length; lia | exact H2].
Qed.
Lemma rows_coef k n v i j : (i < k)%nat -> (j < n)%nat -> coef (rows k n v) i j = entry v (i * n + j).
Proof.
  revert v i. induction k as [|k IH]; intros v [|i] Hi Hj; try lia; cbn [rows]; unfold coef, entry; cbn [nth].
  - cbn. now rewrite firstn_nth.
  - change (nth j (nth i (rows k n (skipn n v)) []) 0) with (coef (rows k n (skipn n v)) i j). rewrite IH by lia. unfold entry. rewrite skipn_nth. f_equal. cbn. lia.
Qed.
Lemma concat_shape n m a : shape n m a -> List.length (List.concat a) = (n * m)%nat.
Proof.
  intros [H F]. revert n H. induction F as [|r a Hr F IH]; intros n H; cbn in *; [now subst|]. subst n. rewrite app_length, (IH _ eq_refl). cbn. lia.
Qed.
Lemma concat_entry n m a i j : shape n m a -> (i < n)%nat -> (j < m)%nat -> entry (List.concat a) (i * m + j) = coef a i j.
Proof.
  intros [H F]. revert n i H. induction F as [|r a Hr F IH]; intros n i H Hi Hj; [cbn in H; lia|]. cbn [List.concat]. unfold entry, coef. destruct i as [|i].
  - cbn. rewrite app_nth1 by lia. reflexivity.
  - rewrite app_nth2 by (cbn; lia). rewrite Hr. cbn [nth]. replace (Datatypes.S i * m + j - m)%nat with (i * m + j)%nat by (cbn; lia).
    destruct n; [lia|]. cbn in H. apply (IH n i); lia.
Qed.
(** ** Parametrized matrices *)
Lemma map2_nth' {A B C} (f : A -> B -> C) a b k da db dc : (k < List.length a)%nat -> List.length a = List.length b -> nth k (map2 f a b) dc = f (nth k a da) (nth k b db).
Proof. intros. now apply map2_nth. Qed.
Definition at_coef (s : structure) (p : lvec) (i j : nat) : R :=
  coef (fst s) i j + sum_to (List.length (snd s)) (fun k => entry p k * coef (nth k (snd s) []) i j).
Lemma scaled_shapes n p l : List.length p = List.length l -> Forall (shape n n) l -> Forall (shape n n) (map2 lm_scale p l).
Proof.
  revert p. induction l as [|a l IH]; intros [|x p] L F; try discriminate; cbn [map2]; constructor; inversion F; subst.
  - now apply shape_scale.
  - apply IH; [cbn in L; lia | assumption].
Qed.
Lemma at_shape n s p : shape n n (fst s) -> Forall (shape n n) (snd s) -> List.length p = List.length (snd s) -> shape n n (at_parameters s p).
Proof. intros S0 F L. apply fold_add_shape; [exact S0|]. now apply scaled_shapes. Qed.
Lemma at_parameters_coef n s p i j : shape n n (fst s) -> Forall (shape n n) (snd s) -> List.length p = List.length (snd s) -> (i < n)%nat ->
  coef (at_parameters s p) i j = at_coef s p i j.
Proof.
  intros S0 F L Hi. unfold at_parameters, at_coef. rewrite (fold_add_coef n n) by (try apply scaled_shapes; assumption). f_equal.
  rewrite map2_length by exact L. rewrite L. apply sum_ext. intros k Hk. rewrite (map2_nth' _ _ _ k 0 [] []) by lia. rewrite coef_scale. reflexivity.
Qed.
Lemma at_affine n s : shape n n (fst s) -> Forall (shape n n) (snd s) -> affine (List.length (snd s)) (n * n) (fun p => List.concat (at_parameters s p)).
Proof.
  intros S0 F. destruct n as [|n].
  { exists [], []. intros x L. split; [apply concat_shape, at_shape; assumption | intros; lia]. }
  set (N := Datatypes.S n) in *. set (K := List.length (snd s)).
  exists (List.concat (fst s)), (map (fun e => map (fun k => coef (nth k (snd s) []) (e / N) (e mod N)) (seq 0 K)) (seq 0 (N * N))).
  intros x L. split; [apply concat_shape, at_shape; assumption|]. intros e He.
  assert (Ee : e = (e / N * N + e mod N)%nat) by (rewrite Nat.mul_comm; apply Nat.div_mod; unfold N; lia).
  assert (Hj : (e mod N < N)%nat) by (apply Nat.mod_upper_bound; unfold N; lia).
  assert (Hi : (e / N < N)%nat) by (apply Nat.div_lt_upper_bound; unfold N in *; lia).
  rewrite Ee at 1 2. rewrite (concat_entry N N) by (try apply at_shape; assumption). rewrite (concat_entry N N) by assumption. rewrite (at_parameters_coef N) by assumption.
  unfold at_coef. f_equal. apply sum_ext. intros k Hk. fold K in Hk.
  unfold coef at 2. rewrite (nth_map_in _ _ e O []) by (rewrite seq_length; exact He). rewrite seq_nth by exact He.
  rewrite (nth_map_in _ _ k O 0) by (rewrite seq_length; exact Hk). rewrite seq_nth by exact Hk. cbn [plus]. ring.
Qed.
Definition centre_of (box : itv lvec) : lvec := map2 (fun l h => (l + h) / 2) (fst box) (snd box).
Lemma box_polytope n s box p : shape n n (fst s) -> Forall (shape n n) (snd s) -> List.length p = List.length (snd s) -> boxed (fst box) p (snd box) ->
  let '(a0, da) := parameter_box_to_polytope n s box in
  shape n n a0 /\ Forall (shape n n) da /\ da <> [] /\ (forall i j, (i < n)%nat -> (j < n)%nat -> coef a0 i j = at_coef s (centre_of box) i j) /\
  exists lam, List.length lam = List.length da /\ (forall k, (k < List.length da)%nat -> 0 <= entry lam k <= 1) /\
    forall i j, (i < n)%nat -> (j < n)%nat -> coef a0 i j + sum_to (List.length da) (fun k => entry lam k * coef (nth k da []) i j) = at_coef s p i j.
Proof.
  intros S0 F L B. unfold parameter_box_to_polytope. pose proof (at_affine n s S0 F) as Af. set (f := fun p => List.concat (at_parameters s p)) in *.
  pose proof (C50_polytope _ _ f (fst box) (snd box) p Af L B) as H. destruct (boxed_len_l _ _ _ _ B L) as [L0 L1].
  assert (Lc : List.length (centre_of box) = List.length (snd s)) by (unfold centre_of; rewrite map2_length; congruence).
  assert (Lf : forall p, List.length p = List.length (snd s) -> List.length (f p) = (n * n)%nat) by (intros q Lq; apply concat_shape, at_shape; assumption).
  assert (Cf : forall q i j, List.length q = List.length (snd s) -> (i < n)%nat -> (j < n)%nat -> entry (f q) (i * n + j) = at_coef s q i j).
  { intros q i j Lq Hi Hj. unfold f. rewrite (concat_entry n n) by (try apply at_shape; assumption). apply (at_parameters_coef n); assumption. }
  unfold polytope in *. fold (centre_of box) in *. set (l := dedup _) in *. destruct H as [M V].
  assert (Ll : forall y, In y l -> List.length y = (n * n)%nat).
  { intros y Hy. destruct (V y Hy) as (q & Bq & _ & ->). assert (Lq : List.length q = List.length (snd s)) by (destruct Bq as (A & _); congruence).
    rewrite len_sub; rewrite !Lf; auto. }
  split; [apply rows_shape, Lf, Lc|]. split; [rewrite Forall_map; apply Forall_forall; intros y Hy; apply rows_shape, Ll, Hy|].
  split; [destruct l as [|y l']; [|discriminate]; exfalso; clear - M; remember [] as e; induction M; subst; [easy | auto]|].
  split; [intros i j Hi Hj; rewrite rows_coef by assumption; apply Cf; assumption|].
  destruct (mean_weights l (n * n) _ Ll M) as (lam & A1 & A2 & A3). exists lam. rewrite map_length. split; [exact A1|]. split; [exact A2|].
  intros i j Hi Hj. assert (He : (i * n + j < n * n)%nat) by nia.
  rewrite rows_coef by assumption. rewrite <- (Cf p i j L Hi Hj). specialize (A3 (i * n + j)%nat He).
  rewrite entry_sub in A3 by (rewrite !Lf; auto). rewrite (sum_ext _ _ (fun k => entry lam k * entry (nth k l []) (i * n + j))).
  - lra.
  - intros k Hk. rewrite (nth_map_in (rows n n) l k [] []) by exact Hk. rewrite rows_coef by assumption. reflexivity.
Qed.

(** ** Repeated steps *)
Lemma set_same s : set_control s (lp_u s) None = s.
Proof. now destruct s. Qed.
Definition lpv_steps (n : nat) (s : lpv) (dt : R) : lpv := Nat.iter n (fun s => lpv_step s dt) s.
Lemma lpv_steps_predict n : forall s dt u, lp_u s = u -> predict s dt (repeat u n) = lpv_steps n s dt.
Proof.
  unfold lpv_steps. induction n as [|n IH]; intros s dt u E; [reflexivity|]. cbn [repeat predict]. rewrite <- E at 1. rewrite set_same. rewrite IH by exact E.
  clear. revert s. induction n as [|n IH]; intros s; [reflexivity|]. cbn [Nat.iter nat_rect] in *. unfold Nat.iter in *. cbn [nat_rect]. rewrite IH. reflexivity.
Qed.
Lemma mul_zero n a : (0 < n)%nat -> shape n n a -> lm_mul a (lm_zero n) = lm_zero n.
Proof.
  intros Hn Sa. assert (Sz : shape n n (lm_zero n)).
  { split; [unfold lm_zero; rewrite map_length, seq_length; reflexivity|]. unfold lm_zero. rewrite Forall_map. apply Forall_forall. intros. rewrite map_length, seq_length. reflexivity. }
  assert (Cz : forall i j, (i < n)%nat -> (j < n)%nat -> coef (lm_zero n) i j = 0).
  { intros i j Hi Hj. unfold coef, lm_zero. rewrite (nth_map_in _ _ i O []) by (rewrite seq_length; exact Hi). rewrite (nth_map_in _ _ j O 0) by (rewrite seq_length; exact Hj). reflexivity. }
  apply (mat_ext n n); [eapply shape_mul; eassumption | exact Sz|]. intros i j Hi Hj. rewrite (coef_mul n n n) by assumption. rewrite Cz by assumption.
  apply sum_zero. intros k Hk. rewrite Cz by assumption. ring.
Qed.
Lemma shape_zero n : shape n n (lm_zero n).
Proof. split; [unfold lm_zero; rewrite map_length, seq_length; reflexivity|]. unfold lm_zero. rewrite Forall_map. apply Forall_forall. intros. rewrite map_length, seq_length. reflexivity. Qed.
Lemma coef_zero n i j : coef (lm_zero n) i j = 0.
Proof.
  unfold coef, lm_zero. destruct (Nat.lt_ge_cases i n) as [Hi|Hi].
  - rewrite (nth_map_in _ _ i O []) by (rewrite seq_length; exact Hi). destruct (Nat.lt_ge_cases j n) as [Hj|Hj].
    + rewrite (nth_map_in _ _ j O 0) by (rewrite seq_length; exact Hj). reflexivity.
    + apply nth_overflow. rewrite map_length, seq_length. exact Hj.
  - rewrite (nth_overflow (map _ _)) by (rewrite map_length, seq_length; exact Hi). now destruct j.
Qed.
Lemma closed_zero n a0 : (0 < n)%nat -> shape n n a0 -> lm_add a0 (lm_mul (eye n) (lm_zero n)) = a0.
Proof.
  intros Hn Sa. rewrite mul_zero by (try apply shape_eye; exact Hn). apply (mat_ext n n); [apply shape_add; [exact Sa | apply shape_zero] | exact Sa|].
  intros i j Hi Hj. rewrite (coef_add n n) by (try apply shape_zero; assumption). rewrite coef_zero. ring.
Qed.

(** ** The two linear systems *)
Definition long_structure (follow : bool) : structure :=
  ([[0; 0; 1; 0]; [0; 0; 0; 1]; [0; 0; 0; 0]; [0; 0; 0; 0]],
   [[[0; 0; 0; 0]; [0; 0; 0; 0]; [0; 0; -1; 0]; [0; 0; 0; -1]];
    if follow then [[0; 0; 0; 0]; [0; 0; 0; 0]; [0; 0; -1; 1]; [0; 0; 0; 0]] else lm_zero 4; lm_zero 4]).
Ltac shp := split; [reflexivity | repeat constructor].
Lemma long_shapes follow : shape 4 4 (fst (long_structure follow)) /\ Forall (shape 4 4) (snd (long_structure follow)).
Proof. split; [shp|]. cbn [long_structure snd]. repeat apply Forall_cons; try apply Forall_nil; try apply shape_zero; destruct follow; try apply shape_zero; shp. Qed.
Lemma lat_shapes : shape 2 2 (fst lateral_structure) /\ Forall (shape 2 2) (snd lateral_structure).
Proof. split; [shp|]. repeat apply Forall_cons; try apply Forall_nil; shp. Qed.
Lemma long_coef follow p i j : (i < 4)%nat -> (j < 4)%nat -> at_coef (long_structure follow) p i j =
  coef [[0; 0; 1; 0]; [0; 0; 0; 1]; [0; 0; - entry p 0 - (if follow then entry p 1 else 0); if follow then entry p 1 else 0]; [0; 0; 0; - entry p 0]] i j.
Proof.
  intros Hi Hj. unfold at_coef, long_structure. cbn [fst snd List.length sum_to nth]. rewrite !coef_zero.
  destruct i as [|[|[|[|i]]]]; [| | | |lia]; (destruct j as [|[|[|[|j]]]]; [| | | |lia]; destruct follow; rewrite ?coef_zero; unfold coef; cbn [nth]; ring).
Qed.
Lemma lat_coef p i j : (i < 2)%nat -> (j < 2)%nat -> at_coef lateral_structure p i j = coef [[0; 1]; [- entry p 1; - entry p 0]] i j.
Proof.
  intros Hi Hj. unfold at_coef, lateral_structure. cbn [fst snd List.length sum_to nth].
  destruct i as [|[|i]]; [| |lia]; (destruct j as [|[|j]]; [| |lia]; unfold coef; cbn [nth]; ring).
Qed.
(** A box of [n] parameters. *)
Definition pbox (n : nat) (b : itv lvec) : Prop := List.length (fst b) = n /\ List.length (snd b) = n /\ forall i, (i < n)%nat -> entry (fst b) i <= entry (snd b) i.
Lemma pbox_in3 b k1 k2 : pbox 3 b -> entry (fst b) 0 <= k1 <= entry (snd b) 0 -> entry (fst b) 1 <= k2 <= entry (snd b) 1 ->
  boxed (fst b) [k1; k2; entry (fst b) 2] (snd b).
Proof.
  intros (L0 & L1 & H) H1 H2. split; [exact L0|]. split; [exact L1|]. intros i Hi. cbn in Hi. pose proof (H i ltac:(lia)).
  destruct i as [|[|[|i]]]; [exact H1 | exact H2 | | lia]. change (entry (fst b) 2 <= entry (fst b) 2 <= entry (snd b) 2). lra.
Qed.
Lemma pbox_in2 b k1 k2 : pbox 2 b -> entry (fst b) 0 <= k1 <= entry (snd b) 0 -> entry (fst b) 1 <= k2 <= entry (snd b) 1 -> boxed (fst b) [k1; k2] (snd b).
Proof.
  intros (L0 & L1 & H) H1 H2. split; [exact L0|]. split; [exact L1|]. intros i Hi. cbn in Hi. destruct i as [|[|i]]; [exact H1 | exact H2 | lia].
Qed.
Lemma centre_entry n b i : pbox n b -> (i < n)%nat -> entry (centre_of b) i = (entry (fst b) i + entry (snd b) i) / 2.
Proof. intros (L0 & L1 & _) Hi. unfold entry, centre_of. rewrite (map2_nth' _ _ _ i 0 0 0) by congruence. reflexivity. Qed.

Lemma one_boxed (m x : R) : Rabs x <= m -> boxed [- m] [x] [m].
Proof.
  intros H. assert (- m <= x <= m) by (unfold Rabs in H; destruct (Rcase_abs x); lra). split; [reflexivity|]. split; [reflexivity|].
  intros i Hi. destruct i; [exact H0 | cbn in Hi; lia].
Qed.
Lemma long_follows ta (follow : bool) ts dist dt s f v w s' f' v' w' k1 k2 e1 : pbox 3 ta ->
  entry (fst ta) 0 <= k1 <= entry (snd ta) 0 -> entry (fst ta) 1 <= k2 <= entry (snd ta) 1 -> Rabs e1 <= 1 ->
  s' = s + dt * (v + e1) -> f' = f + dt * w -> v' = v + dt * (k1 * (ts - v) + if follow then k2 * (w - v) else 0) -> w' = w + dt * (k1 * (ts - w)) ->
  let '(a0, da) := parameter_box_to_polytope 4 (long_structure follow) ta in
  follows_about 4 1 4 a0 da (eye 4) [[1]; [0]; [0]; [0]] ([-1], [1]) [ts; ts; 0; 0] [dist; 0; ts; ts] dt [s; f; v; w] [s'; f'; v'; w'].
Proof.
  intros Pb K1 K2 He -> -> -> ->. pose proof (long_shapes follow) as [S0 F0].
  pose proof (box_polytope 4 (long_structure follow) ta [k1; k2; entry (fst ta) 2] S0 F0 eq_refl (pbox_in3 _ _ _ Pb K1 K2)) as H.
  destruct (parameter_box_to_polytope 4 (long_structure follow) ta) as [a0 da]. destruct H as (Sa & Fd & Nd & _ & lam & L & B & E).
  split; [reflexivity|]. split; [reflexivity|]. exists lam, [e1]. split; [exact L|]. split; [exact B|]. split; [reflexivity|].
  split; [exact (one_boxed 1 e1 He)|]. intros i Hi.
  rewrite (sum_ext 4 _ (fun j => at_coef (long_structure follow) [k1; k2; entry (fst ta) 2] i j * (entry [s; f; v; w] j - entry [dist; 0; ts; ts] j))).
  2: { intros j Hj. rewrite (E i j Hi Hj). reflexivity. }
  rewrite (sum_ext 4 (fun j => coef (eye 4) i j * entry [ts; ts; 0; 0] j) (fun j => (if Nat.eqb i j then 1 else 0) * entry [ts; ts; 0; 0] j)) by (intros j Hj; rewrite coef_eye by assumption; reflexivity).
  cbn [sum_to]. rewrite !long_coef by lia. destruct i as [|[|[|[|i]]]]; [| | | |lia]; unfold coef, entry; cbn [nth Nat.eqb]; destruct follow; ring.
Qed.
Lemma lat_follows tb dt y psi y' psi' g1 g2 e2 : pbox 2 tb ->
  entry (fst tb) 0 <= g1 <= entry (snd tb) 0 -> entry (fst tb) 1 <= g2 <= entry (snd tb) 1 -> Rabs e2 <= 1 / 2 ->
  y' = y + dt * (psi + e2) -> psi' = psi - dt * (g1 * psi + g2 * y) ->
  let '(a0, da) := parameter_box_to_polytope 2 lateral_structure tb in
  follows_about 2 1 2 a0 da (eye 2) [[1]; [0]] ([- (1 / 2)], [1 / 2]) [0; 0] [0; 0] dt [y; psi] [y'; psi'].
Proof.
  intros Pb K1 K2 He -> ->. pose proof lat_shapes as [S0 F0].
  pose proof (box_polytope 2 lateral_structure tb [g1; g2] S0 F0 eq_refl (pbox_in2 _ _ _ Pb K1 K2)) as H.
  destruct (parameter_box_to_polytope 2 lateral_structure tb) as [a0 da]. destruct H as (Sa & Fd & Nd & _ & lam & L & B & E).
  split; [reflexivity|]. split; [reflexivity|]. exists lam, [e2]. split; [exact L|]. split; [exact B|]. split; [reflexivity|].
  split; [exact (one_boxed (1 / 2) e2 He)|]. intros i Hi.
  rewrite (sum_ext 2 _ (fun j => at_coef lateral_structure [g1; g2] i j * (entry [y; psi] j - entry [0; 0] j))).
  2: { intros j Hj. rewrite (E i j Hi Hj). reflexivity. }
  rewrite (sum_ext 2 (fun j => coef (eye 2) i j * entry [0; 0] j) (fun j => (if Nat.eqb i j then 1 else 0) * entry [0; 0] j)) by (intros j Hj; rewrite coef_eye by assumption; reflexivity).
  cbn [sum_to]. rewrite !lat_coef by lia. destruct i as [|[|i]]; [| |lia]; unfold coef, entry; cbn [nth Nat.eqb]; ring.
Qed.

(** Positive discriminant is needed for real eigenvectors. *)
Lemma no_eigenvectors eig a g1 g2 : eigenvectors eig -> shape 2 2 a ->
  (forall i j, (i < 2)%nat -> (j < 2)%nat -> coef a i j = coef [[0; 1]; [- g2; - g1]] i j) -> g1 * g1 < 4 * g2 -> eig a = None.
Proof.
  intros Ev Sa E D. destruct (eig a) as [[t ti]|] eqn:Eg; [exfalso|reflexivity].
  destruct (Ev 2%nat a t ti ltac:(lia) Sa Eg) as [(_ & _ & I1 & I2) (mu & H)].
  pose proof (H 0%nat 0%nat ltac:(lia) ltac:(lia)) as H0. pose proof (H 1%nat 0%nat ltac:(lia) ltac:(lia)) as H1. pose proof (I2 0%nat 0%nat ltac:(lia) ltac:(lia)) as H2.
  cbn [sum_to Nat.eqb] in H0, H1, H2. rewrite !E in H0, H1 by lia. unfold coef at 1 3 in H0. unfold coef at 1 3 in H1. cbn [nth] in H0, H1.
  set (x := coef t 0 0) in *. set (z := coef t 1 0) in *. set (m := mu 0%nat) in *. clearbody x z m.
  assert (Ez : z = m * x) by lra. subst z.
  assert (Ex : x <> 0) by (intros ->; lra).
  assert (Q : (m * m + g1 * m + g2) * x = 0) by lra.
  apply Rmult_integral in Q as [Q|Q]; [|contradiction]. assert (0 <= (2 * m + g1) * (2 * m + g1)) by apply Rle_0_sqr. nra.
Qed.

(** ** Enclosures *)
Section enclosure.
Variables (eig : lmat -> option (lmat * lmat)) (ta tb : itv lvec) (ts dist dt : R) (follow : bool).
Hypothesis Pa : pbox 3 ta. Hypothesis Pb : pbox 2 tb. Hypothesis Hdt : 0 <= dt.
Hypothesis Ka : 0 <= entry (fst ta) 1. Hypothesis Kd : dt * (entry (fst ta) 0 + entry (snd ta) 0 + entry (fst ta) 1 + entry (snd ta) 1) <= 2.
Definition long_of (x0 : lvec) : lpv :=
  let '(a0, da) := parameter_box_to_polytope 4 (long_structure follow) ta in
  lpv_make eig x0 a0 da (eye 4) [[1]; [0]; [0]; [0]] ([-1], [1]) [ts; ts; 0; 0] (lm_zero 4) [dist; 0; ts; ts] None.
Definition lat_of (x0 : lvec) : lpv :=
  let '(a0, da) := parameter_box_to_polytope 2 lateral_structure tb in
  lpv_make eig x0 a0 da (eye 2) [[1]; [0]] ([- (1 / 2)], [1 / 2]) [0; 0] (lm_zero 2) [0; 0] None.
Lemma make_none x0 a0 da b d omega u k c : lpv_make eig x0 a0 da b d omega u k c None = lpv_make eig x0 a0 da b d omega u k c (Some (x0, x0)).
Proof. reflexivity. Qed.
Lemma point_boxed x : boxed x x x.
Proof. split; [reflexivity|]. split; [reflexivity|]. intros; lra. Qed.
Definition long_vec (c : course) : lvec := [c_s c; c_front c; c_speed c; c_front_speed c].
Definition lat_vec (c : course) : lvec := [c_lat c; c_psi c].
Lemma long_encloses n c c' : travels ta tb ts follow dt n c c' ->
  boxed (fst (reported (lpv_steps n (long_of (long_vec c)) dt))) (long_vec c') (snd (reported (lpv_steps n (long_of (long_vec c)) dt))).
Proof.
  intros T. unfold long_of. pose proof (long_shapes follow) as [S0 F0].
  pose proof (box_polytope 4 (long_structure follow) ta [entry (fst ta) 0; entry (fst ta) 1; entry (fst ta) 2] S0 F0 eq_refl
    (pbox_in3 _ _ _ Pa (conj (Rle_refl _) (proj2 (proj2 Pa) 0%nat ltac:(lia))) (conj (Rle_refl _) (proj2 (proj2 Pa) 1%nat ltac:(lia))))) as H.
  assert (G : let '(a0, da) := parameter_box_to_polytope 4 (long_structure follow) ta in
    driven 4 1 4 a0 da (eye 4) [[1]; [0]; [0]; [0]] ([-1], [1]) [dist; 0; ts; ts] dt (long_vec c) (repeat [ts; ts; 0; 0] n) (long_vec c')).
  { clear H. induction T as [c|n c c1 c2 A T IH]; destruct (parameter_box_to_polytope 4 (long_structure follow) ta) as [a0 da] eqn:Ep; [constructor|].
    destruct A as (k1 & k2 & g1 & g2 & e1 & e2 & K1 & K2 & G1 & G2 & E1 & E2 & M1 & M2 & M3 & M4 & M5 & M6).
    cbn [repeat]. apply driven_cons with (x1 := long_vec c1); [reflexivity | | exact IH].
    pose proof (long_follows ta follow ts dist dt _ _ _ _ _ _ _ _ k1 k2 e1 Pa K1 K2 E1 M1 M2 M3 M4) as Fo. rewrite Ep in Fo. exact Fo. }
  destruct (parameter_box_to_polytope 4 (long_structure follow) ta) as [a0 da]. destruct H as (Sa & Fd & Nd & Ca & _).
  rewrite make_none. match goal with |- context [lpv_steps n ?s dt] => rewrite <- (lpv_steps_predict n s dt [ts; ts; 0; 0] eq_refl) end.
  pose proof (closed_zero 4 a0 ltac:(lia) Sa) as Cl.
  pose proof (C51_metzler_system_enclosed eig 4 1 4 (long_vec c) a0 da (eye 4) [[1]; [0]; [0]; [0]] ([-1], [1]) [ts; ts; 0; 0] (lm_zero 4) [dist; 0; ts; ts]
    (long_vec c, long_vec c) dt (repeat [ts; ts; 0; 0] n) (long_vec c) (long_vec c')) as M. cbv zeta in M. rewrite Cl in M. apply M; clear M; try assumption; try lia; try reflexivity.
  - apply shape_eye.
  - apply shape_zero.
  - shp.
  - intros i j Hi Hj Ne. rewrite Ca by assumption. rewrite long_coef by assumption. pose proof (centre_entry 3 ta 1 Pa ltac:(lia)) as C1. pose proof (proj2 (proj2 Pa) 1%nat ltac:(lia)).
    destruct i as [|[|[|[|i]]]]; [| | | |lia]; (destruct j as [|[|[|[|j]]]]; [| | | |lia]); unfold coef; cbn [nth]; try lra; try lia; destruct follow; lra.
  - intros i Hi. rewrite Ca by assumption. rewrite long_coef by assumption. pose proof (centre_entry 3 ta 1 Pa ltac:(lia)) as C1. pose proof (centre_entry 3 ta 0 Pa ltac:(lia)) as C0.
    pose proof (proj2 (proj2 Pa) 1%nat ltac:(lia)). pose proof (proj2 (proj2 Pa) 0%nat ltac:(lia)).
    assert (Q : 0 <= dt * (entry (fst ta) 1 + entry (snd ta) 1)) by (apply Rmult_le_pos; lra).
    destruct i as [|[|[|[|i]]]]; [| | | |lia]; unfold coef; cbn [nth]; try destruct follow; rewrite ?C0, ?C1; lra.
  - apply point_boxed.
Qed.
Lemma lat_encloses n c c' : eigenvectors eig -> METZLER_EPS < (entry (fst tb) 1 + entry (snd tb) 1) / 2 ->
  (entry (fst tb) 0 + entry (snd tb) 0) * (entry (fst tb) 0 + entry (snd tb) 0) < 8 * (entry (fst tb) 1 + entry (snd tb) 1) ->
  travels ta tb ts follow dt n c c' ->
  boxed (fst (reported (lpv_steps n (lat_of (lat_vec c)) dt))) (lat_vec c') (snd (reported (lpv_steps n (lat_of (lat_vec c)) dt))).
Proof.
  intros Ev Me Di T. unfold lat_of. pose proof lat_shapes as [S0 F0].
  pose proof (box_polytope 2 lateral_structure tb [entry (fst tb) 0; entry (fst tb) 1] S0 F0 eq_refl
    (pbox_in2 _ _ _ Pb (conj (Rle_refl _) (proj2 (proj2 Pb) 0%nat ltac:(lia))) (conj (Rle_refl _) (proj2 (proj2 Pb) 1%nat ltac:(lia))))) as H.
  assert (G : let '(a0, da) := parameter_box_to_polytope 2 lateral_structure tb in
    driven 2 1 2 a0 da (eye 2) [[1]; [0]] ([- (1 / 2)], [1 / 2]) [0; 0] dt (lat_vec c) (repeat [0; 0] n) (lat_vec c')).
  { clear H. induction T as [c|n c c1 c2 A T IH]; destruct (parameter_box_to_polytope 2 lateral_structure tb) as [a0 da] eqn:Ep; [constructor|].
    destruct A as (k1 & k2 & g1 & g2 & e1 & e2 & K1 & K2 & G1 & G2 & E1 & E2 & M1 & M2 & M3 & M4 & M5 & M6).
    cbn [repeat]. apply driven_cons with (x1 := lat_vec c1); [reflexivity | | exact IH].
    pose proof (lat_follows tb dt _ _ _ _ g1 g2 e2 Pb G1 G2 E2 M5 M6) as Fo. rewrite Ep in Fo. exact Fo. }
  destruct (parameter_box_to_polytope 2 lateral_structure tb) as [a0 da]. destruct H as (Sa & Fd & Nd & Ca & _).
  rewrite make_none. match goal with |- context [lpv_steps n ?s dt] => rewrite <- (lpv_steps_predict n s dt [0; 0] eq_refl) end.
  pose proof (closed_zero 2 a0 ltac:(lia) Sa) as Cl. pose proof (centre_entry 2 tb 1 Pb ltac:(lia)) as C1. pose proof (centre_entry 2 tb 0 Pb ltac:(lia)) as C0.
  assert (Ca' : forall i j, (i < 2)%nat -> (j < 2)%nat -> coef a0 i j = coef [[0; 1]; [- entry (centre_of tb) 1; - entry (centre_of tb) 0]] i j)
    by (intros i j Hi Hj; rewrite Ca by assumption; apply lat_coef; assumption).
  pose proof (C51_unrotated_system_enclosed eig 2 1 2 (lat_vec c) a0 da (eye 2) [[1]; [0]] ([- (1 / 2)], [1 / 2]) [0; 0] (lm_zero 2) [0; 0]
    (lat_vec c, lat_vec c) dt (repeat [0; 0] n) (lat_vec c) (lat_vec c')) as M. cbv zeta in M. rewrite Cl in M. apply M; clear M; try assumption; try lia; try reflexivity.
  - apply shape_eye.
  - apply shape_zero.
  - shp.
  - intros i. unfold entry. destruct i as [|[|i]]; cbn; try reflexivity. now destruct i.
  - destruct (is_metzler a0) eqn:E; [exfalso|reflexivity]. apply (is_metzler_true a0 1 0) in E; [|destruct Sa as [-> _]; lia | rewrite (shape_row 2 2) by (exact Sa || lia); lia | lia].
    rewrite Ca' in E by lia. unfold coef in E. cbn [nth] in E. rewrite C1 in E. lra.
  - apply (no_eigenvectors eig a0 (entry (centre_of tb) 0) (entry (centre_of tb) 1) Ev Sa Ca'). rewrite C0, C1. nra.
  - apply point_boxed.
Qed.
End enclosure.

(** ** Exact entries of a step from a point *)
Definition certain_row (n : nat) (da : list lmat) (x : lvec) (i : nat) : Prop :=
  forall j, (j < n)%nat -> entry x j = 0 \/ forall k, (k < List.length da)%nat -> coef (nth k da []) i j = 0.
Lemma product_point' a b : intervals_product (a, a) (b, b) = (a * b, a * b).
Proof.
  unfold intervals_product, intervals_product_with, pos_part, neg_part, Rmax. cbn [fst snd].
  repeat destruct (Rle_dec _ _); f_equal; try lra; nra.
Qed.
Lemma metzler_row n q m a0 da b d omega u x dt i : shape n n a0 -> Forall (shape n n) da -> da <> [] -> shape n q d -> shape n m b -> List.length u = m ->
  List.length x = n -> List.length (fst omega) = q -> List.length (snd omega) = q -> (i < n)%nat -> certain_row n da x i ->
  let base := sum_to n (fun j => coef a0 i j * entry x j) + sum_to m (fun j => coef b i j * entry u j) in
  entry (fst (metzler_step a0 da b d omega u (x, x) dt)) i = entry x i + dt * (base + sum_to q (fun j => pos_part (coef d i j) * entry (fst omega) j - neg_part (coef d i j) * entry (snd omega) j)) /\
  entry (snd (metzler_step a0 da b d omega u (x, x) dt)) i = entry x i + dt * (base + sum_to q (fun j => pos_part (coef d i j) * entry (snd omega) j - neg_part (coef d i j) * entry (fst omega) j)).
Proof.
  intros Sa Fd Nd Sd Sb Lu Lx W0 W1 Hi C base.
  assert (FP : Forall (shape n n) (map (map (map pos_part)) da)) by (rewrite Forall_map; eapply Forall_impl; [|exact Fd]; intros k; apply shape_map).
  assert (FN : Forall (shape n n) (map (map (map neg_part)) da)) by (rewrite Forall_map; eapply Forall_impl; [|exact Fd]; intros k; apply shape_map).
  assert (NP : map (map (map pos_part)) da <> [] /\ map (map (map neg_part)) da <> []) by (destruct da; [easy | split; discriminate]). destruct NP as [NP NN].
  pose proof (sum_shape n n _ NP FP) as SP. pose proof (sum_shape n n _ NN FN) as SN.
  assert (CP : forall j, coef (lm_sum (map (map (map pos_part)) da)) i j = sum_to (List.length da) (fun k => pos_part (coef (nth k da []) i j))).
  { intros j. rewrite (sum_coef n n) by assumption. rewrite map_length. apply sum_ext. intros k Hk. rewrite (nth_map_in _ da k []) by exact Hk. apply coef_pos. }
  assert (CN : forall j, coef (lm_sum (map (map (map neg_part)) da)) i j = sum_to (List.length da) (fun k => neg_part (coef (nth k da []) i j))).
  { intros j. rewrite (sum_coef n n) by assumption. rewrite map_length. apply sum_ext. intros k Hk. rewrite (nth_map_in _ da k []) by exact Hk. apply coef_neg. }
  set (dap := lm_sum (map (map (map pos_part)) da)) in *. set (dan := lm_sum (map (map (map neg_part)) da)) in *.
  assert (Z : forall f : R -> R, f 0 = 0 -> sum_to n (fun j => coef dap i j * entry (map f x) j) = 0 /\ sum_to n (fun j => coef dan i j * entry (map f x) j) = 0).
  { intros f F0. split; apply sum_zero; intros j Hj; rewrite entry_map by exact F0; (destruct (C j Hj) as [-> | K]; [rewrite F0; ring|]);
      rewrite ?CP, ?CN; (rewrite sum_zero; [ring|]); intros k Hk; rewrite (K k Hk); [apply pos0 | apply neg0]. }
  destruct (Z _ pos0) as [Z1 Z2], (Z _ neg0) as [Z3 Z4].
  assert (Ld : List.length d = n) by apply Sd. assert (Lb : List.length b = n) by apply Sb. assert (La : List.length a0 = n) by apply Sa.
  assert (LP : List.length dap = n) by apply SP. assert (LN : List.length dan = n) by apply SN.
  unfold metzler_step. fold dap dan. cbn [fst snd].
  assert (Len : forall v1 v2 v3 v4 v5 v6, List.length v1 = n -> List.length v2 = n -> List.length v3 = n -> List.length v4 = n -> List.length v5 = n -> List.length v6 = n ->
     List.length (lv_add (lv_sub (lv_add (lv_sub (lv_sub v1 v2) v3) v4) v5) v6) = n) by (intros; repeat (rewrite len_add || rewrite len_sub); congruence).
  assert (Len' : forall v1 v2 v3 v4 v5 v6, List.length v1 = n -> List.length v2 = n -> List.length v3 = n -> List.length v4 = n -> List.length v5 = n -> List.length v6 = n ->
     List.length (lv_add (lv_sub (lv_add (lv_add (lv_add v1 v2) v3) v4) v5) v6) = n) by (intros; repeat (rewrite len_add || rewrite len_sub); congruence).
  rewrite !(entry_add _ (lv_scale _ _)) by (rewrite len_scale, ?Len, ?Len' by (rewrite len_apply, ?map_length; assumption); assumption). rewrite !entry_scale.
  repeat (rewrite entry_add || rewrite entry_sub); try (repeat (rewrite len_add || rewrite len_sub); rewrite ?len_apply, ?map_length; congruence).
  repeat match goal with |- context [entry (lm_apply ?a ?v) i] =>
    first [rewrite (entry_apply n n a v i) by (rewrite ?map_length; assumption) | rewrite (entry_apply n q a v i) by (try apply shape_map; assumption)
          | rewrite (entry_apply n m a v i) by assumption] end.
  rewrite Z1, Z2, Z3, Z4, !sum_sub. unfold base.
  rewrite !(sum_ext q (fun j => coef (map (map pos_part) d) i j * _) (fun j => pos_part (coef d i j) * _)) by (intros; now rewrite coef_pos).
  rewrite !(sum_ext q (fun j => coef (map (map neg_part) d) i j * _) (fun j => neg_part (coef d i j) * _)) by (intros; now rewrite coef_neg).
  split; ring.
Qed.
Lemma product_unit c : c = 0 -> intervals_product (0, 1) (c, c) = (0, 0).
Proof.
  intros ->. unfold intervals_product, intervals_product_with, pos_part, neg_part. cbn [fst snd]. rewrite Ropp_0, !(Rmax_left 0 0) by lra. f_equal; ring.
Qed.
Lemma product_zero a : intervals_product a (0, 0) = (0, 0).
Proof. unfold intervals_product, intervals_product_with, pos_part at 2 4 6 8, neg_part at 1 4 6 8. cbn [fst snd]. unfold pos_part, neg_part. rewrite Ropp_0, !(Rmax_left 0 0) by lra. f_equal; ring. Qed.
Lemma naive_row n q m a0 da b d omega u x dt i : shape n n a0 -> Forall (shape n n) da -> da <> [] -> shape n q d -> shape n m b -> List.length u = m ->
  List.length x = n -> List.length (fst omega) = q -> List.length (snd omega) = q -> (i < n)%nat -> certain_row n da x i ->
  let base := sum_to n (fun j => coef a0 i j * entry x j) + sum_to m (fun j => coef b i j * entry u j) in
  let noise j := intervals_product (coef d i j, coef d i j) (entry (fst omega) j, entry (snd omega) j) in
  entry (fst (naive_step a0 da b d omega u (x, x) dt)) i = entry x i + dt * (base + sum_to q (fun j => fst (noise j))) /\
  entry (snd (naive_step a0 da b d omega u (x, x) dt)) i = entry x i + dt * (base + sum_to q (fun j => snd (noise j))).
Proof.
  intros Sa Fd Nd Sd Sb Lu Lx W0 W1 Hi C base noise. unfold naive_step.
  set (parts := map (fun m => intervals_product_sm (0, 1) (m, m)) da). cbn [fst snd].
  assert (FP : Forall (shape n n) (map fst parts) /\ Forall (shape n n) (map snd parts)).
  { unfold parts. rewrite !map_map, !Forall_map. split; (eapply Forall_impl; [|exact Fd]); intros z Sz; apply (product_sm_shape n n (0, 1) (z, z)); assumption. }
  destruct FP as [FP0 FP1]. assert (NP : map fst parts <> [] /\ map snd parts <> []) by (unfold parts; destruct da; [easy | split; discriminate]). destruct NP as [NP0 NP1].
  pose proof (sum_shape n n _ NP0 FP0) as SP0. pose proof (sum_shape n n _ NP1 FP1) as SP1.
  pose proof (shape_add n n a0 _ Sa SP0) as SA0. pose proof (shape_add n n a0 _ Sa SP1) as SA1.
  assert (Q0 : forall j, (j < n)%nat -> entry x j = 0 \/ coef (lm_sum (map fst parts)) i j = 0).
  { intros j Hj. destruct (C j Hj) as [Hz|K]; [now left|right]. rewrite (sum_coef n n) by assumption. apply sum_zero. intros k Hk. rewrite map_length in Hk. unfold parts in *. rewrite map_length in Hk.
    rewrite map_map. rewrite (nth_map_in _ da k []) by exact Hk. destruct (product_sm_coef n n (0, 1) (nth k da [], nth k da []) i j) as [E0 _]; [apply Forall_nth'; assumption | apply Forall_nth'; assumption | exact Hi |].
    rewrite E0. cbn [fst snd]. rewrite product_unit by (apply K, Hk). reflexivity. }
  assert (Q1 : forall j, (j < n)%nat -> entry x j = 0 \/ coef (lm_sum (map snd parts)) i j = 0).
  { intros j Hj. destruct (C j Hj) as [Hz|K]; [now left|right]. rewrite (sum_coef n n) by assumption. apply sum_zero. intros k Hk. rewrite map_length in Hk. unfold parts in *. rewrite map_length in Hk.
    rewrite map_map. rewrite (nth_map_in _ da k []) by exact Hk. destruct (product_sm_coef n n (0, 1) (nth k da [], nth k da []) i j) as [_ E0]; [apply Forall_nth'; assumption | apply Forall_nth'; assumption | exact Hi |].
    rewrite E0. cbn [fst snd]. rewrite product_unit by (apply K, Hk). reflexivity. }
  set (A0 := lm_add a0 (lm_sum (map fst parts))) in *. set (A1 := lm_add a0 (lm_sum (map snd parts))) in *.
  assert (R : forall j, (j < n)%nat -> intervals_product (coef A0 i j, coef A1 i j) (entry x j, entry x j) = (coef a0 i j * entry x j, coef a0 i j * entry x j)).
  { intros j Hj. unfold A0, A1. rewrite !(coef_add n n) by assumption. destruct (Q0 j Hj) as [Hz|K0]; [rewrite Hz, product_zero; f_equal; ring|].
    destruct (Q1 j Hj) as [Hz|K1]; [rewrite Hz, product_zero; f_equal; ring|]. rewrite K0, K1, product_point'. f_equal; ring. }
  destruct (product_mv_entry n n (A0, A1) (x, x) i SA0 SA1 Lx Lx Hi) as (P0 & P1 & PL0 & PL1). destruct (product_mv_entry n q (d, d) omega i Sd Sd W0 W1 Hi) as (D0 & D1 & DL0 & DL1).
  assert (Lb : List.length b = n) by apply Sb.
  assert (Lab : forall p q0, List.length p = n -> List.length q0 = n -> List.length (lv_add (lv_add p q0) (lm_apply b u)) = n).
  { intros p q0 Lp Lq. assert (X1 : List.length (lv_add p q0) = n) by (rewrite len_add; congruence). rewrite len_add; [exact X1|]. rewrite len_apply. congruence. }
  cbn [fst snd] in P0, P1, D0, D1.
  rewrite !(entry_add x) by (rewrite len_scale, Lab by assumption; exact Lx). rewrite !entry_scale.
  assert (X : forall p q0, List.length p = n -> List.length q0 = n -> entry (lv_add (lv_add p q0) (lm_apply b u)) i = entry p i + entry q0 i + sum_to m (fun j => coef b i j * entry u j)).
  { intros p q0 Lp Lq. rewrite !entry_add; [|congruence|rewrite len_add, len_apply; congruence]. now rewrite (entry_apply n m) by assumption. }
  rewrite !X by assumption. rewrite P0, P1, D0, D1.
  rewrite (sum_ext n (fun j => fst (intervals_product (coef A0 i j, coef A1 i j) _)) (fun j => coef a0 i j * entry x j)) by (intros j Hj; rewrite R by exact Hj; reflexivity).
  rewrite (sum_ext n (fun j => snd (intervals_product (coef A0 i j, coef A1 i j) _)) (fun j => coef a0 i j * entry x j)) by (intros j Hj; rewrite R by exact Hj; reflexivity).
  unfold base, noise. split; ring.
Qed.
Lemma polytope_da n s box p0 i j : shape n n (fst s) -> Forall (shape n n) (snd s) -> List.length p0 = List.length (snd s) -> boxed (fst box) p0 (snd box) -> (i < n)%nat -> (j < n)%nat ->
  let '(_, da) := parameter_box_to_polytope n s box in
  forall k, (k < List.length da)%nat -> exists p, coef (nth k da []) i j = at_coef s p i j - at_coef s (centre_of box) i j.
Proof.
  intros S0 F L B Hi Hj. unfold parameter_box_to_polytope. pose proof (at_affine n s S0 F) as Af. set (f := fun p => List.concat (at_parameters s p)) in *.
  pose proof (C50_polytope _ _ f (fst box) (snd box) p0 Af L B) as H. destruct (boxed_len_l _ _ _ _ B L) as [L0 L1].
  assert (Lc : List.length (centre_of box) = List.length (snd s)) by (unfold centre_of; rewrite map2_length; congruence).
  assert (Lf : forall p, List.length p = List.length (snd s) -> List.length (f p) = (n * n)%nat) by (intros q Lq; apply concat_shape, at_shape; assumption).
  assert (Cf : forall q, List.length q = List.length (snd s) -> entry (f q) (i * n + j) = at_coef s q i j).
  { intros q Lq. unfold f. rewrite (concat_entry n n) by (try apply at_shape; assumption). apply (at_parameters_coef n); assumption. }
  unfold polytope in *. fold (centre_of box) in *. set (l := dedup _) in *. destruct H as [M V]. intros k Hk. rewrite map_length in Hk.
  rewrite (nth_map_in (rows n n) l k [] []) by exact Hk. destruct (V (nth k l []) (nth_In _ _ Hk)) as (q & Bq & _ & Eq). exists q.
  assert (Lq : List.length q = List.length (snd s)) by (destruct Bq as (A & _); congruence).
  rewrite rows_coef by assumption. rewrite Eq, entry_sub by (rewrite !Lf; auto). rewrite !Cf by assumption. reflexivity.
Qed.
Lemma make_metzler eig n m x0 a0 da b d omega u c : (0 < n)%nat -> shape n n a0 -> Forall (shape n n) da -> shape n m b -> List.length x0 = n -> List.length c = n ->
  lm_add a0 (lm_mul b (lm_zero n)) = a0 -> is_metzler a0 = true ->
  lpv_make eig x0 a0 da b d omega u (lm_zero n) c None = LPV a0 da b d omega u (lm_zero n) c (Some (eye n, eye n)) x0 (lv_sub x0 c, lv_sub x0 c).
Proof.
  intros Hn Sa Fd Sb Lx Lc Cl M. unfold lpv_make. rewrite Cl. unfold coordinates_of. rewrite M. assert (La : List.length a0 = n) by apply Sa. rewrite La.
  assert (CM : forall z, shape n n z -> change_matrix (Some (eye n, eye n)) z = z) by (intros z Sz; unfold change_matrix; rewrite (mul_eye_l n n) by assumption; apply (mul_eye_r n n); assumption).
  rewrite CM by exact Sa. replace (map (change_matrix (Some (eye n, eye n))) da) with da.
  2: { rewrite <- (map_id da) at 1. apply map_ext_in. intros z Hz. symmetry. apply CM. rewrite Forall_forall in Fd. now apply Fd. }
  unfold change_input. rewrite (mul_eye_l n m) by assumption. cbn [fst snd change_vector]. rewrite !apply_eye by (rewrite len_sub; congruence). reflexivity.
Qed.
Lemma back_eye n c xi i : List.length c = n -> List.length (fst xi) = n -> List.length (snd xi) = n -> (i < n)%nat ->
  entry (fst (change_interval_back (Some (eye n, eye n)) c xi)) i = entry (fst xi) i + entry c i /\
  entry (snd (change_interval_back (Some (eye n, eye n)) c xi)) i = entry (snd xi) i + entry c i.
Proof.
  intros Lc L0 L1 Hi. unfold change_interval_back. cbn [fst snd]. destruct (scaling_len n n (eye n) xi (shape_eye n)) as [K0 K1].
  destruct (scaling_entry n n (eye n) xi i (shape_eye n) L0 L1 Hi) as [E0 E1].
  assert (Z : forall v w : lvec, sum_to n (fun j => pos_part (coef (eye n) i j) * entry v j - neg_part (coef (eye n) i j) * entry w j) = entry v i).
  { intros v w. rewrite <- (sum_if n i (fun j => entry v j) Hi). apply sum_ext. intros j Hj. rewrite coef_eye by assumption. unfold pos_part, neg_part. destruct (Nat.eqb i j).
    - rewrite Rmax_left, Rmax_right by lra. ring.
    - rewrite Ropp_0, Rmax_left by lra. ring. }
  rewrite !entry_add by congruence. rewrite E0, E1, !Z. split; reflexivity.
Qed.
Lemma eye_u n u i : (i < n)%nat -> List.length u = n -> sum_to n (fun j => coef (eye n) i j * entry u j) = entry u i.
Proof. intros Hi _. rewrite <- (sum_if n i (fun j => entry u j) Hi). apply sum_ext. intros j Hj. now rewrite coef_eye. Qed.

(** The first step of the lateral system. *)
Lemma lat_first eig tb y psi dt : pbox 2 tb -> eigenvectors eig -> METZLER_EPS < (entry (fst tb) 1 + entry (snd tb) 1) / 2 ->
  (entry (fst tb) 0 + entry (snd tb) 0) * (entry (fst tb) 0 + entry (snd tb) 0) < 8 * (entry (fst tb) 1 + entry (snd tb) 1) ->
  let r := reported (lpv_step (lat_of eig tb [y; psi]) dt) in
  entry (fst r) 0 = y + dt * (psi - 1 / 2) /\ entry (snd r) 0 = y + dt * (psi + 1 / 2) /\
  (y = 0 -> psi = 0 -> entry (fst r) 1 = 0 /\ entry (snd r) 1 = 0).
Proof.
  intros Pb Ev Me Di. unfold lat_of. pose proof lat_shapes as [S0 F0].
  pose proof (pbox_in2 _ _ _ Pb (conj (Rle_refl _) (proj2 (proj2 Pb) 0%nat ltac:(lia))) (conj (Rle_refl _) (proj2 (proj2 Pb) 1%nat ltac:(lia)))) as Bp.
  pose proof (box_polytope 2 lateral_structure tb [entry (fst tb) 0; entry (fst tb) 1] S0 F0 eq_refl Bp) as H.
  assert (Z : forall j, (j < 2)%nat -> let '(_, da) := parameter_box_to_polytope 2 lateral_structure tb in forall k, (k < List.length da)%nat -> coef (nth k da []) 0 j = 0).
  { intros j Hj. pose proof (polytope_da 2 lateral_structure tb [entry (fst tb) 0; entry (fst tb) 1] 0 j S0 F0 eq_refl Bp ltac:(lia) Hj) as Q.
    destruct (parameter_box_to_polytope 2 lateral_structure tb) as [a0 da]. intros k Hk. destruct (Q k Hk) as (p & ->). rewrite !lat_coef by lia.
    destruct j as [|[|j]]; [| |lia]; unfold coef; cbn [nth]; ring. }
  destruct (parameter_box_to_polytope 2 lateral_structure tb) as [a0 da]. destruct H as (Sa & Fd & Nd & Ca & _).
  pose proof (closed_zero 2 a0 ltac:(lia) Sa) as Cl. pose proof (centre_entry 2 tb 1 Pb ltac:(lia)) as C1. pose proof (centre_entry 2 tb 0 Pb ltac:(lia)) as C0.
  assert (Ca' : forall i j, (i < 2)%nat -> (j < 2)%nat -> coef a0 i j = coef [[0; 1]; [- entry (centre_of tb) 1; - entry (centre_of tb) 0]] i j)
    by (intros i j Hi Hj; rewrite Ca by assumption; apply lat_coef; assumption).
  assert (NM : is_metzler a0 = false).
  { destruct (is_metzler a0) eqn:E; [exfalso|reflexivity]. apply (is_metzler_true a0 1 0) in E; [|destruct Sa as [-> _]; lia | rewrite (shape_row 2 2) by (exact Sa || lia); lia | lia].
    rewrite Ca' in E by lia. unfold coef in E. cbn [nth] in E. rewrite C1 in E. lra. }
  assert (Ne : eig a0 = None) by (apply (no_eigenvectors eig a0 (entry (centre_of tb) 0) (entry (centre_of tb) 1) Ev Sa Ca'); rewrite C0, C1; nra).
  unfold lpv_make. rewrite Cl. unfold coordinates_of. rewrite NM, Ne.
  assert (Em : map (change_matrix None) da = da) by (rewrite <- (map_id da) at 2; reflexivity). rewrite Em. cbn [change_vector change_input fst snd].
  unfold lpv_step, reported. cbn [lp_a0 lp_da lp_b lp_d lp_omega lp_u lp_k lp_center lp_coord lp_x lp_xi change_matrix change_interval_back]. rewrite NM.
  assert (Sd : shape 2 1 [[1]; [0]]) by shp.
  destruct (naive_row 2 1 2 a0 da (eye 2) [[1]; [0]] ([- (1 / 2)], [1 / 2]) [0; 0] [y; psi] dt 0 Sa Fd Nd Sd (shape_eye 2) eq_refl eq_refl eq_refl eq_refl ltac:(lia)) as [E0 E1].
  { intros j Hj. right. apply Z. exact Hj. }
  rewrite E0, E1. rewrite eye_u by (reflexivity || lia). cbn [sum_to]. rewrite !Ca' by lia. unfold coef, entry. cbn [nth fst snd].
  assert (P : intervals_product (1, 1) (- (1 / 2), 1 / 2) = (- (1 / 2), 1 / 2)).
  { unfold intervals_product, intervals_product_with, pos_part, neg_part. cbn [fst snd].
    rewrite (Rmax_left 1 0), (Rmax_right (Ropp 1) 0), (Rmax_right (- (1/2)) 0), (Rmax_left (- - (1/2)) 0), (Rmax_left (1/2) 0) by lra. f_equal; lra. }
  rewrite P. cbn [fst snd]. split; [ring|]. split; [ring|]. intros -> ->.
  destruct (naive_row 2 1 2 a0 da (eye 2) [[1]; [0]] ([- (1 / 2)], [1 / 2]) [0; 0] [0; 0] dt 1 Sa Fd Nd Sd (shape_eye 2) eq_refl eq_refl eq_refl eq_refl ltac:(lia)) as [G0 G1].
  { intros j Hj. left. destruct j as [|[|j]]; [| |lia]; reflexivity. }
  unfold entry in G0, G1. rewrite G0, G1. change (fun j => coef (eye 2) 1 j * nth j [0; 0] 0) with (fun j => coef (eye 2) 1 j * entry [0; 0] j). rewrite eye_u by (reflexivity || lia). cbn [sum_to]. unfold coef, entry. cbn [nth fst snd].
  assert (P0 : intervals_product (0, 0) (- (1 / 2), 1 / 2) = (0, 0)).
  { unfold intervals_product, intervals_product_with, pos_part, neg_part. cbn [fst snd]. rewrite Ropp_0, (Rmax_left 0 0) by lra. f_equal; ring. }
  rewrite P0. cbn [fst snd]. split; ring.
Qed.
(** The first step of the speed at the target speed, without control of the front speed. *)
Lemma long_first eig ta ts dist s f w dt : pbox 3 ta ->
  let r := reported (lpv_step (long_of eig ta ts dist false [s; f; ts; w]) dt) in
  entry (fst r) 2 = ts /\ entry (snd r) 2 = ts.
Proof.
  intros Pa. unfold long_of. pose proof (long_shapes false) as [S0 F0].
  pose proof (pbox_in3 _ _ _ Pa (conj (Rle_refl _) (proj2 (proj2 Pa) 0%nat ltac:(lia))) (conj (Rle_refl _) (proj2 (proj2 Pa) 1%nat ltac:(lia)))) as Bp.
  set (p0 := [entry (fst ta) 0; entry (fst ta) 1; entry (fst ta) 2]) in *.
  pose proof (box_polytope 4 (long_structure false) ta p0 S0 F0 eq_refl Bp) as H.
  assert (Z : forall j, (j < 4)%nat -> j <> 2%nat -> let '(_, da) := parameter_box_to_polytope 4 (long_structure false) ta in forall k, (k < List.length da)%nat -> coef (nth k da []) 2 j = 0).
  { intros j Hj Nj. pose proof (polytope_da 4 (long_structure false) ta p0 2 j S0 F0 eq_refl Bp ltac:(lia) Hj) as Q.
    destruct (parameter_box_to_polytope 4 (long_structure false) ta) as [a0 da]. intros k Hk. destruct (Q k Hk) as (p & ->). rewrite !long_coef by lia.
    destruct j as [|[|[|[|j]]]]; [| | | |lia]; try lia; unfold coef; cbn [nth]; ring. }
  destruct (parameter_box_to_polytope 4 (long_structure false) ta) as [a0 da]. destruct H as (Sa & Fd & Nd & Ca & _).
  pose proof (closed_zero 4 a0 ltac:(lia) Sa) as Cl.
  assert (M : is_metzler a0 = true).
  { apply (is_metzler_intro 4); [exact Sa|]. intros i j Hi Hj Ne. rewrite Ca by assumption. rewrite long_coef by assumption. unfold METZLER_EPS.
    destruct i as [|[|[|[|i]]]]; [| | | |lia]; (destruct j as [|[|[|[|j]]]]; [| | | |lia]); unfold coef; cbn [nth]; try lra; lia. }
  rewrite (make_metzler eig 4 4) by (assumption || reflexivity || lia || apply shape_eye).
  unfold lpv_step, reported. cbn [lp_a0 lp_da lp_b lp_d lp_omega lp_u lp_k lp_center lp_coord lp_x lp_xi]. rewrite M.
  set (x := lv_sub [s; f; ts; w] [dist; 0; ts; ts]). assert (Lx : List.length x = 4%nat) by reflexivity.
  assert (X2 : entry x 2 = 0) by (unfold x, entry; cbn; ring).
  assert (Sd : shape 4 1 [[1]; [0]; [0]; [0]]) by shp.
  destruct (metzler_row 4 1 4 a0 da (eye 4) [[1]; [0]; [0]; [0]] ([-1], [1]) [ts; ts; 0; 0] x dt 2 Sa Fd Nd Sd (shape_eye 4) eq_refl Lx eq_refl eq_refl ltac:(lia)) as [E0 E1].
  { intros j Hj. destruct (Nat.eq_dec j 2) as [-> | Nj]; [left; exact X2 | right; apply Z; assumption]. }
  assert (Ln : List.length (fst (metzler_step a0 da (eye 4) [[1]; [0]; [0]; [0]] ([-1], [1]) [ts; ts; 0; 0] (x, x) dt)) = 4%nat /\
    List.length (snd (metzler_step a0 da (eye 4) [[1]; [0]; [0]; [0]] ([-1], [1]) [ts; ts; 0; 0] (x, x) dt)) = 4%nat).
  { assert (FP : forall g : R -> R, List.length (lm_sum (map (map (map g)) da)) = 4%nat).
    { intros g. apply (sum_shape 4 4); [destruct da; [easy | discriminate]|]. rewrite Forall_map. eapply Forall_impl; [|exact Fd]. intros z. apply shape_map. }
    unfold metzler_step. cbn [fst snd]. assert (La : List.length a0 = 4%nat) by apply Sa.
    split; repeat (rewrite len_add || rewrite len_sub || rewrite len_scale); rewrite ?len_apply, ?FP, ?La; reflexivity. }
  destruct Ln as [Ln0 Ln1].
  destruct (back_eye 4 [dist; 0; ts; ts] (metzler_step a0 da (eye 4) [[1]; [0]; [0]; [0]] ([-1], [1]) [ts; ts; 0; 0] (x, x) dt) 2 eq_refl Ln0 Ln1 ltac:(lia)) as [B0 B1].
  rewrite B0, B1, E0, E1. rewrite eye_u by (reflexivity || lia). rewrite X2.
  assert (Sm : sum_to 4 (fun j => coef a0 2 j * entry x j) = 0).
  { apply sum_zero. intros j Hj. destruct (Nat.eq_dec j 2) as [-> | Nj]; [rewrite X2; ring|]. rewrite Ca by lia. rewrite long_coef by lia.
    destruct j as [|[|[|[|j]]]]; [| | | |lia]; try lia; unfold coef; cbn [nth]; ring. }
  rewrite Sm. cbn [sum_to]. unfold coef, entry. cbn [nth fst snd]. rewrite pos0, neg0. split; ring.
Qed.
