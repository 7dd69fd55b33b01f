(** Lemmas about the identification of linear parameters. *)
From Coq Require Import Lia Lra.
From Verif Require Import Prelude M_Interval M_Regression S_Interval S_Regression P_Base P_Interval.
Open Scope R_scope.

(** ** Sums *)
Lemma sum_square_nonneg n f : 0 <= sum_to n (fun i => f i * f i).
Proof. induction n as [|n IH]; cbn [sum_to]; [lra|]. pose proof (Rle_0_sqr (f n)) as Q. unfold Rsqr in Q. lra. Qed.
Lemma sum_square_zero n f : sum_to n (fun i => f i * f i) = 0 -> forall i, (i < n)%nat -> f i = 0.
Proof.
  induction n as [|n IH]; cbn [sum_to]; intros H i Hi; [lia|]. pose proof (sum_square_nonneg n f). pose proof (Rle_0_sqr (f n)) as Q. unfold Rsqr in Q.
  destruct (Nat.eq_dec i n) as [-> |]; [apply Rsqr_0_uniq; unfold Rsqr; lra|apply IH; [lra|lia]].
Qed.
Lemma cauchy n f g : (sum_to n (fun i => f i * g i)) ^ 2 <= sum_to n (fun i => f i * f i) * sum_to n (fun i => g i * g i).
Proof.
  set (A := sum_to n (fun i => f i * f i)). set (B := sum_to n (fun i => g i * g i)). set (C := sum_to n (fun i => f i * g i)).
  assert (HB : 0 <= B) by apply sum_square_nonneg. assert (HA : 0 <= A) by apply sum_square_nonneg.
  assert (E : sum_to n (fun i => (f i * B - g i * C) * (f i * B - g i * C)) = B * (A * B - C ^ 2)).
  { transitivity (sum_to n (fun i => (f i * f i) * (B * B) + (f i * g i) * (- (2) * B * C) + (g i * g i) * (C * C))).
    - apply sum_ext. intros i _. ring.
    - rewrite !sum_add, !sum_mulr. fold A B C. ring. }
  pose proof (sum_square_nonneg n (fun i => f i * B - g i * C)) as P. cbn beta in P. rewrite E in P.
  destruct (Req_dec B 0) as [Z|NZ].
  - assert (C = 0); [|nra]. unfold C. apply sum_zero. intros i Hi. rewrite (sum_square_zero n g Z i Hi). ring.
  - assert (0 < B) by lra. destruct (Rle_or_lt (C ^ 2) (A * B)) as [|L]; [assumption|]. exfalso. assert (B * (A * B - C ^ 2) < 0); [|lra]. nra.
Qed.
Lemma inner_nonneg n x : 0 <= inner n x x.
Proof. apply (sum_square_nonneg n (entry x)). Qed.
Lemma inner_cauchy n x y : (inner n x y) ^ 2 <= inner n x x * inner n y y.
Proof. apply cauchy. Qed.
Lemma inner_sym n x y : inner n x y = inner n y x.
Proof. apply sum_ext. intros. ring. Qed.
Lemma dot_inner n x y : List.length x = n -> List.length y = n -> lv_dot x y = inner n x y.
Proof. intros. now apply dot_sum. Qed.

(** ** The Gramian matrix *)
Lemma shape_hd n N phi : shape N n phi -> (0 < N)%nat -> List.length (hd [] phi) = n.
Proof. intros [L F] H. destruct phi as [|r phi]; cbn in *; [lia|]. now inversion F. Qed.
Lemma shape_transpose n N phi : shape N n phi -> (0 < N)%nat -> shape n N (transpose phi).
Proof.
  intros S H. unfold transpose. rewrite (shape_hd n N) by assumption. split; [now rewrite map_length, seq_length|].
  apply Forall_map, Forall_forall. intros j _. unfold lm_col. rewrite map_length. apply S.
Qed.
Lemma coef_transpose n N phi i k : shape N n phi -> (0 < N)%nat -> (i < n)%nat -> (k < N)%nat -> coef (transpose phi) i k = coef phi k i.
Proof.
  intros S H Hi Hk. unfold coef, transpose. rewrite (shape_hd n N) by assumption. rewrite (nth_map_in _ (seq 0 n) i O) by (rewrite seq_length; lia).
  rewrite seq_nth by lia. unfold lm_col. cbn [Nat.add]. rewrite (nth_map_in _ phi k []) by (rewrite (proj1 S); lia). reflexivity.
Qed.
Section Gram.
Variables (n N : nat) (phi : lmat) (lambda sigma : R).
Hypotheses (S : shape N n phi) (HN : (0 < N)%nat) (Hn : (0 < n)%nat).
Let g := gramian phi lambda sigma.
Lemma gram_shapes : shape n n (lm_mul (transpose phi) phi).
Proof. apply (shape_mul n N n); [now apply shape_transpose|exact S|exact HN]. Qed.
Lemma gram_shape : shape n n g.
Proof.
  unfold g, gramian. rewrite (shape_hd n N) by assumption. apply shape_add; apply shape_scale; [apply gram_shapes|apply shape_eye].
Qed.
Lemma gram_coef i j : (i < n)%nat -> (j < n)%nat ->
  coef g i j = 1 / sigma * sum_to N (fun k => coef phi k i * coef phi k j) + lambda * (if Nat.eqb i j then 1 else 0).
Proof.
  intros Hi Hj. unfold g, gramian. rewrite (shape_hd n N) by assumption.
  rewrite (coef_add n n) by first [assumption | apply shape_scale, gram_shapes | apply shape_scale, shape_eye].
  rewrite !coef_scale, coef_eye by assumption. f_equal. f_equal. rewrite (coef_mul n N n) by (try assumption; now apply shape_transpose).
  apply sum_ext. intros k Hk. now rewrite (coef_transpose n N) by assumption.
Qed.
(** The bilinear form. *)
Lemma gram_bilinear x y : sum_to n (fun i => sum_to n (fun j => entry x i * coef g i j * entry y j)) =
  1 / sigma * sum_to N (fun k => inner n x (nth k phi []) * inner n (nth k phi []) y) + lambda * inner n x y.
Proof.
  assert (A : sum_to n (fun i => sum_to n (fun j => entry x i * coef g i j * entry y j)) =
    sum_to n (fun i => sum_to n (fun j => 1 / sigma * sum_to N (fun k => entry x i * coef phi k i * (coef phi k j * entry y j)))) +
    sum_to n (fun i => sum_to n (fun j => (if Nat.eqb i j then 1 else 0) * (lambda * (entry x i * entry y j))))).
  { rewrite <- sum_add. apply sum_ext. intros i Hi. rewrite <- sum_add. apply sum_ext. intros j Hj. rewrite gram_coef by assumption.
    rewrite (sum_ext N (fun k => entry x i * coef phi k i * (coef phi k j * entry y j)) (fun k => entry x i * ((coef phi k i * coef phi k j) * entry y j))) by (intros; ring).
    rewrite sum_mul, sum_mulr. ring. }
  rewrite A. f_equal.
  - transitivity (1 / sigma * sum_to n (fun i => sum_to n (fun j => sum_to N (fun k => entry x i * coef phi k i * (coef phi k j * entry y j))))).
    + rewrite <- sum_mul. apply sum_ext. intros i Hi. rewrite <- sum_mul. reflexivity.
    + f_equal. transitivity (sum_to n (fun i => sum_to N (fun k => entry x i * coef phi k i * inner n (nth k phi []) y))).
      * apply sum_ext. intros i Hi. rewrite sum_swap. apply sum_ext. intros k Hk. rewrite sum_mul. reflexivity.
      * rewrite sum_swap. apply sum_ext. intros k Hk. rewrite sum_mulr. reflexivity.
  - transitivity (sum_to n (fun i => lambda * (entry x i * entry y i))); [|now rewrite sum_mul].
    apply sum_ext. intros i Hi. apply (sum_if n i (fun j => lambda * (entry x i * entry y j)) Hi).
Qed.
Lemma gram_quadratic x : quadratic n g x = 1 / sigma * sum_to N (fun k => inner n x (nth k phi []) * inner n x (nth k phi [])) + lambda * inner n x x.
Proof. unfold quadratic. rewrite gram_bilinear. f_equal. f_equal. apply sum_ext. intros k _. rewrite (inner_sym n (nth k phi []) x). ring. Qed.
Lemma gram_least x : 0 < sigma -> lambda * inner n x x <= quadratic n g x.
Proof.
  intros Hs. rewrite gram_quadratic. pose proof (sum_square_nonneg N (fun k => inner n x (nth k phi []))).
  assert (0 < 1 / sigma) by (apply Rmult_lt_0_compat; [lra|now apply Rinv_0_lt_compat]). nra.
Qed.
Lemma gram_positive : 0 < sigma -> 0 < lambda -> positive_definite n g.
Proof.
  intros Hs Hl. split; [apply gram_shape|]. split.
  - intros i j Hi Hj. rewrite !gram_coef by assumption. rewrite Nat.eqb_sym. f_equal. f_equal. apply sum_ext. intros. ring.
  - intros x Lx [i Hi]. pose proof (gram_least x Hs). pose proof (inner_nonneg n x).
    destruct (Req_dec (inner n x x) 0) as [Z|]; [|nra]. exfalso. apply Hi.
    destruct (Nat.lt_ge_cases i n) as [L|L]; [apply (sum_square_zero n (entry x) Z i L)|apply entry_over; lia].
Qed.
End Gram.

(** ** The estimate *)
Section Estimate.
Variables (la : linalg) (n : nat) (data : dataset) (lambda delta sigma bound : R).
Let phi := ds_features data.
Let y := ds_outputs data.
Let N := List.length y.
Hypotheses (S : shape N n phi) (HN : (0 < N)%nat) (Hn : (0 < n)%nat) (Hs : 0 < sigma) (Hl : 0 < lambda) (C : numpy_contract n la).
Let g := gramian phi lambda sigma.
Let theta := fst (fst (confidence_ellipsoid la data lambda delta sigma bound)).
Lemma estimate_gram : snd (fst (confidence_ellipsoid la data lambda delta sigma bound)) = g.
Proof. reflexivity. Qed.
Lemma inv_ok : inverses n g (la_inv la g).
Proof. apply C. apply (gram_positive n N); assumption. Qed.
Lemma estimate_len : List.length theta = n.
Proof.
  unfold theta, confidence_ellipsoid. cbn [fst]. rewrite len_scale, len_apply. fold phi g.
  apply (shape_mul n n N); [apply inv_ok|now apply shape_transpose|exact Hn].
Qed.
Lemma estimate_entry i : (i < n)%nat -> entry theta i = / sigma * sum_to n (fun l => coef (la_inv la g) i l * sum_to N (fun k => coef phi k l * nth k y 0)).
Proof.
  intros Hi. destruct inv_ok as (_ & Si & _). unfold theta, confidence_ellipsoid. cbn [fst]. rewrite entry_scale. f_equal. fold phi g y.
  rewrite (entry_apply n N); [|apply (shape_mul n n N); [exact Si|now apply shape_transpose|exact Hn]|reflexivity|exact Hi].
  transitivity (sum_to N (fun k => sum_to n (fun l => coef (la_inv la g) i l * (coef phi k l * nth k y 0)))).
  - apply sum_ext. intros k Hk. rewrite (coef_mul n n N) by (try assumption; now apply shape_transpose). rewrite <- sum_mulr. apply sum_ext. intros l Hll.
    rewrite (coef_transpose n N) by assumption. unfold entry. ring.
  - rewrite sum_swap. apply sum_ext. intros l Hll. rewrite sum_mul. reflexivity.
Qed.
(** The normal equations. *)
Lemma estimate_normal i : (i < n)%nat -> sum_to n (fun j => coef g i j * entry theta j) = / sigma * sum_to N (fun k => coef phi k i * nth k y 0).
Proof.
  intros Hi. set (z := fun l => sum_to N (fun k => coef phi k l * nth k y 0)).
  transitivity (/ sigma * sum_to n (fun j => coef g i j * sum_to n (fun l => coef (la_inv la g) j l * z l))).
  - rewrite <- sum_mul. apply sum_ext. intros j Hj. rewrite estimate_entry by assumption.
    change (sum_to n (fun l => coef (la_inv la g) j l * sum_to N (fun k => coef phi k l * nth k y 0))) with (sum_to n (fun l => coef (la_inv la g) j l * z l)). ring.
  - f_equal. apply (back_forth n g (la_inv la g) z i inv_ok Hi).
Qed.
Lemma estimate_weak x : List.length x = n ->
  sum_to n (fun i => sum_to n (fun j => entry x i * coef g i j * entry theta j)) = / sigma * sum_to N (fun k => inner n x (nth k phi []) * nth k y 0).
Proof.
  intros Lx. transitivity (sum_to n (fun i => entry x i * (/ sigma * sum_to N (fun k => coef phi k i * nth k y 0)))).
  - apply sum_ext. intros i Hi. rewrite <- (estimate_normal i Hi), <- sum_mul. apply sum_ext. intros; ring.
  - transitivity (/ sigma * sum_to n (fun i => sum_to N (fun k => (entry x i * coef phi k i) * nth k y 0))).
    + rewrite <- sum_mul. apply sum_ext. intros i Hi. rewrite (sum_ext N (fun k => entry x i * coef phi k i * nth k y 0) (fun k => entry x i * (coef phi k i * nth k y 0))) by (intros; ring). rewrite (sum_mul N (entry x i) (fun k => coef phi k i * nth k y 0)). ring.
    + f_equal. rewrite sum_swap. apply sum_ext. intros k Hk. rewrite sum_mulr. reflexivity.
Qed.

Lemma inner_sub a b z : List.length a = n -> List.length b = n -> inner n (lv_sub a b) z = inner n a z - inner n b z.
Proof.
  intros La Lb. unfold inner. rewrite <- sum_sub. apply sum_ext. intros i _. rewrite entry_sub by lia. ring.
Qed.
(** The excess of the regularised squared error over that of the estimate. *)
Lemma estimate_excess t : List.length t = n ->
  squared_error n data lambda sigma t - squared_error n data lambda sigma theta = quadratic n g (lv_sub t theta).
Proof.
  intros Lt. pose proof estimate_len as Lth. set (x := lv_sub t theta). assert (Lx : List.length x = n) by (unfold x; rewrite len_sub; lia).
  pose proof (estimate_weak x Lx) as W. unfold g in W. rewrite (gram_bilinear n N) in W by assumption.
  unfold g. rewrite (gram_quadratic n N) by assumption. unfold squared_error. fold phi y N.
  set (r := fun k => nth k y 0 - inner n theta (nth k phi [])). set (p := fun k => inner n x (nth k phi [])).
  assert (E1 : sum_to N (fun k => (nth k y 0 - inner n t (nth k phi [])) ^ 2) = sum_to N (fun k => r k ^ 2) - 2 * sum_to N (fun k => p k * r k) + sum_to N (fun k => p k * p k)).
  { rewrite <- sum_mul, <- sum_sub, <- sum_add. apply sum_ext. intros k _. unfold r, p, x. rewrite inner_sub by assumption. ring. }
  assert (E2 : / sigma * sum_to N (fun k => p k * r k) = lambda * inner n x theta).
  { assert (E : sum_to N (fun k => p k * r k) = sum_to N (fun k => inner n x (nth k phi []) * nth k y 0) - sum_to N (fun k => inner n x (nth k phi []) * inner n (nth k phi []) theta)).
    { rewrite <- sum_sub. apply sum_ext. intros k _. unfold p, r. rewrite (inner_sym n (nth k phi []) theta). ring. }
    rewrite E. unfold Rdiv in W. lra. }
  assert (E3 : inner n t t = inner n theta theta + 2 * inner n x theta + inner n x x).
  { assert (A : inner n x t = inner n t t - inner n theta t) by (apply inner_sub; assumption).
    assert (B : inner n x theta = inner n t theta - inner n theta theta) by (apply inner_sub; assumption).
    assert (D : inner n x x = inner n t x - inner n theta x) by (apply inner_sub; assumption).
    rewrite (inner_sym n t x), (inner_sym n theta x) in D. rewrite (inner_sym n theta t) in A. lra. }
  rewrite E1, E3. change (sum_to N (fun k => (nth k y 0 - inner n theta (nth k phi [])) ^ 2)) with (sum_to N (fun k => r k ^ 2)).
  change (sum_to N (fun k => inner n x (nth k phi []) * inner n x (nth k phi []))) with (sum_to N (fun k => p k * p k)). unfold Rdiv. lra.
Qed.
(** With noise-free data the error is small in the norm of the Gramian matrix. *)
Lemma estimate_error ts : List.length ts = n -> (forall k, (k < N)%nat -> nth k y 0 = inner n ts (nth k phi [])) ->
  let e := lv_sub theta ts in quadratic n g e <= lambda * inner n ts ts.
Proof.
  intros Ls Ey e. pose proof estimate_len as Lth. assert (Le : List.length e = n) by (unfold e; rewrite len_sub; lia).
  pose proof (estimate_weak e Le) as W. pose proof (gram_bilinear n N phi lambda sigma S HN e ts) as B. fold g in B.
  assert (Q : quadratic n g e = - lambda * inner n e ts).
  { assert (Q1 : quadratic n g e = sum_to n (fun i => sum_to n (fun j => entry e i * coef g i j * entry theta j)) - sum_to n (fun i => sum_to n (fun j => entry e i * coef g i j * entry ts j))).
    { unfold quadratic. rewrite <- sum_sub. apply sum_ext. intros i _. rewrite <- sum_sub. apply sum_ext. intros j _. unfold e at 2. rewrite entry_sub by lia. ring. }
    rewrite Q1, W, B. rewrite (sum_ext N (fun k => inner n e (nth k phi []) * nth k y 0) (fun k => inner n e (nth k phi []) * inner n (nth k phi []) ts)).
    - unfold Rdiv. ring.
    - intros k Hk. rewrite Ey by assumption. now rewrite (inner_sym n ts). }
  pose proof (gram_least n N phi lambda sigma S HN e Hs) as L. fold g in L. pose proof (inner_cauchy n e ts) as Cy.
  pose proof (inner_nonneg n e) as Pe. pose proof (inner_nonneg n ts) as Pt. rewrite Q in *.
  set (E := inner n e e) in *. set (T := inner n ts ts) in *. set (c := inner n e ts) in *. clearbody E T c.
  assert (E <= - c) by nra. assert (- c <= T); [|nra]. destruct (Rle_or_lt (- c) T) as [|Lt]; [assumption|]. exfalso.
  assert (0 <= - c) by lra. assert ((- c) * (- c) <= E * T) by nra. assert (E * T <= (- c) * T) by nra. nra.
Qed.
End Estimate.

(** ** Clipping *)
Lemma clip_len x : forall lo hi, List.length lo = List.length x -> List.length hi = List.length x -> List.length (lv_clip x lo hi) = List.length x.
Proof. induction x as [|a x IH]; intros [|l lo] [|h hi]; cbn; intros; try discriminate; auto. Qed.
Lemma clip_entry x : forall lo hi i, List.length lo = List.length x -> List.length hi = List.length x -> (i < List.length x)%nat ->
  entry (lv_clip x lo hi) i = clip1 (entry x i) (entry lo i) (entry hi i).
Proof.
  induction x as [|a x IH]; intros [|l lo] [|h hi] i; cbn; intros; try discriminate; try lia. destruct i as [|i]; [reflexivity|]. apply IH; lia.
Qed.
Lemma clip1_in x lo hi : lo <= hi -> lo <= clip1 x lo hi <= hi.
Proof. intros H. unfold clip1, Rmin, Rmax. repeat destruct (Rle_dec _ _); lra. Qed.
Lemma clip1_closer x lo hi t : lo <= t <= hi -> (clip1 x lo hi - t) * (clip1 x lo hi - t) <= (x - t) * (x - t).
Proof. intros H. unfold clip1, Rmin, Rmax. repeat destruct (Rle_dec _ _); nra. Qed.
Lemma sqrt_le_mul a b c : 0 <= c -> a * a <= b * b * c -> 0 <= b -> 0 <= a -> a <= b * sqrt c.
Proof.
  intros Hc H Hb Ha. apply Rsqr_incr_0_var; [|apply Rmult_le_pos; [exact Hb|apply sqrt_pos]]. unfold Rsqr.
  replace (b * sqrt c * (b * sqrt c)) with (b * b * (sqrt c * sqrt c)) by ring. rewrite sqrt_sqrt by exact Hc. exact H.
Qed.
Lemma box_bound_spec lo hi i : (i < List.length lo)%nat -> List.length hi = List.length lo -> Rabs (entry lo i) <= box_bound lo hi /\ Rabs (entry hi i) <= box_bound lo hi /\ 0 <= box_bound lo hi.
Proof.
  intros Hi Lh. unfold box_bound. destruct (list_max_spec (map Rabs (lo ++ hi)) 0) as [M _]. split; [|split].
  - apply M. right. apply in_map, in_or_app. left. apply nth_In. lia.
  - apply M. right. apply in_map, in_or_app. right. apply nth_In. lia.
  - apply M. now left.
Qed.
Lemma abs_square x b : Rabs x <= b -> x * x <= b * b.
Proof. intros H. pose proof (Rabs_pos x). assert (x * x = Rabs x * Rabs x) by (rewrite <- Rabs_mult; rewrite Rabs_right; [reflexivity|apply Rle_ge, Rle_0_sqr]). nra. Qed.
Lemma sum_const n c : sum_to n (fun _ => c) = INR n * c.
Proof. induction n as [|n IH]; cbn [sum_to]; [cbn; ring|]. rewrite IH, S_INR. ring. Qed.

Lemma theta_bounded n lo hi ts : boxed lo ts hi -> List.length ts = n -> inner n ts ts <= INR n * (box_bound lo hi * box_bound lo hi).
Proof.
  intros (Ll & Lh & B) L. rewrite <- sum_const. apply sum_le. intros i Hi. specialize (B i ltac:(lia)).
  destruct (box_bound_spec lo hi i ltac:(lia) ltac:(lia)) as (A1 & A2 & A3). apply abs_square.
  apply Rabs_le. revert A1 A2. unfold Rabs. destruct (Rcase_abs _), (Rcase_abs _); lra.
Qed.

(** ** Eigenvalues *)
Lemma eigen_quadratic n a v x : (forall i, (i < n)%nat -> sum_to n (fun j => coef a i j * entry x j) = v * entry x i) -> quadratic n a x = v * inner n x x.
Proof.
  intros H. unfold quadratic, inner. rewrite <- sum_mul. apply sum_ext. intros i Hi.
  transitivity (entry x i * sum_to n (fun j => coef a i j * entry x j)); [|rewrite H by assumption; ring].
  rewrite <- sum_mul. apply sum_ext. intros. ring.
Qed.
Lemma inner_positive n x : List.length x = n -> (exists i, entry x i <> 0) -> 0 < inner n x x.
Proof.
  intros L [i Hi]. pose proof (inner_nonneg n x). destruct (Req_dec (inner n x x) 0) as [Z|]; [|lra]. exfalso. apply Hi.
  destruct (Nat.lt_ge_cases i n) as [Q|Q]; [apply (sum_square_zero n (entry x) Z i Q)|apply entry_over; lia].
Qed.
Lemma gram_eigen n N phi lambda sigma v : shape N n phi -> (0 < N)%nat -> 0 < sigma -> eigenvalue n (gramian phi lambda sigma) v -> lambda <= v.
Proof.
  intros Sh HN Hs (x & Lx & NZ & E). pose proof (gram_least n N phi lambda sigma Sh HN x Hs) as G. rewrite (eigen_quadratic n _ v x E) in G.
  pose proof (inner_positive n x Lx NZ). nra.
Qed.
Lemma product_large l : forall v, 0 < v -> (forall w, In w l -> v <= w) -> v ^ List.length l <= fold_right Rmult 1 l.
Proof.
  intros v Hv. induction l as [|w l IH]; intros H; cbn; [lra|]. assert (v <= w) by (apply H; now left).
  assert (v ^ List.length l <= fold_right Rmult 1 l) by (apply IH; intros; apply H; now right). pose proof (pow_lt v (List.length l) Hv). nra.
Qed.
Lemma lv_min_in v : v <> [] -> In (lv_min v) v.
Proof.
  destruct v as [|x v]; [congruence|]. intros _. cbn [lv_min]. exact (proj2 (list_min_spec v x)).
Qed.
Lemma lv_min_le v w : In w v -> lv_min v <= w.
Proof. destruct v as [|x v]; [easy|]. intros H. cbn [lv_min]. exact (proj1 (list_min_spec v x) w H). Qed.

Lemma ellipsoid_len la n data lambda delta sigma bound : List.length (fst (fst (confidence_ellipsoid la data lambda delta sigma bound))) = n ->
  snd (confidence_ellipsoid la data lambda delta sigma bound) =
  sqrt (2 * ln (sqrt (la_det la (gramian (ds_features data) lambda sigma) / lambda ^ n) / delta)) + sqrt (lambda * INR n) * bound.
Proof. intros <-. reflexivity. Qed.

Section Consistency.
Variables (la : linalg) (n : nat) (lo hi ts : lvec).
Hypotheses (C : numpy_contract n la) (Hn : (0 < n)%nat) (B : boxed lo ts hi) (Lts : List.length ts = n).
(** The estimate, once clipped, is at a bounded distance from the true parameter. *)
Lemma clipped_error data : shape (List.length (ds_outputs data)) n (ds_features data) -> (0 < List.length (ds_outputs data))%nat ->
  (forall k, (k < List.length (ds_outputs data))%nat -> nth k (ds_outputs data) 0 = inner n ts (nth k (ds_features data) [])) ->
  let '(theta, _, g, beta) := confidence_polytope la data lo hi in
  List.length theta = n /\ (forall i, (i < n)%nat -> entry lo i <= entry theta i <= entry hi i) /\
  0 < lv_min (la_eigvals la g) /\
  lv_min (la_eigvals la g) * inner n (lv_sub theta ts) (lv_sub theta ts) <= beta * beta /\ 0 <= beta.
Proof.
  intros Sh HN E. assert (Hs : 0 < SIGMA) by (unfold SIGMA; lra). assert (Hl : 0 < LAMBDA) by (unfold LAMBDA; lra).
  unfold confidence_polytope.
  pose proof (estimate_len la n data LAMBDA DELTA SIGMA (box_bound lo hi) Sh HN Hn Hs Hl C) as Lth.
  pose proof (estimate_error la n data LAMBDA DELTA SIGMA (box_bound lo hi) Sh HN Hn Hs Hl C ts Lts E) as EE. cbn zeta in EE.
  pose proof (gram_positive n _ _ LAMBDA SIGMA Sh HN Hn Hs Hl) as GP. destruct (C _ GP) as (_ & Le & Fe & Ray & _).
  pose proof (ellipsoid_len la n data LAMBDA DELTA SIGMA (box_bound lo hi) Lth) as Eb.
  destruct (confidence_ellipsoid la data LAMBDA DELTA SIGMA (box_bound lo hi)) as [[th g] beta] eqn:Ec. cbn [fst snd] in *.
  assert (Eg : g = gramian (ds_features data) LAMBDA SIGMA) by (unfold confidence_ellipsoid in Ec; congruence). rewrite <- Eg in *.
  destruct B as (Bl & Bh & Bi).
  assert (Ll : List.length (lv_clip th lo hi) = n) by (rewrite clip_len; lia). cbv zeta.
  assert (Mpos : 0 < lv_min (la_eigvals la g)).
  { apply Rlt_le_trans with LAMBDA; [exact Hl|]. rewrite Forall_forall in Fe. rewrite Eg in Fe |- *.
    apply (gram_eigen n _ (ds_features data) LAMBDA SIGMA _ Sh HN Hs). apply Fe. rewrite <- Eg. apply lv_min_in. intros Z. rewrite Z in Le. cbn in Le. lia. }
  assert (Bp : 0 <= box_bound lo hi) by (apply (box_bound_spec lo hi 0); lia).
  split; [exact Ll|]. split; [|split; [exact Mpos|split]].
  - intros i Hi. rewrite clip_entry by lia. apply clip1_in. specialize (Bi i ltac:(lia)). lra.
  - assert (D : inner n (lv_sub (lv_clip th lo hi) ts) (lv_sub (lv_clip th lo hi) ts) <= inner n (lv_sub th ts) (lv_sub th ts)).
    { apply sum_le. intros i Hi. rewrite !entry_sub by lia. rewrite clip_entry by lia. apply clip1_closer. specialize (Bi i ltac:(lia)). lra. }
    pose proof (theta_bounded n lo hi ts (conj Bl (conj Bh Bi)) Lts) as TB.
    assert (R1 : lv_min (la_eigvals la g) * inner n (lv_sub th ts) (lv_sub th ts) <= quadratic n g (lv_sub th ts)).
    { apply Ray; [apply lv_min_le|]. rewrite len_sub; lia. }
    assert (R2 : quadratic n g (lv_sub th ts) <= LAMBDA * (INR n * (box_bound lo hi * box_bound lo hi))).
    { eapply Rle_trans; [exact EE|]. apply Rmult_le_compat_l; lra. }
    pose proof (pos_INR n) as PI.
    assert (Q : sqrt (LAMBDA * INR n) * sqrt (LAMBDA * INR n) = LAMBDA * INR n) by (apply sqrt_sqrt; nra).
    rewrite Eb. pose proof (sqrt_pos (2 * ln (sqrt (la_det la g / LAMBDA ^ n) / DELTA))) as P1. pose proof (sqrt_pos (LAMBDA * INR n)) as P2.
    set (a := sqrt (2 * ln _)) in *. set (c := sqrt (LAMBDA * INR n)) in *. set (b := box_bound lo hi) in *.
    assert (R3 : LAMBDA * (INR n * (b * b)) = (c * b) * (c * b)) by (replace (c * b * (c * b)) with (c * c * (b * b)) by ring; rewrite Q; ring).
    assert (0 <= c * b) by nra. assert ((c * b) * (c * b) <= (a + c * b) * (a + c * b)) by nra.
    assert (lv_min (la_eigvals la g) * inner n (lv_sub (lv_clip th lo hi) ts) (lv_sub (lv_clip th lo hi) ts) <= lv_min (la_eigvals la g) * inner n (lv_sub th ts) (lv_sub th ts)) by (apply Rmult_le_compat_l; lra).
    lra.
  - rewrite Eb. pose proof (sqrt_pos (2 * ln (sqrt (la_det la g / LAMBDA ^ n) / DELTA))). pose proof (sqrt_pos (LAMBDA * INR n)). nra.
Qed.
Lemma valid_next phi theta g beta : List.length phi = n -> List.length theta = n -> 0 < lv_min (la_eigvals la g) ->
  lv_min (la_eigvals la g) * inner n (lv_sub theta ts) (lv_sub theta ts) <= beta * beta -> 0 <= beta ->
  is_valid_observation la (inner n ts phi) phi theta g beta = true.
Proof.
  intros Lp Lt Hm He Hb. unfold is_valid_observation. rewrite (dot_inner n), (dot_inner n phi phi) by assumption. apply Rltb_true.
  set (m := lv_min _) in *. set (P := inner n phi phi). pose proof (inner_nonneg n phi) as HP. fold P in HP.
  assert (A : Rabs (inner n ts phi - inner n theta phi) <= sqrt (P / m) * beta); [|unfold SIGMA; lra].
  rewrite Rmult_comm. assert (HPm : 0 <= P / m) by (apply Rmult_le_pos; [exact HP|left; now apply Rinv_0_lt_compat]).
  apply sqrt_le_mul; [exact HPm| |exact Hb|apply Rabs_pos].
  rewrite <- Rabs_mult, Rabs_right by (apply Rle_ge, Rle_0_sqr).
  pose proof (inner_cauchy n (lv_sub theta ts) phi) as Cy.
  assert (Es : inner n (lv_sub theta ts) phi = inner n theta phi - inner n ts phi).
  { unfold inner. rewrite <- sum_sub. apply sum_ext. intros i _. rewrite entry_sub by lia. ring. }
  rewrite Es in Cy. fold P in Cy. set (e := inner n (lv_sub theta ts) (lv_sub theta ts)) in *.
  replace ((inner n ts phi - inner n theta phi) * (inner n ts phi - inner n theta phi)) with ((inner n theta phi - inner n ts phi) ^ 2) by ring.
  apply Rle_trans with (e * P); [exact Cy|]. replace (e * P) with (m * e * (P / m)) by (field; lra).
  apply Rmult_le_compat_r; assumption.
Qed.
End Consistency.
