(** Proofs about interval arithmetic and interval predictors (interval.py). *)
From Verif Require Import Prelude M_Lane M_Interval S_Interval P_Base.
From Coq Require Import Lra Lia Psatz.
Open Scope R_scope.

(** ** Scalars *)
Lemma pos_neg x : x = pos_part x - neg_part x /\ 0 <= pos_part x /\ 0 <= neg_part x.
Proof. unfold pos_part, neg_part, Rmax. repeat destruct (Rle_dec _ _); lra. Qed.
Lemma pos_mono x y : x <= y -> pos_part x <= pos_part y.
Proof. unfold pos_part, Rmax. repeat destruct (Rle_dec _ _); lra. Qed.
Lemma neg_mono x y : x <= y -> neg_part y <= neg_part x.
Proof. unfold neg_part, Rmax. repeat destruct (Rle_dec _ _); lra. Qed.
Lemma product_sound a b x y : fst a <= x <= snd a -> fst b <= y <= snd b ->
  fst (intervals_product a b) <= x * y <= snd (intervals_product a b).
Proof.
  intros [A0 A1] [B0 B1]. unfold intervals_product, intervals_product_with. cbn [fst snd].
  destruct (pos_neg x) as (X & PX & NX), (pos_neg y) as (Y & PY & NY). rewrite X at 1 2. rewrite Y.
  pose proof (pos_mono _ _ A0). pose proof (pos_mono _ _ A1). pose proof (pos_mono _ _ B0). pose proof (pos_mono _ _ B1).
  pose proof (neg_mono _ _ A0). pose proof (neg_mono _ _ A1). pose proof (neg_mono _ _ B0). pose proof (neg_mono _ _ B1).
  destruct (pos_neg (fst a)) as (_ & ? & ?), (pos_neg (snd a)) as (_ & ? & ?), (pos_neg (fst b)) as (_ & ? & ?), (pos_neg (snd b)) as (_ & ? & ?).
  assert (forall u v u' v', 0 <= u <= u' -> 0 <= v <= v' -> u * v <= u' * v') as M by (intros; apply Rmult_le_compat; lra).
  pose proof (M (pos_part (fst a)) (pos_part (fst b)) (pos_part x) (pos_part y) ltac:(lra) ltac:(lra)).
  pose proof (M (pos_part x) (neg_part y) (pos_part (snd a)) (neg_part (fst b)) ltac:(lra) ltac:(lra)).
  pose proof (M (neg_part x) (pos_part y) (neg_part (fst a)) (pos_part (snd b)) ltac:(lra) ltac:(lra)).
  pose proof (M (neg_part (snd a)) (neg_part (snd b)) (neg_part x) (neg_part y) ltac:(lra) ltac:(lra)).
  pose proof (M (pos_part x) (pos_part y) (pos_part (snd a)) (pos_part (snd b)) ltac:(lra) ltac:(lra)).
  pose proof (M (pos_part (fst a)) (neg_part (snd b)) (pos_part x) (neg_part y) ltac:(lra) ltac:(lra)).
  pose proof (M (neg_part (snd a)) (pos_part (fst b)) (neg_part x) (pos_part y) ltac:(lra) ltac:(lra)).
  pose proof (M (neg_part x) (neg_part y) (neg_part (fst a)) (neg_part (fst b)) ltac:(lra) ltac:(lra)).
  lra.
Qed.
Lemma product_exact a b : fst a <= snd a -> fst b <= snd b ->
  (is_range (fun z => exists x y, fst a <= x <= snd a /\ fst b <= y <= snd b /\ z = x * y) (intervals_product a b) <->
   ~ (fst a < 0 < snd a /\ fst b < 0 < snd b)).
Proof.
  destruct a as [a0 a1], b as [b0 b1]. cbn [fst snd]. intros Ha Hb. split.
  - intros (_ & (x & y & Hx & Hy & E) & _) [HA HB]. revert E. unfold intervals_product, intervals_product_with, pos_part, neg_part. cbn [fst snd].
    rewrite !(Rmax_right a0), !(Rmax_right b0), !(Rmax_left a1), !(Rmax_left b1), !(Rmax_left (- a0)), !(Rmax_left (- b0)), !(Rmax_right (- a1)), !(Rmax_right (- b1)) by lra.
    intros E. assert (E' : x * y = a1 * b0 + a0 * b1) by lra. clear E.
    destruct (Rle_lt_dec 0 y) as [Py|Py]; destruct (Rle_lt_dec 0 x) as [Px|Px]; nra.
  - intros N. split; [|split].
    + intros z (x & y & Hx & Hy & ->). exact (product_sound (a0, a1) (b0, b1) x y Hx Hy).
    + unfold intervals_product, intervals_product_with, pos_part, neg_part. cbn [fst snd].
      assert (forall x y, a0 <= x <= a1 -> b0 <= y <= b1 -> forall t, t = x * y -> exists x y, a0 <= x <= a1 /\ b0 <= y <= b1 /\ t = x * y) as W by (intros x y ? ? t ?; exists x, y; auto).
      unfold Rmax. repeat destruct (Rle_dec _ _); try lra;
      solve [apply (W a0 b0); lra | apply (W a0 b1); lra | apply (W a1 b0); lra | apply (W a1 b1); lra |
             exfalso; lra | assert (a0 = 0) by lra; apply (W a0 b0); nra | assert (a1 = 0) by lra; apply (W a1 b0); nra |
             assert (b0 = 0) by lra; apply (W a0 b0); nra | assert (b1 = 0) by lra; apply (W a0 b1); nra | exfalso; apply N; lra ].
    + unfold intervals_product, intervals_product_with, pos_part, neg_part. cbn [fst snd].
      assert (forall x y, a0 <= x <= a1 -> b0 <= y <= b1 -> forall t, t = x * y -> exists x y, a0 <= x <= a1 /\ b0 <= y <= b1 /\ t = x * y) as W by (intros x y ? ? t ?; exists x, y; auto).
      unfold Rmax. repeat destruct (Rle_dec _ _); try lra;
      solve [apply (W a0 b0); lra | apply (W a0 b1); lra | apply (W a1 b0); lra | apply (W a1 b1); lra |
             exfalso; lra | assert (a0 = 0) by lra; apply (W a0 b0); nra | assert (a1 = 0) by lra; apply (W a1 b0); nra |
             assert (b0 = 0) by lra; apply (W a0 b0); nra | assert (b1 = 0) by lra; apply (W a0 b1); nra | exfalso; apply N; lra ].
Qed.

(** ** Entries of list operations *)
Lemma map2_length {A B C} (f : A -> B -> C) a b : List.length a = List.length b -> List.length (map2 f a b) = List.length a.
Proof. revert b. induction a as [|x a IH]; intros [|y b]; cbn; intros H; try lia. rewrite IH; lia. Qed.
Lemma map2_nth {A B C} (f : A -> B -> C) a b i da db dc : List.length a = List.length b -> (i < List.length a)%nat ->
  nth i (map2 f a b) dc = f (nth i a da) (nth i b db).
Proof.
  revert b i. induction a as [|x a IH]; intros [|y b] i; cbn [List.length map2]; intros H L; try lia. destruct i as [|i]; cbn; [reflexivity|].
  apply IH; lia.
Qed.
Lemma entry_over x i : (List.length x <= i)%nat -> entry x i = 0.
Proof. intros H. unfold entry. now apply nth_overflow. Qed.
Lemma entry_add a b i : List.length a = List.length b -> entry (lv_add a b) i = entry a i + entry b i.
Proof.
  intros H. destruct (Nat.lt_ge_cases i (List.length a)) as [L|L].
  - unfold entry, lv_add. now apply map2_nth.
  - rewrite !entry_over; [lra|lia|lia|unfold lv_add; rewrite map2_length; lia].
Qed.
Lemma entry_sub a b i : List.length a = List.length b -> entry (lv_sub a b) i = entry a i - entry b i.
Proof.
  intros H. destruct (Nat.lt_ge_cases i (List.length a)) as [L|L].
  - unfold entry, lv_sub. now apply map2_nth.
  - rewrite !entry_over; [lra|lia|lia|unfold lv_sub; rewrite map2_length; lia].
Qed.
Lemma len_add a b : List.length a = List.length b -> List.length (lv_add a b) = List.length a.
Proof. apply map2_length. Qed.
Lemma len_sub a b : List.length a = List.length b -> List.length (lv_sub a b) = List.length a.
Proof. apply map2_length. Qed.
Lemma len_scale c a : List.length (lv_scale c a) = List.length a.
Proof. apply map_length. Qed.
Lemma len_apply a x : List.length (lm_apply a x) = List.length a.
Proof. apply map_length. Qed.
Lemma entry_map (f : R -> R) x i : f 0 = 0 -> entry (map f x) i = f (entry x i).
Proof. intros H. unfold entry. rewrite <- H at 1. apply map_nth. Qed.
Lemma pos0 : pos_part 0 = 0. Proof. unfold pos_part. apply Rmax_left. lra. Qed.
Lemma neg0 : neg_part 0 = 0. Proof. unfold neg_part. rewrite Ropp_0. apply Rmax_left. lra. Qed.
Lemma entry_pos x i : entry (map pos_part x) i = pos_part (entry x i). Proof. apply entry_map, pos0. Qed.
Lemma entry_neg x i : entry (map neg_part x) i = neg_part (entry x i). Proof. apply entry_map, neg0. Qed.
Lemma entry_scale c x i : entry (lv_scale c x) i = c * entry x i.
Proof. unfold lv_scale. rewrite entry_map; [reflexivity | ring]. Qed.
Lemma sum_ext n f g : (forall i, (i < n)%nat -> f i = g i) -> sum_to n f = sum_to n g.
Proof. induction n as [|n IH]; intros H; cbn; [reflexivity|]. rewrite IH by (intros; apply H; lia). rewrite H by lia. reflexivity. Qed.
Lemma sum_le n f g : (forall i, (i < n)%nat -> f i <= g i) -> sum_to n f <= sum_to n g.
Proof. induction n as [|n IH]; intros H; cbn; [lra|]. apply Rplus_le_compat; [apply IH; intros; apply H; lia | apply H; lia]. Qed.
Lemma sum_add n f g : sum_to n (fun i => f i + g i) = sum_to n f + sum_to n g.
Proof. induction n as [|n IH]; cbn; [ring|]. rewrite IH. ring. Qed.
Lemma sum_sub n f g : sum_to n (fun i => f i - g i) = sum_to n f - sum_to n g.
Proof. induction n as [|n IH]; cbn; [ring|]. rewrite IH. ring. Qed.
Lemma sum_mul n c f : sum_to n (fun i => c * f i) = c * sum_to n f.
Proof. induction n as [|n IH]; cbn; [ring|]. rewrite IH. ring. Qed.
Lemma sum_mulr n c f : sum_to n (fun i => f i * c) = sum_to n f * c.
Proof. induction n as [|n IH]; cbn; [ring|]. rewrite IH. ring. Qed.
Lemma sum_zero n f : (forall i, (i < n)%nat -> f i = 0) -> sum_to n f = 0.
Proof. intros H. induction n as [|n IH]; cbn; [reflexivity|]. rewrite H by lia. rewrite IH; [ring | intros; apply H; lia]. Qed.
Lemma sum_shift n f : sum_to (S n) f = f O + sum_to n (fun i => f (S i)).
Proof. induction n as [|n IH]; [cbn; ring|]. change (sum_to (S (S n)) f) with (sum_to (S n) f + f (S n)). rewrite IH. cbn. ring. Qed.
Lemma dot_sum a b n : List.length a = n -> List.length b = n -> lv_dot a b = sum_to n (fun j => entry a j * entry b j).
Proof.
  revert a b. induction n as [|n IH]; intros [|x a] [|y b] A B; try discriminate; [reflexivity|]. rewrite sum_shift. cbn in A, B. cbn [lv_dot].
  rewrite (IH a b) by lia. reflexivity.
Qed.
Lemma shape_row n m a i : shape n m a -> (i < n)%nat -> List.length (nth i a []) = m.
Proof. intros [L F] H. rewrite Forall_forall in F. apply F. apply nth_In. lia. Qed.
Lemma coef_entry a i j : coef a i j = entry (nth i a []) j.
Proof. reflexivity. Qed.
Lemma entry_apply n m a x i : shape n m a -> List.length x = m -> (i < n)%nat -> entry (lm_apply a x) i = sum_to m (fun j => coef a i j * entry x j).
Proof.
  intros Sh L H. unfold entry, lm_apply. rewrite (nth_indep _ 0 (lv_dot [] x)) by (rewrite map_length; destruct Sh; lia).
  rewrite (map_nth (fun row => lv_dot row x)). apply dot_sum; [now apply (shape_row n m) | assumption].
Qed.
Lemma coef_map (f : R -> R) a i j : f 0 = 0 -> coef (map (map f) a) i j = f (coef a i j).
Proof.
  intros H. unfold coef. change (@nil R) with (map f []) at 1. rewrite map_nth. exact (entry_map f _ j H).
Qed.
Lemma shape_map (f : R -> R) n m a : shape n m a -> shape n m (map (map f) a).
Proof. intros [L F]. split; [now rewrite map_length|]. apply Forall_map. eapply Forall_impl; [|exact F]. intros r E. cbn. now rewrite map_length. Qed.
Lemma coef_pos a i j : coef (map (map pos_part) a) i j = pos_part (coef a i j). Proof. apply coef_map, pos0. Qed.
Lemma coef_neg a i j : coef (map (map neg_part) a) i j = neg_part (coef a i j). Proof. apply coef_map, neg0. Qed.
Lemma shape_add n m a b : shape n m a -> shape n m b -> shape n m (lm_add a b).
Proof.
  intros [L F] [L' F']. split; [unfold lm_add; rewrite map2_length; lia|].
  assert (Q : List.length a = List.length b) by lia. clear L L'. revert b F' Q. induction a as [|r a IH]; intros [|s b] F' Q; try discriminate; constructor.
  - inversion F; inversion F'; subst. rewrite len_add; congruence.
  - inversion F; inversion F'; subst. apply IH; auto.
Qed.
Lemma shape_sub n m a b : shape n m a -> shape n m b -> shape n m (lm_sub a b).
Proof.
  intros [L F] [L' F']. split; [unfold lm_sub; rewrite map2_length; lia|].
  assert (Q : List.length a = List.length b) by lia. clear L L'. revert b F' Q. induction a as [|r a IH]; intros [|s b] F' Q; try discriminate; constructor.
  - inversion F; inversion F'; subst. rewrite len_sub; congruence.
  - inversion F; inversion F'; subst. apply IH; auto.
Qed.
Lemma coef_add n m a b i j : shape n m a -> shape n m b -> (i < n)%nat -> coef (lm_add a b) i j = coef a i j + coef b i j.
Proof.
  intros A B H. unfold coef, lm_add. rewrite (map2_nth lv_add a b i [] [] []) by (destruct A, B; lia).
  apply entry_add. rewrite (shape_row n m a), (shape_row n m b); auto.
Qed.
Lemma coef_sub n m a b i j : shape n m a -> shape n m b -> (i < n)%nat -> coef (lm_sub a b) i j = coef a i j - coef b i j.
Proof.
  intros A B H. unfold coef, lm_sub. rewrite (map2_nth lv_sub a b i [] [] []) by (destruct A, B; lia).
  apply entry_sub. rewrite (shape_row n m a), (shape_row n m b); auto.
Qed.
Lemma coef_scale c a i j : coef (lm_scale c a) i j = c * coef a i j.
Proof. unfold lm_scale, lv_scale. rewrite coef_map; [reflexivity | ring]. Qed.
Lemma shape_scale n m c a : shape n m a -> shape n m (lm_scale c a).
Proof. apply shape_map. Qed.
Lemma fold_add_shape n m l m0 : shape n m m0 -> Forall (shape n m) l -> shape n m (fold_left lm_add l m0).
Proof. revert m0. induction l as [|x l IH]; intros m0 H F; [exact H|]. inversion F; subst. cbn. apply IH; [now apply shape_add | assumption]. Qed.
Lemma fold_add_coef n m l m0 i j : shape n m m0 -> Forall (shape n m) l -> (i < n)%nat ->
  coef (fold_left lm_add l m0) i j = coef m0 i j + sum_to (List.length l) (fun k => coef (nth k l []) i j).
Proof.
  revert m0. induction l as [|x l IH]; intros m0 H F Hi; [cbn [fold_left List.length sum_to]; symmetry; apply Rplus_0_r|]. inversion F; subst. cbn [fold_left List.length]. rewrite IH by (try apply shape_add; assumption).
  rewrite (coef_add n m) by assumption. rewrite sum_shift. cbn [nth]. apply Rplus_assoc.
Qed.
Lemma sum_shape n m l : l <> [] -> Forall (shape n m) l -> shape n m (lm_sum l).
Proof. destruct l as [|x l]; [easy|]. intros _ F. inversion F; subst. now apply fold_add_shape. Qed.
Lemma sum_coef n m l i j : l <> [] -> Forall (shape n m) l -> (i < n)%nat -> coef (lm_sum l) i j = sum_to (List.length l) (fun k => coef (nth k l []) i j).
Proof. destruct l as [|x l]; [easy|]. intros _ F Hi. inversion F; subst. unfold lm_sum. rewrite (fold_add_coef n m) by assumption. cbn [List.length]. rewrite sum_shift. reflexivity. Qed.

(** ** Products of vectors and matrices *)
Lemma product_mv_entry n m a b i : shape n m (fst a) -> shape n m (snd a) -> List.length (fst b) = m -> List.length (snd b) = m -> (i < n)%nat ->
  entry (fst (intervals_product_mv a b)) i = sum_to m (fun j => fst (intervals_product (coef (fst a) i j, coef (snd a) i j) (entry (fst b) j, entry (snd b) j))) /\
  entry (snd (intervals_product_mv a b)) i = sum_to m (fun j => snd (intervals_product (coef (fst a) i j, coef (snd a) i j) (entry (fst b) j, entry (snd b) j))) /\
  List.length (fst (intervals_product_mv a b)) = n /\ List.length (snd (intervals_product_mv a b)) = n.
Proof.
  intros A0 A1 B0 B1 Hi. unfold intervals_product_mv, intervals_product, intervals_product_with. cbn [fst snd].
  assert (L0 : List.length (fst a) = n) by apply A0. assert (L1 : List.length (snd a) = n) by apply A1.
  split; [|split; [|split; repeat (rewrite len_add || rewrite len_sub); rewrite ?len_apply, ?map_length; congruence]].
  - repeat (rewrite entry_add || rewrite entry_sub); try (repeat (rewrite len_add || rewrite len_sub); rewrite ?len_apply, ?map_length; congruence).
    rewrite !(entry_apply n m) by (try apply shape_map; try rewrite map_length; assumption). rewrite <- !sum_sub, <- sum_add. apply sum_ext. intros j _.
    rewrite !coef_pos, !coef_neg, !entry_pos, !entry_neg. reflexivity.
  - repeat (rewrite entry_add || rewrite entry_sub); try (repeat (rewrite len_add || rewrite len_sub); rewrite ?len_apply, ?map_length; congruence).
    rewrite !(entry_apply n m) by (try apply shape_map; try rewrite map_length; assumption). rewrite <- !sum_sub, <- sum_add. apply sum_ext. intros j _.
    rewrite !coef_pos, !coef_neg, !entry_pos, !entry_neg. reflexivity.
Qed.
Lemma product_vv_sound a b x y : List.length y = List.length x -> boxed (fst a) x (snd a) -> boxed (fst b) y (snd b) ->
  fst (intervals_product_vv a b) <= sum_to (List.length x) (fun j => entry x j * entry y j) <= snd (intervals_product_vv a b).
Proof.
  intros L (A0 & A1 & A) (B0 & B1 & B). set (n := List.length x) in *. unfold intervals_product_vv, intervals_product_with. cbn [fst snd].
  rewrite !(dot_sum _ _ n) by (rewrite map_length; lia). rewrite <- !sum_sub, <- !sum_add.
  assert (P : forall j, (j < n)%nat -> _) by (intros j Hj; exact (product_sound (entry (fst a) j, entry (snd a) j) (entry (fst b) j, entry (snd b) j) _ _ (A j Hj) (B j ltac:(lia)))).
  split; apply sum_le; intros j Hj; rewrite !entry_pos, !entry_neg; apply (P j Hj).
Qed.
Lemma boxed_len_l lo x hi n : boxed lo x hi -> List.length x = n -> List.length lo = n /\ List.length hi = n.
Proof. intros (A & B & _) H. lia. Qed.
Lemma product_mv_sound n m a b A x : mboxed n m (fst a) A (snd a) -> List.length x = m -> boxed (fst b) x (snd b) ->
  List.length (fst (intervals_product_mv a b)) = n /\ List.length (snd (intervals_product_mv a b)) = n /\
  forall i, (i < n)%nat -> entry (fst (intervals_product_mv a b)) i <= sum_to m (fun j => coef A i j * entry x j) <= entry (snd (intervals_product_mv a b)) i.
Proof.
  intros (S0 & SA & S1 & HA) Lx Hx. destruct (boxed_len_l _ _ _ _ Hx Lx) as [L0 L1]. destruct Hx as (_ & _ & Hx).
  assert (L0' : List.length (fst a) = n) by apply S0. assert (L1' : List.length (snd a) = n) by apply S1.
  split; [|split].
  - unfold intervals_product_mv, intervals_product_with. cbn [fst snd]. repeat (rewrite len_add || rewrite len_sub); rewrite ?len_apply, ?map_length; congruence.
  - unfold intervals_product_mv, intervals_product_with. cbn [fst snd]. repeat (rewrite len_add || rewrite len_sub); rewrite ?len_apply, ?map_length; congruence.
  - intros i Hi. destruct (product_mv_entry n m a b i S0 S1 L0 L1 Hi) as (E0 & E1 & _). rewrite E0, E1.
    split; apply sum_le; intros j Hj; apply product_sound; cbn [fst snd]; solve [apply HA; assumption | apply Hx; lia].
Qed.
Lemma scaling_entry n m a b i : shape n m a -> List.length (fst b) = m -> List.length (snd b) = m -> (i < n)%nat ->
  entry (fst (intervals_scaling a b)) i = sum_to m (fun j => pos_part (coef a i j) * entry (fst b) j - neg_part (coef a i j) * entry (snd b) j) /\
  entry (snd (intervals_scaling a b)) i = sum_to m (fun j => pos_part (coef a i j) * entry (snd b) j - neg_part (coef a i j) * entry (fst b) j).
Proof.
  intros Sa B0 B1 Hi. unfold intervals_scaling. cbn [fst snd]. rewrite !entry_sub by (rewrite !len_apply, !map_length; reflexivity).
  rewrite !(entry_apply n m) by (try apply shape_map; assumption). rewrite <- !sum_sub.
  split; apply sum_ext; intros j _; rewrite coef_pos, coef_neg; reflexivity.
Qed.

(** ** The naive predictor *)
Lemma product_sm_coef n m s a i j : shape n m (fst a) -> shape n m (snd a) -> (i < n)%nat ->
  coef (fst (intervals_product_sm s a)) i j = fst (intervals_product s (coef (fst a) i j, coef (snd a) i j)) /\
  coef (snd (intervals_product_sm s a)) i j = snd (intervals_product s (coef (fst a) i j, coef (snd a) i j)).
Proof.
  intros A0 A1 Hi. unfold intervals_product_sm, intervals_product, intervals_product_with. cbn [fst snd].
  assert (forall f b, shape n m b -> shape n m (map (map f) b)) as M by (intros; now apply shape_map).
  assert (forall c b, shape n m b -> shape n m (lm_scale c b)) as Sc by (intros; now apply shape_scale).
  assert (forall b c, shape n m b -> shape n m c -> shape n m (lm_sub b c)) as Su by (intros; now apply shape_sub).
  split; rewrite (coef_add n m), !(coef_sub n m) by auto 8; rewrite !coef_scale, !coef_pos, !coef_neg; reflexivity.
Qed.
Lemma product_sm_shape n m s a : shape n m (fst a) -> shape n m (snd a) ->
  shape n m (fst (intervals_product_sm s a)) /\ shape n m (snd (intervals_product_sm s a)).
Proof.
  intros A0 A1. unfold intervals_product_sm, intervals_product_with. cbn [fst snd].
  assert (forall f b, shape n m b -> shape n m (map (map f) b)) as M by (intros; now apply shape_map).
  assert (forall c b, shape n m b -> shape n m (lm_scale c b)) as Sc by (intros; now apply shape_scale).
  assert (forall b c, shape n m b -> shape n m c -> shape n m (lm_sub b c)) as Su by (intros; now apply shape_sub).
  split; apply shape_add; auto 8.
Qed.
Lemma boxed_intro n lo x hi : List.length lo = n -> List.length x = n -> List.length hi = n ->
  (forall i, (i < n)%nat -> entry lo i <= entry x i <= entry hi i) -> boxed lo x hi.
Proof. intros A B C H. split; [lia|]. split; [lia|]. rewrite B. exact H. Qed.
Lemma nth_map_in {A B} (f : A -> B) l k da db : (k < List.length l)%nat -> nth k (map f l) db = f (nth k l da).
Proof. intros H. rewrite (nth_indep _ db (f da)) by now rewrite map_length. apply map_nth. Qed.
Lemma Forall_nth' {A} (P : A -> Prop) l k d : Forall P l -> (k < List.length l)%nat -> P (nth k l d).
Proof. intros F H. rewrite Forall_forall in F. apply F, nth_In, H. Qed.
Definition mixed (a0 : lmat) (da : list lmat) (lambda : lvec) (i j : nat) : R :=
  coef a0 i j + sum_to (List.length da) (fun k => entry lambda k * coef (nth k da []) i j).
Lemma mul_dt_le dt a b c d : 0 <= dt -> a <= b -> c <= d -> a + dt * c <= b + dt * d.
Proof. intros. nra. Qed.
Lemma product_mv_len n m a b : shape n m (fst a) -> shape n m (snd a) ->
  List.length (fst (intervals_product_mv a b)) = n /\ List.length (snd (intervals_product_mv a b)) = n.
Proof.
  intros [L0 _] [L1 _]. unfold intervals_product_mv, intervals_product_with. cbn [fst snd].
  split; repeat (rewrite len_add || rewrite len_sub); rewrite ?len_apply, ?map_length; congruence.
Qed.
Lemma naive_sound n q m a0 da b d omega u xi dt x x' :
  shape n n a0 -> Forall (shape n n) da -> da <> [] -> shape n q d -> shape n m b -> List.length u = m -> 0 <= dt ->
  boxed (fst xi) x (snd xi) -> follows n q m a0 da b d omega u dt x x' ->
  boxed (fst (naive_step a0 da b d omega u xi dt)) x' (snd (naive_step a0 da b d omega u xi dt)).
Proof.
  intros Sa Fd Nd Sd Sb Lu Hdt Hx (Lx & Lx' & lam & w & Ll & Hl & Lw & Hw & E).
  set (parts := map (fun k => intervals_product_sm (0, 1) (k, k)) da).
  assert (F0 : Forall (shape n n) (map fst parts)).
  { unfold parts. rewrite map_map, Forall_map. eapply Forall_impl; [|exact Fd]. intros k Hk. now apply product_sm_shape. }
  assert (F1 : Forall (shape n n) (map snd parts)).
  { unfold parts. rewrite map_map, Forall_map. eapply Forall_impl; [|exact Fd]. intros k Hk. now apply product_sm_shape. }
  assert (N0 : map fst parts <> [] /\ map snd parts <> []) by (unfold parts; destruct da; [easy | split; discriminate]). destruct N0 as [N0 N1].
  pose proof (sum_shape n n _ N0 F0) as S0. pose proof (sum_shape n n _ N1 F1) as S1.
  set (lo := lm_add a0 (lm_sum (map fst parts))). set (hi := lm_add a0 (lm_sum (map snd parts))).
  assert (Slo : shape n n lo) by now apply shape_add. assert (Shi : shape n n hi) by now apply shape_add.
  assert (B : forall i j, (i < n)%nat -> coef lo i j <= mixed a0 da lam i j <= coef hi i j).
  { intros i j Hi. unfold lo, hi, mixed. rewrite !(coef_add n n), !(sum_coef n n) by assumption. unfold parts. rewrite !map_length.
    assert (forall k, (k < List.length da)%nat -> coef (nth k (map fst (map (fun k => intervals_product_sm (0, 1) (k, k)) da)) []) i j <= entry lam k * coef (nth k da []) i j
        <= coef (nth k (map snd (map (fun k => intervals_product_sm (0, 1) (k, k)) da)) []) i j) as K.
    { intros k Hk. rewrite !map_map. rewrite !(nth_map_in _ da k []) by exact Hk. pose proof (Forall_nth' _ _ k [] Fd Hk) as Sk.
      destruct (product_sm_coef n n (0, 1) (nth k da [], nth k da []) i j Sk Sk Hi) as [-> ->]. cbn [fst snd]. apply product_sound; cbn [fst snd]; [apply Hl; exact Hk | lra]. }
    split; apply Rplus_le_compat_l, sum_le; intros k Hk; apply (K k Hk). }
  destruct (boxed_len_l _ _ _ n Hx Lx) as [L0 L1]. destruct (boxed_len_l _ _ _ q Hw Lw) as [W0 W1]. destruct Hx as (_ & _ & Hx). rewrite Lx in Hx.
  assert (Ld : List.length d = n) by apply Sd. assert (Lb : List.length b = n) by apply Sb.
  unfold naive_step. fold parts lo hi. cbn [fst snd].
  destruct (product_mv_len n n (lo, hi) xi Slo Shi) as [P0 P1]. destruct (product_mv_len n q (d, d) omega Sd Sd) as [Q0 Q1].
  apply (boxed_intro n).
  - rewrite len_add; [exact L0|]. rewrite len_scale. repeat (rewrite len_add); rewrite ?len_apply; congruence.
  - exact Lx'.
  - rewrite len_add; [exact L1|]. rewrite len_scale. repeat (rewrite len_add); rewrite ?len_apply; congruence.
  - intros i Hi. rewrite (E i Hi). clear P0 P1 Q0 Q1.
    destruct (product_mv_entry n n (lo, hi) xi i Slo Shi L0 L1 Hi) as (E0 & E1 & P0 & P1).
    destruct (product_mv_entry n q (d, d) omega i Sd Sd W0 W1 Hi) as (F0' & F1' & Q0 & Q1).
    assert (T : forall j, (j < n)%nat -> _) by (intros j Hj; exact (product_sound (coef lo i j, coef hi i j) (entry (fst xi) j, entry (snd xi) j) _ _ (B i j Hi) (Hx j Hj))).
    destruct Hw as (_ & _ & Hw). rewrite Lw in Hw.
    assert (V : forall j, (j < q)%nat -> _) by (intros j Hj; exact (product_sound (coef d i j, coef d i j) (entry (fst omega) j, entry (snd omega) j) (coef d i j) _ (conj (Rle_refl _) (Rle_refl _)) (Hw j Hj))).
    assert (LP : List.length (lv_add (fst (intervals_product_mv (lo, hi) xi)) (fst (intervals_product_mv (d, d) omega))) = n) by (rewrite len_add; congruence).
    assert (LQ : List.length (lv_add (snd (intervals_product_mv (lo, hi) xi)) (snd (intervals_product_mv (d, d) omega))) = n) by (rewrite len_add; congruence).
    assert (Bu : List.length (lm_apply b u) = n) by (rewrite len_apply; exact Lb).
    rewrite !entry_add; try congruence; try (rewrite len_scale, len_add; congruence). rewrite !entry_scale, !entry_add by congruence.
    rewrite E0, E1, F0', F1', (entry_apply n m b u i Sb Lu Hi). cbn [fst snd].
    split; apply mul_dt_le; try (apply Hx; exact Hi); try exact Hdt; apply Rplus_le_compat_r, Rplus_le_compat; apply sum_le; intros j Hj;
      solve [apply (T j Hj) | apply (V j Hj)].
Qed.

(** ** The Metzler predictor *)
Lemma sum_delta n i f : (i < n)%nat -> sum_to n (fun j => if Nat.eqb i j then f j else 0) = f i.
Proof.
  induction n as [|n IH]; intros H; [lia|]. cbn [sum_to]. destruct (Nat.eqb_spec i n) as [->|Ne].
  - rewrite sum_zero; [ring|]. intros j Hj. destruct (Nat.eqb_spec n j); [lia | reflexivity].
  - rewrite IH by lia. ring.
Qed.
Lemma metzler_monotone n a0 dt lo x i : (forall j, (j < n)%nat -> i <> j -> 0 <= coef a0 i j) -> 0 <= 1 + dt * coef a0 i i -> 0 <= dt -> (i < n)%nat ->
  (forall j, (j < n)%nat -> entry lo j <= entry x j) ->
  entry lo i + dt * sum_to n (fun j => coef a0 i j * entry lo j) <= entry x i + dt * sum_to n (fun j => coef a0 i j * entry x j).
Proof.
  intros M D Hdt Hi Le. rewrite <- (sum_delta n i (entry lo) Hi), <- (sum_delta n i (entry x) Hi), <- !sum_mul, <- !sum_add. apply sum_le. intros j Hj.
  pose proof (Le j Hj). destruct (Nat.eqb_spec i j) as [->|Ne].
  - replace (entry lo j + dt * (coef a0 j j * entry lo j)) with ((1 + dt * coef a0 j j) * entry lo j) by ring.
    replace (entry x j + dt * (coef a0 j j * entry x j)) with ((1 + dt * coef a0 j j) * entry x j) by ring. now apply Rmult_le_compat_l.
  - pose proof (M j Hj Ne). rewrite !Rplus_0_l. apply Rmult_le_compat_l; [exact Hdt|]. now apply Rmult_le_compat_l.
Qed.
Lemma drift_bounds lam c lo x hi : 0 <= lam <= 1 -> lo <= x <= hi ->
  - pos_part c * neg_part lo - neg_part c * pos_part hi <= lam * c * x <= pos_part c * pos_part hi + neg_part c * neg_part lo.
Proof.
  intros Hl [H0 H1]. destruct (pos_neg c) as (C & PC & NC). pose proof (product_sound (- neg_part c, pos_part c) (lo, hi) (lam * c) x) as P. cbn [fst snd] in P.
  assert (X : - neg_part c <= lam * c <= pos_part c) by (revert Hl; clear; intros Hl; unfold pos_part, neg_part, Rmax; repeat destruct (Rle_dec _ _); nra). specialize (P X (conj H0 H1)).
  unfold intervals_product, intervals_product_with in P. cbn [fst snd] in P.
  assert (A1 : pos_part (- neg_part c) = 0) by (unfold pos_part at 1; apply Rmax_right; lra).
  assert (A2 : neg_part (- neg_part c) = neg_part c) by (unfold neg_part at 1; rewrite Ropp_involutive; apply Rmax_left; lra).
  assert (A3 : pos_part (pos_part c) = pos_part c) by (unfold pos_part at 1; apply Rmax_left; lra).
  assert (A4 : neg_part (pos_part c) = 0) by (unfold neg_part at 1; apply Rmax_right; lra).
  rewrite A1, A2, A3, A4 in P. lra.
Qed.
Lemma metzler_sound n q m a0 da b d omega u xi dt x x' :
  shape n n a0 -> Forall (shape n n) da -> da <> [] -> shape n q d -> shape n m b -> List.length u = m -> 0 <= dt ->
  (forall i j, (i < n)%nat -> (j < n)%nat -> i <> j -> 0 <= coef a0 i j) -> (forall i, (i < n)%nat -> 0 <= 1 + dt * coef a0 i i) ->
  boxed (fst xi) x (snd xi) -> follows n q m a0 da b d omega u dt x x' ->
  boxed (fst (metzler_step a0 da b d omega u xi dt)) x' (snd (metzler_step a0 da b d omega u xi dt)).
Proof.
  intros Sa Fd Nd Sd Sb Lu Hdt Mz Dg Hx (Lx & Lx' & lam & w & Ll & Hl & Lw & Hw & E).
  destruct (boxed_len_l _ _ _ n Hx Lx) as [L0 L1]. destruct (boxed_len_l _ _ _ q Hw Lw) as [W0 W1]. destruct Hx as (_ & _ & Hx). rewrite Lx in Hx.
  assert (FP : Forall (shape n n) (map (map (map pos_part)) da)) by (rewrite Forall_map; eapply Forall_impl; [|exact Fd]; intros k; apply shape_map).
  assert (FN : Forall (shape n n) (map (map (map neg_part)) da)) by (rewrite Forall_map; eapply Forall_impl; [|exact Fd]; intros k; apply shape_map).
  assert (NP : map (map (map pos_part)) da <> [] /\ map (map (map neg_part)) da <> []) by (destruct da; [easy | split; discriminate]). destruct NP as [NP NN].
  pose proof (sum_shape n n _ NP FP) as SP. pose proof (sum_shape n n _ NN FN) as SN.
  set (dap := lm_sum (map (map (map pos_part)) da)) in *. set (dan := lm_sum (map (map (map neg_part)) da)) in *.
  assert (Ld : List.length d = n) by apply Sd. assert (Lb : List.length b = n) by apply Sb. assert (La : List.length a0 = n) by apply Sa.
  assert (LP : List.length dap = n) by apply SP. assert (LN : List.length dan = n) by apply SN.
  assert (CP : forall i j, (i < n)%nat -> coef dap i j = sum_to (List.length da) (fun k => pos_part (coef (nth k da []) i j))).
  { intros i j Hi. unfold dap. rewrite (sum_coef n n) by assumption. rewrite map_length. apply sum_ext. intros k Hk.
    rewrite (nth_map_in _ da k []) by exact Hk. apply coef_pos. }
  assert (CN : forall i j, (i < n)%nat -> coef dan i j = sum_to (List.length da) (fun k => neg_part (coef (nth k da []) i j))).
  { intros i j Hi. unfold dan. rewrite (sum_coef n n) by assumption. rewrite map_length. apply sum_ext. intros k Hk.
    rewrite (nth_map_in _ da k []) by exact Hk. apply coef_neg. }
  unfold metzler_step. fold dap dan. cbn [fst snd]. destruct Hw as (_ & _ & Hw). rewrite Lw in Hw.
  assert (Len : forall v1 v2 v3 v4 v5 v6, List.length v1 = n -> List.length v2 = n -> List.length v3 = n -> List.length v4 = n -> List.length v5 = n -> List.length v6 = n ->
     List.length (lv_add (lv_sub (lv_add (lv_sub (lv_sub v1 v2) v3) v4) v5) v6) = n) by (intros; repeat (rewrite len_add || rewrite len_sub); congruence).
  assert (Len' : forall v1 v2 v3 v4 v5 v6, List.length v1 = n -> List.length v2 = n -> List.length v3 = n -> List.length v4 = n -> List.length v5 = n -> List.length v6 = n ->
     List.length (lv_add (lv_sub (lv_add (lv_add (lv_add v1 v2) v3) v4) v5) v6) = n) by (intros; repeat (rewrite len_add || rewrite len_sub); congruence).
  apply (boxed_intro n).
  - rewrite len_add; [exact L0|]. rewrite len_scale, Len by (rewrite len_apply, ?map_length; assumption). exact L0.
  - exact Lx'.
  - rewrite len_add; [exact L1|]. rewrite len_scale, Len' by (rewrite len_apply, ?map_length; assumption). exact L1.
  - intros i Hi. rewrite (E i Hi).
    rewrite !(entry_add _ (lv_scale _ _)) by (rewrite len_scale, ?Len, ?Len' by (rewrite len_apply, ?map_length; assumption); assumption). rewrite !entry_scale.
    repeat (rewrite entry_add || rewrite entry_sub); try (repeat (rewrite len_add || rewrite len_sub); rewrite ?len_apply, ?map_length; congruence).
    repeat match goal with |- context [entry (lm_apply ?a ?v) i] =>
      first [rewrite (entry_apply n n a v i) by (rewrite ?map_length; assumption) | rewrite (entry_apply n q a v i) by (try apply shape_map; assumption)
            | rewrite (entry_apply n m a v i) by assumption] end.
    pose proof (metzler_monotone n a0 dt (fst xi) x i (fun j Hj Ne => Mz i j Hi Hj Ne) (Dg i Hi) Hdt Hi (fun j Hj => proj1 (Hx j Hj))) as Low.
    pose proof (metzler_monotone n a0 dt x (snd xi) i (fun j Hj Ne => Mz i j Hi Hj Ne) (Dg i Hi) Hdt Hi (fun j Hj => proj2 (Hx j Hj))) as Up.
    assert (Sp : sum_to n (fun j => (coef a0 i j + sum_to (List.length da) (fun k => entry lam k * coef (nth k da []) i j)) * entry x j) =
                 sum_to n (fun j => coef a0 i j * entry x j) + sum_to n (fun j => sum_to (List.length da) (fun k => entry lam k * coef (nth k da []) i j * entry x j))).
    { rewrite <- sum_add. apply sum_ext. intros j _. rewrite sum_mulr. ring. }
    rewrite Sp. clear Sp E.
    assert (DL : - sum_to n (fun j => coef dap i j * entry (map neg_part (fst xi)) j) - sum_to n (fun j => coef dan i j * entry (map pos_part (snd xi)) j)
                 <= sum_to n (fun j => sum_to (List.length da) (fun k => entry lam k * coef (nth k da []) i j * entry x j))
                 <= sum_to n (fun j => coef dap i j * entry (map pos_part (snd xi)) j) + sum_to n (fun j => coef dan i j * entry (map neg_part (fst xi)) j)).
    { replace (- sum_to n (fun j => coef dap i j * entry (map neg_part (fst xi)) j)) with (sum_to n (fun j => - (coef dap i j * entry (map neg_part (fst xi)) j)))
        by (transitivity (-1 * sum_to n (fun j => coef dap i j * entry (map neg_part (fst xi)) j)); [rewrite <- sum_mul; apply sum_ext; intros; ring | ring]).
      rewrite <- sum_sub, <- sum_add.
      split; apply sum_le; intros j Hj; rewrite entry_pos, entry_neg, CP, CN by exact Hi; rewrite <- !sum_mulr.
      - replace (- sum_to (List.length da) (fun k => pos_part (coef (nth k da []) i j) * neg_part (entry (fst xi) j)))
          with (sum_to (List.length da) (fun k => - (pos_part (coef (nth k da []) i j)) * neg_part (entry (fst xi) j)))
          by (transitivity (-1 * sum_to (List.length da) (fun k => pos_part (coef (nth k da []) i j) * neg_part (entry (fst xi) j))); [rewrite <- sum_mul; apply sum_ext; intros; ring | ring]).
        rewrite <- sum_sub. apply sum_le. intros k Hk. apply drift_bounds; [now apply Hl | now apply Hx].
      - rewrite <- sum_add. apply sum_le. intros k Hk. apply drift_bounds; [now apply Hl | now apply Hx]. }
    assert (DW : sum_to q (fun j => coef (map (map pos_part) d) i j * entry (fst omega) j) - sum_to q (fun j => coef (map (map neg_part) d) i j * entry (snd omega) j)
                 <= sum_to q (fun j => coef d i j * entry w j)
                 <= sum_to q (fun j => coef (map (map pos_part) d) i j * entry (snd omega) j) - sum_to q (fun j => coef (map (map neg_part) d) i j * entry (fst omega) j)).
    { rewrite <- !sum_sub. split; apply sum_le; intros j Hj; rewrite coef_pos, coef_neg; destruct (pos_neg (coef d i j)) as (C & P & N); pose proof (Hw j Hj) as Hwj; set (P0 := pos_part (coef d i j)) in *; set (N0 := neg_part (coef d i j)) in *; rewrite C; clear - P N Hwj; nra. }
    revert Low Up DL DW. generalize (sum_to m (fun j => coef b i j * entry u j)). intros bu Low Up [DL DL'] [DW DW'].
    apply (Rmult_le_compat_l dt _ _ Hdt) in DL, DL', DW, DW'. split; lra.
Qed.

(** ** The predictor class *)
Lemma is_metzler_true a i j : (i < List.length a)%nat -> (j < List.length (nth i a []))%nat -> i <> j -> is_metzler a = true -> - METZLER_EPS <= coef a i j.
Proof.
  intros Hi Hj Ne H. unfold is_metzler in H. rewrite forallb_forall in H. specialize (H i). rewrite in_seq in H. specialize (H ltac:(lia)).
  rewrite forallb_forall in H. specialize (H j). rewrite in_seq in H. specialize (H ltac:(lia)). apply orb_true_iff in H as [H|H].
  - apply Nat.eqb_eq in H. easy.
  - apply Rleb_true in H. exact H.
Qed.
Lemma is_metzler_intro n a : shape n n a -> (forall i j, (i < n)%nat -> (j < n)%nat -> i <> j -> - METZLER_EPS <= coef a i j) -> is_metzler a = true.
Proof.
  intros Sa H. unfold is_metzler. apply forallb_forall. intros i Hi. apply in_seq in Hi. apply forallb_forall. intros j Hj. apply in_seq in Hj.
  assert (L : List.length a = n) by apply Sa. assert (Hi' : (i < n)%nat) by lia. pose proof (shape_row n n a i Sa Hi') as R1.
  destruct (Nat.eqb_spec i j); [reflexivity|]. cbn. apply Rleb_true. apply H; lia.
Qed.
Definition truly_metzler (n : nat) (a : lmat) : Prop := forall i j, (i < n)%nat -> (j < n)%nat -> i <> j -> 0 <= coef a i j.
(** Shapes of an LPV system with [n] states, [q] perturbations, [m] inputs. *)
Definition lpv_shape (n q m : nat) (s : lpv) : Prop :=
  shape n n (lp_a0 s) /\ Forall (shape n n) (lp_da s) /\ lp_da s <> [] /\ shape n q (lp_d s) /\ shape n m (lp_b s) /\ List.length (lp_u s) = m.
(** When a step of the predictor is sound. *)
Definition sound_step (n : nat) (s : lpv) (dt : R) : Prop :=
  is_metzler (lp_a0 s) = false \/ (truly_metzler n (lp_a0 s) /\ forall i, (i < n)%nat -> 0 <= 1 + dt * coef (lp_a0 s) i i).
Lemma lpv_step_sound n q m s dt x x' : lpv_shape n q m s -> 0 <= dt -> sound_step n s dt -> boxed (fst (lp_xi s)) x (snd (lp_xi s)) ->
  follows n q m (lp_a0 s) (lp_da s) (lp_b s) (lp_d s) (lp_omega s) (lp_u s) dt x x' -> boxed (fst (lp_xi (lpv_step s dt))) x' (snd (lp_xi (lpv_step s dt))).
Proof.
  intros (Sa & Fd & Nd & Sd & Sb & Lu) Hdt H Hx F. unfold lpv_step. cbn [lp_xi]. destruct H as [H|[M D]].
  - rewrite H. eapply naive_sound; eassumption.
  - rewrite (is_metzler_intro n); [eapply metzler_sound; eassumption | exact Sa |]. intros i j Hi Hj Ne. unfold METZLER_EPS. pose proof (M i j Hi Hj Ne). lra.
Qed.
Lemma lpv_step_fields s dt : let s' := lpv_step s dt in lp_a0 s' = lp_a0 s /\ lp_da s' = lp_da s /\ lp_b s' = lp_b s /\ lp_d s' = lp_d s /\
  lp_omega s' = lp_omega s /\ lp_u s' = lp_u s /\ lp_coord s' = lp_coord s /\ lp_center s' = lp_center s /\ lp_k s' = lp_k s.
Proof. cbn. repeat split. Qed.

(** ** Coordinate changes *)
Lemma shape_mul n k m a b : shape n k a -> shape k m b -> (0 < k)%nat -> shape n m (lm_mul a b).
Proof.
  intros [La Fa] [Lb Fb] Hk. unfold lm_mul. split; [rewrite map_length; exact La|]. apply Forall_forall. intros r Hr. apply in_map_iff in Hr as (row & <- & _).
  rewrite map_length, seq_length. destruct b as [|r b]; cbn in *; [lia|]. inversion Fb; subst; auto.
Qed.
Lemma coef_mul n k m a b i j : shape n k a -> shape k m b -> (0 < k)%nat -> (i < n)%nat -> (j < m)%nat ->
  coef (lm_mul a b) i j = sum_to k (fun l => coef a i l * coef b l j).
Proof.
  intros Sa Sb Hk Hi Hj. unfold coef at 1, lm_mul.
  assert (La : List.length a = n) by apply Sa. assert (Lb : List.length b = k) by apply Sb.
  rewrite (nth_map_in _ a i []) by lia.
  assert (Lh : List.length (hd [] b) = m). { destruct b as [|r b]; cbn in *; [lia|]. destruct Sb as [_ F]. inversion F; subst; auto. }
  rewrite Lh. rewrite (nth_map_in _ (seq 0 m) j O) by (rewrite seq_length; lia). rewrite seq_nth by lia.
  rewrite (dot_sum _ _ k); [|now apply (shape_row n k)|unfold lm_col; rewrite map_length; exact Lb].
  apply sum_ext. intros l Hl. f_equal. unfold lm_col, entry. rewrite (nth_map_in _ b l []) by lia. reflexivity.
Qed.
Lemma shape_eye n : shape n n (eye n).
Proof. unfold eye. split; [now rewrite map_length, seq_length|]. apply Forall_map, Forall_forall. intros i _. now rewrite map_length, seq_length. Qed.
Lemma coef_eye n i j : (i < n)%nat -> (j < n)%nat -> coef (eye n) i j = if Nat.eqb i j then 1 else 0.
Proof.
  intros Hi Hj. unfold coef, eye. rewrite (nth_map_in _ (seq 0 n) i O) by (rewrite seq_length; lia). rewrite (nth_map_in _ (seq 0 n) j O) by (rewrite seq_length; lia).
  rewrite !seq_nth by lia. reflexivity.
Qed.
Lemma sum_swap n m f : sum_to n (fun i => sum_to m (fun j => f i j)) = sum_to m (fun j => sum_to n (fun i => f i j)).
Proof.
  induction n as [|n IH]; cbn [sum_to]; [symmetry; apply sum_zero; reflexivity|]. rewrite IH, <- sum_add. reflexivity.
Qed.
Lemma vec_ext x y : List.length x = List.length y -> (forall i, (i < List.length x)%nat -> entry x i = entry y i) -> x = y.
Proof. intros L H. apply (nth_ext x y 0 0 L). exact H. Qed.
Lemma mat_ext n m a b : shape n m a -> shape n m b -> (forall i j, (i < n)%nat -> (j < m)%nat -> coef a i j = coef b i j) -> a = b.
Proof.
  intros Sa Sb H. assert (La : List.length a = n) by apply Sa. assert (Lb : List.length b = n) by apply Sb.
  apply (nth_ext a b [] []); [lia|]. intros i Hi. apply vec_ext.
  - rewrite (shape_row n m a), (shape_row n m b); auto; lia.
  - rewrite (shape_row n m a) by (auto; lia). intros j Hj. apply H; lia.
Qed.
Lemma mul_eye_l n m a : (0 < n)%nat -> shape n m a -> lm_mul (eye n) a = a.
Proof.
  intros Hn Sa. apply (mat_ext n m); [eapply shape_mul; eauto using shape_eye | exact Sa|]. intros i j Hi Hj. rewrite (coef_mul n n m) by auto using shape_eye.
  rewrite <- (sum_delta n i (fun l => coef a l j) Hi). apply sum_ext. intros l Hl. rewrite coef_eye by assumption. destruct (Nat.eqb i l); ring.
Qed.
Lemma mul_eye_r n m a : (0 < m)%nat -> shape n m a -> lm_mul a (eye m) = a.
Proof.
  intros Hm Sa. apply (mat_ext n m); [eapply shape_mul; eauto using shape_eye | exact Sa|]. intros i j Hi Hj. rewrite (coef_mul n m m) by auto using shape_eye.
  rewrite <- (sum_delta m j (fun l => coef a i l) Hj). apply sum_ext. intros l Hl. rewrite coef_eye by assumption. rewrite Nat.eqb_sym. destruct (Nat.eqb j l); ring.
Qed.
Lemma apply_eye n x : List.length x = n -> lm_apply (eye n) x = x.
Proof.
  intros L. assert (Le : List.length (lm_apply (eye n) x) = n) by (rewrite len_apply; apply shape_eye). apply vec_ext; [lia|]. rewrite Le. intros i Hi.
  rewrite (entry_apply n n) by (auto using shape_eye). rewrite <- (sum_delta n i (entry x) Hi). apply sum_ext. intros l Hl. rewrite coef_eye by assumption. destruct (Nat.eqb i l); ring.
Qed.
Lemma scaling_len n m a b : shape n m a -> List.length (fst (intervals_scaling a b)) = n /\ List.length (snd (intervals_scaling a b)) = n.
Proof. intros [L _]. unfold intervals_scaling. cbn [fst snd]. rewrite !len_sub by (rewrite !len_apply, !map_length; reflexivity). rewrite !len_apply, !map_length. auto. Qed.
Lemma scaling_sound n m a b x : shape n m a -> List.length x = m -> boxed (fst b) x (snd b) ->
  boxed (fst (intervals_scaling a b)) (lm_apply a x) (snd (intervals_scaling a b)).
Proof.
  intros Sa Lx Hx. destruct (boxed_len_l _ _ _ m Hx Lx) as [L0 L1]. destruct Hx as (_ & _ & Hx). rewrite Lx in Hx.
  destruct (scaling_len n m a b Sa) as [C0 C1]. apply (boxed_intro n); [exact C0 | rewrite len_apply; apply Sa | exact C1|]. intros i Hi.
  destruct (scaling_entry n m a b i Sa L0 L1 Hi) as [-> ->]. rewrite (entry_apply n m) by assumption.
  split; apply sum_le; intros j Hj; destruct (pos_neg (coef a i j)) as (C & P & N); pose proof (Hx j Hj) as Hxj;
    set (P0 := pos_part (coef a i j)) in *; set (N0 := neg_part (coef a i j)) in *; rewrite C; clear - P N Hxj; nra.
Qed.
Lemma scaling_exact n m a b i : shape n m a -> List.length (fst b) = m -> List.length (snd b) = m -> (forall j, (j < m)%nat -> entry (fst b) j <= entry (snd b) j) -> (i < n)%nat ->
  is_range (fun y => exists x, List.length x = m /\ boxed (fst b) x (snd b) /\ y = sum_to m (fun j => coef a i j * entry x j))
           (entry (fst (intervals_scaling a b)) i, entry (snd (intervals_scaling a b)) i).
Proof.
  intros Sa L0 L1 Hb Hi. destruct (scaling_entry n m a b i Sa L0 L1 Hi) as [E0 E1].
  assert (Pick : forall (f : nat -> bool) lo hi, List.length lo = m -> List.length hi = m -> (forall j, (j < m)%nat -> entry lo j <= entry hi j) ->
    exists x, List.length x = m /\ boxed lo x hi /\ forall j, (j < m)%nat -> entry x j = if f j then entry lo j else entry hi j).
  { intros f lo hi A B C. exists (map (fun j => if f j then entry lo j else entry hi j) (seq 0 m)).
    assert (E : forall j, (j < m)%nat -> entry (map (fun j => if f j then entry lo j else entry hi j) (seq 0 m)) j = if f j then entry lo j else entry hi j).
    { intros j Hj. unfold entry at 1. rewrite (nth_map_in _ (seq 0 m) j O) by (rewrite seq_length; lia). rewrite seq_nth by lia. reflexivity. }
    assert (L : List.length (map (fun j => if f j then entry lo j else entry hi j) (seq 0 m)) = m) by now rewrite map_length, seq_length.
    split; [exact L|]. split; [|exact E]. apply (boxed_intro m); auto. intros j Hj. rewrite E by exact Hj. pose proof (C j Hj). destruct (f j); lra. }
  split; [|split]; cbn [fst snd].
  - intros y (x & Lx & Hx & ->). destruct (scaling_sound n m a b x Sa Lx Hx) as (_ & _ & H). rewrite len_apply in H.
    assert (Hi' : (i < List.length a)%nat) by (destruct Sa; lia). specialize (H i Hi'). rewrite (entry_apply n m a x i) in H by assumption. exact H.
  - destruct (Pick (fun j => Rleb 0 (coef a i j)) (fst b) (snd b) L0 L1 Hb) as (x & Lx & Bx & Ex). exists x. split; [exact Lx|]. split; [exact Bx|].
    rewrite E0. apply sum_ext. intros j Hj. rewrite Ex by exact Hj. unfold pos_part, neg_part, Rmax, Rleb. repeat destruct (Rle_dec _ _); lra || (assert (coef a i j = 0) by lra; rewrite H; lra).
  - destruct (Pick (fun j => negb (Rleb 0 (coef a i j))) (fst b) (snd b) L0 L1 Hb) as (x & Lx & Bx & Ex). exists x. split; [exact Lx|]. split; [exact Bx|].
    rewrite E1. apply sum_ext. intros j Hj. rewrite Ex by exact Hj. unfold pos_part, neg_part, Rmax, Rleb. repeat destruct (Rle_dec _ _); cbn [negb]; lra || (assert (coef a i j = 0) by lra; rewrite H; lra).
Qed.

Definition conj_coef (n : nat) (t ti : lmat) (M : nat -> nat -> R) (i p : nat) : R := sum_to n (fun j => sum_to n (fun l => coef ti i l * M l j) * coef t j p).
Lemma conj_change n t ti a i p : (0 < n)%nat -> shape n n t -> shape n n ti -> shape n n a -> (i < n)%nat -> (p < n)%nat ->
  coef (change_matrix (Some (t, ti)) a) i p = conj_coef n t ti (coef a) i p.
Proof.
  intros Hn St Si Sa Hi Hp. unfold change_matrix, conj_coef. rewrite (coef_mul n n n) by (try eapply shape_mul; eassumption).
  apply sum_ext. intros j Hj. rewrite (coef_mul n n n) by assumption. reflexivity.
Qed.
Lemma shape_change n t ti a : (0 < n)%nat -> shape n n t -> shape n n ti -> shape n n a -> shape n n (change_matrix (Some (t, ti)) a).
Proof. intros. unfold change_matrix. eapply shape_mul; try eassumption. eapply shape_mul; eassumption. Qed.
Lemma sum_if n j f : (j < n)%nat -> sum_to n (fun p => (if Nat.eqb j p then 1 else 0) * f p) = f j.
Proof. intros H. rewrite <- (sum_delta n j f H). apply sum_ext. intros p _. destruct (Nat.eqb j p); ring. Qed.
(** y = t (ti y) *)
Lemma back_forth n t ti y j : inverses n t ti -> (j < n)%nat -> sum_to n (fun p => coef t j p * sum_to n (fun l => coef ti p l * y l)) = y j.
Proof.
  intros (_ & _ & H & _) Hj. transitivity (sum_to n (fun l => sum_to n (fun p => coef t j p * coef ti p l) * y l)).
  - transitivity (sum_to n (fun p => sum_to n (fun l => coef t j p * coef ti p l * y l))).
    + apply sum_ext. intros p _. rewrite <- sum_mul. apply sum_ext. intros; ring.
    + rewrite sum_swap. apply sum_ext. intros l _. apply sum_mulr.
  - rewrite <- (sum_if n j y Hj). apply sum_ext. intros l Hl. rewrite H by assumption. reflexivity.
Qed.
Lemma conj_apply n t ti M y i : inverses n t ti -> (i < n)%nat ->
  sum_to n (fun l => coef ti i l * sum_to n (fun j => M l j * y j)) = sum_to n (fun p => conj_coef n t ti M i p * sum_to n (fun l => coef ti p l * y l)).
Proof.
  intros I Hi. transitivity (sum_to n (fun j => sum_to n (fun l => coef ti i l * M l j) * y j)).
  - transitivity (sum_to n (fun l => sum_to n (fun j => coef ti i l * M l j * y j))).
    + apply sum_ext. intros l _. rewrite <- sum_mul. apply sum_ext. intros; ring.
    + rewrite sum_swap. apply sum_ext. intros j _. apply sum_mulr.
  - unfold conj_coef. transitivity (sum_to n (fun j => sum_to n (fun l => coef ti i l * M l j) * sum_to n (fun p => coef t j p * sum_to n (fun l => coef ti p l * y l)))).
    + apply sum_ext. intros j Hj. rewrite (back_forth n t ti y j I Hj). reflexivity.
    + transitivity (sum_to n (fun j => sum_to n (fun p => sum_to n (fun l => coef ti i l * M l j) * coef t j p * sum_to n (fun l => coef ti p l * y l)))).
      * apply sum_ext. intros j _. rewrite <- sum_mul. apply sum_ext. intros; ring.
      * rewrite sum_swap. apply sum_ext. intros p _. apply sum_mulr.
Qed.
Lemma conj_lin n t ti M N i p : conj_coef n t ti (fun l j => M l j + N l j) i p = conj_coef n t ti M i p + conj_coef n t ti N i p.
Proof.
  unfold conj_coef. rewrite <- sum_add. apply sum_ext. intros j _. rewrite <- Rmult_plus_distr_r, <- sum_add. f_equal. apply sum_ext. intros; ring.
Qed.
Lemma conj_scale n t ti c M i p : conj_coef n t ti (fun l j => c * M l j) i p = c * conj_coef n t ti M i p.
Proof.
  unfold conj_coef. rewrite <- sum_mul. apply sum_ext. intros j _. rewrite <- Rmult_assoc, <- sum_mul. f_equal. apply sum_ext. intros; ring.
Qed.
Lemma conj_zero n t ti i p : conj_coef n t ti (fun _ _ => 0) i p = 0.
Proof. unfold conj_coef. apply sum_zero. intros j _. rewrite (sum_zero n (fun l => coef ti i l * 0)); [ring | intros; ring]. Qed.
Lemma conj_sum n t ti K (F : nat -> nat -> nat -> R) i p : conj_coef n t ti (fun l j => sum_to K (fun k => F k l j)) i p = sum_to K (fun k => conj_coef n t ti (F k) i p).
Proof.
  induction K as [|K IH]; cbn [sum_to]; [apply conj_zero|]. rewrite conj_lin, IH. reflexivity.
Qed.
Lemma conj_ext n t ti M N i p : (forall l j, (l < n)%nat -> (j < n)%nat -> M l j = N l j) -> conj_coef n t ti M i p = conj_coef n t ti N i p.
Proof. intros H. unfold conj_coef. apply sum_ext. intros j Hj. f_equal. apply sum_ext. intros l Hl. rewrite H by assumption. reflexivity. Qed.

(** The trajectory in the changed coordinates. *)
Lemma changed_follows n q m a da b d omega u c dt x x' t ti : (0 < n)%nat -> inverses n t ti -> shape n n a -> Forall (shape n n) da ->
  shape n m b -> shape n q d -> List.length c = n ->
  (forall i j, (i < n)%nat -> (j < q)%nat -> sum_to n (fun l => coef ti i l * coef d l j) = coef d i j) ->
  follows_about n q m a da b d omega u c dt x x' ->
  follows n q m (change_matrix (Some (t, ti)) a) (map (change_matrix (Some (t, ti))) da) (change_input (Some (t, ti)) b) d omega u dt
    (change_vector (Some (t, ti)) c x) (change_vector (Some (t, ti)) c x').
Proof.
  intros Hn I Sa Fd Sb Sd Lc HD (Lx & Lx' & lam & w & Ll & Hl & Lw & Hw & E). pose proof I as (St & Si & _ & _).
  assert (Li : List.length ti = n) by apply Si.
  assert (Z : forall v i, List.length v = n -> (i < n)%nat -> entry (change_vector (Some (t, ti)) c v) i = sum_to n (fun l => coef ti i l * (entry v l - entry c l))).
  { intros v i Lv Hi. unfold change_vector. rewrite (entry_apply n n) by (try rewrite len_sub; congruence). apply sum_ext. intros l _. rewrite entry_sub by congruence. reflexivity. }
  split; [unfold change_vector; rewrite len_apply; exact Li|]. split; [unfold change_vector; rewrite len_apply; exact Li|].
  exists lam, w. rewrite map_length. split; [exact Ll|]. split; [exact Hl|]. split; [exact Lw|]. split; [exact Hw|].
  intros i Hi. rewrite !Z by assumption.
  transitivity (sum_to n (fun l => coef ti i l * (entry x l - entry c l)) +
     dt * (sum_to n (fun l => coef ti i l * sum_to n (fun j => (coef a l j + sum_to (List.length da) (fun k => entry lam k * coef (nth k da []) l j)) * (entry x j - entry c j)))
           + sum_to n (fun l => coef ti i l * sum_to q (fun j => coef d l j * entry w j)) + sum_to n (fun l => coef ti i l * sum_to m (fun j => coef b l j * entry u j)))).
  { rewrite <- !sum_add, <- sum_mul, <- sum_add. apply sum_ext. intros l Hl'. rewrite (E l Hl'). ring. }
  f_equal. f_equal. f_equal; [f_equal|].
  - rewrite (conj_apply n t ti (fun l j => coef a l j + sum_to (List.length da) (fun k => entry lam k * coef (nth k da []) l j)) (fun l => entry x l - entry c l) i I Hi).
    apply sum_ext. intros p Hp. rewrite (Z x p Lx Hp). f_equal. rewrite conj_lin, (conj_sum n t ti (List.length da) (fun k l j => entry lam k * coef (nth k da []) l j)).
    rewrite (conj_change n t ti a) by assumption. f_equal. apply sum_ext. intros k Hk. rewrite (conj_scale n t ti (entry lam k) (coef (nth k da []))).
    f_equal. rewrite (nth_map_in _ da k []) by exact Hk. symmetry. apply conj_change; try assumption. now apply (Forall_nth' (shape n n)).
  - transitivity (sum_to q (fun j => sum_to n (fun l => coef ti i l * coef d l j) * entry w j)).
    + transitivity (sum_to n (fun l => sum_to q (fun j => coef ti i l * coef d l j * entry w j))).
      * apply sum_ext. intros l _. rewrite <- sum_mul. apply sum_ext. intros; ring.
      * rewrite sum_swap. apply sum_ext. intros j _. apply sum_mulr.
    + apply sum_ext. intros j Hj. rewrite HD by assumption. reflexivity.
  - transitivity (sum_to m (fun j => sum_to n (fun l => coef ti i l * coef b l j) * entry u j)).
    + transitivity (sum_to n (fun l => sum_to m (fun j => coef ti i l * coef b l j * entry u j))).
      * apply sum_ext. intros l _. rewrite <- sum_mul. apply sum_ext. intros; ring.
      * rewrite sum_swap. apply sum_ext. intros j _. apply sum_mulr.
    + apply sum_ext. intros j Hj. unfold change_input. rewrite (coef_mul n n m) by assumption. reflexivity.
Qed.
Lemma change_back_sound n t ti c x xi : inverses n t ti -> List.length c = n -> List.length x = n ->
  boxed (fst xi) (change_vector (Some (t, ti)) c x) (snd xi) ->
  boxed (fst (change_interval_back (Some (t, ti)) c xi)) x (snd (change_interval_back (Some (t, ti)) c xi)).
Proof.
  intros I Lc Lx H. pose proof I as (St & Si & _ & _). assert (Li : List.length ti = n) by apply Si.
  assert (Lz : List.length (change_vector (Some (t, ti)) c x) = n) by (unfold change_vector; rewrite len_apply; exact Li).
  destruct (scaling_sound n n t xi _ St Lz H) as (_ & _ & B). rewrite len_apply in B. assert (Lt : List.length t = n) by apply St. rewrite Lt in B.
  destruct (scaling_len n n t xi St) as [S0 S1]. unfold change_interval_back. cbn [fst snd].
  apply (boxed_intro n); [rewrite len_add; congruence | exact Lx | rewrite len_add; congruence|]. intros i Hi. rewrite !entry_add by congruence. specialize (B i Hi).
  assert (E : entry (lm_apply t (change_vector (Some (t, ti)) c x)) i = entry x i - entry c i).
  { rewrite (entry_apply n n) by assumption. rewrite <- (back_forth n t ti (fun l => entry x l - entry c l) i I Hi). apply sum_ext. intros p Hp. f_equal.
    unfold change_vector. rewrite (entry_apply n n) by (try rewrite len_sub; congruence). apply sum_ext. intros l _. rewrite entry_sub by congruence. reflexivity. }
  rewrite E in B. lra.
Qed.
Lemma eye_inverses n : inverses n (eye n) (eye n).
Proof.
  split; [apply shape_eye|]. split; [apply shape_eye|]. assert (H : forall i j, (i < n)%nat -> (j < n)%nat -> sum_to n (fun l => coef (eye n) i l * coef (eye n) l j) = if Nat.eqb i j then 1 else 0).
  { intros i j Hi Hj. rewrite <- (coef_eye n i j Hi Hj). rewrite <- (sum_if n i (fun l => coef (eye n) l j) Hi). apply sum_ext. intros l Hl. rewrite (coef_eye n i l) by assumption. reflexivity. }
  split; exact H.
Qed.

(** ** Boxes and affine maps *)
Lemma list_min_spec l x : (forall y, In y (x :: l) -> list_min x l <= y) /\ In (list_min x l) (x :: l).
Proof.
  revert x. induction l as [|z l IH]; intros x; [cbn; split; [intros y [-> | []]; lra | auto]|]. unfold list_min in *. cbn [fold_left]. destruct (IH (Rmin x z)) as [A B]. split.
  - pose proof (A (Rmin x z) (or_introl eq_refl)). pose proof (Rmin_l x z). pose proof (Rmin_r x z).
    intros y [<- | [<- | Hy]]; [lra | lra | apply A; right; exact Hy].
  - destruct B as [B|B]; [|right; right; exact B]. rewrite <- B. unfold Rmin. destruct (Rle_dec x z); [left | right; left]; reflexivity.
Qed.
Lemma list_max_spec l x : (forall y, In y (x :: l) -> y <= list_max x l) /\ In (list_max x l) (x :: l).
Proof.
  revert x. induction l as [|z l IH]; intros x; [cbn; split; [intros y [-> | []]; lra | auto]|]. unfold list_max in *. cbn [fold_left]. destruct (IH (Rmax x z)) as [A B]. split.
  - pose proof (A (Rmax x z) (or_introl eq_refl)). pose proof (Rmax_l x z). pose proof (Rmax_r x z).
    intros y [<- | [<- | Hy]]; [lra | lra | apply A; right; exact Hy].
  - destruct B as [B|B]; [|right; right; exact B]. rewrite <- B. unfold Rmax. destruct (Rle_dec x z); [right; left | left]; reflexivity.
Qed.
Definition in_box (lo hi p : vec) : Prop := fst lo <= fst p <= fst hi /\ snd lo <= snd p <= snd hi.
Lemma affine_range (f : vec -> R) a b c lo hi : (forall p, f p = a + b * fst p + c * snd p) -> fst lo <= fst hi -> snd lo <= snd hi ->
  let d := map f (box_corners lo hi) in
  is_range (fun z => exists p, in_box lo hi p /\ z = f p) (list_min (hd 0 d) (tl d), list_max (hd 0 d) (tl d)).
Proof.
  intros F Hx Hy d. destruct (list_min_spec (tl d) (hd 0 d)) as [Mn In0]. destruct (list_max_spec (tl d) (hd 0 d)) as [Mx In1].
  change (hd 0 d :: tl d) with d in *.
  assert (Att : forall z, In z d -> exists p, in_box lo hi p /\ z = f p).
  { intros z Hz. unfold d in Hz. apply in_map_iff in Hz as (p & <- & Hp). exists p. split; [|reflexivity].
    unfold box_corners in Hp. cbn [In] in Hp. unfold in_box. repeat (destruct Hp as [<- | Hp]; [cbn [fst snd]; lra|]). easy. }
  split; [|split; apply Att; assumption]. intros z (p & [Px Py] & ->). cbn [fst snd].
  assert (C : forall q, In q (box_corners lo hi) -> list_min (hd 0 d) (tl d) <= f q <= list_max (hd 0 d) (tl d)) by (intros q Hq; split; [apply Mn | apply Mx]; apply in_map; exact Hq).
  pose proof (C (fst lo, snd lo) ltac:(cbn; auto)) as C1. pose proof (C (fst lo, snd hi) ltac:(cbn; auto)) as C2.
  pose proof (C (fst hi, snd lo) ltac:(cbn; auto)) as C3. pose proof (C (fst hi, snd hi) ltac:(cbn; auto)) as C4.
  rewrite F in C1, C2, C3, C4 |- *. cbn [fst snd] in *. set (m := list_min _ _) in *. set (M := list_max _ _) in *. clearbody m M. clear - Px Py C1 C2 C3 C4.
  assert (Bx : Rmin (b * fst lo) (b * fst hi) <= b * fst p <= Rmax (b * fst lo) (b * fst hi)).
  { destruct (Rle_lt_dec 0 b); [assert (b * fst lo <= b * fst p <= b * fst hi) by nra | assert (b * fst hi <= b * fst p <= b * fst lo) by nra];
      unfold Rmin, Rmax; repeat destruct (Rle_dec _ _); lra. }
  assert (By : Rmin (c * snd lo) (c * snd hi) <= c * snd p <= Rmax (c * snd lo) (c * snd hi)).
  { destruct (Rle_lt_dec 0 c); [assert (c * snd lo <= c * snd p <= c * snd hi) by nra | assert (c * snd hi <= c * snd p <= c * snd lo) by nra];
      unfold Rmin, Rmax; repeat destruct (Rle_dec _ _); lra. }
  unfold Rmin, Rmax in Bx, By. repeat destruct (Rle_dec _ _); lra.
Qed.

(** ** Polytopes *)
Lemma dedup_in l x : In x (dedup l) <-> In x l.
Proof.
  unfold dedup. rewrite <- in_rev.
  assert (G : forall acc, In x (fold_left (fun acc x => if existsb (lv_eqb x) acc then acc else x :: acc) l acc) <-> In x acc \/ In x l).
  { induction l as [|y l IH]; intros acc; cbn [fold_left In]; [tauto|]. rewrite IH. destruct (existsb (lv_eqb y) acc) eqn:E; [|cbn [In]; tauto].
    apply existsb_exists in E as (z & Hz & Ez). unfold lv_eqb in Ez. destruct (list_eq_dec Req_EM_T y z) as [->|]; [|discriminate]. split; [tauto|]. intros [H|[<- | H]]; auto. }
  rewrite G. cbn. tauto.
Qed.
Lemma mean_mono l l' x : (forall y, In y l -> In y l') -> mean_of l x -> mean_of l' x.
Proof. intros H M. induction M as [x Hx | x y z t Mx IHx My IHy Ht Lxy Lz E]; [apply mean_vertex; auto | exact (mean_mix _ x y z t IHx IHy Ht Lxy Lz E)]. Qed.
Lemma mean_cons l v x : mean_of l x -> mean_of (map (cons v) l) (v :: x).
Proof.
  intros M. induction M as [x Hx | x y z t Mx IHx My IHy Ht Lxy Lz E]; [apply mean_vertex; now apply in_map|].
  eapply mean_mix; [exact IHx | exact IHy | exact Ht | cbn; lia | cbn; lia|]. intros [|i] Hi; cbn [entry nth List.length] in *; [unfold entry; cbn; ring|].
  apply (E i). lia.
Qed.
Lemma box_mean lo : forall hi x, boxed lo x hi -> mean_of (box_vertices lo hi) x.
Proof.
  induction lo as [|l lo IH]; intros hi x (L0 & L1 & B).
  - destruct x as [|x xs]; [|discriminate]. apply mean_vertex. now left.
  - destruct x as [|x xs]; [discriminate|]. destruct hi as [|h hi]; [discriminate|]. cbn [List.length] in *.
    assert (M : mean_of (box_vertices lo hi) xs) by (apply IH; split; [lia|]; split; [lia|]; intros i Hi; apply (B (S i)); lia).
    pose proof (B O ltac:(lia)) as H0. unfold entry in H0. cbn in H0. cbn [box_vertices].
    assert (Q : exists t, 0 <= t <= 1 /\ x = (1 - t) * l + t * h).
    { destruct (Req_dec l h) as [->|Ne]; [exists 0; split; [lra | lra]|]. exists ((x - l) / (h - l)). split; [|field; lra].
      split; [apply Rmult_le_pos; [lra | left; apply Rinv_0_lt_compat; lra] | apply Rmult_le_reg_r with (h - l); [lra|]; unfold Rdiv; rewrite Rmult_assoc, Rinv_l by lra; lra]. }
    destruct Q as (t & Ht & ->). eapply (mean_mix _ (l :: xs) (h :: xs) _ t).
    + eapply mean_mono; [|apply mean_cons; exact M]. intros y Hy. apply in_or_app. now left.
    + eapply mean_mono; [|apply mean_cons; exact M]. intros y Hy. apply in_or_app. now right.
    + exact Ht.
    + reflexivity.
    + reflexivity.
    + intros [|i] _; unfold entry; cbn; ring.
Qed.
Definition affine (n m : nat) (f : lvec -> lvec) : Prop :=
  exists a phi, forall x, List.length x = n -> List.length (f x) = m /\ forall i, (i < m)%nat -> entry (f x) i = entry a i + sum_to n (fun k => coef phi i k * entry x k).
Lemma vertices_len lo : forall hi v, List.length lo = List.length hi -> In v (box_vertices lo hi) -> List.length v = List.length lo.
Proof.
  induction lo as [|l lo IH]; intros [|h hi] v L H; try discriminate; cbn in H.
  - destruct H as [<- | []]. reflexivity.
  - apply in_app_or in H as [H|H]; apply in_map_iff in H as (w & <- & Hw); cbn; f_equal; apply (IH hi); cbn in L; auto; lia.
Qed.
Lemma mean_len l n x : (forall y, In y l -> List.length y = n) -> mean_of l x -> List.length x = n.
Proof. intros H M. induction M; [auto | congruence]. Qed.
Lemma mean_affine n m f c l x : affine n m f -> List.length c = m -> (forall y, In y l -> List.length y = n) -> mean_of l x ->
  mean_of (map (fun v => lv_sub (f v) c) l) (lv_sub (f x) c).
Proof.
  intros (a & phi & F) Lc Hl M. induction M as [x Hx | x y z t Mx IHx My IHy Ht Lxy Lz E]; [apply mean_vertex; apply in_map_iff; eauto|].
  pose proof (mean_len _ _ _ Hl Mx) as Lx. pose proof (mean_len _ _ _ Hl My) as Ly. destruct (F x Lx) as [Fx Ex]. destruct (F y Ly) as [Fy Ey]. destruct (F z ltac:(lia)) as [Fz Ez].
  eapply mean_mix; [exact IHx | exact IHy | exact Ht | rewrite !len_sub; congruence | rewrite !len_sub; congruence|].
  rewrite len_sub by congruence. rewrite Fx. intros i Hi. rewrite !entry_sub by congruence. rewrite Ex, Ey, Ez by exact Hi.
  assert (Sm : sum_to n (fun k => coef phi i k * entry z k) = (1 - t) * sum_to n (fun k => coef phi i k * entry x k) + t * sum_to n (fun k => coef phi i k * entry y k)).
  { rewrite <- !sum_mul, <- sum_add. apply sum_ext. intros k Hk. rewrite (E k) by lia. ring. }
  rewrite Sm. ring.
Qed.
