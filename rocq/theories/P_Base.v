(** Basic facts about the primitives of Prelude. *)
From Verif Require Import Prelude.
From Coq Require Import Lra Lia Permutation Sorted.
Open Scope R_scope.

Lemma Rleb_true x y : Rleb x y = true <-> x <= y.
Proof. unfold Rleb; destruct (Rle_dec x y); split; intros; try easy; lra. Qed.
Lemma Rleb_false x y : Rleb x y = false <-> y < x.
Proof. unfold Rleb; destruct (Rle_dec x y); split; intros; try easy; lra. Qed.
Lemma Rltb_true x y : Rltb x y = true <-> x < y.
Proof. unfold Rltb; destruct (Rlt_dec x y); split; intros; try easy; lra. Qed.
Lemma Rltb_false x y : Rltb x y = false <-> y <= x.
Proof. unfold Rltb; destruct (Rlt_dec x y); split; intros; try easy; lra. Qed.
Lemma Reqb_true x y : Reqb x y = true <-> x = y.
Proof. unfold Reqb; destruct (Req_EM_T x y); split; intros; try easy; lra. Qed.
Lemma Reqb_false x y : Reqb x y = false <-> x <> y.
Proof. unfold Reqb; destruct (Req_EM_T x y); split; intros; try easy; lra. Qed.

Lemma Rleb_le x y : x <= y -> Rleb x y = true. Proof. apply Rleb_true. Qed.
Lemma Rleb_gt x y : y < x -> Rleb x y = false. Proof. apply Rleb_false. Qed.
Lemma Rltb_lt x y : x < y -> Rltb x y = true. Proof. apply Rltb_true. Qed.
Lemma Rltb_ge x y : y <= x -> Rltb x y = false. Proof. apply Rltb_false. Qed.
Lemma Reqb_refl x : Reqb x x = true. Proof. now apply Reqb_true. Qed.

(** Case analysis on one boolean comparison of reals. *)
Ltac rcase :=
  match goal with
  | |- context [Rleb ?x ?y] => destruct (Rleb x y) eqn:?
  | |- context [Rltb ?x ?y] => destruct (Rltb x y) eqn:?
  | |- context [Reqb ?x ?y] => destruct (Reqb x y) eqn:?
  end.
Ltac rbool :=
  repeat match goal with
  | H : Rleb _ _ = true |- _ => apply Rleb_true in H
  | H : Rleb _ _ = false |- _ => apply Rleb_false in H
  | H : Rltb _ _ = true |- _ => apply Rltb_true in H
  | H : Rltb _ _ = false |- _ => apply Rltb_false in H
  | H : Reqb _ _ = true |- _ => apply Reqb_true in H
  | H : Reqb _ _ = false |- _ => apply Reqb_false in H
  | H : _ && _ = true |- _ => apply andb_true_iff in H; destruct H
  | H : negb _ = true |- _ => apply negb_true_iff in H
  | H : negb _ = false |- _ => apply negb_false_iff in H
  | H : _ || _ = false |- _ => apply orb_false_iff in H; destruct H
  end.

(** Floor *)
Lemma Rfloor_bounds x : IZR (Rfloor x) <= x < IZR (Rfloor x) + 1.
Proof. unfold Rfloor. destruct (base_Int_part x). lra. Qed.
Lemma Rfloor_unique x (z : Z) : IZR z <= x < IZR z + 1 -> Rfloor x = z.
Proof.
  intros H. pose proof (Rfloor_bounds x) as H'.
  assert (IZR (Rfloor x) < IZR (z + 1)) by (rewrite plus_IZR; lra).
  assert (IZR z < IZR (Rfloor x + 1)) by (rewrite plus_IZR; lra).
  apply lt_IZR in H0, H1. lia.
Qed.
Lemma Rfloor_IZR z : Rfloor (IZR z) = z.
Proof. apply Rfloor_unique. lra. Qed.
Lemma Rfloor_nonneg x : 0 <= x -> (0 <= Rfloor x)%Z.
Proof.
  intros H. pose proof (Rfloor_bounds x).
  assert (IZR (-1) < IZR (Rfloor x)) by lra. apply lt_IZR in H1. lia.
Qed.
Lemma Rfloor_plus_IZR x z : Rfloor (x + IZR z) = (Rfloor x + z)%Z.
Proof. apply Rfloor_unique. rewrite plus_IZR. pose proof (Rfloor_bounds x). lra. Qed.

Lemma Rpymod_bounds x y : 0 < y -> 0 <= Rpymod x y < y.
Proof.
  intros Hy. unfold Rpymod. pose proof (Rfloor_bounds (x / y)) as [H1 H2].
  assert (Hx : x = y * (x / y)) by (field; lra).
  set (q := x / y) in *. rewrite Hx. clearbody q. split; nra.
Qed.

(** Rounding *)
Lemma Rround_even_near x : Rabs (x - IZR (Rround_even x)) <= 1/2.
Proof.
  unfold Rround_even. pose proof (Rfloor_bounds x) as H.
  destruct (Rltb (x - IZR (Rfloor x)) (1/2)) eqn:E1; rbool.
  - apply Rabs_le. lra.
  - destruct (Rltb (1/2) (x - IZR (Rfloor x))) eqn:E2; rbool.
    + rewrite plus_IZR. apply Rabs_le. lra.
    + destruct (Z.even (Rfloor x)); try rewrite plus_IZR; apply Rabs_le; lra.
Qed.
Lemma Rround_even_IZR z : Rround_even (IZR z) = z.
Proof.
  unfold Rround_even. rewrite Rfloor_IZR.
  rewrite (proj2 (Rltb_true (IZR z - IZR z) (1/2))); [easy|lra].
Qed.

(** Clipping *)
Lemma Rclip_bounds x a b : a <= b -> a <= Rclip x a b <= b.
Proof. intros H. unfold Rclip, Rmin, Rmax. destruct (Rle_dec x a); destruct (Rle_dec _ b); lra. Qed.
Lemma Rclip_id x a b : a <= x <= b -> Rclip x a b = x.
Proof.
  intros H. unfold Rclip, Rmin, Rmax.
  destruct (Rle_dec x a); destruct (Rle_dec _ b); lra.
Qed.
Lemma Zclip_bounds x a b : (a <= b)%Z -> (a <= Zclip x a b <= b)%Z.
Proof. unfold Zclip. lia. Qed.
Lemma Zclip_id x a b : (a <= x <= b)%Z -> Zclip x a b = x.
Proof. unfold Zclip. lia. Qed.

(** Norms *)
Lemma vnorm_nonneg v : 0 <= vnorm v.
Proof. apply sqrt_pos. Qed.
Lemma vnorm_sq v : vnorm v * vnorm v = fst v * fst v + snd v * snd v.
Proof. unfold vnorm. apply sqrt_sqrt. nra. Qed.
Lemma vnorm_scal k v : vnorm (vscal k v) = Rabs k * vnorm v.
Proof.
  unfold vnorm, vscal; simpl.
  replace (k * fst v * (k * fst v) + k * snd v * (k * snd v))
    with (Rsqr k * (fst v * fst v + snd v * snd v)) by (unfold Rsqr; ring).
  rewrite sqrt_mult_alt by apply Rle_0_sqr. now rewrite sqrt_Rsqr_abs.
Qed.
Lemma vnorm_zero v : vnorm v = 0 <-> v = (0, 0).
Proof.
  split.
  - intros H. pose proof (vnorm_sq v) as E. rewrite H in E. destruct v as [a b]; simpl in *.
    assert (a = 0) by nra. assert (b = 0) by nra. now subst.
  - intros ->. unfold vnorm; simpl. replace (0*0+0*0) with 0 by ring. apply sqrt_0.
Qed.
Lemma vnorm_unit t : vnorm (cos t, sin t) = 1.
Proof.
  unfold vnorm; simpl. replace (cos t * cos t + sin t * sin t) with 1; [apply sqrt_1|].
  pose proof (sin2_cos2 t). unfold Rsqr in *. lra.
Qed.
Lemma cos_sin_1 t : cos t * cos t + sin t * sin t = 1.
Proof. pose proof (sin2_cos2 t). unfold Rsqr in *. lra. Qed.

Lemma sqrt_le_of_sq x y : 0 <= y -> x <= y * y -> sqrt x <= y.
Proof.
  intros Hy Hx. destruct (Rle_dec 0 x) as [H0|H0].
  - rewrite <- (sqrt_Rsqr y Hy). apply sqrt_le_1_alt. unfold Rsqr. lra.
  - rewrite sqrt_neg_0 by lra. lra.
Qed.
Lemma sqrt_sq x : 0 <= x -> sqrt (x * x) = x.
Proof. intros. rewrite <- (sqrt_Rsqr x) at 3 by easy. reflexivity. Qed.

(** Results *)
Lemma bind_ok {A B} (r : res A) (f : A -> res B) b :
  bind r f = Ok b -> exists a, r = Ok a /\ f a = Ok b.
Proof. destruct r; simpl; intros; [eauto|discriminate]. Qed.
Lemma rmap_ok {A B} (f : A -> B) r b : rmap f r = Ok b -> exists a, r = Ok a /\ b = f a.
Proof. destruct r; simpl; intros; [inversion H; eauto|discriminate]. Qed.
Ltac inv_ok :=
  repeat match goal with
  | H : bind _ _ = Ok _ |- _ => apply bind_ok in H; destruct H as (? & ? & H)
  | H : rmap _ _ = Ok _ |- _ => apply rmap_ok in H; destruct H as (? & ? & ?)
  | H : Ok _ = Ok _ |- _ => injection H as H; try subst
  | H : Err _ = Ok _ |- _ => discriminate H
  end.

Lemma mapM_ok_Forall2 {A B} (f : A -> res B) l out :
  mapM f l = Ok out -> Forall2 (fun a b => f a = Ok b) l out.
Proof.
  revert out; induction l as [|a l IH]; simpl; intros out H.
  - inv_ok. constructor.
  - inv_ok. constructor; auto.
Qed.
Lemma mapM_Forall2 {A B} (f : A -> res B) l out :
  Forall2 (fun a b => f a = Ok b) l out -> mapM f l = Ok out.
Proof. induction 1; simpl; auto. rewrite H, IHForall2. reflexivity. Qed.
Lemma mapM_total {A B} (f : A -> res B) l :
  (forall a, In a l -> exists b, f a = Ok b) -> exists out, mapM f l = Ok out.
Proof.
  induction l as [|a l IH]; intros H; simpl; [eauto|].
  destruct (H a) as [b Hb]; [now left|]. rewrite Hb; simpl.
  destruct IH as [out Ho]; [intros; apply H; now right|]. rewrite Ho; simpl. eauto.
Qed.
Lemma mapM_length {A B} (f : A -> res B) l out : mapM f l = Ok out -> List.length out = List.length l.
Proof. intros H. apply mapM_ok_Forall2 in H. induction H; simpl; auto. Qed.

(** python indexing *)
Lemma py_index_nat {A} (l : list A) k :
  py_index l (Z.of_nat k) = match nth_error l k with Some x => Ok x | None => Err IndexError end.
Proof.
  unfold py_index. replace (Z.of_nat k <? 0)%Z with false by (symmetry; apply Z.ltb_ge; lia).
  replace (0 <=? Z.of_nat k)%Z with true by (symmetry; apply Z.leb_le; lia).
  now rewrite Nat2Z.id.
Qed.
Lemma py_index_range {A} (l : list A) k x :
  py_index l k = Ok x -> (- Z.of_nat (List.length l) <= k < Z.of_nat (List.length l))%Z /\ In x l.
Proof.
  unfold py_index. destruct (k <? 0)%Z eqn:E; [apply Z.ltb_lt in E|apply Z.ltb_ge in E].
  - destruct (0 <=? k + Z.of_nat (List.length l))%Z eqn:E2; [|easy]. apply Z.leb_le in E2.
    destruct (nth_error l _) eqn:E3; [|easy]. intros H; injection H as ->.
    split; [lia|]. eapply nth_error_In; eauto.
  - replace (0 <=? k)%Z with true by (symmetry; apply Z.leb_le; lia).
    destruct (nth_error l (Z.to_nat k)) eqn:E3; [|easy]. intros H; injection H as ->.
    assert (nth_error l (Z.to_nat k) <> None) by congruence.
    apply nth_error_Some in H. split; [lia|]. eapply nth_error_In; eauto.
Qed.
Lemma py_index_total {A} (l : list A) k :
  (0 <= k < Z.of_nat (List.length l))%Z -> exists x, py_index l k = Ok x /\ nth_error l (Z.to_nat k) = Some x.
Proof.
  intros H. rewrite <- (Z2Nat.id k) by lia. rewrite py_index_nat.
  destruct (nth_error l (Z.to_nat k)) eqn:E.
  - exists a. rewrite Nat2Z.id. now rewrite E.
  - apply nth_error_None in E. lia.
Qed.

(** First minimum *)
Lemma first_min_from_spec {A} (key : A -> R) l best :
  let m := first_min_from key best l in
  exists pre post, best :: l = pre ++ m :: post /\
    (forall y, In y pre -> key m < key y) /\ (forall y, In y post -> key m <= key y).
Proof.
  revert best; induction l as [|x l IH]; intros best; simpl.
  - exists [], []. simpl. repeat split; intros y [].
  - destruct (Rltb (key x) (key best)) eqn:E; rbool.
    + destruct (IH x) as (pre & post & H1 & H2 & H3).
      exists (best :: pre), post. repeat split; auto.
      * simpl. now rewrite H1.
      * intros y [<-|Hy]; [|now apply H2].
        destruct pre as [|p0 pre]; simpl in H1; injection H1 as H1 H1'.
        -- rewrite <- H1. exact E.
        -- assert (key (first_min_from key x l) < key p0) by (apply H2; now left). subst. lra.
    + destruct (IH best) as (pre & post & H1 & H2 & H3).
      set (m := first_min_from key best l) in *. clearbody m.
      destruct pre as [|p0 pre]; simpl in H1; injection H1 as H1 H1'.
      * subst m l. exists [], (x :: post). simpl. split; [easy|]. split; [intros y []|].
        intros y [<-|Hy]; [lra|now apply H3].
      * subst p0 l. exists (best :: x :: pre), post. simpl. split; [easy|]. split; auto.
        assert (key m < key best) by (apply H2; now left).
        intros y [<-|[<-|Hy]]; auto; try lra. apply H2. now right.
Qed.
Lemma first_min_spec {A} (key : A -> R) l m :
  first_min key l = Ok m ->
  exists pre post, l = pre ++ m :: post /\
    (forall y, In y pre -> key m < key y) /\ (forall y, In y post -> key m <= key y).
Proof.
  destruct l as [|x l]; simpl; [easy|]. intros H. injection H as <-.
  apply (first_min_from_spec key l x).
Qed.
Lemma first_min_ok {A} (key : A -> R) l : l <> [] -> exists m, first_min key l = Ok m.
Proof. destruct l; [easy|]. simpl. eauto. Qed.
Lemma first_min_In {A} (key : A -> R) l m : first_min key l = Ok m -> In m l.
Proof. intros H. apply first_min_spec in H as (pre & post & -> & _). apply in_elt. Qed.
Lemma first_min_le {A} (key : A -> R) l m y : first_min key l = Ok m -> In y l -> key m <= key y.
Proof.
  intros H Hy. apply first_min_spec in H as (pre & post & -> & H1 & H2).
  apply in_app_or in Hy as [Hy|[<-|Hy]]; [apply H1 in Hy|..]; auto; lra.
Qed.

(** Sorting *)
Lemma insert_by_perm {A} (key : A -> R) x l : Permutation (insert_by key x l) (x :: l).
Proof.
  induction l as [|y l IH]; simpl; auto. destruct (Rleb _ _); auto.
  rewrite IH. apply perm_swap.
Qed.
Lemma sort_by_perm {A} (key : A -> R) l : Permutation (sort_by key l) l.
Proof. induction l; simpl; auto. rewrite insert_by_perm. now constructor. Qed.
Lemma insert_by_sorted {A} (key : A -> R) x l :
  StronglySorted (fun a b => key a <= key b) l -> StronglySorted (fun a b => key a <= key b) (insert_by key x l).
Proof.
  induction 1 as [|y l Hs IH Hf]; simpl; [repeat constructor|].
  destruct (Rleb (key x) (key y)) eqn:E; rbool.
  - constructor; [now constructor|]. constructor; auto.
    eapply Forall_impl; [|exact Hf]. simpl. intros; lra.
  - constructor; auto. eapply Permutation_Forall; [symmetry; apply insert_by_perm|].
    constructor; auto. lra.
Qed.
Lemma sort_by_sorted {A} (key : A -> R) l : StronglySorted (fun a b => key a <= key b) (sort_by key l).
Proof. induction l; simpl; [constructor|]. now apply insert_by_sorted. Qed.
Lemma sort_by_In {A} (key : A -> R) l x : In x (sort_by key l) <-> In x l.
Proof. split; apply Permutation_in; [|symmetry]; apply sort_by_perm. Qed.

(** Association lists *)
Lemma assoc_set_same {A} k (v : A) d : assoc k (assoc_set k v d) = Some v.
Proof.
  induction d as [|[k' v'] d IH]; simpl; [now rewrite String.eqb_refl|].
  destruct (String.eqb k k') eqn:E; simpl; [now rewrite String.eqb_refl|]. now rewrite E.
Qed.
Lemma assoc_set_other {A} k k' (v : A) d : k <> k' -> assoc k' (assoc_set k v d) = assoc k' d.
Proof.
  intros Hn. assert (En : String.eqb k' k = false) by (apply String.eqb_neq; congruence).
  induction d as [|[k2 v2] d IH]; simpl; [now rewrite En|].
  destruct (String.eqb k k2) eqn:E; simpl; auto.
  - apply String.eqb_eq in E; subst. now rewrite En.
  - destruct (String.eqb k' k2); auto.
Qed.
Lemma assoc_In {A} k (v : A) d : assoc k d = Some v -> In (k, v) d.
Proof.
  induction d as [|[k' v'] d IH]; simpl; [easy|]. destruct (String.eqb k k') eqn:E.
  - apply String.eqb_eq in E; subst. intros H; injection H as ->. now left.
  - intros H. right. auto.
Qed.
Lemma In_assoc {A} k (v : A) d : NoDup (keys d) -> In (k, v) d -> assoc k d = Some v.
Proof.
  induction d as [|[k' v'] d IH]; simpl; [easy|]. intros Hn [H|H]; inversion Hn; subst.
  - injection H as -> ->. now rewrite String.eqb_refl.
  - destruct (String.eqb k k') eqn:E; auto. apply String.eqb_eq in E; subst.
    exfalso. apply H2. apply in_map_iff. exists (k', v). auto.
Qed.
Lemma assoc_keys {A} k (d : list (string * A)) : In k (keys d) <-> exists v, assoc k d = Some v.
Proof.
  induction d as [|[k' v'] d IH]; simpl.
  - split; [easy|intros [v H]; easy].
  - destruct (String.eqb k k') eqn:E.
    + apply String.eqb_eq in E; subst. split; eauto.
    + apply String.eqb_neq in E. rewrite <- IH. split; [intros [->|H]; easy|auto].
Qed.
Lemma assoc_None {A} k (d : list (string * A)) : assoc k d = None <-> ~ In k (keys d).
Proof.
  rewrite assoc_keys. destruct (assoc k d); split; intros; try easy.
  - exfalso. eauto.
  - intros [v H']; easy.
Qed.
Lemma assoc_set_keys {A} k (v : A) d :
  keys (assoc_set k v d) = if existsb (String.eqb k) (keys d) then keys d else keys d ++ [k].
Proof.
  induction d as [|[k' v'] d IH]; simpl; auto.
  destruct (String.eqb k k') eqn:E; simpl.
  - apply String.eqb_eq in E. now subst.
  - rewrite IH. now destruct (existsb _ _).
Qed.
Lemma assoc_set_NoDup {A} k (v : A) d : NoDup (keys d) -> NoDup (keys (assoc_set k v d)).
Proof.
  intros H. rewrite assoc_set_keys. destruct (existsb _ _) eqn:E; auto.
  assert (~ In k (keys d)).
  { intros Hin. assert (existsb (String.eqb k) (keys d) = true); [|congruence].
    apply existsb_exists. exists k. split; auto. apply String.eqb_refl. }
  eapply Permutation_NoDup; [apply Permutation_cons_append|]. now constructor.
Qed.

(** update_nth-free iteration *)
Lemma iter_S {A} n (f : A -> A) x : iter (S n) f x = f (iter n f x).
Proof. revert x; induction n as [|n IH]; intros x; auto. simpl in *. now rewrite IH. Qed.
