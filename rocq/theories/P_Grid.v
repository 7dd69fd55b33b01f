(** Lemmas about the occupancy grid and the image stack. *)
From Verif Require Import Prelude M_Utils M_Lane M_Road M_Vehicle M_Kinematics M_Control M_Behavior M_Action M_Ttc M_Obs
  S_Geometry S_Road S_Ttc S_Obs P_Base P_Utils P_Ttc P_Obs.
From Coq Require Import Lra Lia Psatz Permutation.
Open Scope R_scope.

Lemma trunc_counted x k : Rtrunc x = Z.of_nat k <-> ((0 < k)%nat /\ INR k <= x < INR k + 1) \/ (k = 0%nat /\ -1 < x < 1).
Proof.
  unfold Rtrunc. rcase; rbool.
  - destruct (floor_bounds x) as [A B]. split.
    + intros E. rewrite E, <- INR_IZR_INZ in A, B. destruct k as [|k]; [right; change (INR 0) with 0 in *; split; [reflexivity | lra] | left; split; [lia | lra]].
    + rewrite INR_IZR_INZ. intros [[Hk H] | [-> H]]; apply floor_unique; [lra | change (IZR (Z.of_nat 0)) with 0; lra].
  - destruct (floor_bounds (- x)) as [A B]. split.
    + intros E. assert (F : Rfloor (- x) = 0%Z).
      { assert (0 <= Rfloor (- x))%Z; [|lia]. assert (-1 < IZR (Rfloor (- x))) by lra. apply lt_IZR in H. lia. }
      rewrite F in *. assert (k = 0%nat) as -> by lia. right. split; [reflexivity|]. cbn in *. lra.
    + intros [[Hk H] | [-> H]].
      * assert (0 <= INR k) by apply pos_INR. lra.
      * rewrite (floor_unique (- x) 0%Z) by (cbn; lra). reflexivity.
Qed.
Lemma cell_counted lower step x k : 0 < step -> (occ_cell x lower step = Z.of_nat k <-> counted_in lower step x k).
Proof.
  intros H. unfold occ_cell, counted_in. rewrite trunc_counted. pose proof (Rinv_0_lt_compat _ H) as I. assert (Q : / step * step = 1) by (apply Rinv_l; lra).
  set (q := (x - lower) / step). assert (Eq : x - lower = q * step) by (unfold q; field; lra).
  split; (intros [[A B] | [A B]]; [left | right]; (split; [exact A|])); nra.
Qed.

(** ** Cells of a plane *)
Lemma modify_entry (p : list (list R)) i j x i' j' : (i' < List.length p)%nat -> Forall (fun row => (j' < List.length row)%nat) p ->
  entry (set_cell p i j x) i' j' = if Nat.eqb i' i && Nat.eqb j' j then Some x else entry p i' j'.
Proof.
  assert (N : forall {A} (f : A -> A) l k k', nth_error (modify_nth k f l) k' = if Nat.eqb k' k then option_map f (nth_error l k') else nth_error l k').
  { intros A f l. induction l as [|a l IH]; intros [|k] [|k']; cbn; try reflexivity; try (destruct (Nat.eqb k' k); reflexivity). apply IH. }
  intros Hi Hj. unfold entry, set_cell. rewrite N. destruct (nth_error p i') as [row|] eqn:Q; [|apply nth_error_None in Q; lia].
  assert (Hr : (j' < List.length row)%nat) by (rewrite Forall_forall in Hj; apply Hj; eapply nth_error_In; exact Q).
  destruct (Nat.eqb i' i); [|reflexivity]. cbn [option_map andb]. rewrite N. destruct (Nat.eqb j' j); [|reflexivity].
  destruct (nth_error row j') eqn:Q'; [reflexivity | apply nth_error_None in Q'; lia].
Qed.
Definition dims2 (m n : nat) (p : list (list R)) : Prop := List.length p = m /\ Forall (fun row => List.length row = n) p.
Lemma set_cell_dims m n p i j x : dims2 m n p -> dims2 m n (set_cell p i j x).
Proof.
  intros [A B]. split; [unfold set_cell; now rewrite modify_len|]. apply modify_forall; [|exact B]. intros row Hr. now rewrite modify_len.
Qed.
Lemma zero_dims c : dims2 (fst (oc_shape c)) (snd (oc_shape c)) (zero_plane c).
Proof.
  split; [apply repeat_length|]. apply Forall_forall. intros row H. apply repeat_spec in H as ->. apply repeat_length.
Qed.
Lemma zero_entry c i j : (i < fst (oc_shape c))%nat -> (j < snd (oc_shape c))%nat -> entry (zero_plane c) i j = Some 0.
Proof. intros Hi Hj. unfold entry, zero_plane. rewrite nth_error_repeat by exact Hi. now rewrite nth_error_repeat. Qed.
Lemma map_entry (f : R -> R) p i j : entry (map (map f) p) i j = option_map f (entry p i j).
Proof. unfold entry. rewrite nth_error_map. destruct (nth_error p i) as [row|]; [|reflexivity]. cbn. now rewrite nth_error_map. Qed.

(** ** One vehicle *)
Lemma occ_normalize_spec r d : forall nd, occ_normalize r d = Ok nd ->
  forall name x, assoc name d = Some x -> exists y, assoc name nd = Some y /\ scaled (assoc name r) false x y.
Proof.
  induction d as [|[k a] d IH]; intros nd E name x H; [discriminate|]. cbn in E. apply bind_ok in E as ([k' a'] & Ea & E). apply bind_ok in E as (nd' & En & E).
  injection E as <-. apply bind_ok in Ea as (y & Ey & Ea). injection Ea as <- <-. cbn [assoc] in H |- *. destruct (String.eqb_spec name k) as [->|].
  - injection H as ->. exists y. split; [reflexivity|]. now apply normalize_value_spec in Ey.
  - eapply IH; eassumption.
Qed.
Lemma occ_normalize_keys r d nd : occ_normalize r d = Ok nd -> keys nd = keys d.
Proof.
  revert nd. induction d as [|[k a] d IH]; intros nd E; [injection E as <-; reflexivity|]. cbn in E. apply bind_ok in E as ([k' a'] & Ea & E). apply bind_ok in E as (nd' & En & E).
  injection E as <-. apply bind_ok in Ea as (y & Ey & Ea). injection Ea as <- <-. cbn. f_equal. now apply IH.
Qed.
Lemma coordinate_spec r d nd name x y : occ_normalize r d = Ok nd -> assoc name d = Some x -> occ_coordinate r name nd = Ok y -> y = x.
Proof.
  intros En H E. destruct (occ_normalize_spec _ _ _ En _ _ H) as (z & Hz & Sc). unfold occ_coordinate in E. rewrite Hz in E. unfold scaled in Sc.
  destruct (assoc name r) as [[a b]|]; [|congruence]. destruct Sc as (N & z' & -> & ->). unfold lmap in E. cbn [fst snd] in E.
  rewrite (proj2 (Reqb_false _ _)) in E by lra. injection E as <-. field. lra.
Qed.
Lemma coordinate_total r d nd name x : occ_normalize r d = Ok nd -> assoc name d = Some x -> exists y, occ_coordinate r name nd = Ok y.
Proof.
  intros En H. destruct (occ_normalize_spec _ _ _ En _ _ H) as (z & Hz & Sc). unfold occ_coordinate. rewrite Hz. destruct (assoc name r) as [[a b]|]; [|eauto].
  unfold lmap. cbn [fst snd]. rewrite (proj2 (Reqb_false _ _)) by lra. eauto.
Qed.
Lemma feature_xy g o w : forall d, to_dict g w (Some o) true = Ok d ->
  assoc "x" d = Some (fst (v_pos w) - fst (v_pos o)) /\ assoc "y" d = Some (snd (v_pos w) - snd (v_pos o)).
Proof.
  intros d D. split; apply (to_dict_spec _ _ _ _ _ _ _ D); eexists; (split; [constructor|]); left; (split; [unfold is_relative; cbn; auto|]); eexists; (split; [constructor | reflexivity]).
Qed.
Lemma place_spec g c r name p o w d nd p' : 0 < fst (oc_step c) -> 0 < snd (oc_step c) ->
  to_dict g w (Some o) true = Ok d -> occ_normalize r d = Ok nd -> occ_place c r name p nd = Ok p' ->
  dims2 (fst (oc_shape c)) (snd (oc_shape c)) p -> dims2 (fst (oc_shape c)) (snd (oc_shape c)) p' /\
  forall i j, (i < fst (oc_shape c))%nat -> (j < snd (oc_shape c))%nat ->
    (counted (oc_size c) (oc_step c) o w i j -> exists x y, seen_feature g (Some o) w true name x /\ scaled (assoc name r) false x y /\ entry p' i j = Some y) /\
    (~ counted (oc_size c) (oc_step c) o w i j -> entry p' i j = entry p i j).
Proof.
  intros H1 H2 D En E Dp. destruct (feature_xy _ _ _ _ D) as [Hx Hy]. unfold occ_place in E. apply bind_ok in E as (x & Ex & E). apply bind_ok in E as (y & Ey & E).
  rewrite (coordinate_spec _ _ _ _ _ _ En Hx Ex) in E. rewrite (coordinate_spec _ _ _ _ _ _ En Hy Ey) in E. clear x Ex y Ey.
  set (cx := occ_cell (fst (v_pos w) - fst (v_pos o)) (fst (fst (oc_size c))) (fst (oc_step c))) in E.
  set (cy := occ_cell (snd (v_pos w) - snd (v_pos o)) (fst (snd (oc_size c))) (snd (oc_step c))) in E.
  assert (Ct : forall i j, counted (oc_size c) (oc_step c) o w i j <-> cy = Z.of_nat i /\ cx = Z.of_nat j).
  { intros i j. unfold counted. rewrite <- !cell_counted by assumption. reflexivity. }
  destruct ((0 <=? cy)%Z && (cy <? Z.of_nat (fst (oc_shape c)))%Z && (0 <=? cx)%Z && (cx <? Z.of_nat (snd (oc_shape c)))%Z) eqn:Q.
  - rewrite !andb_true_iff, !Z.leb_le, !Z.ltb_lt in Q. destruct (assoc name nd) as [f|] eqn:Hf; [|discriminate]. injection E as <-. split; [now apply set_cell_dims|].
    intros i j Hi Hj. rewrite modify_entry.
    2: { destruct Dp as [L _]. lia. }
    2: { destruct Dp as [_ F]. eapply Forall_impl; [|exact F]. cbn. intros row Hr. lia. }
    rewrite Ct. split.
    + intros [A B]. assert (assoc name d <> None).
      { intros F. apply assoc_None in F. rewrite <- (occ_normalize_keys _ _ _ En) in F. apply F, assoc_keys. eauto. }
      destruct (assoc name d) as [x|] eqn:Hd; [|contradiction]. destruct (occ_normalize_spec _ _ _ En _ _ Hd) as (y & Hy' & Sc). assert (y = f) as -> by congruence.
      exists x, f. split; [now apply (to_dict_spec _ _ _ _ _ _ _ D)|]. split; [exact Sc|]. rewrite A, B, !Nat2Z.id, !Nat.eqb_refl. reflexivity.
    + intros N. destruct (Nat.eqb i (Z.to_nat cy)) eqn:Q1; [|reflexivity]. destruct (Nat.eqb j (Z.to_nat cx)) eqn:Q2; [|reflexivity]. exfalso. apply N. apply Nat.eqb_eq in Q1, Q2. lia.
  - injection E as <-. split; [exact Dp|]. intros i j Hi Hj. split; [|reflexivity]. rewrite Ct. intros [A B]. exfalso.
    rewrite !andb_false_iff, !Z.leb_gt, !Z.ltb_ge in Q. lia.
Qed.

(** ** All vehicles *)
Lemma foldM_app {A S} (f : S -> A -> res S) l1 : forall l2 s, foldM f (l1 ++ l2) s = do s' <- foldM f l1 s; foldM f l2 s'.
Proof. induction l1 as [|a l1 IH]; intros l2 s; [reflexivity|]. cbn. destruct (f s a); [|reflexivity]. cbn. apply IH. Qed.
Lemma mapM_app {A B} (f : A -> res B) l1 : forall l2 out, mapM f (l1 ++ l2) = Ok out -> exists o1 o2, out = o1 ++ o2 /\ mapM f l1 = Ok o1 /\ mapM f l2 = Ok o2.
Proof.
  induction l1 as [|a l1 IH]; intros l2 out E; [exists [], out; auto|]. cbn in E. apply bind_ok in E as (y & Ey & E). apply bind_ok in E as (ys & Eys & E). injection E as <-.
  destruct (IH _ _ Eys) as (o1 & o2 & -> & A1 & A2). exists (y :: o1), o2. split; [reflexivity|]. split; [|exact A2]. cbn. now rewrite Ey, A1.
Qed.
Section fill.
Variables (g : graph) (c : occ_config) (r : ranges) (name : string) (o : vehicle).
Hypothesis H1 : 0 < fst (oc_step c).
Hypothesis H2 : 0 < snd (oc_step c).
Definition recs (vs : list vehicle) (nds : list features) : Prop := exists ds, mapM (fun v => to_dict g v (Some o) true) vs = Ok ds /\ mapM (occ_normalize r) ds = Ok nds.
Lemma recs_nil nds : recs [] nds -> nds = [].
Proof. intros (ds & A & B). injection A as <-. injection B as <-. reflexivity. Qed.
Lemma recs_cons v vs nds : recs (v :: vs) nds -> exists d nd nds', to_dict g v (Some o) true = Ok d /\ occ_normalize r d = Ok nd /\ nds = nd :: nds' /\ recs vs nds'.
Proof.
  intros (ds & A & B). cbn in A. apply bind_ok in A as (d & D & A). apply bind_ok in A as (ds' & Ds & A). injection A as <-. cbn in B. apply bind_ok in B as (nd & N & B).
  apply bind_ok in B as (nds' & Ns & B). injection B as <-. exists d, nd, nds'. split; [exact D|]. split; [exact N|]. split; [reflexivity|]. exists ds'. auto.
Qed.
Lemma fill_none vs : forall nds p p', recs vs nds -> foldM (occ_place c r name) nds p = Ok p' -> dims2 (fst (oc_shape c)) (snd (oc_shape c)) p ->
  dims2 (fst (oc_shape c)) (snd (oc_shape c)) p' /\ forall i j, (i < fst (oc_shape c))%nat -> (j < snd (oc_shape c))%nat ->
    (forall w, In w vs -> ~ counted (oc_size c) (oc_step c) o w i j) -> entry p' i j = entry p i j.
Proof.
  induction vs as [|v vs IH]; intros nds p p' Rc E Dp.
  - apply recs_nil in Rc as ->. injection E as <-. auto.
  - apply recs_cons in Rc as (d & nd & nds' & D & N & -> & Rc). cbn in E. apply bind_ok in E as (p1 & E1 & E).
    destruct (place_spec _ _ _ _ _ _ _ _ _ _ H1 H2 D N E1 Dp) as [D1 P1]. destruct (IH _ _ _ Rc E D1) as [D2 P2]. split; [exact D2|].
    intros i j Hi Hj Nw. rewrite P2 by (auto; intros w Hw; apply Nw; now right). apply (proj2 (P1 i j Hi Hj)). apply Nw. now left.
Qed.
Lemma fill_last vs1 w vs2 nds p p' i j : recs (vs1 ++ w :: vs2) nds -> foldM (occ_place c r name) nds p = Ok p' -> dims2 (fst (oc_shape c)) (snd (oc_shape c)) p ->
  (i < fst (oc_shape c))%nat -> (j < snd (oc_shape c))%nat -> counted (oc_size c) (oc_step c) o w i j ->
  (forall w', In w' vs2 -> ~ counted (oc_size c) (oc_step c) o w' i j) ->
  exists x y, seen_feature g (Some o) w true name x /\ scaled (assoc name r) false x y /\ entry p' i j = Some y.
Proof.
  intros (ds & A & B) E Dp Hi Hj Cw Nw. apply mapM_app in A as (ds1 & ds2 & -> & A1 & A2). apply mapM_app in B as (nds1 & nds2 & -> & B1 & B2).
  rewrite foldM_app in E. apply bind_ok in E as (p1 & E1 & E). destruct (fill_none vs1 nds1 p p1 (ex_intro _ ds1 (conj A1 B1)) E1 Dp) as [D1 _].
  assert (Rc : recs (w :: vs2) nds2) by (exists ds2; auto). apply recs_cons in Rc as (d & nd & nds' & D & N & -> & Rc). cbn in E. apply bind_ok in E as (p2 & E2 & E).
  destruct (place_spec _ _ _ _ _ _ _ _ _ _ H1 H2 D N E2 D1) as [D2 P2]. destruct (fill_none _ _ _ _ Rc E D2) as [_ P3]. destruct (proj1 (P2 i j Hi Hj) Cw) as (x & y & S0 & Sc & Ey).
  exists x, y. split; [exact S0|]. split; [exact Sc|]. rewrite P3; assumption.
Qed.
End fill.
