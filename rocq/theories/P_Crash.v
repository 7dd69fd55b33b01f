From Verif Require Import Prelude M_Utils M_Lane M_Road M_Vehicle M_Kinematics S_Geometry S_Road S_Vehicle
  P_Base P_Utils P_Lane P_Graph P_Collision P_Kin.
From Coq Require Import Lia Lra Permutation.
Open Scope R_scope.

(** ** update_nth *)
Lemma update_nth_length {A} k (x : A) l : List.length (update_nth k x l) = List.length l.
Proof. revert k; induction l as [|y l IH]; intros [|k]; simpl; auto. Qed.
Lemma update_nth_same {A} k (x : A) l : (k < List.length l)%nat -> nth_error (update_nth k x l) k = Some x.
Proof. revert k; induction l as [|y l IH]; intros [|k] H; simpl in *; try lia; auto. apply IH. lia. Qed.
Lemma update_nth_other {A} k j (x : A) l : k <> j -> nth_error (update_nth k x l) j = nth_error l j.
Proof. revert k j; induction l as [|y l IH]; intros [|k] [|j] H; simpl; auto; try lia. Qed.
Lemma update_nth_get {A} k j (x : A) l : nth_error (update_nth k x l) j =
  if Nat.eqb k j then match nth_error l j with Some _ => Some x | None => None end else nth_error l j.
Proof.
  destruct (Nat.eqb_spec k j) as [->|N]; [|now apply update_nth_other].
  destruct (nth_error l j) eqn:E.
  - apply update_nth_same. apply nth_error_Some. congruence.
  - apply nth_error_None. rewrite update_nth_length. now apply nth_error_None.
Qed.

(** ** What a collision phase may do to a vehicle or an object *)
Definition evolves (v v' : vehicle) : Prop :=
  v' = v \/ exists s, v' = set_crash v s /\ Rabs s <= Rabs (v_speed v).
Definition oevolves (o o' : object) : Prop := o' = o \/ o' = set_hit o.

Lemma evolves_refl v : evolves v v. Proof. now left. Qed.
Lemma evolves_trans a b c : evolves a b -> evolves b c -> evolves a c.
Proof.
  intros [->|(s & -> & H)] [->|(s' & -> & H')].
  - now left.
  - right. exists s'. easy.
  - right. exists s. easy.
  - right. exists s'. split; [reflexivity|]. simpl in H'. lra.
Qed.
Lemma oevolves_trans a b c : oevolves a b -> oevolves b c -> oevolves a c.
Proof. intros [->| ->] [->| ->]; unfold oevolves; auto. Qed.
Lemma evolves_fields v v' : evolves v v' ->
  v_id v' = v_id v /\ v_pos v' = v_pos v /\ v_heading v' = v_heading v /\ v_collisions v' = v_collisions v /\
  (v_crashed v = true -> v_crashed v' = true) /\ Rabs (v_speed v') <= Rabs (v_speed v) /\ v_kind v' = v_kind v.
Proof. intros [->|(s & -> & H)]; simpl; repeat split; auto; lra. Qed.
Lemma oevolves_fields o o' : oevolves o o' ->
  o_pos o' = o_pos o /\ o_heading o' = o_heading o /\ o_kind o' = o_kind o /\ (o_hit o = true -> o_hit o' = true).
Proof. intros [->| ->]; simpl; repeat split; auto. Qed.

Definition cstate : Type := (list vehicle * list object)%type.
Definition Rel (a b : cstate) : Prop := Forall2 evolves (fst a) (fst b) /\ Forall2 oevolves (snd a) (snd b).
Lemma Forall2_refl' {A} (P : A -> A -> Prop) l : (forall x, P x x) -> Forall2 P l l.
Proof. intros H. induction l; constructor; auto. Qed.
Lemma Forall2_trans' {A} (P : A -> A -> Prop) : (forall x y z, P x y -> P y z -> P x z) ->
  forall a b c, Forall2 P a b -> Forall2 P b c -> Forall2 P a c.
Proof.
  intros T a b c H. revert c. induction H; intros c' K; inversion K; subst; constructor; eauto.
Qed.
Lemma Rel_refl a : Rel a a.
Proof. split; apply Forall2_refl'; [apply evolves_refl | now left]. Qed.
Lemma Rel_trans a b c : Rel a b -> Rel b c -> Rel a c.
Proof.
  intros [A B] [C D]. split; eapply Forall2_trans'; eauto using evolves_trans, oevolves_trans.
Qed.
Lemma Forall2_nth {A B} (P : A -> B -> Prop) l l' : Forall2 P l l' ->
  forall k x, nth_error l k = Some x -> exists y, nth_error l' k = Some y /\ P x y.
Proof. induction 1; intros [|k] z E; simpl in *; try easy; [injection E as <-; eauto | eauto]. Qed.
Lemma Forall2_nth_r {A B} (P : A -> B -> Prop) l l' : Forall2 P l l' ->
  forall k y, nth_error l' k = Some y -> exists x, nth_error l k = Some x /\ P x y.
Proof. induction 1; intros [|k] z E; simpl in *; try easy; [injection E as <-; eauto | eauto]. Qed.
Lemma Forall2_length' {A B} (P : A -> B -> Prop) l l' : Forall2 P l l' -> List.length l = List.length l'.
Proof. induction 1; simpl; auto. Qed.
Lemma Forall2_update {A} (P : A -> A -> Prop) l k x : (forall y, P y y) ->
  (forall y, nth_error l k = Some y -> P y x) -> Forall2 P l (update_nth k x l).
Proof.
  intros R. revert k. induction l as [|a l IH]; intros [|k] H; simpl; constructor; auto using Forall2_refl'.
Qed.

Lemma min_abs_spec a b : Rabs (min_abs a b) <= Rabs a /\ Rabs (min_abs a b) <= Rabs b /\ (min_abs a b = a \/ min_abs a b = b).
Proof. unfold min_abs. rcase; rbool; repeat split; auto; lra. Qed.

Lemma check_collision_evolves v w v' w' : check_collision v w = (v', w') -> evolves v v' /\ evolves w w'.
Proof.
  unfold check_collision. destruct (v_crashed v || Nat.eqb (v_id w) (v_id v)); [intros [= <- <-]; split; apply evolves_refl|].
  destruct (negb (v_collisions v) || negb (v_collisions w)); [intros [= <- <-]; split; apply evolves_refl|].
  destruct (is_colliding v w); [|intros [= <- <-]; split; apply evolves_refl].
  destruct (min_abs_spec (v_speed v) (v_speed w)) as (A & B & _).
  intros [= <- <-]. split; right; eexists; split; eauto.
Qed.
Lemma collide_pair_rel i j vs : Forall2 evolves vs (collide_pair i vs j).
Proof.
  unfold collide_pair. destruct (nth_error vs i) as [v|] eqn:Ei; [|apply Forall2_refl', evolves_refl].
  destruct (nth_error vs j) as [w|] eqn:Ej; [|apply Forall2_refl', evolves_refl].
  destruct (check_collision v w) as [v' w'] eqn:E. pose proof (check_collision_evolves _ _ _ _ E) as [A B].
  apply (Forall2_trans' _ evolves_trans _ (update_nth j w' vs)).
  - apply Forall2_update; [apply evolves_refl|]. intros y Hy. congruence.
  - apply Forall2_update; [apply evolves_refl|]. intros y Hy. rewrite update_nth_get in Hy.
    destruct (Nat.eqb_spec j i) as [->|N].
    + rewrite Ei in Hy. injection Hy as <-. rewrite Ei in Ej. injection Ej as <-.
      (* self: nothing happens *)
      unfold check_collision in E. rewrite Nat.eqb_refl, orb_true_r in E. injection E as <- <-. apply evolves_refl.
    + congruence.
Qed.
Lemma collide_obj_rel i k st : Rel st (collide_obj i st k).
Proof.
  unfold collide_obj. destruct (nth_error (fst st) i) as [v|] eqn:Ei; [|apply Rel_refl].
  destruct (nth_error (snd st) k) as [o|] eqn:Ek; [|apply Rel_refl].
  destruct (check_collision_obj v o) as [v' o'] eqn:E.
  assert (Q : evolves v v' /\ oevolves o o').
  { unfold check_collision_obj in E. destruct (v_crashed v); [injection E as <- <-; split; [apply evolves_refl | now left]|].
    destruct (o_kind o).
    - destruct (negb (v_collisions v)); [injection E as <- <-; split; [apply evolves_refl | now left]|].
      destruct (is_colliding_obj v o); injection E as E1 E2; subst v' o'.
      + split; [|right; reflexivity]. right. destruct (min_abs_spec (v_speed v) 0) as (A & _). eauto.
      + split; [apply evolves_refl | left; reflexivity].
    - destruct (is_colliding_obj v o); injection E as E1 E2; subst v' o'; (split; [apply evolves_refl|]).
      + right; reflexivity.
      + left; reflexivity. }
  destruct Q as [A B]. split; simpl; apply Forall2_update.
  - apply evolves_refl.
  - intros y Hy. congruence.
  - now left.
  - intros y Hy. congruence.
Qed.

Lemma fold_rel {A S} (R : S -> S -> Prop) (f : S -> A -> S) : (forall s, R s s) -> (forall a b c, R a b -> R b c -> R a c) ->
  (forall s x, R s (f s x)) -> forall l s, R s (fold_left f l s).
Proof. intros Rr Rt Rf l. induction l as [|x l IH]; intros s; simpl; eauto. Qed.
(** Every element of the folded list is processed at some intermediate state. *)
Lemma fold_visits {A S} (R : S -> S -> Prop) (f : S -> A -> S) : (forall s, R s s) -> (forall a b c, R a b -> R b c -> R a c) ->
  (forall s x, R s (f s x)) -> forall l s x, In x l ->
  exists s1, R s s1 /\ R (f s1 x) (fold_left f l s).
Proof.
  intros Rr Rt Rf l. induction l as [|y l IH]; intros s x Hx; [destruct Hx|]; destruct Hx as [->|H]; simpl.
  - exists s. split; [easy|]. now apply fold_rel.
  - destruct (IH (f s y) x H) as (s1 & A1 & A2). exists s1. split; eauto.
Qed.

Definition EV2 (a b : list vehicle) : Prop := Forall2 evolves a b.
Lemma EV2_refl a : EV2 a a. Proof. apply Forall2_refl', evolves_refl. Qed.
Lemma EV2_trans a b c : EV2 a b -> EV2 b c -> EV2 a c.
Proof. apply Forall2_trans', evolves_trans. Qed.

Lemma collide_row_rel st i : Rel st (collide_row st i).
Proof.
  unfold collide_row. apply (Rel_trans _ (fold_left (collide_pair i) (seq 0 (List.length (fst st))) (fst st), snd st)).
  - split; simpl; [|apply Forall2_refl'; now left].
    apply (fold_rel EV2 (collide_pair i)); [apply EV2_refl | apply EV2_trans | intros; apply collide_pair_rel].
  - apply (fold_rel Rel (collide_obj i)); [apply Rel_refl | apply Rel_trans | intros; apply collide_obj_rel].
Qed.
Lemma collide_all_rel st : Rel st (collide_all st).
Proof. unfold collide_all. apply (fold_rel Rel collide_row); [apply Rel_refl | apply Rel_trans | apply collide_row_rel]. Qed.

(** Colliding status is unchanged along the phase. *)
Lemma is_colliding_evolves v w v' w' : evolves v v' -> evolves w w' -> is_colliding v' w' = is_colliding v w.
Proof.
  intros A B. apply evolves_fields in A as (_ & P & H & _). apply evolves_fields in B as (_ & P' & H' & _).
  unfold is_colliding. now rewrite P, H, P', H'.
Qed.
Lemma is_colliding_obj_evolves v o v' o' : evolves v v' -> oevolves o o' -> is_colliding_obj v' o' = is_colliding_obj v o.
Proof.
  intros A B. apply evolves_fields in A as (_ & P & H & _). apply oevolves_fields in B as (P' & H' & _).
  unfold is_colliding_obj. now rewrite P, H, P', H'.
Qed.
Lemma touch_evolves v w v' w' : evolves v v' -> evolves w w' -> (touch v' w' <-> touch v w).
Proof.
  intros A B. unfold touch. rewrite (is_colliding_evolves v w v' w') by easy.
  apply evolves_fields in A as (A1 & _ & _ & A2 & _). apply evolves_fields in B as (B1 & _ & _ & B2 & _).
  now rewrite A1, A2, B1, B2.
Qed.
Lemma touch_sym v w : touch v w -> touch w v.
Proof. intros (A & B & C & D). repeat split; auto. now rewrite is_colliding_sym. Qed.

(** Effect of one pair check on index i and j. *)
Lemma collide_pair_hit i j vs v w : i <> j -> nth_error vs i = Some v -> nth_error vs j = Some w ->
  v_crashed v = false -> touch v w ->
  exists v' w', nth_error (collide_pair i vs j) i = Some v' /\ nth_error (collide_pair i vs j) j = Some w' /\
    v_crashed v' = true /\ v_crashed w' = true /\ v_speed v' = v_speed w'.
Proof.
  intros N Ei Ej C (T1 & T2 & T3 & T4). unfold collide_pair. rewrite Ei, Ej. unfold check_collision.
  rewrite C, T2, T3, T4. replace (Nat.eqb (v_id w) (v_id v)) with false by (symmetry; apply Nat.eqb_neq; auto). simpl.
  exists (set_crash v (min_abs (v_speed v) (v_speed w))), (set_crash w (min_abs (v_speed v) (v_speed w))).
  rewrite !update_nth_get, Nat.eqb_refl. destruct (Nat.eqb_spec j i); [lia|]. destruct (Nat.eqb_spec i j); [lia|].
  rewrite Nat.eqb_refl, Ei, Ej. easy.
Qed.

(** After row i, for any j touching i: i is crashed or (i crashed already).  *)
Lemma row_crashes st i j v w : i <> j ->
  nth_error (fst st) i = Some v -> nth_error (fst st) j = Some w -> touch v w ->
  exists v' w', nth_error (fst (collide_row st i)) i = Some v' /\ nth_error (fst (collide_row st i)) j = Some w' /\
    v_crashed v' = true /\ (v_crashed v' = true -> v_crashed v = true \/ True).
Proof.
  intros N Ei Ej T.
  assert (Hj : In j (seq 0 (List.length (fst st)))) by (apply in_seq; split; [lia|]; simpl; apply nth_error_Some; congruence).
  destruct (fold_visits EV2 (collide_pair i) EV2_refl EV2_trans (fun s x => collide_pair_rel i x s) _ (fst st) j Hj) as (s1 & R1 & R2).
  destruct (Forall2_nth _ _ _ R1 _ _ Ei) as (v1 & E1 & V1). destruct (Forall2_nth _ _ _ R1 _ _ Ej) as (w1 & F1 & W1).
  assert (T1 : touch v1 w1) by now apply (touch_evolves v w).
  assert (C : exists v2 w2, nth_error (collide_pair i s1 j) i = Some v2 /\ nth_error (collide_pair i s1 j) j = Some w2 /\ v_crashed v2 = true).
  { destruct (v_crashed v1) eqn:Cv.
    - destruct (Forall2_nth _ _ _ (collide_pair_rel i j s1) _ _ E1) as (v2 & E2 & V2).
      destruct (Forall2_nth _ _ _ (collide_pair_rel i j s1) _ _ F1) as (w2 & F2 & W2).
      exists v2, w2. repeat split; auto. apply evolves_fields in V2 as (_ & _ & _ & _ & K & _). auto.
    - destruct (collide_pair_hit i j s1 v1 w1 N E1 F1 Cv T1) as (v2 & w2 & A1 & A2 & A3 & _). eauto. }
  destruct C as (v2 & w2 & E2 & F2 & C2).
  unfold collide_row. set (vs := fold_left (collide_pair i) _ (fst st)) in *.
  destruct (Forall2_nth _ _ _ R2 _ _ E2) as (v3 & E3 & V3). destruct (Forall2_nth _ _ _ R2 _ _ F2) as (w3 & F3 & W3).
  assert (R3 : Rel (vs, snd st) (fold_left (collide_obj i) (seq 0 (List.length (snd st))) (vs, snd st))).
  { apply (fold_rel Rel (collide_obj i)); [apply Rel_refl | apply Rel_trans | intros; apply collide_obj_rel]. }
  destruct R3 as [R3 _]. simpl in R3.
  destruct (Forall2_nth _ _ _ R3 _ _ E3) as (v4 & E4 & V4). destruct (Forall2_nth _ _ _ R3 _ _ F3) as (w4 & F4 & W4).
  exists v4, w4. repeat split; auto.
  apply evolves_fields in V3 as (_ & _ & _ & _ & K & _). apply evolves_fields in V4 as (_ & _ & _ & _ & K' & _). auto.
Qed.

Lemma all_crashes st i j v w : i <> j ->
  nth_error (fst st) i = Some v -> nth_error (fst st) j = Some w -> touch v w ->
  exists v', nth_error (fst (collide_all st)) i = Some v' /\ v_crashed v' = true.
Proof.
  intros N Ei Ej T.
  assert (Hi : In i (seq 0 (List.length (fst st)))) by (apply in_seq; split; [lia|]; simpl; apply nth_error_Some; congruence).
  destruct (fold_visits Rel collide_row Rel_refl Rel_trans collide_row_rel _ st i Hi) as (s1 & [R1 _] & [R2 _]).
  destruct (Forall2_nth _ _ _ R1 _ _ Ei) as (v1 & E1 & V1). destruct (Forall2_nth _ _ _ R1 _ _ Ej) as (w1 & F1 & W1).
  assert (T1 : touch v1 w1) by now apply (touch_evolves v w).
  destruct (row_crashes s1 i j v1 w1 N E1 F1 T1) as (v2 & w2 & E2 & _ & C2 & _).
  destruct (Forall2_nth _ _ _ R2 _ _ E2) as (v3 & E3 & V3). exists v3. split; [exact E3|].
  apply evolves_fields in V3 as (_ & _ & _ & _ & K & _). auto.
Qed.

Lemma collide_obj_hit i k st v o : nth_error (fst st) i = Some v -> nth_error (snd st) k = Some o ->
  touch_obstacle v o ->
  exists v' , nth_error (fst (collide_obj i st k)) i = Some v' /\ v_crashed v' = true.
Proof.
  intros Ei Ek (T1 & T2 & T3). unfold collide_obj. rewrite Ei, Ek. unfold check_collision_obj.
  destruct (v_crashed v) eqn:C; simpl.
  - exists v. rewrite update_nth_get, Nat.eqb_refl, Ei. easy.
  - rewrite T2, T1, T3. simpl. eexists. rewrite update_nth_get, Nat.eqb_refl, Ei. split; [reflexivity|]. reflexivity.
Qed.
Lemma all_crashes_obstacle st i k v o : nth_error (fst st) i = Some v -> nth_error (snd st) k = Some o ->
  touch_obstacle v o ->
  exists v', nth_error (fst (collide_all st)) i = Some v' /\ v_crashed v' = true.
Proof.
  intros Ei Ek T.
  assert (Hi : In i (seq 0 (List.length (fst st)))) by (apply in_seq; split; [lia|]; simpl; apply nth_error_Some; congruence).
  destruct (fold_visits Rel collide_row Rel_refl Rel_trans collide_row_rel _ st i Hi) as (s1 & [R1 R1o] & [R2 _]).
  destruct (Forall2_nth _ _ _ R1 _ _ Ei) as (v1 & E1 & V1). destruct (Forall2_nth _ _ _ R1o _ _ Ek) as (o1 & F1 & O1).
  assert (T1 : touch_obstacle v1 o1).
  { destruct T as (T1 & T2 & T3). unfold touch_obstacle. rewrite (is_colliding_obj_evolves v o v1 o1) by easy.
    apply evolves_fields in V1 as (_ & _ & _ & -> & _). apply oevolves_fields in O1 as (_ & _ & -> & _). easy. }
  set (vs := fold_left (collide_pair i) (seq 0 (List.length (fst s1))) (fst s1)).
  assert (R3 : EV2 (fst s1) vs) by (apply (fold_rel EV2 (collide_pair i)); [apply EV2_refl | apply EV2_trans | intros; apply collide_pair_rel]).
  destruct (Forall2_nth _ _ _ R3 _ _ E1) as (v2 & E2 & V2).
  assert (Hk : In k (seq 0 (List.length (snd s1)))) by (apply in_seq; split; [lia|]; simpl; apply nth_error_Some; congruence).
  destruct (fold_visits Rel (collide_obj i) Rel_refl Rel_trans (fun s x => collide_obj_rel i x s) _ (vs, snd s1) k Hk) as (s2 & [A1 A2] & [A3 _]).
  destruct (Forall2_nth _ _ _ A1 _ _ E2) as (v3 & E3 & V3). destruct (Forall2_nth _ _ _ A2 _ _ F1) as (o3 & F3 & O3).
  assert (T3 : touch_obstacle v3 o3).
  { destruct T1 as (Q1 & Q2 & Q3). unfold touch_obstacle. rewrite (is_colliding_obj_evolves v1 o1 v3 o3); [|eapply evolves_trans; eauto|easy].
    apply evolves_fields in V2 as (_ & _ & _ & K2 & _). apply evolves_fields in V3 as (_ & _ & _ & -> & _). apply oevolves_fields in O3 as (_ & _ & -> & _).
    rewrite K2. easy. }
  destruct (collide_obj_hit i k s2 v3 o3 E3 F3 T3) as (v4 & E4 & C4).
  destruct (Forall2_nth _ _ _ A3 _ _ E4) as (v5 & E5 & V5).
  change (fold_left (collide_obj i) (seq 0 (List.length (snd s1))) (vs, snd s1)) with (collide_row s1 i) in E5.
  destruct (Forall2_nth _ _ _ R2 _ _ E5) as (v6 & E6 & V6). exists v6. split; [exact E6|].
  apply evolves_fields in V5 as (_ & _ & _ & _ & K & _). apply evolves_fields in V6 as (_ & _ & _ & _ & K' & _). auto.
Qed.

(** ** Soundness: crashes have a cause *)
Definition caused (vs0 : list vehicle) (os0 : list object) (i : nat) (v0 : vehicle) : Prop :=
  (exists j w0, j <> i /\ nth_error vs0 j = Some w0 /\ touch v0 w0) \/
  (exists k o0, nth_error os0 k = Some o0 /\ touch_obstacle v0 o0).
Definition inv (st0 st : cstate) : Prop :=
  Rel st0 st /\ forall i v0 v, nth_error (fst st0) i = Some v0 -> nth_error (fst st) i = Some v ->
    v_crashed v0 = false -> v_crashed v = true -> caused (fst st0) (snd st0) i v0.

Lemma inv_pair st0 vs os i j : inv st0 (vs, os) -> inv st0 (collide_pair i vs j, os).
Proof.
  intros [R C]. split; [apply (Rel_trans _ (vs, os)); [easy|]; split; [apply collide_pair_rel | apply Forall2_refl'; now left]|].
  intros a v0 v E0 E N K. simpl in *.
  destruct R as [Rv Ro]. simpl in Rv.
  destruct (Forall2_nth _ _ _ Rv _ _ E0) as (va & Ea & Va).
  destruct (v_crashed va) eqn:Ca; [apply (C a v0 va); auto|].
  unfold collide_pair in E. destruct (nth_error vs i) as [vi|] eqn:Ei; [|rewrite Ea in E; congruence].
  destruct (nth_error vs j) as [vj|] eqn:Ej; [|rewrite Ea in E; congruence].
  destruct (check_collision vi vj) as [vi' vj'] eqn:Ec. unfold check_collision in Ec.
  destruct (v_crashed vi || Nat.eqb (v_id vj) (v_id vi)) eqn:Q1.
  { injection Ec as <- <-. rewrite !update_nth_get, Ea in E.
    destruct (Nat.eqb_spec i a) as [->|]; destruct (Nat.eqb_spec j a) as [->|]; congruence. }
  destruct (negb (v_collisions vi) || negb (v_collisions vj)) eqn:Q2.
  { injection Ec as <- <-. rewrite !update_nth_get, Ea in E.
    destruct (Nat.eqb_spec i a) as [->|]; destruct (Nat.eqb_spec j a) as [->|]; congruence. }
  destruct (is_colliding vi vj) eqn:Q3.
  2:{ injection Ec as <- <-. rewrite !update_nth_get, Ea in E.
    destruct (Nat.eqb_spec i a) as [->|]; destruct (Nat.eqb_spec j a) as [->|]; congruence. }
  apply orb_false_iff in Q1 as [Q1 Q1']. apply Nat.eqb_neq in Q1'. apply orb_false_iff in Q2 as [Q2 Q2'].
  apply negb_false_iff in Q2, Q2'.
  assert (T : touch vi vj) by (repeat split; auto).
  assert (Nij : i <> j) by (intros ->; rewrite Ei in Ej; injection Ej as ->; auto).
  destruct (Forall2_nth_r _ _ _ Rv _ _ Ei) as (vi0 & Ei0 & Vi0). destruct (Forall2_nth_r _ _ _ Rv _ _ Ej) as (vj0 & Ej0 & Vj0).
  assert (T0 : touch vi0 vj0) by now apply (touch_evolves vi0 vj0 vi vj).
  injection Ec as <- <-. rewrite !update_nth_get, Ea in E.
  destruct (Nat.eqb_spec i a) as [->|Na].
  - left. exists j, vj0. rewrite E0 in Ei0. injection Ei0 as ->. auto.
  - destruct (Nat.eqb_spec j a) as [->|Nb]; [|congruence].
    left. exists i, vi0. rewrite E0 in Ej0. injection Ej0 as ->. auto using touch_sym.
Qed.
Lemma inv_obj st0 st i k : inv st0 st -> inv st0 (collide_obj i st k).
Proof.
  intros [R C]. split; [apply (Rel_trans _ st); [easy | apply collide_obj_rel]|].
  intros a v0 v E0 E N K.
  destruct R as [Rv Ro].
  destruct (Forall2_nth _ _ _ Rv _ _ E0) as (va & Ea & Va).
  destruct (v_crashed va) eqn:Ca; [apply (C a v0 va); auto|].
  unfold collide_obj in E. destruct (nth_error (fst st) i) as [vi|] eqn:Ei; [|congruence].
  destruct (nth_error (snd st) k) as [o|] eqn:Ek; [|congruence].
  destruct (check_collision_obj vi o) as [vi' o'] eqn:Ec. simpl in E.
  rewrite update_nth_get, Ea in E. destruct (Nat.eqb_spec i a) as [->|]; [|congruence].
  injection E as <-. rewrite Ei in Ea. injection Ea as ->.
  unfold check_collision_obj in Ec. rewrite Ca in Ec.
  destruct (o_kind o) eqn:Ko.
  - destruct (negb (v_collisions va)) eqn:Q; [injection Ec as <- <-; congruence|].
    destruct (is_colliding_obj va o) eqn:Q3; [|injection Ec as <- <-; congruence].
    destruct (Forall2_nth_r _ _ _ Ro _ _ Ek) as (o0 & Eo0 & O0).
    right. exists k, o0. split; [easy|]. apply negb_false_iff in Q. unfold touch_obstacle.
    rewrite <- (is_colliding_obj_evolves v0 o0 va o) by easy.
    apply evolves_fields in Va as (_ & _ & _ & <- & _). apply oevolves_fields in O0 as (_ & _ & <- & _). easy.
  - destruct (is_colliding_obj va o); injection Ec as <- <-; congruence.
Qed.
Lemma fold_inv {A S} (P : S -> Prop) (f : S -> A -> S) : (forall s x, P s -> P (f s x)) -> forall l s, P s -> P (fold_left f l s).
Proof. intros H l. induction l; simpl; auto. Qed.
Lemma inv_all st : inv st (collide_all st).
Proof.
  unfold collide_all. apply fold_inv.
  - intros s i H. unfold collide_row. apply fold_inv; [intros; now apply inv_obj|].
    destruct s as [vs os]. simpl.
    apply (fold_inv (fun x => inv st (x, os)) (collide_pair i)); [intros; now apply inv_pair | easy].
  - split; [apply Rel_refl|]. intros i v0 v E E' N K. congruence.
Qed.

(** ** Road.step *)
Lemma road_step_ok rd dt rd' : road_step rd dt = Ok rd' ->
  exists vs, mapM (fun v => vehicle_step (rd_net rd) (rd_record rd) v dt) (rd_vehicles rd) = Ok vs /\
    rd_net rd' = rd_net rd /\ rd_record rd' = rd_record rd /\ rd_steps rd' = rd_steps rd /\
    (rd_vehicles rd', rd_objects rd') = collide_all (vs, rd_objects rd).
Proof.
  unfold road_step. intros E. inv_ok. destruct (collide_all _) as [a b] eqn:Ec. inv_ok. subst. eexists. simpl. eauto.
Qed.
Lemma road_step_total rd dt : wf_graph (rd_net rd) -> rd_net rd <> [] -> exists rd', road_step rd dt = Ok rd'.
Proof.
  intros W N. unfold road_step.
  destruct (mapM_total (fun v => vehicle_step (rd_net rd) (rd_record rd) v dt) (rd_vehicles rd)) as [vs E].
  - intros v _. now apply vehicle_step_total.
  - rewrite E. simpl. destruct (collide_all _). eauto.
Qed.
