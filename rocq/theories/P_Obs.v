(** Lemmas about the observations. *)
From Verif Require Import Prelude M_Utils M_Lane M_Road M_Vehicle M_Kinematics M_Control M_Behavior M_Action M_Ttc M_Obs
  S_Geometry S_Road S_Ttc S_Obs P_Base P_Utils P_Lane P_Graph P_Query P_Ttc.
From Coq Require Import Lra Lia Psatz Permutation.
Open Scope R_scope.

(** ** Feature dictionaries *)
Lemma destination_spec g v p : destination g v = Ok p <-> bound_for g v p.
Proof.
  unfold destination, bound_for. destruct (v_route v) as [[|r0 rt]|]; try (split; [now intros [= <-] | now intros ->]).
  split.
  - intros E. apply bind_ok in E as (l & G & E). injection E as <-. eauto.
  - intros (l & G & ->). rewrite G. reflexivity.
Qed.
Lemma bound_fun g v p p' : bound_for g v p -> bound_for g v p' -> p = p'.
Proof. rewrite <- !destination_spec. congruence. Qed.
Lemma heads_fun v p d d' : heads_for v p d -> heads_for v p d' -> d = d'.
Proof. intros [[A B] | [A B]] [[C D] | [C D]]; congruence. Qed.
Lemma vec_eqb_true (a b : vec) : Reqb (fst a) (fst b) && Reqb (snd a) (snd b) = true <-> a = b.
Proof. rewrite andb_true_iff, !Reqb_true. destruct a, b; cbn. split; [intros [-> ->]; easy | intros [= -> ->]; easy]. Qed.
Lemma direction_spec g v d : destination_direction g v = Ok d <-> exists p, bound_for g v p /\ heads_for v p d.
Proof.
  unfold destination_direction, heads_for. split.
  - intros E. apply bind_ok in E as (p & D & E). exists p. split; [now apply destination_spec|]. injection E as <-.
    destruct (Reqb (fst p) (fst (v_pos v)) && Reqb (snd p) (snd (v_pos v))) eqn:Q; [left | right].
    + apply vec_eqb_true in Q. auto.
    + split; [|reflexivity]. intros F. apply vec_eqb_true in F. congruence.
  - intros (p & B & H). apply destination_spec in B. rewrite B. cbn [bind]. destruct H as [[A ->] | [A ->]].
    + apply vec_eqb_true in A. now rewrite A.
    + destruct (Reqb (fst p) (fst (v_pos v)) && Reqb (snd p) (snd (v_pos v))) eqn:Q; [apply vec_eqb_true in Q; contradiction | reflexivity].
Qed.
Lemma dict_total g v i : (exists p, bound_for g v p) -> exists d, vehicle_dict g v i = Ok d.
Proof.
  intros (p & B). unfold vehicle_dict. assert (exists d, destination_direction g v = Ok d) as [d D].
  { apply destination_spec in B. unfold destination_direction. rewrite B. cbn [bind]. eauto. }
  rewrite D. cbn [bind]. eauto.
Qed.
Lemma dict_spec g v i d k x : vehicle_dict g v i = Ok d -> (assoc k d = Some x <-> feature g v i k x).
Proof.
  unfold vehicle_dict. intros E. apply bind_ok in E as (dd & D & E). injection E as <-. apply direction_spec in D as (p & B & H).
  unfold e_velocity, e_direction, e_speed, e_heading. cbn [vscal fst snd]. split.
  - cbn [assoc].
    repeat match goal with |- context [String.eqb k ?c] => destruct (String.eqb_spec k c); [subst k; intros [= <-]; try constructor|] end;
      [econstructor; eassumption | econstructor; eassumption | discriminate].
  - intros F. destruct F as [| | | | | | | |p' d' B' H' |p' d' B' H']; try reflexivity.
    + rewrite (bound_fun _ _ _ _ B' B) in H'. rewrite (heads_fun _ _ _ _ H' H). reflexivity.
    + rewrite (bound_fun _ _ _ _ B' B) in H'. rewrite (heads_fun _ _ _ _ H' H). reflexivity.
Qed.
Lemma feature_fun g v i k x y : feature g v i k x -> feature g v i k y -> x = y.
Proof.
  intros A B. assert (E : exists d, vehicle_dict g v i = Ok d \/ (k <> "cos_d" /\ k <> "sin_d")%string).
  { destruct A; try (exists []; right; split; discriminate); destruct (dict_total g v i (ex_intro _ p H)) as [d0 E]; exists d0; auto. }
  destruct E as (d & [E | [N1 N2]]).
  - apply (dict_spec _ _ _ _ _ _ E) in A, B. congruence.
  - inversion A; subst; inversion B; subst; try congruence.
Qed.
Lemma dict_keys g v i d : vehicle_dict g v i = Ok d ->
  keys d = ["presence"; "x"; "y"; "vx"; "vy"; "heading"; "cos_h"; "sin_h"; "cos_d"; "sin_d"]%string.
Proof. unfold vehicle_dict. intros E. apply bind_ok in E as (dd & D & E). injection E as <-. reflexivity. Qed.
Lemma sub_foldr (o : features) ks : forall e, fold_left (sub_feature o) ks (Err e) = Err e.
Proof. induction ks as [|k ks IH]; intros e; [reflexivity | apply IH]. Qed.
Lemma relative_spec ks : forall d o d', NoDup ks -> fold_left (sub_feature o) ks (Ok d) = Ok d' ->
  forall k, (In k ks -> exists a b, assoc k d = Some a /\ assoc k o = Some b /\ assoc k d' = Some (a - b)) /\ (~ In k ks -> assoc k d' = assoc k d).
Proof.
  induction ks as [|k0 ks IH]; intros d o d' Nd E k; cbn [fold_left] in E.
  - injection E as <-. split; [intros [] | reflexivity].
  - inversion Nd as [|? ? N1 N2]; subst. unfold sub_feature at 2 in E. cbn [bind] in E.
    destruct (assoc k0 d) as [a|] eqn:Ea; [|rewrite sub_foldr in E; discriminate]. destruct (assoc k0 o) as [b|] eqn:Eb; [|rewrite sub_foldr in E; discriminate].
    destruct (IH _ _ _ N2 E k) as [I1 I2]. split.
    + intros [-> | Hk].
      * exists a, b. split; [exact Ea|]. split; [exact Eb|]. rewrite (I2 N1). apply assoc_set_same.
      * destruct (I1 Hk) as (a' & b' & A & B & C). exists a', b'. split; [|auto]. rewrite assoc_set_other in A; [exact A|]. intros ->. contradiction.
    + intros Hk. rewrite I2 by (intros F; apply Hk; now right). apply assoc_set_other. intros ->. apply Hk. now left.
Qed.
Lemma relative_total ks : forall d o, (forall k, In k ks -> In k (keys d) /\ In k (keys o)) -> exists d', fold_left (sub_feature o) ks (Ok d) = Ok d'.
Proof.
  induction ks as [|k0 ks IH]; intros d o H; cbn [fold_left]; [eauto|]. destruct (H k0 (or_introl eq_refl)) as [A B].
  apply assoc_keys in A as [a A]. apply assoc_keys in B as [b B]. unfold sub_feature at 2. cbn [bind]. rewrite A, B. apply IH.
  intros k Hk. destruct (H k (or_intror Hk)) as [C D]. split; [|exact D]. apply assoc_keys. destruct (string_dec k0 k) as [-> | N].
  - exists (a - b). apply assoc_set_same.
  - apply assoc_keys in C as [c C]. exists c. now rewrite assoc_set_other.
Qed.
Lemma xyvv_nodup : NoDup ["x"; "y"; "vx"; "vy"]%string.
Proof. repeat constructor; cbn; intuition discriminate. Qed.
Lemma to_dict_spec g v o i d k x : to_dict g v o i = Ok d -> (assoc k d = Some x <-> seen_feature g o v i k x).
Proof.
  unfold to_dict, seen_feature. intros E. apply bind_ok in E as (d0 & E0 & E). destruct o as [o|].
  - apply bind_ok in E as (od & Eo & E). destruct (relative_spec _ _ _ _ xyvv_nodup E k) as [I1 I2].
    destruct (in_dec string_dec k ["x"; "y"; "vx"; "vy"]%string) as [Hk | Hk].
    + destruct (I1 Hk) as (a & b & A & B & C). rewrite C. apply (dict_spec _ _ _ _ _ _ E0) in A. apply (dict_spec _ _ _ _ _ _ Eo) in B. split.
      * intros [= <-]. exists a. split; [exact A|]. left. split; [exact Hk|]. eauto.
      * intros (a' & A' & [(_ & b' & B' & ->) | [N _]]); [|contradiction]. now rewrite (feature_fun _ _ _ _ _ _ A A'), (feature_fun _ _ _ _ _ _ B B').
    + rewrite (I2 Hk). rewrite (dict_spec _ _ _ _ _ _ E0). split.
      * intros F. exists x. auto.
      * intros (a' & A' & [(Q & _) | [_ ->]]); [contradiction | exact A'].
  - injection E as <-. now apply dict_spec.
Qed.
Lemma to_dict_total g v o i : (exists p, bound_for g v p) -> (forall w, o = Some w -> exists p, bound_for g w p) -> exists d, to_dict g v o i = Ok d.
Proof.
  intros B Bo. unfold to_dict. destruct (dict_total g v i B) as [d E]. rewrite E. cbn [bind]. destruct o as [w|]; [|eauto].
  destruct (dict_total g w true (Bo w eq_refl)) as [od Eo]. rewrite Eo. cbn [bind]. apply relative_total. rewrite (dict_keys _ _ _ _ E), (dict_keys _ _ _ _ Eo).
  intros k Hk. cbn in *. tauto.
Qed.
Lemma sub_keys (o : features) ks : forall d d', fold_left (sub_feature o) ks (Ok d) = Ok d' -> keys d' = keys d.
Proof.
  induction ks as [|k ks IH]; intros d d' E; cbn [fold_left] in E; [now injection E as <-|]. unfold sub_feature at 2 in E. cbn [bind] in E.
  destruct (assoc k d) as [a|] eqn:Ea; [|rewrite sub_foldr in E; discriminate]. destruct (assoc k o) as [b|] eqn:Eb; [|rewrite sub_foldr in E; discriminate].
  rewrite (IH _ _ E). clear - Ea. induction d as [|[k' v'] d IH]; [discriminate|]. cbn in Ea |- *. destruct (String.eqb_spec k k'); [now subst|].
  cbn. f_equal. now apply IH.
Qed.
Lemma to_dict_keys g v o i d : to_dict g v o i = Ok d ->
  keys d = ["presence"; "x"; "y"; "vx"; "vy"; "heading"; "cos_h"; "sin_h"; "cos_d"; "sin_d"]%string.
Proof.
  unfold to_dict. intros E. apply bind_ok in E as (d0 & E0 & E). pose proof (dict_keys _ _ _ _ E0) as K. destruct o as [w|].
  - apply bind_ok in E as (od & Eo & E). now rewrite (sub_keys _ _ _ _ E).
  - now injection E as <-.
Qed.

(** ** Rows *)
Lemma mapM_nth {A B} (f : A -> res B) l : forall out, mapM f l = Ok out ->
  forall k, (forall x, nth_error l k = Some x -> exists y, nth_error out k = Some y /\ f x = Ok y).
Proof.
  induction l as [|a l IH]; intros out E k x H; [destruct k; discriminate|]. cbn in E. apply bind_ok in E as (y & Ey & E). apply bind_ok in E as (ys & Eys & E).
  injection E as <-. destruct k as [|k]; cbn in H |- *; [injection H as ->; eauto | eapply IH; eassumption].
Qed.
Lemma select_len names d row : select names d = Ok row -> List.length row = List.length names.
Proof. apply mapM_length. Qed.
Lemma select_nth names d row j name : select names d = Ok row -> nth_error names j = Some name -> exists x, nth_error row j = Some x /\ assoc name d = Some x.
Proof. intros E N. destruct (mapM_nth _ _ _ E _ _ N) as (y & Ny & Ey). exists y. split; [exact Ny|]. destruct (assoc name d); [congruence | discriminate]. Qed.
Lemma select_total names d : (forall k, In k names -> In k (keys d)) -> exists row, select names d = Ok row.
Proof.
  intros H. apply mapM_total. intros k Hk. apply H, assoc_keys in Hk as [x ->]. eauto.
Qed.
Lemma clip_saturate x y : Rclip x (-1) 1 = y <-> saturate x y.
Proof.
  unfold Rclip, saturate, Rmin, Rmax. destruct (Rle_dec x (-1)); [destruct (Rle_dec (-1) 1) | destruct (Rle_dec x 1)]; split; intros H;
    try (subst y); try lra; try (destruct (Req_dec x (-1)); [right; left; lra | left; lra]).
Qed.
Lemma normalize_value_spec r clip name x y : normalize_value r clip name x = Ok y <-> scaled (assoc name r) clip x y.
Proof.
  unfold normalize_value, scaled. destruct (assoc name r) as [[a b]|]; [|split; [now intros [= ->] | now intros ->]].
  unfold lmap. cbn [fst snd]. destruct (Reqb (b - a) 0) eqn:Q.
  - apply Reqb_true in Q. cbn [bind]. split; [discriminate|]. intros [N _]. exfalso. apply N. lra.
  - apply Reqb_false in Q. cbn [bind].
    assert (Z : -1 + (x - a) * (1 - -1) / (b - a) = 2 * (x - a) / (b - a) - 1) by (field; exact Q). rewrite Z. destruct clip.
    + split.
      * intros [= E]. split; [intros ->; apply Q; ring|]. eexists. split; [reflexivity|]. now apply clip_saturate.
      * intros [_ (z & -> & S0)]. apply clip_saturate in S0. now rewrite S0.
    + split; [intros [= <-]; split; [intros ->; apply Q; ring | eauto]|]. intros [_ (z & -> & ->)]. reflexivity.
Qed.
Lemma combine_nth_error {A B} (l : list A) (m : list B) k x y : nth_error l k = Some x -> nth_error m k = Some y -> nth_error (combine l m) k = Some (x, y).
Proof.
  revert m k. induction l as [|a l IH]; intros m k; [destruct k; discriminate|]. destruct m as [|b m]; [destruct k; discriminate|].
  destruct k as [|k]; cbn; [now intros [= ->] [= ->] | apply IH].
Qed.
Lemma normalize_row_len r clip names row row' : normalize_row r clip names row = Ok row' -> List.length row = List.length names -> List.length row' = List.length names.
Proof. intros E L. apply mapM_length in E. rewrite E, combine_length, L. apply Nat.min_id. Qed.
Lemma normalize_row_nth r clip names row row' j name x : normalize_row r clip names row = Ok row' -> nth_error names j = Some name -> nth_error row j = Some x ->
  exists y, nth_error row' j = Some y /\ scaled (assoc name r) clip x y.
Proof.
  intros E N X. destruct (mapM_nth _ _ _ E _ _ (combine_nth_error _ _ _ _ _ N X)) as (y & Ny & Ey). exists y. split; [exact Ny|].
  now apply normalize_value_spec in Ey.
Qed.
Lemma normalize_row_total r clip names row : (forall a b name, In name names -> assoc name r = Some (a, b) -> a <> b) ->
  exists row', normalize_row r clip names row = Ok row'.
Proof.
  intros H. apply mapM_total. intros [name x] Hx. apply in_combine_l in Hx. cbn [fst snd]. unfold normalize_value.
  destruct (assoc name r) as [[a b]|] eqn:Q; [|eauto]. unfold lmap. cbn [fst snd]. rewrite (proj2 (Reqb_false _ _)); [cbn; eauto|].
  specialize (H _ _ _ Hx Q). lra.
Qed.
Lemma py_from_all {A} k (l : list A) : (Z.of_nat (List.length l) <= k)%Z -> py_from (- k) l = l.
Proof.
  intros H. unfold py_from. destruct (Z.leb_spec 0 (- k)).
  - replace (Z.to_nat (- k)) with 0%nat by lia. reflexivity.
  - replace (Z.to_nat (Z.of_nat (List.length l) + - k)) with 0%nat by lia. reflexivity.
Qed.
Lemma close_len rd v dist k sb out : close_vehicles_to rd v dist (Some (Z.of_nat (S k))) sb = Ok out -> (List.length out <= S k)%nat.
Proof.
  unfold close_vehicles_to. intros E. apply bind_ok in E as (l & G & E).
  rewrite (proj2 (Z.eqb_neq (Z.of_nat (S k)) 0)) in E by lia. assert (forall a b : list vehicle, Ok a = Ok b -> b = a) as I by (intros a b H; congruence). apply I in E. rewrite E. clear E I. unfold py_take. rewrite (proj2 (Z.leb_le 0 _)) by lia.
  rewrite firstn_length, Nat2Z.id. lia.
Qed.

(** ** The Kinematics table *)
Definition row_of (g : graph) (names : list string) (origin : option vehicle) (intentions : bool) (v : vehicle) (row : list R) : Prop :=
  List.length row = List.length names /\
  forall j name, nth_error names j = Some name -> exists x, nth_error row j = Some x /\ seen_feature g origin v intentions name x.
Lemma row_spec g names origin i v d row : to_dict g v origin i = Ok d -> select names d = Ok row -> row_of g names origin i v row.
Proof.
  intros D E. split; [eapply select_len; exact E|]. intros j name N. destruct (select_nth _ _ _ _ _ E N) as (x & X & A). exists x. split; [exact X|].
  now apply (to_dict_spec _ _ _ _ _ _ _ D).
Qed.
Lemma kin_rows_spec c perc rd o rows : (2 <= kc_count c)%Z -> kin_rows c perc rd o = Ok rows ->
  exists close first others, close_vehicles_to rd o perc (Some (kc_count c - 1)%Z) (kc_see_behind c) = Ok close /\
    (List.length close < Z.to_nat (kc_count c))%nat /\ rows = first :: others /\
    row_of (rd_net rd) (kin_features c) None true o first /\ List.length others = List.length close /\
    forall k w, nth_error close k = Some w -> exists row, nth_error others k = Some row /\
      row_of (rd_net rd) (kin_features c) (if kc_absolute c then None else Some o) (kc_intentions c) w row.
Proof.
  intros C E. unfold kin_rows in E. apply bind_ok in E as (d & D & E). apply bind_ok in E as (first & F & E). apply bind_ok in E as (close & Cl & E).
  assert (L : (List.length close < Z.to_nat (kc_count c))%nat).
  { replace (kc_count c - 1)%Z with (Z.of_nat (S (Z.to_nat (kc_count c - 2)))) in Cl by lia. apply close_len in Cl. lia. }
  exists close, first. pose proof (row_spec _ _ _ _ _ _ _ D F) as R1. destruct close as [|c0 close].
  - injection E as <-. exists []. split; [exact Cl|]. split; [exact L|]. split; [reflexivity|]. split; [exact R1|]. split; [reflexivity|].
    intros k w H. destruct k; discriminate.
  - replace (- kc_count c + 1)%Z with (- (kc_count c - 1))%Z in E by lia. rewrite py_from_all in E by (cbn [List.length] in L |- *; lia).
    apply bind_ok in E as (others & M & E). injection E as <-. exists others. split; [exact Cl|]. split; [exact L|]. split; [reflexivity|]. split; [exact R1|].
    split; [eapply mapM_length; exact M|]. intros k w H. destruct (mapM_nth _ _ _ M _ _ H) as (row & Hr & Er). exists row. split; [exact Hr|].
    apply bind_ok in Er as (dw & Dw & Er). eapply row_spec; eassumption.
Qed.
Lemma pad_len count width rows : (List.length rows <= Z.to_nat count)%nat -> List.length (pad_rows count width rows) = Z.to_nat count.
Proof. intros H. unfold pad_rows. rewrite app_length, repeat_length. lia. Qed.

(** Rows after normalisation. *)
Definition cells_of (g : graph) (c : kin_config) (r : option ranges) (origin : option vehicle) (i : bool) (v : vehicle) (row : list R) : Prop :=
  List.length row = List.length (kin_features c) /\
  forall j name, nth_error (kin_features c) j = Some name -> exists x y, nth_error row j = Some y /\ seen_feature g origin v i name x /\
     scaled (range_in (kc_normalize c) r name) (kc_clip c) x y.
Lemma kin_observe_inv c smax perc sh r rd o out r' : (2 <= kc_count c)%Z -> kin_observe c smax perc sh r (Some rd) o = Ok (out, r') ->
  exists close first others, close_vehicles_to rd o perc (Some (kc_count c - 1)%Z) (kc_see_behind c) = Ok close /\
    (List.length close < Z.to_nat (kc_count c))%nat /\ List.length others = List.length close /\
    (let padded := first :: others ++ repeat (repeat 0 (List.length (kin_features c))) (Z.to_nat (kc_count c) - S (List.length close)) in
     out = if String.eqb (kc_order c) "shuffled" then first :: sh (tl padded) else padded) /\
    (if kc_normalize c then exists rr, r' = Some rr /\ kin_ranges (rd_net rd) smax o r = Ok rr else r' = r) /\
    cells_of (rd_net rd) c r' None true o first /\
    forall k w, nth_error close k = Some w -> exists row, nth_error others k = Some row /\
      cells_of (rd_net rd) c r' (if kc_absolute c then None else Some o) (kc_intentions c) w row.
Proof.
  intros C E. unfold kin_observe in E. apply bind_ok in E as (rows & Er & E). apply bind_ok in E as ([rows' r''] & En & E).
  destruct (kin_rows_spec _ _ _ _ _ C Er) as (close & first & others & Cl & L & -> & R1 & Lo & Ro). exists close. cbn [fst snd] in E.
  assert (exists first' others', rows' = first' :: others' /\ List.length others' = List.length others /\
     (if kc_normalize c then exists rr, r'' = Some rr /\ kin_ranges (rd_net rd) smax o r = Ok rr else r'' = r) /\
     (forall origin i v, row_of (rd_net rd) (kin_features c) origin i v first -> cells_of (rd_net rd) c r'' origin i v first') /\
     (forall k row, nth_error others k = Some row -> exists row', nth_error others' k = Some row' /\
       forall origin i v, row_of (rd_net rd) (kin_features c) origin i v row -> cells_of (rd_net rd) c r'' origin i v row')) as
     (first' & others' & -> & Lo' & Rr & F1 & F2).
  { unfold cells_of, range_in. destruct (kc_normalize c).
    - apply bind_ok in En as (rr & Ek & En). apply bind_ok in En as (nrows & Em & En). injection En as <- <-. cbn [mapM] in Em.
      apply bind_ok in Em as (first' & Ef & Em). apply bind_ok in Em as (others' & Eo & Em). injection Em as <-. exists first', others'.
      split; [reflexivity|]. split; [eapply mapM_length; exact Eo|]. split; [eauto|]. split.
      + intros origin i v [A B]. split; [eapply normalize_row_len; eassumption|]. intros j name N. destruct (B j name N) as (x & X & S0).
        destruct (normalize_row_nth _ _ _ _ _ _ _ _ Ef N X) as (y & Y & S1). eauto.
      + intros k row H. destruct (mapM_nth _ _ _ Eo _ _ H) as (row' & H' & E'). exists row'. split; [exact H'|]. intros origin i v [A B].
        split; [eapply normalize_row_len; eassumption|]. intros j name N. destruct (B j name N) as (x & X & S0).
        destruct (normalize_row_nth _ _ _ _ _ _ _ _ E' N X) as (y & Y & S1). eauto.
    - injection En as <- <-. exists first, others. split; [reflexivity|]. split; [reflexivity|]. split; [reflexivity|]. split.
      + intros origin i v [A B]. split; [exact A|]. intros j name N. destruct (B j name N) as (x & X & S0). exists x, x. split; [exact X|]. split; [exact S0 | reflexivity].
      + intros k row H. exists row. split; [exact H|]. intros origin i v [A B]. split; [exact A|]. intros j name N. destruct (B j name N) as (x & X & S0). exists x, x. split; [exact X|]. split; [exact S0 | reflexivity]. }
  exists first', others'. split; [exact Cl|]. split; [exact L|]. split; [congruence|].
  assert (forall a b : list (list R) * option ranges, Ok a = Ok b -> a = b) as I by (intros a b H; congruence). apply I in E.
  assert (P : pad_rows (kc_count c) (List.length (kin_features c)) (first' :: others') =
              first' :: others' ++ repeat (repeat 0 (List.length (kin_features c))) (Z.to_nat (kc_count c) - S (List.length close))).
  { unfold pad_rows. cbn [app List.length]. do 3 f_equal. lia. }
  rewrite P in E. cbv zeta. cbn [tl]. assert (out = fst (out, r')) as -> by reflexivity. assert (r' = r'') as -> by congruence. rewrite <- E. cbn [fst].
  split; [reflexivity|]. split; [exact Rr|]. split; [now apply F1|]. intros k w H. destruct (Ro k w H) as (row & Hr & Rw). destruct (F2 _ _ Hr) as (row' & Hr' & G'). exists row'. split; [exact Hr' | now apply G'].
Qed.
