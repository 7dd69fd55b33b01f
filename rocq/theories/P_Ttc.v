(** Proofs about the time-to-collision grid. *)
From Verif Require Import Prelude M_Utils M_Lane M_Road M_Vehicle M_Kinematics M_Control M_Ttc S_Geometry S_Road S_Ttc P_Base P_Graph.
From Coq Require Import Lra Lia Psatz.
Open Scope R_scope.

Lemma modify_len {A} (f : A -> A) l : forall k, List.length (modify_nth k f l) = List.length l.
Proof. induction l; destruct k; cbn; congruence || auto. Qed.
Lemma modify_nth_eq {A} (f : A -> A) d l : forall k k', nth k' (modify_nth k f l) d =
  if Nat.eqb k k' then (if Nat.ltb k (List.length l) then f (nth k l d) else d) else nth k' l d.
Proof.
  induction l as [|x l IH]; intros k k'.
  - destruct k, k'; cbn; try reflexivity. now destruct (Nat.eqb k k').
  - destruct k, k'; cbn; try reflexivity. rewrite IH. destruct (Nat.eqb k k') eqn:E; [|reflexivity]. reflexivity.
Qed.
Lemma modify_forall {A} (P : A -> Prop) (f : A -> A) l : (forall x, P x -> P (f x)) -> Forall P l -> forall k, Forall P (modify_nth k f l).
Proof. intros Hf F. induction F; destruct k; cbn; constructor; auto. Qed.
Lemma raise_dims v l t g h i j c : dims v l t g -> dims v l t (raise_cell g h i j c).
Proof.
  intros [L F]. split; [unfold raise_cell; rewrite modify_len; exact L|]. apply modify_forall; [|exact F].
  intros p [Lp Fp]. split; [rewrite modify_len; exact Lp|]. apply modify_forall; [|exact Fp]. intros r Lr. now rewrite modify_len.
Qed.
Lemma dims_row v l t g h : dims v l t g -> (h < v)%nat -> List.length (nth h g []) = l /\ Forall (fun r => List.length r = t) (nth h g []).
Proof. intros [L F] Hh. rewrite Forall_forall in F. apply F, nth_In. lia. Qed.
Lemma dims_col v l t g h i : dims v l t g -> (h < v)%nat -> (i < l)%nat -> List.length (nth i (nth h g []) []) = t.
Proof. intros D Hh Hi. destruct (dims_row _ _ _ _ _ D Hh) as [L F]. rewrite Forall_forall in F. apply F, nth_In. lia. Qed.
Lemma raise_cell_at v l t g h i j c h' i' j' : dims v l t g -> (h' < v)%nat -> (i' < l)%nat -> (j' < t)%nat ->
  cell (raise_cell g h i j c) h' i' j' = if Nat.eqb h h' && Nat.eqb i i' && Nat.eqb j j' then Rmax (cell g h' i' j') c else cell g h' i' j'.
Proof.
  intros D Hh Hi Hj. pose proof (dims_row _ _ _ _ _ D Hh) as [L1 _]. pose proof (dims_col _ _ _ _ _ _ D Hh Hi) as L2. assert (L0 : List.length g = v) by apply D.
  unfold cell, raise_cell. rewrite modify_nth_eq. destruct (Nat.eqb_spec h h'); [subst h'|reflexivity]. rewrite (proj2 (Nat.ltb_lt h (List.length g))) by lia.
  rewrite modify_nth_eq. destruct (Nat.eqb_spec i i'); [subst i'|reflexivity]. rewrite (proj2 (Nat.ltb_lt i _)) by lia.
  rewrite modify_nth_eq. destruct (Nat.eqb_spec j j'); [subst j'|reflexivity]. rewrite (proj2 (Nat.ltb_lt j _)) by lia. reflexivity.
Qed.

(** The effect of an operation that only raises cells: [P h i j c] says that cell (h, i, j) is
    raised to [c] at least. *)
Definition raises (v l t : nat) (P : nat -> nat -> nat -> R -> Prop) (g g' : grid3) : Prop :=
  dims v l t g -> dims v l t g' /\
  (forall h i j c, (h < v)%nat -> (i < l)%nat -> (j < t)%nat -> 0 < c -> (c <= cell g' h i j <-> c <= cell g h i j \/ P h i j c)) /\
  (forall h i j, (h < v)%nat -> (i < l)%nat -> (j < t)%nat -> cell g' h i j = cell g h i j \/ cell g' h i j = 1/2 \/ cell g' h i j = 1).
Lemma raises_id v l t g : raises v l t (fun _ _ _ _ => False) g g.
Proof. intros D. split; [exact D|]. split; [tauto | auto]. Qed.
Lemma raises_ext v l t P Q g g' : (forall h i j c, (h < v)%nat -> (i < l)%nat -> (j < t)%nat -> 0 < c -> (P h i j c <-> Q h i j c)) -> raises v l t P g g' -> raises v l t Q g g'.
Proof. intros E R D. destruct (R D) as (D' & A & B). split; [exact D'|]. split; [|exact B]. intros h i j c Hh Hi Hj Hc. rewrite <- (E h i j c) by assumption. now apply A. Qed.
Lemma raises_trans v l t P Q g1 g2 g3 : raises v l t P g1 g2 -> raises v l t Q g2 g3 -> raises v l t (fun h i j c => P h i j c \/ Q h i j c) g1 g3.
Proof.
  intros R1 R2 D. destruct (R1 D) as (D2 & A1 & B1). destruct (R2 D2) as (D3 & A2 & B2). split; [exact D3|]. split.
  - intros h i j c Hh Hi Hj Hc. rewrite A2, A1 by assumption. tauto.
  - intros h i j Hh Hi Hj. destruct (B2 h i j Hh Hi Hj) as [E | [E | E]]; rewrite E; auto.
Qed.
Lemma raises_fold {A} v l t (P : A -> nat -> nat -> nat -> R -> Prop) (f : grid3 -> A -> res grid3) xs :
  (forall x g g', In x xs -> f g x = Ok g' -> raises v l t (P x) g g') ->
  forall g g', foldM f xs g = Ok g' -> raises v l t (fun h i j c => exists x, In x xs /\ P x h i j c) g g'.
Proof.
  induction xs as [|x xs IH]; intros Hf g g' E; cbn [foldM] in E.
  - injection E as <-. eapply raises_ext; [|apply raises_id]. intros. split; [tauto | intros (y & Hy & _); elim Hy].
  - apply bind_ok in E as (g1 & E1 & E2). eapply raises_ext; [|eapply raises_trans; [eapply Hf; [left; reflexivity | exact E1] | eapply IH; [|exact E2]]].
    + cbv beta. intros. split; [intros [H3 | (y & Hy & H3)]; [exists x; cbn; auto | exists y; cbn; auto]|]. intros (y & [<- | Hy] & H3); [now left | right; eauto].
    + intros y g0 g0' Hy. apply Hf. now right.
Qed.
Lemma foldM_total {A S} (f : S -> A -> res S) xs : (forall s x, In x xs -> exists s', f s x = Ok s') -> forall s, exists s', foldM f xs s = Ok s'.
Proof.
  induction xs as [|x xs IH]; intros H s; cbn [foldM]; [eauto|]. destruct (H s x (or_introl eq_refl)) as (s1 & ->). cbn [bind]. apply IH. intros. apply H. now right.
Qed.

Lemma raise_cell_raises v l t g h i j c : c = 1/2 \/ c = 1 -> raises v l t (fun h' i' j' c' => h' = h /\ i' = i /\ j' = j /\ c' <= c) g (raise_cell g h i j c).
Proof.
  intros Hc D. split; [now apply raise_dims|]. split.
  - intros h' i' j' c' Hh Hi Hj Hp. rewrite (raise_cell_at v l t) by assumption.
    destruct (Nat.eqb_spec h h'), (Nat.eqb_spec i i'), (Nat.eqb_spec j j'); cbn [andb]; try (split; [tauto | intros [H|(? & ? & ? & ?)]; [exact H | congruence]]).
    subst. split.
    + intros H. destruct (Rle_dec c' (cell g h' i' j')) as [?|n]; [now left|]. right. split; [reflexivity|]. split; [reflexivity|]. split; [reflexivity|].
      unfold Rmax in H. destruct (Rle_dec (cell g h' i' j') c); lra.
    + intros [H|(_ & _ & _ & H)]; [pose proof (Rmax_l (cell g h' i' j') c) | pose proof (Rmax_r (cell g h' i' j') c)]; lra.
  - intros h' i' j' Hh Hi Hj. rewrite (raise_cell_at v l t) by assumption. destruct (_ && _ && _); [|now left]. unfold Rmax. destruct (Rle_dec _ _); [|now left]. destruct Hc as [-> | ->]; auto.
Qed.
Lemma raise_lanes_raises v l t g g' h lanes nl j c : c = 1/2 \/ c = 1 -> raise_lanes g h lanes nl j c = Ok g' ->
  raises v l t (fun h' i' j' c' => (exists k, In k lanes /\ np_index (Z.of_nat nl) k = Ok i') /\ h' = h /\ j' = j /\ c' <= c) g g'.
Proof.
  intros Hc E. unfold raise_lanes in E.
  eapply raises_ext; [|eapply (raises_fold v l t (fun k h' i' j' c' => np_index (Z.of_nat nl) k = Ok i' /\ h' = h /\ j' = j /\ c' <= c)); [|exact E]].
  - cbv beta. intros h' i' j' c' _ _ _ _. split; [intros (k & Hk & E1 & E2); split; [eauto | exact E2] | intros ((k & Hk & E1) & E2); exists k; auto].
  - intros k g0 g0' Hk E0. apply bind_ok in E0 as (i & Ei & E0). injection E0 as <-. eapply raises_ext; [|apply raise_cell_raises, Hc]. cbv beta. intros h' i' j' c' _ _ _ _.
    rewrite Ei. split; [intros (-> & -> & -> & ?); auto | intros (E1 & -> & -> & ?); injection E1; auto].
Qed.
Lemma raise_times_raises v l t g g' h lanes nl times c : c = 1/2 \/ c = 1 -> raise_times g h lanes nl t times c = Ok g' ->
  raises v l t (fun h' i' j' c' => (exists k, In k lanes /\ np_index (Z.of_nat nl) k = Ok i') /\ h' = h /\ In (Z.of_nat j') times /\ c' <= c) g g'.
Proof.
  intros Hc E. unfold raise_times in E.
  eapply raises_ext; [|eapply (raises_fold v l t (fun z h' i' j' c' => (exists k, In k lanes /\ np_index (Z.of_nat nl) k = Ok i') /\ h' = h /\ Z.of_nat j' = z /\ c' <= c)); [|exact E]].
  - cbv beta. intros h' i' j' c' _ _ _ _. split; [intros (z & Hz & E1 & E2 & <- & E3); auto | intros (E1 & E2 & E3 & E4); eauto 10].
  - intros z g0 g0' Hz E0. cbv beta in E0. destruct ((0 <=? z) && (z <? Z.of_nat t))%Z eqn:B.
    + rewrite ?B in E0. eapply raises_ext; [|eapply raise_lanes_raises; [exact Hc | exact E0]]. cbv beta. intros h' i' j' c' _ _ _ _. apply andb_prop in B as [B1 B2]. apply Z.leb_le in B1. apply Z.ltb_lt in B2.
      split; intros (E1 & E2 & E3 & E4); (split; [exact E1|]; split; [exact E2|]; split; [|exact E4]); lia.
    + injection E0 as <-. eapply raises_ext; [|apply raises_id]. cbv beta. intros h' i' j' c' _ _ Hj _. split; [tauto|]. intros (_ & _ & E3 & _).
      apply andb_false_iff in B as [B|B]; [apply Z.leb_gt in B | apply Z.ltb_ge in B]; lia.
Qed.

Lemma floor_bounds x : IZR (Rfloor x) <= x < IZR (Rfloor x) + 1.
Proof. unfold Rfloor. destruct (base_Int_part x). lra. Qed.
Lemma floor_unique x k : IZR k <= x < IZR k + 1 -> Rfloor x = k.
Proof.
  intros [H1 H2]. destruct (floor_bounds x) as [F1 F2].
  assert (IZR k < IZR (Rfloor x + 1)) by (rewrite plus_IZR; lra). assert (IZR (Rfloor x) < IZR (k + 1)) by (rewrite plus_IZR; lra).
  apply lt_IZR in H, H0. lia.
Qed.
(** The two quantised times are the ones less than a step away. *)
Lemma quantised x j : 0 <= x -> (In (Z.of_nat j) [Rtrunc x; Rceil x] <-> Rabs (x - INR j) < 1).
Proof.
  intros Hx. unfold Rtrunc. rewrite (proj2 (Rleb_true 0 x) Hx). unfold Rceil. rewrite INR_IZR_INZ. set (z := Z.of_nat j).
  destruct (floor_bounds x) as [F1 F2]. destruct (floor_bounds (- x)) as [G1 G2]. cbn [In]. split.
  - intros [E | [E | []]]; rewrite <- E; [|rewrite opp_IZR]; apply Rabs_def1; lra.
  - intros H. apply Rabs_def2 in H as [H1 H2]. destruct (Rle_dec (IZR z) x) as [L|L]; [left; apply floor_unique; lra|]. right; left. 
    enough (Rfloor (- x) = - z)%Z by lia. apply floor_unique. rewrite opp_IZR. lra.
Qed.
Lemma not_zero_rate r : closing_rate r (not_zero r not_zero_eps).
Proof.
  unfold closing_rate, not_zero, not_zero_eps. destruct (Rltb (1/100) (Rabs r)) eqn:E; [left; apply Rltb_true in E; auto|]. apply Rltb_false in E. right.
  assert (-1/100 <= r <= 1/100) by (unfold Rabs in E; destruct (Rcase_abs r); lra).
  destruct (Rltb 0 r) eqn:E0; [apply Rltb_true in E0; left | apply Rltb_false in E0; right]; lra.
Qed.
Lemma closing_nonzero r k : closing_rate r k -> k <> 0.
Proof. intros [[H ->] | [[H ->] | [H ->]]]; [intros -> ; rewrite Rabs_R0 in H | |]; lra. Qed.
Lemma closing_unique r k k' : closing_rate r k -> closing_rate r k' -> k = k'.
Proof.
  unfold closing_rate. intros [[H ->] | [[H ->] | [H ->]]] [[H' ->] | [[H' ->] | [H' ->]]]; try reflexivity; exfalso; unfold Rabs in *; try destruct (Rcase_abs r); lra.
Qed.
Lemma all_side_len g i ls : all_side_lanes g i = Ok ls -> lanes_count g i (List.length ls).
Proof.
  unfold all_side_lanes, g_lanes, g_succ. intros E. apply bind_ok in E as (l & E & E'). injection E' as <-. unfold zrange. rewrite !map_length, seq_length.
  destruct (assoc (li_from i) g) as [d|] eqn:Ed; cbn in E; [|discriminate]. destruct (assoc (li_to i) d) as [ls|] eqn:El; cbn in E; [|discriminate]. injection E as <-. exists d, ls. auto.
Qed.
Lemma lanes_count_fun g i n n' : lanes_count g i n -> lanes_count g i n' -> n = n'.
Proof. intros (d & ls & A & B & <-) (d' & ls' & A' & B' & <-). congruence. Qed.
Lemma np_index_range n i : (i < n)%nat -> np_index (Z.of_nat n) (Z.of_nat i) = Ok i.
Proof. intros H. unfold np_index. rewrite (proj2 (Z.leb_le 0 _)), (proj2 (Z.ltb_lt _ _)) by lia. cbn. f_equal. lia. Qed.
Lemma zrange_in n k : In k (zrange n) <-> (0 <= k < Z.of_nat n)%Z.
Proof. unfold zrange. rewrite in_map_iff. split; [intros (x & <- & H); apply in_seq in H; lia | intros H; exists (Z.to_nat k); split; [lia | apply in_seq; lia]]. Qed.

Lemma mark_point_raises net v nl nv nt tq es h other pt g g' : 0 < tq -> (snd pt = 1/2 \/ snd pt = 1) -> proper_id (v_lane_index other) ->
  mark_point net v nl nt tq es h other g pt = Ok g' ->
  raises nv nl nt (fun h' i' j' c => h' = h /\ would_meet net v other tq es (fst pt) i' j' /\ c <= snd pt) g g'.
Proof.
  intros Ht Hc Pid E. unfold mark_point in E. apply bind_ok in E as (d & Ed & E). 
  set (r := es - v_speed other * vdot (e_direction (EV other)) (e_direction (EV v))) in *. set (k := not_zero r not_zero_eps) in *.
  assert (Ck : closing_rate r k) by apply not_zero_rate. pose proof (closing_nonzero _ _ Ck) as Nk.
  set (x := (d + fst pt) / k) in *. assert (Ex : x * k = d + fst pt) by (unfold x; field; exact Nk).
  assert (Van : forall j, (exists gap rate, lane_distance_to net v (EV other) = Ok gap /\ closing_rate r rate /\ vanishes (gap + fst pt) rate tq j) <-> 0 <= x /\ Rabs (x - INR j * tq) < tq).
  { intros j. split.
    - intros (gap & rate & E1 & C1 & t & T0 & T1 & T2). rewrite Ed in E1. injection E1 as <-. rewrite (closing_unique _ _ _ C1 Ck) in T1.
      assert (t = x) by (apply (Rmult_eq_reg_r k); [lra | exact Nk]). subst t. auto.
    - intros [A B]. exists d, k. split; [exact Ed|]. split; [exact Ck|]. exists x. auto. }
  assert (No : forall gg, (forall i j, ~ would_meet net v other tq es (fst pt) i j) -> raises nv nl nt (fun h' i' j' c => h' = h /\ would_meet net v other tq es (fst pt) i' j' /\ c <= snd pt) gg gg).
  { intros gg H. eapply raises_ext; [|apply raises_id]. cbv beta. intros. split; [tauto | intros (_ & M & _); elim (H _ _ M)]. }
  destruct (Rltb x 0) eqn:Bx.
  { injection E as <-. apply No. intros i j (_ & _ & M). apply Van in M as [M _]. apply Rltb_true in Bx. lra. }
  apply Rltb_false in Bx. destruct (is_connected_road _ _ _ _ _ _) eqn:Cn.
  2: { injection E as <-. apply No. intros i j (M & _). congruence. }
  apply bind_ok in E as (lo & Elo & E). apply bind_ok in E as (lv & Elv & E). apply bind_ok in E as (lanes & El & E).
  pose proof (all_side_len _ _ _ Elo) as Co. pose proof (all_side_len _ _ _ Elv) as Cv.
  eapply raises_ext; [|eapply raise_times_raises; [exact Hc | exact E]]. cbv beta. intros h' i' j' c Hh Hi Hj _.
  assert (Occ : (exists k, In k lanes /\ np_index (Z.of_nat nl) k = Ok i') <-> may_occupy net v other i').
  { unfold may_occupy. destruct (Nat.eqb_spec (List.length lo) (List.length lv)) as [Eq|Ne].
    - unfold proper_id in Pid. destruct (li_id (v_lane_index other)) as [z|] eqn:Ez; [|discriminate]. injection El as <-. split.
      + intros (k0 & [<- | []] & Ei). exists (List.length lo), (List.length lv). split; [exact Co|]. split; [exact Cv|]. intros _. unfold np_index in Ei.
        destruct ((0 <=? z) && (z <? Z.of_nat nl))%Z eqn:B1; [injection Ei as <-; f_equal; lia|]. rewrite (proj2 (Z.ltb_ge z 0) Pid), andb_false_r in Ei. discriminate.
      + intros (no & nvv & C1 & C2 & H). pose proof (lanes_count_fun _ _ _ _ C1 Co). pose proof (lanes_count_fun _ _ _ _ C2 Cv). specialize (H ltac:(congruence)). injection H as ->.
        exists (Z.of_nat i'). split; [now left|]. now apply np_index_range.
    - injection El as <-. split.
      + intros _. exists (List.length lo), (List.length lv). split; [exact Co|]. split; [exact Cv|]. intros; contradiction.
      + intros _. exists (Z.of_nat i'). split; [apply zrange_in; lia | now apply np_index_range]. }
  assert (Q : In (Z.of_nat j') [Rtrunc (x / tq); Rceil (x / tq)] <-> 0 <= x /\ Rabs (x - INR j' * tq) < tq).
  { rewrite quantised by (apply Rmult_le_pos; [exact Bx | apply Rlt_le, Rinv_0_lt_compat, Ht]). replace (x - INR j' * tq) with ((x / tq - INR j') * tq) by (field; lra). rewrite Rabs_mult, (Rabs_right tq) by lra. split; [intros; split; [exact Bx | nra] | intros [_ H]; nra]. }
  unfold would_meet. fold r. rewrite Occ, Q, Van, Cn. split; [intros (A & B & C & D); auto | intros (A & (B1 & B2 & B3) & C); auto].
Qed.
Lemma mark_vehicle_raises net v nl nv nt tq es h other g g' : 0 < tq -> proper_id (v_lane_index other) ->
  mark_vehicle net v nl nt tq es h g other = Ok g' ->
  raises nv nl nt (fun h' i' j' c => h' = h /\ v_id other <> v_id v /\ es <> v_speed other /\
    ((would_meet net v other tq es 0 i' j' /\ c <= 1) \/ ((would_meet net v other tq es V_LENGTH i' j' \/ would_meet net v other tq es (- V_LENGTH) i' j') /\ c <= 1/2))) g g'.
Proof.
  intros Ht Pid E. unfold mark_vehicle in E. destruct (Nat.eqb_spec (v_id other) (v_id v)) as [Eq|Ne]; cbn [orb] in E.
  { injection E as <-. eapply raises_ext; [|apply raises_id]. cbv beta. tauto. }
  destruct (Reqb es (v_speed other)) eqn:Er.
  { apply Reqb_true in Er. injection E as <-. eapply raises_ext; [|apply raises_id]. cbv beta. tauto. }
  apply Reqb_false in Er. replace (V_LENGTH / 2 + V_LENGTH / 2) with V_LENGTH in E by field.
  eapply raises_ext; [|eapply (raises_fold nv nl nt (fun pt h' i' j' c => h' = h /\ would_meet net v other tq es (fst pt) i' j' /\ c <= snd pt)); [|exact E]].
  - cbv beta. intros h' i' j' c _ _ _ _. split.
    + intros (pt & [<- | [<- | [<- | []]]] & A & B & C); cbn [fst snd] in *; tauto.
    + intros (A & _ & _ & [[B C] | [[B | B] C]]); [exists (0, 1) | exists (V_LENGTH, 1/2) | exists (- V_LENGTH, 1/2)]; cbn; tauto.
  - intros pt g0 g0' Hp. apply mark_point_raises; try assumption. destruct Hp as [<- | [<- | [<- | []]]]; cbn; auto.
Qed.
Lemma full_dims x v l t : dims v l t (full3 x v l t).
Proof.
  unfold full3. split; [apply repeat_length|]. apply Forall_forall. intros p Hp. apply repeat_spec in Hp as ->. split; [apply repeat_length|].
  apply Forall_forall. intros r Hr. apply repeat_spec in Hr as ->. apply repeat_length.
Qed.
Lemma full_cell x v l t h i j : (h < v)%nat -> (i < l)%nat -> (j < t)%nat -> cell (full3 x v l t) h i j = x.
Proof.
  intros. unfold cell, full3. rewrite (nth_indep _ [] (repeat (repeat x t) l)), nth_repeat by (rewrite repeat_length; lia). rewrite (nth_indep _ [] (repeat x t)), nth_repeat by (rewrite repeat_length; lia).
  rewrite (nth_indep _ 0 x), nth_repeat by (rewrite repeat_length; lia). reflexivity.
Qed.
(** The whole grid. *)
Lemma grid_raises rd ev v tq horizon g : 0 < tq -> (forall w, In w (rd_vehicles rd) -> proper_id (v_lane_index w)) ->
  compute_ttc_grid rd ev v tq horizon = Ok g ->
  exists lanes nt, v_kind v = KMDP /\ all_side_lanes (rd_net rd) (v_lane_index ev) = Ok lanes /\ nt = Z.to_nat (Rtrunc (horizon / tq)) /\ (0 <= Rtrunc (horizon / tq))%Z /\
  (0 <= sg_count (v_grid v))%Z /\
  let nv := Z.to_nat (sg_count (v_grid v)) in let nl := List.length lanes in
  raises nv nl nt (fun h i j c => exists w, In w (rd_vehicles rd) /\ v_id w <> v_id v /\ index_to_speed (v_grid v) (Z.of_nat h) <> v_speed w /\
    ((would_meet (rd_net rd) v w tq (index_to_speed (v_grid v) (Z.of_nat h)) 0 i j /\ c <= 1) \/
     ((would_meet (rd_net rd) v w tq (index_to_speed (v_grid v) (Z.of_nat h)) V_LENGTH i j \/ would_meet (rd_net rd) v w tq (index_to_speed (v_grid v) (Z.of_nat h)) (- V_LENGTH) i j) /\ c <= 1/2)))
    (full3 0 nv nl nt) g.
Proof.
  intros Ht Pid E. unfold compute_ttc_grid in E. apply bind_ok in E as (lanes & El & E). destruct (v_kind v) eqn:K; try discriminate.
  destruct (Reqb tq 0); [discriminate|]. destruct (_ || _)%Z eqn:B; [discriminate|]. apply orb_false_iff in B as [B1 B2]. apply Z.ltb_ge in B1, B2.
  exists lanes, (Z.to_nat (Rtrunc (horizon / tq))). split; [reflexivity|]. split; [exact El|]. split; [reflexivity|]. split; [exact B2|]. split; [exact B1|]. cbv zeta.
  eapply raises_ext; [|eapply (raises_fold _ _ _ (fun h0 h i j c => h = h0 /\ exists w, In w (rd_vehicles rd) /\ v_id w <> v_id v /\ index_to_speed (v_grid v) (Z.of_nat h0) <> v_speed w /\
    ((would_meet (rd_net rd) v w tq (index_to_speed (v_grid v) (Z.of_nat h0)) 0 i j /\ c <= 1) \/
     ((would_meet (rd_net rd) v w tq (index_to_speed (v_grid v) (Z.of_nat h0)) V_LENGTH i j \/ would_meet (rd_net rd) v w tq (index_to_speed (v_grid v) (Z.of_nat h0)) (- V_LENGTH) i j) /\ c <= 1/2)))); [|exact E]].
  - cbv beta. intros h i j c Hh _ _ _. split; [intros (h0 & _ & -> & H); exact H | intros H; exists h; split; [apply in_seq; lia | auto]].
  - intros h0 g0 g0' _ E0.
    eapply raises_ext; [|eapply (raises_fold _ _ _ (fun w h i j c => h = h0 /\ v_id w <> v_id v /\ index_to_speed (v_grid v) (Z.of_nat h0) <> v_speed w /\
    ((would_meet (rd_net rd) v w tq (index_to_speed (v_grid v) (Z.of_nat h0)) 0 i j /\ c <= 1) \/
     ((would_meet (rd_net rd) v w tq (index_to_speed (v_grid v) (Z.of_nat h0)) V_LENGTH i j \/ would_meet (rd_net rd) v w tq (index_to_speed (v_grid v) (Z.of_nat h0)) (- V_LENGTH) i j) /\ c <= 1/2)))); [|exact E0]].
    + cbv beta. intros h i j c _ _ _ _. split; [intros (w & Hw & H1 & H2); split; [exact H1 | exists w; auto] | intros (H1 & w & Hw & H2); exists w; auto].
    + intros w g1 g1' Hw E1. eapply mark_vehicle_raises; [exact Ht | now apply Pid | exact E1].
Qed.
Lemma exists_side g i : lane_exists g i -> exists ls k, all_side_lanes g i = Ok ls /\ li_id i = Some (Z.of_nat k) /\ (k < List.length ls)%nat /\ exists l, get_lane g i = Ok l.
Proof.
  intros (k & l & Ei & d & ls & A & B & C). unfold all_side_lanes, g_lanes, g_succ. rewrite A. cbn [bind]. rewrite B. cbn [bind].
  eexists _, k. split; [reflexivity|]. split; [exact Ei|]. unfold zrange. rewrite !map_length, seq_length. split; [apply nth_error_Some; congruence|].
  exists l. unfold get_lane, g_lanes, g_succ. rewrite A. cbn [bind]. rewrite B, Ei. cbn [bind]. unfold py_index. rewrite (proj2 (Z.ltb_ge _ 0)), (proj2 (Z.leb_le 0 _)) by lia. rewrite Nat2Z.id, C. reflexivity.
Qed.
Lemma raise_times_total g h lanes nl nt times c : (forall k, In k lanes -> (0 <= k < Z.of_nat nl)%Z) -> exists g', raise_times g h lanes nl nt times c = Ok g'.
Proof.
  intros H. unfold raise_times. apply foldM_total. intros s t _. destruct (_ && _); [|eauto]. unfold raise_lanes. apply foldM_total. intros s' k Hk.
  pose proof (H k Hk). unfold np_index. rewrite (proj2 (Z.leb_le 0 k)), (proj2 (Z.ltb_lt k _)) by lia. cbn. eauto.
Qed.
Lemma grid_total rd ev v tq horizon ls lv : v_kind v = KMDP -> 0 < tq -> 0 <= horizon -> (0 <= sg_count (v_grid v))%Z ->
  lane_exists (rd_net rd) (v_lane_index v) -> (forall w, In w (rd_vehicles rd) -> lane_exists (rd_net rd) (v_lane_index w)) ->
  all_side_lanes (rd_net rd) (v_lane_index ev) = Ok ls -> all_side_lanes (rd_net rd) (v_lane_index v) = Ok lv -> (List.length lv <= List.length ls)%nat ->
  exists g, compute_ttc_grid rd ev v tq horizon = Ok g.
Proof.
  intros K Ht Hh Hc Lv Lw Es Ev Le. unfold compute_ttc_grid. rewrite Es. cbn [bind]. rewrite K, (proj2 (Reqb_false tq 0)) by lra.
  assert (0 <= Rtrunc (horizon / tq))%Z as T0.
  { assert (0 <= horizon / tq) as P by (apply Rmult_le_pos; [lra | apply Rlt_le, Rinv_0_lt_compat; lra]). unfold Rtrunc. rewrite (proj2 (Rleb_true 0 _) P).
    destruct (floor_bounds (horizon / tq)) as [_ F]. apply Z.lt_succ_r. apply lt_IZR. rewrite succ_IZR. lra. }
  rewrite (proj2 (Z.ltb_ge _ 0)), (proj2 (Z.ltb_ge _ 0)) by lia. cbn [orb]. apply foldM_total. intros s h _. apply foldM_total. intros s' w Hw.
  unfold mark_vehicle. destruct (_ || _); [eauto|]. apply foldM_total. intros s'' pt _. unfold mark_point.
  destruct (exists_side _ _ Lv) as (lv' & kv & Ev' & _ & _ & l & Gl). unfold lane_distance_to. rewrite Gl. cbn [bind]. destruct (Rltb _ 0); [eauto|]. destruct (is_connected_road _ _ _ _ _ _); [|eauto].
  destruct (exists_side _ _ (Lw w Hw)) as (lw & kw & Ew & Iw & Bw & _). rewrite Ew, Ev. cbn [bind]. destruct (Nat.eqb_spec (List.length lw) (List.length lv)) as [Eq|Ne].
  - rewrite Iw. cbn [bind]. apply raise_times_total. intros k [<- | []]. lia.
  - cbn [bind]. apply raise_times_total. intros k Hk. now apply zrange_in in Hk.
Qed.

(** ** Tables *)
Lemma flat_nth {A B} (f : A -> list B) n d (l : list A) : (forall x, In x l -> List.length (f x) = n) ->
  forall k r, (k < List.length l)%nat -> (r < n)%nat -> nth_error (flat_map f l) (k * n + r) = nth_error (f (nth k l d)) r.
Proof.
  intros H. induction l as [|x l IH]; intros k r Hk Hr; cbn in Hk; [lia|]. cbn [flat_map]. assert (Lx : List.length (f x) = n) by (apply H; now left). destruct k as [|k].
  - cbn [Nat.mul Nat.add nth]. now rewrite nth_error_app1 by lia.
  - rewrite nth_error_app2 by (rewrite Lx; nia). rewrite Lx. replace (S k * n + r - n)%nat with (k * n + r)%nat by nia. cbn [nth]. apply IH; [intros; apply H; now right | lia | exact Hr].
Qed.
Lemma flat_len {A B} (f : A -> list B) n (l : list A) : (forall x, In x l -> List.length (f x) = n) -> List.length (flat_map f l) = (List.length l * n)%nat.
Proof. intros H. induction l as [|x l IH]; [reflexivity|]. cbn [flat_map]. rewrite app_length, IH, H; [cbn; lia | now left | intros; apply H; now right]. Qed.
Lemma table_len {A} v l t (f : nat -> nat -> nat -> A) : List.length (ravel_table v l t f) = (v * l * t)%nat.
Proof.
  unfold ravel_table. rewrite (flat_len _ (l * t)); [rewrite seq_length; nia|]. intros h _. rewrite (flat_len _ t); [rewrite seq_length; nia|]. intros i _. now rewrite map_length, seq_length.
Qed.
Lemma table_nth {A} v l t (f : nat -> nat -> nat -> A) h i j : (h < v)%nat -> (i < l)%nat -> (j < t)%nat -> nth_error (ravel_table v l t f) ((h * l + i) * t + j) = Some (f h i j).
Proof.
  intros Hh Hi Hj. unfold ravel_table. replace ((h * l + i) * t + j)%nat with (h * (l * t) + (i * t + j))%nat by nia.
  rewrite (flat_nth _ (l * t) 0%nat); [| |rewrite seq_length; exact Hh | nia].
  2: { intros x _. rewrite (flat_len _ t); [now rewrite seq_length|]. intros y _. now rewrite map_length, seq_length. }
  rewrite seq_nth by exact Hh. cbn [Nat.add]. rewrite (flat_nth _ t 0%nat); [| |rewrite seq_length; exact Hi | exact Hj].
  2: { intros y _. now rewrite map_length, seq_length. }
  rewrite seq_nth by exact Hi. cbn [Nat.add]. rewrite nth_error_map. rewrite (nth_error_nth' _ 0%nat) by (rewrite seq_length; exact Hj). rewrite seq_nth by exact Hj. reflexivity.
Qed.
Lemma ravel_inj v l t s s' : in_grid v l t s -> in_grid v l t s' ->
  (let '(h, i, j) := s in ravel (v, l, t) h i j) = (let '(h, i, j) := s' in ravel (v, l, t) h i j) -> s = s'.
Proof.
  destruct s as [[h i] j], s' as [[h' i'] j']. unfold in_grid, ravel. intros (A & B & C) (A' & B' & C') E.
  destruct (Z.div_mod_unique t (h * l + i) (h' * l + i') j j') as [E1 E2]; [left; lia | left; lia | lia |].
  destruct (Z.div_mod_unique l h h' i i') as [E3 E4]; [left; lia | left; lia | lia |]. congruence.
Qed.

(** ** Observation *)
Lemma rep_ones {A} (l : list A) : np_repeat (repeat 1%nat (List.length l)) l = l.
Proof. induction l; cbn; congruence. Qed.
Lemma np_repeat_app {A} c1 : forall c2 (l1 l2 : list A), List.length c1 = List.length l1 -> np_repeat (c1 ++ c2) (l1 ++ l2) = np_repeat c1 l1 ++ np_repeat c2 l2.
Proof. induction c1 as [|c c1 IH]; intros c2 [|x l1] l2 E; cbn in *; try discriminate; [reflexivity|]. rewrite IH by lia. now rewrite app_assoc. Qed.
Lemma repeat_ends_shape {A} (x y : A) mid : repeat_ends (x :: mid ++ [y]) = repeat x (3 + List.length mid) ++ mid ++ repeat y (3 + List.length mid).
Proof.
  unfold repeat_ends. set (m := List.length mid). assert (E : List.length (x :: mid ++ [y]) = (2 + m)%nat) by (cbn; rewrite app_length; cbn; fold m; lia). rewrite E. clear E.
  change (seq 0 (2 + m)) with (0%nat :: seq 1 (S m)). rewrite seq_S. change (1 + m)%nat with (S m).
  cbn [map np_repeat]. change (Nat.eqb 0 0 || _)%bool with true. cbn [orb]. change (1 + (2 + m))%nat with (3 + m)%nat. f_equal. rewrite map_app, np_repeat_app by (rewrite map_length, seq_length; reflexivity).
  replace (map _ (seq 1 m)) with (repeat 1%nat m).
  - replace (np_repeat (repeat 1%nat m) mid) with mid by (symmetry; apply rep_ones). f_equal. cbn [map np_repeat]. replace (2 + m - 1)%nat with (S m) by lia. rewrite Nat.eqb_refl, orb_true_r. now rewrite app_nil_r.
  - symmetry. clear. assert (forall k s n, (0 < s)%nat -> (s + k < n)%nat -> map (fun z => if (z =? 0)%nat || (z =? n - 1)%nat then (3 + m)%nat else 1%nat) (seq s k) = repeat 1%nat k) as G.
    { induction k; intros s n Hs Hn; [reflexivity|]. cbn [seq map repeat]. rewrite (proj2 (Nat.eqb_neq s 0)), (proj2 (Nat.eqb_neq s (n - 1))) by lia. cbn [orb]. f_equal. apply IHk; lia. }
    apply (G m 1%nat (2 + m)%nat); lia.
Qed.
Definition clamp (n : nat) (p : nat) : nat := Nat.min (p - n) (n - 1).
Lemma repeat_ends_nth {A} (g : list A) d p : (2 <= List.length g)%nat -> (p < 3 * List.length g)%nat ->
  List.length (repeat_ends g) = (3 * List.length g)%nat /\ nth p (repeat_ends g) d = nth (clamp (List.length g) p) g d.
Proof.
  intros H2 Hp. destruct g as [|x g]; [cbn in H2; lia|]. destruct (exists_last (l := g)) as (mid & y & ->); [intros ->; cbn in H2; lia|].
  rewrite repeat_ends_shape. set (m := List.length mid). assert (E : List.length (x :: mid ++ [y]) = (2 + m)%nat) by (cbn; rewrite app_length; cbn; fold m; lia). rewrite E in *. clear E.
  split; [rewrite !app_length, !repeat_length; fold m; lia|]. unfold clamp. destruct (Nat.ltb_spec p (3 + m)) as [L|L].
  - rewrite app_nth1 by (rewrite repeat_length; lia). rewrite (nth_indep _ d x), nth_repeat by (rewrite repeat_length; lia). replace (Nat.min (p - (2 + m)) (2 + m - 1)) with 0%nat by lia. reflexivity.
  - rewrite app_nth2, repeat_length by (rewrite repeat_length; lia). destruct (Nat.ltb_spec (p - (3 + m)) m) as [L'|L'].
    + rewrite app_nth1 by (fold m; lia). replace (Nat.min (p - (2 + m)) (2 + m - 1)) with (S (p - (3 + m))) by lia. cbn [nth]. now rewrite app_nth1 by (fold m; lia).
    + rewrite app_nth2 by (fold m; lia). fold m. rewrite (nth_indep _ d y), nth_repeat by (rewrite repeat_length; lia). replace (Nat.min (p - (2 + m)) (2 + m - 1)) with (S m) by lia. cbn [nth].
      rewrite app_nth2 by (fold m; lia). fold m. now rewrite Nat.sub_diag.
Qed.
Lemma slice_len {A} a b (l : list A) : (b <= List.length l)%nat -> List.length (slice a b l) = (b - a)%nat.
Proof. intros H. unfold slice. rewrite firstn_length, skipn_length. lia. Qed.
Lemma slice_nth {A} a b (l : list A) k d : (k < b - a)%nat -> nth k (slice a b l) d = nth (a + k) l d.
Proof.
  intros H. unfold slice. revert a b k H. assert (F : forall n (l : list A) k, (k < n)%nat -> nth k (firstn n l) d = nth k l d).
  { induction n; intros l0 k Hk; [lia|]. destruct l0; [destruct k; reflexivity|]. destruct k; cbn; [reflexivity|]. apply IHn. lia. }
  intros a b k H. rewrite F by exact H. clear. revert l. induction a; intros l; [reflexivity|]. destruct l; [destruct k; reflexivity|]. apply IHa.
Qed.
Lemma slice_in {A} a b (l : list A) x : In x (slice a b l) -> In x l.
Proof.
  unfold slice. intros H. rewrite <- (firstn_skipn a l). apply in_or_app. right. rewrite <- (firstn_skipn (b - a) (skipn a l)). apply in_or_app. now left.
Qed.
