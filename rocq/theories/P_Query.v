From Verif Require Import Prelude M_Utils M_Lane M_Road M_Vehicle M_Kinematics S_Road P_Base P_Lane P_Graph.
From Coq Require Import Lia Lra Permutation Sorted.
Open Scope R_scope.

(** ** is_connected_road *)
Lemma same_road_iff i j : same_road i j = true <-> li_from i = li_from j /\ li_to i = li_to j.
Proof. unfold same_road. rewrite andb_true_iff, !String.eqb_eq. easy. Qed.
Lemma id_eqb_iff a b : id_eqb a b = true <-> a = b.
Proof.
  destruct a, b; simpl; rewrite ?Z.eqb_eq; split; intros H; try easy; congruence.
Qed.
Lemma met_iff i2 i1 sl : is_same_road i2 i1 sl || is_leading_to_road i2 i1 sl = true <-> met i2 i1 sl.
Proof.
  unfold is_same_road, is_leading_to_road, met.
  rewrite orb_true_iff, !andb_true_iff, same_road_iff, String.eqb_eq, orb_true_iff, negb_true_iff, id_eqb_iff.
  destruct sl; intuition congruence.
Qed.

Lemma connected_fuel_iff g i2 sl (W : wf_graph g) : forall fuel i1 rt depth, (depth + List.length rt <= fuel)%nat ->
  (is_connected_fuel fuel g i1 i2 rt sl depth = true <->
   exists k j rt', (k <= depth)%nat /\ hops g k (i1, rt) (j, rt') /\ met i2 j sl).
Proof.
  induction fuel as [|fuel IH]; intros i1 rt depth Hf.
  - simpl. destruct (is_same_road i2 i1 sl || is_leading_to_road i2 i1 sl) eqn:E.
    + apply met_iff in E. split; [|easy]. intros _. exists 0%nat, i1, rt. split; [lia|]. split; [constructor|easy].
    + split; [easy|]. intros (k & j & rt' & Hk & H & M). assert (k = 0)%nat by lia. subst k. inversion H; subst.
      apply met_iff in M. congruence.
  - cbn [is_connected_fuel]. destruct (is_same_road i2 i1 sl || is_leading_to_road i2 i1 sl) eqn:E.
    { apply met_iff in E. split; [|easy]. intros _. exists 0%nat, i1, rt. split; [lia|]. split; [constructor|easy]. }
    assert (NM : ~ met i2 i1 sl) by (intros M; apply met_iff in M; congruence).
    destruct depth as [|depth].
    { split; [easy|]. intros (k & j & rt' & Hk & H & M). assert (k = 0)%nat by lia. subst k. inversion H; subst. easy. }
    assert (Search : forall rt0, (List.length rt0 = List.length rt) ->
      (existsb (fun n => is_connected_fuel fuel g (li_to i1, n, li_id i1) i2 rt0 sl depth)
          (keys (match assoc (li_to i1) g with Some d => d | None => [] end)) = true <->
       exists n, edge g (li_to i1) n /\ exists k j rt', (k <= depth)%nat /\ hops g k ((li_to i1, n, li_id i1), rt0) (j, rt') /\ met i2 j sl)).
    { intros rt0 L. rewrite existsb_exists. destruct (assoc (li_to i1) g) as [d|] eqn:Ed.
      - split.
        + intros (n & Hn & C). exists n. split; [now apply (assoc_edge g (li_to i1) d)|]. apply IH in C; [easy|]. lia.
        + intros (n & Hn & C). exists n. split; [now apply (assoc_edge g (li_to i1) d)|]. apply IH; [lia|easy].
      - split; [intros (n & [] & _)|]. intros (n & (k & l & d & ls & A & _) & _). congruence. }
    destruct rt as [|r rt].
    + rewrite (Search []) by easy. split.
      * intros (n & He & k & j & rt' & Hk & H & M). exists (S k), j, rt'. split; [lia|]. split; [|easy].
        econstructor; [|exact H]. now constructor.
      * intros (k & j & rt' & Hk & H & M). destruct k as [|k]; [inversion H; subst; easy|].
        inversion H as [|? ? st' ? Hh Hs]; subst. inversion Hh; subst.
        exists n. split; [easy|]. exists k, j, rt'. split; [lia|easy].
    + destruct (same_road r i1) eqn:Es.
      * rewrite (IH i1 rt (S depth)) by (simpl in Hf; lia). apply same_road_iff in Es as [Ea Eb]. split.
        -- intros (k & j & rt' & Hk & H & M). destruct k as [|k]; [inversion H; subst; easy|].
           inversion H as [|? ? st' ? Hh Hs]; subst. exists (S k), j, rt'. split; [easy|]. split; [|easy].
           econstructor; [|exact Hs]. now constructor.
        -- intros (k & j & rt' & Hk & H & M). destruct k as [|k]; [inversion H; subst; easy|].
           inversion H as [|? ? st' ? Hh Hs]; subst. exists (S k), j, rt'. split; [easy|]. split; [|easy].
           econstructor; [|exact Hs]. inversion Hh; subst; [easy| |]; exfalso; tauto.
      * assert (Ns : ~ (li_from r = li_from i1 /\ li_to r = li_to i1)) by (intros Q; apply same_road_iff in Q; congruence).
        destruct (String.eqb_spec (li_from r) (li_to i1)) as [Q|Q].
        -- rewrite IH by (simpl in Hf; lia). split.
           ++ intros (k & j & rt' & Hk & H & M). exists (S k), j, rt'. split; [lia|]. split; [|easy].
              econstructor; [|exact H]. now constructor.
           ++ intros (k & j & rt' & Hk & H & M). destruct k as [|k]; [inversion H; subst; easy|].
              inversion H as [|? ? st' ? Hh Hs]; subst. exists k, j, rt'. split; [lia|]. split; [|easy].
              inversion Hh; subst; [tauto|easy|]. tauto.
        -- rewrite (Search (r :: rt)) by easy. split.
           ++ intros (n & He & k & j & rt' & Hk & H & M). exists (S k), j, rt'. split; [lia|]. split; [|easy].
              econstructor; [|exact H]. now constructor.
           ++ intros (k & j & rt' & Hk & H & M). destruct k as [|k]; [inversion H; subst; easy|].
              inversion H as [|? ? st' ? Hh Hs]; subst. inversion Hh; subst; [tauto|easy|].
              exists n. split; [easy|]. exists k, j, rt'. split; [lia|easy].
Qed.
Lemma connected_iff g i1 i2 rt sl depth : wf_graph g ->
  (is_connected_road g i1 i2 rt sl depth = true <->
   exists k j rt', (k <= depth)%nat /\ hops g k (i1, rt) (j, rt') /\ met i2 j sl).
Proof. intros W. apply connected_fuel_iff; [easy|]. lia. Qed.

(** ** position_heading_along_route *)
Lemma along_nil g s d : position_heading_along_route g [] s d = Err IndexError.
Proof. reflexivity. Qed.
Lemma along_last g r s d l : get_lane g r = Ok l ->
  position_heading_along_route g [r] s d = Ok (l_position l s d, l_heading l s).
Proof. intros E. simpl. now rewrite E. Qed.
Lemma along_within g r r' rt s d l : get_lane g r = Ok l -> s <= l_length l ->
  position_heading_along_route g (r :: r' :: rt) s d = Ok (l_position l s d, l_heading l s).
Proof. intros E H. cbn [position_heading_along_route]. rewrite E. simpl. rewrite Rltb_ge; easy. Qed.
Lemma along_beyond g r r' rt s d l : get_lane g r = Ok l -> l_length l < s ->
  position_heading_along_route g (r :: r' :: rt) s d = position_heading_along_route g (r' :: rt) (s - l_length l) d.
Proof. intros E H. cbn [position_heading_along_route]. rewrite E. cbn [bind]. rewrite Rltb_lt; easy. Qed.

(** The lane of the route that holds coordinate [s], with the residual. *)
Lemma along_general g rt s d : rt <> [] -> (forall r, In r rt -> exists l, get_lane g r = Ok l) ->
  exists pre r post l lens, rt = pre ++ r :: post /\ get_lane g r = Ok l /\
    mapM (fun q => rmap l_length (get_lane g q)) pre = Ok lens /\
    position_heading_along_route g rt s d = Ok (l_position l (s - rsum lens) d, l_heading l (s - rsum lens)) /\
    (post <> [] -> s - rsum lens <= l_length l) /\
    (forall n, (n < List.length lens)%nat -> rsum (firstn (S n) lens) < s).
Proof.
  revert s. induction rt as [|r rt IH]; intros s N H; [easy|].
  destruct (H r (or_introl eq_refl)) as [l Hl].
  destruct rt as [|r' rt].
  - exists [], r, [], l, []. simpl. rewrite Hl. simpl. rewrite Rminus_0_r. repeat split; easy || (intros; lia).
  - destruct (Rle_dec s (l_length l)) as [L|L].
    + exists [], r, (r' :: rt), l, []. rewrite (along_within _ _ _ _ _ _ _ Hl L). simpl. rewrite Rminus_0_r.
      repeat split; easy || (intros; lia).
    + apply Rnot_le_lt in L. rewrite (along_beyond _ _ _ _ _ _ _ Hl L).
      destruct (IH (s - l_length l)) as (pre & q & post & lq & lens & E & Eq & M & P & B & F); [easy | intros x Hx; apply H; now right |].
      exists (r :: pre), q, post, lq, (l_length l :: lens). simpl. rewrite E, Hl. simpl. rewrite M. simpl.
      replace (s - (l_length l + rsum lens)) with (s - l_length l - rsum lens) by ring.
      repeat split; try easy. intros n Hn. destruct n as [|n]; simpl; [lra|]. specialize (F n ltac:(lia)). simpl in F. lra.
Qed.

(** ** neighbour_vehicles *)
Definition candidate (l : lane) (id : nat) (e : entity) : Prop :=
  e_id e <> id /\ is_landmark e = false /\
  Rabs (snd (l_local l (e_pos e))) <= l_width l / 2 + 1 /\
  - 5 <= fst (l_local l (e_pos e)) < l_length l + 5.

Definition acc_ok (l : lane) (id : nat) (s : R) (seen : list entity) (acc : neighbour_acc) : Prop :=
  (match fst acc with
   | None => forall e, In e seen -> candidate l id e -> fst (l_local l (e_pos e)) < s
   | Some (sf, f) => In f seen /\ candidate l id f /\ sf = fst (l_local l (e_pos f)) /\ s <= sf /\
       forall e, In e seen -> candidate l id e -> s <= fst (l_local l (e_pos e)) -> sf <= fst (l_local l (e_pos e))
   end) /\
  (match snd acc with
   | None => forall e, In e seen -> candidate l id e -> s <= fst (l_local l (e_pos e))
   | Some (sr, r) => In r seen /\ candidate l id r /\ sr = fst (l_local l (e_pos r)) /\ sr < s /\
       forall e, In e seen -> candidate l id e -> fst (l_local l (e_pos e)) < s -> fst (l_local l (e_pos e)) <= sr
   end).

Lemma on_lane_candidate l e : on_lane l (e_pos e) (Some (fst (l_local l (e_pos e)))) (Some (snd (l_local l (e_pos e)))) 1 = true <->
  Rabs (snd (l_local l (e_pos e))) <= l_width l / 2 + 1 /\ - 5 <= fst (l_local l (e_pos e)) < l_length l + 5.
Proof.
  rewrite on_lane_iff by (right; easy). unfold l_width_at, LANE_VEHICLE_LENGTH. easy.
Qed.

Lemma neighbour_step_ok l id s seen acc e : acc_ok l id s seen acc ->
  acc_ok l id s (seen ++ [e]) (neighbour_step l id s acc e).
Proof.
  intros [Hf Hr].
  assert (Skip : ~ candidate l id e -> acc_ok l id s (seen ++ [e]) acc).
  { intros N. split.
    - destruct (fst acc) as [[sf f]|].
      + destruct Hf as (A & B & C & D & E). split; [apply in_or_app; now left|]. repeat split; try apply B; try easy.
        intros x Hx Cx. apply in_app_iff in Hx as [Hx|[<-|[]]]; [now apply E | easy].
      + intros x Hx Cx. apply in_app_iff in Hx as [Hx|[<-|[]]]; [now apply Hf | easy].
    - destruct (snd acc) as [[sr r]|].
      + destruct Hr as (A & B & C & D & E). split; [apply in_or_app; now left|]. repeat split; try apply B; try easy.
        intros x Hx Cx. apply in_app_iff in Hx as [Hx|[<-|[]]]; [now apply E | easy].
      + intros x Hx Cx. apply in_app_iff in Hx as [Hx|[<-|[]]]; [now apply Hr | easy]. }
  unfold neighbour_step.
  destruct (negb (Nat.eqb (e_id e) id) && negb (is_landmark e)) eqn:Eq.
  2:{ apply Skip. intros (A & B & _). apply andb_false_iff in Eq as [Q|Q]; apply negb_false_iff in Q.
      - apply Nat.eqb_eq in Q. easy.
      - congruence. }
  apply andb_true_iff in Eq as [Q1 Q2]. apply negb_true_iff, Nat.eqb_neq in Q1. apply negb_true_iff in Q2.
  destruct (l_local l (e_pos e)) as [sv dv] eqn:El.
  pose proof (on_lane_candidate l e) as OC. rewrite El in OC. simpl in OC.
  destruct (on_lane l (e_pos e) (Some sv) (Some dv) 1) eqn:Eo; simpl.
  2:{ apply Skip. intros (_ & _ & A). rewrite El in A. simpl in A. apply OC in A. easy. }
  assert (Ce : candidate l id e).
  { split; [easy|]. split; [easy|]. rewrite El. simpl. now apply OC. }
  clear Skip. split; simpl.
  - destruct (fst acc) as [[sf f]|].
    + destruct Hf as (A & B & C & D & E).
      destruct (Rleb s sv && Rleb sv sf) eqn:Et.
      * rbool. split; [apply in_or_app; right; now left|]. split; [easy|]. rewrite El. simpl. split; [easy|]. split; [easy|].
        intros x Hx Cx Sx. apply in_app_iff in Hx as [Hx|[<-|[]]].
        -- specialize (E x Hx Cx Sx). lra.
        -- rewrite El. simpl. lra.
      * split; [apply in_or_app; now left|]. split; [easy|]. split; [easy|]. split; [easy|].
        intros x Hx Cx Sx. apply in_app_iff in Hx as [Hx|[<-|[]]]; [now apply E|].
        rewrite El in *. simpl in *. apply andb_false_iff in Et as [Et|Et]; rbool; lra.
    + destruct (Rleb s sv) eqn:Et; rbool.
      * split; [apply in_or_app; right; now left|]. split; [easy|]. rewrite El. simpl. split; [easy|]. split; [easy|].
        intros x Hx Cx Sx. apply in_app_iff in Hx as [Hx|[<-|[]]].
        -- specialize (Hf x Hx Cx). lra.
        -- rewrite El. simpl. lra.
      * intros x Hx Cx. apply in_app_iff in Hx as [Hx|[<-|[]]]; [now apply Hf|]. rewrite El. simpl. lra.
  - destruct (snd acc) as [[sr r]|].
    + destruct Hr as (A & B & C & D & E).
      destruct (Rltb sv s && Rltb sr sv) eqn:Et.
      * rbool. split; [apply in_or_app; right; now left|]. split; [easy|]. rewrite El. simpl. split; [easy|]. split; [easy|].
        intros x Hx Cx Sx. apply in_app_iff in Hx as [Hx|[<-|[]]].
        -- specialize (E x Hx Cx Sx). lra.
        -- rewrite El. simpl. lra.
      * split; [apply in_or_app; now left|]. split; [easy|]. split; [easy|]. split; [easy|].
        intros x Hx Cx Sx. apply in_app_iff in Hx as [Hx|[<-|[]]]; [now apply E|].
        rewrite El in *. simpl in *. apply andb_false_iff in Et as [Et|Et]; rbool; lra.
    + destruct (Rltb sv s) eqn:Et; rbool.
      * split; [apply in_or_app; right; now left|]. split; [easy|]. rewrite El. simpl. split; [easy|]. split; [easy|].
        intros x Hx Cx Sx. apply in_app_iff in Hx as [Hx|[<-|[]]].
        -- specialize (Hr x Hx Cx). lra.
        -- rewrite El. simpl. lra.
      * intros x Hx Cx. apply in_app_iff in Hx as [Hx|[<-|[]]]; [now apply Hr|]. rewrite El. simpl. lra.
Qed.
Lemma neighbour_fold_ok l id s todo : forall seen acc, acc_ok l id s seen acc ->
  acc_ok l id s (seen ++ todo) (fold_left (neighbour_step l id s) todo acc).
Proof.
  induction todo as [|e todo IH]; intros seen acc H; simpl; [now rewrite app_nil_r|].
  replace (seen ++ e :: todo) with ((seen ++ [e]) ++ todo) by (rewrite <- app_assoc; easy).
  apply IH. now apply neighbour_step_ok.
Qed.

Lemma neighbours_spec rd id p i l f r : get_lane (rd_net rd) i = Ok l ->
  neighbours_on rd id p i = Ok (f, r) ->
  let s := fst (l_local l p) in
  let pos e := fst (l_local l (e_pos e)) in
  (forall e, f = Some e -> In e (rd_entities rd) /\ candidate l id e /\ s <= pos e /\
     forall e', In e' (rd_entities rd) -> candidate l id e' -> s <= pos e' -> pos e <= pos e') /\
  (f = None -> forall e', In e' (rd_entities rd) -> candidate l id e' -> pos e' < s) /\
  (forall e, r = Some e -> In e (rd_entities rd) /\ candidate l id e /\ pos e < s /\
     forall e', In e' (rd_entities rd) -> candidate l id e' -> pos e' < s -> pos e' <= pos e) /\
  (r = None -> forall e', In e' (rd_entities rd) -> candidate l id e' -> s <= pos e').
Proof.
  intros G E. unfold neighbours_on in E. rewrite G in E. cbn [bind] in E. cbv zeta. set (s := fst (l_local l p)) in *.
  pose proof (neighbour_fold_ok l id s (rd_entities rd) [] (None, None)) as H. simpl in H.
  specialize (H ltac:(split; simpl; intros e [])).
  destruct (fold_left (neighbour_step l id s) (rd_entities rd) (None, None)) as [af ar].
  injection E as <- <-. destruct H as [Hf Hr]. simpl in *. split; [|split; [|split]].
  - intros e Q. destruct af as [[sf f]|]; [|easy]. simpl in Q. injection Q as ->. destruct Hf as (A & B & -> & D & F). easy.
  - intros Q. destruct af as [[sf f]|]; [easy|]. exact Hf.
  - intros e Q. destruct ar as [[sr r]|]; [|easy]. simpl in Q. injection Q as ->. destruct Hr as (A & B & -> & D & F). easy.
  - intros Q. destruct ar as [[sr r]|]; [easy|]. exact Hr.
Qed.
Lemma neighbours_total rd id p i l : get_lane (rd_net rd) i = Ok l -> exists fr, neighbours_on rd id p i = Ok fr.
Proof.
  intros G. unfold neighbours_on. rewrite G. cbn [bind].
  destruct (fold_left _ _ _) as [a b]. eauto.
Qed.

(** ** close_vehicles_to *)
Definition close_to (l : lane) (v : vehicle) (dist : R) (see_behind : bool) (w : vehicle) : Prop :=
  vnorm (vsub (v_pos w) (v_pos v)) < dist /\ v_id w <> v_id v /\
  (see_behind = true \/ -10 < fst (l_local l (v_pos w)) - fst (l_local l (v_pos v))).
Lemma close_filter_iff v l dist sb w : close_filter v l dist sb w = true <-> close_to l v dist sb w.
Proof.
  unfold close_filter, close_to, lane_distance, V_LENGTH.
  rewrite !andb_true_iff, orb_true_iff, !Rltb_true, negb_true_iff, Nat.eqb_neq.
  replace (-2 * 5) with (-10) by ring. tauto.
Qed.

Lemma close_spec rd v dist count sb l : get_lane (rd_net rd) (v_lane_index v) = Ok l ->
  let gap w := Rabs (fst (l_local l (v_pos w)) - fst (l_local l (v_pos v))) in
  exists out rest, close_vehicles_to rd v dist count sb = Ok out /\
    Permutation (out ++ rest) (filter (close_filter v l dist sb) (rd_vehicles rd)) /\
    StronglySorted (fun a b => gap a <= gap b) (out ++ rest) /\
    (count = None \/ count = Some 0%Z -> rest = []) /\
    (forall k, count = Some (Z.of_nat (S k)) -> (List.length out <= S k)%nat /\ (rest <> [] -> List.length out = S k)).
Proof.
  intros G gap. unfold close_vehicles_to. rewrite G. cbn [bind].
  set (vs := filter (close_filter v l dist sb) (rd_vehicles rd)).
  pose proof (sort_by_perm (fun w => Rabs (lane_distance l (v_pos v) (v_pos w))) vs) as P.
  pose proof (sort_by_sorted (fun w => Rabs (lane_distance l (v_pos v) (v_pos w))) vs) as S0.
  set (so := sort_by _ vs) in *.
  destruct count as [k|].
  - destruct (Z.eqb_spec k 0) as [->|Nk].
    + exists so, []. rewrite app_nil_r. split; [easy|]. split; [easy|]. split; [easy|]. split; [easy|].
      intros k Q. exfalso. injection Q as Q. lia.
    + destruct (Z_lt_le_dec k 0) as [L|L].
      * unfold py_take. destruct (Z.leb_spec 0 k) as [|_]; [lia|].
        set (m := Z.to_nat (Z.of_nat (List.length so) + k)).
        exists (firstn m so), (skipn m so). rewrite firstn_skipn. split; [easy|]. split; [easy|]. split; [easy|]. split.
        -- intros [Q|Q]; [easy|]. injection Q as Q. lia.
        -- intros k' Q; exfalso. injection Q as Q. lia.
      * unfold py_take. destruct (Z.leb_spec 0 k) as [_|]; [|lia].
        exists (firstn (Z.to_nat k) so), (skipn (Z.to_nat k) so). rewrite firstn_skipn.
        split; [easy|]. split; [easy|]. split; [easy|]. split.
        -- intros [Q|Q]; [easy|]. injection Q as Q. lia.
        -- intros k' Q. injection Q as Q. assert (Ek : Z.to_nat k = S k') by lia. rewrite Ek, firstn_length. split; [lia|]. intros Q1.
           assert (~ (List.length so <= S k')%nat); [|lia]. intros Q'. apply Q1. apply skipn_all2. lia.
  - exists so, []. rewrite app_nil_r. split; [easy|]. split; [easy|]. split; [easy|]. split; easy.
Qed.
