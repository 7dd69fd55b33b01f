From Verif Require Import Prelude M_Utils M_Lane M_Road M_Vehicle S_Road P_Base.
From Coq Require Import Lia Lra Permutation.
Open Scope R_scope.

(** ** Well-formed networks *)
Definition wf_graph (g : graph) : Prop :=
  NoDup (keys g) /\
  forall a d, assoc a g = Some d -> d <> [] /\ NoDup (keys d) /\
    forall b ls, assoc b d = Some ls -> ls <> [].

Lemma wf_empty : wf_graph empty_graph.
Proof. split; [constructor | intros a d H; discriminate]. Qed.

Lemma assoc_set_get {A} k k' (v : A) d :
  assoc k' (assoc_set k v d) = if String.eqb k k' then Some v else assoc k' d.
Proof.
  destruct (String.eqb_spec k k') as [<-|N]; [apply assoc_set_same | now apply assoc_set_other].
Qed.

(** [add_lane] in closed form. *)
Definition lanes_of (g : graph) (a b : string) : list lane :=
  match assoc a g with
  | Some d => match assoc b d with Some ls => ls | None => [] end
  | None => [] end.
Definition dict_of (g : graph) (a : string) : list (string * list lane) :=
  match assoc a g with Some d => d | None => [] end.

Lemma add_lane_assoc g a b l a' :
  assoc a' (add_lane g a b l) =
  if String.eqb a a'
  then Some (assoc_set b (lanes_of g a b ++ [l])
               (match assoc b (dict_of g a) with Some _ => dict_of g a | None => assoc_set b [] (dict_of g a) end))
  else assoc a' g.
Proof.
  unfold add_lane, lanes_of, dict_of. destruct (assoc a g) as [d|] eqn:E.
  - rewrite E, assoc_set_get. destruct (String.eqb_spec a a') as [<-|N]; [|easy].
    destruct (assoc b d) as [ls|] eqn:Eb; [rewrite Eb | rewrite assoc_set_same]; reflexivity.
  - rewrite assoc_set_same. rewrite assoc_set_get.
    destruct (String.eqb_spec a a') as [<-|N].
    + simpl. rewrite String.eqb_refl. reflexivity.
    + now rewrite assoc_set_other.
Qed.
Lemma add_lane_dict g a b l a' d' b' : assoc a' (add_lane g a b l) = Some d' ->
  assoc b' d' = if String.eqb a a' && String.eqb b b' then Some (lanes_of g a b ++ [l])
                else assoc b' (dict_of g a').
Proof.
  rewrite add_lane_assoc. destruct (String.eqb_spec a a') as [<-|N].
  - intros E. injection E as <-. rewrite assoc_set_get.
    destruct (String.eqb_spec b b') as [<-|N']; simpl; [easy|].
    destruct (assoc b (dict_of g a)) eqn:Eb; [easy|]. now apply assoc_set_other.
  - intros E. unfold dict_of. now rewrite E.
Qed.
Lemma add_lane_lanes g a b l a' b' :
  lanes_of (add_lane g a b l) a' b' =
  if String.eqb a a' && String.eqb b b' then lanes_of g a b ++ [l] else lanes_of g a' b'.
Proof.
  unfold lanes_of at 1. destruct (assoc a' (add_lane g a b l)) as [d'|] eqn:E.
  - rewrite (add_lane_dict _ _ _ _ _ _ b' E).
    destruct (String.eqb a a' && String.eqb b b') eqn:Eb; [easy|].
    unfold lanes_of, dict_of. destruct (assoc a' g); easy.
  - rewrite add_lane_assoc in E. destruct (String.eqb a a') eqn:Ea; [discriminate|].
    simpl. unfold lanes_of. now rewrite E.
Qed.

Lemma assoc_set_nonempty {A} k (v : A) d : assoc_set k v d <> [].
Proof. destruct d as [|[k' v'] d]; simpl; [easy|]. destruct (String.eqb k k'); easy. Qed.

Lemma wf_add_lane g a b l : wf_graph g -> wf_graph (add_lane g a b l).
Proof.
  intros [N H]. split.
  - unfold add_lane. apply assoc_set_NoDup. destruct (assoc a g); [easy|]. now apply assoc_set_NoDup.
  - intros a' d' E. pose proof E as E0. rewrite add_lane_assoc in E.
    destruct (String.eqb_spec a a') as [<-|Na].
    + split; [injection E as <-; apply assoc_set_nonempty|]. split.
      * injection E as <-. apply assoc_set_NoDup.
        assert (NoDup (keys (dict_of g a))).
        { unfold dict_of. destruct (assoc a g) eqn:Ea; [apply (H _ _ Ea) | constructor]. }
        destruct (assoc b (dict_of g a)); [easy | now apply assoc_set_NoDup].
      * intros b' ls. rewrite (add_lane_dict _ _ _ _ _ _ b' E0), String.eqb_refl. simpl.
        destruct (String.eqb b b').
        -- intros E1. injection E1 as <-. destruct (lanes_of g a b); easy.
        -- unfold dict_of. destruct (assoc a g) eqn:Ea; [apply (H _ _ Ea) | discriminate].
    + apply (H _ _ E).
Qed.

Lemma wf_build_from adds : forall g, wf_graph g ->
  wf_graph (fold_left (fun g x => add_lane g (fst (fst x)) (snd (fst x)) (snd x)) adds g).
Proof. induction adds as [|x adds IH]; intros g H; simpl; [easy|]. apply IH, wf_add_lane, H. Qed.
Lemma wf_built g : built g -> wf_graph g.
Proof. intros [adds ->]. apply wf_build_from, wf_empty. Qed.

Lemma built_add g a b l : built g -> built (add_lane g a b l).
Proof.
  intros [adds ->]. exists (adds ++ [(a, b, l)]). unfold build. now rewrite fold_left_app.
Qed.

Lemma build_from_lanes adds : forall g a b,
  lanes_of (fold_left (fun g x => add_lane g (fst (fst x)) (snd (fst x)) (snd x)) adds g) a b =
  lanes_of g a b ++ added_between a b adds.
Proof.
  induction adds as [|[[x y] l] adds IH]; intros g a b; simpl; [now rewrite app_nil_r|].
  rewrite IH, add_lane_lanes. unfold added_between. simpl.
  destruct (String.eqb_spec x a) as [->|Na], (String.eqb_spec y b) as [->|Nb]; simpl; try easy.
  now rewrite <- app_assoc.
Qed.
Lemma build_lanes adds a b : lanes_of (build adds) a b = added_between a b adds.
Proof. unfold build. now rewrite build_from_lanes. Qed.

Lemma g_lanes_of g a b ls : g_lanes g a b = Ok ls -> lanes_of g a b = ls.
Proof.
  unfold g_lanes, g_succ, lanes_of, bind. destruct (assoc a g) as [d|]; [|easy].
  destruct (assoc b d); [|easy]. now intros [= ->].
Qed.
Lemma g_lanes_wf g a b : wf_graph g ->
  g_lanes g a b = match lanes_of g a b with [] => Err KeyError | ls => Ok ls end.
Proof.
  intros [_ H]. unfold g_lanes, g_succ, lanes_of, bind. destruct (assoc a g) as [d|] eqn:E; [|easy].
  destruct (assoc b d) as [ls|] eqn:Eb; [|easy].
  destruct (H _ _ E) as (_ & _ & H'). specialize (H' _ _ Eb). destruct ls; easy.
Qed.
Lemma g_lanes_has g a b ls : g_lanes g a b = Ok ls <-> exists d, assoc a g = Some d /\ assoc b d = Some ls.
Proof.
  unfold g_lanes, g_succ, bind. destruct (assoc a g) as [d|]; [|split; [easy | intros (d & E & _); easy]].
  split.
  - intros E. exists d. split; [easy|]. destruct (assoc b d); [now injection E as -> | easy].
  - intros (d' & E & E'). injection E as <-. now rewrite E'.
Qed.
Lemma has_lane_g g a b k l : has_lane g a b k l <-> exists ls, g_lanes g a b = Ok ls /\ nth_error ls k = Some l.
Proof.
  unfold has_lane. split.
  - intros (d & ls & A & B & C). exists ls. split; [|easy]. apply g_lanes_has. eauto.
  - intros (ls & A & C). apply g_lanes_has in A as (d & A & B). eauto.
Qed.
Lemma has_lane_fun g a b k l l' : has_lane g a b k l -> has_lane g a b k l' -> l = l'.
Proof.
  rewrite !has_lane_g. intros (ls & A & B) (ls' & A' & B'). congruence.
Qed.

(** ** get_lane *)
Lemma get_lane_nat g a b k l : has_lane g a b k l -> get_lane g (a, b, Some (Z.of_nat k)) = Ok l.
Proof.
  rewrite has_lane_g. intros (ls & A & B). unfold get_lane. simpl. unfold li_from, li_to. simpl.
  rewrite A. simpl. rewrite py_index_nat, B. reflexivity.
Qed.
Lemma get_lane_exists g i : lane_exists g i -> exists l, get_lane g i = Ok l.
Proof.
  intros (k & l & E & H). exists l. destruct i as [[a b] o]. simpl in *. unfold li_id in E. simpl in E. subst o.
  now apply get_lane_nat.
Qed.
Lemma get_lane_has g i k l : li_id i = Some (Z.of_nat k) ->
  (get_lane g i = Ok l <-> has_lane g (li_from i) (li_to i) k l).
Proof.
  destruct i as [[a b] o]. unfold li_id, li_from, li_to. simpl. intros ->. split.
  - unfold get_lane, li_from, li_to, li_id. simpl. intros E. inv_ok. rewrite has_lane_g.
    match goal with H : g_lanes _ _ _ = Ok ?ls |- _ => exists ls; split; [exact H|] end.
    rewrite py_index_nat in *. destruct (nth_error _ k); [congruence | easy].
  - apply get_lane_nat.
Qed.
Lemma get_lane_none g a b : get_lane g (a, b, None) =
  match g_lanes g a b with
  | Ok [l] => Ok l
  | Ok _ => Err TypeError
  | Err e => Err e
  end.
Proof.
  unfold get_lane, li_from, li_to, li_id. simpl. destruct (g_lanes g a b) as [[|l [|l' ls]]|e]; reflexivity.
Qed.

(** ** Enumeration of the lanes *)
Lemma nth_error_combine_seq {A} (ls : list A) : forall o k x,
  In (k, x) (combine (seq o (List.length ls)) ls) <-> (exists j, k = (o + j)%nat /\ nth_error ls j = Some x).
Proof.
  induction ls as [|a ls IH]; intros o k x; simpl.
  - split; [easy|]. intros (j & _ & E). now destruct j.
  - split.
    + intros [E|E]; [injection E as <- <-; exists 0%nat; split; [lia|easy]|].
      apply IH in E as (j & -> & E). exists (S j). split; [lia|easy].
    + intros ([|j] & -> & E); simpl in E.
      * left. injection E as <-. f_equal. lia.
      * right. apply IH. exists j. split; [lia|easy].
Qed.
Lemma enum_road_In a b ls i l : In (i, l) (enum_road a b ls) <->
  exists k, i = (a, b, Some (Z.of_nat k)) /\ nth_error ls k = Some l.
Proof.
  unfold enum_road. rewrite in_map_iff. split.
  - intros ([k x] & E & H). simpl in E. injection E as <- <-.
    apply nth_error_combine_seq in H as (j & -> & H). exists j. easy.
  - intros (k & -> & H). exists (k, l). split; [easy|]. apply nth_error_combine_seq. now exists k.
Qed.
Lemma enum_lanes_In g i l : wf_graph g -> (In (i, l) (enum_lanes g) <->
  exists k, li_id i = Some (Z.of_nat k) /\ has_lane g (li_from i) (li_to i) k l).
Proof.
  intros [N W]. unfold enum_lanes. rewrite in_flat_map. split.
  - intros ([a d] & Ha & H). simpl in H. apply in_flat_map in H as ([b ls] & Hb & H). simpl in H.
    apply enum_road_In in H as (k & -> & H). exists k. split; [easy|]. unfold li_from, li_to; simpl.
    apply In_assoc in Ha; [|easy]. destruct (W _ _ Ha) as (_ & Nd & _).
    apply In_assoc in Hb; [|easy]. exists d, ls. easy.
  - intros (k & E & d & ls & A & B & C). exists (li_from i, d). split; [now apply assoc_In|].
    simpl. apply in_flat_map. exists (li_to i, ls). split; [now apply assoc_In|]. simpl.
    apply enum_road_In. exists k. split; [|easy]. destruct i as [[x y] o]. unfold li_id in E. simpl in *. now subst.
Qed.
Lemma enum_lanes_nil g : wf_graph g -> (enum_lanes g = [] <-> g = []).
Proof.
  intros W. split; [|now intros ->]. intros E. destruct g as [|[a d] g]; [easy|]. exfalso.
  destruct W as [N W]. assert (Ha : assoc a ((a, d) :: g) = Some d) by (simpl; now rewrite String.eqb_refl).
  destruct (W _ _ Ha) as (Nd & Kd & H). destruct d as [|[b ls] d]; [easy|].
  assert (Hb : assoc b ((b, ls) :: d) = Some ls) by (simpl; now rewrite String.eqb_refl).
  specialize (H _ _ Hb). destruct ls as [|l ls]; [easy|].
  unfold enum_lanes in E. simpl in E. discriminate.
Qed.

(** ** Closest lane *)
Lemma closest_spec g p h i : wf_graph g -> get_closest_lane_index g p h = Ok i ->
  exists l pre post, enum_lanes g = pre ++ (i, l) :: post /\ get_lane g i = Ok l /\ lane_exists g i /\
    (forall j m, In (j, m) pre -> l_distance_with_heading l p h 1 < l_distance_with_heading m p h 1) /\
    (forall j m, lane_exists g j -> get_lane g j = Ok m ->
       l_distance_with_heading l p h 1 <= l_distance_with_heading m p h 1).
Proof.
  intros W E. unfold get_closest_lane_index in E. apply rmap_ok in E as ([i' l] & E & ->). simpl.
  pose proof E as E0. apply first_min_spec in E0 as (pre & post & E1 & Hpre & Hall).
  assert (Hin : In (i', l) (enum_lanes g)) by (rewrite E1; apply in_elt).
  apply enum_lanes_In in Hin as (k & Ek & Hk); [|easy].
  exists l, pre, post. split; [easy|]. split; [now apply (get_lane_has g i' k)|]. split; [now exists k, l|]. split.
  - intros j m Hj. now apply (Hpre (j, m)).
  - intros j m (kj & lj & Ej & Hj) G. apply (get_lane_has g j kj m Ej) in G.
    pose proof (first_min_le _ _ _ (j, m) E) as L. apply L. apply enum_lanes_In; [easy|]. now exists kj.
Qed.
Lemma closest_total g p h : wf_graph g -> g <> [] -> exists i, get_closest_lane_index g p h = Ok i.
Proof.
  intros W N. unfold get_closest_lane_index.
  destruct (first_min_ok (fun il => l_distance_with_heading (snd il) p h 1) (enum_lanes g)) as [m Hm].
  - rewrite enum_lanes_nil; easy.
  - rewrite Hm. simpl. eauto.
Qed.
Lemma closest_err g p h e : wf_graph g ->
  (get_closest_lane_index g p h = Err e <-> g = [] /\ e = ValueError).
Proof.
  intros W. split.
  - intros E. destruct g as [|x g]; [split; [easy|]; simpl in E; unfold get_closest_lane_index in E; simpl in E; congruence|].
    destruct (closest_total (x :: g) p h W) as [i Hi]; [easy | congruence].
  - intros [-> ->]. reflexivity.
Qed.
Lemma closest_exists g p h i : wf_graph g -> get_closest_lane_index g p h = Ok i -> lane_exists g i.
Proof. intros W E. apply closest_spec in E as (l & pre & post & _ & _ & H & _); easy. Qed.

(** ** Side lanes *)
Lemma zrange_In n k : In k (zrange n) <-> (0 <= k < Z.of_nat n)%Z.
Proof.
  unfold zrange. rewrite in_map_iff. split.
  - intros (x & <- & H). apply in_seq in H. lia.
  - intros H. exists (Z.to_nat k). split; [lia|]. apply in_seq. lia.
Qed.
Lemma all_side_lanes_spec g a b o ls : g_lanes g a b = Ok ls ->
  exists out, all_side_lanes g (a, b, o) = Ok out /\ NoDup out /\
  forall j, In j out <-> (exists k, j = (a, b, Some (Z.of_nat k)) /\ (k < List.length ls)%nat).
Proof.
  intros E. unfold all_side_lanes, li_from, li_to. simpl. rewrite E. simpl. eexists. split; [reflexivity|]. split.
  - apply FinFun.Injective_map_NoDup; [intros x y Q; congruence|]. unfold zrange.
    apply FinFun.Injective_map_NoDup; [intros x y Q; lia | apply seq_NoDup].
  - intros j. rewrite in_map_iff. split.
    + intros (k & <- & H). apply zrange_In in H. exists (Z.to_nat k). split; [|lia]. f_equal. f_equal. lia.
    + intros (k & -> & H). exists (Z.of_nat k). split; [easy|]. apply zrange_In. lia.
Qed.
Lemma side_lanes_spec g a b k ls : g_lanes g a b = Ok ls -> (k < List.length ls)%nat ->
  exists out, side_lanes g (a, b, Some (Z.of_nat k)) = Ok out /\ NoDup out /\
  forall j, In j out <-> (exists m, j = (a, b, Some (Z.of_nat m)) /\ (m < List.length ls)%nat /\ (m + 1 = k \/ m = k + 1)%nat).
Proof.
  intros E Hk. unfold side_lanes, li_id, li_from, li_to. simpl. rewrite E. simpl. eexists. split; [reflexivity|].
  destruct (Z.ltb_spec 0 (Z.of_nat k)) as [A|A], (Z.ltb_spec (Z.of_nat k) (Z.of_nat (List.length ls) - 1)) as [B|B]; simpl.
  all: split; [repeat constructor; simpl; intros H; repeat destruct H as [H|H]; try easy; injection H as H; lia|].
  all: intros j; split.
  all: try (intros H; repeat destruct H as [H|H]; try easy; subst j).
  all: try (match goal with |- exists m, (_, _, Some ?z) = _ /\ _ => exists (Z.to_nat z); split; [f_equal; f_equal; lia | lia] end).
  all: intros (m & -> & Hm & [Q|Q]); try lia.
  - left. f_equal. f_equal. lia.
  - right; left. f_equal. f_equal. lia.
  - left. f_equal. f_equal. lia.
  - left. f_equal. f_equal. lia.
Qed.

(** ** next_lane *)
Lemma closest_lane_id_spec ls p k : closest_lane_id ls p = Ok k ->
  exists n l, k = Z.of_nat n /\ nth_error ls n = Some l /\
    (forall m l', nth_error ls m = Some l' -> l_distance l p <= l_distance l' p) /\
    (forall m l', nth_error ls m = Some l' -> (m < n)%nat -> l_distance l p < l_distance l' p).
Proof.
  unfold closest_lane_id. intros E. apply rmap_ok in E as ([z l] & E & ->). simpl.
  assert (Hz : forall z l, In (z, l) (combine (zrange (List.length ls)) ls) <-> exists n, z = Z.of_nat n /\ nth_error ls n = Some l).
  { clear. intros z l. unfold zrange.
    assert (Q : forall o, In (z, l) (combine (map Z.of_nat (seq o (List.length ls))) ls) <-> exists n, z = Z.of_nat (o + n) /\ nth_error ls n = Some l).
    { induction ls as [|a ls IH]; intros o; simpl.
      - split; [easy | intros ([|n] & _ & E); easy].
      - split.
        + intros [E|E]; [injection E as <- <-; exists 0%nat; split; [lia|easy]|].
          apply IH in E as (n & -> & E). exists (S n). split; [lia|easy].
        + intros ([|n] & -> & E); simpl in E.
          * left. injection E as <-. f_equal. lia.
          * right. apply IH. exists n. split; [lia|easy]. }
    apply (Q 0%nat). }
  pose proof (first_min_In _ _ _ E) as Hin. apply Hz in Hin as (n & -> & Hn).
  exists n, l. split; [easy|]. split; [easy|]. split.
  - intros m l' Hm. apply (first_min_le _ _ _ (Z.of_nat m, l') E). apply Hz. now exists m.
  - intros m l' Hm Hlt. apply first_min_spec in E as (pre & post & E1 & Hpre & _).
    apply (Hpre (Z.of_nat m, l')).
    (* position in the combine list *)
    assert (Hc : forall j x, nth_error ls j = Some x ->
              nth_error (combine (zrange (List.length ls)) ls) j = Some (Z.of_nat j, x)).
    { clear. intros j x. unfold zrange.
      assert (Q : forall o, nth_error ls j = Some x -> nth_error (combine (map Z.of_nat (seq o (List.length ls))) ls) j = Some (Z.of_nat (o + j), x)).
      { revert j. induction ls as [|a ls IH]; intros [|j] o; simpl; try easy.
        - intros [= ->]. do 2 f_equal. f_equal. lia.
        - intros H. rewrite (IH j (S o) H). do 2 f_equal. f_equal. lia. }
      apply (Q 0%nat). }
    pose proof (Hc _ _ Hm) as C1.
    assert (Lp : List.length pre = n).
    { assert (C2 : nth_error (combine (zrange (List.length ls)) ls) (List.length pre) = Some (Z.of_nat n, l)).
      { rewrite E1, nth_error_app2, Nat.sub_diag by lia. reflexivity. }
      destruct (nth_error ls (List.length pre)) as [x|] eqn:Ex.
      - rewrite (Hc _ _ Ex) in C2. injection C2 as C2 _. lia.
      - exfalso. apply nth_error_None in Ex.
        assert (List.length pre < List.length (combine (zrange (List.length ls)) ls))%nat by (apply nth_error_Some; congruence).
        rewrite combine_length in H. lia. }
    rewrite E1, nth_error_app1 in C1 by lia. now apply nth_error_In in C1.
Qed.
Lemma closest_lane_id_total ls p : ls <> [] -> exists k, closest_lane_id ls p = Ok k.
Proof.
  intros N. unfold closest_lane_id.
  destruct (first_min_ok (fun kl : Z * lane => l_distance (snd kl) p) (combine (zrange (List.length ls)) ls)) as [m Hm].
  - destruct ls; simpl; easy.
  - rewrite Hm. simpl. eauto.
Qed.

(** The last part of next_lane, once the next node is known. *)
Definition next_on (g : graph) (cur : lane_index) (p : vec) (n : string) : res lane_index :=
  do here <- g_lanes g (li_from cur) (li_to cur);
  do there <- g_lanes g (li_to cur) n;
  if Nat.eqb (List.length here) (List.length there)
  then Ok (li_to cur, n, li_id cur)
  else do k <- closest_lane_id there p; Ok (li_to cur, n, Some k).

Lemma next_on_spec g cur p n here there : wf_graph g ->
  g_lanes g (li_from cur) (li_to cur) = Ok here -> g_lanes g (li_to cur) n = Ok there ->
  (List.length here = List.length there -> next_on g cur p n = Ok (li_to cur, n, li_id cur)) /\
  (List.length here <> List.length there -> exists k l, next_on g cur p n = Ok (li_to cur, n, Some (Z.of_nat k)) /\
     nth_error there k = Some l /\
     (forall m l', nth_error there m = Some l' -> l_distance l p <= l_distance l' p) /\
     (forall m l', nth_error there m = Some l' -> (m < k)%nat -> l_distance l p < l_distance l' p)).
Proof.
  intros W H T. unfold next_on. rewrite H, T. simpl. destruct (Nat.eqb_spec (List.length here) (List.length there)) as [E|E].
  - split; [easy|]. intros N; easy.
  - split; [easy|]. intros _.
    assert (Nn : there <> []).
    { rewrite g_lanes_wf in T by easy. destruct (lanes_of g (li_to cur) n); [easy|]. injection T as <-. easy. }
    destruct (closest_lane_id_total there p Nn) as [k Hk]. rewrite Hk. simpl.
    apply closest_lane_id_spec in Hk as (m & l & -> & A & B & C). exists m, l. easy.
Qed.
Lemma next_on_valid g cur p n : wf_graph g -> lane_exists g cur -> edge g (li_to cur) n ->
  exists i, next_on g cur p n = Ok i /\ lane_exists g i /\ li_from i = li_to cur /\ li_to i = n.
Proof.
  intros W (k & l & Ek & Hk) (m & l' & Hm).
  apply has_lane_g in Hk as (here & Hh & Hk). apply has_lane_g in Hm as (there & Ht & Hm).
  destruct (next_on_spec g cur p n here there W Hh Ht) as [A B].
  destruct (Nat.eq_dec (List.length here) (List.length there)) as [E|E].
  - rewrite (A E). eexists. split; [reflexivity|]. split; [|easy].
    destruct (nth_error there k) as [x|] eqn:Ex.
    + exists k, x. split; [easy|]. apply has_lane_g. exists there. easy.
    + exfalso. apply nth_error_None in Ex. assert (k < List.length here)%nat by (apply nth_error_Some; congruence). lia.
  - destruct (B E) as (j & x & -> & Hj & _). eexists. split; [reflexivity|]. split; [|easy].
    exists j, x. split; [easy|]. apply has_lane_g. exists there. easy.
Qed.

Lemma next_lane_unfold g cur rt p draw :
  next_lane g cur rt p draw =
  (fst (next_lane_route cur rt),
   match truthy_node (snd (next_lane_route cur rt)) with
   | Some n => next_on g cur p n
   | None => match assoc (li_to cur) g with
             | None => Ok cur
             | Some [] => Err ValueError
             | Some d => match nth_error (keys d) (draw (List.length d)) with
                         | Some n => next_on g cur p n
                         | None => Err IndexError end
             end
   end).
Proof.
  unfold next_lane. destruct (next_lane_route cur rt) as [rt1 pl]. simpl.
  destruct (truthy_node pl); [reflexivity|]. destruct (assoc (li_to cur) g) as [[|x d]|]; reflexivity.
Qed.

Definition route_ok (g : graph) (rt : route) : Prop := Forall (fun i => edge g (li_from i) (li_to i)) rt.

Lemma next_lane_route_suffix cur rt : exists pre, rt = pre ++ fst (next_lane_route cur rt) /\ (List.length pre <= 1)%nat.
Proof.
  unfold next_lane_route. destruct rt as [|r0 rt]; [exists []; split; [reflexivity | simpl; lia]|].
  destruct (same_road r0 cur).
  - exists [r0]. split; [|simpl; lia]. destruct rt as [|r1 rt]; [easy|]. destruct (String.eqb (li_from r1) (li_to cur)); easy.
  - exists []. split; [|simpl; lia]. destruct (String.eqb (li_from r0) (li_to cur)); easy.
Qed.
Lemma route_ok_next g cur rt : route_ok g rt -> route_ok g (fst (next_lane_route cur rt)).
Proof.
  intros H. destruct (next_lane_route_suffix cur rt) as (pre & E & _). rewrite E in H.
  apply Forall_app in H as [_ H]. exact H.
Qed.
Lemma planned_edge g cur rt n : route_ok g rt -> snd (next_lane_route cur rt) = Some n -> edge g (li_to cur) n.
Proof.
  intros H E. pose proof (route_ok_next g cur rt H) as H1. unfold next_lane_route in *.
  set (rt1 := match rt with [] => [] | r0 :: rt' => if same_road r0 cur then rt' else rt end) in *.
  destruct rt1 as [|r0 rest]; [easy|]. destruct (String.eqb_spec (li_from r0) (li_to cur)) as [Q|Q]; [|easy].
  simpl in *. injection E as <-. inversion H1; subst. now rewrite <- Q.
Qed.

Lemma assoc_edge g a d n : wf_graph g -> assoc a g = Some d -> (In n (keys d) <-> edge g a n).
Proof.
  intros [_ W] E. split.
  - intros H. apply assoc_keys in H as [ls H]. destruct (W _ _ E) as (_ & _ & Q). specialize (Q _ _ H).
    destruct ls as [|l ls]; [easy|]. exists 0%nat, l, d, (l :: ls). easy.
  - intros (k & l & d' & ls & A & B & _). apply assoc_keys. exists ls. congruence.
Qed.

Lemma next_lane_valid g cur rt p draw : wf_graph g -> lane_exists g cur -> route_ok g rt -> draw_ok draw ->
  exists i, snd (next_lane g cur rt p draw) = Ok i /\ lane_exists g i.
Proof.
  intros W C R D. rewrite next_lane_unfold. simpl.
  destruct (truthy_node (snd (next_lane_route cur rt))) as [n|] eqn:E.
  - assert (P : snd (next_lane_route cur rt) = Some n).
    { destruct (snd (next_lane_route cur rt)) as [s|]; [|easy]. simpl in E. destruct (String.eqb s ""); [easy|]. now injection E as ->. }
    apply (planned_edge g) in P; [|easy]. destruct (next_on_valid g cur p n W C P) as (i & A & B & _). eauto.
  - destruct (assoc (li_to cur) g) as [d|] eqn:Ed; [|eauto].
    destruct W as [N W0]. destruct (W0 _ _ Ed) as (Nd & _).
    destruct d as [|x d]; [easy|]. set (d0 := x :: d) in *.
    assert (L : (draw (List.length d0) < List.length (keys d0))%nat).
    { unfold keys. rewrite map_length. apply D. simpl. lia. }
    destruct (nth_error (keys d0) (draw (List.length d0))) as [n|] eqn:En.
    + apply nth_error_In in En. apply (assoc_edge g _ d0 n (conj N W0) Ed) in En.
      destruct (next_on_valid g cur p n (conj N W0) C En) as (i & A & B & _). eauto.
    + apply nth_error_None in En. lia.
Qed.
