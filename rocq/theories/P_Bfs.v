From Verif Require Import Prelude M_Utils M_Lane M_Road M_Vehicle S_Road P_Base P_Graph.
From Coq Require Import Lia Permutation Sorted.
Local Notation length := List.length.
Local Open Scope nat_scope.
Local Open Scope list_scope.

Lemma mem_In s l : mem s l = true <-> In s l.
Proof.
  unfold mem. rewrite existsb_exists. split.
  - intros (x & H & E). apply String.eqb_eq in E. now subst.
  - intros H. exists s. split; [easy|]. apply String.eqb_refl.
Qed.
Lemma mem_false s l : mem s l = false <-> ~ In s l.
Proof. rewrite <- mem_In. destruct (mem s l); split; congruence. Qed.

Lemma walk_app g p q : walk g (p ++ q) -> walk g p /\ walk g q.
Proof.
  induction p as [|a [|b p] IH]; simpl; intros H; [easy| |].
  - split; [easy|]. destruct q; [easy|]. apply H.
  - destruct H as [E H]. apply IH in H as [H1 H2]. easy.
Qed.
Lemma walk_join g p a q : walk g (p ++ [a]) -> walk g (a :: q) -> walk g (p ++ a :: q).
Proof.
  induction p as [|x [|y p] IH]; simpl; intros H K; [easy| |].
  - easy.
  - destruct H as [E H]. split; [easy|]. now apply IH.
Qed.
Lemma walk_snoc g p a b : walk g (p ++ [a]) -> edge g a b -> walk g ((p ++ [a]) ++ [b]).
Proof. intros H E. rewrite <- app_assoc. simpl. apply walk_join; [easy|]. simpl. easy. Qed.

(** Entries of the queue. *)
Definition good (g : graph) (start goal : string) (e : string * list string) : Prop :=
  exists pre, snd e = pre ++ [fst e] /\ hd_error (snd e) = Some start /\ walk g (snd e) /\
    NoDup (snd e) /\ ~ In goal (snd e) /\ (forall n, In n (snd e) -> In n (keys g)).

(** Simple completions of a path up to the goal. *)
Definition completes (g : graph) (goal : string) (path q : list string) : Prop :=
  exists ext, q = path ++ ext /\ ext <> [] /\ walk g q /\ NoDup q /\ last q EmptyString = goal.

Definition prefix (p q : list string) : Prop := exists ext, q = p ++ ext.
Definition incomparable (p q : list string) : Prop := ~ prefix p q /\ ~ prefix q p.

Definition weight (g : graph) (e : string * list string) : nat :=
  path_weight (length g) (length g - length (snd e)).
Definition measure (g : graph) (q : list (string * list string)) : nat := list_sum (map (weight g) q).

Lemma path_weight_pos n k : 1 <= path_weight n k.
Proof. destruct k; simpl; lia. Qed.
Lemma path_weight_mono n k k' : k <= k' -> path_weight n k <= path_weight n k'.
Proof.
  revert k'. induction k as [|k IH]; intros [|k'] H; simpl; try lia.
  specialize (IH k' ltac:(lia)). nia.
Qed.

Lemma list_sum_app' l1 l2 : list_sum (l1 ++ l2) = list_sum l1 + list_sum l2.
Proof. induction l1; simpl; lia. Qed.
Lemma list_sum_const {A} (f : A -> nat) l c : (forall x, In x l -> f x = c) -> list_sum (map f l) = length l * c.
Proof. induction l as [|a l IH]; simpl; intros H; [easy|]. rewrite (H a), IH; auto. Qed.

Section Bfs.
Variables (g : graph) (ord : list string -> list string -> list string) (start goal : string).
Hypothesis W : wf_graph g.
Hypothesis O : set_order ord.

Lemma succ_In d path n : In n (bfs_succ ord d path) <-> In n (keys d) /\ ~ In n path.
Proof.
  unfold bfs_succ. split.
  - intros H. apply (Permutation_in _ (O path _)) in H. apply filter_In in H as [A B]. split; [easy|].
    apply negb_true_iff in B. now apply mem_false.
  - intros [A B]. apply (Permutation_in _ (Permutation_sym (O path _))). apply filter_In. split; [easy|].
    apply negb_true_iff. now apply mem_false.
Qed.
Lemma succ_NoDup d path : NoDup (keys d) -> NoDup (bfs_succ ord d path).
Proof.
  intros H. unfold bfs_succ. apply (Permutation_NoDup (Permutation_sym (O path _))). now apply NoDup_filter.
Qed.

Lemma push_In (node : string) path d e : In e (bfs_push g goal path (bfs_succ ord d path)) <->
  (exists n, e = (n, path ++ [n]) /\ In n (keys d) /\ ~ In n path /\ n <> goal /\ In n (keys g)) /\ node = node.
Proof.
  unfold bfs_push. rewrite in_map_iff. split.
  - intros (n & <- & H). apply filter_In in H as [A B]. apply succ_In in A as [A1 A2].
    apply andb_true_iff in B as [B1 B2]. apply negb_true_iff, String.eqb_neq in B1. apply mem_In in B2. split; [|easy].
    exists n. easy.
  - intros ((n & -> & A & B & C & D) & _). exists n. split; [easy|]. apply filter_In. split; [now apply succ_In|].
    apply andb_true_iff. split; [now apply negb_true_iff, String.eqb_neq | now apply mem_In].
Qed.

Lemma good_push node path d e : good g start goal (node, path) -> assoc node g = Some d ->
  In e (bfs_push g goal path (bfs_succ ord d path)) -> good g start goal e /\ length (snd e) = S (length path).
Proof.
  intros (pre & E & H & Wk & N & G & K) D I. apply (push_In node) in I as ((n & -> & A & B & C & D') & _). simpl in *.
  split; [|rewrite app_length; simpl; lia].
  exists path. simpl. split; [easy|]. split; [destruct path; easy|]. split.
  { rewrite E. apply walk_snoc; [now rewrite <- E|]. now apply (assoc_edge g node d). }
  split. { apply (Permutation_NoDup (Permutation_cons_append path n)). constructor; easy. }
  split. { rewrite in_app_iff. simpl. intros [Q|[Q|[]]]; easy. }
  intros x. rewrite in_app_iff. simpl. intros [Q|[<-|[]]]; [now apply K | easy].
Qed.

Lemma good_length e : good g start goal e -> length (snd e) <= length g.
Proof.
  intros (pre & _ & _ & _ & N & _ & K). replace (length g) with (length (keys g)) by apply map_length.
  now apply NoDup_incl_length.
Qed.

Lemma push_measure node path d : good g start goal (node, path) -> assoc node g = Some d ->
  measure g (bfs_push g goal path (bfs_succ ord d path)) < weight g (node, path).
Proof.
  intros G D. pose proof (good_length _ G) as L. simpl in L.
  set (P := bfs_push g goal path (bfs_succ ord d path)).
  assert (HP : forall e, In e P -> good g start goal e /\ length (snd e) = S (length path)).
  { intros e He. now apply (good_push node path d). }
  unfold measure. rewrite (list_sum_const _ P (path_weight (length g) (length g - S (length path)))).
  2:{ intros e He. unfold weight. now rewrite (proj2 (HP e He)). }
  unfold weight. simpl.
  destruct (length g - length path) as [|k] eqn:Ek.
  - assert (P = []). { destruct P as [|e P'] eqn:EP; [easy|]. exfalso.
      destruct (HP e (or_introl eq_refl)) as [A B]. apply good_length in A. lia. }
    rewrite H. simpl. lia.
  - replace (length g - S (length path)) with k by lia. simpl.
    assert (LP : length P <= length g).
    { unfold P, bfs_push. rewrite map_length.
      assert (NoDup (filter (fun n => negb (String.eqb n goal) && in_graph g n) (bfs_succ ord d path))).
      { apply NoDup_filter, succ_NoDup. destruct W as [_ W0]. apply (W0 node d D). }
      replace (length g) with (length (keys g)) by apply map_length.
      apply NoDup_incl_length; [easy|]. intros x Hx. apply filter_In in Hx as [_ Hx].
      apply andb_true_iff in Hx as [_ Hx]. now apply mem_In. }
    nia.
Qed.

Lemma completes_step node path d q : good g start goal (node, path) -> assoc node g = Some d ->
  (completes g goal path q <->
   In q (bfs_found goal path (bfs_succ ord d path)) \/
   exists e, In e (bfs_push g goal path (bfs_succ ord d path)) /\ completes g goal (snd e) q).
Proof.
  intros (pre & E & H & Wk & N & G & K) D. simpl in *. split.
  - intros (ext & -> & Ne & Wq & Nq & L). destruct ext as [|n ext]; [easy|].
    assert (He : edge g node n).
    { rewrite E in Wq. rewrite <- app_assoc in Wq. simpl in Wq.
      apply walk_app in Wq as [_ Wq]. simpl in Wq. apply Wq. }
    assert (Hn : ~ In n path). { intros I. apply NoDup_remove_2 in Nq. apply Nq. apply in_or_app. now left. }
    assert (Hk : In n (keys d)) by now apply (assoc_edge g node d).
    destruct (string_dec n goal) as [->|Ng].
    + left. assert (ext = []).
      { destruct ext as [|x ext]; [easy|]. exfalso.
        assert (last (path ++ goal :: x :: ext) EmptyString = last (x :: ext) EmptyString).
        { clear. induction path as [|a p IH]; simpl; [easy|]. destruct (p ++ goal :: x :: ext) eqn:E'; [destruct p; easy|]. simpl in IH. exact IH. }
        rewrite H0 in L. assert (In goal (x :: ext)).
        { rewrite <- L. destruct (@exists_last _ (x :: ext)) as (l' & a & El); [easy|]. rewrite El, last_last. apply in_or_app. right. simpl. tauto. }
        apply NoDup_remove_2 in Nq. apply Nq. apply in_or_app. now right. }
      subst ext. unfold bfs_found. apply in_map_iff. exists goal. split; [easy|]. apply filter_In. split; [|apply String.eqb_refl].
      now apply succ_In.
    + right. exists (n, path ++ [n]). simpl. split.
      * apply (push_In node). split; [|easy]. exists n. split; [easy|]. split; [easy|]. split; [easy|]. split; [easy|].
        destruct ext as [|x ext].
        { rewrite last_last in L. easy. }
        assert (edge g n x).
        { apply walk_app in Wq as [_ Wq]. simpl in Wq. apply Wq. }
        destruct H0 as (k & l & d' & ls & A & _). apply assoc_keys. eauto.
      * exists ext. rewrite <- app_assoc. simpl. split; [easy|]. split; [|easy].
        intros ->. rewrite last_last in L. easy.
  - intros [I|(e & I & C)].
    + unfold bfs_found in I. apply in_map_iff in I as (n & <- & I). apply filter_In in I as [I J].
      apply String.eqb_eq in J. subst n. apply succ_In in I as [I J].
      exists [goal]. split; [easy|]. split; [easy|]. split.
      { rewrite E. apply walk_snoc; [now rewrite <- E|]. now apply (assoc_edge g node d). }
      split. { apply (Permutation_NoDup (Permutation_cons_append path goal)). constructor; easy. }
      apply last_last.
    + apply (push_In node) in I as ((n & -> & A & B & C' & D') & _). simpl in C.
      destruct C as (ext & -> & Q). exists (n :: ext). rewrite <- app_assoc. simpl. split; [easy|]. split; [easy|].
      rewrite <- app_assoc in Q. simpl in Q. easy.
Qed.

Lemma completes_prefix path q : completes g goal path q -> prefix path q /\ S (length path) <= length q.
Proof.
  intros (ext & -> & N & _). split; [now exists ext|]. rewrite app_length. destruct ext; [easy|]. simpl. lia.
Qed.

Lemma prefix_both p q r : prefix p r -> prefix q r -> prefix p q \/ prefix q p.
Proof.
  intros [e1 E1] [e2 E2]. subst r. revert q E2. induction p as [|a p IH]; intros q E2.
  - left. now exists q.
  - destruct q as [|b q]; [right; now exists (a :: p)|]. simpl in E2. injection E2 as <- E2.
    destruct (IH _ E2) as [[e ->]|[e ->]]; [left; now exists e | right; now exists e].
Qed.

(** Queue discipline. *)
Definition disciplined (q : list (string * list string)) : Prop :=
  StronglySorted (fun a b => length (snd a) <= length (snd b)) q /\
  match q with [] => True | e :: _ => forall e', In e' q -> length (snd e') <= S (length (snd e)) end.

Lemma ss_app {A} (R : A -> A -> Prop) l1 l2 : StronglySorted R l1 -> StronglySorted R l2 ->
  (forall x y, In x l1 -> In y l2 -> R x y) -> StronglySorted R (l1 ++ l2).
Proof.
  induction l1 as [|a l1 IH]; simpl; intros S1 S2 H; [easy|]. inversion S1; subst.
  constructor; [apply IH; auto|]. apply Forall_app. split; [easy|]. apply Forall_forall. intros y Hy. auto.
Qed.
Lemma ss_equal {A} (f : A -> nat) c l : (forall x, In x l -> f x = c) -> StronglySorted (fun a b => f a <= f b) l.
Proof.
  induction l as [|a l IH]; intros H; constructor.
  - apply IH. intros x Hx. apply H. now right.
  - apply Forall_forall. intros y Hy. rewrite (H a), (H y); [lia | now right | now left].
Qed.

Lemma fop_app {A} (R : A -> A -> Prop) l1 l2 : ForallOrdPairs R l1 -> ForallOrdPairs R l2 ->
  (forall x y, In x l1 -> In y l2 -> R x y) -> ForallOrdPairs R (l1 ++ l2).
Proof.
  induction l1 as [|a l1 IH]; simpl; intros S1 S2 H; [easy|]. inversion S1; subst.
  constructor; [|apply IH; auto]. apply Forall_app. split; [easy|]. apply Forall_forall. intros y Hy. auto.
Qed.

Lemma bfs_correct fuel : forall queue, measure g queue <= fuel ->
  Forall (good g start goal) queue -> disciplined queue ->
  ForallOrdPairs (fun a b => incomparable (snd a) (snd b)) queue ->
  exists L, bfs fuel g ord goal queue = gyields L GStop /\
    (forall q, In q L <-> exists e, In e queue /\ completes g goal (snd e) q) /\
    NoDup L /\ StronglySorted (fun a b => length a <= length b) L.
Proof.
  induction fuel as [|fuel IH]; intros queue M Gd Di Inc.
  - destruct queue as [|e q].
    + exists []. simpl. split; [easy|]. split; [|split; constructor]. intros q. split; [easy|]. intros (e & [] & _).
    + exfalso. unfold measure in M. simpl in M. pose proof (path_weight_pos (length g) (length g - length (snd e))).
      unfold weight in M. lia.
  - destruct queue as [|[node path] rest].
    + exists []. simpl. split; [easy|]. split; [|split; constructor]. intros q. split; [easy|]. intros (e & [] & _).
    + inversion Gd as [|? ? Ge Gr]; subst.
      destruct (assoc node g) as [d|] eqn:D.
      2:{ exfalso. destruct Ge as (pre & E & _ & _ & _ & _ & K). simpl in *. apply assoc_None in D. apply D, K.
          rewrite E. apply in_or_app. right. simpl. tauto. }
      set (S0 := bfs_succ ord d path). set (P := bfs_push g goal path S0).
      assert (HP : forall e, In e P -> good g start goal e /\ length (snd e) = S (length path)).
      { intros e He. now apply (good_push node path d). }
      assert (HPp : forall e, In e P -> prefix path (snd e)).
      { intros e He. apply (push_In node) in He as ((n & -> & _) & _). now exists [n]. }
      destruct Di as [Ds Db]. inversion Ds as [|? ? Dr Df]; subst.
      inversion Inc as [|? ? If Ir]; subst.
      assert (Hrest : forall e, In e rest -> length path <= length (snd e) <= S (length path)).
      { intros e He. split; [rewrite Forall_forall in Df; apply (Df e He) | apply (Db e); now right]. }
      destruct (IH (rest ++ P)) as (L & EL & HL & NL & SL).
      * unfold measure in *. rewrite map_app, list_sum_app'. simpl in M.
        pose proof (push_measure node path d Ge D) as Q. unfold measure in Q. fold S0 P in Q. lia.
      * apply Forall_app. split; [easy|]. apply Forall_forall. intros e He. now apply HP.
      * split.
        -- apply ss_app; [easy| |].
           ++ apply (ss_equal (fun a => length (snd a)) (S (length path))). intros x Hx. now apply HP.
           ++ intros x y Hx Hy. rewrite (proj2 (HP y Hy)). now apply Hrest.
        -- destruct rest as [|e0 rest].
           ++ simpl. destruct P as [|e0 P'] eqn:EP; [easy|]. intros e' He'. rewrite (proj2 (HP e' He')), (proj2 (HP e0 (or_introl eq_refl))). lia.
           ++ simpl. intros e' He'. assert (length path <= length (snd e0)) by (apply Hrest; now left).
              destruct He' as [<-|He']; [lia|]. apply in_app_iff in He' as [He'|He'].
              ** destruct (Hrest e'); [now right | lia].
              ** rewrite (proj2 (HP e' He')). lia.
      * apply fop_app; [easy| |].
        -- assert (NS : NoDup S0). { apply succ_NoDup. destruct W as [_ W0]. apply (W0 node d D). }
           unfold P, bfs_push. assert (NF : NoDup (filter (fun n => negb (String.eqb n goal) && in_graph g n) S0)) by now apply NoDup_filter.
           induction NF as [|x l Hx NF IHl]; simpl; constructor; [|easy].
           apply Forall_forall. intros y Hy. apply in_map_iff in Hy as (n & <- & Hn). simpl.
           assert (x <> n) by (intros ->; easy).
           split; intros [ext E]; apply (f_equal (skipn (length path))) in E; rewrite !skipn_app, ?skipn_all, ?Nat.sub_diag, <- ?app_assoc in E;
             rewrite ?skipn_app, ?skipn_all, ?Nat.sub_diag in E; simpl in E; congruence.
        -- intros x y Hx Hy. rewrite Forall_forall in If. destruct (If x Hx) as [A B]. simpl in A, B.
           apply (push_In node) in Hy as ((n & -> & _) & _). simpl. split.
           ++ intros [ext E]. destruct ext as [|z ext] using rev_ind.
              ** rewrite app_nil_r in E. apply A. exists [n]. now rewrite <- E.
              ** rewrite app_assoc in E. apply app_inj_tail in E as [E _]. apply B. now exists ext.
           ++ intros [ext E]. apply A. exists (n :: ext). rewrite E, <- app_assoc. easy.
      * exists (bfs_found goal path S0 ++ L). split.
        { simpl. rewrite D. fold S0 P. rewrite EL. clear. induction (bfs_found goal path S0); simpl; congruence. }
        assert (Spec : forall q, In q (bfs_found goal path S0) -> q = path ++ [goal]).
        { intros q Hq. unfold bfs_found in Hq. apply in_map_iff in Hq as (n & <- & Hn). apply filter_In in Hn as [_ Hn].
          apply String.eqb_eq in Hn. now subst. }
        split; [|split].
        -- intros q. rewrite in_app_iff, HL. split.
           ++ intros [I|(e & I & C)].
              ** exists (node, path). split; [now left|]. apply (completes_step node path d); [easy|easy|]. now left.
              ** apply in_app_iff in I as [I|I]; [exists e; split; [now right|easy]|].
                 exists (node, path). split; [now left|]. apply (completes_step node path d); [easy|easy|]. right. now exists e.
           ++ intros (e & [<-|I] & C).
              ** apply (completes_step node path d) in C as [C|(e & I & C)]; [now left| |easy|easy].
                 right. exists e. split; [apply in_or_app; now right | easy].
              ** right. exists e. split; [apply in_or_app; now left | easy].
        -- assert (NF : NoDup (bfs_found goal path S0)).
           { unfold bfs_found. apply FinFun.Injective_map_NoDup.
             - intros x y E. now apply app_inj_tail in E.
             - apply NoDup_filter, succ_NoDup. destruct W as [_ W0]. apply (W0 node d D). }
           assert (Dj : forall q, In q (bfs_found goal path S0) -> ~ In q L).
           { intros q Hq HqL. apply Spec in Hq. apply HL in HqL as (e & I & C). apply completes_prefix in C as [C1 C2].
             apply in_app_iff in I as [I|I].
             - rewrite Forall_forall in If. destruct (If e I) as [A B]. simpl in A, B.
               assert (prefix path q) by (subst q; now exists [goal]). destruct (prefix_both _ _ _ H C1); easy.
             - rewrite (proj2 (HP e I)), Hq, app_length in C2. simpl in C2. lia. }
           clear - NF NL Dj. induction (bfs_found goal path S0) as [|a l IHl]; simpl; [easy|].
           inversion NF; subst. constructor.
           ++ rewrite in_app_iff. intros [Q|Q]; [easy|]. apply (Dj a); [now left|easy].
           ++ apply IHl; [easy|]. intros q Hq. apply Dj. now right.
        -- apply ss_app; [|easy|].
           ++ apply (ss_equal (@length string) (length path + 1)). intros x Hx. apply Spec in Hx. subst. now rewrite app_length.
           ++ intros x y Hx Hy. apply Spec in Hx. subst x. rewrite app_length. simpl.
              apply HL in Hy as (e & I & C). apply completes_prefix in C as [_ C].
              apply in_app_iff in I as [I|I]; [apply Hrest in I; lia | rewrite (proj2 (HP e I)) in C; lia].
Qed.
End Bfs.

Lemma runs_gyields {A} (l : list A) k l' e : runs_to k l' e -> runs_to (gyields l k) (l ++ l') e.
Proof. intros H. induction l; simpl; [easy|]. now constructor. Qed.

Lemma last_default {A} (l : list A) a b : l <> [] -> last l a = last l b.
Proof. induction l as [|x [|y l] IH]; intros H; [easy|easy|]. simpl in *. now apply IH. Qed.

Lemma bfs_paths_ok g ord start goal : wf_graph g -> set_order ord -> In start (keys g) ->
  exists L, bfs_paths g ord start goal = gyields L GStop /\
    (forall q, In q L <-> simple_path g start goal q) /\
    NoDup L /\ StronglySorted (fun a b => length a <= length b) L.
Proof.
  intros W O S. destruct (string_dec start goal) as [->|Ne].
  - (* start = goal: nothing can be yielded *)
    assert (Q : forall fuel queue, (forall e, In e queue -> In goal (snd e) /\ In (fst e) (keys g)) ->
               bfs fuel g ord goal queue = GStop \/ bfs fuel g ord goal queue = GFuel).
    { induction fuel as [|fuel IH]; intros queue H; [destruct queue; simpl; tauto|].
      destruct queue as [|[node path] rest]; simpl; [tauto|].
      destruct (assoc node g) as [d|] eqn:D.
      - assert (F : bfs_found goal path (bfs_succ ord d path) = []).
        { unfold bfs_found. destruct (filter _ _) as [|x l] eqn:E; [easy|]. exfalso.
          assert (I : In x (x :: l)) by now left. rewrite <- E in I. apply filter_In in I as [I J].
          apply String.eqb_eq in J. subst x. apply (succ_In ord) in I as [_ I]; [|easy]. apply I.
          apply (H (node, path)). now left. }
        rewrite F. simpl. apply IH. intros e I. apply in_app_iff in I as [I|I]; [apply H; now right|].
        apply (push_In g ord goal O node) in I as ((n & -> & A & B & C & D') & _). simpl. split; [|easy].
        apply in_or_app. left. apply (H (node, path)). now left.
      - exfalso. apply assoc_None in D. apply D. apply (H (node, path)). now left. }
    exists []. simpl.
    (* fuel suffices: run with an unreachable goal argument on the measure *)
    assert (T : forall fuel queue, measure g queue <= fuel ->
              Forall (fun e => exists pre, snd e = pre ++ [fst e] /\ NoDup (snd e) /\ forall n, In n (snd e) -> In n (keys g)) queue ->
              bfs fuel g ord goal queue <> GFuel).
    { induction fuel as [|fuel IH]; intros queue M Gd.
      - destruct queue as [|e q]; [easy|]. exfalso. unfold measure in M. simpl in M.
        pose proof (path_weight_pos (length g) (length g - length (snd e))). unfold weight in M. lia.
      - destruct queue as [|[node path] rest]; [easy|]. simpl.
        destruct (assoc node g) as [d|] eqn:D; [|easy].
        inversion Gd as [|? ? Ge Gr]; subst. destruct Ge as (pre & E & N & K). simpl in *.
        assert (HP : forall e, In e (bfs_push g goal path (bfs_succ ord d path)) ->
                  (exists pre, snd e = pre ++ [fst e] /\ NoDup (snd e) /\ forall n, In n (snd e) -> In n (keys g)) /\ length (snd e) = Datatypes.S (length path)).
        { intros e I. apply (push_In g ord goal O node) in I as ((n & -> & A & B & C & D') & _). simpl.
          split; [|rewrite app_length; simpl; lia]. exists path. split; [easy|]. split.
          - apply (Permutation_NoDup (Permutation_cons_append path n)). constructor; easy.
          - intros x. rewrite in_app_iff. simpl. intros [Q'|[<-|[]]]; [now apply K | easy]. }
        assert (LG : forall p, NoDup p -> (forall n, In n p -> In n (keys g)) -> length p <= length g).
        { intros p Np Kp. replace (length g) with (length (keys g)) by apply map_length. now apply NoDup_incl_length. }
        assert (R : bfs fuel g ord goal (rest ++ bfs_push g goal path (bfs_succ ord d path)) <> GFuel).
        { apply IH.
          - unfold measure in *. rewrite map_app, list_sum_app'. simpl in M.
            set (P := bfs_push g goal path (bfs_succ ord d path)) in *.
            rewrite (list_sum_const _ P (path_weight (length g) (length g - Datatypes.S (length path)))).
            2:{ intros e He. unfold weight. now rewrite (proj2 (HP e He)). }
            unfold weight in M at 1. simpl in M. pose proof (LG _ N K) as L0.
            destruct (length g - length path) as [|k] eqn:Ek.
            + assert (P = []). { destruct P as [|e P'] eqn:EP; [easy|]. exfalso.
                destruct (HP e (or_introl eq_refl)) as [(pr & _ & A & B) C]. pose proof (LG _ A B). lia. }
              rewrite H. simpl in *. lia.
            + replace (length g - Datatypes.S (length path)) with k by lia. simpl in M.
              assert (LP : length P <= length g).
              { unfold P, bfs_push. rewrite map_length. apply LG.
                - apply NoDup_filter, succ_NoDup; [easy|]. destruct W as [_ W0]. apply (W0 node d D).
                - intros x Hx. apply filter_In in Hx as [_ Hx]. apply andb_true_iff in Hx as [_ Hx]. now apply mem_In. }
              nia.
          - apply Forall_app. split; [easy|]. apply Forall_forall. intros e I. now apply HP. }
        assert (F : forall (l : list (list string)) k, k <> GFuel -> gyields l k <> GFuel).
        { intros [|x l] k Hk; simpl; easy. }
        now apply F. }
    split.
    + unfold bfs_paths. destruct (Q (bfs_fuel g) [(goal, [goal])]) as [->|F].
      * intros e [<-|[]]. simpl. tauto.
      * easy.
      * exfalso. revert F. apply T.
        -- unfold measure, bfs_fuel. simpl. unfold weight. simpl. rewrite Nat.add_0_r. apply path_weight_mono. lia.
        -- repeat constructor. simpl. exists []. split; [easy|]. split; [repeat constructor; simpl; tauto|]. intros n [<-|[]]. easy.
    + split; [|split; constructor]. intros q. split; [easy|]. intros ((Wk & (q' & -> & Nq) & L) & N). exfalso.
      inversion N; subst. apply H1. destruct (@exists_last _ q' Nq) as (l' & a & ->).
      replace (last (goal :: l' ++ [a]) goal) with a in L.
      * subst a. apply in_or_app. right. simpl. tauto.
      * symmetry. change (goal :: l' ++ [a]) with ((goal :: l') ++ [a]). apply last_last.
  - destruct (bfs_correct g ord start goal W O (bfs_fuel g) [(start, [start])]) as (L & E & HL & NL & SL).
    + unfold measure, bfs_fuel. simpl. unfold weight. simpl. rewrite Nat.add_0_r. apply path_weight_mono. lia.
    + repeat constructor. exists []. simpl. split; [easy|]. split; [easy|]. split; [easy|]. split; [repeat constructor; simpl; tauto|].
      split; [intros [Q|[]]; easy|]. intros n [<-|[]]. easy.
    + split; [repeat constructor|]. simpl. intros e' [<-|[]]. simpl. lia.
    + repeat constructor.
    + exists L. split; [easy|]. split; [|easy]. intros q. rewrite HL. split.
      * intros (e & [<-|[]] & (ext & -> & Nx & Wq & Nq & Lq)). simpl in *. split; [|easy]. split; [easy|].
        split; [now exists ext|]. rewrite <- Lq. apply (last_default (start :: ext)). easy.
      * intros ((Wk & (q' & -> & Nq) & Lq) & N). exists (start, [start]). split; [now left|].
        exists q'. simpl. split; [easy|]. split; [easy|]. split; [easy|]. split; [easy|]. rewrite <- Lq. apply (last_default (start :: q')). easy.
Qed.

Lemma bfs_paths_missing g ord start goal : ~ In start (keys g) ->
  bfs_paths g ord start goal = GYield [] (GRaise KeyError).
Proof.
  intros H. unfold bfs_paths, bfs_fuel. apply assoc_None in H.
  assert (P : exists f, path_weight (length g) (length g) = Datatypes.S f).
  { pose proof (path_weight_pos (length g) (length g)). exists (path_weight (length g) (length g) - 1). lia. }
  destruct P as [f ->]. simpl. now rewrite H.
Qed.

(** Shortening a walk to a simple path. *)
Lemma shorten g s t : s <> t -> forall n p, length p <= n -> walk_from_to g s t p ->
  exists q, simple_path g s t q /\ length q <= length p.
Proof.
  intros Ne. induction n as [|n IH]; intros p Hn Wp.
  - destruct Wp as (_ & (q & -> & _) & _). simpl in Hn. lia.
  - destruct (ListDec.NoDup_dec string_dec p) as [N|N]; [exists p; split; [split; easy|lia]|].
    assert (D : exists a l1 l2 l3, p = l1 ++ a :: l2 ++ a :: l3).
    { clear - N. induction p as [|x p IHp]; [exfalso; apply N; constructor|].
      destruct (in_dec string_dec x p) as [I|I].
      - apply in_split in I as (l2 & l3 & ->). exists x, [], l2, l3. easy.
      - destruct IHp as (a & l1 & l2 & l3 & E); [intros Q; apply N; now constructor|].
        exists a, (x :: l1), l2, l3. rewrite E. easy. }
    destruct D as (a & l1 & l2 & l3 & E).
    assert (Lp : last p s = last (l1 ++ a :: l3) s).
    { rewrite E. clear. assert (Q : forall (l m : list string), m <> [] -> last (l ++ m) s = last m s).
      { induction l as [|y l IHl]; intros m Hm; [easy|]. simpl. destruct (l ++ m) eqn:E; [apply app_eq_nil in E as [_ ->]; easy|]. rewrite <- E. now apply IHl. }
      rewrite (Q l1), (Q l1) by easy. change (a :: l2 ++ a :: l3) with ((a :: l2) ++ a :: l3). now rewrite Q. }
    destruct Wp as (Wk & (q & Eq & Nq) & L).
    destruct (IH (l1 ++ a :: l3)) as (r & Hr & Lr).
    + rewrite E in Hn. rewrite !app_length in *. simpl in *. rewrite app_length in Hn. simpl in Hn. lia.
    + split.
      * rewrite E in Wk. assert (W1 : walk g (l1 ++ [a])).
        { replace (l1 ++ a :: l2 ++ a :: l3) with ((l1 ++ [a]) ++ l2 ++ a :: l3) in Wk by (rewrite <- app_assoc; easy).
          now apply walk_app in Wk. }
        apply walk_join; [easy|]. apply walk_app in Wk as [_ Wk]. change (a :: l2 ++ a :: l3) with ((a :: l2) ++ a :: l3) in Wk.
        now apply walk_app in Wk.
      * split; [|congruence]. destruct l1 as [|x l1].
        -- simpl in E. rewrite E in Eq. injection Eq as -> Eq. exists l3. split; [easy|]. intros ->. simpl in Lp. congruence.
        -- rewrite E in Eq. simpl in Eq. injection Eq as -> Eq. exists (l1 ++ a :: l3). split; [easy|]. destruct l1; easy.
    + exists r. split; [easy|]. rewrite E, !app_length. rewrite app_length in Lr. simpl in *. rewrite app_length. simpl. lia.
Qed.

Lemma shortest_path_spec g ord start goal : wf_graph g -> set_order ord ->
  exists p, shortest_path g ord start goal = Ok p /\
    (p = [] <-> ~ exists q, simple_path g start goal q) /\
    (p <> [] -> simple_path g start goal p /\ (forall q, walk_from_to g start goal q -> length p <= length q)).
Proof.
  intros W O. destruct (in_dec string_dec start (keys g)) as [I|I].
  - destruct (bfs_paths_ok g ord start goal W O I) as (L & E & HL & _ & SL).
    unfold shortest_path. rewrite E. destruct L as [|p L]; simpl.
    + exists []. split; [easy|]. split; [|easy]. split; [|easy]. intros _ (q & Hq). now apply HL in Hq.
    + exists p. split; [easy|]. assert (Hp : simple_path g start goal p) by (apply HL; now left).
      split.
      * split; [|intros H; exfalso; apply H; eauto]. intros ->. destruct Hp as ((_ & (q & Q & _) & _) & _). easy.
      * intros _. split; [easy|]. intros q Hq.
        assert (Ne : start <> goal).
        { intros ->. destruct Hp as ((_ & (p' & -> & Np) & Lp) & N). inversion N; subst. apply H1.
          destruct (@exists_last _ p' Np) as (l' & a & ->). change (goal :: l' ++ [a]) with ((goal :: l') ++ [a]) in Lp.
          rewrite last_last in Lp. subst a. apply in_or_app. right. simpl. tauto. }
        destruct (shorten g start goal Ne _ q (le_n _) Hq) as (r & Hr & Lr).
        apply HL in Hr. inversion SL as [|? ? _ Fa]; subst. destruct Hr as [->|Hr]; [easy|].
        rewrite Forall_forall in Fa. specialize (Fa r Hr). lia.
  - unfold shortest_path. rewrite bfs_paths_missing by easy. exists []. split; [easy|]. split; [|easy]. split; [|easy].
    intros _ (q & (Wk & (q' & -> & Nq) & _) & _). destruct q' as [|b q']; [easy|]. simpl in Wk.
    destruct Wk as [(k & l & d & ls & A & _) _]. apply I. apply assoc_keys. eauto.
Qed.
