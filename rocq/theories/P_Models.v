(** Proofs about the hypotheses of a MultipleModelVehicle. *)
From Coq Require Import Lia Lra.
From Verif Require Import Prelude M_Utils M_Lane M_Road M_Vehicle M_Kinematics M_Control M_Behavior M_Interval M_Regression M_Models
  S_Interval S_Regression P_Base P_Interval P_Regression P_Behavior P_Grid.
Open Scope R_scope.

Lemma route_eqb_iff a : forall b, route_eqb a b = true <-> a = b.
Proof.
  induction a as [|x a IH]; intros [|y b]; cbn; split; intros H; try discriminate; try reflexivity.
  - apply andb_prop in H as [H1 H2]. apply li_eqb_iff in H1. apply IH in H2. now subst.
  - inversion H; subst. apply andb_true_intro. split; [now apply li_eqb_iff|now apply IH].
Qed.
Lemma route_eqb_refl a : route_eqb a a = true.
Proof. now apply route_eqb_iff. Qed.
Lemma extends_iff k r : extends k r = true <-> exists post, post <> [] /\ r = (k ++ post)%list.
Proof.
  unfold extends. rewrite Bool.andb_true_iff, Nat.ltb_lt, route_eqb_iff. split.
  - intros [L E]. exists (skipn (List.length k) r). split; [|rewrite <- E at 1; now rewrite firstn_skipn].
    intros N. apply (f_equal (@List.length lane_index)) in N. rewrite skipn_length in N. cbn in N. lia.
  - intros (post & N & ->). rewrite app_length. destruct post as [|p post]; [contradiction|]. split; [cbn; lia|].
    rewrite firstn_app, Nat.sub_diag, firstn_all. cbn. now rewrite app_nil_r.
Qed.

(** ** Numbering *)
Definition numbered (m : models) : Prop :=
  (1 <= mm_next m)%nat /\ Forall (fun h => (hy_route h < mm_next m)%nat /\ (hy_data h < mm_next m)%nat) (mm_hyps m) /\ NoDup (map hy_data (mm_hyps m)).
Lemma numbered_nothing : numbered no_models.
Proof. split; [cbn; lia|]. split; constructor. Qed.

Definition same_test (h h' : hypothesis) : Prop := hy_data h' = hy_data h /\ hy_samples h' = hy_samples h.
(** Nothing forgotten: the hypotheses of [m] are still there, in order, then new ones. *)
Definition kept (m m' : models) : Prop := (mm_next m <= mm_next m')%nat /\ exists pre post, mm_hyps m' = (pre ++ post)%list /\
  Forall2 same_test (mm_hyps m) pre /\ Forall (fun h => hy_samples h = [] /\ (mm_next m <= hy_data h)%nat) post.
Lemma same_refl l : Forall2 same_test l l.
Proof. induction l; constructor; [now split|assumption]. Qed.
Lemma same_trans a : forall b c, Forall2 same_test a b -> Forall2 same_test b c -> Forall2 same_test a c.
Proof.
  induction a as [|x a IH]; intros b c H1 H2; inversion H1; subst; inversion H2; subst; constructor.
  - match goal with A : same_test x _, B : same_test _ _ |- _ => destruct A, B end. split; congruence.
  - eapply IH; eassumption.
Qed.
Lemma kept_refl m : kept m m.
Proof. split; [lia|]. exists (mm_hyps m), []. split; [now rewrite app_nil_r|]. split; [apply same_refl|constructor]. Qed.
Lemma kept_trans a b c : kept a b -> kept b c -> kept a c.
Proof.
  intros (N1 & pre1 & post1 & E1 & S1 & F1) (N2 & pre2 & post2 & E2 & S2 & F2). split; [lia|].
  rewrite E1 in S2. apply Forall2_app_inv_l in S2 as (p1 & p2 & Sp & Sq & ->).
  exists p1, (p2 ++ post2)%list. split; [rewrite E2, app_assoc; reflexivity|]. split; [eapply same_trans; eassumption|].
  apply Forall_app. split.
  - clear - F1 Sq N1. revert p2 Sq. induction F1 as [|x l [H H'] F IH]; intros p2 Sq; inversion Sq as [|? y ? ? [D Q]]; subst; constructor; [|now apply IH].
    rewrite D, Q. now split.
  - eapply Forall_impl; [|exact F2]. intros h [A B]. split; [exact A|lia].
Qed.
Lemma same_data a b : Forall2 same_test a b -> map hy_data b = map hy_data a.
Proof. induction 1 as [|x y a b [D _] F IH]; [reflexivity|]. cbn. now rewrite D, IH. Qed.

(** Lists. *)
Lemma set_list_hyps v m r x v' m' : set_list v m r x = (v', m') -> mm_hyps m' = mm_hyps m /\ mm_next m' = mm_next m.
Proof. unfold set_list. destruct (Nat.eqb r 0); intros E; inversion E; subst; now split. Qed.
Lemma set_list_get v m r x v' m' k : set_list v m r x = (v', m') -> get_list v' m' k = if Nat.eqb k r then x else get_list v m k.
Proof.
  unfold set_list, get_list. destruct (Nat.eqb r 0) eqn:R0; intros E; inversion E; subst.
  - apply Nat.eqb_eq in R0. subst r. destruct (Nat.eqb k 0); reflexivity.
  - destruct (Nat.eqb k 0) eqn:K0; [|reflexivity]. apply Nat.eqb_eq in K0. subst k. rewrite Nat.eqb_sym, R0. reflexivity.
Qed.
Definition same_but_route (v v' : vehicle) : Prop := set_route v' None = set_route v None.
Lemma set_list_vehicle v m r x v' m' : set_list v m r x = (v', m') -> same_but_route v v'.
Proof. unfold set_list, same_but_route. destruct (Nat.eqb r 0); intros E; inversion E; subst; reflexivity. Qed.
Lemma sbr_trans a b c : same_but_route a b -> same_but_route b c -> same_but_route a c.
Proof. unfold same_but_route. congruence. Qed.
Lemma sbr_target a b : same_but_route a b -> v_target_lane b = v_target_lane a.
Proof. intros H. exact (f_equal v_target_lane H). Qed.
Lemma sbr_pos a b : same_but_route a b -> v_pos b = v_pos a.
Proof. intros H. exact (f_equal v_pos H). Qed.
Lemma sbr_heading a b : same_but_route a b -> v_heading b = v_heading a.
Proof. intros H. exact (f_equal v_heading H). Qed.
Lemma sbr_speed a b : same_but_route a b -> v_speed b = v_speed a.
Proof. intros H. exact (f_equal v_speed H). Qed.
Lemma sbr_par a b : same_but_route a b -> v_par b = v_par a.
Proof. intros H. exact (f_equal v_par H). Qed.

Lemma forall2_map_r {A B} (P : A -> B -> Prop) f l : (forall a, P a (f a)) -> Forall2 P l (map f l).
Proof. intros H. induction l; constructor; auto. Qed.
Lemma NoDup_app_one {A} (l : list A) x : NoDup l -> ~ In x l -> NoDup (l ++ [x]).
Proof.
  induction 1 as [|y l N ND IH]; intros H; cbn; [repeat constructor; easy|]. constructor.
  - intros I. apply in_app_or in I as [I|[I|[]]]; [contradiction|]. subst. apply H. now left.
  - apply IH. intros I. apply H. now right.
Qed.
(** ** One candidate *)
Lemma find_known_none v m rt hs : find_known v m rt hs = None -> Forall (fun h => get_list v m (hy_route h) <> rt /\ extends (get_list v m (hy_route h)) rt = false) hs.
Proof.
  induction hs as [|h hs IH]; intros E; [constructor|]. cbn in E. destruct (route_eqb _ _) eqn:Q; [discriminate|]. destruct (extends _ _) eqn:X; [discriminate|].
  constructor; [|now apply IH]. split; [|exact X]. intros Z. rewrite Z, route_eqb_refl in Q. discriminate.
Qed.
Lemma find_known_eq v m rt hs : find_known v m rt hs = Some None -> exists h, In h hs /\ get_list v m (hy_route h) = rt.
Proof.
  induction hs as [|h hs IH]; intros E; [discriminate|]. cbn in E. destruct (route_eqb _ _) eqn:Q.
  - exists h. split; [now left|now apply route_eqb_iff].
  - destruct (extends _ _) eqn:X; [discriminate|]. destruct (IH E) as (h' & I & G). exists h'. split; [now right|exact G].
Qed.
Lemma find_known_ext v m rt hs k : find_known v m rt hs = Some (Some k) -> exists h, In h hs /\ get_list v m (hy_route h) = k /\ extends k rt = true.
Proof.
  induction hs as [|h hs IH]; intros E; [discriminate|]. cbn [find_known] in E. destruct (route_eqb (get_list v m (hy_route h)) rt) eqn:Q; [discriminate|].
  destruct (extends (get_list v m (hy_route h)) rt) eqn:X.
  - assert (K : get_list v m (hy_route h) = k) by congruence. subst k. exists h. split; [now left|]. now split.
  - destruct (IH E) as (h' & I & G). exists h'. split; [now right|exact G].
Qed.

Definition route_prefix (a b : route) : Prop := exists post, b = (a ++ post)%list.
Lemma prefix_refl a : route_prefix a a.
Proof. exists []. now rewrite app_nil_r. Qed.
Lemma prefix_trans a b c : route_prefix a b -> route_prefix b c -> route_prefix a c.
Proof. intros [p ->] [q ->]. exists (p ++ q)%list. now rewrite app_assoc. Qed.

(** What considering the candidate list [r] does. *)
Lemma consider_spec v m r v' m' : numbered m -> (r < mm_next m)%nat ->
  consider (v, m) r = (v', m') ->
  let c := map first_lane (get_list v m r) in
  let v1 := if Nat.eqb r 0 then set_route v (Some c) else v in
  numbered m' /\ kept m m' /\ v' = v1 /\
  (forall k, (k < mm_next m)%nat -> get_list v' m' k = if Nat.eqb k r then c else get_list v m k) /\
  (exists h, In h (mm_hyps m') /\ get_list v' m' (hy_route h) = c) /\
  (exists pre post, mm_hyps m' = (pre ++ post)%list /\ (List.length post <= 1)%nat /\
     Forall2 (fun h h' => hy_data h' = hy_data h /\ (h' = h \/
        hy_route h' = r /\ extends (if Nat.eqb (hy_route h) r then c else get_list v m (hy_route h)) c = true)) (mm_hyps m) pre /\
     Forall (fun h => get_list v' m' (hy_route h) = c) post).
Proof.
  intros (N1 & NF & ND) Hr E c v1. unfold consider in E. destruct (set_list v m r (map first_lane (get_list v m r))) as [v2 m2] eqn:Es.
  fold c in Es. destruct (set_list_hyps _ _ _ _ _ _ Es) as [Eh En]. pose proof (fun k => set_list_get _ _ _ _ _ _ k Es) as Eg.
  assert (Ev : v2 = v1) by (unfold v1; unfold set_list in Es; destruct (Nat.eqb r 0); injection Es as Q1 Q2; now rewrite <- Q1).
  assert (Er : get_list v2 m2 r = c) by (rewrite Eg, Nat.eqb_refl; reflexivity). rewrite Er in E.
  destruct (find_known v2 m2 c (mm_hyps m2)) as [[k|]|] eqn:F.
  - destruct (find_known_ext _ _ _ _ _ F) as (h & Ih & Gh & X). inversion E; subst v' m'. clear E. cbn [mm_hyps mm_next mm_lists set_hyps].
    set (f := fun h0 => if route_eqb (get_list v2 m2 (hy_route h0)) k then Hypothesis_ r (hy_data h0) (hy_samples h0) else h0).
    assert (Fs : forall l, Forall2 same_test l (map f l)).
    { induction l as [|a l IH]; constructor; [|assumption]. unfold f, same_test. now destruct (route_eqb _ _). }
    assert (Gl : forall k0, get_list v2 (set_hyps m2 (map f (mm_hyps m2))) k0 = get_list v2 m2 k0) by reflexivity.
    rewrite Eh in *. split; [|split; [|split; [exact Ev|split; [|split]]]].
    + split; [cbn; lia|]. cbn [mm_hyps mm_next set_hyps]. split; [|rewrite (same_data _ _ (Fs _)); exact ND].
      rewrite Forall_map. rewrite En. eapply Forall_impl; [|exact NF]. intros a [A B]. unfold f. destruct (route_eqb _ _); cbn; split; lia.
    + split; [cbn; lia|]. exists (map f (mm_hyps m)), []. split; [cbn; now rewrite app_nil_r|]. split; [apply Fs|constructor].
    + intros k0 _. rewrite Gl. apply Eg.
    + exists (f h). split; [cbn; now apply in_map|]. rewrite Gl. unfold f. rewrite Gh, route_eqb_refl. cbn. exact Er.
    + exists (map f (mm_hyps m)), []. split; [cbn; now rewrite app_nil_r|]. split; [cbn; lia|]. split; [|constructor].
      apply forall2_map_r. intros a. unfold f. destruct (route_eqb (get_list v2 m2 (hy_route a)) k) eqn:Q; [|split; [reflexivity|now left]]. cbn [hy_data hy_route]. split; [reflexivity|].
      right. split; [reflexivity|]. rewrite <- Eg. apply route_eqb_iff in Q. now rewrite Q.
  - destruct (find_known_eq _ _ _ _ F) as (h & Ih & Gh). inversion E; subst v' m'. clear E.
    split; [|split; [|split; [exact Ev|split; [|split]]]].
    + unfold numbered. rewrite Eh, En. now split.
    + split; [lia|]. exists (mm_hyps m), []. split; [rewrite Eh; now rewrite app_nil_r|]. split; [apply same_refl|constructor].
    + intros k _. apply Eg.
    + now exists h.
    + exists (mm_hyps m), []. split; [rewrite Eh; now rewrite app_nil_r|]. split; [cbn; lia|]. split; [|constructor].
      rewrite <- (map_id (mm_hyps m)) at 2. apply forall2_map_r. intros a. split; [reflexivity|now left].
  - cbn [new_list] in E. unfold new_list in E. cbn [mm_hyps mm_lists mm_next] in E. inversion E; subst v' m'. clear E.
    rewrite Eh, En. 
    assert (Gl : forall k, (k < mm_next m)%nat -> get_list v2 (Models (mm_hyps m ++ [Hypothesis_ (mm_next m) (Datatypes.S (mm_next m)) []])
       (fun k0 => if Nat.eqb k0 (mm_next m) then c else mm_lists m2 k0) (Datatypes.S (Datatypes.S (mm_next m)))) k = get_list v2 m2 k).
    { intros k Hk. unfold get_list. cbn [mm_lists]. destruct (Nat.eqb k 0); [reflexivity|]. destruct (Nat.eqb_spec k (mm_next m)); [lia|reflexivity]. }
    assert (Gn : get_list v2 (Models (mm_hyps m ++ [Hypothesis_ (mm_next m) (Datatypes.S (mm_next m)) []])
       (fun k0 => if Nat.eqb k0 (mm_next m) then c else mm_lists m2 k0) (Datatypes.S (Datatypes.S (mm_next m)))) (mm_next m) = c).
    { unfold get_list. cbn [mm_lists]. destruct (Nat.eqb_spec (mm_next m) 0); [lia|]. now rewrite Nat.eqb_refl. }
    split; [|split; [|split; [exact Ev|split; [|split]]]].
    + split; [cbn; lia|]. cbn [mm_hyps mm_next]. split.
      * apply Forall_app. split; [eapply Forall_impl; [|exact NF]; cbn; intros a [A B]; lia|]. constructor; [cbn; lia|constructor].
      * rewrite map_app. cbn. apply NoDup_app_one; [exact ND|]. intros I. apply in_map_iff in I as (a & Ea & Ia). rewrite Forall_forall in NF. specialize (NF a Ia). lia.
    + split; [cbn; lia|]. exists (mm_hyps m), [Hypothesis_ (mm_next m) (Datatypes.S (mm_next m)) []]. split; [reflexivity|]. split; [apply same_refl|].
      constructor; [cbn; split; [reflexivity|lia]|constructor].
    + intros k Hk. rewrite Gl by exact Hk. apply Eg.
    + eexists. split; [cbn; apply in_or_app; right; left; reflexivity|]. cbn [hy_route]. exact Gn.
    + exists (mm_hyps m), [Hypothesis_ (mm_next m) (Datatypes.S (mm_next m)) []]. split; [reflexivity|]. split; [cbn; lia|]. split.
      * rewrite <- (map_id (mm_hyps m)) at 2. apply forall2_map_r. intros a. split; [reflexivity|now left].
      * constructor; [exact Gn|constructor].
Qed.

Lemma forall2_in {A B} (P : A -> B -> Prop) l l' x : Forall2 P l l' -> In x l -> exists y, In y l' /\ P x y.
Proof. induction 1 as [|a b l l' H F IH]; intros I; [easy|]. destruct I as [->|I]; [exists b; split; [now left|exact H]|]. destruct (IH I) as (y & Iy & Hy). exists y. split; [now right|exact Hy]. Qed.
Lemma forall2_in_r {A B} (P : A -> B -> Prop) l l' y : Forall2 P l l' -> In y l' -> exists x, In x l /\ P x y.
Proof. induction 1 as [|a b l l' H F IH]; intros I; [easy|]. destruct I as [->|I]; [exists a; split; [now left|exact H]|]. destruct (IH I) as (x & Ix & Hx). exists x. split; [now right|exact Hx]. Qed.
Lemma forall2_len {A B} (P : A -> B -> Prop) l l' : Forall2 P l l' -> List.length l = List.length l'.
Proof. induction 1; cbn; congruence. Qed.
Lemma extends_shorter k r : extends k r = true -> (List.length k < List.length r)%nat /\ route_prefix k r.
Proof. intros E. apply extends_iff in E as (post & N & ->). rewrite app_length. destruct post; [contradiction|]. split; [cbn; lia|now eexists]. Qed.

(** Considering fresh lists of the same length. *)
Lemma consider_fold n rs : forall v m v' m', numbered m -> NoDup rs -> (forall r, In r rs -> (0 < r < mm_next m)%nat) ->
  (forall h, In h (mm_hyps m) -> ~ In (hy_route h) rs) -> (forall r, In r rs -> List.length (get_list v m r) = n) ->
  fold_left consider rs (v, m) = (v', m') ->
  numbered m' /\ kept m m' /\ v' = v /\
  (forall k, (k < mm_next m)%nat -> ~ In k rs -> get_list v' m' k = get_list v m k) /\
  (forall c, List.length c = n -> (exists h, In h (mm_hyps m) /\ get_list v m (hy_route h) = c) -> exists h, In h (mm_hyps m') /\ get_list v' m' (hy_route h) = c) /\
  (forall r, In r rs -> exists h, In h (mm_hyps m') /\ get_list v' m' (hy_route h) = map first_lane (get_list v m r)) /\
  (forall h, In h (mm_hyps m) -> exists h', In h' (mm_hyps m') /\ hy_data h' = hy_data h /\ route_prefix (get_list v m (hy_route h)) (get_list v' m' (hy_route h'))) /\
  (List.length (mm_hyps m') <= List.length (mm_hyps m) + List.length rs)%nat.
Proof.
  induction rs as [|r rs IH]; intros v m v' m' N ND Hr Hh Hl E.
  { cbn in E. inversion E; subst. split; [exact N|]. split; [apply kept_refl|]. split; [reflexivity|]. split; [reflexivity|]. split; [auto|].
    split; [easy|]. split; [|cbn; lia]. intros h I. exists h. split; [exact I|]. split; [reflexivity|apply prefix_refl]. }
  cbn [fold_left] in E. destruct (consider (v, m) r) as [v1 m1] eqn:E1. inversion ND as [|? ? Nr ND']; subst.
  destruct (Hr r (or_introl eq_refl)) as [R0 R1]. destruct (Nat.eqb_spec r 0) as [|_]; [lia|].
  destruct (consider_spec v m r v1 m1 N R1 E1) as (N1 & K1 & Ev & G1 & (hc & Ihc & Ghc) & pre & post & Ep & Lp & F1 & Fp).
  destruct (Nat.eqb_spec r 0) as [|_]; [lia|]. subst v1. destruct K1 as (Kn & K1).
  assert (Hrefs : forall h, In h (mm_hyps m) -> (hy_route h < mm_next m)%nat).
  { intros h I. destruct N as (_ & NF & _). rewrite Forall_forall in NF. now apply NF. }
  assert (Gold : forall h, In h (mm_hyps m) -> get_list v m1 (hy_route h) = get_list v m (hy_route h)).
  { intros h I. rewrite G1 by now apply Hrefs. destruct (Nat.eqb_spec (hy_route h) r) as [Z|]; [|reflexivity]. exfalso. apply (Hh h I). left. congruence. }
  assert (Gr : get_list v m1 r = map first_lane (get_list v m r)) by (rewrite G1 by exact R1; now rewrite Nat.eqb_refl).
  assert (Gin : forall h', In h' (mm_hyps m1) -> ~ In (hy_route h') rs).
  { intros h' I J. rewrite Ep in I. apply in_app_or in I as [I|I].
    - destruct (forall2_in_r _ _ _ _ F1 I) as (h & Ih & _ & [Q|(Q & _)]); [subst h'; apply (Hh h Ih); now right|]. apply Nr. now rewrite <- Q.
    - destruct (Nat.eq_dec (hy_route h') r) as [Q|Q]; [apply Nr; now rewrite <- Q|].
      unfold consider in E1. destruct (set_list v m r (map first_lane (get_list v m r))) as [v2 m2] eqn:Es. destruct (set_list_hyps _ _ _ _ _ _ Es) as [Eh En].
      destruct (find_known v2 m2 (get_list v2 m2 r) (mm_hyps m2)) as [[k|]|] eqn:Fk; inversion E1; subst.
      + cbn in Ep. assert (X : In h' (map (fun h => if route_eqb (get_list v m2 (hy_route h)) k then Hypothesis_ r (hy_data h) (hy_samples h) else h) (mm_hyps m2))) by (rewrite Ep; apply in_or_app; now right).
        apply in_map_iff in X as (h & Eq & Ih). rewrite Eh in Ih. destruct (route_eqb _ _); subst h'; [now apply Q|]. apply (Hh h Ih). now right.
      + assert (X : In h' (mm_hyps m1)) by (rewrite Ep; apply in_or_app; now right). rewrite Eh in X. apply (Hh h' X). now right.
      + cbn in Ep. assert (X : In h' (mm_hyps m2 ++ [Hypothesis_ (mm_next m2) (Datatypes.S (mm_next m2)) []])) by (rewrite Ep; apply in_or_app; now right).
        apply in_app_or in X as [X|[<-|[]]]; [rewrite Eh in X; apply (Hh h' X); now right|]. cbn in J. rewrite En in J. destruct (Hr _ (or_intror J)). lia. }
  destruct (IH v m1 v' m' N1 ND') as (N2 & K2 & Ev2 & G2 & P2 & C2 & D2 & L2).
  - intros r' I. destruct (Hr r' (or_intror I)). lia.
  - exact Gin.
  - intros r' I. destruct (Hr r' (or_intror I)). rewrite G1 by lia. destruct (Nat.eqb_spec r' r) as [Z|_]; [subst; contradiction|]. apply Hl. now right.
  - exact E.
  - subst v'. split; [exact N2|]. split; [eapply kept_trans; [split; [exact Kn|exact K1]|exact K2]|]. split; [reflexivity|].
    assert (Lc : List.length (map first_lane (get_list v m r)) = n) by (rewrite map_length; apply Hl; now left).
    split; [|split; [|split; [|split]]].
    + intros k Hk Hi. rewrite G2 by (try lia; intros J; apply Hi; now right). rewrite G1 by exact Hk. destruct (Nat.eqb_spec k r) as [Z|_]; [subst; exfalso; apply Hi; now left|reflexivity].
    + intros c Hc (h & Ih & Gh). apply P2; [exact Hc|]. destruct (forall2_in _ _ _ _ F1 Ih) as (h' & Ih' & _ & [Q|(Q & X)]).
      * subst h'. exists h. split; [rewrite Ep; apply in_or_app; now left|]. rewrite Gold by exact Ih. exact Gh.
      * exfalso. destruct (Nat.eqb_spec (hy_route h) r) as [Z|_]; [apply (Hh h Ih); left; congruence|]. rewrite Gh in X. apply extends_shorter in X as [X _]. lia.
    + intros r' [<-|I].
      * apply P2; [exact Lc|]. now exists hc.
      * destruct (C2 r' I) as (h & Ih & Gh). exists h. split; [exact Ih|]. rewrite Gh. f_equal. destruct (Hr r' (or_intror I)). rewrite G1 by lia.
        destruct (Nat.eqb_spec r' r) as [Z|_]; [subst; contradiction|reflexivity].
    + intros h Ih. destruct (forall2_in _ _ _ _ F1 Ih) as (h1 & Ih1 & Dh & Q).
      assert (Ih1' : In h1 (mm_hyps m1)) by (rewrite Ep; apply in_or_app; now left).
      destruct (D2 h1 Ih1') as (h2 & Ih2 & Dh2 & Ph). exists h2. split; [exact Ih2|]. split; [congruence|]. eapply prefix_trans; [|exact Ph].
      destruct Q as [Q|(Q & X)]; [subst h1; rewrite Gold by exact Ih; apply prefix_refl|]. rewrite Q, Gr.
      destruct (Nat.eqb_spec (hy_route h) r) as [Z|_]; [exfalso; apply (Hh h Ih); left; congruence|]. now apply extends_shorter.
    + rewrite Ep, app_length in L2. rewrite <- (forall2_len _ _ _ F1) in L2. cbn [List.length]. lia.
Qed.

(** ** All candidates *)
Definition intersects (g : graph) (v : vehicle) : bool :=
  match v_route v with Some (r0 :: rt) => match find_intersection g 3 [] (r0 :: rt) with Some _ => true | None => false end | _ => false end.
Lemma new_lists xs : forall v rs m rs' m', fold_left (fun (acc : list nat * models) x => let '(rs, m) := acc in let '(r, m) := new_list m x in ((rs ++ [r])%list, m)) xs (rs, m) = (rs', m') ->
  (1 <= mm_next m)%nat ->
  rs' = (rs ++ seq (mm_next m) (List.length xs))%list /\ mm_hyps m' = mm_hyps m /\ mm_next m' = (mm_next m + List.length xs)%nat /\
  (forall k, (k < mm_next m)%nat -> get_list v m' k = get_list v m k) /\
  map (get_list v m') (seq (mm_next m) (List.length xs)) = xs.
Proof.
  induction xs as [|x xs IH]; intros v rs m rs' m' E H1.
  { cbn in E. inversion E; subst. cbn. rewrite app_nil_r. split; [reflexivity|]. split; [reflexivity|]. split; [lia|]. split; reflexivity. }
  cbn [fold_left] in E. unfold new_list at 2 in E.
  destruct (IH v _ _ _ _ E) as (Er & Eh & En & Eg & Em); [cbn; lia|]. cbn [mm_next mm_hyps] in *.
  split; [rewrite Er, <- app_assoc; reflexivity|]. split; [exact Eh|]. split; [cbn; lia|].
  assert (G : forall k, (k < mm_next m)%nat -> get_list v m' k = get_list v m k).
  { intros k Hk. rewrite Eg by lia. unfold get_list. cbn [mm_lists]. destruct (Nat.eqb k 0); [reflexivity|]. destruct (Nat.eqb_spec k (mm_next m)); [lia|reflexivity]. }
  split; [exact G|]. cbn [List.length seq map]. f_equal; [|exact Em].
  rewrite Eg by lia. unfold get_list. cbn [mm_lists]. destruct (Nat.eqb_spec (mm_next m) 0); [lia|]. now rewrite Nat.eqb_refl.
Qed.
Lemma consider_all_spec g v m v' m' : numbered m -> consider_all g v m = (v', m') ->
  numbered m' /\ kept m m' /\
  v' = (if intersects g v then v else match v_route v with Some (r0 :: rt) => set_route v (Some (map first_lane (r0 :: rt))) | _ => v end) /\
  (forall c, In c (get_routes_at_intersection g (v_route v)) -> exists h, In h (mm_hyps m') /\ get_list v' m' (hy_route h) = map first_lane c) /\
  (forall h, In h (mm_hyps m) -> exists h', In h' (mm_hyps m') /\ hy_data h' = hy_data h /\
     (route_prefix (get_list v m (hy_route h)) (get_list v' m' (hy_route h')) \/
      route_prefix (map first_lane (get_list v m (hy_route h))) (get_list v' m' (hy_route h')))) /\
  (List.length (mm_hyps m') <= List.length (mm_hyps m) + List.length (get_routes_at_intersection g (v_route v)))%nat.
Proof.
  intros N E. unfold consider_all, candidates, get_routes_at_intersection, intersects in *.
  assert (Triv : forall m, v = v -> forall h, In h (mm_hyps m) -> exists h', In h' (mm_hyps m) /\ hy_data h' = hy_data h /\
     (route_prefix (get_list v m (hy_route h)) (get_list v m (hy_route h')) \/ route_prefix (map first_lane (get_list v m (hy_route h))) (get_list v m (hy_route h')))).
  { intros m0 _ h I. exists h. split; [exact I|]. split; [reflexivity|left; apply prefix_refl]. }
  destruct (v_route v) as [[|r0 rt]|] eqn:Er.
  - cbn in E. inversion E; subst. split; [exact N|]. split; [apply kept_refl|]. split; [reflexivity|]. split; [easy|]. split; [now apply Triv|cbn; lia].
  - destruct (find_intersection g 3 [] (r0 :: rt)) as [[[pre r] d]|] eqn:Ef.
    + set (xs := map (fun d0 => (pre ++ [(li_to r, d0, li_id r)])%list) d) in *.
      match type of E with context [fold_left ?F xs ([], m)] => destruct (fold_left F xs ([], m)) as [rs m1] eqn:En end.
      pose proof N as (N1 & NF & ND). destruct (new_lists xs v [] m rs m1 En N1) as (Ers & Eh & Enx & Eg & Em). cbn [app] in Ers.
      assert (Nm1 : numbered m1). { split; [lia|]. rewrite Eh. split; [|exact ND]. eapply Forall_impl; [|exact NF]. intros a [A B]. lia. }
      assert (HL : forall r', In r' rs -> List.length (get_list v m1 r') = (List.length pre + 1)%nat).
      { intros r' I. rewrite Ers in I. apply (in_map (get_list v m1)) in I. rewrite Em in I. unfold xs in I. apply in_map_iff in I as (d0 & <- & _). rewrite app_length. reflexivity. }
      destruct (consider_fold (List.length pre + 1) rs v m1 v' m' Nm1) as (N2 & K2 & Ev & G2 & P2 & C2 & D2 & L2).
      * rewrite Ers. apply seq_NoDup.
      * intros r' I. rewrite Ers in I. apply in_seq in I. lia.
      * intros h I J. rewrite Ers in J. apply in_seq in J. rewrite Eh in I. rewrite Forall_forall in NF. destruct (NF h I). lia.
      * exact HL.
      * exact E.
      * subst v'. split; [exact N2|]. split; [destruct K2 as (A & B); split; [lia|rewrite Eh in B; destruct B as (p & q & B1 & B2 & B3); exists p, q; split; [exact B1|split; [exact B2|]]; eapply Forall_impl; [|exact B3]; cbn; intros a [? ?]; split; [assumption|lia]]|].
        split; [reflexivity|]. split; [|split].
        -- intros c I. assert (J : In c (map (get_list v m1) rs)) by (rewrite Ers, Em; exact I). apply in_map_iff in J as (r' & <- & Ir). exact (C2 r' Ir).
        -- intros h I. destruct (D2 h) as (h' & I' & Dh & Ph); [now rewrite Eh|]. exists h'. split; [exact I'|]. split; [exact Dh|]. left.
           rewrite Eg in Ph; [exact Ph|]. rewrite Forall_forall in NF. now apply NF.
        -- rewrite Eh, Ers, seq_length in L2. exact L2.
    + cbn [fold_left] in E. pose proof N as (N1 & NF & ND).
      destruct (consider_spec v m 0 v' m' N ltac:(lia) E) as (N2 & K2 & Ev & G2 & C2 & pre & post & Ep & Lp & F2 & Fp).
      assert (Go : get_list v m 0 = r0 :: rt) by (unfold get_list, own_route; cbn; now rewrite Er). rewrite Go in *. cbn [Nat.eqb] in Ev.
      split; [exact N2|]. split; [exact K2|]. split; [exact Ev|]. split; [|split].
      * intros c [<-|[]]. exact C2.
      * intros h I. destruct (forall2_in _ _ _ _ F2 I) as (h' & I' & Dh & Q). exists h'. split; [rewrite Ep; apply in_or_app; now left|]. split; [exact Dh|].
        assert (Hlt : (hy_route h < mm_next m)%nat) by (rewrite Forall_forall in NF; now apply NF).
        destruct Q as [-> |(Q & X)].
        -- rewrite G2 by exact Hlt. destruct (Nat.eqb_spec (hy_route h) 0) as [Z|_]; [right; rewrite Z, Go; apply prefix_refl|left; apply prefix_refl].
        -- rewrite Q, G2 by lia. cbn [Nat.eqb]. destruct (Nat.eqb_spec (hy_route h) 0) as [Z|_].
           ++ rewrite Z, Go. right. apply prefix_refl.
           ++ left. now apply extends_shorter.
      * rewrite Ep, app_length, <- (forall2_len _ _ _ F2). cbn. lia.
  - cbn in E. inversion E; subst. split; [exact N|]. split; [apply kept_refl|]. split; [reflexivity|]. split; [easy|]. split; [now apply Triv|cbn; lia].
Qed.

(** ** Stepping along the routes *)
Lemma step_all_hyps g hs : forall v m v' m', foldM (step_one g) hs (v, m) = Ok (v', m') ->
  mm_hyps m' = mm_hyps m /\ mm_next m' = mm_next m /\ same_but_route v v'.
Proof.
  induction hs as [|h hs IH]; intros v m v' m' E; [inversion E; subst; repeat split; reflexivity|].
  cbn [foldM] in E. unfold step_one at 1 in E. destruct (get_list v m (hy_route h)) as [|r0 rest]; [discriminate|].
  destruct (get_lane g r0) as [l|]; [cbn [bind] in E|discriminate]. destruct (after_end l (v_pos v) None).
  - destruct (set_list v m (hy_route h) rest) as [v1 m1] eqn:Es. destruct (set_list_hyps _ _ _ _ _ _ Es) as [Eh En]. pose proof (set_list_vehicle _ _ _ _ _ _ Es) as Sv.
    destruct (IH _ _ _ _ E) as (A & B & C). split; [congruence|]. split; [congruence|]. eapply sbr_trans; eassumption.
  - now apply IH.
Qed.

(** ** Rejections *)
Definition inconsistent (la : linalg) (h : hypothesis) : bool :=
  match hy_samples h with
  | [] => false
  | s => match is_consistent_dataset la (lateral_data s) (Some steering_range) with Ok b => negb b | Err _ => false end
  end.
Lemma consistent_total la s ss : exists b, is_consistent_dataset la (lateral_data (s :: ss)) (Some steering_range) = Ok b.
Proof.
  unfold is_consistent_dataset, lateral_data. cbn [ds_outputs ds_features].
  destruct (rev (map sm_steer_out (s :: ss))) as [|y ys] eqn:Ey; [apply (f_equal (@List.length R)) in Ey; rewrite rev_length, map_length in Ey; discriminate|].
  destruct (rev (map sm_steer (s :: ss))) as [|p ps] eqn:Ep; [apply (f_equal (@List.length lvec)) in Ep; rewrite rev_length, map_length in Ep; discriminate|].
  destruct ys as [|y' ys']; [now eexists|]. destruct ps as [|p' ps']; [now eexists|]. unfold steering_range. destruct (confidence_polytope _ _ _ _) as [[[th dt] gr] be]. now eexists.
Qed.
Lemma remove_hyp_spec v m h hs : forall hs', NoDup (map hy_data hs) -> remove_hyp v m h hs = Ok hs' ->
  hs' = filter (fun k => negb (Nat.eqb (hy_data k) (hy_data h))) hs.
Proof.
  induction hs as [|k hs IH]; intros hs' ND E; [discriminate|]. cbn [remove_hyp] in E. cbn [map] in ND. inversion ND as [|? ? Nk ND']; subst. cbn [filter].
  assert (Id : Nat.eqb (hy_data k) (hy_data h) = true -> filter (fun k0 => negb (Nat.eqb (hy_data k0) (hy_data h))) hs = hs).
  { intros Q. apply Nat.eqb_eq in Q. rewrite Q in Nk. clear - Nk. induction hs as [|a hs IH]; [reflexivity|]. cbn. destruct (Nat.eqb_spec (hy_data a) (hy_data h)) as [Z|_].
    - exfalso. apply Nk. left. exact Z.
    - cbn. f_equal. apply IH. intros I. apply Nk. now right. }
  destruct (Nat.eqb (hy_data k) (hy_data h)) eqn:Q; cbn [negb].
  - destruct (route_eqb _ _); [injection E as <-; symmetry; now apply Id|].
    destruct (remove_hyp v m h hs) as [r|] eqn:Er; [|discriminate]. exfalso.
    clear - Er Nk Q. apply Nat.eqb_eq in Q. rewrite Q in Nk. revert r Er Nk. induction hs as [|a hs IH]; intros r Er Nk; [discriminate|]. cbn in Er, Nk.
    destruct (route_eqb _ _).
    + destruct (Nat.eqb_spec (hy_data a) (hy_data h)) as [Z|_]; [apply Nk; now left|]. destruct (Nat.eqb _ _); [discriminate|]. destruct (remove_hyp v m h hs); [|discriminate]. eapply IH; [reflexivity|tauto].
    + destruct (remove_hyp v m h hs); [|discriminate]. eapply IH; [reflexivity|tauto].
  - destruct (route_eqb _ _); [destruct (Nat.eqb (List.length (hy_samples k)) (List.length (hy_samples h))); [discriminate|]|]; destruct (remove_hyp v m h hs) as [r|] eqn:Er; try discriminate; cbn [bind] in E; injection E as <-; f_equal; now apply IH.
Qed.
Lemma filter_nodup (f : hypothesis -> bool) hs : NoDup (map hy_data hs) -> NoDup (map hy_data (filter f hs)).
Proof.
  induction hs as [|a hs IH]; intros N; [constructor|]. cbn in N. inversion N as [|? ? Na N']; subst. cbn. destruct (f a); [|now apply IH]. cbn. constructor; [|now apply IH].
  intros I. apply Na. apply in_map_iff in I as (b & E & J). apply filter_In in J as [J _]. rewrite <- E. now apply in_map.
Qed.
Lemma filter_filter {A} (f g : A -> bool) l : filter f (filter g l) = filter (fun x => g x && f x) l.
Proof. induction l as [|a l IH]; [reflexivity|]. cbn. destruct (g a) eqn:G; cbn; [destruct (f a); now rewrite IH|exact IH]. Qed.
Lemma reject_all la v L : forall m m', NoDup (map hy_data (mm_hyps m)) -> foldM (reject_one la v) L m = Ok m' ->
  mm_hyps m' = filter (fun k => negb (existsb (fun h => Nat.eqb (hy_data k) (hy_data h) && inconsistent la h) L)) (mm_hyps m) /\
  mm_lists m' = mm_lists m /\ mm_next m' = mm_next m.
Proof.
  induction L as [|h L IH]; intros m m' ND E.
  - cbn in E. inversion E; subst. split; [|now split]. cbn. clear. induction (mm_hyps m') as [|a l IH]; [reflexivity|]. cbn. now rewrite <- IH.
  - cbn [foldM] in E. unfold reject_one at 1 in E. destruct (hy_samples h) as [|s ss] eqn:Es.
    + cbn [bind] in E. destruct (IH m m' ND E) as (A & B). split; [|exact B]. rewrite A. apply filter_ext. intros k. cbn [existsb]. unfold inconsistent at 2. rewrite Es, Bool.andb_false_r. reflexivity.
    + destruct (consistent_total la s ss) as (b & Eb). rewrite Eb in E. cbn [bind] in E.
      assert (Ic : inconsistent la h = negb b) by (unfold inconsistent; rewrite Es, Eb; reflexivity).
      destruct b.
      * cbn [bind] in E. destruct (IH m m' ND E) as (A & B). split; [|exact B]. rewrite A. apply filter_ext. intros k. cbn [existsb]. rewrite Ic. cbn [negb]. rewrite Bool.andb_false_r. reflexivity.
      * destruct (remove_hyp v m h (mm_hyps m)) as [hs|] eqn:Er; [cbn [bind] in E|discriminate]. apply remove_hyp_spec in Er; [|exact ND].
        destruct (IH (set_hyps m hs) m') as (A & B & C); [cbn; rewrite Er; now apply filter_nodup|exact E|]. cbn [mm_hyps set_hyps mm_lists mm_next] in *.
        split; [|now split]. rewrite A, Er, filter_filter. apply filter_ext. intros k. cbn [existsb]. rewrite Ic. cbn [negb]. rewrite Bool.andb_true_r, Bool.negb_orb. reflexivity.
Qed.
Lemma self_rejected la hs k : NoDup (map hy_data hs) -> In k hs -> existsb (fun h => Nat.eqb (hy_data k) (hy_data h) && inconsistent la h) hs = inconsistent la k.
Proof.
  intros ND I. destruct (inconsistent la k) eqn:Ik.
  - apply existsb_exists. exists k. split; [exact I|]. now rewrite Nat.eqb_refl.
  - destruct (existsb _ hs) eqn:X; [|reflexivity]. apply existsb_exists in X as (h & Ih & X). apply andb_prop in X as [X1 X2]. apply Nat.eqb_eq in X1.
    assert (h = k); [|congruence]. clear - ND I Ih X1. revert ND I Ih X1. induction hs as [|a hs IH]; intros ND I Ih X1; [easy|]. cbn in ND. inversion ND as [|? ? Na ND']; subst.
    destruct I as [->|I], Ih as [->|Ih]; [reflexivity| | |now apply IH]; exfalso; apply Na.
    + rewrite X1. now apply in_map.
    + rewrite <- X1. now apply in_map.
Qed.
(** What is left after the rejections: exactly the hypotheses that are not inconsistent. *)
Lemma reject_hyps la v m m' : numbered m -> foldM (reject_one la v) (mm_hyps m) m = Ok m' ->
  mm_hyps m' = filter (fun k => negb (inconsistent la k)) (mm_hyps m) /\ mm_lists m' = mm_lists m /\ mm_next m' = mm_next m.
Proof.
  intros (N1 & NF & ND) E. destruct (reject_all la v _ m m' ND E) as (A & B). split; [|exact B]. rewrite A. clear - ND.
  assert (G : forall l, (forall k, In k l -> In k (mm_hyps m)) -> filter (fun k => negb (existsb (fun h => Nat.eqb (hy_data k) (hy_data h) && inconsistent la h) (mm_hyps m))) l = filter (fun k => negb (inconsistent la k)) l).
  { induction l as [|a l IH]; intros H; [reflexivity|]. cbn [filter]. rewrite (self_rejected la _ a ND) by (apply H; now left). rewrite IH by (intros; apply H; now right). reflexivity. }
  now apply G.
Qed.

(** ** The whole update *)
Lemma update_spec la g v m v' m' : numbered m -> update_possible_routes la g v m = Ok (v', m') ->
  numbered m' /\ same_but_route v v' /\ (mm_next m <= mm_next m')%nat /\
  exists v1 m1, consider_all g v m = (v1, m1) /\ numbered m1 /\ kept m m1 /\ mm_hyps m' = filter (fun k => negb (inconsistent la k)) (mm_hyps m1).
Proof.
  intros N E. unfold update_possible_routes in E. destruct (consider_all g v m) as [v1 m1] eqn:Ec.
  destruct (consider_all_spec g v m v1 m1 N Ec) as (N1 & K1 & Ev & _).
  destruct (foldM (step_one g) (mm_hyps m1) (v1, m1)) as [[v2 m2]|] eqn:Es; [cbn [bind] in E|discriminate].
  destruct (step_all_hyps _ _ _ _ _ _ Es) as (Eh & En & Sv).
  destruct (foldM (reject_one la v2) (mm_hyps m2) m2) as [m3|] eqn:Er; [cbn [bind] in E|discriminate]. injection E as <- <-.
  assert (N2 : numbered m2). { destruct N1 as (A & B & C). unfold numbered. rewrite Eh, En. now split. }
  destruct (reject_hyps la v2 m2 m3 N2 Er) as (R1 & R2 & R3). rewrite Eh in R1.
  split; [|split; [|split]].
  - destruct N2 as (A & B & C). split; [lia|]. rewrite R1, R3. rewrite Eh in *. split; [|now apply filter_nodup].
    apply Forall_forall. intros h I. apply filter_In in I as [I _]. rewrite Forall_forall in B. now apply B.
  - eapply sbr_trans; [|exact Sv]. rewrite Ev. destruct (intersects g v); [reflexivity|]. destruct (v_route v) as [[|]|]; reflexivity.
  - destruct K1. lia.
  - exists v1, m1. split; [reflexivity|]. split; [exact N1|]. split; [exact K1|exact R1].
Qed.
Lemma record_spec rd v m m' : record_all rd v m = Ok m' ->
  mm_next m' = mm_next m /\ mm_lists m' = mm_lists m /\
  Forall2 (fun h h' => hy_route h' = hy_route h /\ hy_data h' = hy_data h /\ exists r0 rt s, get_list v m (hy_route h) = r0 :: rt /\
     add_features rd v r0 (v_target_lane v) = Ok s /\ hy_samples h' = (hy_samples h ++ [s])%list) (mm_hyps m) (mm_hyps m').
Proof.
  unfold record_all. destruct (mapM (record_one rd v m) (mm_hyps m)) as [hs|] eqn:E; [|discriminate]. cbn [bind]. intros Q. injection Q as <-.
  split; [reflexivity|]. split; [reflexivity|]. cbn [mm_hyps set_hyps]. revert hs E. induction (mm_hyps m) as [|h l IH]; intros hs E.
  - cbn in E. injection E as <-. constructor.
  - cbn [mapM] in E. destruct (record_one rd v m h) as [h'|] eqn:Eh; [cbn [bind] in E|discriminate]. destruct (mapM (record_one rd v m) l) as [hs'|] eqn:El; [cbn [bind] in E|discriminate].
    injection E as <-. constructor; [|now apply IH]. unfold record_one in Eh. destruct (get_list v m (hy_route h)) as [|r0 rt]; [discriminate|].
    destruct (add_features rd v r0 (v_target_lane v)) as [s|] eqn:Ea; [cbn [bind] in Eh|discriminate]. injection Eh as <-. cbn. split; [reflexivity|]. split; [reflexivity|]. now exists r0, rt, s.
Qed.
Lemma think_numbered la rd v m v' m' : numbered m -> think la rd v m = Ok (v', m') -> numbered m'.
Proof.
  intros N E. unfold think in E. destruct (update_possible_routes la (rd_net rd) v m) as [[v1 m1]|] eqn:Eu; [cbn [bind] in E|discriminate].
  destruct (record_all rd v1 m1) as [m2|] eqn:Er; [cbn [bind] in E|discriminate]. injection E as <- <-.
  destruct (update_spec la _ v m v1 m1 N Eu) as ((A & B & C) & _). destruct (record_spec rd v1 m1 m2 Er) as (En & _ & F).
  split; [lia|]. split.
  - rewrite En. clear - B F. induction F as [|h h' l l' (R & D & _) F IH]; [constructor|]. inversion B; subst. constructor; [rewrite R, D; assumption|now apply IH].
  - assert (Z : map hy_data (mm_hyps m2) = map hy_data (mm_hyps m1)); [|rewrite Z; exact C]. clear - F. induction F as [|h h' l l' (R & D & _) F IH]; [reflexivity|]. cbn. now rewrite D, IH.
Qed.

(** ** Samples along the followed lane *)
Lemma dot2 a b c d : lv_dot [a; b] [c; d] = a * c + b * d.
Proof. cbn. ring. Qed.
Lemma features_two l p h s : exists a b, steering_features l p h s = [a; b].
Proof. unfold steering_features. destruct (l_local l p). now do 2 eexists. Qed.
Lemma features_law par l p h s : lv_dot (vec2 (ip_steer_par par)) (steering_features l p h s) = linear_steering_law par l p h s.
Proof. unfold steering_features, linear_steering_law, vec2. destruct (l_local l p) as [a b]. rewrite dot2. reflexivity. Qed.
Definition explained_samples (theta : R * R) (ss : list sample) : Prop :=
  Forall (fun s => List.length (sm_steer s) = 2%nat /\ sm_steer_out s = lv_dot (vec2 theta) (sm_steer s)) ss.
Lemma explained_data theta ss : explained_samples theta ss -> explained 2 (vec2 theta) (lateral_data ss).
Proof.
  intros F. split; [reflexivity|]. cbn [lateral_data ds_features ds_outputs]. split; [now rewrite !map_length|]. split.
  - rewrite Forall_map. eapply Forall_impl; [|exact F]. now intros a [A _].
  - intros k Hk. rewrite map_length in Hk. destruct (nth_error ss k) as [s|] eqn:E; [|apply nth_error_None in E; lia].
    assert (I : In s ss) by now apply nth_error_In in E. unfold explained_samples in F. rewrite Forall_forall in F. destruct (F s I) as [L Q].
    rewrite (nth_error_nth _ _ 0 (map_nth_error sm_steer_out _ _ E)), (nth_error_nth _ _ [] (map_nth_error sm_steer _ _ E)), Q.
    destruct (sm_steer s) as [|a [|b [|]]]; try discriminate. unfold inner, vec2. cbn. ring.
Qed.
