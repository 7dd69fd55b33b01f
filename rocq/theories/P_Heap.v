(** Proofs about object graphs: the copy is an isomorphic, disjoint graph. *)
From Verif Require Import Prelude M_Heap S_Heap.
From Coq Require Import Lia.
Local Open Scope nat_scope.

(** ** Lists *)
Lemma nth_app_l : forall {A} (l l' : list A) a, a < List.length l -> nth_error (l ++ l') a = nth_error l a.
Proof. intros. now apply nth_error_app1. Qed.
Lemma nth_lt : forall {A} (l : list A) a x, nth_error l a = Some x -> a < List.length l.
Proof. intros A l a x H. apply nth_error_Some. congruence. Qed.

Lemma split_set : forall {A} (l : list A) b x, b < List.length l ->
  List.length (firstn b l ++ x :: skipn (S b) l) = List.length l /\
  nth_error (firstn b l ++ x :: skipn (S b) l) b = Some x /\
  (forall c, c <> b -> nth_error (firstn b l ++ x :: skipn (S b) l) c = nth_error l c).
Proof.
  induction l as [|y l IH]; intros b x H; cbn [List.length] in H; [lia|].
  destruct b as [|b].
  - cbn [firstn app skipn]. split; [reflexivity|split; [reflexivity|]].
    intros [|c] Hc; [congruence|reflexivity].
  - destruct (IH b x ltac:(lia)) as (L & E & O).
    change (firstn (S b) (y :: l)) with (y :: firstn b l).
    change (skipn (S (S b)) (y :: l)) with (skipn (S b) l).
    cbn [app]. split; [cbn [List.length]; lia|split; [exact E|]].
    intros [|c] Hc; [reflexivity|]. cbn [nth_error]. apply O. lia.
Qed.

Lemma add_field_spec : forall h b name v o, nth_error h b = Some o ->
  List.length (add_field h b name v) = List.length h /\
  nth_error (add_field h b name v) b = Some (Obj (ob_kind o) (ob_class o) (ob_fields o ++ [(name, v)])) /\
  (forall c, c <> b -> nth_error (add_field h b name v) c = nth_error h c).
Proof. intros h b name v o H. unfold add_field. rewrite H. apply split_set. eapply nth_lt; eauto. Qed.

Lemma update_spec : forall h a o o', nth_error h a = Some o ->
  List.length (update h a o') = List.length h /\
  nth_error (update h a o') a = Some o' /\
  (forall c, c <> a -> nth_error (update h a o') c = nth_error h c).
Proof. intros h a o o' H. unfold update. rewrite H. apply split_set. eapply nth_lt; eauto. Qed.

(** ** The memo *)
Lemma memo_in : forall m a b, memo_get m a = Some b -> In (a, b) m.
Proof.
  induction m as [|[x y] m IH]; cbn; intros a b H; [discriminate|].
  destruct (Nat.eqb_spec a x).
  - injection H as ->. subst. now left.
  - right. now apply IH.
Qed.
Lemma memo_none : forall m a, memo_get m a = None -> ~ In a (map fst m).
Proof.
  induction m as [|[x y] m IH]; cbn; intros a H; [tauto|].
  destruct (Nat.eqb_spec a x); [discriminate|]. intros [E|E]; [congruence|]. now apply (IH a).
Qed.
Lemma in_memo : forall m a b, NoDup (map fst m) -> In (a, b) m -> memo_get m a = Some b.
Proof.
  induction m as [|[x y] m IH]; cbn; intros a b N H; [tauto|].
  inversion N as [|? ? N1 N2]; subst. destruct H as [E|H].
  - injection E as -> ->. now rewrite Nat.eqb_refl.
  - destruct (Nat.eqb_spec a x).
    + subst. destruct N1. apply in_map_iff. now exists (x, b).
    + now apply IH.
Qed.

Lemma skipped_spec : forall o name, skipped (ob_kind o) name = true <-> rendering_attribute o name.
Proof.
  intros o name. unfold skipped, rendering_attribute. destruct (ob_kind o).
  - rewrite orb_true_iff, !String.eqb_eq. tauto.
  - split; [discriminate|intros [H _]; discriminate].
  - split; [discriminate|intros [H _]; discriminate].
Qed.

(** ** Invariant of the copy *)
Record inv (h0 h : heap) (m : memo) : Prop := Inv {
  inv_old : forall a, a < List.length h0 -> nth_error h a = nth_error h0 a;
  inv_len : List.length h0 <= List.length h;
  inv_rng : forall a b, In (a, b) m -> a < List.length h0 /\ List.length h0 <= b < List.length h;
  inv_key : NoDup (map fst m);
  inv_inj : NoDup (map snd m);
  inv_sur : forall b, List.length h0 <= b < List.length h -> In b (map snd m) }.

Definition val_rel (m : memo) (v w : val) : Prop :=
  match v, w with
  | VAtom x, VAtom y => x = y
  | VRef a, VRef b => memo_get m a = Some b
  | _, _ => False
  end.
Definition field_rel (k : hkind) (m : memo) (x y : string * val) : Prop :=
  fst x = fst y /\ (if skipped k (fst x) then snd y = VAtom ANone else val_rel m (snd x) (snd y)).
Definition complete (h0 h : heap) (m : memo) (b : nat) : Prop :=
  exists a o o', memo_get m a = Some b /\ nth_error h0 a = Some o /\ ob_kind o <> OOpaque /\
    nth_error h b = Some o' /\ ob_kind o' = ob_kind o /\ ob_class o' = ob_class o /\
    Forall2 (field_rel (ob_kind o) m) (ob_fields o) (ob_fields o').
Definition extends (m m' : memo) : Prop := forall a b, memo_get m a = Some b -> memo_get m' a = Some b.
Definition from_val (h0 : heap) (v : val) (a : nat) : Prop :=
  match v with VAtom _ => False | VRef b => reaches_state h0 b a end.

Record post (h0 h : heap) (m : memo) (v : val) (h' : heap) (m' : memo) (v' : val) : Prop := Post {
  post_inv : inv h0 h' m';
  post_len : List.length h <= List.length h';
  post_frame : forall c, c < List.length h -> nth_error h' c = nth_error h c;
  post_ext : extends m m';
  post_more : List.length m <= List.length m';
  post_new : forall b, List.length h <= b < List.length h' -> complete h0 h' m' b;
  post_val : val_rel m' v v';
  post_src : forall a b, memo_get m' a = Some b -> memo_get m a = Some b \/ from_val h0 v a }.

Definition opaque_in (h0 : heap) (v : val) : Prop :=
  exists a o, from_val h0 v a /\ nth_error h0 a = Some o /\ ob_kind o = OOpaque.

Lemma val_rel_mono : forall m m' v w, extends m m' -> val_rel m v w -> val_rel m' v w.
Proof. intros m m' [x|a] [y|b] E; cbn; auto. Qed.
Lemma field_rel_mono : forall k m m' x y, extends m m' -> field_rel k m x y -> field_rel k m' x y.
Proof.
  intros k m m' x y E [H1 H2]. split; [exact H1|].
  destruct (skipped k (fst x)); [exact H2|]. eapply val_rel_mono; eauto.
Qed.
Lemma fields_mono : forall k m m' l l', extends m m' -> Forall2 (field_rel k m) l l' -> Forall2 (field_rel k m') l l'.
Proof.
  intros k m m' l l' E F. induction F; constructor; auto. eapply field_rel_mono; eauto.
Qed.
Lemma complete_mono : forall h0 h h' m m' b, extends m m' -> nth_error h' b = nth_error h b ->
  complete h0 h m b -> complete h0 h' m' b.
Proof.
  intros h0 h h' m m' b E N (a & o & o' & H1 & H2 & H3 & H4 & H5 & H6 & H7).
  exists a, o, o'. rewrite N. repeat (split; auto). eapply fields_mono; eauto.
Qed.
Lemma inv_memo_len : forall h0 h m, inv h0 h m -> List.length m <= List.length h0.
Proof.
  intros h0 h m I. rewrite <- (map_length fst m), <- (seq_length (List.length h0) 0).
  apply NoDup_incl_length; [apply (inv_key _ _ _ I)|].
  intros a Ha. apply in_map_iff in Ha as ([x y] & E & Hi). cbn in E. subst.
  apply in_seq. destruct (inv_rng _ _ _ I a y Hi). lia.
Qed.
Lemma inv_memo_room : forall h0 h m a, inv h0 h m -> a < List.length h0 -> memo_get m a = None ->
  List.length m < List.length h0.
Proof.
  intros h0 h m a I Ha N. apply memo_none in N.
  assert (L : List.length (a :: map fst m) <= List.length (seq 0 (List.length h0))).
  { apply NoDup_incl_length.
    - constructor; [exact N|apply (inv_key _ _ _ I)].
    - intros x [E|Hx]; apply in_seq.
      + subst. lia.
      + apply in_map_iff in Hx as ([x' y] & E & Hi). cbn in E. subst.
        destruct (inv_rng _ _ _ I x y Hi). lia. }
  rewrite seq_length in L. cbn in L. rewrite map_length in L. lia.
Qed.
Lemma inv_add_field : forall h0 h m b name v, List.length h0 <= b -> inv h0 h m -> inv h0 (add_field h b name v) m.
Proof.
  intros h0 h m b name v Hb I. destruct (nth_error h b) as [o|] eqn:N.
  2:{ unfold add_field. now rewrite N. }
  destruct (add_field_spec h b name v o N) as (L & E & O). constructor; rewrite ?L; try apply I.
  intros a Ha. rewrite O by lia. now apply (inv_old _ _ _ I).
Qed.

Lemma reaches_state_trans : forall h a b c, reaches_state h a b -> reaches_state h b c -> reaches_state h a c.
Proof. intros h a b c H. induction H; intros; [assumption|]. econstructor; eauto. Qed.
Lemma reaches_trans : forall h a b c, reaches h a b -> reaches h b c -> reaches h a c.
Proof. intros h a b c H. induction H; intros; [assumption|]. econstructor; eauto. Qed.

Section Deep.
  Variable h0 : heap.
  Hypothesis C : closed h0.

  Definition val_ok (v : val) : Prop := match v with VAtom _ => True | VRef a => a < List.length h0 end.
  Definition outcome h m v (r : res (heap * memo * val)) : Prop :=
    match r with
    | Ok (h', m', v') => post h0 h m v h' m' v'
    | Err e => e = TypeError /\ opaque_in h0 v
    end.
  Definition deep_ok (fuel : nat) : Prop :=
    forall h m v, inv h0 h m -> val_ok v -> List.length h0 <= fuel + List.length m ->
      outcome h m v (deep fuel h m v).

  Lemma fields_fold : forall fuel a o b, deep_ok fuel -> nth_error h0 a = Some o -> List.length h0 <= b ->
    forall suf pre pre' h m,
    ob_fields o = (pre ++ suf)%list ->
    inv h0 h m -> List.length h0 <= fuel + List.length m -> 
    nth_error h b = Some (Obj (ob_kind o) (ob_class o) pre') ->
    Forall2 (field_rel (ob_kind o) m) pre pre' ->
    match foldM (fun '(h, m) '(name, x) =>
             if skipped (ob_kind o) name then Ok (add_field h b name (VAtom ANone), m)
             else do (hm, y) <- deep fuel h m x;
                  Ok (add_field (fst hm) b name y, snd hm)) suf (h, m) with
    | Ok (h', m') =>
        inv h0 h' m' /\ List.length h <= List.length h' /\
        (forall c, c < List.length h -> c <> b -> nth_error h' c = nth_error h c) /\
        extends m m' /\ List.length m <= List.length m' /\
        (forall c, List.length h <= c < List.length h' -> complete h0 h' m' c) /\
        (exists fs', nth_error h' b = Some (Obj (ob_kind o) (ob_class o) fs') /\
                     Forall2 (field_rel (ob_kind o) m') (ob_fields o) fs') /\
        (forall x y, memo_get m' x = Some y -> memo_get m x = Some y \/ reaches_state h0 a x)
    | Err e => e = TypeError /\ opaque_in h0 (VRef a)
    end.
  Proof.
    intros fuel a o b D Ho Hb. induction suf as [|[name x] suf IH]; intros pre pre' h m E I F N R.
    - cbn [foldM]. rewrite app_nil_r in E. split; [exact I|split; [lia|split; [auto|split; [intros ? ? ?; auto|]]]].
      split; [lia|split; [intros; lia|split; [|auto]]].
      exists pre'. split; [exact N|]. now rewrite E.
    - cbn [foldM].
      assert (E2 : ob_fields o = ((pre ++ [(name, x)]) ++ suf)%list) by (rewrite E, <- app_assoc; reflexivity).
      destruct (skipped (ob_kind o) name) eqn:K.
      + cbn [bind].
        destruct (add_field_spec h b name (VAtom ANone) _ N) as (L & E1 & O). cbn [ob_kind ob_class ob_fields] in E1.
        specialize (IH (pre ++ [(name, x)])%list (pre' ++ [(name, VAtom ANone)])%list
                       (add_field h b name (VAtom ANone)) m E2).
        assert (R2 : Forall2 (field_rel (ob_kind o) m) (pre ++ [(name, x)]) (pre' ++ [(name, VAtom ANone)])).
        { apply Forall2_app; [exact R|]. constructor; [|constructor]. split; [reflexivity|]. cbn [fst snd]. now rewrite K. }
        specialize (IH (inv_add_field _ _ _ _ _ _ Hb I) F E1 R2).
        destruct (foldM _ suf (add_field h b name (VAtom ANone), m)) as [[h' m']|e]; [|exact IH].
        rewrite L in IH. destruct IH as (A1 & A2 & A3 & A4 & A5 & A6 & A7 & A8).
        split; [exact A1|split; [exact A2|split; [|split; [exact A4|split; [exact A5|split; [exact A6|split; assumption]]]]]].
        intros c Hc Hn. rewrite A3 by assumption. now apply O.
      + assert (V : val_ok x).
        { destruct x as [y|y]; cbn; [exact Logic.I|]. apply (C a o name y Ho). rewrite E. apply in_or_app. right. now left. }
        assert (W : forall z, from_val h0 x z -> reaches_state h0 a z).
        { intros z Hz. destruct x as [y|y]; cbn in Hz; [tauto|].
          apply (state_by h0 a o name y z); [exact Ho| |intro Q; apply skipped_spec in Q; congruence|exact Hz].
          rewrite E. apply in_or_app. right. now left. }
        specialize (D h m x I V F). destruct (deep fuel h m x) as [[[h1 m1] y]|e]; cbn [outcome] in D.
        2:{ cbn [bind]. destruct D as [-> (z & oz & Z1 & Z2 & Z3)]. split; [reflexivity|].
            exists z, oz. split; [cbn; now apply W|auto]. }
        cbn [bind fst snd].
        destruct D as [D1 D2 D3 D4 D5 D6 D7 D8].
        assert (Lb : b < List.length h) by (eapply nth_lt; eauto).
        assert (N1 : nth_error h1 b = Some (Obj (ob_kind o) (ob_class o) pre')) by (rewrite D3; auto).
        destruct (add_field_spec h1 b name y _ N1) as (L & E1 & O). cbn [ob_kind ob_class ob_fields] in E1.
        specialize (IH (pre ++ [(name, x)])%list (pre' ++ [(name, y)])%list (add_field h1 b name y) m1 E2).
        assert (R2 : Forall2 (field_rel (ob_kind o) m1) (pre ++ [(name, x)]) (pre' ++ [(name, y)])).
        { apply Forall2_app; [eapply fields_mono; eauto|].
          constructor; [|constructor]. split; [reflexivity|]. cbn [fst snd]. now rewrite K. }
        specialize (IH (inv_add_field _ _ _ _ _ _ Hb D1) ltac:(lia) E1 R2).
        destruct (foldM _ suf (add_field h1 b name y, m1)) as [[h' m']|e]; [|exact IH].
        rewrite L in IH. destruct IH as (A1 & A2 & A3 & A4 & A5 & A6 & A7 & A8).
        split; [exact A1|split; [lia|split; [|split; [|split; [lia|split; [|split; [exact A7|]]]]]]].
        * intros c Hc Hn. rewrite A3 by (auto; lia). rewrite O by assumption. now apply D3.
        * intros p q Hpq. auto.
        * intros c Hc. destruct (Nat.lt_ge_cases c (List.length h1)) as [Hl|Hl]; [|apply A6; lia].
          assert (Hcb : c <> b) by lia.
          apply (complete_mono h0 h1 h' m1 m' c A4); [|apply D6; lia].
          rewrite A3 by assumption. now apply O.
        * intros p q Hpq. destruct (A8 p q Hpq) as [Q|Q]; [|now right].
          destruct (D8 p q Q) as [Q'|Q']; [now left|right; now apply W].
  Qed.

  Lemma inv_start : forall h m a o, inv h0 h m -> memo_get m a = None -> a < List.length h0 ->
    inv h0 (h ++ [o])%list ((a, List.length h) :: m).
  Proof.
    intros h m a o I N Ha. pose proof (inv_len _ _ _ I) as L.
    constructor.
    - intros c Hc. rewrite nth_app_l by lia. now apply (inv_old _ _ _ I).
    - rewrite app_length. lia.
    - rewrite app_length. cbn [List.length]. intros x y [E|H].
      + injection E as <- <-. lia.
      + destruct (inv_rng _ _ _ I x y H). lia.
    - cbn [map fst]. constructor; [now apply memo_none|apply (inv_key _ _ _ I)].
    - cbn [map snd]. constructor; [|apply (inv_inj _ _ _ I)].
      intro H. apply in_map_iff in H as ([x y] & E & H). cbn in E. subst.
      destruct (inv_rng _ _ _ I x _ H). lia.
    - rewrite app_length. cbn [List.length map snd]. intros b Hb.
      destruct (Nat.eq_dec b (List.length h)); [now left|right; apply (inv_sur _ _ _ I); lia].
  Qed.

  Lemma deep_correct : forall fuel, deep_ok fuel.
  Proof.
    induction fuel as [|fuel IH]; intros h m v I V F.
    - destruct v as [x|a]; cbn [deep].
      + constructor; auto; try (intros; lia). * intros ? ? ?; auto. * reflexivity.
      + cbn in V. destruct (memo_get m a) as [b|] eqn:G.
        * constructor; auto; try (intros; lia). intros ? ? ?; auto.
        * pose proof (inv_memo_room _ _ _ _ I V G). lia.
    - destruct v as [x|a]; cbn [deep].
      + constructor; auto; try (intros; lia). * intros ? ? ?; auto. * reflexivity.
      + cbn in V. destruct (memo_get m a) as [b|] eqn:G.
        * constructor; auto; try (intros; lia). intros ? ? ?; auto.
        * pose proof (inv_memo_room _ _ _ _ I V G) as Room.
          assert (Old : nth_error h a = nth_error h0 a) by now apply (inv_old _ _ _ I).
          rewrite Old. destruct (nth_error h0 a) as [o|] eqn:Ho.
          2:{ apply nth_error_None in Ho. lia. }
          pose proof (inv_len _ _ _ I) as L0.
          assert (B : ob_kind o <> OOpaque ->
             outcome h m (VRef a)
               (do (h1, m1) <- foldM (fun '(h', m') '(name, x) =>
                   if skipped (ob_kind o) name then Ok (add_field h' (List.length h) name (VAtom ANone), m')
                   else do (hm, y) <- deep fuel h' m' x;
                        Ok (add_field (fst hm) (List.length h) name y, snd hm))
                   (ob_fields o) (h ++ [Obj (ob_kind o) (ob_class o) []], (a, List.length h) :: m)%list;
                Ok (h1, m1, VRef (List.length h)))).
          { intros Kn.
            pose proof (fields_fold fuel a o (List.length h) IH Ho L0 (ob_fields o) [] []
               (h ++ [Obj (ob_kind o) (ob_class o) []])%list ((a, List.length h) :: m) eq_refl
               (inv_start _ _ _ _ I G V)) as Q.
            cbn [List.length] in Q. specialize (Q ltac:(lia)).
            rewrite nth_error_app2, Nat.sub_diag in Q by lia. specialize (Q eq_refl (Forall2_nil _)).
            destruct (foldM _ (ob_fields o) _) as [[h1 m1]|e]; cbn [bind outcome]; [|exact Q].
            destruct Q as (A1 & A2 & A3 & A4 & A5 & A6 & A7 & A8).
            rewrite app_length in A2, A3, A6. cbn [List.length] in A2, A3, A6.
            assert (Ga : memo_get m1 a = Some (List.length h)) by (apply A4; cbn; now rewrite Nat.eqb_refl).
            constructor; [exact A1|lia| | |lia| |exact Ga|].
            - intros c Hc. rewrite A3 by lia. apply nth_app_l. exact Hc.
            - intros p q Hpq. apply A4. cbn. destruct (Nat.eqb_spec p a); [congruence|exact Hpq].
            - intros c Hc. destruct (Nat.eq_dec c (List.length h)) as [->|Hn]; [|apply A6; lia].
              destruct A7 as (fs' & X1 & X2).
              exists a, o, (Obj (ob_kind o) (ob_class o) fs'). repeat (split; auto).
            - intros p q Hpq. destruct (A8 p q Hpq) as [Q|Q].
              + cbn in Q. destruct (Nat.eqb_spec p a) as [->|]; [|now left].
                right. apply state_here.
              + right. exact Q. }
          destruct (ob_kind o) eqn:K.
          -- apply B. discriminate.
          -- apply B. discriminate.
          -- cbn [outcome]. split; [reflexivity|]. exists a, o. split; [apply state_here|auto].
  Qed.

  Lemma inv_init : inv h0 h0 [].
  Proof. constructor; cbn; auto; try constructor; intros; try tauto; lia. Qed.

  Lemma deepcopy_outcome : forall v, val_ok v ->
    match deepcopy h0 v with
    | Ok (h', v') => exists m', post h0 h0 [] v h' m' v'
    | Err e => e = TypeError /\ opaque_in h0 v
    end.
  Proof.
    intros v V. unfold deepcopy.
    pose proof (deep_correct (List.length h0) h0 [] v inv_init V ltac:(lia)) as D.
    destruct (deep _ h0 [] v) as [[[h' m'] v']|e]; cbn [bind fst outcome] in *; [now exists m'|exact D].
  Qed.

  (** The memo of a finished copy, as a function. *)
  Definition memo_fun (m : memo) (a : nat) : nat := match memo_get m a with Some b => b | None => 0 end.

  Lemma new_fields : forall h' m' b a, inv h0 h' m' ->
    (forall c, List.length h0 <= c < List.length h' -> complete h0 h' m' c) ->
    memo_get m' a = Some b ->
    exists o o', nth_error h0 a = Some o /\ ob_kind o <> OOpaque /\ nth_error h' b = Some o' /\
      ob_kind o' = ob_kind o /\ ob_class o' = ob_class o /\
      Forall2 (field_rel (ob_kind o) m') (ob_fields o) (ob_fields o').
  Proof.
    intros h' m' b a I A G. pose proof (memo_in _ _ _ G) as Gi.
    destruct (inv_rng _ _ _ I a b Gi) as [_ R].
    destruct (A b R) as (a2 & o & o' & H1 & H2 & H3 & H4 & H5 & H6 & H7).
    assert (a2 = a).
    { pose proof (memo_in _ _ _ H1) as Gi2.
      clear - Gi Gi2 I. pose proof (inv_inj _ _ _ I) as N. revert Gi Gi2 N. clear.
      induction m' as [|[x y] m' IH]; cbn; [tauto|]. intros G1 G2 N. inversion N as [|? ? N1 N2]; subst.
      destruct G1 as [E1|G1], G2 as [E2|G2].
      - congruence.
      - injection E1 as -> ->. destruct N1. apply in_map_iff. now exists (a2, b).
      - injection E2 as -> ->. destruct N1. apply in_map_iff. now exists (a, b).
      - now apply IH. }
    subst. exists o, o'. auto 10.
  Qed.

  Lemma memo_covers : forall h' m' r b0, inv h0 h' m' ->
    (forall c, List.length h0 <= c < List.length h' -> complete h0 h' m' c) ->
    memo_get m' r = Some b0 ->
    forall a, reaches_state h0 r a -> exists b, memo_get m' a = Some b.
  Proof.
    intros h' m' r b0 I A G a H. revert b0 G. induction H as [a|a o name b c Ho Hin Hr _ IH]; intros b0 G.
    - now exists b0.
    - destruct (new_fields h' m' b0 a I A G) as (o2 & o' & E1 & _ & _ & _ & _ & F).
      rewrite Ho in E1. injection E1 as <-.
      apply In_nth_error in Hin as [i Hi].
      assert (exists y, field_rel (ob_kind o) m' (name, VRef b) y) as [y [_ Fy]].
      { clear - F Hi. revert i Hi. induction F; intros [|i] Hi; cbn in Hi; try discriminate.
        - injection Hi as ->. now exists y.
        - eauto. }
      cbn [fst snd] in Fy. destruct (skipped (ob_kind o) name) eqn:K.
      + destruct Hr. now apply skipped_spec.
      + cbn in Fy. destruct (snd y) as [|q]; [tauto|]. now apply (IH q).
  Qed.

  Lemma copy_holds : forall r h' v', r < List.length h0 -> deepcopy h0 (VRef r) = Ok (h', v') ->
    exists f, v' = VRef (f r) /\ holds_copy h0 r f h'.
  Proof.
    intros r h' v' Hr E. pose proof (deepcopy_outcome (VRef r) Hr) as D. rewrite E in D.
    destruct D as [m' [I L Fr _ _ A V Src]]. cbn in V. destruct v' as [|b0]; [tauto|].
    assert (Cov := memo_covers h' m' r b0 I A V).
    exists (memo_fun m'). split; [unfold memo_fun; now rewrite V|].
    split; [|split; [|split; [|split]]].
    - intros a o Ha. rewrite Fr; [exact Ha|]. eapply nth_lt; eauto.
    - intros a Ha. destruct (Cov a Ha) as [b G]. unfold memo_fun. rewrite G.
      apply memo_in in G. now destruct (inv_rng _ _ _ I a b G).
    - intros a1 a2 H1 H2 E12. destruct (Cov a1 H1) as [b1 G1], (Cov a2 H2) as [b2 G2].
      unfold memo_fun in E12. rewrite G1, G2 in E12. subst.
      destruct (new_fields h' m' b2 a1 I A G1) as (o1 & o1' & X1 & _).
      apply memo_in in G1, G2. clear - G1 G2 I. pose proof (inv_inj _ _ _ I) as N. revert G1 G2 N. clear.
      induction m' as [|[x y] m' IH]; cbn; [tauto|]. intros G1 G2 N. inversion N as [|? ? N1 N2]; subst.
      destruct G1 as [E1|G1], G2 as [E2|G2].
      + congruence.
      + injection E1 as -> ->. destruct N1. apply in_map_iff. now exists (a2, b2).
      + injection E2 as -> ->. destruct N1. apply in_map_iff. now exists (a1, b2).
      + now apply IH.
    - intros a o Ha Ho. destruct (Cov a Ha) as [b G].
      destruct (new_fields h' m' b a I A G) as (o2 & o' & E1 & _ & N & K1 & K2 & F).
      rewrite Ho in E1. injection E1 as <-.
      exists o'. split; [unfold memo_fun; now rewrite G|]. split; [exact K1|split; [exact K2|]].
      clear - F. revert F. generalize (ob_fields o) as l, (ob_fields o') as l'. intros l l' F.
      induction F as [|x y l l' [X1 X2] _ IH]; constructor; [|exact IH].
      split; [exact X1|split].
      + intros Q. apply skipped_spec in Q. now rewrite Q in X2.
      + intros Q. destruct (skipped (ob_kind o) (fst x)) eqn:K; [destruct Q; now apply skipped_spec|].
        destruct (snd x) as [|p], (snd y) as [|q]; cbn in *; try tauto.
        unfold memo_fun. now rewrite X2.
    - intros b Hb. pose proof (inv_sur _ _ _ I b Hb) as S0.
      apply in_map_iff in S0 as ([a b'] & E1 & S0). cbn in E1. subst.
      pose proof (in_memo _ _ _ (inv_key _ _ _ I) S0) as G. exists a. split.
      + destruct (Src a b G) as [Q|Q]; [discriminate Q|exact Q].
      + unfold memo_fun. now rewrite G.
  Qed.

  Lemma copy_opaque : forall r a o, r < List.length h0 -> reaches_state h0 r a -> nth_error h0 a = Some o ->
    ob_kind o = OOpaque -> deepcopy h0 (VRef r) = Err TypeError.
  Proof.
    intros r a o Hr Ha Ho K. pose proof (deepcopy_outcome (VRef r) Hr) as D.
    destruct (deepcopy h0 (VRef r)) as [[h' v']|e]; [exfalso|now destruct D as [-> _]].
    destruct D as [m' [I L Fr _ _ A V Src]]. cbn in V. destruct v' as [|b0]; [tauto|].
    destruct (memo_covers h' m' r b0 I A V a Ha) as [b G].
    destruct (new_fields h' m' b a I A G) as (o2 & o' & E1 & K1 & _). congruence.
  Qed.
End Deep.

(** ** Ownership: two programs that share nothing *)
Definition mine (h : heap) (own : nat -> bool) (s : bool) (v : val) : Prop :=
  match v with VAtom _ => True | VRef a => a < List.length h /\ own a = s end.
Definition owned (h : heap) (own : nat -> bool) : Prop :=
  forall a o name v, nth_error h a = Some o -> In (name, v) (ob_fields o) -> mine h own (own a) v.

Lemma owned_closed : forall h own, owned h own -> closed h.
Proof. intros h own O a o name b Ha Hin. destruct (O a o name (VRef b) Ha Hin). assumption. Qed.

Lemma reaches_state_in : forall h r a, closed h -> r < List.length h -> reaches_state h r a -> a < List.length h.
Proof. intros h r a C L H. induction H; [assumption|]. apply IHreaches_state. eapply C; eauto. Qed.

Lemma copied_fields : forall h r f h', closed h -> r < List.length h -> holds_copy h r f h' ->
  forall b o' name c, List.length h <= b -> nth_error h' b = Some o' ->
    In (name, VRef c) (ob_fields o') -> List.length h <= c < List.length h'.
Proof.
  intros h r f h' C Lr (P1 & P2 & _ & P4 & P5) b o' name c Hb0 Ho' Hin.
  assert (Hb : List.length h <= b < List.length h') by (split; [exact Hb0|eapply nth_lt; eauto]).
  destruct (P5 b Hb) as (a & Ha & ->).
  destruct (nth_error h a) as [o|] eqn:Ho.
  2:{ apply nth_error_None in Ho. pose proof (reaches_state_in h r a C Lr Ha). lia. }
  destruct (P4 a o Ha Ho) as (o2 & E & _ & _ & F). rewrite Ho' in E. injection E as <-.
  apply In_nth_error in Hin as [i Hi].
  assert (exists x, nth_error (ob_fields o) i = Some x /\ same_attribute f o x (name, VRef c)) as (x & Hx & S1 & S2 & S3).
  { clear - F Hi. revert i Hi. induction F; intros [|i] Hi; cbn in Hi; try discriminate.
    - injection Hi as ->. now exists x.
    - cbn. eauto. }
  cbn [fst snd] in *. destruct x as [n v]. cbn [fst snd] in *. subst n.
  destruct (skipped (ob_kind o) name) eqn:K.
  - apply skipped_spec in K. specialize (S2 K). discriminate.
  - assert (Nr : ~ rendering_attribute o name) by (rewrite <- skipped_spec; congruence).
    specialize (S3 Nr). destruct v as [|a2]; cbn in S3; [tauto|]. subst c.
    apply P2. apply (reaches_state_trans h r a a2 Ha).
    apply (state_by h a o name a2 a2 Ho); [eapply nth_error_In; eauto|exact Nr|apply state_here].
Qed.

Definition same_owner (h : heap) (own own' : nat -> bool) : Prop := forall a, a < List.length h -> own' a = own a.
Definition extended (h : heap) (own : nat -> bool) (s : bool) : nat -> bool :=
  fun a => if a <? List.length h then own a else s.
Lemma extended_same : forall h own s, same_owner h own (extended h own s).
Proof. intros h own s a L. unfold extended. now rewrite (proj2 (Nat.ltb_lt _ _) L). Qed.
Lemma extended_new : forall h own s a, List.length h <= a -> extended h own s a = s.
Proof. intros h own s a L. unfold extended. now rewrite (proj2 (Nat.ltb_ge _ _) L). Qed.

Lemma mine_grow : forall h h' own own' s v, List.length h <= List.length h' -> same_owner h own own' ->
  mine h own s v -> mine h' own' s v.
Proof. intros h h' own own' s [|a] L S0; cbn; [auto|]. intros [H1 H2]. split; [lia|]. now rewrite S0. Qed.

Lemma owned_copy : forall h own s r f h', owned h own -> r < List.length h -> holds_copy h r f h' ->
  List.length h <= List.length h' -> owned h' (extended h own s).
Proof.
  intros h own s r f h' O Lr Hc L a o name v Ha Hin.
  pose proof (owned_closed _ _ O) as C.
  destruct (Nat.lt_ge_cases a (List.length h)) as [La|La].
  - destruct (nth_error h a) as [o2|] eqn:Ho; [|apply nth_error_None in Ho; lia].
    pose proof Hc as Hcc. destruct Hcc as (P1 & _). pose proof (P1 a o2 Ho) as E. rewrite Ha in E. injection E as <-.
    apply (mine_grow h h' own); [exact L|apply extended_same|].
    rewrite extended_same by exact La. eapply O; eauto.
  - rewrite (extended_new h own s a La). destruct v as [|c]; cbn; [exact Logic.I|].
    destruct (copied_fields h r f h' C Lr Hc a o name c La Ha Hin) as [L1 L2].
    split; [exact L2|]. now apply extended_new.
Qed.

Lemma holds_length : forall h r f h', holds_copy h r f h' -> List.length h <= List.length h'.
Proof.
  intros h r f h' (P1 & _). destruct (Nat.le_gt_cases (List.length h) (List.length h')) as [L|L]; [exact L|].
  destruct (nth_error h (List.length h')) as [o|] eqn:E; [|apply nth_error_None in E; lia].
  apply P1 in E. apply nth_lt in E. lia.
Qed.

Definition regs_mine (h : heap) (own : nat -> bool) (s : bool) (r : regs) : Prop := forall x, mine h own s (r x).
Lemma assign_mine : forall h own s r x v, regs_mine h own s r -> mine h own s v -> regs_mine h own s (assign r x v).
Proof. intros h own s r x v R V y. unfold assign. destruct (x =? y); auto. Qed.
Lemma regs_grow : forall h h' own own' s r, List.length h <= List.length h' -> same_owner h own own' ->
  regs_mine h own s r -> regs_mine h' own' s r.
Proof. intros h h' own own' s r L S0 R x. eapply mine_grow; eauto. Qed.

Lemma in_assoc : forall {A} k (d : list (string * A)) v, assoc k d = Some v -> exists k', In (k', v) d.
Proof.
  induction d as [|[k2 v2] d IH]; cbn; intros v H; [discriminate|].
  destruct (String.eqb k k2); [injection H as ->; eauto|]. destruct (IH v H) as [k' ?]. eauto.
Qed.
Lemma in_assoc_set : forall {A} k (w : A) d k' v, In (k', v) (assoc_set k w d) -> v = w \/ exists k2, In (k2, v) d.
Proof.
  induction d as [|[k2 v2] d IH]; cbn; intros k' v H.
  - destruct H as [H|[]]. injection H as _ ->. now left.
  - destruct (String.eqb k k2); cbn in H; destruct H as [H|H].
    + injection H as _ ->. now left.
    + right. eauto.
    + injection H as _ ->. right. eauto.
    + destruct (IH k' v H) as [E|[k3 E]]; [now left|right; eauto].
Qed.

Lemma update_owned : forall h own a o o', owned h own -> nth_error h a = Some o ->
  (forall name v, In (name, v) (ob_fields o') -> mine h own (own a) v) ->
  owned (update h a o') own /\ List.length (update h a o') = List.length h /\
  (forall c, c <> a -> nth_error (update h a o') c = nth_error h c).
Proof.
  intros h own a o o' O Ha F. destruct (update_spec h a o o' Ha) as (L & E & Q).
  split; [|split; assumption].
  intros c oc name v Hc Hin.
  assert (M : mine h own (own c) v).
  { destruct (Nat.eq_dec c a) as [->|N].
    - rewrite E in Hc. injection Hc as <-. eapply F; eauto.
    - rewrite Q in Hc by exact N. eapply O; eauto. }
  apply (mine_grow h _ own own); [lia|intros ? ?; reflexivity|exact M].
Qed.

Lemma do_act_owned : forall h own s r c, owned h own -> regs_mine h own s r ->
  let '(h', r') := do_act h r c in
  exists own', same_owner h own own' /\ owned h' own' /\ regs_mine h' own' s r' /\
    List.length h <= List.length h' /\
    (forall a, a < List.length h -> own a = negb s -> nth_error h' a = nth_error h a) /\
    (forall a, List.length h <= a < List.length h' -> own' a = s).
Proof.
  intros h own s r c O R.
  assert (Same : forall r', regs_mine h own s r' -> exists own', same_owner h own own' /\ owned h own' /\ regs_mine h own' s r' /\
    List.length h <= List.length h /\
    (forall a, a < List.length h -> own a = negb s -> nth_error h a = nth_error h a) /\
    (forall a, List.length h <= a < List.length h -> own' a = s)).
  { intros r' R'. exists own. split; [intros ? ?; reflexivity|]. split; [exact O|split; [exact R'|split; [lia|split; [auto|intros; lia]]]]. }
  destruct c; cbn [do_act].
  - apply Same. apply assign_mine; [exact R|exact Logic.I].
  - apply Same. apply assign_mine; auto.
  - destruct (r y) as [|a] eqn:Ey; [now apply Same|].
    destruct (nth_error h a) as [o|] eqn:Ea; [|now apply Same].
    destruct (assoc name (ob_fields o)) as [v|] eqn:Ev; [|now apply Same].
    apply Same. apply assign_mine; [exact R|]. destruct (in_assoc _ _ _ Ev) as [k Hk].
    pose proof (R y) as Ry. rewrite Ey in Ry. destruct Ry as [_ Ry]. rewrite <- Ry. eapply O; eauto.
  - destruct (r x) as [|a] eqn:Ex; [now apply Same|].
    destruct (nth_error h a) as [o|] eqn:Ea; [|now apply Same].
    pose proof (R x) as Rx. rewrite Ex in Rx. destruct Rx as [_ Rx].
    destruct (update_owned h own a o (Obj (ob_kind o) (ob_class o) (assoc_set name (r y) (ob_fields o))) O Ea) as (U1 & U2 & U3).
    { cbn [ob_fields]. intros n v Hin. destruct (in_assoc_set _ _ _ _ _ Hin) as [->|[k Hk]].
      - rewrite Rx. apply R.
      - eapply O; eauto. }
    exists own. split; [intros ? ?; reflexivity|]. split; [exact U1|].
    split; [apply (regs_grow h _ own own); [lia|intros ? ?; reflexivity|exact R]|].
    split; [lia|split; [|intros; lia]].
    intros c Lc Oc. apply U3. intros ->. rewrite Rx in Oc. destruct s; discriminate.
  - destruct (r x) as [|a] eqn:Ex; [now apply Same|].
    destruct (nth_error h a) as [o|] eqn:Ea; [|now apply Same].
    pose proof (R x) as Rx. rewrite Ex in Rx. destruct Rx as [_ Rx].
    destruct (update_owned h own a o (Obj (ob_kind o) (ob_class o) (filter (fun f => negb (String.eqb name (fst f))) (ob_fields o))) O Ea) as (U1 & U2 & U3).
    { cbn [ob_fields]. intros n v Hin. apply filter_In in Hin as [Hin _]. eapply O; eauto. }
    exists own. split; [intros ? ?; reflexivity|]. split; [exact U1|].
    split; [apply (regs_grow h _ own own); [lia|intros ? ?; reflexivity|exact R]|].
    split; [lia|split; [|intros; lia]].
    intros c Lc Oc. apply U3. intros ->. rewrite Rx in Oc. destruct s; discriminate.
  - assert (L : List.length h <= List.length (h ++ [Obj k class []])) by (rewrite app_length; lia).
    exists (extended h own s). split; [apply extended_same|]. split; [|split; [|split; [exact L|split]]].
    + intros a o name v Ha Hin. destruct (Nat.lt_ge_cases a (List.length h)) as [La|La].
      * rewrite nth_app_l in Ha by exact La. rewrite extended_same by exact La.
        apply (mine_grow h _ own); [exact L|apply extended_same|]. eapply O; eauto.
      * rewrite nth_error_app2 in Ha by exact La.
        destruct (a - List.length h) as [|n] eqn:En; cbn in Ha; [|destruct n; discriminate].
        injection Ha as <-. destruct Hin.
    + apply assign_mine.
      * apply (regs_grow h _ own); [exact L|apply extended_same|exact R].
      * cbn. split; [rewrite app_length; cbn; lia|now apply extended_new].
    + intros a La _. now apply nth_app_l.
    + intros a [La _]. now apply extended_new.
  - destruct (r y) as [q|a] eqn:Ey.
    + assert (E : deepcopy h (VAtom q) = Ok (h, VAtom q)) by (unfold deepcopy; destruct (List.length h); reflexivity).
      rewrite E. apply Same. apply assign_mine; [exact R|exact Logic.I].
    + destruct (deepcopy h (VRef a)) as [[h' v]|e] eqn:Ed; [|now apply Same].
      pose proof (R y) as Ry. rewrite Ey in Ry. destruct Ry as [La Ry].
      destruct (copy_holds h (owned_closed _ _ O) a h' v La Ed) as (f & -> & Hc).
      pose proof (holds_length _ _ _ _ Hc) as L.
      exists (extended h own s). split; [apply extended_same|].
      split; [eapply owned_copy; eauto|]. split; [|split; [exact L|split]].
      * apply assign_mine; [apply (regs_grow h _ own); [exact L|apply extended_same|exact R]|].
        destruct Hc as (_ & P2 & _). destruct (P2 a (state_here h a)) as [L1 L2]. cbn. split; [exact L2|]. now apply extended_new.
      * intros c Lc _. destruct Hc as (P1 & _).
        destruct (nth_error h c) as [oc|] eqn:Ec; [now apply P1|]. apply nth_error_None in Ec. lia.
      * intros c [Lc _]. now apply extended_new.
Qed.

Lemma interleave_owned : forall cs h own r1 r2, owned h own -> regs_mine h own true r1 -> regs_mine h own false r2 ->
  let '(h', (r1', r2')) := interleave h r1 r2 cs in
  exists own', same_owner h own own' /\ List.length h <= List.length h' /\
    owned h' own' /\ regs_mine h' own' true r1' /\ regs_mine h' own' false r2'.
Proof.
  induction cs as [|[[] c] cs IH]; intros h own r1 r2 O R1 R2; cbn [interleave].
  - exists own. split; [intros ? ?; reflexivity|split; [lia|auto]].
  - pose proof (do_act_owned h own true r1 c O R1) as A. destruct (do_act h r1 c) as [h1 r1'].
    destruct A as (own1 & S1 & O1 & M1 & L1 & F1 & _).
    specialize (IH h1 own1 r1' r2 O1 M1 (regs_grow _ _ _ _ _ _ L1 S1 R2)).
    destruct (interleave h1 r1' r2 cs) as [h' [r1f r2f]]. destruct IH as (own' & S2 & L2 & Q).
    exists own'. split; [|split; [lia|exact Q]]. intros a La. rewrite S2 by lia. now apply S1.
  - pose proof (do_act_owned h own false r2 c O R2) as A. destruct (do_act h r2 c) as [h1 r2'].
    destruct A as (own1 & S1 & O1 & M1 & L1 & F1 & _).
    specialize (IH h1 own1 r1 r2' O1 (regs_grow _ _ _ _ _ _ L1 S1 R1) M1).
    destruct (interleave h1 r1 r2' cs) as [h' [r1f r2f]]. destruct IH as (own' & S2 & L2 & Q).
    exists own'. split; [|split; [lia|exact Q]]. intros a La. rewrite S2 by lia. now apply S1.
Qed.

Lemma reach_owned : forall h own s b a, owned h own -> b < List.length h -> own b = s -> reaches h b a ->
  a < List.length h /\ own a = s.
Proof.
  intros h own s b a O L Es H. induction H as [a|a o name b c Ho Hin _ IH]; [auto|].
  destruct (O a o name (VRef b) Ho Hin) as [M1 M2]. apply IH; congruence.
Qed.
Lemma within_owned : forall h own s r a, owned h own -> regs_mine h own s r -> within_reach h r a ->
  a < List.length h /\ own a = s.
Proof.
  intros h own s r a O R (x & b & E & H). pose proof (R x) as M. rewrite E in M. destruct M as [M1 M2].
  eapply reach_owned; eauto.
Qed.

(** After a copy: the old objects on one side, the new ones on the other. *)
Lemma copy_owned : forall h r h' v, closed h -> r < List.length h -> deepcopy h (VRef r) = Ok (h', v) ->
  owned h' (extended h (fun _ => true) false) /\ mine h' (extended h (fun _ => true) false) false v /\
  List.length h <= List.length h'.
Proof.
  intros h r h' v C L E. destruct (copy_holds h C r h' v L E) as (f & -> & Hc).
  pose proof (holds_length _ _ _ _ Hc) as Lh.
  assert (O : owned h (fun _ => true)).
  { intros a o name [|b] Ha Hin; cbn; [exact Logic.I|]. split; [|reflexivity]. eapply C; eauto. }
  split; [eapply owned_copy; eauto|]. split; [|exact Lh].
  destruct Hc as (_ & P2 & _). destruct (P2 r (state_here h r)) as [L1 L2]. cbn. split; [exact L2|]. now apply extended_new.
Qed.
