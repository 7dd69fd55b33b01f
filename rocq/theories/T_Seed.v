(** C117: seeds. *)
From Coq Require Import Lia.
From Verif Require Import Prelude M_Seed S_Seed.

(** ** Generators are never shared between environments *)
Definition separate (w : world) : Prop :=
  (forall k t, wo_seat w k = Some t -> (se_env t < wo_next w)%nat /\ (se_road t < wo_next w)%nat) /\
  (forall k k' t t' a b, k <> k' -> wo_seat w k = Some t -> wo_seat w k' = Some t' -> address t a <> address t' b).
Definition target (h : happening) : nat := match h with Make k _ | Seed k _ | Reset k | Draw k _ | Copy _ k => k end.
Lemma set_at_same {A} (f : nat -> A) i x : set_at f i x i = x. Proof. unfold set_at. now rewrite Nat.eqb_refl. Qed.
Lemma set_at_other {A} (f : nat -> A) i j x : j <> i -> set_at f i x j = f j.
Proof. intros H. unfold set_at. now rewrite (proj2 (Nat.eqb_neq j i) H). Qed.
Lemma address_lt w k t a : separate w -> wo_seat w k = Some t -> (address t a < wo_next w)%nat.
Proof. intros [S _] E. destruct (S k t E). now destruct a. Qed.
(** The addresses of a copy are new, and hold what was copied. *)
Lemma copy_cases w k k' t : wo_seat w k = Some t -> (se_env t < wo_next w)%nat -> (se_road t < wo_next w)%nat ->
  exists o r, let w' := copy_env w k k' in wo_seat w' = set_at (wo_seat w) k' (Some (Seat o r)) /\ (wo_next w <= o < wo_next w')%nat /\ (wo_next w <= r < wo_next w')%nat /\
    (forall a, (a < wo_next w)%nat -> wo_cell w' a = wo_cell w a) /\ wo_cell w' o = wo_cell w (se_env t) /\ wo_cell w' r = wo_cell w (se_road t) /\ (o = r <-> se_env t = se_road t).
Proof.
  intros E Lo Lr. unfold copy_env. rewrite E. cbn [copy_ref find]. unfold copy_ref. cbn [find fst snd].
  destruct (Nat.eqb_spec (se_env t) (se_road t)) as [Q|Q]; cbv beta iota zeta; cbn [find fst snd alloc set_seat wo_cell wo_next wo_seat].
  - exists (wo_next w), (wo_next w). split; [reflexivity|]. split; [lia|]. split; [lia|]. split; [intros a Ha; apply set_at_other; lia|]. rewrite set_at_same, Q. now repeat split.
  - exists (wo_next w), (S (wo_next w)). split; [reflexivity|]. split; [lia|]. split; [lia|]. split; [intros a Ha; now rewrite !set_at_other by lia|].
    rewrite set_at_same, (set_at_other _ _ (wo_next w)), set_at_same, (set_at_other _ _ (se_road t)) by lia. split; [reflexivity|]. split; [reflexivity|]. split; [lia | intros; now elim Q].
Qed.
(** What an environment holds is not changed by what happens to another one. *)
Lemma others_untouched stream w h k t : separate w -> target h <> k -> wo_seat w k = Some t ->
  let w' := fst (happens stream w h) in wo_seat w' k = Some t /\ forall a, wo_cell w' (address t a) = wo_cell w (address t a).
Proof.
  intros S N E. pose proof (fun a => address_lt w k t a S E) as L. destruct h as [j e|j s|j|j who|j j']; cbn [target] in N; cbn [happens fst].
  - unfold make_env. cbn [set_seat alloc wo_seat wo_cell]. split; [rewrite set_at_other by congruence; exact E|]. intros a. apply set_at_other. specialize (L a). lia.
  - unfold seed_env. destruct (wo_seat w j) as [u|]; [|now split]. cbn [set_seat alloc wo_seat wo_cell]. split; [rewrite set_at_other by congruence; exact E|]. intros a. apply set_at_other. specialize (L a). lia.
  - unfold reset_env. destruct (wo_seat w j) as [u|]; [|now split]. cbn [set_seat wo_seat wo_cell]. split; [rewrite set_at_other by congruence; exact E|]. reflexivity.
  - destruct (wo_seat w j) as [u|] eqn:Eu; [|now split]. destruct (wo_cell w (address u who)) as [s n]. cbn [fst wo_seat wo_cell]. split; [exact E|]. intros a. apply set_at_other.
    destruct S as [_ S]. exact (S k j t u a who (not_eq_sym N) E Eu).
  - destruct (wo_seat w j) as [u|] eqn:Eu; [|unfold copy_env; rewrite Eu; now split]. destruct (proj1 S j u Eu) as [L1 L2].
    destruct (copy_cases w j j' u Eu L1 L2) as (o & r & Es & _ & _ & Ec & _). cbv zeta in Es, Ec. rewrite Es. split; [rewrite set_at_other by congruence; exact E|]. intros a. apply Ec, L.
Qed.
Lemma happens_separate stream w h : separate w -> separate (fst (happens stream w h)).
Proof.
  intros S. pose proof S as [S1 S2].
  assert (New : forall w' k o r, wo_seat w' = set_at (wo_seat w) k (Some (Seat o r)) -> (wo_next w <= wo_next w')%nat -> (o < wo_next w')%nat -> (r < wo_next w')%nat ->
     (forall t, wo_seat w k = Some t -> (wo_next w <= o \/ o = se_env t \/ o = se_road t)%nat /\ (wo_next w <= r \/ r = se_env t \/ r = se_road t)%nat) ->
     (wo_seat w k = None -> (wo_next w <= o)%nat /\ (wo_next w <= r)%nat) -> separate w').
  { intros w' k o r Es Ln Lo Lr Ho Hn. 
    assert (Far : forall k' t' b, k' <> k -> wo_seat w k' = Some t' -> o <> address t' b /\ r <> address t' b).
    { intros k' t' b N E'. pose proof (address_lt w k' t' b S E') as L. destruct (wo_seat w k) as [t|] eqn:Et.
      - destruct (Ho t eq_refl) as [HA HB]. pose proof (S2 k k' t t' ByEnv b (not_eq_sym N) Et E') as P1. pose proof (S2 k k' t t' ByRoad b (not_eq_sym N) Et E') as P2. cbn [address] in P1, P2.
        split; [destruct HA as [HA|[HA|HA]] | destruct HB as [HB|[HB|HB]]]; try lia; congruence.
      - destruct (Hn eq_refl). lia. }
    split.
    - intros j t E. rewrite Es in E. unfold set_at in E. destruct (Nat.eqb_spec j k); [injection E as <-; cbn; lia|]. destruct (S1 j t E). lia.
    - intros j j' t t' a b N E E'. rewrite Es in E, E'. unfold set_at in E, E'. destruct (Nat.eqb_spec j k) as [->|N1], (Nat.eqb_spec j' k) as [->|N2].
      + now elim N.
      + injection E as <-. destruct (Far j' t' b N2 E') as [P Q]. destruct a; cbn [address se_env se_road]; assumption.
      + injection E' as <-. destruct (Far j t a N1 E) as [P Q]. destruct b; cbn [address se_env se_road]; congruence.
      + exact (S2 j j' t t' a b N E E'). }
  destruct h as [k e|k s|k|k who|k k']; cbn [happens fst].
  - eapply New; [reflexivity| | | | |]; cbn; try lia; auto.
  - unfold seed_env. destruct (wo_seat w k) as [t|] eqn:E; [|exact S]. destruct (S1 k t E). eapply New; [reflexivity| | | | |]; cbn; try lia; [|rewrite E; discriminate]. rewrite E. intros u Q. injection Q as <-. lia.
  - unfold reset_env. destruct (wo_seat w k) as [t|] eqn:E; [|exact S]. destruct (S1 k t E). eapply New; [reflexivity| | | | |]; cbn; try lia; [|rewrite E; discriminate]. rewrite E. intros u Q. injection Q as <-. lia.
  - destruct (wo_seat w k) as [t|]; [|exact S]. destruct (wo_cell w (address t who)) as [s n]. cbn [fst]. exact S.
  - destruct (wo_seat w k) as [t|] eqn:E; [|unfold copy_env; rewrite E; exact S]. destruct (S1 k t E) as [L1 L2]. destruct (copy_cases w k k' t E L1 L2) as (o & r & Es & Lo & Lr & _). cbv zeta in *.
    eapply New; [exact Es| | | | |]; try lia.
Qed.
Lemma history_app stream l : forall w l', history stream w (l ++ l') = (fst (history stream (fst (history stream w l)) l'), snd (history stream w l) ++ snd (history stream (fst (history stream w l)) l')).
Proof.
  induction l as [|h l IH]; intros w l'; cbn [app history fst snd]; [now destruct (history stream w l')|]. destruct (happens stream w h) as [w1 o1]. rewrite IH. destruct (history stream w1 l) as [w2 o2]. cbn [fst snd]. now rewrite app_assoc.
Qed.
Lemma history_separate stream l : forall w, separate w -> separate (fst (history stream w l)).
Proof.
  induction l as [|h l IH]; intros w S; [exact S|]. cbn [history]. pose proof (happens_separate stream w h S) as S1. destruct (happens stream w h) as [w1 o1]. specialize (IH w1 S1). now destruct (history stream w1 l).
Qed.
Lemma after_separate stream l : separate (after stream l).
Proof. apply history_separate. split; intros; discriminate. Qed.
Lemma after_app stream l l' : after stream (l ++ l') = fst (history stream (after stream l) l').
Proof. unfold after. now rewrite history_app. Qed.
Lemma output_target stream w h x : In x (snd (happens stream w h)) -> fst (fst x) = target h.
Proof. destruct h; cbn; try tauto. destruct (wo_seat w k); cbn; [|tauto]. destruct (wo_cell w _). cbn. intros [<-|[]]. reflexivity. Qed.
Lemma numbers_app k o o' : numbers k (o ++ o') = (numbers k o ++ numbers k o')%list.
Proof. unfold numbers. now rewrite filter_app, map_app. Qed.
Lemma numbers_by_app k who o o' : numbers_by k who (o ++ o') = (numbers_by k who o ++ numbers_by k who o')%list.
Proof. unfold numbers_by. now rewrite filter_app, map_app. Qed.
Lemma others_silent stream w h k : target h <> k -> numbers k (snd (happens stream w h)) = [] /\ forall who, numbers_by k who (snd (happens stream w h)) = [].
Proof.
  intros N. unfold numbers, numbers_by. pose proof (output_target stream w h) as O. induction (snd (happens stream w h)) as [|x o IH]; [now split|].
  destruct IH as [I1 I2]; [intros y Hy; apply O; now right|]. pose proof (O x (or_introl eq_refl)) as Q. cbn [filter]. rewrite Q, (proj2 (Nat.eqb_neq _ _) N). cbn [andb]. now split.
Qed.
Lemma others_uncounted h k : target h <> k -> takes k [h] = 0%nat /\ forall who, takes_by k who [h] = 0%nat.
Proof. intros N. unfold takes, takes_by. destruct h; cbn [filter]; try (now split). cbn [target] in N. rewrite (proj2 (Nat.eqb_neq _ _) N). now split. Qed.
Lemma takes_cons k h l : takes k (h :: l) = (takes k [h] + takes k l)%nat.
Proof. unfold takes. cbn [filter]. destruct (match h with Draw k' _ => _ | _ => _ end); reflexivity. Qed.
Lemma takes_by_cons k who h l : takes_by k who (h :: l) = (takes_by k who [h] + takes_by k who l)%nat.
Proof. unfold takes_by. cbn [filter]. destruct (match h with Draw k' _ => _ | _ => _ end); reflexivity. Qed.

(** An environment and its road with one generator. *)
Lemma shared_run stream l k o s : forall w i, separate w -> wo_seat w k = Some (Seat o o) -> wo_cell w o = (s, i) -> Forall (not_seeded k) l ->
  numbers k (snd (history stream w l)) = from_seed stream s i (takes k l) /\
  wo_seat (fst (history stream w l)) k = Some (Seat o o) /\ wo_cell (fst (history stream w l)) o = (s, (i + takes k l)%nat).
Proof.
  induction l as [|h l IH]; intros w i S E C F.
  { cbn. rewrite Nat.add_0_r. now repeat split. }
  inversion F as [|? ? F1 F2]; subst. rewrite takes_cons. cbn [history]. pose proof (happens_separate stream w h S) as S1.
  assert (X : exists d, wo_seat (fst (happens stream w h)) k = Some (Seat o o) /\ wo_cell (fst (happens stream w h)) o = (s, (i + d)%nat) /\ takes k [h] = d /\ numbers k (snd (happens stream w h)) = from_seed stream s i d).
  { destruct (Nat.eq_dec (target h) k) as [Q|Q].
    - destruct h as [j e|j s'|j|j who|j j']; cbn [target] in Q; subst; cbn [not_seeded] in F1; try (now elim F1).
      + exists 0%nat. cbn [happens fst snd]. unfold reset_env. rewrite E. cbn [set_seat wo_seat wo_cell se_env]. rewrite set_at_same, C, Nat.add_0_r. now repeat split.
      + exists 1%nat. cbn [happens]. rewrite E. replace (address (Seat o o) who) with o by now destruct who. rewrite C. cbn [fst snd wo_seat wo_cell]. rewrite set_at_same, E.
        unfold takes, numbers, from_seed. cbn [filter fst snd]. rewrite Nat.eqb_refl. cbn. replace (i + 1)%nat with (Datatypes.S i) by lia. now repeat split.
    - exists 0%nat. destruct (others_untouched stream w h k _ S Q E) as [A B]. specialize (B ByEnv). cbn [address se_env] in B. rewrite A, B, C, Nat.add_0_r.
      destruct (others_uncounted h k Q) as [-> _]. destruct (others_silent stream w h k Q) as [-> _]. now repeat split. }
  destruct X as (d & E1 & C1 & -> & N1). destruct (happens stream w h) as [w1 o1]. cbn [fst snd] in *. destruct (IH w1 (i + d)%nat S1 E1 C1 F2) as (N2 & E2 & C2). destruct (history stream w1 l) as [w2 o2]. cbn [fst snd] in *.
  split; [|split; [exact E2 | rewrite C2; f_equal; lia]]. rewrite numbers_app, N1, N2. unfold from_seed. now rewrite seq_app, map_app.
Qed.
(** With two. *)
Lemma apart_run stream l k o r s s' : o <> r -> forall w i i', separate w -> wo_seat w k = Some (Seat o r) -> wo_cell w o = (s, i) -> wo_cell w r = (s', i') -> Forall (not_seeded k) l -> Forall (not_reset k) l ->
  numbers_by k ByEnv (snd (history stream w l)) = from_seed stream s i (takes_by k ByEnv l) /\
  numbers_by k ByRoad (snd (history stream w l)) = from_seed stream s' i' (takes_by k ByRoad l).
Proof.
  intros Nor. induction l as [|h l IH]; intros w i i' S E C C' F G; [now split|].
  inversion F as [|? ? F1 F2]; subst. inversion G as [|? ? G1 G2]; subst. rewrite !(takes_by_cons k _ h l). cbn [history]. pose proof (happens_separate stream w h S) as S1.
  assert (X : exists d d', wo_seat (fst (happens stream w h)) k = Some (Seat o r) /\ wo_cell (fst (happens stream w h)) o = (s, (i + d)%nat) /\ wo_cell (fst (happens stream w h)) r = (s', (i' + d')%nat) /\
     takes_by k ByEnv [h] = d /\ takes_by k ByRoad [h] = d' /\ numbers_by k ByEnv (snd (happens stream w h)) = from_seed stream s i d /\ numbers_by k ByRoad (snd (happens stream w h)) = from_seed stream s' i' d').
  { destruct (Nat.eq_dec (target h) k) as [Q|Q].
    - destruct h as [j e|j s1|j|j who|j j']; cbn [target] in Q; subst; cbn [not_seeded] in F1; try (now elim F1); try (now elim G1).
      exists (if is_by who ByEnv then 1 else 0)%nat, (if is_by who ByRoad then 1 else 0)%nat. cbn [happens]. rewrite E.
      destruct who; cbn [address se_env se_road is_by]; rewrite ?C, ?C'; cbn [fst snd wo_seat wo_cell]; unfold takes_by, numbers_by, from_seed; cbn [filter fst snd]; rewrite Nat.eqb_refl; cbn [andb is_by];
        rewrite set_at_same, set_at_other by congruence; rewrite ?C, ?C', Nat.add_0_r, Nat.add_1_r; repeat split; try assumption; reflexivity.
    - exists 0%nat, 0%nat. destruct (others_untouched stream w h k _ S Q E) as [A B]. pose proof (B ByEnv) as B1. pose proof (B ByRoad) as B2. cbn [address se_env se_road] in B1, B2. rewrite A, B1, B2, C, C', !Nat.add_0_r.
      destruct (others_uncounted h k Q) as [_ U]. destruct (others_silent stream w h k Q) as [_ V]. rewrite !U, !V. now repeat split. }
  destruct X as (d & d' & E1 & C1 & C1' & -> & -> & N1 & N1'). destruct (happens stream w h) as [w1 o1]. cbn [fst snd] in *. destruct (IH w1 _ _ S1 E1 C1 C1' F2 G2) as (N2 & N2'). destruct (history stream w1 l) as [w2 o2]. cbn [fst snd] in *.
  rewrite !numbers_by_app, N1, N2, N1', N2'. unfold from_seed. now rewrite !seq_app, !map_app.
Qed.

(** ** Theorems *)
Lemma after_seeded stream h k s : exists_in (after stream h) k ->
  let w := after stream (h ++ [Seed k s; Reset k]) in exists o, wo_seat w k = Some (Seat o o) /\ wo_cell w o = (s, 0%nat).
Proof.
  intros Ex w. unfold w. rewrite after_app. set (w0 := after stream h) in *. cbn [history happens fst snd]. unfold seed_env. unfold exists_in in Ex. destruct (wo_seat w0 k) as [t|] eqn:E; [|now elim Ex].
  unfold reset_env. cbn [set_seat alloc wo_seat wo_cell wo_next]. rewrite set_at_same. cbn [set_seat wo_seat wo_cell wo_next se_env]. exists (wo_next w0). rewrite set_at_same. split; [reflexivity|]. cbn. apply set_at_same.
Qed.
(** After [env.seed(s); env.reset()], every number that the environment or its road takes, through
    any number of episodes, is the next one of the generator of seed [s], whatever happened before
    and whatever happens to other environments meanwhile. *)
Theorem C117_seeded : forall stream before k s l, exists_in (after stream before) k -> Forall (not_seeded k) l ->
  taken stream (before ++ [Seed k s; Reset k]) l k = from_seed stream s 0 (takes k l).
Proof.
  intros stream before k s l Ex F. destruct (after_seeded stream before k s Ex) as (o & E & C). cbv zeta in *. unfold taken. exact (proj1 (shared_run stream l k o s _ 0%nat (after_separate _ _) E C F)).
Qed.
Print Assumptions C117_seeded.
(** Hence two runs with the same seed take the same numbers, as long as they take as many. *)
Theorem C117_reproducible : forall stream before before' k k' s l l', exists_in (after stream before) k -> exists_in (after stream before') k' ->
  Forall (not_seeded k) l -> Forall (not_seeded k') l' -> (takes k l <= takes k' l')%nat ->
  exists rest, taken stream (before' ++ [Seed k' s; Reset k']) l' k' = (taken stream (before ++ [Seed k s; Reset k]) l k ++ rest)%list.
Proof.
  intros stream before before' k k' s l l' E E' F F' Le. rewrite !C117_seeded by assumption. unfold from_seed. replace (takes k' l') with (takes k l + (takes k' l' - takes k l))%nat by lia. rewrite seq_app, map_app. eauto.
Qed.
Print Assumptions C117_reproducible.
(** A new environment takes the numbers of the seed it got from the system. *)
Theorem C117_unseeded : forall stream before k e l, Forall (not_seeded k) l -> taken stream (before ++ [Make k e]) l k = from_seed stream e 0 (takes k l).
Proof.
  intros stream before k e l F. unfold taken. eapply (shared_run stream l k (wo_next (after stream before)) e _ 0%nat (after_separate _ _)); [| |exact F]; rewrite after_app; cbn [history happens fst make_env set_seat alloc wo_seat wo_cell wo_next]; now rewrite set_at_same.
Qed.
Print Assumptions C117_unseeded.
(** [env.seed(s)] alone, in the middle of an episode, only changes what the environment takes;
    the vehicles go on with the numbers of the previous seed until the next reset. *)
Theorem C117_seed_without_reset : forall stream before k s0 l0 s l, exists_in (after stream before) k -> Forall (not_seeded k) l0 -> Forall (not_seeded k) l -> Forall (not_reset k) l ->
  taken_by stream (before ++ [Seed k s0; Reset k] ++ l0 ++ [Seed k s]) l k ByEnv = from_seed stream s 0 (takes_by k ByEnv l) /\
  taken_by stream (before ++ [Seed k s0; Reset k] ++ l0 ++ [Seed k s]) l k ByRoad = from_seed stream s0 (takes k l0) (takes_by k ByRoad l).
Proof.
  intros stream before k s0 l0 s l Ex F0 F G. destruct (after_seeded stream before k s0 Ex) as (o & E & C). cbv zeta in *. 
  replace (before ++ [Seed k s0; Reset k] ++ l0 ++ [Seed k s])%list with (((before ++ [Seed k s0; Reset k]) ++ l0) ++ [Seed k s])%list by now rewrite <- !app_assoc.
  destruct (shared_run stream l0 k o s0 _ 0%nat (after_separate _ _) E C F0) as (_ & E1 & C1). unfold taken_by. set (w1 := fst (history stream (after stream (before ++ [Seed k s0; Reset k])) l0)) in *.
  assert (W : after stream ((before ++ [Seed k s0; Reset k]) ++ l0) = w1) by (rewrite after_app; reflexivity).
  assert (S1 : separate w1) by (rewrite <- W; apply after_separate).
  apply (apart_run stream l k (wo_next w1) o s s0); try assumption.
  - destruct S1 as [S1 _]. destruct (S1 k _ E1). cbn in *. lia.
  - apply after_separate.
  - rewrite after_app, W. cbn [history happens fst]. unfold seed_env. rewrite E1. cbn. apply set_at_same.
  - rewrite after_app, W. cbn [history happens fst]. unfold seed_env. rewrite E1. cbn. apply set_at_same.
  - rewrite after_app, W. cbn [history happens fst]. unfold seed_env. rewrite E1. cbn [set_seat alloc wo_cell]. rewrite set_at_other; [exact C1|]. destruct S1 as [S1 _]. destruct (S1 k _ E1). cbn in *. lia.
Qed.
Print Assumptions C117_seed_without_reset.
(** A copy of the environment takes the numbers that the original would have taken, and the
    original still takes them afterwards, whatever is done with the copy. *)
Theorem C117_copy : forall stream before k k' s0 l0 l, exists_in (after stream before) k -> k' <> k -> Forall (not_seeded k) l0 ->
  let copied := (before ++ [Seed k s0; Reset k] ++ l0 ++ [Copy k k'])%list in
  (Forall (not_seeded k') l -> taken stream copied l k' = from_seed stream s0 (takes k l0) (takes k' l)) /\
  (Forall (not_seeded k) l -> taken stream copied l k = from_seed stream s0 (takes k l0) (takes k l)).
Proof.
  intros stream before k k' s0 l0 l Ex N F0 copied. destruct (after_seeded stream before k s0 Ex) as (o & E & C). cbv zeta in *. unfold copied.
  replace (before ++ [Seed k s0; Reset k] ++ l0 ++ [Copy k k'])%list with (((before ++ [Seed k s0; Reset k]) ++ l0) ++ [Copy k k'])%list by now rewrite <- !app_assoc.
  destruct (shared_run stream l0 k o s0 _ 0%nat (after_separate _ _) E C F0) as (_ & E1 & C1). cbn [Nat.add] in C1. unfold taken. set (w1 := fst (history stream (after stream (before ++ [Seed k s0; Reset k])) l0)) in *.
  assert (W : after stream ((before ++ [Seed k s0; Reset k]) ++ l0) = w1) by (rewrite after_app; reflexivity).
  assert (S1 : separate w1) by (rewrite <- W; apply after_separate). destruct (proj1 S1 k _ E1) as [L1 L2].
  destruct (copy_cases w1 k k' _ E1 L1 L2) as (o' & r' & Es & Lo & Lr & Ec & Co & _ & Sh). cbv zeta in *. cbn [se_env se_road] in *. assert (o' = r') as <- by now apply Sh.
  assert (W2 : after stream (((before ++ [Seed k s0; Reset k]) ++ l0) ++ [Copy k k']) = copy_env w1 k k') by (rewrite after_app, W; reflexivity).
  split; intros F.
  - apply (shared_run stream l k' o' s0 _ (takes k l0) (after_separate _ _)); [rewrite W2, Es; apply set_at_same | rewrite W2, Co; exact C1 | exact F].
  - apply (shared_run stream l k o s0 _ (takes k l0) (after_separate _ _)); [rewrite W2, Es, set_at_other by congruence; exact E1 | rewrite W2, Ec by exact L1; exact C1 | exact F].
Qed.
Print Assumptions C117_copy.
Example C117_nonvacuous : forall stream,
  let before := [Make 0 11; Draw 0 ByEnv; Make 1 12; Draw 0 ByRoad] in
  let l := [Draw 0 ByEnv; Draw 1 ByRoad; Seed 1 5; Draw 0 ByRoad; Reset 0; Draw 0 ByRoad] in
  exists_in (after stream before) 0 /\ Forall (not_seeded 0) l /\ takes 0 l = 3%nat /\
  taken stream (before ++ [Seed 0 7; Reset 0]) l 0 = [stream 7%Z 0%nat; stream 7%Z 1%nat; stream 7%Z 2%nat] /\
  taken_by stream (before ++ [Seed 0 7; Reset 0] ++ [Draw 0 ByEnv] ++ [Seed 0 8]) [Draw 0 ByRoad; Draw 0 ByEnv] 0 ByRoad = [stream 7%Z 1%nat].
Proof.
  intros stream before l. split; [discriminate|]. split; [repeat constructor; cbn; lia|]. split; [reflexivity|]. split; reflexivity.
Qed.
