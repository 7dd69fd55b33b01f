(** C106-C109: configurations. *)
From Coq Require Import Lia Lra Ascii.
From Verif Require Import Prelude M_Utils M_Lane M_Road M_Vehicle M_Kinematics M_Control M_Behavior M_Regulation M_Action M_Env M_Scenes M_Nets M_Reset M_Ttc M_Obs M_Gym M_Config
  S_Geometry S_Road S_Vehicle S_Control S_Behavior S_Regulation S_Env S_Obs S_Ttc S_Reset S_Gym S_Config P_Base P_Graph P_Env P_Move P_Play T_Env T_Reset T_Gym.
Open Scope R_scope.
Open Scope string_scope.

(** ** C106: what a configuration says *)
Lemma update_get d : forall c k, assoc k (dict_update c d) = match assoc k (rev d) with Some v => Some v | None => assoc k c end.
Proof.
  unfold dict_update. induction d as [|[k0 v0] d IH]; intros c k; [reflexivity|]. cbn [fold_left fst snd rev]. rewrite IH.
  assert (A : forall (l : dict) m, assoc k (l ++ m)%list = match assoc k l with Some v => Some v | None => assoc k m end).
  { induction l as [|[a b] l IHl]; intros m; [reflexivity|]. cbn [app assoc]. destruct (String.eqb k a); [reflexivity|]. apply IHl. }
  rewrite A. destruct (assoc k (rev d)); [reflexivity|]. cbn [assoc]. rewrite assoc_set_get, String.eqb_sym. destruct (String.eqb k k0); reflexivity.
Qed.
Lemma rev_get (d : dict) k : NoDup (keys d) -> assoc k (rev d) = assoc k d.
Proof.
  intros N. assert (Nr : NoDup (keys (rev d))) by (unfold keys; rewrite map_rev; now apply NoDup_rev).
  destruct (assoc k d) as [v|] eqn:E.
  - apply In_assoc; [exact Nr|]. rewrite <- in_rev. now apply assoc_In.
  - apply assoc_None. apply assoc_None in E. intros H. apply E. unfold keys in *. rewrite map_rev, <- in_rev in H. exact H.
Qed.
Lemma update_NoDup d : forall c, NoDup (keys c) -> NoDup (keys (dict_update c d)).
Proof. unfold dict_update. induction d as [|[k v] d IH]; intros c N; [exact N|]. cbn [fold_left]. apply IH. now apply assoc_set_NoDup. Qed.
Lemma configured_concat g ds : configured g ds = dict_update (default_config g) (List.concat ds).
Proof.
  unfold configured, configure. generalize (default_config g). induction ds as [|d ds IH]; intros c; [reflexivity|]. cbn [fold_left List.concat]. rewrite IH.
  unfold dict_update. now rewrite fold_left_app.
Qed.
Lemma no_dups l : (fix nd (l : list string) : bool := match l with [] => true | x :: l' => negb (existsb (String.eqb x) l') && nd l' end) l = true -> NoDup l.
Proof.
  induction l as [|x l IH]; intros H; [constructor|]. apply andb_prop in H as [H1 H2]. constructor; [|now apply IH].
  intros I. apply negb_true_iff in H1. assert (existsb (String.eqb x) l = true) by (apply existsb_exists; exists x; split; [exact I | apply String.eqb_refl]). congruence.
Qed.
Lemma default_dict g : is_dict (default_config g).
Proof. unfold is_dict. destruct g; apply no_dups; reflexivity. Qed.

(** Each entry has the value given last, or else the default one of the class; entries are
    never lost. *)
Theorem C106_last_given_wins : forall g ds, Forall is_dict ds -> is_dict (configured g ds) /\
  (forall k v, given_last ds k v -> item (configured g ds) k = Ok v) /\
  (forall k, never_given ds k -> item (configured g ds) k = item (default_config g) k) /\
  (forall k, In k (keys (default_config g)) -> In k (keys (configured g ds))).
Proof.
  intros g ds F. rewrite configured_concat. unfold item. split; [apply update_NoDup, default_dict|]. split; [|split].
  - intros k v (before & d & after & -> & Hin & Ha). rewrite update_get.
    assert (X : assoc k (rev (List.concat (before ++ d :: after))) = Some v); [|now rewrite X].
    rewrite concat_app, rev_app_distr. cbn [List.concat]. rewrite rev_app_distr.
    assert (A : forall (l m : dict), assoc k (l ++ m)%list = match assoc k l with Some v => Some v | None => assoc k m end).
    { induction l as [|[a b] l IHl]; intros m; [reflexivity|]. cbn [app assoc]. destruct (String.eqb k a); [reflexivity|]. apply IHl. }
    rewrite !A. assert (N : assoc k (rev (List.concat after)) = None).
    { apply assoc_None. unfold keys. rewrite map_rev, <- in_rev. intros I. apply in_map_iff in I as ([k' v'] & Q & I). cbn [fst] in Q. subst k'. apply in_concat in I as (d' & I1 & I2).
      apply (Ha d' I1). apply in_map_iff. now exists (k, v'). }
    rewrite N. rewrite rev_get by (rewrite Forall_forall in F; apply F; apply in_or_app; right; now left).
    now rewrite (In_assoc k v d); [|rewrite Forall_forall in F; apply F; apply in_or_app; right; now left|exact Hin].
  - intros k H. rewrite update_get. replace (assoc k (rev (List.concat ds))) with (@None pyval); [reflexivity|]. symmetry. apply assoc_None. unfold keys. rewrite map_rev, <- in_rev.
    intros I. apply in_map_iff in I as ([k' v'] & Q & I). cbn [fst] in Q. subst k'. apply in_concat in I as (d' & I1 & I2). apply (H d' I1). apply in_map_iff. now exists (k, v').
  - intros k H. apply assoc_keys. apply assoc_keys in H as (v & H). rewrite update_get. destruct (assoc k (rev _)) as [w|]; eauto.
Qed.
Print Assumptions C106_last_given_wins.

Lemma item_agree names c d k : agree names c d -> In k names -> item c k = item d k.
Proof. unfold item. intros A I. now rewrite (A k I). Qed.
Lemma read_agree g c d : agree (option_names g) c d -> read_settings g c = read_settings g d /\ read_scene g c = read_scene g d /\ read_clock c = read_clock d.
Proof.
  intros A. assert (I : forall k, existsb (String.eqb k) (option_names g) = true -> item c k = item d k).
  { intros k H. apply existsb_exists in H as (x & Hx & Q). apply String.eqb_eq in Q. subst x. exact (item_agree _ _ _ _ A Hx). }
  assert (Cl : read_clock c = read_clock d).
  { unfold read_clock, read_simulation, get_num, get_bool. rewrite !I by (destruct g; reflexivity). reflexivity. }
  assert (Sc : read_scene g c = read_scene g d).
  { destruct g; try reflexivity; unfold read_scene, get_count, get_num, get_bool; rewrite !I by reflexivity; reflexivity. }
  split; [|split; assumption]. unfold read_settings, get_bool. rewrite Sc, Cl, (I "observation"), (I "action"), (I "show_trajectories") by (destruct g; reflexivity).
  replace (read_class g d) with (read_class g c); [reflexivity|]. destruct g; try reflexivity; unfold read_class; rewrite (I "other_vehicles_type") by reflexivity; reflexivity.
Qed.
(** Options that are not in the list - display options, and misspelt ones - have no
    influence, neither when the environment is made nor later. *)
Theorem C106_other_options_ignored : forall g ds ds' cs d sh, agree (option_names g) (configured g ds) (configured g ds') ->
  match player_reset cs (g, configured g ds) d sh, player_reset cs (g, configured g ds') d sh with
  | Ok (cs1, p1, o1), Ok (cs2, p2, o2) => cs1 = cs2 /\ pl_gym p1 = pl_gym p2 /\ o1 = o2
  | Err e1, Err e2 => e1 = e2
  | _, _ => False
  end /\
  forall gy cs1 o1 d1 sh1 a,
  match player_step cs1 (Player g (configured g ds) gy) o1 d1 sh1 a, player_step cs1 (Player g (configured g ds') gy) o1 d1 sh1 a with
  | Ok (p1, out1), Ok (p2, out2) => pl_gym p1 = pl_gym p2 /\ out1 = out2
  | Err e1, Err e2 => e1 = e2
  | _, _ => False
  end.
Proof.
  intros g ds ds' cs d sh A. destruct (read_agree g _ _ A) as (Rs & Rc & Rk). split.
  - unfold player_reset. cbn [fst snd]. rewrite Rs. destruct (read_settings g (configured g ds')) as [st|]; cbn [bind]; [|reflexivity].
    destruct (gym_reset cs (st_common st) (st_scene st) (st_observation st) d sh) as [[[cs' gy] ob]|]; cbn [bind]; [|reflexivity]. cbn [fst snd pl_gym]. repeat split.
  - intros gy cs1 o1 d1 sh1 a. unfold player_step, live. cbn [pl_game pl_config pl_gym]. rewrite Rc, Rk.
    destruct (read_scene g (configured g ds')) as [s|]; cbn [bind]; [|reflexivity]. destruct (read_clock (configured g ds')) as [[[sim pol] man]|]; cbn [bind]; [|reflexivity].
    match goal with |- context [gym_step cs1 ?x o1 d1 sh1 a] => destruct (gym_step cs1 x o1 d1 sh1 a) as [[g' out]|] end; cbn [bind]; [|reflexivity]. cbn [pl_gym]. split; reflexivity.
Qed.
Print Assumptions C106_other_options_ignored.
(** What a flag says: an option counts as off exactly when it is None, False, a zero, an
    empty string or an empty container; the flags of the environments are read this way. *)
Theorem C106_flags : forall v, (truthy v = false <-> counts_as_false v) /\
  (forall g ds st, Forall is_dict ds -> read_settings g (configured g ds) = Ok st ->
    (given_last ds "manual_control" v -> (cf_manual (st_common st) = false <-> counts_as_false v)) /\
    (given_last ds "show_trajectories" v -> (cf_record (st_common st) = false <-> counts_as_false v))).
Proof.
  intros v. assert (T : truthy v = false <-> counts_as_false v).
  { split.
    - destruct v as [|b|z|x|s|l|d]; cbn [truthy]; intros H.
      + constructor.
      + subst b. constructor.
      + apply negb_false_iff, Z.eqb_eq in H. subst z. constructor.
      + apply negb_false_iff in H. apply Reqb_true in H. subst x. constructor.
      + apply negb_false_iff, String.eqb_eq in H. subst s. constructor.
      + destruct l; [constructor | discriminate].
      + destruct d; [constructor | discriminate].
    - intros H. destruct H; cbn [truthy]; try reflexivity. apply negb_false_iff, Reqb_true. reflexivity. }
  split; [exact T|]. intros g ds st F E. destruct (C106_last_given_wins g ds F) as (_ & L & _). unfold read_settings in E.
  apply bind_ok in E as (ob & _ & E). apply bind_ok in E as (act & _ & E). apply bind_ok in E as (rc & Er & E). apply bind_ok in E as (cl & _ & E).
  apply bind_ok in E as (sc & _ & E). apply bind_ok in E as ([sp man] & Ec & E). injection E as <-. cbn [st_common cf_manual cf_record]. split; intros G.
  - unfold read_clock in Ec. apply bind_ok in Ec as (n & _ & Ec). apply bind_ok in Ec as (q & _ & Ec). unfold get_bool in Ec. rewrite (L _ _ G) in Ec. cbn [bind] in Ec.
    injection Ec as _ <-. exact T.
  - unfold get_bool in Er. rewrite (L _ _ G) in Er. cbn [bind] in Er. injection Er as <-. exact T.
Qed.
Print Assumptions C106_flags.
(** The display: by default, and as long as they are not given, the options of the viewer
    have these values. *)
Theorem C106_display_defaults : forall g ds, Forall is_dict ds ->
  (forall k, In k ["show_trajectories"; "offscreen_rendering"; "manual_control"; "real_time_rendering"] -> never_given ds k -> item (configured g ds) k = Ok (VBool false)) /\
  (never_given ds "render_agent" -> item (configured g ds) "render_agent" = Ok (VBool true)) /\
  (never_given ds "screen_width" -> item (configured g ds) "screen_width" = Ok (VInt 600)) /\
  (never_given ds "screen_height" -> item (configured g ds) "screen_height" =
    Ok (VInt match g with GHighway | GTwoWay | GMerge => 150 | GParking | GSummon => 300 | GRoundabout | GIntersection | GAgents => 600 end)) /\
  (never_given ds "centering_position" -> item (configured g ds) "centering_position" =
    Ok (VList match g with GHighway | GTwoWay | GMerge => [VFloat (3/10); VFloat (1/2)] | GParking | GSummon => [VFloat (1/2); VFloat (1/2)]
              | GRoundabout | GIntersection | GAgents => [VFloat (1/2); VFloat (6/10)] end)) /\
  (never_given ds "scaling" -> item (configured g ds) "scaling" =
    Ok match g with GHighway | GTwoWay | GMerge | GRoundabout => VFloat (55/10) | GParking | GSummon => VInt 7 | GIntersection | GAgents => VFloat (55/10 * (13/10)) end).
Proof.
  intros g ds F. destruct (C106_last_given_wins g ds F) as (_ & _ & D & _).
  split; [|split; [|split; [|split; [|split]]]].
  - intros k H N. rewrite (D k N). cbn [In] in H. destruct H as [<-|[<-|[<-|[<-|[]]]]]; destruct g; reflexivity.
  - intros N. rewrite (D _ N). destruct g; reflexivity.
  - intros N. rewrite (D _ N). destruct g; reflexivity.
  - intros N. rewrite (D _ N). destruct g; reflexivity.
  - intros N. rewrite (D _ N). destruct g; reflexivity.
  - intros N. rewrite (D _ N). destruct g; reflexivity.
Qed.
Print Assumptions C106_display_defaults.

(** The entries "action" and "observation" are replaced as a whole: nothing is left of the
    defaults of the class inside them. *)
Theorem C106_nested_replaced : forall g ds st v, Forall is_dict ds -> read_settings g (configured g ds) = Ok st ->
  (given_last ds "action" v -> action_factory v = Ok (cf_action (st_common st))) /\
  (given_last ds "observation" v -> observation_factory v = Ok (st_observation st)).
Proof.
  intros g ds st v F H. destruct (C106_last_given_wins g ds F) as (_ & L & _). unfold read_settings in H.
  apply bind_ok in H as (ob & Ho & H). apply bind_ok in H as (act & Ha & H). apply bind_ok in H as (rec & _ & H). apply bind_ok in H as (cls & _ & H).
  apply bind_ok in H as (s & _ & H). apply bind_ok in H as ([[sim pol] man] & _ & H). injection H as <-. cbn [st_common st_observation cf_action]. split; intros G; apply L in G.
  - rewrite G in Ha. exact Ha.
  - rewrite G in Ho. exact Ho.
Qed.
Print Assumptions C106_nested_replaced.
Lemma arg_agree names c d k v : agree names c d -> In k names -> arg c k v = arg d k v.
Proof. unfold arg. intros A I. now rewrite (A k I). Qed.
(** Inside them too, unknown entries are ignored without an error. *)
Theorem C106_unknown_arguments_ignored : forall c d,
  (agree action_names c d -> action_factory (VDict c) = action_factory (VDict d)) /\
  (agree observation_names c d -> observation_factory (VDict c) = observation_factory (VDict d)).
Proof.
  intros c d. split; intros A.
  - assert (I : forall k, existsb (String.eqb k) action_names = true -> assoc k c = assoc k d).
    { intros k H. apply existsb_exists in H as (x & Hx & Q). apply String.eqb_eq in Q. subst x. exact (A k Hx). }
    unfold action_factory, single_factory, as_dict, item, required, arg. cbn [bind]. rewrite !I by reflexivity. reflexivity.
  - assert (I : forall k, existsb (String.eqb k) observation_names = true -> assoc k c = assoc k d).
    { intros k H. apply existsb_exists in H as (x & Hx & Q). apply String.eqb_eq in Q. subst x. exact (A k Hx). }
    unfold observation_factory, observer_factory, kin_factory, as_dict, item, required, arg. cbn [bind]. rewrite !I by reflexivity. reflexivity.
Qed.
Print Assumptions C106_unknown_arguments_ignored.

(** ** C107: when the configuration is read *)
Lemma serve_config p r p' : serve p r = Ok p' ->
  pl_game p' = pl_game p /\ pl_config p' = fold_left (fun c d => configure c (Some d)) (given_by [r]) (pl_config p) /\
  match r with
  | Reset _ _ _ => exists st, read_settings (pl_game p) (pl_config p) = Ok st /\ gy_type (pl_gym p') = st_observation st /\ cf_action (gy_cf (pl_gym p')) = cf_action (st_common st)
  | _ => gy_type (pl_gym p') = gy_type (pl_gym p) /\ cf_action (gy_cf (pl_gym p')) = cf_action (gy_cf (pl_gym p))
  end.
Proof.
  destruct r as [d|cs d sh|cs o d sh a]; cbn [serve given_by flat_map app].
  - intros H. injection H as <-. split; [reflexivity|]. split; [|split; reflexivity]. destruct d; reflexivity.
  - intros H. apply bind_ok in H as ([[cs1 p1] ob] & E & H). cbn [fst snd] in H. injection H as <-. unfold player_reset in E. cbn [fst snd] in E.
    apply bind_ok in E as (st & Es & E). apply bind_ok in E as ([[cs2 g2] ob2] & Eg & E). cbn [fst snd] in E. injection E as _ <- _. cbn [pl_game pl_config pl_gym fold_left].
    split; [reflexivity|]. split; [reflexivity|]. exists st. split; [exact Es|]. unfold gym_reset in Eg. apply bind_ok in Eg as ([[cs3 sc] e] & _ & Eg). apply bind_ok in Eg as (os & _ & Eg).
    injection Eg as _ <- _. split; reflexivity.
  - intros H. apply bind_ok in H as ([p1 out] & E & H). injection H as <-. unfold player_step in E. apply bind_ok in E as (g & Eg & E). apply bind_ok in E as ([g' out'] & Es & E). injection E as <- _.
    cbn [pl_game pl_config pl_gym fold_left]. split; [reflexivity|]. split; [reflexivity|]. unfold live in Eg. apply bind_ok in Eg as (s & _ & Eg). apply bind_ok in Eg as ([[sim pol] man] & _ & Eg). injection Eg as <-.
    unfold gym_step in Es. cbn [gy_cf gy_scene gy_type gy_scenario gy_goal gy_states gy_env] in Es.
    apply bind_ok in Es as (e1 & _ & Es). apply bind_ok in Es as (os & _ & Es). apply bind_ok in Es as (rew & _ & Es). apply bind_ok in Es as (ter & _ & Es). apply bind_ok in Es as (v & _ & Es).
    match type of Es with match ?x with _ => _ end = _ => destruct x end;
      repeat (let y := fresh "y" in apply bind_ok in Es as (y & _ & Es)); injection Es as <- _; split; reflexivity.
Qed.
Lemma serves_config rs : forall p p', serves p rs = Ok p' ->
  pl_game p' = pl_game p /\ pl_config p' = fold_left (fun c d => configure c (Some d)) (given_by rs) (pl_config p) /\
  (no_reset rs -> gy_type (pl_gym p') = gy_type (pl_gym p) /\ cf_action (gy_cf (pl_gym p')) = cf_action (gy_cf (pl_gym p))).
Proof.
  induction rs as [|r rs IH]; intros p p' H; unfold serves in H; cbn [foldM] in H; [injection H as <-; repeat split|].
  apply bind_ok in H as (p1 & E & H). destruct (serve_config p r p1 E) as (G1 & C1 & T1). destruct (IH p1 p' H) as (G2 & C2 & T2).
  split; [congruence|]. split.
  - rewrite C2, C1, <- fold_left_app. f_equal. unfold given_by. cbn [flat_map]. now rewrite app_nil_r.
  - intros N. assert (N2 : no_reset rs) by (intros cs d sh I; apply (N cs d sh); now right). destruct (T2 N2) as [-> ->].
    destruct r as [d|cs d sh|cs o d sh a]; [exact T1 | exfalso; apply (N cs d sh); now left | exact T1].
Qed.
Lemma serves_app rs rs' p p' : serves p (rs ++ rs')%list = Ok p' -> exists p1, serves p rs = Ok p1 /\ serves p1 rs' = Ok p'.
Proof.
  revert p. induction rs as [|r rs IH]; intros p H; [exists p; split; [reflexivity|exact H]|]. unfold serves in H. cbn [app foldM] in H. apply bind_ok in H as (p0 & E & H).
  destruct (IH p0 H) as (p1 & E1 & E2). exists p1. split; [|exact E2]. unfold serves. cbn [foldM]. rewrite E. exact E1.
Qed.
(** After any requests, the configuration is the one given so far, and the types of actions and of
    observations are those of the configuration at the last reset: what was configured
    since then has no influence on them. *)
Theorem C107_types_of_the_last_reset : forall cs g given d sh cs' p obs before after p',
  make cs g given d sh = Ok (cs', p, obs) -> serves p (before ++ after)%list = Ok p' -> just_reset before -> no_reset after ->
  pl_config p' = configured g (opt_list given ++ given_by (before ++ after))%list /\
  exists st, read_settings g (configured g (opt_list given ++ given_by before)%list) = Ok st /\
    gy_type (pl_gym p') = st_observation st /\ cf_action (gy_cf (pl_gym p')) = cf_action (st_common st).
Proof.
  intros cs g given d sh cs' p obs before after p' M S J N.
  assert (Mk : pl_game p = g /\ pl_config p = configured g (opt_list given) /\ exists st, read_settings g (pl_config p) = Ok st /\ gy_type (pl_gym p) = st_observation st /\ cf_action (gy_cf (pl_gym p)) = cf_action (st_common st)).
  { unfold make, player_reset in M. cbn [fst snd] in M. apply bind_ok in M as (st & Es & M). apply bind_ok in M as ([[cs2 g2] ob2] & Eg & M). cbn [fst snd] in M. injection M as _ <- _.
    cbn [pl_game pl_config pl_gym]. split; [reflexivity|]. split; [destruct given; reflexivity|]. exists st. split; [exact Es|].
    unfold gym_reset in Eg. apply bind_ok in Eg as ([[cs3 sc] e] & _ & Eg). apply bind_ok in Eg as (os & _ & Eg). injection Eg as _ <- _. split; reflexivity. }
  destruct Mk as (Gp & Cp & st0 & Rp & Tp & Ap).
  assert (Cf : forall rs q, serves p rs = Ok q -> pl_config q = configured g (opt_list given ++ given_by rs)%list /\ pl_game q = g).
  { intros rs q E. destruct (serves_config rs p q E) as (G & C & _). split; [|congruence]. rewrite C, Cp. unfold configured. now rewrite fold_left_app. }
  split; [now apply Cf|]. destruct (serves_app _ _ _ _ S) as (p1 & S1 & S2). destruct (serves_config after p1 p' S2) as (_ & _ & T). destruct (T N) as [Ty Ac]. rewrite Ty, Ac.
  destruct J as [-> | (rs0 & cs0 & d0 & sh0 & ->)].
  - cbn in S1. injection S1 as <-. exists st0. cbn [given_by flat_map]. rewrite app_nil_r, <- Cp. split; [exact Rp|]. split; assumption.
  - destruct (serves_app _ _ _ _ S1) as (q & Sq & Sr). unfold serves in Sr. cbn [foldM] in Sr. apply bind_ok in Sr as (q1 & Er & Sr). injection Sr as ->.
    destruct (serve_config q _ _ Er) as (_ & _ & st & R & A & B). destruct (Cf _ _ Sq) as [Cq Gq]. exists st. rewrite Gq, Cq in R.
    replace (given_by (rs0 ++ [Reset cs0 d0 sh0])) with (given_by rs0) by (unfold given_by; rewrite flat_map_app; cbn [flat_map]; now rewrite !app_nil_r).
    split; [exact R|]. split; assumption.
Qed.
Print Assumptions C107_types_of_the_last_reset.

Lemma merged_get g ds k : assoc k (configured g [dict_update [] (List.concat ds)]) = assoc k (configured g ds).
Proof.
  rewrite !configured_concat. cbn [List.concat]. rewrite app_nil_r, !update_get. rewrite rev_get by (apply update_NoDup; constructor). rewrite update_get. cbn [assoc].
  destruct (assoc k (rev (List.concat ds))); reflexivity.
Qed.
(** Whatever happened before, resetting an environment is the same as making a new one with
    all that has been configured. *)
Theorem C107_reset_is_make : forall cs g given d sh cs' p obs rs p',
  make cs g given d sh = Ok (cs', p, obs) -> serves p rs = Ok p' ->
  forall cs1 d1 sh1,
  match player_reset cs1 (pl_game p', pl_config p') d1 sh1,
        make cs1 g (Some (dict_update [] (List.concat (opt_list given ++ given_by rs)%list))) d1 sh1 with
  | Ok (cs2, p2, o2), Ok (cs3, p3, o3) => cs2 = cs3 /\ pl_gym p2 = pl_gym p3 /\ o2 = o3
  | Err e2, Err e3 => e2 = e3
  | _, _ => False
  end.
Proof.
  intros cs g given d sh cs' p obs rs p' M S cs1 d1 sh1. destruct (serves_config rs p p' S) as (G & C & _).
  assert (Mp : pl_game p = g /\ pl_config p = configured g (opt_list given)).
  { unfold make, player_reset in M. cbn [fst snd] in M. apply bind_ok in M as (st & Es & M). apply bind_ok in M as ([[cs2 g2] ob2] & Eg & M). cbn [fst snd] in M. injection M as _ <- _.
    split; [reflexivity | destruct given; reflexivity]. }
  destruct Mp as [Gp Cp]. rewrite G, Gp. set (ds := (opt_list given ++ given_by rs)%list).
  assert (C' : pl_config p' = configured g ds) by (rewrite C, Cp; unfold ds, configured; now rewrite fold_left_app). rewrite C'. unfold make.
  change (configure (default_config g) (Some (dict_update [] (List.concat ds)))) with (configured g [dict_update [] (List.concat ds)]).
  apply (C106_other_options_ignored g ds [dict_update [] (List.concat ds)] cs1 d1 sh1). intros k _. now rewrite merged_get.
Qed.
Print Assumptions C107_reset_is_make.

Lemma simulate_count sc o : forall n e a e', simulate_frames sc o n e a = Ok e' ->
  exists j, (j <= n)%nat /\ e_time e' = (e_time e + Z.of_nat j)%Z /\ (j = n \/ e_done e' = true \/ sc_terminal sc e' = Ok true).
Proof.
  induction n as [|n IH]; intros e a e' H; cbn [simulate_frames] in H; [injection H as <-; exists 0%nat; split; [lia|]; split; [cbn; lia|]; now left|].
  apply bind_ok in H as (e1 & F & H). apply bind_ok in H as (e2 & G & H).
  pose proof (forward_persists _ _ _ _ _ F) as (_ & _ & T1 & _). 
  assert (T2 : e_time e2 = (e_time e1 + 1)%Z). { unfold frame in G. apply bind_ok in G as (r1 & _ & G). apply bind_ok in G as (r2 & _ & G). injection G as <-. reflexivity. }
  destruct (e_done e2) eqn:D.
  - injection H as <-. exists 1%nat. split; [lia|]. split; [cbn; lia|]. right. now left.
  - apply bind_ok in H as (t & Et & H). destruct t.
    + injection H as <-. exists 1%nat. split; [lia|]. split; [cbn; lia|]. right. now right.
    + destruct (IH e2 a e' H) as (j & Lj & Tj & Oj). exists (S j). split; [lia|]. split; [lia|]. destruct Oj as [-> |Oj]; [now left | now right].
Qed.
(** Frequencies, on the other hand, are those of the current configuration: a step
    simulates floor(simulation_frequency / policy_frequency) frames, fewer only if it ends the
    episode. *)
Theorem C107_clock_is_live : forall cs p o d sh a p' out n sim pol,
  player_step cs p o d sh a = Ok (p', out) ->
  item (pl_config p) "simulation_frequency" = Ok (VInt sim) -> item (pl_config p) "policy_frequency" = Ok (VInt pol) -> (0 < pol)%Z ->
  (n * pol <= sim < (n + 1) * pol)%Z ->
  let t := e_time (gy_env (pl_gym p)) in let t' := e_time (gy_env (pl_gym p')) in
  t' = (t + n)%Z \/ (t <= t' <= t + n)%Z /\ (ou_done out = true \/ e_done (gy_env (pl_gym p')) = true).
Proof.
  intros cs p o d sh a p' out n sim pol H Hs Hp Pp Hn t t'. unfold t, t'. clear t t'. unfold player_step in H. apply bind_ok in H as (g & Eg & H). apply bind_ok in H as ([g' out'] & Es & H). injection H as <- <-.
  cbn [pl_gym]. unfold live in Eg. apply bind_ok in Eg as (s & _ & Eg). apply bind_ok in Eg as ([[sim' pol'] man] & Ec & Eg). injection Eg as <-. cbn [fst snd] in Es.
  unfold read_clock, read_simulation, get_num in Ec. rewrite Hs, Hp in Ec. cbn [bind as_num] in Ec.
  destruct (sim <? 0)%Z eqn:Z0; [discriminate|]. apply Z.ltb_ge in Z0. cbn [bind] in Ec. apply bind_ok in Ec as (mn & _ & Ec). injection Ec as <- <- <-.
  unfold gym_step in Es. cbn [gy_cf gy_scene gy_type gy_scenario gy_goal gy_states gy_env] in Es.
  set (cf := Common _ _ _ _ _ _) in *. set (s' := live_scene _ _) in *. set (sc := running cf s' _) in *.
  apply bind_ok in Es as (e1 & E1 & Es). apply bind_ok in Es as (os & _ & Es). apply bind_ok in Es as (rew & _ & Es). apply bind_ok in Es as (ter & Et & Es). apply bind_ok in Es as (v & _ & Es).
  assert (Fr : Z.to_nat (frames_per_step sc) = Z.to_nat n).
  { f_equal. apply C39_number_of_frames. assert (Q : sc_simulation sc = INR (Z.to_nat sim) /\ sc_policy sc = IZR pol) by (unfold sc; destruct s'; split; reflexivity). destruct Q as [-> ->].
    rewrite INR_IZR_INZ, Z2Nat.id by lia. assert (0 < IZR pol) by now apply IZR_lt. destruct Hn as [H1 H2]. apply IZR_le in H1. apply IZR_lt in H2. rewrite mult_IZR in H1, H2. rewrite plus_IZR in H2.
    split; [apply Rmult_le_reg_r with (IZR pol); [assumption|]; unfold Rdiv; rewrite Rmult_assoc, Rinv_l; lra|].
    apply Rmult_lt_reg_r with (IZR pol); [assumption|]. unfold Rdiv. rewrite Rmult_assoc, Rinv_l; lra. }
  apply env_step_frames in E1 as (E1 & _ & _). rewrite Fr in E1. apply simulate_count in E1 as (j & Lj & Tj & Oj). cbn [e_time seen_env set_road] in Tj.
  assert (N0 : (0 <= n)%Z) by nia.
  assert (K : e_time (gy_env g') = e_time e1 /\ e_done (gy_env g') = e_done e1 /\ ou_done out' = ter).
  { destruct s'; repeat (let y := fresh "y" in apply bind_ok in Es as (y & _ & Es)); injection Es as <- <-; repeat split. }
  destruct K as (-> & -> & ->). destruct Oj as [-> |[Oj|Oj]]; [left; lia | right; split; [lia | now right] | right; split; [lia | left; congruence]].
Qed.
Print Assumptions C107_clock_is_live.

(** The duration of the episode is read at each step too: in the highway, the roundabout and the
    intersection a step ends the episode exactly if its conditions hold for the duration
    configured at that time. *)
Theorem C107_duration_is_live : forall cs p o d sh a p' out dur v, player_step cs p o d sh a = Ok (p', out) ->
  item (pl_config p) "duration" = Ok (VInt dur) -> ego (gy_env (pl_gym p')) = Ok v ->
  let steps := e_steps (gy_env (pl_gym p')) in
  (pl_game p = GRoundabout -> (exists x y, gy_scene (pl_gym p) = SRoundabout x y) ->
     (ou_done out = true <-> v_crashed v = true \/ (dur <= steps)%Z)) /\
  (forall h, pl_game p = GHighway -> gy_scene (pl_gym p) = SHighway h -> item (pl_config p) "offroad_terminal" = Ok (VBool false) ->
     (ou_done out = true <-> v_crashed v = true \/ (dur <= steps)%Z)).
Proof.
  intros cs p o d sh a p' out dur v H Hd Hv steps. unfold steps. clear steps. unfold player_step in H. apply bind_ok in H as (g & Eg & H). apply bind_ok in H as ([g' out'] & Es & H). injection H as <- <-.
  cbn [pl_gym] in *. unfold live in Eg. apply bind_ok in Eg as (s & Rs & Eg). apply bind_ok in Eg as ([[sim' pol'] man] & Ec & Eg). injection Eg as <-. cbn [fst snd] in Es.
  assert (Le : forall z, Rleb (IZR dur) (IZR z) = true <-> (dur <= z)%Z).
  { intros z. split; [intros Q; apply Rleb_true in Q; now apply le_IZR | intros Q; apply Rleb_le; now apply IZR_le]. }
  unfold gym_step in Es. cbn [gy_cf gy_scene gy_type gy_scenario gy_goal gy_states gy_env] in Es.
  apply bind_ok in Es as (e1 & E1 & Es). apply bind_ok in Es as (os & _ & Es). apply bind_ok in Es as (rew & _ & Es). apply bind_ok in Es as (ter & Et & Es). apply bind_ok in Es as (v' & Ev & Es).
  split.
  - intros Gp (x & y & Gs). rewrite Gs in *. rewrite Gp in Rs. unfold read_scene, get_num in Rs. apply bind_ok in Rs as (inc & _ & Rs). rewrite Hd in Rs. cbn [bind as_num] in Rs. injection Rs as <-.
    cbn [live_scene] in *. injection Es as <- <-. cbn [gy_env ou_done] in *. rewrite Ev in Hv. injection Hv as ->.
    cbn [running sc_terminal roundabout_scenario] in Et. unfold roundabout_terminal in Et. rewrite Ev in Et. cbn [bind] in Et. injection Et as <-. rewrite orb_true_iff, Le. reflexivity.
  - intros h Gp Gs Ho. rewrite Gs in *. rewrite Gp in Rs. unfold read_scene, get_num, get_bool in Rs.
    repeat (match type of Rs with bind (item _ "duration") _ = _ => fail 1 | bind (bind (item _ "duration") _) _ = _ => fail 1 | _ => idtac end; let y := fresh "y" in apply bind_ok in Rs as (y & _ & Rs)).
    rewrite Hd in Rs. cbn [bind as_num] in Rs. rewrite Ho in Rs. cbn [bind truthy] in Rs. injection Rs as <-.
    cbn [live_scene] in *. injection Es as <- <-. cbn [gy_env ou_done] in *. rewrite Ev in Hv. injection Hv as ->.
    cbn [running sc_terminal highway_scenario hs_cfg] in Et. unfold highway_terminal in Et. rewrite Ev in Et. cbn [bind hw_duration hw_offroad] in Et.
    destruct (v_crashed v); [injection Et as <-; tauto|]. destruct (Rleb (IZR dur) (IZR (e_steps e1))) eqn:Q; injection Et as <-.
    + apply Le in Q. split; intros _; [right; exact Q | reflexivity].
    + split; [discriminate|]. intros [X|X]; [discriminate|]. apply Le in X. congruence.
Qed.
Print Assumptions C107_duration_is_live.

Lemma reset_config cs g c d sh cs' p obs : player_reset cs (g, c) d sh = Ok (cs', p, obs) -> pl_config p = c.
Proof. unfold player_reset. cbn [fst snd]. intros H. apply bind_ok in H as (st & _ & H). apply bind_ok in H as ([[cs2 g2] ob2] & _ & H). injection H as _ <- _. reflexivity. Qed.
Lemma make_config cs g given d sh cs' p obs : make cs g given d sh = Ok (cs', p, obs) -> pl_config p = configure (default_config g) given.
Proof. unfold make. apply reset_config. Qed.
Lemma parking_repeat_made cs d sh : make cs GParking (Some [("policy_frequency", VInt 1); ("duration", VInt 20)]) d sh = parking_repeat cs d sh.
Proof. unfold parking_repeat. reflexivity. Qed.
Lemma repeat_parking_config cs d sh cs' p obs : parking_repeat cs d sh = Ok (cs', p, obs) -> item (pl_config p) "simulation_frequency" = Ok (VInt 15) /\ item (pl_config p) "policy_frequency" = Ok (VInt 1).
Proof. intros H. rewrite <- parking_repeat_made in H. rewrite (make_config _ _ _ _ _ _ _ _ H). split; reflexivity. Qed.
Lemma configure_config p d : pl_config (player_configure p d) = configure (pl_config p) d.
Proof. reflexivity. Qed.
Lemma summon_repeat_made cs d sh :
  (do (cp, obs) <- make cs GSummon None d sh; Ok (fst cp, player_configure (snd cp) (Some [("policy_frequency", VInt 1)]), obs)) = summon_repeat cs d sh.
Proof. unfold summon_repeat. reflexivity. Qed.
Lemma repeat_summon_config cs d sh cs' p obs : summon_repeat cs d sh = Ok (cs', p, obs) -> item (pl_config p) "simulation_frequency" = Ok (VInt 15) /\ item (pl_config p) "policy_frequency" = Ok (VInt 1).
Proof.
  intros H. rewrite <- summon_repeat_made in H. apply bind_ok in H as ([[cs3 p3] ob3] & M & H). cbn [fst snd] in H. apply make_config in M.
  assert (Q : p = player_configure p3 (Some [("policy_frequency", VInt 1)])) by congruence. rewrite Q, configure_config, M. split; reflexivity.
Qed.
Lemma serves_keep_config rs : forall p0 p, serves p0 rs = Ok p -> given_by rs = [] -> pl_config p = pl_config p0.
Proof.
  unfold serves. induction rs as [|r rs IH]; intros p0 p Sv G; cbn [foldM] in Sv; [injection Sv as <-; reflexivity|].
  apply bind_ok in Sv as (p1 & E1 & Sv). cbn [given_by flat_map] in G. apply app_eq_nil in G as [G1 G2]. rewrite (IH p1 p Sv G2). destruct r as [dd|c1 dd sh|c1 o dd sh a]; cbn [serve] in E1.
  - injection E1 as <-. destruct dd; [discriminate G1|]. destruct p0; reflexivity.
  - apply bind_ok in E1 as ([[c2 q] ob] & E1 & Q). injection Q as <-. cbn [snd]. now apply reset_config in E1.
  - apply bind_ok in E1 as ([q out] & E1 & Q). injection Q as <-. unfold player_step in E1. apply bind_ok in E1 as (g & _ & E1). apply bind_ok in E1 as ([g' out'] & _ & E1). injection E1 as <- _. reflexivity.
Qed.
(** The "action repeat" variants of the parking lot and of the summoning task - one gives its
    options to the constructor, the other calls [configure] afterwards - simulate 15 frames
    for each action, whatever was played before, unless the episode ends. *)
Theorem C107_action_repeat : forall cs d sh p0,
  (exists cs' obs, parking_repeat cs d sh = Ok (cs', p0, obs)) \/ (exists cs' obs, summon_repeat cs d sh = Ok (cs', p0, obs)) ->
  forall rs p, serves p0 rs = Ok p -> given_by rs = [] ->
  forall cs1 o1 d1 sh1 a p' out, player_step cs1 p o1 d1 sh1 a = Ok (p', out) ->
  let t := e_time (gy_env (pl_gym p)) in let t' := e_time (gy_env (pl_gym p')) in
  t' = (t + 15)%Z \/ (t <= t' <= t + 15)%Z /\ (ou_done out = true \/ e_done (gy_env (pl_gym p')) = true).
Proof.
  intros cs d sh p0 H rs p Sv G cs1 o1 d1 sh1 a p' out E.
  assert (C0 : item (pl_config p0) "simulation_frequency" = Ok (VInt 15) /\ item (pl_config p0) "policy_frequency" = Ok (VInt 1)).
  { destruct H as [(cs' & obs & H)|(cs' & obs & H)]; [exact (repeat_parking_config _ _ _ _ _ _ H) | exact (repeat_summon_config _ _ _ _ _ _ H)]. }
  rewrite <- (serves_keep_config _ _ _ Sv G) in C0. destruct C0 as [C1 C2].
  apply (C107_clock_is_live cs1 p o1 d1 sh1 a p' out 15%Z 15%Z 1%Z E C1 C2); [reflexivity | split; [discriminate | reflexivity]].
Qed.
Print Assumptions C107_action_repeat.

(** ** C108: environments made with suitable options can be played for ever *)
Lemma reading_parts g c st : read_settings g c = Ok st -> read_scene g c = Ok (st_scene st) /\
  read_clock c = Ok (cf_simulation (st_common st), cf_policy (st_common st), cf_manual (st_common st)).
Proof.
  unfold read_settings. intros H. apply bind_ok in H as (ob & _ & H). apply bind_ok in H as (act & _ & H). apply bind_ok in H as (rc & _ & H). apply bind_ok in H as (cls & _ & H).
  apply bind_ok in H as (s & Hs & H). apply bind_ok in H as ([[sim pol] man] & Hc & H). injection H as <-. split; assumption.
Qed.
Lemma live_unchanged g c st t k gy : read_settings g c = Ok st -> playing (st_common st) (st_scene st) t k gy -> live (Player g c gy) = Ok gy.
Proof.
  intros R ((Cf & Sc & Ty & Sn & _) & _). destruct (reading_parts g c st R) as [Rs Rc]. unfold live. cbn [pl_game pl_config pl_gym]. rewrite Rs. cbn [bind]. rewrite Rc. cbn [bind fst snd].
  assert (Ls : live_scene (gy_scene gy) (st_scene st) = st_scene st) by (rewrite Sc; destruct (st_scene st) as [h| | | | | |]; try reflexivity; destruct h; reflexivity).
  rewrite Ls. destruct gy as [cf s ty sc goal states e]. cbn [gy_cf gy_scene gy_type gy_scenario gy_goal gy_states gy_env] in *. subst cf s sc.
  destruct (st_common st) as [x1 x2 x3 x4 x5 x6]. reflexivity.
Qed.
Lemma last_player_gym p trace : pl_gym (last_player p trace) = last_gym (pl_gym p) (map (fun x => (pl_gym (fst x), snd x)) trace).
Proof.
  unfold last_player, last_gym. revert p. induction trace as [|[q out] trace IH]; intros p; [reflexivity|]. cbn [map fst snd]. rewrite !last_cons. apply IH.
Qed.
Lemma plays_lifted g c st : read_settings g c = Ok st -> observation_fits (st_common st) (st_scene st) (st_observation st) -> extras_fit (st_scene st) (st_observation st) -> classes_fit (st_common st) (st_scene st) ->
  forall p acts trace, player_plays (st_scene st) p acts trace -> forall k, pl_game p = g -> pl_config p = c -> playing (st_common st) (st_scene st) (st_observation st) k (pl_gym p) ->
  Forall (in_action_space (cf_action (st_common st)) (agents_count (st_scene st))) acts ->
  gym_plays (pl_gym p) acts (map (fun x => (pl_gym (fst x), snd x)) trace) /\ pl_game (last_player p trace) = g /\ pl_config (last_player p trace) = c.
Proof.
  intros R Fit Ex Cl p acts trace H. induction H as [p|cs p o d sh a p1 out acts trace Sf Ho D Sh E H IH]; intros k Gp Cp Pl Fa.
  - split; [constructor|]. split; [exact Gp | exact Cp].
  - inversion Fa as [|? ? Fb Fa']; subst. destruct p as [g0 c0 gy]. cbn [pl_game pl_config pl_gym] in *. unfold player_step in E. rewrite (live_unchanged g0 c0 st _ k gy R Pl) in E. cbn [bind] in E.
    apply bind_ok in E as ([gy1 out1] & Es & E). injection E as <- <-. cbn [pl_gym pl_game pl_config] in *.
    destruct (gym_step_cases _ _ _ k gy cs o d sh a Pl Sf Ho D Sh Fit Ex Cl Fb) as (e1 & _ & _ & _ & _ & _ & Good & Bad).
    destruct (scene_reward cs (st_scene st) (st_observation st) (gy_goal gy) e1 a) as [r|x] eqn:Er; [|rewrite (Bad x eq_refl) in Es; discriminate].
    destruct (Good r eq_refl) as (g2 & out2 & E2 & _ & Pd). rewrite Es in E2. injection E2 as <- <-.
    destruct (IH (k + 1)%nat eq_refl eq_refl (proj1 Pd) Fa') as (IH1 & IH2 & IH3). split; [|split].
    + cbn [map fst snd pl_gym]. apply (gym_plays_cons cs gy o d sh a gy1 out1); try assumption. destruct Pl as ((_ & -> & _) & _). exact Sf.
    + unfold last_player in *. cbn [map fst]. rewrite last_cons. exact IH2.
    + unfold last_player in *. cbn [map fst]. rewrite last_cons. exact IH3.
Qed.
(** An environment whose options suit it can be made and then played for ever with actions of
    its space, whatever the random draws: no exception is raised (except the one of the two-way
    environment, see C95). *)
Theorem C108_playable : forall cs g ds d sh st, draws_ok d -> shuffles sh ->
  read_settings g (configured g ds) = Ok st -> settings_fit st d -> store_fits (st_scene st) cs ->
  exists cs' p obs, player_reset cs (g, configured g ds) d sh = Ok (cs', p, obs) /\
    (forall ob, In ob obs -> in_observation_space (cf_policy (st_common st)) (st_observation st) ob) /\
    forall acts trace, Forall (in_action_space (cf_action (st_common st)) (agents_count (st_scene st))) acts -> player_plays (st_scene st) p acts trace ->
    (forall i p1 out, nth_error trace i = Some (p1, out) ->
       (forall ob, In ob (ou_obs out) -> in_observation_space (cf_policy (st_common st)) (st_observation st) ob) /\ reward_range (st_scene st) (ou_reward out)) /\
    forall cs1 o1 d1 sh1 a, store_fits (st_scene st) cs1 -> oracle_ok o1 -> draws_ok d1 -> shuffles sh1 -> g <> GTwoWay ->
      in_action_space (cf_action (st_common st)) (agents_count (st_scene st)) a ->
      exists p1 out, player_step cs1 (last_player p trace) o1 d1 sh1 a = Ok (p1, out).
Proof.
  intros cs g ds d sh st D Sh R (Cl & Op & Po & Ob & Rw) Sf.
  destruct (reset_playing cs (st_common st) (st_scene st) (st_observation st) d sh D Cl Op Po Sf Ob Sh) as (cs' & gy & obs & vs & Er & Pl & _).
  exists cs', (Player g (configured g ds) gy), obs.
  destruct (C95_reset cs (st_common st) (st_scene st) (st_observation st) d sh D Cl Op Po Sf Ob Sh) as (cs2 & gy2 & obs2 & Er2 & _ & _ & _ & Os). rewrite Er in Er2. injection Er2 as <- <- <-.
  split; [unfold player_reset; cbn [fst snd]; rewrite R; cbn [bind]; rewrite Er; reflexivity|]. split; [exact Os|].
  intros acts trace Fa Pp. pose proof (rewards_extras _ _ _ Rw) as Ex.
  destruct (plays_lifted g (configured g ds) st R Ob Ex Cl _ _ _ Pp 0%nat eq_refl eq_refl Pl Fa) as (Gp & Lg & Lc). cbn [pl_gym] in Gp.
  split.
  - intros i p1 out Hi. destruct (C95_outcomes cs _ _ _ d sh cs' gy obs acts _ D Cl Op Po Sf Ob Rw Sh Er Fa Gp) as [_ All].
    destruct (All i (pl_gym p1) out) as (_ & A & B & _); [rewrite nth_error_map, Hi; reflexivity|]. split; [exact A | exact B].
  - intros cs1 o1 d1 sh1 a Sf1 Ho1 D1 Sh1 Ng Ha.
    assert (Ns : st_scene st <> STwoWay).
    { destruct (reading_parts _ _ _ R) as [Rs _]. intros Q. rewrite Q in Rs. destruct g; try (now apply Ng); unfold read_scene in Rs; try discriminate Rs;
        repeat (let y := fresh "y" in apply bind_ok in Rs as (y & _ & Rs)); discriminate Rs. }
    destruct (C95_step_total cs _ _ _ d sh cs' gy obs acts _ D Cl Op Po Sf Ob Rw Sh Ns Er Fa Gp cs1 o1 d1 sh1 a Sf1 Ho1 D1 Sh1 Ha) as (g1 & out & Es).
    destruct (plays_playing _ _ _ Ob Ex Cl gy acts _ Gp 0 Pl Fa) as [Pn _].
    pose proof (last_player_gym (Player g (configured g ds) gy) trace) as Lp. cbn [pl_gym] in Lp. destruct (last_player (Player g (configured g ds) gy) trace) as [g0 c0 gz]. cbn [pl_game pl_config pl_gym] in *. subst g0 c0 gz.
    unfold player_step. rewrite (live_unchanged _ _ _ _ _ _ R Pn). cbn [bind]. rewrite Es. cbn [bind]. eauto.
Qed.
Print Assumptions C108_playable.
(** What the default configurations mean. *)
Theorem C108_default_settings : forall g, read_settings g (configured g []) = Ok (default_settings g).
Proof. intros g. destruct g; reflexivity. Qed.
Print Assumptions C108_default_settings.
Lemma ranges_distinct p v name ab : (0 < p)%R -> (0 < v)%R -> In (name, ab) (square_ranges p v) -> fst ab <> snd ab.
Proof. intros Hp Hv H. repeat (destruct H as [Q|H]; [injection Q as <- <-; cbn [fst snd]; lra|]). destruct H. Qed.
Theorem C108_defaults_fit : forall g d, (g = GAgents -> forall k, (k < 2)%nat -> Rabs (dr_normal d (1000 + k)) <= 5) -> settings_fit (default_settings g) d.
Proof.
  intros g d Hn.
  assert (Kd : kin_usable (KinConfig None 5 false "sorted" true true false false) None).
  { split; [cbn; lia|]. split; [reflexivity|]. split; [reflexivity|]. split; [|split; [|exact I]]; [apply all_listed | apply all_bounded]; reflexivity. }
  destruct g; unfold settings_fit, default_settings; cbn [st_common st_scene st_observation cf_policy cf_action].
  - split; [left; reflexivity|]. split; [cbn; repeat split; lia || lra|]. split; [lra|]. split; [exact Kd|]. cbn; split; lra.
  - split; [left; reflexivity|]. split; [exact I|]. split; [lra|]. split; [cbn; repeat split; lra|]. cbn; eauto.
  - split; [reflexivity|]. split; [exact I|]. split; [lra|]. split; [cbn; repeat split; lra|]. cbn; eauto.
  - split; [exact I|]. split; [cbn; lia|]. split; [lra|]. split; [cbn; repeat split|]. cbn; split; [reflexivity | now left].
  - split; [reflexivity|]. split; [cbn; lia|]. split; [lra|]. split; [cbn; repeat split|]. reflexivity.
  - split; [left; reflexivity|]. split; [exact I|]. split; [lra|]. split; [|exact I]. split; [cbn; lia|]. split; [reflexivity|]. split; [reflexivity|]. split; [apply all_listed; reflexivity|].
    split; [apply all_bounded; reflexivity|]. intros name ab. apply ranges_distinct; lra.
  - split; [reflexivity|]. split; [cbn; split; [lia|]; split; [lia|]; now left|]. split; [lra|]. split; [|cbn; lra]. split; [cbn; lia|]. split; [reflexivity|]. split; [reflexivity|].
    split; [apply all_listed; reflexivity|]. split; [apply all_bounded; reflexivity|]. intros name ab. apply ranges_distinct; lra.
  - split; [reflexivity|]. split; [cbn [options_fit cf_simulation]; split; [lia|]; split; [lia|]; right; exact (Hn eq_refl)|]. split; [lra|]. split; [exact Kd|]. cbn; lra.
Qed.
Print Assumptions C108_defaults_fit.
(** Every environment shipped, made with its defaults - or with any change of options that
    only concern the display - can be made and played for ever. *)
Theorem C108_defaults_play : forall cs g ds d sh, let st := default_settings g in
  draws_ok d -> shuffles sh -> (g = GAgents -> forall k, (k < 2)%nat -> Rabs (dr_normal d (1000 + k)) <= 5) -> store_fits (st_scene st) cs ->
  (forall k, In k (option_names g) -> never_given ds k) -> Forall is_dict ds ->
  exists cs' p obs, player_reset cs (g, configured g ds) d sh = Ok (cs', p, obs) /\
    (forall ob, In ob obs -> in_observation_space (cf_policy (st_common st)) (st_observation st) ob) /\
    forall acts trace, Forall (in_action_space (cf_action (st_common st)) (agents_count (st_scene st))) acts -> player_plays (st_scene st) p acts trace ->
    (forall i p1 out, nth_error trace i = Some (p1, out) ->
       (forall ob, In ob (ou_obs out) -> in_observation_space (cf_policy (st_common st)) (st_observation st) ob) /\ reward_range (st_scene st) (ou_reward out)) /\
    forall cs1 o1 d1 sh1 a, store_fits (st_scene st) cs1 -> oracle_ok o1 -> draws_ok d1 -> shuffles sh1 -> g <> GTwoWay ->
      in_action_space (cf_action (st_common st)) (agents_count (st_scene st)) a ->
      exists p1 out, player_step cs1 (last_player p trace) o1 d1 sh1 a = Ok (p1, out).
Proof.
  intros cs g ds d sh st D Sh Hn Sf Ng F. apply C108_playable; try assumption.
  - transitivity (read_settings g (configured g [])); [|apply C108_default_settings]. apply read_agree. intros k Hk. destruct (C106_last_given_wins g ds F) as (_ & _ & L & _).
    specialize (L k (Ng k Hk)). unfold item in L. change (configured g []) with (default_config g). destruct (assoc k (configured g ds)), (assoc k (default_config g)); congruence.
  - now apply C108_defaults_fit.
Qed.
Print Assumptions C108_defaults_play.

(** ** C109: configurations that are rejected *)
Lemma readable_default g : exists ob, observation_factory (match assoc "observation" (default_config g) with Some v => v | None => VNone end) = Ok ob /\ In "observation" (keys (default_config g)).
Proof. destruct g; eexists; (split; [reflexivity | cbn; tauto]). Qed.
Lemma bad_action_err v e : bad_action v e -> action_factory v = Err e.
Proof.
  intros [w H|c H|c t D H N1 N2 N3|c name lo la D H Hn Ha Hs Hlo Hla Flo Fla|c D H Ha]; unfold action_factory.
  - destruct w; try reflexivity. now elim (H d).
  - cbn [as_dict bind]. unfold item. rewrite (proj2 (assoc_None "type" c) H). reflexivity.
  - cbn [as_dict bind]. unfold item. rewrite (In_assoc _ _ _ D H). cbn [bind]. unfold is_name.
    destruct t as [| | | |s| |]; try (unfold single_factory, item; rewrite (In_assoc _ _ _ D H); reflexivity).
    assert (Q : forall x, VStr s <> VStr x -> String.eqb s x = false) by (intros x Hx; apply String.eqb_neq; congruence).
    rewrite (Q _ N3). unfold single_factory, item. rewrite (In_assoc _ _ _ D H). cbn [bind]. rewrite (Q _ N1), (Q _ N2), (Q _ N3). reflexivity.
  - cbn [as_dict bind]. unfold item. rewrite (In_assoc _ _ _ D H). cbn [bind]. unfold is_name.
    assert (S : single_factory c = Err ValueError).
    { unfold single_factory, item. rewrite (In_assoc _ _ _ D H). cbn [bind]. unfold arg. rewrite (proj2 (assoc_None _ c) Ha), (proj2 (assoc_None _ c) Hs), (In_assoc _ _ _ D Hlo), (In_assoc _ _ _ D Hla), Flo, Fla.
      destruct Hn as [<-|[<-|[]]]; reflexivity. }
    destruct Hn as [<-|[<-|[]]]; rewrite S; reflexivity.
  - cbn [as_dict bind]. unfold item. rewrite (In_assoc _ _ _ D H). cbn [bind is_name]. unfold required. rewrite (proj2 (assoc_None _ c) Ha). reflexivity.
Qed.
Lemma bad_observation_err v e : bad_observation v e -> observation_factory v = Err e.
Proof.
  intros [w H|c H|c t D H N|c D H Hs|c D H Ha]; unfold observation_factory.
  - destruct w; try reflexivity. now elim (H d).
  - cbn [as_dict bind]. unfold item. rewrite (proj2 (assoc_None "type" c) H). reflexivity.
  - cbn [as_dict bind]. unfold item. rewrite (In_assoc _ _ _ D H). cbn [bind]. unfold is_name.
    destruct t as [| | | |s| |]; try (unfold observer_factory, item; rewrite (In_assoc _ _ _ D H); reflexivity).
    assert (Q : forall x, In x ["TimeToCollision"; "Kinematics"; "OccupancyGrid"; "KinematicsGoal"; "GrayscaleObservation"; "AttributesObservation"; "MultiAgentObservation"] -> String.eqb s x = false)
      by (intros x Hx; apply String.eqb_neq; intros ->; exact (N x Hx eq_refl)).
    rewrite (Q "MultiAgentObservation") by (cbn; tauto). unfold observer_factory, item. rewrite (In_assoc _ _ _ D H). cbn [bind existsb]. rewrite !Q by (cbn; tauto). reflexivity.
  - cbn [as_dict bind]. unfold item. rewrite (In_assoc _ _ _ D H). cbn [bind]. cbn [is_name String.eqb Ascii.eqb Bool.eqb]. unfold observer_factory, item. rewrite (In_assoc _ _ _ D H). cbn [bind String.eqb Ascii.eqb Bool.eqb].
    unfold required. rewrite (proj2 (assoc_None _ c) Hs). reflexivity.
  - cbn [as_dict bind]. unfold item. rewrite (In_assoc _ _ _ D H). cbn [bind is_name]. unfold required. rewrite (proj2 (assoc_None _ c) Ha). reflexivity.
Qed.
(** Every environment class rejects such options when it is made (or reset) with them,
    whatever the draws, and with the same exception. *)
Theorem C109_rejected : forall cs g ds d sh v e, Forall is_dict ds ->
  (given_last ds "observation" v -> bad_observation v e -> player_reset cs (g, configured g ds) d sh = Err e) /\
  (given_last ds "action" v -> bad_action v e -> never_given ds "observation" -> player_reset cs (g, configured g ds) d sh = Err e).
Proof.
  intros cs g ds d sh v e F. destruct (C106_last_given_wins g ds F) as (_ & L & L2 & _). split.
  - intros G B. unfold player_reset, read_settings. cbn [fst snd]. rewrite (L _ _ G). cbn [bind]. rewrite (bad_observation_err _ _ B). reflexivity.
  - intros G B N. unfold player_reset, read_settings. cbn [fst snd]. rewrite (L _ _ G), (L2 _ N). destruct (readable_default g) as (ob & Eo & Hk). unfold item.
    apply assoc_keys in Hk as (w & Hw). rewrite Hw in Eo |- *. cbn [bind]. rewrite Eo. cbn [bind]. rewrite (bad_action_err _ _ B). reflexivity.
Qed.
Print Assumptions C109_rejected.
(** A class of other vehicles that is not a dotted path is rejected by every environment
    that looks it up (by C106 the parking lot ignores the option). *)
Lemma contains_dot s : ~ In "."%char (list_ascii_of_string s) -> contains "." s = false.
Proof.
  induction s as [|a s IH]; intros N; [reflexivity|]. cbn [list_ascii_of_string In] in N. cbn [contains]. rewrite IH by tauto. rewrite orb_false_r.
  cbn [String.prefix]. destruct (Ascii.ascii_dec "." a) as [<-|_]; [tauto | reflexivity].
Qed.
Lemma readable_action g : exists act, action_factory (match assoc "action" (default_config g) with Some v => v | None => VNone end) = Ok act.
Proof. destruct g; eexists; reflexivity. Qed.
Theorem C109_other_vehicles : forall cs g d sh s, In "other_vehicles_type" (option_names g) -> ~ In "."%char (list_ascii_of_string s) ->
  make cs g (Some [("other_vehicles_type", VStr s)]) d sh = Err ValueError.
Proof.
  intros cs g d sh s Hg N. unfold make, player_reset, configure. cbn [fst snd]. set (c := dict_update _ _).
  assert (U : forall k, String.eqb k "other_vehicles_type" = false -> assoc k c = assoc k (default_config g)).
  { intros k Q. unfold c. rewrite update_get. cbn [rev app assoc]. rewrite Q. reflexivity. }
  assert (W : assoc "other_vehicles_type" c = Some (VStr s)) by (unfold c; rewrite update_get; reflexivity).
  unfold read_settings, get_bool, read_class, item. rewrite !U by reflexivity. rewrite W.
  destruct (readable_default g) as (ob & Eo & _). destruct (readable_action g) as (act & Ea).
  assert (Ho : exists v, assoc "observation" (default_config g) = Some v) by (destruct g; eexists; reflexivity).
  assert (Hc : exists v, assoc "action" (default_config g) = Some v) by (destruct g; eexists; reflexivity).
  assert (Hs : assoc "show_trajectories" (default_config g) = Some (VBool false)) by (destruct g; reflexivity).
  destruct Ho as [vo Ho], Hc as [va Hc]. rewrite Ho, Hc, Hs in *. cbn [bind]. rewrite Eo. cbn [bind]. rewrite Ea. cbn [bind truthy].
  assert (K : class_from_path (VStr s) = Err ValueError).
  { unfold class_from_path. cbn [as_str bind].
    assert (Q : forall p, In "."%char (list_ascii_of_string p) -> String.eqb s p = false) by (intros p Hp; apply String.eqb_neq; intros ->; exact (N Hp)).
    rewrite !Q by (cbn; tauto). rewrite (contains_dot _ N). reflexivity. }
  rewrite K. destruct g; try reflexivity. exfalso. cbn in Hg. repeat (destruct Hg as [Hg|Hg]; [discriminate Hg|]). exact Hg.
Qed.
Print Assumptions C109_other_vehicles.
(** [configure] does not check: the running episode goes on as before (its action and
    observation types are those of the last reset), and the exception is raised by the next
    reset. *)
Lemma read_untouched g c name v : (name = "action" \/ name = "observation") ->
  read_scene g (dict_update c [(name, v)]) = read_scene g c /\ read_clock (dict_update c [(name, v)]) = read_clock c.
Proof.
  intros N. assert (I : forall k, existsb (String.eqb k) ["action"; "observation"] = false -> item (dict_update c [(name, v)]) k = item c k).
  { intros k H. unfold item. rewrite update_get. cbn [rev app assoc]. cbn [existsb] in H. apply orb_false_iff in H as [H1 H2]. apply orb_false_iff in H2 as [H2 _].
    destruct N as [-> | ->]; [rewrite H1 | rewrite H2]; reflexivity. }
  split.
  - destruct g; try reflexivity; unfold read_scene, get_count, get_num, get_bool; rewrite !I by reflexivity; reflexivity.
  - unfold read_clock, read_simulation, get_num, get_bool. rewrite !I by reflexivity. reflexivity.
Qed.
Theorem C109_seen_at_reset : forall p name v e, let q := player_configure p (Some [(name, v)]) in
  name = "observation" /\ bad_observation v e \/
  name = "action" /\ bad_action v e /\ (exists w ob, item (pl_config p) "observation" = Ok w /\ observation_factory w = Ok ob) ->
  (forall cs o d sh a,
     match player_step cs p o d sh a, player_step cs q o d sh a with
     | Ok (p1, out1), Ok (q1, out2) => pl_gym p1 = pl_gym q1 /\ out1 = out2
     | Err e1, Err e2 => e1 = e2
     | _, _ => False
     end) /\
  (forall cs d sh, player_reset cs (pl_game q, pl_config q) d sh = Err e).
Proof.
  intros p name v e q H. destruct p as [g c gy]. unfold q, player_configure. cbn [pl_game pl_config pl_gym configure] in *.
  assert (N : name = "action" \/ name = "observation") by tauto. destruct (read_untouched g c name v N) as [Rs Rc]. split.
  - intros cs o d sh a. unfold player_step, live. cbn [pl_game pl_config pl_gym]. rewrite Rs, Rc.
    destruct (read_scene g c) as [s|]; cbn [bind]; [|reflexivity]. destruct (read_clock c) as [[[sim pol] man]|]; cbn [bind]; [|reflexivity].
    match goal with |- context [gym_step cs ?x o d sh a] => destruct (gym_step cs x o d sh a) as [[g' out]|] end; cbn [bind]; [|reflexivity]. cbn [pl_gym]. split; reflexivity.
  - intros cs d sh. unfold player_reset, read_settings. cbn [fst snd]. unfold item in *. destruct H as [[-> B] | (-> & B & w & ob & Hw & Ho)].
    + rewrite (update_get _ c "observation"). cbn [rev app assoc String.eqb Ascii.eqb Bool.eqb bind]. rewrite (bad_observation_err _ _ B). reflexivity.
    + rewrite (update_get _ c "observation"), (update_get _ c "action"). cbn [rev app assoc String.eqb Ascii.eqb Bool.eqb]. rewrite Hw. cbn [bind]. rewrite Ho. cbn [bind]. rewrite (bad_action_err _ _ B). reflexivity.
Qed.
Print Assumptions C109_seen_at_reset.

(** ** The hypotheses can be met *)
(** The last dictionary wins; nothing remains of the defaults inside "observation" and
    "action"; a misspelt option does nothing. *)
Example C106_nonvacuous :
  given_last [[("duration", VInt 20)]; [("duration", VInt 30); ("screen_width", VInt 100)]] "duration" (VInt 30) /\
  (exists st, read_settings GRoundabout (configured GRoundabout [[("observation", VDict [("type", VStr "Kinematics"); ("vehicles_count", VInt 10)])]]) = Ok st /\
     st_observation st = OneObserver (Kinematics (KinConfig None 10 false "sorted" true true false false) None)) /\
  (exists st, read_settings GIntersection (configured GIntersection [[("action", VDict [("type", VStr "DiscreteMetaAction")])]]) = Ok st /\
     cf_action (st_common st) = Single (Discrete true true)) /\
  agree (option_names GHighway) (configured GHighway [[("lane_count", VInt 2)]]) (configured GHighway []) /\
  agree action_names [("type", VStr "ContinuousAction"); ("laterall", VBool false)] [("type", VStr "ContinuousAction")].
Proof.
  split; [|split; [|split; [|split]]].
  - exists [[("duration", VInt 20)]], [("duration", VInt 30); ("screen_width", VInt 100)], []. split; [reflexivity|]. split; [now left|]. intros d [].
  - eexists. split; reflexivity.
  - eexists. split; reflexivity.
  - intros k Hk. cbn in Hk. repeat (destruct Hk as [<-|Hk]; [reflexivity|]). destruct Hk.
  - intros k Hk. cbn in Hk. repeat (destruct Hk as [<-|Hk]; [reflexivity|]). destruct Hk.
Qed.
(** An environment that is made and then stepped. *)
Lemma default_played g : g <> GTwoWay -> (g = GAgents -> forall k, (k < 2)%nat -> Rabs (dr_normal some_draws (1000 + k)) <= 5) -> store_fits (st_scene (default_settings g)) classes_default ->
  forall a, in_action_space (cf_action (st_common (default_settings g))) (agents_count (st_scene (default_settings g))) a ->
  exists cs p obs p1 out, make classes_default g None some_draws no_shuffle = Ok (cs, p, obs) /\
    player_step classes_default p some_oracle some_draws no_shuffle a = Ok (p1, out) /\ pl_config p = default_config g.
Proof.
  intros Ng Hn Sf a Ha. assert (Sh : shuffles no_shuffle) by (intros k l; apply Permutation.Permutation_refl).
  destruct (C108_defaults_play classes_default g [] some_draws no_shuffle some_draws_ok Sh Hn Sf ltac:(intros k _ d []) ltac:(constructor)) as (cs & p & obs & E & _ & H).
  destruct (H [] [] ltac:(constructor) ltac:(constructor)) as (_ & H2). destruct (H2 classes_default some_oracle some_draws no_shuffle a Sf some_oracle_ok some_draws_ok Sh Ng Ha) as (p1 & out & E1).
  exists cs, p, obs, p1, out. split; [exact E|]. split; [exact E1|]. unfold player_reset in E. apply bind_ok in E as (st & _ & E). apply bind_ok in E as ([[cs2 gy] ob] & _ & E). injection E as _ <- _. reflexivity.
Qed.
Example C107_nonvacuous : exists cs p obs p1 out, make classes_default GRoundabout None some_draws no_shuffle = Ok (cs, p, obs) /\
  player_step classes_default p some_oracle some_draws no_shuffle (ActInt 1) = Ok (p1, out) /\
  serves p ([] ++ [Step classes_default some_oracle some_draws no_shuffle (ActInt 1); Configure (Some [("policy_frequency", VInt 5)])])%list = Ok (player_configure p1 (Some [("policy_frequency", VInt 5)])) /\
  just_reset [] /\ no_reset [Step classes_default some_oracle some_draws no_shuffle (ActInt 1); Configure (Some [("policy_frequency", VInt 5)])] /\
  item (pl_config p) "simulation_frequency" = Ok (VInt 15) /\ item (pl_config p) "policy_frequency" = Ok (VInt 1) /\ item (pl_config p) "duration" = Ok (VInt 11) /\ (15 * 1 <= 15 < (15 + 1) * 1)%Z.
Proof.
  destruct (default_played GRoundabout ltac:(discriminate) ltac:(discriminate) ltac:(left; reflexivity) (ActInt 1) ltac:(cbn; lia)) as (cs & p & obs & p1 & out & E & E1 & Ec).
  exists cs, p, obs, p1, out. split; [exact E|]. split; [exact E1|]. split.
  { unfold serves. cbn [app foldM serve]. rewrite E1. reflexivity. }
  split; [now left|]. split; [intros c d sh [Q|[Q|[]]]; discriminate Q|]. rewrite Ec. split; [reflexivity|]. split; [reflexivity|]. split; [reflexivity|]. lia.
Qed.
Example C108_nonvacuous : forall g, g <> GTwoWay ->
  exists cs p obs p1 out, make classes_default g None some_draws no_shuffle = Ok (cs, p, obs) /\
    player_step classes_default p some_oracle some_draws no_shuffle (match g with GParking | GSummon => ActVec [0; 1] | GAgents => ActTuple [ActInt 0; ActInt 2] | _ => ActInt 1 end) = Ok (p1, out).
Proof.
  intros g Ng.
  assert (Hn : g = GAgents -> forall k, (k < 2)%nat -> Rabs (dr_normal some_draws (1000 + k)) <= 5) by (intros _ k _; cbn [some_draws dr_normal]; rewrite Rabs_R0; lra).
  assert (Ha : in_action_space (cf_action (st_common (default_settings g))) (agents_count (st_scene (default_settings g)))
                 (match g with GParking | GSummon => ActVec [0; 1] | GAgents => ActTuple [ActInt 0; ActInt 2] | _ => ActInt 1 end)).
  { destruct g; cbn; try (split; [lia | now left]); try (split; [reflexivity | now left]).
    split; [reflexivity|]. apply Forall_cons; [cbn; split; [lia | now left]|]. apply Forall_cons; [cbn; split; [lia | now left]|]. constructor. }
  destruct (default_played g Ng Hn ltac:(destruct g; try (left; reflexivity); reflexivity) _ Ha) as (cs & p & obs & p1 & out & E & E1 & _).
  exists cs, p, obs, p1, out. split; assumption.
Qed.
Example C109_nonvacuous :
  bad_action (VStr "ContinuousAction") TypeError /\ bad_action (VDict [("typ", VStr "ContinuousAction")]) KeyError /\ bad_action (VDict [("type", VStr "Continuous")]) ValueError /\
  bad_action (VDict [("type", VStr "DiscreteMetaAction"); ("longitudinal", VBool false); ("lateral", VBool false)]) ValueError /\
  bad_action (VDict [("type", VStr "MultiAgentAction")]) TypeError /\ bad_observation (VDict [("type", VStr "KinematicsGoal")]) TypeError /\
  given_last [[("action", VDict [("type", VStr "Continuous")])]] "action" (VDict [("type", VStr "Continuous")]) /\
  never_given [[("action", VDict [("type", VStr "Continuous")])]] "observation".
Proof.
  assert (D1 : forall x, is_dict [("type", x)]) by (intros x; repeat constructor; intros []).
  split; [constructor; discriminate|]. split; [constructor; intros [Q|[]]; discriminate Q|].
  split; [apply (bad_type _ (VStr "Continuous")); [apply D1 | now left | discriminate | discriminate | discriminate]|].
  split; [apply (bad_no_axis _ "DiscreteMetaAction" (VBool false) (VBool false)); try reflexivity; try (cbn; tauto)|].
  { repeat constructor; cbn; intros H; repeat (destruct H as [H|H]; [discriminate H|]); exact H. }
  { cbn. intros H; repeat (destruct H as [H|H]; [discriminate H|]); exact H. }
  { cbn. intros H; repeat (destruct H as [H|H]; [discriminate H|]); exact H. }
  split; [apply bad_no_agents; [apply D1 | now left | intros [Q|[]]; discriminate Q]|].
  split; [apply bado_no_scales; [apply D1 | now left | intros [Q|[]]; discriminate Q]|].
  split; [exists [], [("action", VDict [("type", VStr "Continuous")])], []; split; [reflexivity|]; split; [now left | intros d []]|].
  intros d [<-|[]] [Q|[]]. discriminate Q.
Qed.
Lemma make_reset cs g d sh given : make cs g (Some given) d sh = player_reset cs (g, configured g [given]) d sh.
Proof. reflexivity. Qed.
Example C107_action_repeat_nonvacuous : exists cs p obs, parking_repeat classes_default some_draws no_shuffle = Ok (cs, p, obs).
Proof.
  assert (Sh : shuffles no_shuffle) by (intros k l; apply Permutation.Permutation_refl).
  destruct (C108_playable classes_default GParking [[("policy_frequency", VInt 1); ("duration", VInt 20)]] some_draws no_shuffle
    (Settings (Common 15 1 false (Single (Continuous (ContinuousCfg (-5, 5) (- PI / 4, PI / 4) true true false true))) CIdm false) (SParking 1 20) (OneObserver (KinematicsGoal goal_names goal_scales)))
    some_draws_ok Sh) as (cs & p & obs & E & _).
  - reflexivity.
  - split; [exact I|]. split; [cbn; lia|]. split; [cbn; lra|]. split; [cbn; repeat split|]. cbn; split; [reflexivity | now left].
  - left; reflexivity.
  - exists cs, p, obs. rewrite <- parking_repeat_made, make_reset. exact E.
Qed.
(** The options of C106_flags and C109_other_vehicles are met. *)
Example C109_other_vehicles_nonvacuous :
  In "other_vehicles_type" (option_names GHighway) /\ ~ In "."%char (list_ascii_of_string "IDMVehicle") /\
  (exists st, read_settings GMerge (configured GMerge [[("manual_control", VList [])]]) = Ok st /\ cf_manual (st_common st) = false) /\
  (exists st, read_settings GMerge (configured GMerge [[("manual_control", VStr "off")]]) = Ok st /\ cf_manual (st_common st) = true).
Proof.
  split; [cbn; tauto|]. split; [cbn; intros H; repeat (destruct H as [H|H]; [discriminate H|]); exact H|]. split; eexists; split; reflexivity.
Qed.
