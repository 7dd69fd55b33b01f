(** Every reset produces an environment that can be stepped. *)
From Verif Require Import Prelude M_Utils M_Lane M_Road M_Vehicle M_Kinematics M_Control M_Behavior M_Regulation M_Action M_Env M_Scenes M_Nets M_Reset S_Reset
  S_Geometry S_Road S_Vehicle S_Control S_Behavior S_Regulation S_Env P_Base P_Utils P_Lane P_Graph P_Bfs P_Query P_Kin P_Crash P_Control P_Behavior P_Traffic P_Regulation P_Action P_Env P_Scenes P_Nets P_Reset.
From Coq Require Import Lia Lra.
Open Scope R_scope.

Definition two_kinds (cf : common) (k : vkind) : Prop := k = ego_kind cf \/ k = kind_of (cf_traffic cf).
Lemma two_kinds_fit cf rd : cf_traffic cf = CIdm \/ (ego_kind cf = KMDP /\ forall o, In o (rd_objects rd) -> o_kind o = KLandmark) -> kinds_fit (two_kinds cf) rd.
Proof.
  intros [C|[C O]]; [left | right; split; [|exact O]].
  - intros k [-> | ->]; [destruct (ego_kind_cases cf) as [-> |[-> | ->]]; discriminate | rewrite C; discriminate].
  - intros k [-> | ->]; [now rewrite C | apply kind_of_controlled].
Qed.
Lemma newborn_member g (K : vkind -> Prop) k id p h s v : newborn g k id p h s v -> K k -> member g K v.
Proof. intros N H. split; [eapply newborn_placed, N|]. destruct N as (_ & -> & _). exact H. Qed.
Lemma growing_new g (K : vkind -> Prop) rd k id p h s v : growing (member g K) g rd -> newborn g k id p h s v -> K k -> ~ In id (map v_id (rd_vehicles rd)) ->
  growing (member g K) g (add_vehicle rd v).
Proof.
  intros G N H D. apply growing_add; [exact G | eapply newborn_member; eassumption|]. destruct N as (-> & _). exact D.
Qed.
Lemma agents_first g k cf id p h s v : newborn g k id p h s v -> agents k (add_vehicle (empty_road g cf) v) [id].
Proof.
  intros (I & K & _) i [<- |[]]. exists v. split; [now left | now split].
Qed.

(** ** Two-way road *)
Lemma two_way_get len : get_lane (two_way_net len) ("a", "b", Some 1%Z)%string = Ok (straight_lane (0, DEFAULT_WIDTH) (len, DEFAULT_WIDTH) DEFAULT_WIDTH (LNone, LContinuousLine) false 20 0%Z) /\
  get_lane (two_way_net len) ("b", "a", Some 0%Z)%string = Ok (straight_lane (len, 0) (0, 0) DEFAULT_WIDTH (LNone, LNone) false 20 0%Z).
Proof. split; [apply (build_get _ _ _ 1)|apply (build_get _ _ _ 0)]; reflexivity. Qed.
Lemma two_way_ready cs cf d sc : classes_fit cf STwoWay -> sc_regulated sc = false -> sc_action sc = cf_action cf -> exists e, two_way_reset cs cf d = Ok e /\ ready sc e /\ starts e 1.
Proof.
  intros C Rg Ac. set (g := two_way_net 800). assert (B : built g) by apply built_build.
  assert (N : g <> []) by (apply build_nonempty; discriminate). destruct (two_way_get 800) as [G1 G2]. fold g in G1, G2.
  unfold two_way_reset. cbn [rd_net empty_road]. fold g. rewrite G1. cbn [bind].
  match goal with |- context [new_ego ?a ?b ?c ?x ?p ?h ?s] => destruct (new_ego_total a b c x p h s B N (ego_kind_cases cf)) as (e & -> & Ne & _) end.
  cbn [bind]. set (id := fresh_id (empty_road g cf) []) in *.
  set (Inv := fun (_ : nat) rd => growing (member g (two_kinds cf)) g rd /\ agents (ego_kind cf) rd [id] /\ rd_objects rd = []).
  destruct (foldM_inv Inv (two_way_ahead cs cf d) (seq 0 3) (add_vehicle (empty_road g cf) e)) as (rd & -> & (Gr & A & O)).
  { intros k rd i _ (Gr & A & O). unfold two_way_ahead. rewrite (proj1 Gr), G1. cbn [bind].
    match goal with |- context [new_traffic ?a ?b ?c ?x ?p ?h ?s ?t] => destruct (new_traffic_total a b c x p h s t B N) as (v & -> & Nv & _) end.
    cbn [bind]. eexists. split; [reflexivity|]. split; [|split; [apply agents_add, A | exact O]].
    eapply growing_new; [exact Gr | exact Nv | now right | apply fresh_not_in]. }
  { split; [eapply growing_new; [apply growing_empty | exact Ne | now left | tauto]|]. split; [eapply agents_first, Ne | reflexivity]. }
  cbn [bind]. destruct (foldM_inv Inv (two_way_oncoming cs cf d) (seq 0 2) rd) as (rd' & -> & (Gr' & A' & O')).
  { clear rd Gr A O. intros k rd i _ (Gr & A & O). unfold two_way_oncoming. rewrite (proj1 Gr), G2. cbn [bind].
    match goal with |- context [new_traffic ?a ?b ?c ?x ?p ?h ?s ?t] => destruct (new_traffic_total a b c x p h s t B N) as (v & -> & Nv & _) end.
    cbn [bind]. eexists. split; [reflexivity|]. split; [|split; [apply agents_add, A | exact O]].
    apply growing_add; [exact Gr | |].
    - split; [|right; cbn; apply Nv]. destruct (newborn_placed _ _ _ _ _ _ _ Nv) as [L T]. split; [exact L|]. intros Hc. cbn. split; [|apply T, Hc].
      apply (get_lane_has_id _ "b" "a" 0 _ G2).
    - cbn. rewrite (proj1 Nv). apply fresh_not_in. }
  { repeat split; try apply Gr; try assumption. }
  cbn [bind]. eexists. split; [reflexivity|]. split; [|apply (starts_fresh _ [_]), NoDup_one]. apply (ready_plain (two_kinds cf) sc g); [exact B | exact N | exact Gr' | | exact Rg | discriminate | rewrite Ac; exact A'].
  apply two_kinds_fit. destruct C as [C|C]; [now left | right]. split; [exact C|]. rewrite O'. intros o [].
Qed.

(** ** Merge *)
Lemma merge_get : get_lane merge_net ("a", "b", Some 0%Z)%string = Ok (straight_lane (0, 0) (150 + 80, 0) DEFAULT_WIDTH (LContinuousLine, LStriped) false 20 0%Z) /\
  get_lane merge_net ("a", "b", Some 1%Z)%string = Ok (straight_lane (0, DEFAULT_WIDTH) (150 + 80, DEFAULT_WIDTH) DEFAULT_WIDTH (LNone, LContinuousLine) false 20 0%Z) /\
  get_lane merge_net ("j", "k", Some 0%Z)%string = Ok merge_ljk.
Proof. split; [apply (build_get _ _ _ 0)|split; [apply (build_get _ _ _ 1)|apply (build_get _ _ _ 0)]]; reflexivity. Qed.
Lemma merge_ready cs cf sc : cf_traffic cf = CIdm -> sc_regulated sc = false -> sc_action sc = cf_action cf -> exists e, merge_reset cs cf = Ok e /\ ready sc e /\ starts e 1.
Proof.
  intros C Rg Ac. assert (B : built merge_net) by apply built_build.
  assert (N : merge_net <> []) by (apply build_nonempty; discriminate). destruct merge_get as (G0 & G1 & G2).
  unfold merge_reset. cbn [rd_net empty_road add_object set_objects]. rewrite G1. cbn [bind].
  match goal with |- context [new_ego ?a ?b ?c ?x ?p ?h ?s] => destruct (new_ego_total a b c x p h s B N (ego_kind_cases cf)) as (e & -> & Ne & _) end.
  cbn [bind]. match type of Ne with newborn _ _ ?i _ _ _ _ => set (id := i) in * end.
  set (Inv := fun (_ : nat) rd => growing (member merge_net (two_kinds cf)) merge_net rd /\ agents (ego_kind cf) rd [id]).
  match goal with |- context [foldM _ ?xs ?rd0] => destruct (foldM_inv Inv (merge_other cs cf) xs rd0) as (rd & -> & (Gr & A)) end.
  { intros k rd [[i s] sp] Hk (Gr & A). unfold merge_other. rewrite (proj1 Gr).
    assert (exists l, get_lane merge_net i = Ok l) as [l ->].
    { destruct k as [|[|[|k]]]; [| | |cbn in Hk; destruct k; discriminate]; injection Hk as <- _ _; eauto. }
    cbn [bind]. match goal with |- context [new_traffic ?a ?b ?c ?x ?p ?h ?s ?t] => destruct (new_traffic_total a b c x p h s t B N) as (v & -> & Nv & _) end.
    cbn [bind]. eexists. split; [reflexivity|]. split; [|apply agents_add, A].
    eapply growing_new; [exact Gr | exact Nv | now right | apply fresh_not_in]. }
  { split; [eapply growing_new; [apply growing_object, growing_empty | exact Ne | now left | tauto]|]. intros i [<- |[]]. exists e. split; [now left|]. split; apply Ne. }
  cbn [bind]. rewrite (proj1 Gr), G2. cbn [bind].
  match goal with |- context [new_traffic ?a ?b ?c ?x ?p ?h ?s ?t] => destruct (new_traffic_total a b c x p h s t B N) as (v & -> & Nv & _) end.
  cbn [bind]. eexists. split; [reflexivity|]. split; [|apply (starts_fresh _ [_]), NoDup_one]. apply (ready_plain (two_kinds cf) sc merge_net); [exact B | exact N | | apply two_kinds_fit; now left | exact Rg | discriminate | rewrite Ac; apply agents_add, A].
  apply growing_add; [exact Gr | apply (newborn_member _ _ _ _ _ _ _ _ Nv); now right | cbn; rewrite (proj1 Nv); apply fresh_not_in].
Qed.

(** ** Parking *)
Lemma assoc_In {A} k (l : list (string * A)) x : assoc k l = Some x -> In (k, x) l.
Proof. induction l as [|[k' y] l IH]; cbn; [discriminate|]. destruct (String.eqb_spec k k') as [-> |]; [intros [= ->]; now left | intros H; right; auto]. Qed.
Lemma lanes_list_In g a b k l : has_lane g a b k l -> In l (lanes_list g).
Proof.
  intros (d & ls & H1 & H2 & H3). unfold lanes_list. apply in_flat_map. exists (a, d). split; [apply assoc_In, H1|].
  apply in_flat_map. exists (b, ls). split; [apply assoc_In, H2 | eapply nth_error_In, H3].
Qed.
Lemma lanes_list_nonempty g a b k l : has_lane g a b k l -> lanes_list g <> [].
Proof. intros H E. apply lanes_list_In in H. rewrite E in H. destruct H. Qed.
Lemma parking_ready cs cf n d sc : draws_ok d -> (0 < n)%nat -> sc_regulated sc = false -> sc_action sc = cf_action cf ->
  exists goal e, parking_reset cs cf n d = Ok (goal, e) /\ ready sc e /\ starts e n.
Proof.
  intros D Hn Rg Ac. set (g := parking_net 15). assert (B : built g) by apply built_build.
  assert (N : g <> []) by (apply build_nonempty; discriminate). unfold parking_reset. fold g.
  set (Inv := fun (k : nat) (st : road * list nat) => growing (member g (two_kinds cf)) g (fst st) /\ List.length (snd st) = k /\ agents (ego_kind cf) (fst st) (snd st) /\
     Forall (fun v => v_kind v = ego_kind cf) (rd_vehicles (fst st)) /\ NoDup (snd st)).
  destruct (foldM_inv Inv (parking_ego cs cf d) (seq 0 n) (empty_road g cf, [])) as ([rd ctl] & -> & (Gr & L & A & Fk & ND)).
  { intros k [rd ctl] i _ (Gr & L & A & Fk & ND). cbn [fst snd] in *. unfold parking_ego. rewrite (proj1 Gr).
    match goal with |- context [new_ego ?a ?b ?c ?x ?p ?h ?s] => destruct (new_ego_total a b c x p h s B N (ego_kind_cases cf)) as (e & -> & Ne & _) end.
    cbn [bind]. eexists. split; [reflexivity|]. unfold Inv. cbn [fst snd]. split; [eapply growing_new; [exact Gr | exact Ne | now left | apply fresh_not_in]|].
    split; [rewrite app_length; cbn; lia|]. split; [rewrite <- (proj1 Ne); apply agents_new; [exact A | apply Ne]|].
    split; [|apply NoDup_fresh, ND]. cbn. apply Forall_app. split; [exact Fk|]. constructor; [apply Ne | constructor]. }
  { split; [apply growing_empty|]. split; [reflexivity|]. split; [intros i []|]. split; constructor. }
  cbn [bind fst snd] in *. rewrite seq_length in L. rewrite (proj1 Gr).
  destruct (choice_total (dr_int d 0) (lanes_list g)) as (l & -> & _); [apply D | apply (lanes_list_nonempty g "a" "b" 0 (straight_lane (spot_x 15 0, 10) (spot_x 15 0, 10 + 8) 4 (LContinuous, LContinuous) false 20 0%Z)); apply build_has; reflexivity |].
  cbn [bind]. do 2 eexists. split; [reflexivity|]. split; [|rewrite <- L; apply starts_fresh, ND].
  apply (ready_plain (fun k => k = ego_kind cf) sc g); [exact B | exact N | | | exact Rg | destruct ctl; [cbn in L; lia | discriminate] | rewrite Ac; exact A].
  - apply growing_object. destruct Gr as (E & F & ND'). split; [exact E|]. split; [|exact ND']. rewrite Forall_forall in *. intros v Hv. split; [apply F, Hv | apply Fk, Hv].
  - left. intros k ->. destruct (ego_kind_cases cf) as [-> |[-> | ->]]; discriminate.
Qed.

(** ** Removing vehicles while iterating *)
Lemma purge_cons2 bad v w l : bad v = true -> purge bad (v :: w :: l) = w :: purge bad l.
Proof. intros H. cbn [purge]. now rewrite H. Qed.
(** A sublist ... *)
Lemma purge_sub bad : forall n l, (List.length l <= n)%nat -> forall v, In v (purge bad l) -> In v l.
Proof.
  induction n as [|n IH]; intros l L v; (destruct l as [|x l]; [intros []|]); cbn [List.length] in L; [lia|].
  cbn [purge]. destruct (bad x); [destruct l as [|w l]; [intros []|]|].
  - cbn [List.length] in L. intros [<- |H]; [right; now left | right; right; apply (IH l); [lia | exact H]].
  - intros [<- |H]; [now left | right; apply (IH l); [lia | exact H]].
Qed.
(** ... in the same order ... *)
Lemma purge_nodup bad : forall n l, (List.length l <= n)%nat -> NoDup (map v_id l) -> NoDup (map v_id (purge bad l)).
Proof.
  assert (Sub : forall l v, In v (purge bad l) -> In v l) by (intros l; apply (purge_sub bad (List.length l)); lia).
  assert (M : forall l x, In x (map v_id (purge bad l)) -> In x (map v_id l)) by (intros l x H; apply in_map_iff in H as (v & <- & H); apply in_map, Sub, H).
  induction n as [|n IH]; intros l L; (destruct l as [|x l]; [constructor|]); cbn [List.length] in L; [lia|].
  intros H. inversion H as [|? ? N1 H1]; subst. cbn [purge]. destruct (bad x); [destruct l as [|w l]; [constructor|]|].
  - inversion H1 as [|? ? N2 H2]; subst. cbn [map]. constructor; [intros Hi; apply N2, M, Hi|]. apply IH; [cbn in L; lia | exact H2].
  - cbn [map]. constructor; [intros Hi; apply N1, M, Hi|]. apply IH; [lia | exact H1].
Qed.
(** ... with every vehicle that was not to be removed. *)
Lemma purge_keeps bad : forall n l, (List.length l <= n)%nat -> forall v, In v l -> bad v = false -> In v (purge bad l).
Proof.
  induction n as [|n IH]; intros l L v; (destruct l as [|x l]; [intros []|]); cbn [List.length] in L; [lia|].
  intros H Hb. cbn [purge]. destruct (bad x) eqn:Bx.
  - destruct H as [<- |H]; [congruence|]. destruct l as [|w l]; [destruct H|]. destruct H as [<- |H]; [now left|]. right. apply (IH l); [cbn in L; lia | exact H | exact Hb].
  - destruct H as [<- |H]; [now left|]. right. apply (IH l); [lia | exact H | exact Hb].
Qed.
Lemma too_close_self e : too_close e e = false.
Proof. unfold too_close. now rewrite Nat.eqb_refl. Qed.

(** ** Summon *)
Lemma summon_get_park i : (i < 15)%nat -> exists l, get_lane (summon_net 15) ("a", "b", Some (Z.of_nat i))%string = Ok l.
Proof.
  intros H. assert (exists l, nth_error (added_between "a" "b" (parking_lanes 12 5 15 ++ summon_middle 15)) i = Some l) as [l E]; [|exists l; apply build_get, E].
  do 15 (destruct i as [|i]; [eexists; reflexivity|]). lia.
Qed.
Lemma summon_get_park' i : (i < 15)%nat -> exists l, get_lane (summon_net 15) ("b", "c", Some (Z.of_nat i))%string = Ok l.
Proof.
  intros H. assert (exists l, nth_error (added_between "b" "c" (parking_lanes 12 5 15 ++ summon_middle 15)) i = Some l) as [l E]; [|exists l; apply build_get, E].
  do 15 (destruct i as [|i]; [eexists; reflexivity|]). lia.
Qed.
Lemma summon_get_middle i : (i < 5)%nat -> exists l, get_lane (summon_net 15) ("d", "e", Some (Z.of_nat i))%string = Ok l.
Proof.
  intros H. assert (exists l, nth_error (added_between "d" "e" (parking_lanes 12 5 15 ++ summon_middle 15)) i = Some l) as [l E]; [|exists l; apply build_get, E].
  do 5 (destruct i as [|i]; [eexists; reflexivity|]). lia.
Qed.
Definition summon_kinds (cf : common) (k : vkind) : Prop := k = ego_kind cf \/ k = kind_of (cf_traffic cf) \/ k = KVehicle.
Lemma summon_other_total cs cf d rd i : draws_ok d -> (i < 15)%nat -> growing (member (summon_net 15) (summon_kinds cf)) (summon_net 15) rd ->
  exists v, summon_other cs cf d rd i = Ok (add_vehicle rd v) /\ growing (member (summon_net 15) (summon_kinds cf)) (summon_net 15) (add_vehicle rd v).
Proof.
  intros D Hi Gr. set (g := summon_net 15) in *. assert (B : built g) by apply built_build.
  assert (N : g <> []) by (apply build_nonempty; discriminate). unfold summon_other. rewrite (proj1 Gr). destruct (Rltb _ _).
  - destruct (summon_get_middle (dr_int d (2 * i + 1)%nat 5%nat)) as [l Gl]; [apply D; lia|].
    match goal with |- context [traffic_on_lane ?a ?b ?c ?x ?p ?s ?t] => destruct (traffic_on_lane_total a b c x p s t l B N Gl) as (v & -> & Nv & _) end.
    cbn [bind]. eexists. split; [reflexivity|]. eapply growing_new; [exact Gr | exact Nv | right; left; reflexivity | apply fresh_not_in].
  - cbv zeta. unfold make_on_lane.
    match goal with |- context [get_lane g ?i'] => assert (exists l, get_lane g i' = Ok l) as [l ->] by (destruct (Rleb _ _); [apply summon_get_park | apply summon_get_park']; lia) end.
    cbn [bind]. match goal with |- context [new_vehicle ?a ?b ?c ?x ?p] => destruct (new_vehicle_total a b c x p B N) as (v & -> & Nv) end.
    cbn [bind]. eexists. split; [reflexivity|]. eapply growing_new; [exact Gr | exact Nv | right; right; reflexivity | apply fresh_not_in].
Qed.
Lemma summon_ready cs cf n d sc : draws_ok d -> (n <= 15)%nat -> cf_traffic cf = CIdm -> sc_regulated sc = false -> sc_action sc = cf_action cf ->
  exists goal e, summon_reset cs cf n d = Ok (goal, e) /\ ready sc e /\ starts e 1.
Proof.
  intros D Hn C Rg Ac. set (g := summon_net 15). assert (B : built g) by apply built_build.
  assert (N : g <> []) by (apply build_nonempty; discriminate). unfold summon_reset. cbn [rd_net empty_road]. fold g.
  match goal with |- context [new_ego ?a ?b ?c ?x ?p ?h ?s] => destruct (new_ego_total a b c x p h s B N (ego_kind_cases cf)) as (e & -> & Ne & _) end.
  cbn [bind]. set (id := fresh_id (empty_road g cf) []) in *.
  set (K := summon_kinds cf).
  set (Inv := fun (_ : nat) rd => growing (member g K) g rd /\ In e (rd_vehicles rd)).
  match goal with |- context [foldM _ ?xs ?rd0] => destruct (foldM_inv Inv (summon_other cs cf d) xs rd0) as (rd & -> & (Gr & A)) end.
  { intros k rd i Hk (Gr & A). assert (Hi : (i < n)%nat) by (apply nth_error_In in Hk; apply in_seq in Hk; lia).
    destruct (summon_other_total cs cf d rd i D ltac:(lia) Gr) as (v & E & Gr'). eexists. split; [exact E|]. split; [exact Gr' | apply in_or_app; now left]. }
  { split; [apply growing_object; eapply growing_new; [apply growing_empty | exact Ne | now left | tauto]|]. now left. }
  cbn [bind]. do 2 eexists. split; [reflexivity|]. split; [|apply (starts_fresh _ [_]), NoDup_one].
  apply (ready_plain K sc g); [exact B | exact N | | | exact Rg | discriminate | ].
  - apply growing_sub; [exact Gr | intros v; apply (purge_sub _ _ _ (le_n _)) | apply (purge_nodup _ _ _ (le_n _)), Gr].
  - left. intros k [-> |[-> | ->]]; [destruct (ego_kind_cases cf) as [-> |[-> | ->]]|rewrite C|]; discriminate.
  - rewrite Ac. intros i [<- |[]]. exists e. split; [apply (purge_keeps _ _ _ (le_n _)); [exact A | apply too_close_self]|]. split; apply Ne.
Qed.

(** ** Roundabout *)
Lemma routed_placed g v rt : well_placed g v -> on_network g rt -> well_placed g (set_route v (Some rt)).
Proof. intros [L T] O. split; [exact L|]. intros C. split; [apply T, C | exact O]. Qed.
Lemma randomize_same d k c v : v_id (randomize d k c v) = v_id v /\ v_kind (randomize d k c v) = v_kind v /\ v_lane_index (randomize d k c v) = v_lane_index v /\
  v_target_lane (randomize d k c v) = v_target_lane v /\ v_route (randomize d k c v) = v_route v /\ v_pos (randomize d k c v) = v_pos v /\
  v_is_yielding (randomize d k c v) = v_is_yielding v /\ v_heading (randomize d k c v) = v_heading v /\ v_speed (randomize d k c v) = v_speed v /\ v_crashed (randomize d k c v) = v_crashed v.
Proof. destruct c; cbn; tauto. Qed.
Lemma randomize_placed g d k c v : well_placed g v -> well_placed g (randomize d k c v).
Proof. unfold well_placed. destruct (randomize_same d k c v) as (_ & -> & -> & -> & -> & _). tauto. Qed.
Lemma roundabout_get : (exists l, get_lane roundabout_net ("ser", "ses", Some 0%Z)%string = Ok l) /\ (exists l, get_lane roundabout_net ("we", "sx", Some 0%Z)%string = Ok l) /\
  (exists l, get_lane roundabout_net ("we", "sx", Some 1%Z)%string = Ok l) /\ (exists l, get_lane roundabout_net ("eer", "ees", Some 0%Z)%string = Ok l).
Proof.
  split; [|split; [|split]]; eexists; [apply (build_get _ _ _ 0) | apply (build_get _ _ _ 0) | apply (build_get _ _ _ 1) | apply (build_get _ _ _ 0)]; reflexivity.
Qed.
Lemma roundabout_ready cs cf incoming d sc : draws_ok d -> classes_fit cf (SRoundabout 0 incoming) -> match incoming with Some k => (-3 <= k < 3)%Z | None => True end ->
  sc_regulated sc = false -> sc_action sc = cf_action cf -> exists e, roundabout_reset cs cf incoming d = Ok (set_class_grid cs roundabout_grid, e) /\ ready sc e /\ starts e 1.
Proof.
  intros D C Hin Rg Ac. set (g := roundabout_net). assert (B : built g) by apply built_build.
  assert (N : g <> []) by (apply build_nonempty; discriminate). destruct roundabout_get as ([l1 G1] & [l2 G2] & [l3 G3] & [l4 G4]). fold g in G1, G2, G3, G4.
  unfold roundabout_reset. cbn [rd_net empty_road]. fold g. rewrite G1. cbn [bind].
  match goal with |- context [new_ego ?a ?b ?c ?x ?p ?h ?s] => destruct (new_ego_total a b c x p h s B N (ego_kind_cases cf)) as (e & -> & Ne & _) end.
  cbn [bind]. set (id := fresh_id (empty_road g cf) []) in *.
  assert (exists e', (if is_controlled (ego_kind cf) then plan_route_to g (dr_ord d) e "nxs" else Ok e) = Ok e' /\ well_placed g e' /\ v_id e' = id /\ v_kind e' = ego_kind cf) as (e' & -> & We & Ie & Ke).
  { pose proof (newborn_placed _ _ _ _ _ _ _ Ne) as W. destruct Ne as (Ie & Ke & _). destruct (is_controlled _); [|exists e; split; [reflexivity|]; split; [exact W|]; split; assumption].
    destruct (plan_route_total g (dr_ord d) e "nxs") as (rt & -> & O & _); [exact B | apply D | apply W |]. eexists. split; [reflexivity|].
    split; [apply routed_placed; [exact W | exact O] | split; [exact Ie | exact Ke]]. }
  cbn [bind]. set (Inv := fun (_ : nat) rd => growing (member g (two_kinds cf)) g rd /\ agents (ego_kind cf) rd [id] /\ rd_objects rd = []).
  match goal with |- context [foldM (roundabout_other ?cs' _ _ _) ?xs ?rd0] => destruct (foldM_inv Inv (roundabout_other cs' cf d incoming) xs rd0) as (rd & -> & (Gr & A & O)) end.
  { intros k rd [[j i] s] Hk (Gr & A & O). unfold roundabout_other. rewrite (proj1 Gr).
    assert (exists l, get_lane g i = Ok l) as [l Gl].
    { destruct k as [|[|[|[|k]]]]; [| | | |cbn in Hk; destruct k; discriminate]; injection Hk as _ <- _; eauto. }
    match goal with |- context [traffic_on_lane ?a ?b ?c ?x ?p ?s ?t] => destruct (traffic_on_lane_total a b c x p s t l B N Gl) as (v & -> & Nv & _) end.
    cbn [bind]. assert (exists dest, match j, incoming with O, Some k => py_index roundabout_destinations k | _, _ => choice (dr_int d j) roundabout_destinations end = Ok dest) as [dest ->].
    { assert (exists dest, choice (dr_int d j) roundabout_destinations = Ok dest) as [x Ex] by (destruct (choice_total (dr_int d j) roundabout_destinations) as (x & E & _); [apply D | discriminate | now exists x]).
      destruct j; [|eauto]. destruct incoming as [z|]; [|eauto]. unfold py_index. cbn [List.length roundabout_destinations].
      assert (z = -3 \/ z = -2 \/ z = -1 \/ z = 0 \/ z = 1 \/ z = 2)%Z as [-> |[-> |[-> |[-> |[-> | ->]]]]] by lia; eexists; reflexivity. }
    cbn [bind]. destruct (plan_route_total g (dr_ord d) v dest) as (rt & -> & On & _); [exact B | apply D | apply Nv |]. cbn [bind].
    match goal with |- context [randomize ?dd ?kk ?c ?w] => pose proof (randomize_same dd kk c w) as Sm; assert (W : well_placed g (randomize dd kk c w)) by (apply randomize_placed, routed_placed; [eapply newborn_placed, Nv | exact On]) end.
    destruct Sm as (Si & Sk & _). eexists. split; [reflexivity|]. split; [|split; [apply agents_add, A | exact O]].
    apply growing_add; [exact Gr | split; [exact W | rewrite Sk; right; apply Nv] | rewrite Si; cbn; rewrite (proj1 Nv); apply fresh_not_in]. }
  { split; [apply growing_add; [apply growing_empty | split; [exact We | left; exact Ke] | tauto]|]. split; [|reflexivity].
    intros i [<- |[]]. exists (set_grid e' roundabout_grid). split; [now left | now split]. }
  cbn [bind]. eexists. split; [reflexivity|]. split; [|apply (starts_fresh _ [_]), NoDup_one]. apply (ready_plain (two_kinds cf) sc g); [exact B | exact N | exact Gr | | exact Rg | discriminate | rewrite Ac; exact A].
  apply two_kinds_fit. destruct C as [C|C]; [now left | right]. split; [exact C|]. rewrite O. intros o [].
Qed.
