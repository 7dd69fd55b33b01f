(** Lemmas about the creation of scenes. *)
From Verif Require Import Prelude M_Utils M_Lane M_Road M_Vehicle M_Kinematics M_Control M_Behavior M_Regulation M_Action M_Env M_Scenes M_Nets M_Reset S_Reset
  S_Geometry S_Road S_Vehicle S_Control S_Behavior S_Regulation S_Env P_Base P_Utils P_Lane P_Graph P_Bfs P_Query P_Kin P_Crash P_Control P_Behavior P_Traffic P_Regulation P_Action P_Env P_Scenes P_Nets.
From Coq Require Import Lia Lra.
Open Scope R_scope.

(** ** Networks given as lists of lanes *)
Lemma built_build adds : built (build adds).
Proof. now exists adds. Qed.
Lemma build_has adds a b k l : nth_error (added_between a b adds) k = Some l -> has_lane (build adds) a b k l.
Proof.
  intros H. apply has_lane_g. exists (added_between a b adds). split; [|exact H].
  rewrite g_lanes_wf by (apply wf_built, built_build). rewrite build_lanes. destruct (added_between a b adds); [destruct k; discriminate | reflexivity].
Qed.
Lemma build_get adds a b k l : nth_error (added_between a b adds) k = Some l -> get_lane (build adds) (a, b, Some (Z.of_nat k)) = Ok l.
Proof. intros H. apply get_lane_nat, build_has, H. Qed.
Lemma build_exists adds a b k l : nth_error (added_between a b adds) k = Some l -> lane_exists (build adds) (a, b, Some (Z.of_nat k)).
Proof. intros H. exists k, l. split; [reflexivity | apply build_has, H]. Qed.
Lemma build_nonempty adds : adds <> [] -> build adds <> [].
Proof.
  intros H E. destruct adds as [|[[a b] l] adds]; [easy|].
  pose proof (build_lanes ((a, b, l) :: adds) a b) as B. rewrite E in B. unfold added_between, lanes_of in B. cbn in B. rewrite !String.eqb_refl in B. cbn in B. discriminate.
Qed.
Lemma get_lane_has_id g a b k l : get_lane g (a, b, Some (Z.of_nat k)) = Ok l -> lane_exists g (a, b, Some (Z.of_nat k)).
Proof. intros H. exists k, l. split; [reflexivity|]. apply (get_lane_has g (a, b, Some (Z.of_nat k)) k l eq_refl). exact H. Qed.

(** ** Constructors *)
(** What the constructors guarantee. *)
Definition newborn (g : graph) (k : vkind) (id : nat) (p : vec) (h s : R) (v : vehicle) : Prop :=
  v_id v = id /\ v_kind v = k /\ v_pos v = p /\ v_heading v = h /\ v_speed v = s /\ v_crashed v = false /\
  lane_exists g (v_lane_index v) /\ v_target_lane v = v_lane_index v /\ v_route v = None /\ v_is_yielding v = false.
Lemma new_vehicle_total g id p h s : built g -> g <> [] -> exists v, new_vehicle g id p h s = Ok v /\ newborn g KVehicle id p h s v.
Proof.
  intros B N. apply wf_built in B. unfold new_vehicle. destruct (closest_total g p (Some h) B N) as [i E]. rewrite E. cbn [bind].
  eexists. split; [reflexivity|]. unfold newborn. cbn. apply closest_exists in E; [|exact B]. tauto.
Qed.
Lemma new_ego_total cs k g id p h s : built g -> g <> [] -> k = KMDP \/ k = KVehicle \/ k = KBicycle ->
  exists v, new_ego cs k g id p h s = Ok v /\ newborn g k id p h s v /\ (k = KMDP -> v_grid v = cl_grid cs).
Proof.
  intros B N Hk. destruct (new_vehicle_total g id p h s B N) as (v & E & (I & K & P & Hh & S & C & L & T & Rt & Y)).
  destruct Hk as [-> |[-> | ->]]; unfold new_ego.
  - unfold new_mdp, new_controlled. rewrite E. cbn [bind]. eexists. split; [reflexivity|]. unfold newborn. cbn. tauto.
  - rewrite E. cbn [bind]. eexists. split; [reflexivity|]. unfold newborn. cbn. rewrite I, P, Hh, S, C, T, Rt, Y. split; [tauto | discriminate].
  - rewrite E. cbn [bind]. eexists. split; [reflexivity|]. unfold newborn. cbn. rewrite I, P, Hh, S, C, T, Rt, Y. split; [tauto | discriminate].
Qed.
Lemma vehicle_class_cases s : vehicle_class s = KMDP \/ vehicle_class s = KVehicle \/ vehicle_class s = KBicycle.
Proof. destruct s as [? ?|c]; cbn; [now left|]. destruct (ca_dynamical c); auto. Qed.
Lemma ego_kind_cases cf : ego_kind cf = KMDP \/ ego_kind cf = KVehicle \/ ego_kind cf = KBicycle.
Proof. apply vehicle_class_cases. Qed.
Lemma new_traffic_total cs c g id p h s b : built g -> g <> [] ->
  exists v, new_traffic cs c g id p h s b = Ok v /\ newborn g (kind_of c) id p h s v /\ v_par v = class_params cs c.
Proof.
  intros B N. destruct (new_vehicle_total g id p h s B N) as (v & E & (I & K & P & Hh & S & C & L & T & Rt & Y)).
  unfold new_traffic, new_idm, new_controlled. rewrite E. cbn [bind]. eexists. split; [reflexivity|]. unfold newborn. cbn. tauto.
Qed.
Lemma traffic_on_lane_total cs c g id i s sp l : built g -> g <> [] -> get_lane g i = Ok l ->
  exists v, traffic_on_lane cs c g id i s sp = Ok v /\ newborn g (kind_of c) id (l_position l s 0) (l_heading l s) sp v /\ v_par v = class_params cs c.
Proof. intros B N G. unfold traffic_on_lane. rewrite G. cbn [bind]. now apply new_traffic_total. Qed.
Lemma kind_of_controlled c : is_controlled (kind_of c) = true.
Proof. now destruct c. Qed.

(** Fields a new route does not touch. *)
Lemma plan_route_total g ord v d : built g -> set_order ord -> lane_exists g (v_lane_index v) ->
  exists rt, plan_route_to g ord v d = Ok (set_route v (Some (v_lane_index v :: rt))) /\ on_network g (v_lane_index v :: rt) /\
    Forall (fun i => li_id i = None) rt.
Proof.
  intros B O (k & l & Hk & H). assert (Hi : edge g (li_from (v_lane_index v)) (li_to (v_lane_index v))) by (now exists k, l).
  apply wf_built in B. destruct (shortest_path_spec g ord (li_to (v_lane_index v)) d B O) as (p & E & _ & Hp).
  unfold plan_route_to. rewrite E. destruct p as [|n path].
  - exists []. split; [reflexivity|]. split; [constructor; [exact Hi | constructor] | constructor].
  - exists (path_route (n :: path)). split; [reflexivity|]. split.
    + constructor; [exact Hi|]. apply path_route_edges. destruct Hp as (((W & _) & _) & _); [discriminate | exact W].
    + clear. revert n. induction path as [|m path IH]; intros n; [constructor|]. cbn [path_route]. constructor; [reflexivity | apply IH].
Qed.

(** ** Roads under construction *)
Lemma NoDup_app' {A} (l1 l2 : list A) : NoDup l1 -> NoDup l2 -> (forall x, In x l1 -> In x l2 -> False) -> NoDup (l1 ++ l2).
Proof.
  intros H1 H2 D. induction H1 as [|x l N H1 IH]; [exact H2|]. cbn. constructor.
  - intros I. apply in_app_or in I as [I|I]; [contradiction|]. apply (D x); [now left | exact I].
  - apply IH. intros y Hy. apply D. now right.
Qed.
Lemma foldM_inv {A S} (I : nat -> S -> Prop) (f : S -> A -> res S) l : forall s,
  (forall k s x, nth_error l k = Some x -> I k s -> exists s', f s x = Ok s' /\ I (Datatypes.S k) s') -> I 0%nat s ->
  exists s', foldM f l s = Ok s' /\ I (List.length l) s'.
Proof.
  revert I. induction l as [|x l IH]; intros I s H H0; [now exists s|]. cbn [foldM].
  destruct (H 0%nat s x eq_refl H0) as (s1 & -> & H1). cbn [bind].
  destruct (IH (fun k => I (Datatypes.S k)) s1) as (s' & E & H'); [|exact H1|].
  - intros k t y Hy. apply (H (Datatypes.S k)). exact Hy.
  - now exists s'.
Qed.
Lemma fresh_not_in rd ctl : ~ In (fresh_id rd ctl) (map v_id (rd_vehicles rd)) /\ ~ In (fresh_id rd ctl) (map o_id (rd_objects rd)) /\ ~ In (fresh_id rd ctl) ctl.
Proof.
  assert (H : forall x, In x (map v_id (rd_vehicles rd) ++ map o_id (rd_objects rd) ++ ctl) -> x <> fresh_id rd ctl).
  { intros x Hx. unfold fresh_id. pose proof (proj1 (list_max_le (map v_id (rd_vehicles rd) ++ map o_id (rd_objects rd) ++ ctl) _) (le_n _)) as F.
    rewrite Forall_forall in F. specialize (F x Hx). lia. }
  split; [|split]; intros I; apply (H (fresh_id rd ctl)); try reflexivity; apply in_or_app; auto; right; apply in_or_app; auto.
Qed.
(** [P]: what is required of every vehicle besides distinct identities. *)
Definition growing (P : vehicle -> Prop) (g : graph) (rd : road) : Prop :=
  rd_net rd = g /\ Forall P (rd_vehicles rd) /\ NoDup (map v_id (rd_vehicles rd)).
Lemma growing_add P g rd v : growing P g rd -> P v -> ~ In (v_id v) (map v_id (rd_vehicles rd)) -> growing P g (add_vehicle rd v).
Proof.
  intros (N & F & D) Hv Hi. split; [exact N|]. cbn. split.
  - apply Forall_app. split; [exact F | now constructor].
  - rewrite map_app. cbn. apply NoDup_app'; [exact D | constructor; [tauto | constructor] |]. intros x Hx [<- |[]]. contradiction.
Qed.
Lemma growing_object P g rd o : growing P g rd -> growing P g (add_object rd o).
Proof. exact (fun H => H). Qed.
Lemma growing_sub P g rd vs : growing P g rd -> (forall v, In v vs -> In v (rd_vehicles rd)) -> NoDup (map v_id vs) -> growing P g (set_vehicles rd vs).
Proof.
  intros (N & F & D) S Hn. split; [exact N|]. cbn. split; [|exact Hn]. rewrite Forall_forall in *. auto.
Qed.
Lemma newborn_placed g k id p h s v : newborn g k id p h s v -> well_placed g v.
Proof.
  intros (_ & _ & _ & _ & _ & _ & L & T & Rt & _). split; [exact L|]. intros _. rewrite T, Rt. split; [exact L | exact I].
Qed.

(** A placed vehicle of one of the classes [K]. *)
Definition member (g : graph) (K : vkind -> Prop) (v : vehicle) : Prop := well_placed g v /\ K (v_kind v).
Definition kinds_fit (K : vkind -> Prop) (rd : road) : Prop :=
  (forall k, K k -> k <> KLinear) \/ ((forall k, K k -> is_controlled k = true) /\ (forall o, In o (rd_objects rd) -> o_kind o = KLandmark)).
Lemma growing_runnable K g rd : built g -> g <> [] -> growing (member g K) g rd -> kinds_fit K rd -> runnable rd.
Proof.
  intros B N (E & F & _) Hk. rewrite Forall_forall in F. split; [now rewrite E|]. split; [now rewrite E|]. split.
  - intros v Hv. rewrite E. apply F, Hv.
  - destruct Hk as [Hk|[Hk Ho]]; [left | right; split; [|exact Ho]]; intros v Hv; apply Hk; apply F, Hv.
Qed.
Lemma growing_empty P g cf : growing P g (empty_road g cf).
Proof. split; [reflexivity|]. split; constructor. Qed.
(** The controlled vehicles are on the road and have class [k]. *)
Definition agents (k : vkind) (rd : road) (ctl : list nat) : Prop :=
  forall id, In id ctl -> exists v, In v (rd_vehicles rd) /\ v_id v = id /\ v_kind v = k.
Lemma agents_add k rd ctl v : agents k rd ctl -> agents k (add_vehicle rd v) ctl.
Proof. intros H id Hi. destruct (H id Hi) as (w & Hw & E). exists w. split; [|exact E]. cbn. apply in_or_app. now left. Qed.
Lemma agents_new k rd ctl v : agents k rd ctl -> v_kind v = k -> agents k (add_vehicle rd v) (ctl ++ [v_id v]).
Proof.
  intros H Hk id Hi. apply in_app_or in Hi as [Hi|[<- |[]]].
  - destruct (H id Hi) as (w & Hw & E). exists w. split; [|exact E]. cbn. apply in_or_app. now left.
  - exists v. split; [cbn; apply in_or_app; right; now left|]. now split.
Qed.
Lemma ready_plain (K : vkind -> Prop) sc g rd ctl : built g -> g <> [] -> growing (member g K) g rd -> kinds_fit K rd -> sc_regulated sc = false -> ctl <> [] ->
  agents (vehicle_class (agent_of (sc_action sc))) rd ctl -> ready sc (fresh_env rd ctl).
Proof.
  intros B N G F R C A. split; [unfold road_ready; rewrite R; cbn; eapply growing_runnable; eassumption|]. split; [apply G|]. split; [exact C | exact A].
Qed.

Lemma starts_fresh rd ctl : NoDup ctl -> starts (fresh_env rd ctl) (List.length ctl).
Proof. intros H. do 4 (split; [reflexivity|]). exact H. Qed.
Lemma NoDup_one {A} (x : A) : NoDup [x].
Proof. constructor; [intros [] | constructor]. Qed.
Lemma NoDup_fresh rd ctl : NoDup ctl -> NoDup (ctl ++ [fresh_id rd ctl]).
Proof. intros H. apply NoDup_app'; [exact H | apply NoDup_one |]. intros x Hx [<- |[]]. revert Hx. apply fresh_not_in. Qed.

(** ** Placing vehicles at random *)
Lemma choice_total {A} draw (l : list A) : draw_ok draw -> l <> [] -> exists x, choice draw l = Ok x /\ In x l.
Proof.
  intros D N. unfold choice. destruct l as [|a l]; [easy|]. pose proof (D (List.length (a :: l)) ltac:(cbn; lia)) as L.
  destruct (nth_error (a :: l) (draw (List.length (a :: l)))) as [x|] eqn:E; [|apply nth_error_None in E; lia].
  exists x. split; [reflexivity | now apply nth_error_In in E].
Qed.
Lemma pydiv_total x y : y <> 0 -> pydiv x y = Ok (x / y).
Proof. intros H. unfold pydiv. now rewrite (proj2 (Reqb_false y 0)) by exact H. Qed.
Lemma random_pose_total rd d j speed lane_id spacing n : draws_ok d -> rd_net rd = highway_net n -> (0 < n)%nat ->
  match lane_id with Some k => (- Z.of_nat n <= k < Z.of_nat n)%Z | None => True end ->
  exists k, (k < n)%nat /\ match lane_id with Some z => z = Z.of_nat k \/ z = (Z.of_nat k - Z.of_nat n)%Z | None => True end /\
    let l := straight_network_lane n k 10000 0 in
    let offset := spacing * (15/10 * speed) * exp (- 5 / 30 * INR n) in
    let x := max_or (3 * offset) (map (fun v => fst (l_local l (v_pos v))) (rd_vehicles rd)) + offset * uniform d (2 * j) (9/10) (11/10) in
    random_pose rd d j speed lane_id spacing = Ok (l_position l x 0, l_heading l x).
Proof.
  intros D G Hn Hid. unfold random_pose. rewrite G. unfold highway_net. rewrite straight_network_eq by exact Hn.
  set (ls := map (fun k => straight_network_lane n k 10000 0) (seq 0 n)).
  assert (Hl : List.length ls = n) by (unfold ls; now rewrite map_length, seq_length).
  assert (C1 : forall draw, draw_ok draw -> draw 1%nat = 0%nat) by (intros draw Hd; pose proof (Hd 1%nat ltac:(lia)); lia).
  assert (E1 : choice (dr_int d (3 * j)) (keys [("0"%string, [("1"%string, ls)])]) = Ok "0"%string).
  { unfold choice, keys. cbn [map fst List.length]. rewrite C1 by apply D. reflexivity. }
  assert (E2 : choice (dr_int d (3 * j + 1)) (keys [("1"%string, ls)]) = Ok "1"%string).
  { unfold choice, keys. cbn [map fst List.length]. rewrite C1 by apply D. reflexivity. }
  cbv zeta. rewrite E1. cbn [bind]. unfold g_lanes, g_succ. cbn [assoc String.eqb Ascii.eqb Bool.eqb bind]. rewrite E2. cbn [bind assoc String.eqb Ascii.eqb Bool.eqb]. rewrite Hl.
  assert (exists id k, (k < n)%nat /\ match lane_id with Some k => Ok k | None => rmap Z.of_nat (choice (dr_int d (3 * j + 2)) (seq 0 n)) end = Ok id /\
     match lane_id with Some z => z = Z.of_nat k \/ z = (Z.of_nat k - Z.of_nat n)%Z | None => True end /\
     py_index ls id = Ok (straight_network_lane n k 10000 0)) as (id & k & Hk & -> & Hz & Ei).
  { destruct lane_id as [z|].
    - destruct (Z.ltb_spec z 0).
      + exists z, (Z.to_nat (z + Z.of_nat n)). split; [lia|]. split; [reflexivity|]. split; [right; lia|]. unfold py_index. rewrite Hl.
        destruct (z <? 0)%Z eqn:Q; [|lia]. destruct (0 <=? z + Z.of_nat n)%Z eqn:Q'; [|lia]. unfold ls. rewrite nth_error_map, nth_error_seq' by lia. reflexivity.
      + exists z, (Z.to_nat z). split; [lia|]. split; [reflexivity|]. split; [left; lia|]. unfold py_index. rewrite Hl.
        destruct (z <? 0)%Z eqn:Q; [lia|]. destruct (0 <=? z)%Z eqn:Q'; [|lia]. unfold ls. rewrite nth_error_map, nth_error_seq' by lia. reflexivity.
    - destruct (choice_total (dr_int d (3 * j + 2)) (seq 0 n)) as (x & -> & Hx); [apply D | destruct n; [lia | discriminate]|].
      apply in_seq in Hx. exists (Z.of_nat x), x. split; [lia|]. split; [reflexivity|]. split; [exact I|]. rewrite py_index_nat. unfold ls. rewrite nth_error_map, nth_error_seq' by lia. reflexivity. }
  exists k. split; [exact Hk|]. split; [exact Hz|]. cbn [bind]. unfold get_lane, li_from, li_to, li_id. cbn [fst snd]. unfold g_lanes, g_succ. cbn [assoc String.eqb Ascii.eqb Bool.eqb bind]. rewrite Ei. cbn [bind]. reflexivity.
Qed.

(** ** Highway *)
Lemma highway_net_ok n : (0 < n)%nat -> built (highway_net n) /\ highway_net n <> [].
Proof. intros H. split; [apply straight_network_built|]. unfold highway_net. rewrite straight_network_eq by exact H. discriminate. Qed.
Lemma highway_ready cs cf h d sc : draws_ok d -> classes_fit cf (SHighway h) -> options_fit cf (SHighway h) d ->
  sc_regulated sc = false -> sc_action sc = cf_action cf -> exists e, highway_reset cs cf h d = Ok e /\ ready sc e /\ starts e (hs_controlled h).
Proof.
  intros D C (Hn & Hc & Hd & Hid) Rg Ac. set (g := highway_net (hs_lanes h)). destruct (highway_net_ok _ Hn) as [B N].
  set (K := fun k => k = ego_kind cf \/ k = kind_of (cf_traffic cf)).
  unfold highway_reset. set (I1 := fun (k : nat) (st : road * list nat) => growing (member g K) g (fst st) /\ List.length (snd st) = k /\ agents (ego_kind cf) (fst st) (snd st) /\ rd_objects (fst st) = [] /\ NoDup (snd st)).
  destruct (foldM_inv I1 (highway_ego cs cf h d) (seq 0 (hs_controlled h)) (empty_road g cf, [])) as ([rd ctl] & E & (G & L & A & O & ND)).
  - intros k [rd ctl] j _ (G & L & A & O & ND). cbn [fst snd] in *. unfold highway_ego.
    destruct (random_pose_total rd d j 25 (hs_lane_id h) (hs_ego_spacing h) _ D (proj1 G) Hn Hid) as (kk & _ & _ & ->). cbn [bind].
    destruct (new_ego_total cs (ego_kind cf) (rd_net rd) (fresh_id rd ctl)
       (l_position (straight_network_lane (hs_lanes h) kk 10000 0)
         (max_or (3 * (hs_ego_spacing h * (15 / 10 * 25) * exp (-5 / 30 * INR (hs_lanes h))))
            (map (fun v => fst (l_local (straight_network_lane (hs_lanes h) kk 10000 0) (v_pos v))) (rd_vehicles rd)) +
          hs_ego_spacing h * (15 / 10 * 25) * exp (-5 / 30 * INR (hs_lanes h)) * uniform d (2 * j) (9/10) (11/10)) 0)
       (l_heading (straight_network_lane (hs_lanes h) kk 10000 0)
         (max_or (3 * (hs_ego_spacing h * (15 / 10 * 25) * exp (-5 / 30 * INR (hs_lanes h))))
            (map (fun v => fst (l_local (straight_network_lane (hs_lanes h) kk 10000 0) (v_pos v))) (rd_vehicles rd)) +
          hs_ego_spacing h * (15 / 10 * 25) * exp (-5 / 30 * INR (hs_lanes h)) * uniform d (2 * j) (9/10) (11/10))) 25) as (v & -> & Nv & _).
    { rewrite (proj1 G). exact B. } { rewrite (proj1 G). exact N. } { apply ego_kind_cases. }
    cbn [bind]. eexists. split; [reflexivity|]. unfold I1. cbn [fst snd]. rewrite (proj1 G) in Nv. split.
    + apply growing_add; [exact G | split; [eapply newborn_placed; exact Nv | left; apply Nv] | rewrite (proj1 Nv); apply fresh_not_in].
    + split; [rewrite app_length; cbn; lia|]. split; [|split; [exact O | apply NoDup_fresh, ND]]. rewrite <- (proj1 Nv). apply agents_new; [exact A | apply Nv].
  - split; [apply growing_empty|]. split; [reflexivity|]. split; [intros id []|]. split; [reflexivity | constructor].
  - rewrite seq_length in L. cbn [fst snd] in *. fold g. rewrite E. cbn [bind].
    set (I2 := fun (_ : nat) rd => growing (member g K) g rd /\ agents (ego_kind cf) rd ctl /\ rd_objects rd = []).
    destruct (foldM_inv I2 (highway_other cs cf h d ctl) (seq (hs_controlled h) (hs_vehicles h)) rd) as (rd' & E' & (G' & A' & O')).
    + intros k rd1 j _ (G1 & A1 & O1). unfold highway_other. rewrite pydiv_total by exact Hd. cbn [bind].
      destruct (random_pose_total rd1 d j (random_speed d j) None (1 / hs_density h) _ D (proj1 G1) Hn I) as (kk & _ & _ & ->). cbn [bind].
      match goal with |- context [new_traffic ?a ?b ?c0 ?dd ?p ?hh ?ss ?tt] => destruct (new_traffic_total a b c0 dd p hh ss tt) as (v & -> & Nv & _) end.
      { rewrite (proj1 G1). exact B. } { rewrite (proj1 G1). exact N. }
      cbn [bind]. eexists. split; [reflexivity|]. rewrite (proj1 G1) in Nv. split; [|split; [apply agents_add, A1 | exact O1]].
      apply growing_add; [exact G1 | split; [eapply newborn_placed; exact Nv | right; apply Nv] | rewrite (proj1 Nv); apply fresh_not_in].
    + split; [exact G|]. split; [exact A | exact O].
    + rewrite E'. cbn [bind]. eexists. split; [reflexivity|]. split; [|rewrite <- L; apply starts_fresh, ND]. apply (ready_plain K sc g); [exact B | exact N | exact G' | | exact Rg | | ].
      * destruct C as [C|C]; [left | right; split].
        -- intros k [-> | ->]; [destruct (ego_kind_cases cf) as [-> |[-> | ->]]; discriminate | rewrite C; discriminate].
        -- intros k [-> | ->]; [now rewrite C | apply kind_of_controlled].
        -- rewrite O'. intros o [].
      * destruct ctl; [cbn in L; lia | discriminate].
      * rewrite Ac. exact A'.
Qed.
