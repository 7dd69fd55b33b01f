(** Property theorems C46, C75, C76, C78 (Kinematics and multi-agent observations). *)
From Verif Require Import Prelude M_Utils M_Lane M_Road M_Vehicle M_Kinematics M_Control M_Behavior M_Action M_Ttc M_Obs
  S_Geometry S_Road S_Ttc S_Obs P_Base P_Utils P_Lane P_Graph P_Query P_Nets P_Ttc P_Obs T_Kin T_Control T_Behavior.
From Coq Require Import Lra Lia Psatz Permutation.
Open Scope R_scope.

(** ** C46: the Kinematics table *)
(** Every entry of the table. [close] is described by C19. *)
Theorem C46_table : forall c smax perception shuffle r rd o out r',
  (2 <= kc_count c)%Z -> kc_order c <> "shuffled"%string ->
  kin_observe c smax perception shuffle r (Some rd) o = Ok (out, r') ->
  exists close, close_vehicles_to rd o perception (Some (kc_count c - 1)%Z) (kc_see_behind c) = Ok close /\
    (* the shape *)
    Z.of_nat (List.length out) = kc_count c /\
    (forall row, In row out -> List.length row = List.length (kin_features c)) /\
    (* the first row is the observer, in absolute coordinates *)
    (forall j name, nth_error (kin_features c) j = Some name ->
       exists x y, entry out 0 j = Some y /\ feature (rd_net rd) o true name x /\
         scaled (range_in (kc_normalize c) r' name) (kc_clip c) x y) /\
    (* then the close vehicles, in order *)
    (forall k w j name, nth_error close k = Some w -> nth_error (kin_features c) j = Some name ->
       exists x y, entry out (S k) j = Some y /\
         seen_feature (rd_net rd) (if kc_absolute c then None else Some o) w (kc_intentions c) name x /\
         scaled (range_in (kc_normalize c) r' name) (kc_clip c) x y) /\
    (* then zeros *)
    (forall k j y, (List.length close < k)%nat -> entry out k j = Some y -> y = 0).
Proof.
  intros c smax perc sh r rd o out r' C No E. destruct (kin_observe_inv _ _ _ _ _ _ _ _ _ C E) as (close & first & others & Cl & L & Lo & Eo & Er & R1 & Ro).
  apply String.eqb_neq in No. rewrite No in Eo. cbv zeta in Eo. exists close. split; [exact Cl|].
  assert (Ln : List.length out = Z.to_nat (kc_count c)) by (rewrite Eo; cbn [List.length]; rewrite app_length, repeat_length; lia).
  split; [rewrite Ln; lia|]. split; [|split; [|split]].
  - intros row H. rewrite Eo in H. destruct H as [<- | H]; [apply R1|]. apply in_app_or in H as [H | H].
    + apply In_nth_error in H as [k H]. destruct (nth_error close k) as [w|] eqn:Hw.
      * destruct (Ro k w Hw) as (row' & H' & G). assert (row' = row) as <- by congruence. apply G.
      * exfalso. apply nth_error_None in Hw. assert (k < List.length others)%nat by (apply nth_error_Some; congruence). lia.
    + apply repeat_spec in H as ->. apply repeat_length.
  - intros j name N. destruct R1 as [_ R1]. destruct (R1 j name N) as (x & y & Y & F & S0). exists x, y. split; [|split; assumption].
    unfold entry. rewrite Eo. exact Y.
  - intros k w j name H N. destruct (Ro k w H) as (row & Hr & _ & G). destruct (G j name N) as (x & y & Y & F & S0). exists x, y. split; [|split; assumption].
    unfold entry. rewrite Eo. cbn [nth_error]. rewrite nth_error_app1, Hr; [exact Y|]. apply nth_error_Some. congruence.
  - intros k j y Hk. unfold entry. rewrite Eo. destruct k as [|k]; [lia|]. cbn [nth_error]. rewrite nth_error_app2 by lia.
    destruct (nth_error (repeat _ _) _) as [row|] eqn:Q; [|discriminate]. apply nth_error_In, repeat_spec in Q as ->. intros H.
    apply nth_error_In, repeat_spec in H. exact H.
Qed.
Print Assumptions C46_table.

(** The ranges: those configured, or else the standard ones for the road of the observer. *)
Theorem C46_ranges : forall c smax perception shuffle r rd o out r', (2 <= kc_count c)%Z -> kc_normalize c = true ->
  kin_observe c smax perception shuffle r (Some rd) o = Ok (out, r') ->
  (forall rr, r = Some rr -> rr <> [] -> r' = Some rr) /\
  (r = None \/ r = Some [] -> exists rr lanes, r' = Some rr /\ lanes_count (rd_net rd) (v_lane_index o) lanes /\
     forall name, assoc name rr = standard_range smax lanes name).
Proof.
  intros c smax perc sh r rd o out r' C N E. destruct (kin_observe_inv _ _ _ _ _ _ _ _ _ C E) as (close & first & others & _ & _ & _ & _ & Er & _ & _).
  rewrite N in Er. destruct Er as (rr & -> & K). unfold kin_ranges, ranges_set in K. split.
  - intros rr0 -> Nn. destruct rr0; [contradiction|]. congruence.
  - intros D. assert (K' : default_ranges (rd_net rd) smax o = Ok rr) by (destruct D as [-> | ->]; exact K). clear K. unfold default_ranges in K'.
    apply bind_ok in K' as (side & A & K'). injection K' as <-. exists [("x", (-5 * smax, 5 * smax)); ("y", (- (DEFAULT_WIDTH * INR (List.length side)), DEFAULT_WIDTH * INR (List.length side)));
      ("vx", (-2 * smax, 2 * smax)); ("vy", (-2 * smax, 2 * smax))]%string, (List.length side).
    split; [reflexivity|]. split; [now apply all_side_len|]. intros name. unfold standard_range, DEFAULT_WIDTH. cbn [assoc].
    reflexivity.
Qed.
Print Assumptions C46_ranges.

(** The observation never fails on a sane scene, with any non-degenerate ranges. *)
Theorem C46_total : forall c smax perception shuffle r rd o, (2 <= kc_count c)%Z -> 0 < smax ->
  (forall rr name a b, r = Some rr -> In (name, (a, b)) rr -> a <> b) -> (forall name, In name (kin_features c) -> known_feature name) ->
  lane_exists (rd_net rd) (v_lane_index o) -> (exists p, bound_for (rd_net rd) o p) ->
  (forall w, In w (rd_vehicles rd) -> exists p, bound_for (rd_net rd) w p) ->
  exists out r', kin_observe c smax perception shuffle r (Some rd) o = Ok (out, r').
Proof.
  intros c smax perc sh r rd o C Hs Hn K Le Bo Bw. destruct (exists_side _ _ Le) as (side & k & As & Lk & Hk & l & G).
  assert (exists rows, kin_rows c perc rd o = Ok rows) as [rows Er].
  { unfold kin_rows. destruct (to_dict_total (rd_net rd) o None true Bo ltac:(discriminate)) as [d D]. rewrite D. cbn [bind].
    destruct (select_total (kin_features c) d) as [first F]; [rewrite (to_dict_keys _ _ _ _ _ D); exact K|]. rewrite F. cbn [bind].
    destruct (close_spec rd o perc (Some (kc_count c - 1)%Z) (kc_see_behind c) l G) as (close & rest & Ec & P & _). rewrite Ec. cbn [bind].
    destruct close as [|c0 close0]; [eauto|]. set (close := c0 :: close0) in *.
    assert (Lc : (List.length close < Z.to_nat (kc_count c))%nat).
    { replace (kc_count c - 1)%Z with (Z.of_nat (S (Z.to_nat (kc_count c - 2)))) in Ec by lia. apply close_len in Ec. lia. }
    replace (- kc_count c + 1)%Z with (- (kc_count c - 1))%Z by lia. rewrite py_from_all by lia. unfold close at 1.
    match goal with |- exists rows, bind ?m _ = _ => assert (exists x, m = Ok x) as [x ->]; [|cbn [bind]; eauto] end.
    apply mapM_total. intros w Hw. assert (In w (rd_vehicles rd)) as Hr.
    { eapply incl_filter. eapply Permutation_in; [exact P|]. apply in_or_app. now left. }
    destruct (to_dict_total (rd_net rd) w (if kc_absolute c then None else Some o) (kc_intentions c)) as [dw Dw]; [now apply Bw| |].
    { destruct (kc_absolute c); [discriminate|]. intros w' [= <-]. exact Bo. }
    rewrite Dw. cbn [bind]. apply select_total. rewrite (to_dict_keys _ _ _ _ _ Dw). exact K. }
  unfold kin_observe. rewrite Er. cbn [bind]. destruct (kc_normalize c); [|cbn [bind]; eauto].
  unfold kin_ranges. destruct (ranges_set r) as [rr|] eqn:Rs.
  { cbn [bind]. match goal with |- context [mapM ?f rows] => assert (exists x, mapM f rows = Ok x) as [x ->]; [|cbn [bind]; eauto] end.
    apply mapM_total. intros row _. apply normalize_row_total. intros a b name _ Q. apply P_Base.assoc_In in Q. unfold ranges_set in Rs. destruct r as [[|x0 r0]|]; try discriminate Rs. injection Rs as <-.
    exact (Hn _ _ _ _ eq_refl Q). }
  unfold default_ranges. rewrite As. cbn [bind]. match goal with |- context [mapM ?f rows] => assert (exists x, mapM f rows = Ok x) as [x ->]; [|cbn [bind]; eauto] end.
  apply mapM_total. intros row _. apply normalize_row_total. intros a b name _. cbn [assoc]. unfold DEFAULT_WIDTH.
  assert (0 < INR (List.length side)) by (apply lt_0_INR; lia).
  repeat match goal with |- context [String.eqb ?x ?y] => destruct (String.eqb x y); [intros [= <- <-]; lra|] end. discriminate.
Qed.
Print Assumptions C46_total.

(** Features that are bounded without normalisation. *)
Lemma bounded_unit v p d : heads_for v p d -> -1 <= fst d <= 1 /\ -1 <= snd d <= 1.
Proof.
  assert (B : forall x y n, 0 < n -> n * n = x * x + y * y -> -1 <= / n * x <= 1).
  { intros x y n Hn Q. assert (Rabs x <= n) by (apply Rsqr_incr_0_var; [rewrite <- Rsqr_abs; unfold Rsqr; nra | lra]).
    assert (X : - n <= x <= n) by (unfold Rabs in H; destruct (Rcase_abs x); lra). pose proof (Rinv_0_lt_compat _ Hn). assert (/ n * n = 1) by (apply Rinv_l; lra). nra. }
  intros [[_ ->] | [N ->]]; [cbn; lra|]. set (w := vsub p (v_pos v)) in *. assert (Hw : 0 < vnorm w).
  { pose proof (vnorm_nonneg w). destruct (Req_dec (vnorm w) 0) as [Z | Z]; [|lra]. exfalso. apply vnorm_zero in Z. apply N. unfold w in Z. destruct p as [a b], (v_pos v) as [a' b']. unfold vsub in Z. cbn in Z.
    injection Z as Z1 Z2. f_equal; lra. }
  pose proof (vnorm_sq w) as Q. cbn [vscal fst snd]. split; [apply (B _ (snd w)); [exact Hw | lra] | apply (B _ (fst w)); [exact Hw | lra]].
Qed.
Lemma bounded_feature g origin v i name x : naturally_bounded name -> seen_feature g origin v i name x -> -1 <= x <= 1.
Proof.
  intros N S0. assert (F : feature g v i name x).
  { destruct origin as [o|]; [|exact S0]. destruct S0 as (a & F & [(Rl & _) | [_ ->]]); [|exact F]. exfalso. unfold naturally_bounded, is_relative in *. cbn in N, Rl.
    decompose [or] N; subst; intuition discriminate. }
  unfold naturally_bounded in N. cbn in N. destruct F as [| | | | | | | |p d B H |p d B H]; try lra; try (exfalso; intuition discriminate).
  - apply COS_bound.
  - apply SIN_bound.
  - destruct i; [|lra]. apply (bounded_unit v p d H).
  - destruct i; [|lra]. apply (bounded_unit v p d H).
Qed.
Lemma saturate_bounds z y : saturate z y -> -1 <= y <= 1.
Proof. unfold saturate. lra. Qed.

(** Shuffling permutes the rows after the first. *)
Definition sorted_order (c : kin_config) : kin_config :=
  KinConfig (kc_features c) (kc_count c) (kc_absolute c) "sorted" (kc_normalize c) (kc_clip c) (kc_see_behind c) (kc_intentions c).
Theorem C46_shuffled : forall c smax perception shuffle r rd o out r', kc_order c = "shuffled"%string ->
  (forall l, Permutation (shuffle l) l) ->
  kin_observe c smax perception shuffle r (Some rd) o = Ok (out, r') ->
  exists sorted, kin_observe (sorted_order c) smax perception shuffle r (Some rd) o = Ok (sorted, r') /\
    nth_error out 0 = nth_error sorted 0 /\ Permutation (tl out) (tl sorted).
Proof.
  intros c smax perc sh r rd o out r' O P E. unfold kin_observe in *. rewrite O in E. change (kc_order (sorted_order c)) with "sorted"%string.
  change (kin_rows (sorted_order c) perc rd o) with (kin_rows c perc rd o). change (kin_features (sorted_order c)) with (kin_features c).
  change (kc_normalize (sorted_order c)) with (kc_normalize c). change (kc_clip (sorted_order c)) with (kc_clip c). change (kc_count (sorted_order c)) with (kc_count c).
  apply bind_ok in E as (rows & -> & E). cbn [bind]. apply bind_ok in E as (nr & -> & E). cbn [bind String.eqb Ascii.eqb Bool.eqb] in *.
  exists (pad_rows (kc_count c) (List.length (kin_features c)) (fst nr)). destruct (pad_rows _ _ _) as [|e rest]; injection E as <- <-; (split; [reflexivity|]); (split; [reflexivity|]); [constructor | apply P].
Qed.
Print Assumptions C46_shuffled.

(** With normalisation and clipping, and a range for every unbounded feature, the
    observation belongs to the declared space: a box of this shape between -1 and 1. *)
Theorem C46_in_space : forall c smax perception shuffle r rd o out r', (2 <= kc_count c)%Z ->
  (forall l, Permutation (shuffle l) l) -> kc_normalize c = true -> kc_clip c = true ->
  (forall name, In name (kin_features c) -> naturally_bounded name \/
     match r with Some (x :: rr) => In name (keys (x :: rr)) | _ => is_relative name end) ->
  kin_observe c smax perception shuffle r (Some rd) o = Ok (out, r') ->
  Z.of_nat (List.length out) = kc_count c /\
  forall row, In row out -> List.length row = List.length (kin_features c) /\ forall x, In x row -> -1 <= x <= 1.
Proof.
  assert (Main : forall c smax perc sh r rd o out r', (2 <= kc_count c)%Z -> kc_order c <> "shuffled"%string -> kc_normalize c = true -> kc_clip c = true ->
    (forall name, In name (kin_features c) -> naturally_bounded name \/ match r with Some (x :: rr) => In name (keys (x :: rr)) | _ => is_relative name end) ->
    kin_observe c smax perc sh r (Some rd) o = Ok (out, r') ->
    Z.of_nat (List.length out) = kc_count c /\ forall row, In row out -> List.length row = List.length (kin_features c) /\ forall x, In x row -> -1 <= x <= 1).
  { intros c smax perc sh r rd o out r' C No N Cp K E. destruct (C46_table _ _ _ _ _ _ _ _ _ C No E) as (close & Cl & Ln & Lr & Z0 & Zk & Zz).
    split; [exact Ln|]. intros row Hrow. pose proof (Lr row Hrow) as Lrow. split; [exact Lrow|]. intros y Hy.
    apply In_nth_error in Hrow as [i Hi]. apply In_nth_error in Hy as [j Hj].
    assert (exists name, nth_error (kin_features c) j = Some name) as [name Hn].
    { destruct (nth_error (kin_features c) j) eqn:Q; [eauto|]. apply nth_error_None in Q. assert (j < List.length row)%nat by (apply nth_error_Some; congruence). lia. }
    assert (Ey : entry out i j = Some y) by (unfold entry; now rewrite Hi).
    assert (B : forall origin v ii x, seen_feature (rd_net rd) origin v ii name x -> scaled (range_in (kc_normalize c) r' name) (kc_clip c) x y -> -1 <= y <= 1).
    { intros origin v ii x S0 Sc. rewrite N, Cp in Sc. unfold range_in, scaled in Sc.
      assert (r' <> None /\ (naturally_bounded name \/ exists ab, match r' with Some rr => assoc name rr | None => None end = Some ab)) as [Nr D].
      { destruct (C46_ranges _ _ _ _ _ _ _ _ _ C N E) as [R1 R2]. destruct r as [[|x0 rr]|].
        - destruct (R2 (or_intror eq_refl)) as (rr & lanes & -> & _ & A). split; [discriminate|]. destruct (K name (nth_error_In _ _ Hn)) as [D | D]; [now left | right].
          rewrite A. unfold is_relative in D. cbn in D. unfold standard_range. decompose [or] D; subst; cbn; eauto; contradiction.
        - rewrite (R1 _ eq_refl ltac:(discriminate)). split; [discriminate|]. destruct (K name (nth_error_In _ _ Hn)) as [D | D]; [now left | right]. now apply assoc_keys in D.
        - destruct (R2 (or_introl eq_refl)) as (rr & lanes & -> & _ & A). split; [discriminate|]. destruct (K name (nth_error_In _ _ Hn)) as [D | D]; [now left | right].
          rewrite A. unfold is_relative in D. cbn in D. unfold standard_range. decompose [or] D; subst; cbn; eauto; contradiction. }
      destruct r' as [rr|]; [|contradiction]. destruct (assoc name rr) as [[a b]|].
      - destruct Sc as (_ & z & _ & Sa). eapply saturate_bounds; exact Sa.
      - subst y. destruct D as [D | [ab D]]; [|discriminate]. eapply bounded_feature; eassumption. }
    destruct i as [|i].
    - destruct (Z0 j name Hn) as (x & y' & Ey' & F & Sc). assert (y' = y) as -> by congruence. apply (B None o true x F Sc).
    - destruct (nth_error close i) as [w|] eqn:Hw.
      + destruct (Zk i w j name Hw Hn) as (x & y' & Ey' & F & Sc). assert (y' = y) as -> by congruence. eapply B; eassumption.
      + apply nth_error_None in Hw. rewrite (Zz (S i) j y ltac:(lia) Ey). lra. }
  intros c smax perc sh r rd o out r' C P N Cp K E. destruct (string_dec (kc_order c) "shuffled") as [O | O]; [|eapply Main; eassumption].
  destruct (C46_shuffled _ _ _ _ _ _ _ _ _ O P E) as (sorted & Es & H0 & Pt).
  destruct (Main (sorted_order c) smax perc sh r rd o sorted r' C ltac:(discriminate) N Cp K Es) as [L B]. change (kc_count (sorted_order c)) with (kc_count c) in L.
  change (kin_features (sorted_order c)) with (kin_features c) in B. destruct sorted as [|e rest]; [cbn in L; lia|]. destruct out as [|e' rest']; [discriminate|].
  injection H0 as ->. cbn [tl] in Pt. split.
  - cbn [List.length] in *. rewrite (Permutation_length Pt). exact L.
  - intros row [<- | H]; [apply B; now left|]. apply B. right. eapply Permutation_in; eassumption.
Qed.
Print Assumptions C46_in_space.

(** Without a road (before the first reset): zeros of the declared shape. *)
Theorem C46_no_road : forall c smax perception shuffle r o, (0 <= kc_count c)%Z ->
  exists out, kin_observe c smax perception shuffle r None o = Ok (out, r) /\ Z.of_nat (List.length out) = kc_count c /\
    forall row, In row out -> List.length row = List.length (kin_features c) /\ forall x, In x row -> x = 0.
Proof.
  intros c smax perc sh r o C. unfold kin_observe. rewrite (proj2 (Z.ltb_ge _ _)) by lia. eexists. split; [reflexivity|]. split; [rewrite repeat_length; lia|].
  intros row H. apply repeat_spec in H as ->. split; [apply repeat_length|]. intros x Hx. now apply repeat_spec in Hx.
Qed.
Print Assumptions C46_no_road.

(** With [vehicles_count = 1] every close vehicle is shown, so that the shape is not
    the declared one as soon as a vehicle is close. *)
Theorem C46_count_one_shows_all : forall c smax perception shuffle r rd o out r', kc_count c = 1%Z -> kc_order c <> "shuffled"%string ->
  kin_observe c smax perception shuffle r (Some rd) o = Ok (out, r') ->
  exists close, close_vehicles_to rd o perception None (kc_see_behind c) = Ok close /\ List.length out = S (List.length close).
Proof.
  intros c smax perc sh r rd o out r' C No E. apply String.eqb_neq in No. unfold kin_observe in E. rewrite No in E. apply bind_ok in E as (rows & Er & E). apply bind_ok in E as (nr & En & E).
  unfold kin_rows in Er. rewrite C in Er. cbn [Z.sub Z.add Z.opp Z.pos_sub] in Er. apply bind_ok in Er as (d & _ & Er). apply bind_ok in Er as (first & _ & Er). apply bind_ok in Er as (close & Cl & Er).
  exists close. split; [exact Cl|]. assert (Lr : List.length rows = S (List.length close)).
  { destruct close as [|c0 close]; [injection Er as <-; reflexivity|]. unfold py_from in Er. cbn [Z.leb Z.compare Z.opp Z.add Z.pos_sub Z.to_nat skipn] in Er. apply bind_ok in Er as (os & M & Er). injection Er as <-.
    apply mapM_length in M. cbn [List.length] in *. lia. }
  assert (Ln : List.length (fst nr) = List.length rows).
  { destruct (kc_normalize c).
    - apply bind_ok in En as (rr & _ & En). apply bind_ok in En as (rows' & M & En). injection En as <-. now apply mapM_length in M.
    - injection En as <-. reflexivity. }
  injection E as <- _. unfold pad_rows. rewrite C, app_length, repeat_length, Ln, Lr. lia.
Qed.
Print Assumptions C46_count_one_shows_all.

(** A concrete scene. *)
Definition obs_vehicle (id : nat) (lane : Z) (p : vec) (s : R) : vehicle :=
  Vehicle id KMDP p 0 s ("0", "1", Some lane)%string 0 0 false true [] ("0", "1", Some lane)%string s None 0%Z
    grid_default true 0 idm_default false 0%Z false.
Definition obs_ego : vehicle := obs_vehicle 0 0 (100, 0) 25.
Definition obs_other : vehicle := obs_vehicle 1 1 (120, 4) 20.
Definition obs_road : road := Road demo_net [obs_ego; obs_other] [] false 0.
Lemma obs_lane_exists k : (0 <= k < 3)%Z -> lane_exists demo_net ("0", "1", Some k)%string.
Proof. intros H. apply straight_network_exists. exists (Z.to_nat k). split; [lia|]. rewrite Z2Nat.id by lia. reflexivity. Qed.
Lemma obs_close : close_vehicles_to obs_road obs_ego 180 (Some 4%Z) false = Ok [obs_other].
Proof.
  unfold close_vehicles_to. change (rd_net obs_road) with demo_net. change (v_lane_index obs_ego) with ("0", "1", Some (Z.of_nat 0))%string. rewrite (demo_get 0) by lia. cbn [bind].
  assert (N : vnorm (vsub (v_pos obs_other) (v_pos obs_ego)) < 180).
  { unfold vnorm. rewrite <- (sqrt_square 180) by lra. apply sqrt_lt_1_alt. cbn. lra. }
  assert (F : filter (close_filter obs_ego (straight_network_lane 3 0 1000 0) 180 false) (rd_vehicles obs_road) = [obs_other]).
  { unfold obs_road. cbn [rd_vehicles filter]. unfold close_filter at 1. cbn [v_id obs_ego obs_vehicle]. rewrite Nat.eqb_refl, andb_false_r, andb_false_l. unfold close_filter.
    rewrite (Rltb_lt _ _ N). cbn [v_id obs_other obs_ego obs_vehicle Nat.eqb negb andb orb]. unfold lane_distance. cbn [v_pos obs_other obs_ego obs_vehicle].
    rewrite !demo_local by lia. rewrite Rltb_lt by (unfold V_LENGTH; cbn; lra). reflexivity. }
  rewrite F. reflexivity.
Qed.
Lemma obs_bound v : v_route v = None -> exists p, bound_for demo_net v p.
Proof. intros H. unfold bound_for. rewrite H. eauto. Qed.
Example C46_nonvacuous : exists out r', kin_observe kin_default 30 180 (fun l => l) None (Some obs_road) obs_ego = Ok (out, r') /\
  List.length out = 5%nat /\ entry out 0 1 = Some (2/3) /\ entry out 1 1 = Some (2/15) /\ entry out 1 2 = Some (1/3) /\ entry out 1 3 = Some (-1/12) /\ entry out 2 0 = Some 0.
Proof.
  destruct (C46_total kin_default 30 180 (fun l => l) None obs_road obs_ego ltac:(change (kc_count kin_default) with 5%Z; lia) ltac:(lra) ltac:(discriminate)) as (out & r' & E).
  { intros name H. cbn in H. unfold known_feature. cbn. tauto. }
  { apply (obs_lane_exists 0). lia. }
  { now apply obs_bound. }
  { intros w Hw. apply obs_bound. cbn in Hw. destruct Hw as [<- | [<- | []]]; reflexivity. }
  exists out, r'. split; [exact E|]. destruct (C46_table kin_default _ _ _ _ _ _ _ _ ltac:(change (kc_count kin_default) with 5%Z; lia) ltac:(discriminate) E) as (close & Cl & Ln & Lr & Z0 & Zk & Zz).
  change (kc_count kin_default - 1)%Z with 4%Z in Cl. change (kc_see_behind kin_default) with false in Cl. rewrite obs_close in Cl. injection Cl as <-.
  destruct (proj2 (C46_ranges kin_default _ _ _ _ _ _ _ _ ltac:(change (kc_count kin_default) with 5%Z; lia) eq_refl E) (or_introl eq_refl)) as (rr & lanes & -> & Lc & A).
  assert (lanes = 3%nat) as ->. { eapply lanes_count_fun; [exact Lc|]. exists [("1"%string, map (fun k => straight_network_lane 3 k 1000 0) (seq 0 3))]. eexists. repeat split. }
  change (kc_normalize kin_default) with true in *. change (kc_clip kin_default) with true in *. change (kc_absolute kin_default) with false in *. change (kc_intentions kin_default) with false in *.
  cbn [kc_count kin_default] in Ln. unfold range_in in *. assert (List.length out = 5%nat) as L5 by lia. split; [exact L5|].
  assert (Sat : forall a b x y, scaled (Some (a, b)) true x y -> a < b -> a <= x <= b -> y = 2 * (x - a) / (b - a) - 1).
  { intros a b x y (_ & z & -> & S0) Hab Hx. assert (0 < / (b - a)) by (apply Rinv_0_lt_compat; lra). assert (/ (b - a) * (b - a) = 1) by (apply Rinv_l; lra).
    assert (-1 <= 2 * (x - a) / (b - a) - 1 <= 1) by (unfold Rdiv; nra). unfold saturate in S0. lra. }
  split; [|split; [|split; [|split]]].
  - destruct (Z0 1%nat "x"%string eq_refl) as (x & y & -> & F & Sc). f_equal. rewrite A in Sc. inversion F; subst. cbn in Sc. rewrite (Sat _ _ _ _ Sc) by lra. field.
  - destruct (Zk 0%nat obs_other 1%nat "x"%string eq_refl eq_refl) as (x & y & -> & (a & Fa & [(_ & b & Fb & ->) | [N _]]) & Sc); [|exfalso; apply N; cbn; auto].
    f_equal. rewrite A in Sc. inversion Fa; subst. inversion Fb; subst. cbn in Sc. rewrite (Sat _ _ _ _ Sc) by lra. field.
  - destruct (Zk 0%nat obs_other 2%nat "y"%string eq_refl eq_refl) as (x & y & -> & (a & Fa & [(_ & b & Fb & ->) | [N _]]) & Sc); [|exfalso; apply N; cbn; auto].
    f_equal. rewrite A in Sc. inversion Fa; subst. inversion Fb; subst. cbn in Sc. rewrite (Sat _ _ _ _ Sc) by lra. field.
  - destruct (Zk 0%nat obs_other 3%nat "vx"%string eq_refl eq_refl) as (x & y & -> & (a & Fa & [(_ & b & Fb & ->) | [N _]]) & Sc); [|exfalso; apply N; cbn; auto].
    f_equal. rewrite A in Sc. inversion Fa; subst. inversion Fb; subst. cbn in Sc. rewrite cos_0 in Sc. rewrite (Sat _ _ _ _ Sc) by lra. field.
  - assert (exists y, entry out 2 0 = Some y) as [y Ey].
    { unfold entry. destruct (nth_error out 2) as [row|] eqn:Q; [|apply nth_error_None in Q; lia]. pose proof (Lr row (nth_error_In _ _ Q)) as Lw. destruct row as [|y row]; [discriminate|]. exists y. reflexivity. }
    rewrite Ey. f_equal. eapply (Zz 2%nat); [cbn; lia | exact Ey].
Qed.

(** ** C75: what the normalisation depends on *)
(** Beyond five seconds at the maximal speed the observer's own abscissa reads 1. *)
Theorem C75_ego_position_saturates : forall c smax perception shuffle rd o out r' j, (2 <= kc_count c)%Z -> 0 < smax ->
  kc_order c <> "shuffled"%string -> kc_normalize c = true -> kc_clip c = true -> nth_error (kin_features c) j = Some "x"%string ->
  5 * smax <= fst (v_pos o) ->
  kin_observe c smax perception shuffle None (Some rd) o = Ok (out, r') -> entry out 0 j = Some 1.
Proof.
  intros c smax perc sh rd o out r' j C Hs No N Cp Hj Hx E. destruct (C46_table _ _ _ _ _ _ _ _ _ C No E) as (close & Cl & Ln & Lr & Z0 & _).
  destruct (Z0 j "x"%string Hj) as (x & y & -> & F & Sc). destruct (proj2 (C46_ranges _ _ _ _ _ _ _ _ _ C N E) (or_introl eq_refl)) as (rr & lanes & -> & _ & A).
  rewrite N, Cp in Sc. unfold range_in in Sc. rewrite A in Sc. cbn in Sc. destruct Sc as (_ & z & -> & S0). inversion F; subst.
  assert (P : 0 < / (5 * smax - -5 * smax)) by (apply Rinv_0_lt_compat; lra). assert (Q : / (5 * smax - -5 * smax) * (5 * smax - -5 * smax) = 1) by (apply Rinv_l; lra).
  assert (1 <= 2 * (fst (v_pos o) - -5 * smax) / (5 * smax - -5 * smax) - 1).
  { unfold Rdiv. set (i := / (5 * smax - -5 * smax)) in *. assert (5 * smax * i <= fst (v_pos o) * i) by (apply Rmult_le_compat_r; lra). lra. }
  f_equal. unfold saturate in S0. lra.
Qed.
Print Assumptions C75_ego_position_saturates.

(** Successive observations of an observation object: each scene with the ranges left by
    the observations before it. *)
Inductive observes (c : kin_config) (smax perception : R) (shuffle : list (list R) -> list (list R)) :
  option ranges -> list (road * vehicle) -> list (list (list R)) -> option ranges -> Prop :=
| observes_nil : forall r, observes c smax perception shuffle r [] [] r
| observes_cons : forall r rd o out r1 scenes outs r2,
    kin_observe c smax perception shuffle r (Some rd) o = Ok (out, r1) ->
    observes c smax perception shuffle r1 scenes outs r2 ->
    observes c smax perception shuffle r ((rd, o) :: scenes) (out :: outs) r2.
(** The ranges are those of the road of the observer at the first observation, whatever
    roads come later. *)
Theorem C75_ranges_fixed_by_first_observation : forall c smax perception shuffle rd0 o0 scenes outs rend k rd o out,
  (2 <= kc_count c)%Z -> kc_normalize c = true -> kc_order c <> "shuffled"%string ->
  observes c smax perception shuffle None ((rd0, o0) :: scenes) outs rend ->
  nth_error ((rd0, o0) :: scenes) k = Some (rd, o) -> nth_error outs k = Some out ->
  exists lanes, lanes_count (rd_net rd0) (v_lane_index o0) lanes /\
    forall j name, nth_error (kin_features c) j = Some name ->
      exists x y, entry out 0 j = Some y /\ feature (rd_net rd) o true name x /\ scaled (standard_range smax lanes name) (kc_clip c) x y.
Proof.
  intros c smax perc sh rd0 o0 scenes outs rend k rd o out C N No H Hk Ho. inversion H as [|r rd1 o1 out1 r1 sc outs1 r2 E1 H1]; subst.
  destruct (proj2 (C46_ranges _ _ _ _ _ _ _ _ _ C N E1) (or_introl eq_refl)) as (rr & lanes & -> & Lc & A). exists lanes. split; [exact Lc|].
  assert (Nn : rr <> []) by (intros ->; specialize (A "x"%string); discriminate).
  assert (Key : forall ra rb rd o out, kin_observe c smax perc sh ra (Some rd) o = Ok (out, rb) -> rb = Some rr ->
     forall j name, nth_error (kin_features c) j = Some name -> exists x y, entry out 0 j = Some y /\ feature (rd_net rd) o true name x /\ scaled (standard_range smax lanes name) (kc_clip c) x y).
  { intros ra rb rd' o' out' E Er j name Hj. destruct (C46_table _ _ _ _ _ _ _ _ _ C No E) as (close & Cl & Ln & Lr & Z0 & _). destruct (Z0 j name Hj) as (x & y & Ey & F & Sc).
    exists x, y. split; [exact Ey|]. split; [exact F|]. rewrite N, Er in Sc. unfold range_in in Sc. now rewrite A in Sc. }
  destruct k as [|k]; cbn [nth_error] in Hk, Ho.
  - injection Hk as -> ->. injection Ho as ->. eapply Key; [exact E1 | reflexivity].
  - clear H E1. revert outs1 k rend H1 Hk Ho. induction scenes as [|[rd2 o2] scenes IH]; intros outs1 k rend H1 Hk Ho; [destruct k; discriminate|].
    inversion H1 as [|r rd3 o3 out3 r3 sc outs3 r4 E3 H3]; subst. assert (r3 = Some rr) as -> by (eapply (proj1 (C46_ranges _ _ _ _ _ _ _ _ _ C N E3)); [reflexivity | exact Nn]).
    destruct k as [|k]; cbn [nth_error] in Hk, Ho.
    + injection Hk as -> ->. injection Ho as ->. eapply Key; [exact E3 | reflexivity].
    + eapply IH; eassumption.
Qed.
Print Assumptions C75_ranges_fixed_by_first_observation.
(** Moving on to a road with one lane: a vehicle two lanes away, still read with the
    ranges of the first, three-lane, road. *)
Definition narrow_net : graph := straight_road_network 1 1000 0.
Definition narrow_ego : vehicle := obs_vehicle 0 0 (100, 3) 25.
Example C75_nonvacuous : exists out1 out2 r1, let scenes := [(obs_road, obs_ego); (Road narrow_net [narrow_ego] [] false 0, narrow_ego)] in
  observes kin_default 30 180 (fun l => l) None scenes [out1; out2] r1 /\
  entry out2 0 2 = Some (1/4).
Proof.
  destruct C46_nonvacuous as (out1 & r1 & E1 & _).
  destruct (proj2 (C46_ranges kin_default _ _ _ _ _ _ _ _ ltac:(change (kc_count kin_default) with 5%Z; lia) eq_refl E1) (or_introl eq_refl)) as (rr & lanes & -> & Lc & A).
  assert (lanes = 3%nat) as ->. { eapply lanes_count_fun; [exact Lc|]. exists [("1"%string, map (fun k => straight_network_lane 3 k 1000 0) (seq 0 3))]. eexists. repeat split. }
  assert (Er : kin_rows kin_default 180 (Road narrow_net [narrow_ego] [] false 0) narrow_ego = Ok [[1; 100; 3; 25 * cos 0; 25 * sin 0]]).
  { unfold kin_rows, to_dict, vehicle_dict, destination_direction, destination. cbn. unfold close_filter. cbn. rewrite andb_false_r. reflexivity. }
  assert (exists row, normalize_row rr true KIN_FEATURES [1; 100; 3; 25 * cos 0; 25 * sin 0] = Ok row) as [row En].
  { apply normalize_row_total. intros a b name _. rewrite A. unfold standard_range. cbn [INR].
    repeat match goal with |- context [String.eqb ?x ?y] => destruct (String.eqb x y); [intros [= <- <-]; lra|] end. discriminate. }
  exists out1, ([row; repeat 0 5; repeat 0 5; repeat 0 5; repeat 0 5]), (Some rr). cbv zeta. split.
  - econstructor; [exact E1|]. econstructor; [|constructor]. unfold kin_observe. rewrite Er. cbn [bind kc_normalize kin_default]. unfold kin_ranges, ranges_set.
    destruct rr as [|x0 rr]; [specialize (A "x"%string); discriminate|]. cbn [bind mapM kc_clip kin_default]. change (kin_features kin_default) with KIN_FEATURES. rewrite En. reflexivity.
  - destruct (normalize_row_nth _ _ _ _ _ 2%nat "y"%string 3 En eq_refl eq_refl) as (y & Ny & Sc).
    match goal with |- ?a = _ => change a with (nth_error row 2) end. rewrite Ny. f_equal. rewrite A in Sc. cbn in Sc.
    destruct Sc as (_ & z & -> & S0). match type of S0 with saturate ?z _ => replace z with (1/4) in S0 by field end. unfold saturate in S0. lra.
Qed.

(** ** C78: distant vehicles are not observed *)
Theorem C78_distant_vehicles_unobserved : forall c smax perception shuffle r rd vs1 w vs2 o,
  rd_vehicles rd = vs1 ++ w :: vs2 -> perception <= vnorm (vsub (v_pos w) (v_pos o)) ->
  kin_observe c smax perception shuffle r (Some rd) o =
  kin_observe c smax perception shuffle r (Some (Road (rd_net rd) (vs1 ++ vs2) (rd_objects rd) (rd_record rd) (rd_steps rd))) o.
Proof.
  intros c smax perc sh r rd vs1 w vs2 o Hv Hd. unfold kin_observe. match goal with |- context [kin_rows c perc ?rd2 o] => assert (kin_rows c perc rd o = kin_rows c perc rd2 o) as -> end; [|reflexivity].
  unfold kin_rows. cbn [rd_net]. match goal with |- context [close_vehicles_to ?rd2 o perc _ _] => assert (close_vehicles_to rd o perc (Some (kc_count c - 1)%Z) (kc_see_behind c) = close_vehicles_to rd2 o perc (Some (kc_count c - 1)%Z) (kc_see_behind c)) as <- end; [|reflexivity].
  unfold close_vehicles_to. cbn [rd_net rd_vehicles]. destruct (get_lane (rd_net rd) (v_lane_index o)) as [l|e]; [|reflexivity]. cbn [bind].
  rewrite Hv, !filter_app. cbn [filter]. replace (close_filter o l perc (kc_see_behind c) w) with false; [reflexivity|]. unfold close_filter. rewrite Rltb_ge by exact Hd. reflexivity.
Qed.
Print Assumptions C78_distant_vehicles_unobserved.
Example C78_nonvacuous : exists w, 180 <= vnorm (vsub (v_pos w) (v_pos obs_ego)) /\
  kin_observe kin_default 30 180 (fun l => l) None (Some (Road demo_net [obs_ego; obs_other; w] [] false 0)) obs_ego =
  kin_observe kin_default 30 180 (fun l => l) None (Some obs_road) obs_ego.
Proof.
  exists (obs_vehicle 2 0 (300, 0) 20). assert (H : 180 <= vnorm (vsub (v_pos (obs_vehicle 2 0 (300, 0) 20)) (v_pos obs_ego))).
  { unfold vnorm. cbn. rewrite <- (sqrt_square 180) by lra. apply sqrt_le_1_alt. lra. }
  split; [exact H|]. exact (C78_distant_vehicles_unobserved kin_default 30 180 (fun l => l) None (Road demo_net [obs_ego; obs_other; obs_vehicle 2 0 (300, 0) 20] [] false 0) [obs_ego; obs_other] _ [] obs_ego eq_refl H).
Qed.

(** ** C76: multi-agent observations *)
Theorem C76_one_observation_per_agent : forall c smax perception shuffle rs rd agents outs, List.length rs = List.length agents ->
  multi_observe c smax perception shuffle rs rd agents = Ok outs ->
  List.length outs = List.length agents /\
  forall k o r, nth_error agents k = Some o -> nth_error rs k = Some r ->
    exists out r', nth_error outs k = Some (out, r') /\ kin_observe c smax perception (shuffle k) r (Some rd) o = Ok (out, r').
Proof.
  intros c smax perc sh rs rd agents outs L E. split.
  - apply mapM_length in E. rewrite E, !combine_length, seq_length. lia.
  - intros k o r Ho Hr. assert (Hk : (k < List.length agents)%nat) by (apply nth_error_Some; congruence).
    destruct (mapM_nth _ _ _ E k (k, (r, o))) as ([out r'] & Hn & Ek).
    { apply combine_nth_error; [now apply nth_error_seq' | now apply combine_nth_error]. }
    exists out, r'. split; [exact Hn | exact Ek].
Qed.
Print Assumptions C76_one_observation_per_agent.
(** Whether all can observe is decided agent by agent. *)
Theorem C76_total : forall c smax perception shuffle rs rd agents, List.length rs = List.length agents ->
  (forall k o r, nth_error agents k = Some o -> nth_error rs k = Some r -> exists x, kin_observe c smax perception (shuffle k) r (Some rd) o = Ok x) ->
  exists outs, multi_observe c smax perception shuffle rs rd agents = Ok outs.
Proof.
  intros c smax perc sh rs rd agents L H. unfold multi_observe. apply mapM_total. intros [k [r o]] Hx. cbn [fst snd].
  apply In_nth_error in Hx as [n Hn]. assert (Q : nth_error (seq 0 (List.length agents)) n = Some k /\ nth_error rs n = Some r /\ nth_error agents n = Some o).
  { clear H. generalize dependent n. generalize 0%nat as a. revert rs L. induction agents as [|x agents IH]; intros rs L a n Hn; [destruct n; discriminate|].
    destruct rs as [|y rs]; [discriminate|]. cbn [List.length seq combine] in Hn |- *. destruct n as [|n]; cbn [nth_error] in *; [injection Hn as -> -> ->; auto|].
    apply (IH rs) in Hn; [exact Hn | now injection L]. }
  destruct Q as (Q1 & Q2 & Q3). assert (n < List.length agents)%nat by (apply nth_error_Some; congruence). rewrite nth_error_seq' in Q1 by assumption. injection Q1 as <-. cbn [Nat.add].
  eapply H; eassumption.
Qed.
Print Assumptions C76_total.
Example C76_nonvacuous : exists outs, multi_observe kin_default 30 180 (fun _ l => l) [None; None] obs_road [obs_ego; obs_other] = Ok outs /\ List.length outs = 2%nat.
Proof.
  destruct (C76_total kin_default 30 180 (fun _ l => l) [None; None] obs_road [obs_ego; obs_other] eq_refl) as [outs E].
  - intros k o r Ho Hr. destruct (C46_total kin_default 30 180 (fun l => l) None obs_road o ltac:(change (kc_count kin_default) with 5%Z; lia) ltac:(lra) ltac:(discriminate)) as (out & r' & E).
    + intros name H. cbn in H. unfold known_feature. cbn. tauto.
    + destruct k as [|[|k]]; cbn in Ho; [injection Ho as <-; apply (obs_lane_exists 0); lia | injection Ho as <-; apply (obs_lane_exists 1); lia | destruct k; discriminate].
    + apply obs_bound. destruct k as [|[|k]]; cbn in Ho; [injection Ho as <-; reflexivity | injection Ho as <-; reflexivity | destruct k; discriminate].
    + intros w Hw. apply obs_bound. cbn in Hw. destruct Hw as [<- | [<- | []]]; reflexivity.
    + exists (out, r'). destruct k as [|[|k]]; cbn in Hr; [injection Hr as <-; exact E | injection Hr as <-; exact E | destruct k; discriminate].
  - exists outs. split; [exact E|]. exact (proj1 (C76_one_observation_per_agent kin_default 30 180 (fun _ l => l) [None; None] obs_road [obs_ego; obs_other] outs eq_refl E)).
Qed.
