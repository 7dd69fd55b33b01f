(** Lemmas about the scenes in which episodes start. *)
From Verif Require Import Prelude M_Utils M_Lane M_Road M_Vehicle M_Kinematics M_Control M_Behavior M_Regulation M_Action M_Env M_Scenes M_Nets M_Reset S_Reset
  S_Geometry S_Road S_Vehicle S_Control S_Behavior S_Regulation S_Env S_Joined S_Scene P_Base P_Utils P_Lane P_Graph P_Bfs P_Query P_Kin P_Crash P_Control P_Behavior P_Traffic P_Regulation P_Action P_Env P_Scenes P_Nets P_Reset P_Ready P_Crossing P_Entry P_Joined P_Share P_Play T_Control.
From Coq Require Import Lia Lra.
Open Scope R_scope.
Open Scope list_scope.

Lemma facing_0 : facing 0 = (1, 0).
Proof. unfold facing. now rewrite cos_0, sin_0. Qed.

(** Vehicles added one after the other. *)
Lemma foldM_adds_to {A} (g : graph) (base : list vehicle) (Q : A -> vehicle -> Prop) (f : road -> A -> res road) l :
  (forall rd x rd', In x l -> rd_net rd = g -> incl base (rd_vehicles rd) -> f rd x = Ok rd' -> exists v, rd' = add_vehicle rd v /\ Q x v) ->
  forall rd rd', rd_net rd = g -> incl base (rd_vehicles rd) -> foldM f l rd = Ok rd' -> exists vs, rd' = set_vehicles rd (rd_vehicles rd ++ vs) /\ Forall2 Q l vs.
Proof.
  induction l as [|x l IH]; intros Hf rd rd' N Hb E; cbn [foldM] in E.
  - exists []. split; [|constructor]. rewrite app_nil_r. assert (rd = rd') as <- by congruence. now destruct rd.
  - apply bind_ok in E as (rd1 & E1 & E). destruct (Hf rd x rd1 (or_introl eq_refl) N Hb E1) as (v & -> & Hv).
    destruct (IH (fun r y r' Hy => Hf r y r' (or_intror Hy)) (add_vehicle rd v) rd' N) as (vs & -> & F); [intros y Hy; apply in_or_app; left; apply Hb, Hy | exact E|].
    exists (v :: vs). split; [|constructor; assumption].
    cbn [add_vehicle set_vehicles rd_vehicles rd_net rd_objects rd_record]. rewrite <- app_assoc. reflexivity.
Qed.
Lemma foldM_adds {A} (g : graph) (Q : A -> vehicle -> Prop) (f : road -> A -> res road) l :
  (forall rd x rd', In x l -> rd_net rd = g -> f rd x = Ok rd' -> exists v, rd' = add_vehicle rd v /\ Q x v) ->
  forall rd rd', rd_net rd = g -> foldM f l rd = Ok rd' -> exists vs, rd' = set_vehicles rd (rd_vehicles rd ++ vs) /\ Forall2 Q l vs.
Proof.
  intros H rd rd' N E. apply (foldM_adds_to g [] Q f l) with (rd := rd); [|exact N | intros x [] | exact E]. intros r x r' Hx Nr _. exact (H r x r' Hx Nr).
Qed.
Lemma fresh_other rd ctl v : In v (rd_vehicles rd) -> fresh_id rd ctl <> v_id v.
Proof. intros H E. apply (proj1 (fresh_not_in rd ctl)). rewrite E. apply in_map, H. Qed.
Lemma ego_born cs cf g id p h s v : built g -> g <> [] -> new_ego cs (ego_kind cf) g id p h s = Ok v -> newborn g (ego_kind cf) id p h s v.
Proof.
  intros B N E. destruct (new_ego_total cs (ego_kind cf) g id p h s B N (ego_kind_cases cf)) as (v' & E' & Nv & _). assert (v = v') as -> by congruence. exact Nv.
Qed.
Lemma traffic_born cs c g id p h s b v : built g -> g <> [] -> new_traffic cs c g id p h s b = Ok v ->
  newborn g (kind_of c) id p h s v /\ v_enable_lane_change v = b.
Proof.
  intros B N E. destruct (new_traffic_total cs c g id p h s b B N) as (v' & E' & Nv & _). assert (v = v') as -> by congruence. split; [exact Nv|].
  unfold new_traffic, new_idm in E'. apply bind_ok in E' as (w & _ & E'). apply (f_equal (fun r => match r with Ok x => v_enable_lane_change x | Err _ => b end)) in E'. symmetry. exact E'.
Qed.
Lemma born_stands g k id p h s v u : newborn g k id p h s v -> facing h = u -> stands v p u s.
Proof. intros (_ & _ & P & Hh & S & C & _) U. split; [exact P|]. split; [rewrite Hh; exact U|]. split; assumption. Qed.
Lemma stands_same v w p u s : v_pos w = v_pos v -> v_heading w = v_heading v -> v_speed w = v_speed v -> v_crashed w = v_crashed v -> stands v p u s -> stands w p u s.
Proof. unfold stands. intros -> -> -> ->. exact (fun H => H). Qed.

(** ** Two-way road *)
Definition tw_right : lane := straight_lane (0, DEFAULT_WIDTH) (800, DEFAULT_WIDTH) DEFAULT_WIDTH (LNone, LContinuousLine) false 20 0%Z.
Definition tw_back : lane := straight_lane (800, 0) (0, 0) DEFAULT_WIDTH (LNone, LNone) false 20 0%Z.
Lemma tw_right_facts : (forall s, l_position tw_right s 0 = (s, 4)) /\ forall s, facing (l_heading tw_right s) = (1, 0).
Proof.
  destruct (straight_facts tw_right (0, DEFAULT_WIDTH) (800, DEFAULT_WIDTH) (1, 0) 800 eq_refl) as (_ & P & H).
  - unfold vadd, vscal. cbn [fst snd]. f_equal; ring.
  - cbn [fst snd]. ring.
  - lra.
  - split; [|exact H]. intros s. rewrite P. cbn [fst snd]. unfold DEFAULT_WIDTH. f_equal; ring.
Qed.
Lemma tw_back_facts : (forall s, l_position tw_back s 0 = (800 - s, 0)) /\ forall s, facing (l_heading tw_back s) = (-1, 0).
Proof.
  destruct (straight_facts tw_back (800, 0) (0, 0) (-1, 0) 800 eq_refl) as (_ & P & H).
  - unfold vadd, vscal. cbn [fst snd]. f_equal; ring.
  - cbn [fst snd]. ring.
  - lra.
  - split; [|exact H]. intros s. rewrite P. cbn [fst snd]. f_equal; ring.
Qed.
Lemma two_way_scene cs cf d e : two_way_reset cs cf d = Ok e -> exists v ahead oncoming,
  rd_vehicles (e_road e) = v :: ahead ++ oncoming /\ rd_objects (e_road e) = [] /\ rd_net (e_road e) = two_way_net 800 /\ sole_agent cf e v /\ stands v (30, 4) (1, 0) 30 /\
  Forall2 (fun i w => traffic cf w /\ v_enable_lane_change w = false /\ stands w (70 + 40 * INR i + 10 * dr_normal d (2 * i), 4) (1, 0) (24 + 2 * dr_normal d (2 * i + 1))) (seq 0 3) ahead /\
  Forall2 (fun i w => traffic cf w /\ v_enable_lane_change w = false /\ v_target_lane w = ("b", "a", Some 0%Z)%string /\
    stands w (600 - 100 * INR i - 10 * dr_normal d (6 + 2 * i), 0) (-1, 0) (20 + 5 * dr_normal d (6 + 2 * i + 1))) (seq 0 2) oncoming.
Proof.
  intros H. set (g := two_way_net 800). assert (B : built g) by apply built_build.
  assert (N : g <> []) by (apply build_nonempty; discriminate). destruct (two_way_get 800) as [G1 G2]. fold g in G1, G2. fold tw_right in G1. fold tw_back in G2.
  destruct tw_right_facts as [Pr Hr]. destruct tw_back_facts as [Pb Hb].
  unfold two_way_reset in H. cbv zeta in H. change (rd_net (empty_road (two_way_net 800) cf)) with g in H. fold g in H. rewrite G1 in H. cbn [bind] in H.
  apply bind_ok in H as (v & Ev & H). apply bind_ok in H as (rd1 & E1 & H). apply bind_ok in H as (rd2 & E2 & H). okinj H.
  apply (ego_born _ _ _ _ _ _ _ _ B N) in Ev. rewrite Pr in Ev. assert (Eg : g = two_way_net 800) by reflexivity. clearbody g.
  apply (foldM_adds g (fun i w => traffic cf w /\ v_enable_lane_change w = false /\ stands w (70 + 40 * INR i + 10 * dr_normal d (2 * i), 4) (1, 0) (24 + 2 * dr_normal d (2 * i + 1)))) in E1 as (ahead & -> & F1); [| |reflexivity].
  2: { intros rd i rd' _ Nr E. unfold two_way_ahead in E. rewrite Nr, G1 in E. cbn [bind] in E. apply bind_ok in E as (w & Ew & E). okinj E. exists w. split; [reflexivity|].
    apply (traffic_born _ _ _ _ _ _ _ _ _ B N) in Ew as [Ew Wl]. rewrite Pr in Ew. split; [apply Ew|]. split; [exact Wl|]. eapply born_stands; [exact Ew | apply Hr]. }
  apply (foldM_adds g (fun i w => traffic cf w /\ v_enable_lane_change w = false /\ v_target_lane w = ("b", "a", Some 0%Z)%string /\
    stands w (600 - 100 * INR i - 10 * dr_normal d (6 + 2 * i), 0) (-1, 0) (20 + 5 * dr_normal d (6 + 2 * i + 1)))) in E2 as (oncoming & -> & F2); [| |reflexivity].
  2: { intros rd i rd' _ Nr E. unfold two_way_oncoming in E. rewrite Nr, G2 in E. cbn [bind] in E. apply bind_ok in E as (w & Ew & E). okinj E. eexists. split; [reflexivity|].
    apply (traffic_born _ _ _ _ _ _ _ _ _ B N) in Ew as [Ew Wl]. rewrite Pb in Ew. split; [apply Ew|]. split; [exact Wl|]. split; [reflexivity|].
    apply (stands_same w); [reflexivity | reflexivity | reflexivity | reflexivity |]. replace (600 - 100 * INR i - 10 * dr_normal d (6 + 2 * i)) with (800 - (200 + 100 * INR i + 10 * dr_normal d (6 + 2 * i))) by ring.
    eapply born_stands; [exact Ew | apply Hb]. }
  exists v, ahead, oncoming. split; [cbn [fresh_env e_road set_vehicles rd_vehicles add_vehicle empty_road]; rewrite <- app_assoc; reflexivity|].
  split; [reflexivity|]. split; [reflexivity|]. split; [split; [cbn [fresh_env e_controlled]; rewrite (proj1 Ev); reflexivity | apply Ev]|].
  split; [eapply born_stands; [exact Ev | exact facing_0]|]. split; [exact F1 | exact F2].
Qed.

(** ** Merge *)
Lemma ab_lane k (y : R) lt : let l := straight_lane (0, y) (150 + 80, y) DEFAULT_WIDTH lt false 20 0%Z in
  l_position l k 0 = (k, y).
Proof.
  intros l. destruct (straight_facts l (0, y) (150 + 80, y) (1, 0) 230 eq_refl) as (_ & P & _).
  - unfold vadd, vscal. cbn [fst snd]. f_equal; ring.
  - cbn [fst snd]. ring.
  - lra.
  - rewrite P. cbn [fst snd]. f_equal; ring.
Qed.
Lemma jk_lane s : l_position merge_ljk s 0 = (s, 29/2).
Proof.
  destruct (straight_facts merge_ljk (0, 29/2) (150, 29/2) (1, 0) 150 merge_jk_geom) as (_ & P & _).
  - unfold vadd, vscal. cbn [fst snd]. f_equal; ring.
  - cbn [fst snd]. ring.
  - lra.
  - rewrite P. cbn [fst snd]. f_equal; ring.
Qed.
Lemma bc_end : l_position merge_lbc 80 0 = (310, 8).
Proof.
  destruct (straight_facts merge_lbc (230, 8) (310, 8) (1, 0) 80 merge_bc_geom) as (_ & P & _).
  - unfold vadd, vscal. cbn [fst snd]. f_equal; ring.
  - cbn [fst snd]. ring.
  - lra.
  - rewrite P. cbn [fst snd]. f_equal; ring.
Qed.
Definition merge_slot (cf : common) (x : lane_index * R * R) (w : vehicle) : Prop :=
  let '(i, s, speed) := x in traffic cf w /\ stands w (s, match li_id i with Some 0%Z => 0 | _ => 4 end) (1, 0) speed.
Lemma merge_made cs cf (rd0 : road) g adds e : rd_net rd0 = g -> built g -> g <> [] -> rd_vehicles rd0 = [] ->
  (forall i s sp, In (i, s, sp) adds -> exists l, get_lane g i = Ok l /\ l_position l s 0 = (s, match li_id i with Some 0%Z => 0 | _ => 4 end)) ->
  (exists l, get_lane g ("a", "b", Some 1%Z)%string = Ok l /\ l_position l 30 0 = (30, 4)) ->
  (exists l, get_lane g ("j", "k", Some 0%Z)%string = Ok l /\ l_position l 110 0 = (110, 29/2)) ->
  (do l <- get_lane (rd_net rd0) ("a", "b", Some 1%Z)%string;
   let id := fresh_id rd0 [] in
   do e <- new_ego cs (ego_kind cf) (rd_net rd0) id (l_position l 30 0) 0 30;
   do rd <- foldM (merge_other cs cf) adds (add_vehicle rd0 e);
   do m <- get_lane (rd_net rd) ("j", "k", Some 0%Z)%string;
   do v <- new_traffic cs (cf_traffic cf) (rd_net rd) (fresh_id rd []) (l_position m 110 0) 0 20 true;
   Ok (fresh_env (add_vehicle rd (set_target_speed v 30)) [id])) = Ok e ->
  exists v others m, rd_vehicles (e_road e) = v :: others ++ [m] /\ rd_objects (e_road e) = rd_objects rd0 /\ rd_net (e_road e) = g /\ sole_agent cf e v /\
    stands v (30, 4) (1, 0) 30 /\ Forall2 (merge_slot cf) adds others /\ traffic cf m /\ v_target_speed m = 30 /\ stands m (110, 29/2) (1, 0) 20.
Proof.
  intros Nr B N Em Ha (la & Ga & Pa) (lm & Gm & Pm) H. cbv zeta in H. rewrite Nr, Ga in H. cbn [bind] in H. apply bind_ok in H as (v & Ev & H). apply bind_ok in H as (rd1 & E1 & H).
  apply (foldM_adds g (merge_slot cf)) in E1 as (others & -> & F); [| |exact Nr].
  2: { intros rd [[i s] sp] rd' Hi Nx E. unfold merge_other in E. destruct (Ha i s sp Hi) as (l & Gl & Pl). rewrite Nx, Gl in E. cbn [bind] in E. apply bind_ok in E as (w & Ew & E). okinj E.
    exists w. split; [reflexivity|]. apply (traffic_born _ _ _ _ _ _ _ _ _ B N) in Ew as [Ew _]. rewrite Pl in Ew. split; [apply Ew|]. eapply born_stands; [exact Ew | exact facing_0]. }
  cbn [set_vehicles add_vehicle rd_net] in H. rewrite Nr, Gm in H. cbn [bind] in H. apply bind_ok in H as (w & Ew & H). okinj H.
  apply (ego_born _ _ _ _ _ _ _ _ B N) in Ev. rewrite Pa in Ev. apply (traffic_born _ _ _ _ _ _ _ _ _ B N) in Ew as [Ew _]. rewrite Pm in Ew.
  exists v, others, (set_target_speed w 30). cbn [fresh_env e_road add_vehicle set_vehicles rd_vehicles rd_objects rd_net]. rewrite Em. cbn [app]. split; [reflexivity|]. split; [reflexivity|].
  split; [exact Nr|]. split; [split; [cbn [fresh_env e_controlled]; rewrite (proj1 Ev); reflexivity | apply Ev]|]. split; [eapply born_stands; [exact Ev | exact facing_0]|].
  split; [exact F|]. split; [apply Ew|]. split; [reflexivity|]. apply (stands_same w); [reflexivity | reflexivity | reflexivity | reflexivity |]. eapply born_stands; [exact Ew | exact facing_0].
Qed.
Lemma merge_scene cs cf e : merge_reset cs cf = Ok e -> exists v a b c m,
  rd_vehicles (e_road e) = [v; a; b; c; m] /\ rd_net (e_road e) = merge_net /\ sole_agent cf e v /\ stands v (30, 4) (1, 0) 30 /\
  Forall (traffic cf) [a; b; c; m] /\ stands a (90, 0) (1, 0) 29 /\ stands b (70, 4) (1, 0) 31 /\ stands c (5, 0) (1, 0) (63/2) /\ stands m (110, 29/2) (1, 0) 20 /\ v_target_speed m = 30 /\
  exists o, rd_objects (e_road e) = [o] /\ o_kind o = KObstacle /\ lies o (310, 8) (1, 0).
Proof.
  intros H. destruct (merge_reset_shape cs cf) as (rd0 & adds & Er & Ea & E). rewrite E in H. destruct merge_get as (G0 & G1 & G2).
  apply (merge_made cs cf rd0 merge_net adds e) in H as (v & others & m & Ev & Eo & En & Ag & Sv & F & Tm & Ts & Sm).
  - subst adds. inversion F as [|? a ? l1 Fa F1]; subst. inversion F1 as [|? b ? l2 Fb F2]; subst. inversion F2 as [|? c ? l3 Fc F3]; subst. inversion F3; subst.
    destruct Fa as [Ta Sa]. destruct Fb as [Tb Sb]. destruct Fc as [Tc Sc]. cbn [li_id snd] in Sa, Sb, Sc.
    exists v, a, b, c, m. split; [exact Ev|]. split; [exact En|]. split; [exact Ag|]. split; [exact Sv|]. split; [repeat (constructor; [assumption|]); constructor|].
    split; [exact Sa|]. split; [exact Sb|]. split; [replace (63/2) with (315/10) by lra; exact Sc|]. split; [exact Sm|]. split; [exact Ts|].
    eexists. split; [exact Eo|]. split; [reflexivity|]. split; [exact bc_end|]. split; [exact facing_0 | reflexivity].
  - rewrite Er. reflexivity.
  - apply built_build.
  - apply build_nonempty. discriminate.
  - rewrite Er. reflexivity.
  - subst adds. intros i s sp Hi. destruct Hi as [Q|[Q|[Q|[]]]]; injection Q as <- <- _; eexists; (split; [first [exact G0 | exact G1]|]); cbn [li_id snd]; apply ab_lane.
  - eexists. split; [exact G1|]. apply ab_lane.
  - eexists. split; [exact G2|]. apply jk_lane.
Qed.

(** ** Parking *)
Definition spot_up (y0 limit : R) (k : nat) : lane := straight_lane (spot_x 15 k, y0) (spot_x 15 k, y0 + 8) 4 (LContinuous, LContinuous) false limit 0%Z.
Definition spot_down (y0 limit : R) (k : nat) : lane := straight_lane (spot_x 15 k, - y0) (spot_x 15 k, - y0 - 8) 4 (LContinuous, LContinuous) false limit 0%Z.
Lemma spot_x_eq k : spot_x 15 k = 4 * INR k - 30.
Proof. unfold spot_x. replace (Z.of_nat 15 / 2)%Z with 7%Z by reflexivity. lra. Qed.
Lemma spot_up_facts y0 limit k : l_length (spot_up y0 limit k) = 8 /\ (forall s, l_position (spot_up y0 limit k) s 0 = (4 * INR k - 30, y0 + s)) /\ forall s, facing (l_heading (spot_up y0 limit k) s) = (0, 1).
Proof.
  destruct (straight_facts (spot_up y0 limit k) (spot_x 15 k, y0) (spot_x 15 k, y0 + 8) (0, 1) 8 eq_refl) as (L & P & H).
  - unfold vadd, vscal. cbn [fst snd]. f_equal; ring.
  - cbn [fst snd]. ring.
  - lra.
  - split; [exact L|]. split; [|exact H]. intros s. rewrite P. cbn [fst snd]. rewrite spot_x_eq. f_equal; ring.
Qed.
Lemma spot_down_facts y0 limit k : l_length (spot_down y0 limit k) = 8 /\ (forall s, l_position (spot_down y0 limit k) s 0 = (4 * INR k - 30, - y0 - s)) /\ forall s, facing (l_heading (spot_down y0 limit k) s) = (0, -1).
Proof.
  destruct (straight_facts (spot_down y0 limit k) (spot_x 15 k, - y0) (spot_x 15 k, - y0 - 8) (0, -1) 8 eq_refl) as (L & P & H).
  - unfold vadd, vscal. cbn [fst snd]. f_equal; ring.
  - cbn [fst snd]. ring.
  - lra.
  - split; [exact L|]. split; [|exact H]. intros s. rewrite P. cbn [fst snd]. rewrite spot_x_eq. f_equal; ring.
Qed.
Lemma parking_lanes_list : lanes_list (parking_net 15) = map (spot_up 10 20) (seq 0 15) ++ map (spot_down 10 20) (seq 0 15).
Proof. reflexivity. Qed.
Lemma nth_spots (f h : nat -> lane) j : (j < 30)%nat -> nth_error (map f (seq 0 15) ++ map h (seq 0 15)) j = Some (if (j <? 15)%nat then f j else h (j - 15)%nat).
Proof.
  intros Hj. destruct (j <? 15)%nat eqn:E.
  - apply Nat.ltb_lt in E. rewrite nth_error_app1 by (rewrite map_length, seq_length; exact E). rewrite nth_error_map, nth_error_seq' by exact E. reflexivity.
  - apply Nat.ltb_ge in E. rewrite nth_error_app2 by (rewrite map_length, seq_length; exact E). rewrite map_length, seq_length, nth_error_map, nth_error_seq' by lia. reflexivity.
Qed.
Lemma parking_egos cs cf g d l : built g -> g <> [] -> forall rd ctl rd' ctl', rd_net rd = g -> foldM (parking_ego cs cf d) l (rd, ctl) = Ok (rd', ctl') ->
  exists vs, rd' = set_vehicles rd (rd_vehicles rd ++ vs) /\ ctl' = ctl ++ map v_id vs /\
    Forall2 (fun i v => v_kind v = ego_kind cf /\ stands v (20 * INR i, 0) (facing (2 * PI * dr_unit d i)) 0) l vs.
Proof.
  intros B N. induction l as [|i l IH]; intros rd ctl rd' ctl' Nr E; cbn [foldM] in E.
  - exists []. assert (rd = rd') as <- by congruence. assert (ctl = ctl') as <- by congruence. cbn [map]. rewrite !app_nil_r. split; [now destruct rd|]. split; [reflexivity | constructor].
  - apply bind_ok in E as ([rd1 ctl1] & E1 & E). unfold parking_ego in E1. apply bind_ok in E1 as (v & Ev & E1). rewrite Nr in Ev. apply (ego_born _ _ _ _ _ _ _ _ B N) in Ev.
    assert (add_vehicle rd v = rd1) as <- by congruence. assert (ctl ++ [fresh_id rd ctl] = ctl1) as <- by congruence.
    destruct (IH (add_vehicle rd v) _ _ _ Nr E) as (vs & -> & -> & F). exists (v :: vs).
    cbn [add_vehicle set_vehicles rd_vehicles rd_net rd_objects rd_record map]. rewrite <- !app_assoc. rewrite (proj1 Ev). split; [reflexivity|]. split; [reflexivity|].
    constructor; [|exact F]. split; [apply Ev|]. replace (20 * INR i) with (INR i * 20) by ring. eapply born_stands; [exact Ev | reflexivity].
Qed.
Lemma parking_made cs cf n d g goal e : draws_ok d -> built g -> g <> [] -> lanes_list g = map (spot_up 10 20) (seq 0 15) ++ map (spot_down 10 20) (seq 0 15) ->
  (do (rd, ctl) <- foldM (parking_ego cs cf d) (seq 0 n) (empty_road g cf, []);
   do l <- choice (dr_int d 0) (lanes_list (rd_net rd));
   let goal := Object (fresh_id rd ctl) KLandmark (l_position l (l_length l / 2) 0) 0 (l_heading l 0) false in
   Ok (goal, fresh_env (add_object rd goal) ctl)) = Ok (goal, e) ->
  rd_objects (e_road e) = [goal] /\ o_kind goal = KLandmark /\ rd_net (e_road e) = g /\
  (let j := dr_int d 0 30 in (j < 30)%nat /\ lies goal (if (j <? 15)%nat then (4 * INR j - 30, 14) else (4 * INR (j - 15) - 30, -14)) (if (j <? 15)%nat then (0, 1) else (0, -1))) /\
  e_controlled e = map v_id (rd_vehicles (e_road e)) /\
  Forall2 (fun i v => v_kind v = ego_kind cf /\ stands v (20 * INR i, 0) (facing (2 * PI * dr_unit d i)) 0) (seq 0 n) (rd_vehicles (e_road e)).
Proof.
  intros D B N Ll H.
  apply bind_ok in H as ([rd ctl] & E1 & H). apply (parking_egos cs cf g d (seq 0 n) B N) in E1 as (vs & -> & -> & F); [|reflexivity].
  cbn [set_vehicles rd_net empty_road rd_vehicles app] in H, F. rewrite Ll in H.
  assert (Hj : (dr_int d 0 30 < 30)%nat) by (apply D; lia).
  apply bind_ok in H as (l & El & H). assert (l = if (dr_int d 0 30 <? 15)%nat then spot_up 10 20 (dr_int d 0 30) else spot_down 10 20 (dr_int d 0 30 - 15)) as ->.
  { unfold choice in El. replace (List.length (map (spot_up 10 20) (seq 0 15) ++ map (spot_down 10 20) (seq 0 15))) with 30%nat in El by reflexivity.
    rewrite (nth_spots (spot_up 10 20) (spot_down 10 20) _ Hj) in El. cbn [map seq app] in El. congruence. }
  clear El. set (j := dr_int d 0 30) in *. clearbody j. 
  cbv zeta in H. match type of H with Ok (?o, _) = _ => set (go := o) in H end.
  match type of H with Ok (?a, ?b) = _ => assert (b = e) as <- by congruence; assert (a = goal) as <- by congruence end. clear H.
  cbn [fresh_env e_road add_object set_objects rd_objects set_vehicles empty_road rd_net rd_vehicles app e_controlled].
  split; [reflexivity|]. split; [reflexivity|]. split; [reflexivity|]. split; [|split; [reflexivity | exact F]]. split; [exact Hj|]. unfold go.
  destruct (spot_up_facts 10 20 j) as (Lu & Pu & Hu). destruct (spot_down_facts 10 20 (j - 15)) as (Ld & Pd & Hd).
  destruct (j <? 15)%nat; (split; [|split; [|reflexivity]]); cbn [o_pos o_heading].
  - rewrite Lu, Pu. f_equal. lra.
  - apply Hu.
  - rewrite Ld, Pd. f_equal. lra.
  - apply Hd.
Qed.

Lemma parking_scene cs cf n d goal e : draws_ok d -> parking_reset cs cf n d = Ok (goal, e) ->
  rd_objects (e_road e) = [goal] /\ o_kind goal = KLandmark /\ rd_net (e_road e) = parking_net 15 /\
  (let j := dr_int d 0 30 in (j < 30)%nat /\ lies goal (if (j <? 15)%nat then (4 * INR j - 30, 14) else (4 * INR (j - 15) - 30, -14)) (if (j <? 15)%nat then (0, 1) else (0, -1))) /\
  e_controlled e = map v_id (rd_vehicles (e_road e)) /\
  Forall2 (fun i v => v_kind v = ego_kind cf /\ stands v (20 * INR i, 0) (facing (2 * PI * dr_unit d i)) 0) (seq 0 n) (rd_vehicles (e_road e)).
Proof.
  intros D H. apply (parking_made cs cf n d (parking_net 15) goal e D); [apply built_build | apply build_nonempty; discriminate | exact parking_lanes_list | exact H].
Qed.

(** ** Summon *)
Lemma summon_up i : (i < 15)%nat -> get_lane (summon_net 15) ("a", "b", Some (Z.of_nat i))%string = Ok (spot_up 12 5 i).
Proof.
  intros H. apply build_get. do 15 (destruct i as [|i]; [reflexivity|]). lia.
Qed.
Lemma summon_down i : (i < 15)%nat -> get_lane (summon_net 15) ("b", "c", Some (Z.of_nat i))%string = Ok (spot_down 12 5 i).
Proof.
  intros H. apply build_get. do 15 (destruct i as [|i]; [reflexivity|]). lia.
Qed.
Definition aisle (i : nat) : lane := straight_lane (- summon_x_range 15, nth i [-8; -4; 0; 4; 8] 0) (summon_x_range 15, nth i [-8; -4; 0; 4; 8] 0) 4 (LStriped, LStriped) false 5 0%Z.
Lemma summon_aisle i : (i < 5)%nat -> get_lane (summon_net 15) ("d", "e", Some (Z.of_nat i))%string = Ok (aisle i).
Proof.
  intros H. apply build_get. do 5 (destruct i as [|i]; [reflexivity|]). lia.
Qed.
Lemma aisle_facts i : (i < 5)%nat -> (forall s, l_position (aisle i) s 0 = (-32 + s, -8 + 4 * INR i)) /\ forall s, facing (l_heading (aisle i) s) = (1, 0).
Proof.
  intros Hi. assert (X : summon_x_range 15 = 32) by (unfold summon_x_range; replace (Z.of_nat 15 / 2)%Z with 7%Z by reflexivity; lra).
  destruct (straight_facts (aisle i) (- summon_x_range 15, nth i [-8; -4; 0; 4; 8] 0) (summon_x_range 15, nth i [-8; -4; 0; 4; 8] 0) (1, 0) 64 eq_refl) as (L & P & H).
  - unfold vadd, vscal. cbn [fst snd]. rewrite X. f_equal; ring.
  - cbn [fst snd]. ring.
  - lra.
  - split; [|exact H]. intros s. rewrite P. cbn [fst snd]. rewrite X. f_equal; [ring|]. do 5 (destruct i as [|i]; [cbn [nth INR]; lra|]). lia.
Qed.
Lemma purge_swept_in bad (B : vehicle -> Prop) l : forall n, (forall v, In v l -> (bad v = true <-> B v)) -> (List.length l <= n)%nat -> swept B l (purge bad l).
Proof.
  intros n. revert l. induction n as [|n IH]; intros l Hb L; (destruct l as [|x l]; [constructor|]); cbn [List.length] in L; [lia|].
  cbn [purge]. destruct (bad x) eqn:E.
  - destruct l as [|w l]; [apply swept_last, (Hb x (or_introl eq_refl)), E|]. apply swept_next; [apply (Hb x (or_introl eq_refl)), E|]. apply IH; [intros y Hy; apply Hb; right; now right | cbn in L; lia].
  - apply swept_keep; [intros F; apply (Hb x (or_introl eq_refl)) in F; congruence|]. apply IH; [intros y Hy; apply Hb; now right | lia].
Qed.
Lemma summon_made cs cf n d g goal e : draws_ok d -> (n <= 15)%nat -> built g -> g <> [] ->
  (forall i, (i < 15)%nat -> get_lane g ("a", "b", Some (Z.of_nat i))%string = Ok (spot_up 12 5 i)) ->
  (forall i, (i < 15)%nat -> get_lane g ("b", "c", Some (Z.of_nat i))%string = Ok (spot_down 12 5 i)) ->
  (forall i, (i < 5)%nat -> get_lane g ("d", "e", Some (Z.of_nat i))%string = Ok (aisle i)) ->
  (let rd := empty_road g cf in
   let id := fresh_id rd [] in
   do e <- new_ego cs (ego_kind cf) (rd_net rd) id (spot_x 15 14, 12 + 8 / 2) (2 * PI * dr_unit d 0) 0;
   let rd := add_vehicle rd e in
   let goal := Object (fresh_id rd []) KLandmark ((if Nat.eqb (dr_int d 0 2) 0 then - 2 * 15 - 10 else 2 * 15 + 10), 0) 0 0 false in
   do rd <- foldM (summon_other cs cf d) (seq 0 n) (add_object rd goal);
   Ok (goal, fresh_env (set_vehicles rd (purge (too_close e) (rd_vehicles rd))) [id])) = Ok (goal, e) ->
  rd_objects (e_road e) = [goal] /\ o_kind goal = KLandmark /\ lies goal (if Nat.eqb (dr_int d 0 2) 0 then (-40, 0) else (40, 0)) (1, 0) /\ rd_net (e_road e) = g /\
  exists v others kept, rd_vehicles (e_road e) = v :: kept /\ sole_agent cf e v /\ stands v (26, 16) (facing (2 * PI * dr_unit d 0)) 0 /\
    Forall2 (summon_vehicle cf d) (seq 0 n) others /\ swept (fun w => dist2 (v_pos w) (26, 16) < 20) others kept.
Proof.
  intros D Hn B N Gu Gd Ga H. cbv zeta in H. apply bind_ok in H as (v & Ev & H). apply bind_ok in H as (rd1 & E1 & H). cbn [empty_road rd_net] in Ev. apply (ego_born _ _ _ _ _ _ _ _ B N) in Ev.
  match type of E1 with context [add_object _ ?o] => set (go := o) in * end.
  match type of H with Ok (?a, ?b) = _ => assert (b = e) as <- by congruence; assert (a = goal) as <- by congruence end. clear H.
  apply (foldM_adds_to g [v] (fun i w => v_id w <> v_id v /\ summon_vehicle cf d i w)) in E1 as (others & -> & F); [| |reflexivity | apply incl_refl].
  2: { intros rd i rd' Hi Nr Hb E. apply in_seq in Hi. pose proof (fresh_other rd [] v (Hb v (or_introl eq_refl))) as Hf. unfold summon_other in E. rewrite Nr in E. unfold summon_vehicle. destruct (Rltb (75 / 100) (dr_unit d (2 * i + 1))) eqn:U.
    - apply Rltb_true in U. apply bind_ok in E as (w & Ew & E). okinj E. exists w. split; [reflexivity|].
      unfold traffic_on_lane in Ew. assert (H5 : (dr_int d (2 * i + 1) 5 < 5)%nat) by (apply D; lia). rewrite Ga in Ew by exact H5. cbn [bind] in Ew.
      destruct (aisle_facts _ H5) as [Pa Ha]. apply (traffic_born _ _ _ _ _ _ _ _ _ B N) in Ew as [Ew _]. split; [destruct Ew as (-> & _); exact Hf|]. right. split; [lra|]. split; [apply Ew|].
      rewrite Pa in Ew. match type of Ew with newborn _ _ _ (?x, _) _ _ _ => replace (-28 + 5 * INR i - 4 * INR (dr_int d (2 * i + 2) 2)) with x end.
      2: { unfold summon_x_range. replace (Z.of_nat 15 / 2)%Z with 7%Z by reflexivity. lra. }
      eapply born_stands; [exact Ew | apply Ha].
    - apply Rltb_false in U. cbv zeta in E. apply bind_ok in E as (w & Ew & E). okinj E. exists w. split; [reflexivity|]. unfold make_on_lane in Ew.
      destruct (spot_up_facts 12 5 i) as (_ & Pu & Hu). destruct (spot_down_facts 12 5 i) as (_ & Pd & Hd).
      destruct (Rleb (1 / 2) (dr_unit d (2 * i + 2))) eqn:U2.
      + rewrite Gu in Ew by lia. cbn [bind] in Ew. match type of Ew with new_vehicle ?a ?b ?c ?x ?p = _ => destruct (new_vehicle_total a b c x p B N) as (w' & Ew' & Nw); assert (w = w') as -> by congruence end.
        split; [destruct Nw as (-> & _); exact Hf|]. left. split; [lra|]. split; [apply Nw|]. left. apply Rleb_true in U2. split; [exact U2|]. rewrite Pu in Nw. replace 16 with (12 + 4) by ring. eapply born_stands; [exact Nw | apply Hu].
      + rewrite Gd in Ew by lia. cbn [bind] in Ew. match type of Ew with new_vehicle ?a ?b ?c ?x ?p = _ => destruct (new_vehicle_total a b c x p B N) as (w' & Ew' & Nw); assert (w = w') as -> by congruence end.
        split; [destruct Nw as (-> & _); exact Hf|]. left. split; [lra|]. split; [apply Nw|]. right. apply Rleb_false in U2. split; [exact U2|]. rewrite Pd in Nw. replace (-16) with (-12 - 4) by ring. eapply born_stands; [exact Nw | apply Hd]. }
  cbn [fresh_env e_road add_object set_objects rd_objects set_vehicles empty_road rd_net rd_vehicles app e_controlled add_vehicle].
  split; [reflexivity|]. split; [reflexivity|]. split; [split; [unfold go; cbn [o_pos]; destruct (Nat.eqb _ _); f_equal; ring | split; [exact facing_0 | reflexivity]]|]. split; [reflexivity|].
  assert (Pv : v_pos v = (26, 16)) by (destruct Ev as (_ & _ & -> & _); rewrite spot_x_eq; cbn [INR]; f_equal; lra).
  exists v, others, (purge (too_close v) others). 
  split; [cbn [purge]; rewrite too_close_self; reflexivity|]. split; [split; [cbn [e_controlled fresh_env]; rewrite (proj1 Ev); reflexivity | apply Ev]|].
  split; [split; [exact Pv|]; destruct Ev as (_ & _ & _ & -> & -> & -> & _); split; [reflexivity | split; reflexivity]|]. split; [clear - F; induction F as [|? ? ? ? [_ H] _ IH]; constructor; assumption|].
  apply (purge_swept_in _ _ others (List.length others)); [|apply le_n]. intros w Hw. unfold too_close. rewrite andb_true_iff, negb_true_iff, Nat.eqb_neq, Rltb_true, Pv, <- dist2_norm.
  split; [intros [_ X]; exact X|]. intros X. split; [|exact X]. destruct (Forall2_In_r _ _ _ F w Hw) as (i & _ & Hi & _). exact Hi.
Qed.
Lemma summon_scene cs cf n d goal e : draws_ok d -> (n <= 15)%nat -> summon_reset cs cf n d = Ok (goal, e) ->
  rd_objects (e_road e) = [goal] /\ o_kind goal = KLandmark /\ lies goal (if Nat.eqb (dr_int d 0 2) 0 then (-40, 0) else (40, 0)) (1, 0) /\ rd_net (e_road e) = summon_net 15 /\
  exists v others kept, rd_vehicles (e_road e) = v :: kept /\ sole_agent cf e v /\ stands v (26, 16) (facing (2 * PI * dr_unit d 0)) 0 /\
    Forall2 (summon_vehicle cf d) (seq 0 n) others /\ swept (fun w => dist2 (v_pos w) (26, 16) < 20) others kept.
Proof.
  intros D Hn H. apply (summon_made cs cf n d (summon_net 15) goal e D Hn); [apply built_build | apply build_nonempty; discriminate | exact summon_up | exact summon_down | exact summon_aisle | exact H].
Qed.

(** ** Roundabout *)
Lemma planned_for g ord v dest v' : built g -> set_order ord -> lane_exists g (v_lane_index v) -> plan_route_to g ord v dest = Ok v' ->
  exists rt, v' = set_route v (Some rt) /\ bound_for g v' dest.
Proof.
  intros B O X E. destruct (C32_planned_route g ord v dest B O X) as (w & rt & E2 & -> & H & Ch & On & Y & _). assert (v' = set_route v (Some rt)) as -> by congruence.
  exists rt. split; [reflexivity|]. exists rt. split; [reflexivity|]. split; [exact H|]. split; [exact Ch|]. split; [exact On|]. intros Q. apply (Y Q).
Qed.
Lemma bound_same g v w dest : v_route w = v_route v -> v_lane_index w = v_lane_index v -> bound_for g v dest -> bound_for g w dest.
Proof. unfold bound_for. intros -> ->. exact (fun H => H). Qed.
Definition ring_lane_of (r : R) (lt : line_type * line_type) : lane := circular_lane (0, 0) r (deg (180 - 24)) (deg (90 + 24)) false lt 20 0%Z.
Lemma ring_lane_facts r lt s : r <> 0 -> l_position (ring_lane_of r lt) s 0 = vscal r (facing (deg 156 - s / r)) /\ l_heading (ring_lane_of r lt) s = deg 156 - s / r - PI / 2.
Proof.
  intros Hr. unfold l_position, l_heading, ring_lane_of, circular_lane. cbn [l_geom geom_position geom_heading]. unfold circ_dir. cbv zeta.
  replace (-1 * s / r + deg (180 - 24)) with (deg 156 - s / r) by (unfold deg; field; exact Hr). split; [|ring].
  unfold vadd, vscal, facing. cbn [fst snd]. f_equal; ring.
Qed.
Lemma ring_get a b k ls l : added_between a b ring_adds = ls -> nth_error ls k = Some l -> get_lane roundabout_net (a, b, Some (Z.of_nat k)) = Ok l.
Proof. intros E H. rewrite roundabout_eq. apply build_get. rewrite E. exact H. Qed.
Lemma ring_we_sx : added_between "we" "sx" ring_adds = [ring_lane_of 20 (LContinuous, LStriped); ring_lane_of (20 + 4) (LNone, LContinuous)].
Proof. exact (ring_road 6 ltac:(lia)). Qed.
Lemma ring_south : added_between "ser" "ses" ring_adds = [r_straight (2, r_access) (2, r_dev / 2) (LStriped, LContinuous)].
Proof. reflexivity. Qed.
Lemma ring_east : added_between "eer" "ees" ring_adds = [r_straight (r_access, - 2) (r_dev / 2, - 2) (LStriped, LContinuous)].
Proof. reflexivity. Qed.
Lemma roundabout_lanes : get_lane roundabout_net ("ser", "ses", Some 0%Z)%string = Ok (r_straight (2, r_access) (2, r_dev / 2) (LStriped, LContinuous)) /\
  get_lane roundabout_net ("we", "sx", Some 0%Z)%string = Ok (ring_lane_of 20 (LContinuous, LStriped)) /\
  get_lane roundabout_net ("we", "sx", Some 1%Z)%string = Ok (ring_lane_of (20 + 4) (LNone, LContinuous)) /\
  get_lane roundabout_net ("eer", "ees", Some 0%Z)%string = Ok (r_straight (r_access, - 2) (r_dev / 2, - 2) (LStriped, LContinuous)).
Proof.
  split; [exact (ring_get _ _ 0 _ _ ring_south eq_refl)|]. split; [exact (ring_get _ _ 0 _ _ ring_we_sx eq_refl)|].
  split; [exact (ring_get _ _ 1 _ _ ring_we_sx eq_refl) | exact (ring_get _ _ 0 _ _ ring_east eq_refl)].
Qed.
Lemma south_entry lt s : l_position (r_straight (2, r_access) (2, r_dev / 2) lt) s 0 = (2, 170 - s) /\ facing (l_heading (r_straight (2, r_access) (2, r_dev / 2) lt) s) = (0, -1).
Proof.
  destruct (straight_facts (r_straight (2, r_access) (2, r_dev / 2) lt) (2, r_access) (2, r_dev / 2) (0, -1) (255/2) eq_refl) as (_ & P & H).
  - unfold vadd, vscal, r_access, r_dev. cbn [fst snd]. f_equal; lra.
  - cbn [fst snd]. ring.
  - lra.
  - split; [|apply H]. rewrite P. cbn [fst snd]. unfold r_access. f_equal; ring.
Qed.
Lemma east_entry lt s : l_position (r_straight (r_access, - 2) (r_dev / 2, - 2) lt) s 0 = (170 - s, -2) /\ facing (l_heading (r_straight (r_access, - 2) (r_dev / 2, - 2) lt) s) = (-1, 0).
Proof.
  destruct (straight_facts (r_straight (r_access, - 2) (r_dev / 2, - 2) lt) (r_access, - 2) (r_dev / 2, - 2) (-1, 0) (255/2) eq_refl) as (_ & P & H).
  - unfold vadd, vscal, r_access, r_dev. cbn [fst snd]. f_equal; lra.
  - cbn [fst snd]. ring.
  - lra.
  - split; [|apply H]. rewrite P. cbn [fst snd]. unfold r_access. f_equal; ring.
Qed.
Lemma roundabout_made cs cf incoming d g e : draws_ok d -> built g -> g <> [] -> match incoming with Some k => (-3 <= k < 3)%Z | None => True end ->
  get_lane g ("ser", "ses", Some 0%Z)%string = Ok (r_straight (2, r_access) (2, r_dev / 2) (LStriped, LContinuous)) ->
  get_lane g ("we", "sx", Some 0%Z)%string = Ok (ring_lane_of 20 (LContinuous, LStriped)) ->
  get_lane g ("we", "sx", Some 1%Z)%string = Ok (ring_lane_of (20 + 4) (LNone, LContinuous)) ->
  get_lane g ("eer", "ees", Some 0%Z)%string = Ok (r_straight (r_access, - 2) (r_dev / 2, - 2) (LStriped, LContinuous)) ->
  (let rd := empty_road g cf in
   let g := rd_net rd in
   do l <- get_lane g ("ser", "ses", Some 0%Z)%string;
   let id := fresh_id rd [] in
   do e <- new_ego cs (ego_kind cf) g id (l_position l 125 0) (l_heading l 140) 8;
   do e <- (if is_controlled (ego_kind cf) then plan_route_to g (dr_ord d) e "nxs"%string else Ok e);
   let cs' := set_class_grid cs roundabout_grid in
   let rd := add_vehicle rd (set_grid e roundabout_grid) in
   do rd <- foldM (roundabout_other cs' cf d incoming)
              [(0%nat, ("we", "sx", Some 1%Z), 5); (1%nat, ("we", "sx", Some 0%Z), 20 * 1);
               (2%nat, ("we", "sx", Some 0%Z), 20 * - 1); (3%nat, ("eer", "ees", Some 0%Z), 50)]%string rd;
   Ok (cs', fresh_env rd [id])) = Ok e ->
  exists v others, rd_vehicles (e_road (snd e)) = v :: others /\ rd_objects (e_road (snd e)) = [] /\ rd_net (e_road (snd e)) = g /\ sole_agent cf (snd e) v /\
    stands v (2, 45) (0, -1) 8 /\ (ego_kind cf = KMDP -> bound_for g v "nxs"%string) /\ Forall2 (round_vehicle cf g d incoming) (seq 0 4) others.
Proof.
  intros D B N Hin G1 G2 G3 G4 H. cbv zeta in H. cbn [empty_road rd_net] in H. rewrite G1 in H. cbn [bind] in H. apply bind_ok in H as (v0 & Ev & H).
  apply bind_ok in H as (v & Er & H). apply bind_ok in H as (rd1 & E1 & H). okinj H. apply (ego_born _ _ _ _ _ _ _ _ B N) in Ev. rewrite (proj1 (south_entry _ _)) in Ev.
  assert (Sv : exists rt, v = set_route v0 rt /\ (ego_kind cf = KMDP -> bound_for g v "nxs"%string)).
  { destruct (is_controlled (ego_kind cf)) eqn:K.
    - apply planned_for in Er as (rt & Er & Bf); [|exact B | apply D | apply Ev]. exists (Some rt). split; [exact Er | intros _; exact Bf].
    - assert (v0 = v) as <- by congruence. exists (v_route v0). split; [now destruct v0|]. intros Q. rewrite Q in K. discriminate K. }
  destruct Sv as (rt & -> & Bf).
  apply (foldM_adds g (fun x w => round_vehicle cf g d incoming (fst (fst x)) w)) in E1 as (others & -> & F); [| |reflexivity].
  2: { intros rd [[j i] s] rd' Hx Nr E. unfold roundabout_other in E. rewrite Nr in E. cbn [fst].
    apply bind_ok in E as (w & Ew & E). apply bind_ok in E as (dest & Ed & E). apply bind_ok in E as (w' & Ep & E). okinj E. eexists. split; [reflexivity|].
    assert (exists l, get_lane g i = Ok l) as [l Gl] by (destruct Hx as [Q|[Q|[Q|[Q|[]]]]]; injection Q as _ <- _; eexists; eassumption).
    unfold traffic_on_lane in Ew. rewrite Gl in Ew. cbn [bind] in Ew. apply (traffic_born _ _ _ _ _ _ _ _ _ B N) in Ew as [Ew _].
    apply planned_for in Ep as (rt' & -> & Bw); [|exact B | apply D | apply Ew].
    match goal with |- context [randomize ?dd ?kk ?c ?w] => destruct (randomize_same dd kk c w) as (Si & Sk & Sl & _ & Srt & Sp & _ & Sh & Ssp & Scr) end.
    split; [unfold traffic; rewrite Sk; apply Ew|]. split.
    - assert (X : stands w (l_position l (s + dr_normal d (2 * j) * 2) 0) (facing (l_heading l (s + dr_normal d (2 * j) * 2))) (16 + 2 * dr_normal d (2 * j + 1))).
      { replace (16 + 2 * dr_normal d (2 * j + 1)) with (16 + dr_normal d (2 * j + 1) * 2) by ring. eapply born_stands; [exact Ew | reflexivity]. }
      assert (Y : forall p u sp, stands w p u sp -> stands (randomize d (5 * j) (cf_traffic cf) (set_route w (Some rt'))) p u sp).
      { intros p u sp. apply stands_same; [rewrite Sp | rewrite Sh | rewrite Ssp | rewrite Scr]; reflexivity. }
      destruct Hx as [Q|[Q|[Q|[Q|[]]]]]; injection Q as <- <- <-; unfold round_place, ring_spot; apply Y; cbn [Nat.mul Nat.add] in X.
      + assert (l = ring_lane_of (20 + 4) (LNone, LContinuous)) as -> by congruence. destruct (ring_lane_facts (20 + 4) (LNone, LContinuous) (5 + dr_normal d 0 * 2) ltac:(lra)) as [P1 P2].
        rewrite P1, P2 in X. replace 24 with (20 + 4) by ring. replace (5 + 2 * dr_normal d 0) with (5 + dr_normal d 0 * 2) by ring. exact X.
      + assert (l = ring_lane_of 20 (LContinuous, LStriped)) as -> by congruence. destruct (ring_lane_facts 20 (LContinuous, LStriped) (20 * 1 + dr_normal d 2 * 2) ltac:(lra)) as [P1 P2].
        rewrite P1, P2 in X. replace (20 + 2 * dr_normal d 2) with (20 * 1 + dr_normal d 2 * 2) by ring. exact X.
      + assert (l = ring_lane_of 20 (LContinuous, LStriped)) as -> by congruence. destruct (ring_lane_facts 20 (LContinuous, LStriped) (20 * - 1 + dr_normal d 4 * 2) ltac:(lra)) as [P1 P2].
        rewrite P1, P2 in X. replace (-20 + 2 * dr_normal d 4) with (20 * - 1 + dr_normal d 4 * 2) by ring. exact X.
      + assert (l = r_straight (r_access, - 2) (r_dev / 2, - 2) (LStriped, LContinuous)) as -> by congruence. destruct (east_entry (LStriped, LContinuous) (50 + dr_normal d 6 * 2)) as [P1 P2].
        rewrite P1, P2 in X. replace (120 - 2 * dr_normal d 6) with (170 - (50 + dr_normal d 6 * 2)) by ring. exact X.
    - exists dest. split.
      + assert (Ch : forall k, choice (dr_int d k) roundabout_destinations = Ok dest -> nth_error ["exr"; "sxr"; "nxr"]%string (dr_int d k 3) = Some dest).
        { intros k E. unfold choice, roundabout_destinations in E. cbn [List.length] in E. destruct (nth_error _ _); [congruence | discriminate E]. }
        unfold round_dest. destruct j; [|apply Ch, Ed]. destruct incoming as [z|]; [|apply Ch, Ed].
        assert (z = -3 \/ z = -2 \/ z = -1 \/ z = 0 \/ z = 1 \/ z = 2)%Z as [-> |[-> |[-> |[-> |[-> | ->]]]]] by lia; clear - Ed; revert Ed; vm_compute; congruence.
      + apply (bound_same g (set_route w (Some rt'))); [exact Srt | exact Sl | exact Bw]. }
  exists (set_grid (set_route v0 rt) roundabout_grid), others. cbn [snd fresh_env e_road set_vehicles rd_vehicles add_vehicle empty_road rd_objects rd_net app].
  split; [reflexivity|]. split; [reflexivity|]. split; [reflexivity|]. split; [split; [cbn [fresh_env e_controlled set_grid set_route v_id]; rewrite (proj1 Ev); reflexivity | apply Ev]|].
  split; [apply (stands_same v0); [reflexivity | reflexivity | reflexivity | reflexivity |]; replace 45 with (170 - 125) by ring; eapply born_stands; [exact Ev | apply south_entry]|].
  split; [intros Q; apply (bound_same g (set_route v0 rt)); [reflexivity | reflexivity | apply Bf, Q]|].
  clear - F. inversion F as [|? a ? l1 Fa F1]; subst. inversion F1 as [|? b ? l2 Fb F2]; subst. inversion F2 as [|? c ? l3 Fc F3]; subst. inversion F3 as [|? d0 ? l4 Fd F4]; subst. inversion F4; subst.
  repeat (constructor; [assumption|]). constructor.
Qed.
Lemma roundabout_scene cs cf incoming d cs' e : draws_ok d -> match incoming with Some k => (-3 <= k < 3)%Z | None => True end -> roundabout_reset cs cf incoming d = Ok (cs', e) ->
  exists v others, rd_vehicles (e_road e) = v :: others /\ rd_objects (e_road e) = [] /\ rd_net (e_road e) = roundabout_net /\ sole_agent cf e v /\
    stands v (2, 45) (0, -1) 8 /\ (ego_kind cf = KMDP -> bound_for roundabout_net v "nxs"%string) /\ Forall2 (round_vehicle cf roundabout_net d incoming) (seq 0 4) others.
Proof.
  intros D Hin H. destruct roundabout_lanes as (G1 & G2 & G3 & G4).
  apply (roundabout_made cs cf incoming d roundabout_net (cs', e) D); [exists ring_adds; exact roundabout_eq | rewrite roundabout_eq; apply build_nonempty; discriminate | exact Hin | exact G1 | exact G2 | exact G3 | exact G4 | exact H].
Qed.

(** ** Intersection *)
Lemma arm_facts k s : (k < 4)%nat -> l_position (arm_lane k) s 0 = arm_point k s /\ facing (l_heading (arm_lane k) s) = turned_quarters k (0, -1) /\ l_speed_limit (arm_lane k) = 10.
Proof.
  intros Hk. destruct (turn_cs k Hk) as [C S]. split; [rewrite arm_position; change (deg (90 * INR k)) with (turn k)|split; [|reflexivity]].
  - unfold vrot, arm_point. rewrite C, S. destruct k as [|[|[|[|k]]]]; [| | | |lia]; cbn [fst snd turned_quarters]; f_equal; ring.
  - destruct (arm_geometry k) as (_ & _ & H & _). change (facing (l_heading (arm_lane k) s)) with (facing (l_heading (arm_lane k) 0)). unfold facing. rewrite H.
    unfold vrot. rewrite C, S. destruct k as [|[|[|[|k]]]]; [| | | |lia]; cbn [fst snd turned_quarters]; f_equal; ring.
Qed.
Lemma nine_levels : speed_to_index ego_grid 10 = 2%Z /\ index_to_speed ego_grid 2 = 9.
Proof.
  split.
  - unfold speed_to_index, ego_grid. cbn [sg_min sg_max sg_count]. set (y := (10 - 0) / (9 - 0) * IZR (3 - 1)).
    assert (E : Rround_even y = 2%Z).
    { pose proof (Rround_even_near y) as H. assert (Y : y = 20/9) by (unfold y; cbn; lra). rewrite Y in *. clearbody y.
      assert (1 < IZR (Rround_even (20/9)) < 3) as [A B] by (unfold Rabs in H; destruct (Rcase_abs _); lra).
      apply lt_IZR in A. apply lt_IZR in B. lia. }
    rewrite E. reflexivity.
  - unfold index_to_speed, ego_grid. cbn [sg_min sg_max sg_count]. cbn. lra.
Qed.
Definition agents_there (d : draws) (destination : option string) (rd : road) (ctl : list nat) : Prop :=
  forall i id, nth_error ctl i = Some id -> exists v, In v (rd_vehicles rd) /\ v_id v = id /\ crossing_agent destination d i v.
Lemma intersection_agent cs cf dest d rd ctl k rd' ctl' : draws_ok d -> rd_net rd = intersection_net -> List.length ctl = k -> (k < 4)%nat ->
  (forall j, (j < k)%nat -> Rabs (dr_normal d (1000 + j)) <= 5 /\ Rabs (dr_normal d (1000 + k)) <= 5) ->
  agents_there d dest rd ctl -> intersection_ego cs cf dest d (rd, ctl) k = Ok (rd', ctl') ->
  rd_net rd' = intersection_net /\ ctl' = ctl ++ [fresh_id rd ctl] /\ agents_there d dest rd' ctl'.
Proof.
  intros D Nr L Hk Nm Pl E. unfold intersection_ego in E. rewrite Nr, crossing_arm in E by exact Hk. cbn [bind] in E. cbv zeta in E.
  apply bind_ok in E as (v & Ev & E). apply (ego_born _ _ _ _ _ _ _ _ crossing_built crossing_nonempty) in Ev.
  destruct (arm_facts k (60 + 5 * dr_normal d (1000 + k)) Hk) as (P1 & _ & P3). destruct (arm_facts k 60 Hk) as (_ & P2 & _). rewrite P1, P3 in Ev. rewrite P3 in E.
  destruct nine_levels as [N1 N2]. rewrite N1, N2 in E.
  destruct (negb (is_controlled (ego_kind cf))) eqn:Kc; [discriminate E|]. assert (Ke : ego_kind cf = KMDP) by (destruct (ego_kind_cases cf) as [Q|[Q|Q]]; [exact Q | rewrite Q in Kc; discriminate Kc | rewrite Q in Kc; discriminate Kc]).
  apply bind_ok in E as (w & Ew & E). apply planned_for in Ew as (rt & -> & Bf); [|exact crossing_built | apply D | apply Ev].
  match type of E with Ok (set_vehicles (add_vehicle rd ?x) _, _) = _ => set (u := x) in E end.
  assert (Iu : v_id u = fresh_id rd ctl) by apply Ev. assert (Pu : v_pos u = arm_point k (60 + 5 * dr_normal d (1000 + k))) by apply Ev.
  assert (Cu : crossing_agent dest d k u).
  { split; [change (v_kind v = KMDP); rewrite <- Ke; apply Ev|]. split; [apply (stands_same v); [reflexivity | reflexivity | reflexivity | reflexivity |]; eapply born_stands; [exact Ev | exact P2]|].
    split; [reflexivity|]. split; [reflexivity|]. split; [reflexivity|]. apply (bound_same intersection_net (set_route v (Some rt))); [reflexivity | reflexivity|].
    unfold truthy_node in Bf. destruct dest as [s|]; [|exact Bf]. destruct (String.eqb s ""); exact Bf. }
  match type of E with Ok (?a, ?b) = _ => assert (a = rd') as <- by congruence; assert (b = ctl') as <- by congruence end. clear E.
  split; [exact Nr|]. split; [reflexivity|]. intros i id Hi. cbn [set_vehicles rd_vehicles].
  destruct (Nat.eq_dec i k) as [-> |Hne].
  - rewrite nth_error_app2, L, Nat.sub_diag in Hi by lia. injection Hi as <-. exists u. split; [|split; [exact Iu | exact Cu]].
    apply (purge_keeps _ _ _ (le_n _)); [apply in_or_app; right; now left | apply too_close_self].
  - assert (Hlt : (i < k)%nat).
    { assert (i < List.length (ctl ++ [fresh_id rd ctl]))%nat by (apply nth_error_Some; congruence). rewrite app_length in H. cbn in H. lia. }
    rewrite nth_error_app1 in Hi by lia. destruct (Pl i id Hi) as (x & Hx & Ix & Cx). exists x. split; [|split; assumption].
    apply (purge_keeps _ _ _ (le_n _)); [apply in_or_app; now left|]. unfold too_close. destruct Cx as (_ & (Px & _) & _). rewrite Px, Pu.
    destruct (Nm i Hlt) as [A B]. rewrite (proj2 (Rltb_false _ _)); [apply andb_false_r|].
    rewrite <- P1. destruct (arm_facts i (60 + 5 * dr_normal d (1000 + i)) ltac:(lia)) as (<- & _). apply ego_places_apart; try assumption; lia.
Qed.
Lemma intersection_scene cs cf c n m dest prob d cs' e : draws_ok d -> options_fit cf (SIntersection c n m dest prob) d ->
  intersection_reset cs cf n m dest d = Ok (cs', e) -> List.length (e_controlled e) = n /\ agents_there d dest (e_road e) (e_controlled e).
Proof.
  intros D (Hn & Hs & Nm) E. unfold intersection_reset in E. cbv zeta in E.
  destruct (intersection_traffic (set_tuning cs (cf_traffic cf) tuning_intersection) (cf_traffic cf) m d cf D Hs) as (rd1 & rd2 & rd3 & E1 & E2 & E3 & _ & _ & C3).
  rewrite E1 in E. cbn [bind] in E. rewrite E2 in E. cbn [bind] in E. rewrite E3 in E. cbn [bind] in E. apply bind_ok in E as ([rd4 ctl] & E4 & E).
  match type of E with Ok (_, ?b) = _ => assert (b = e) as <- by congruence end. clear E. cbn [fresh_env e_road e_controlled].
  set (cs1 := set_tuning cs (cf_traffic cf) tuning_intersection) in *. clearbody cs1. clear E1 E2 E3. pose proof (proj1 C3) as N3. clear C3.
  assert (X : forall l k rd ctl rd' ctl', l = seq k (n - k) -> (k <= n)%nat -> rd_net rd = intersection_net -> List.length ctl = k -> agents_there d dest rd ctl ->
    foldM (intersection_ego cs1 cf dest d) l (rd, ctl) = Ok (rd', ctl') -> List.length ctl' = n /\ agents_there d dest rd' ctl').
  { clear E4 N3 rd1 rd2 rd3 rd4 ctl. induction l as [|j l IH]; intros k rd ctl rd' ctl' El Hk Nr L Pl E.
    - cbn [foldM] in E. assert (rd = rd') as <- by congruence. assert (ctl = ctl') as <- by congruence. split; [|exact Pl]. rewrite L. apply (f_equal (@List.length nat)) in El. rewrite seq_length in El. cbn in El. lia.
    - assert (n - k = S (n - S k))%nat as Q by (apply (f_equal (@List.length nat)) in El; rewrite seq_length in El; cbn in El; lia).
      rewrite Q in El. cbn [seq] in El. injection El as -> El. cbn [foldM] in E. apply bind_ok in E as ([rdx ctlx] & Ex & E).
      apply intersection_agent in Ex as (N' & -> & P'); [|exact D | exact Nr | exact L | lia | | exact Pl].
      + apply (IH (S k) rdx (ctl ++ [fresh_id rd ctl]) rd' ctl' El); [lia | exact N' | rewrite app_length; cbn; lia | exact P' | exact E].
      + intros i Hi. destruct Nm as [Nm|Nm]; [lia|]. split; apply Nm; lia. }
  apply (X (seq 0 n) 0%nat rd3 [] rd4 ctl); [now rewrite Nat.sub_0_r | lia | exact N3 | reflexivity | intros i id Hi; destruct i; discriminate Hi | exact E4].
Qed.

(** ** Sweeping *)
Lemma swept_prefix (B : vehicle -> Prop) l1 l2 k : Forall (fun v => ~ B v) l1 -> swept B (l1 ++ l2) k -> exists k2, k = l1 ++ k2 /\ swept B l2 k2.
Proof.
  revert k. induction l1 as [|v l1 IH]; intros k F S; [now exists k|]. inversion F as [|? ? Nv F1]; subst. cbn [app] in S. inversion S as [|? ? l' Nv' S1 E|? Bv E|? w l l' Bv S1 E]; subst; [|contradiction|contradiction].
  destruct (IH l' F1 S1) as (k2 & -> & S2). now exists k2.
Qed.
Lemma swept_bad2 (B : vehicle -> Prop) v w l k : B v -> swept B (v :: w :: l) k -> exists k2, k = w :: k2 /\ swept B l k2.
Proof. intros Bv S. inversion S as [|? ? l' Nv' S1 E|? ? E|? ? ? l' _ S1 E]; subst; [contradiction|]. now exists l'. Qed.
Lemma swept_clean (B : vehicle -> Prop) l : forall k, (forall l1 v w l2, l = l1 ++ v :: w :: l2 -> B v -> ~ B w) -> swept B l k -> Forall (fun v => ~ B v) k.
Proof.
  intros k H S. induction S as [|v l l' Nv S IH|v Bv|v w l l' Bv S IH]; [constructor | | constructor |].
  - constructor; [exact Nv|]. apply IH. intros l1 a b l2 E. apply (H (v :: l1) a b l2). rewrite E. reflexivity.
  - constructor; [apply (H [] v w l eq_refl Bv)|]. apply IH. intros l1 a b l2 E. apply (H (v :: w :: l1) a b l2). rewrite E. reflexivity.
Qed.
Lemma swept_keeps (B : vehicle -> Prop) l k v : swept B l k -> In v l -> ~ B v -> In v k.
Proof.
  intros S. induction S as [|x l l' Nx S IH|x Bx|x w l l' Bx S IH]; intros Hi Nv; [exact Hi | | |].
  - destruct Hi as [<- |Hi]; [now left | right; now apply IH].
  - destruct Hi as [<- |[]]. contradiction.
  - destruct Hi as [<- |[<- |Hi]]; [contradiction | now left | right; now apply IH].
Qed.
