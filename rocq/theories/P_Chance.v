(** Lemmas about random draws after [reset]. *)
From Coq Require Import Lia Lra.
From Verif Require Import Prelude M_Utils M_Lane M_Road M_Vehicle M_Kinematics M_Control M_Behavior M_Regulation M_Action M_Env M_Scenes M_Nets M_Reset M_Ttc M_Obs M_Gym
  S_Geometry S_Road S_Vehicle S_Control S_Behavior S_Regulation S_Env S_Reset S_Gym S_Repro S_Chance
  P_Base P_Utils P_Lane P_Graph P_Bfs P_Reset P_Behavior P_Regulation P_Traffic P_Action P_Env P_Ready P_Share P_Crossing P_Gym P_Repro.
Import ListNotations.
Open Scope R_scope.

Lemma one_draw draw : draw_ok draw -> draw 1%nat = 0%nat.
Proof. intros D. specialize (D 1%nat). lia. Qed.
Lemma next_lane_same g cur rt p d d' : one_way_out g -> draw_ok d -> draw_ok d' -> next_lane g cur rt p d = next_lane g cur rt p d'.
Proof.
  intros W D D'. unfold next_lane. destruct (next_lane_route cur rt) as [rt1 planned]. destruct (truthy_node planned); [reflexivity|].
  destruct (assoc (li_to cur) g) as [out|] eqn:A; [|reflexivity]. destruct out as [|x out]; [reflexivity|].
  apply W in A. destruct out; [|cbn in A; lia]. cbn [List.length]. now rewrite (one_draw d D), (one_draw d' D').
Qed.
Section OneWay.
  Variable g : graph.
  Hypothesis W : one_way_out g.
  Lemma follow_road_same d d' v : draw_ok d -> draw_ok d' -> follow_road g d v = follow_road g d' v.
  Proof. intros D D'. unfold follow_road. apply bind_ext. intros l _. destruct (after_end _ _ _); [|reflexivity]. now rewrite (next_lane_same g _ _ _ d d' W D D'). Qed.
  Lemma controlled_act_same d d' v a : draw_ok d -> draw_ok d' -> controlled_act g d v a = controlled_act g d' v a.
  Proof. intros D D'. unfold controlled_act. now rewrite (follow_road_same d d' v D D'). Qed.
  Lemma mdp_act_same d d' v a : draw_ok d -> draw_ok d' -> mdp_act g d v a = mdp_act g d' v a.
  Proof. intros D D'. unfold mdp_act. destruct a as [[]|]; now apply controlled_act_same. Qed.
  Lemma idm_act_same rd d d' v : rd_net rd = g -> draw_ok d -> draw_ok d' -> idm_act rd d v = idm_act rd d' v.
  Proof.
    intros N D D'. unfold idm_act. rewrite N. apply bind_ext. intros [] _. destruct (v_crashed v); [reflexivity|]. apply bind_ext. intros [f r] _.
    now rewrite (follow_road_same d d' v D D').
  Qed.
  Lemma vehicle_act_same rd d d' v : rd_net rd = g -> draw_ok d -> draw_ok d' -> vehicle_act rd d v = vehicle_act rd d' v.
  Proof.
    intros N D D'. unfold vehicle_act. destruct (v_kind v); rewrite ?N; try reflexivity; [now apply controlled_act_same | now apply mdp_act_same | now apply idm_act_same | now apply idm_act_same].
  Qed.
  Lemma act_one_same d d' rd i : rd_net rd = g -> draw_ok (d i) -> draw_ok (d' i) -> act_one d rd i = act_one d' rd i.
  Proof. intros N D D'. unfold act_one. destruct (nth_error _ i) as [v|]; [|reflexivity]. now rewrite (vehicle_act_same rd (d i) (d' i) v N D D'). Qed.
  Lemma road_act_same d d' rd : rd_net rd = g -> (forall i, draw_ok (d i)) -> (forall i, draw_ok (d' i)) -> road_act d rd = road_act d' rd.
  Proof.
    intros N D D'. unfold road_act. apply (foldM_ext (fun _ rd => rd_net rd = g)); [|exact N]. intros k x _ s Hs. split; [now apply act_one_same|].
    intros s' E. apply act_one_acted in E as (N1 & _). congruence.
  Qed.
  Lemma command_same rd d d' v c : rd_net rd = g -> draw_ok d -> draw_ok d' -> vehicle_command rd d v c = vehicle_command rd d' v c.
  Proof.
    intros N D D'. unfold vehicle_command. destruct (v_kind v); rewrite ?N; try reflexivity; [now apply controlled_act_same | now apply mdp_act_same | now apply idm_act_same | now apply idm_act_same].
  Qed.
  Lemma act_single_same s rd d d' id a : rd_net rd = g -> draw_ok d -> draw_ok d' -> act_single s d rd id a = act_single s d' rd id a.
  Proof.
    intros N D D'. unfold act_single. apply bind_ext. intros c _. unfold command_vehicle. destruct (rank_of _ _) as [k|]; [|reflexivity].
    destruct (nth_error _ k) as [v|]; [|reflexivity]. now rewrite (command_same rd d d' v c N D D').
  Qed.
  Lemma act_single_net s rd d id a rd' : act_single s d rd id a = Ok rd' -> rd_net rd' = rd_net rd.
  Proof.
    unfold act_single. intros E. apply bind_ok in E as (c & _ & E). unfold command_vehicle in E. destruct (rank_of _ _) as [k|]; [|now injection E as <-].
    destruct (nth_error _ k) as [v|]; [|now injection E as <-]. apply bind_ok in E as (v' & _ & E). now injection E as <-.
  Qed.
  Lemma act_multi_same s d d' : (forall i, draw_ok (d i)) -> (forall i, draw_ok (d' i)) -> forall ids acts rd, rd_net rd = g -> act_multi s d rd ids acts = act_multi s d' rd ids acts.
  Proof.
    intros D D'. induction ids as [|id ids IH]; intros acts rd N; [reflexivity|]. destruct acts as [|a acts]; [reflexivity|]. cbn [act_multi].
    rewrite (act_single_same s rd (d id) (d' id) id a N (D id) (D' id)). apply bind_ext. intros rd1 E. apply act_single_net in E. apply IH. congruence.
  Qed.
  Lemma action_act_same t d d' rd ids a : rd_net rd = g -> (forall i, draw_ok (d i)) -> (forall i, draw_ok (d' i)) -> action_act t d rd ids a = action_act t d' rd ids a.
  Proof.
    intros N D D'. unfold action_act. destruct t as [s|s].
    - destruct ids as [|id ids]; [reflexivity|]. now apply act_single_same.
    - destruct a; try reflexivity. now apply act_multi_same.
  Qed.
  Lemma forward_same sc o o' e a : rd_net (e_road e) = g -> oracle_ok o -> oracle_ok o' -> forward sc o e a = forward sc o' e a.
  Proof.
    intros N [O _] [O' _]. unfold forward. destruct a as [x|]; [|reflexivity]. destruct (_ && _); [|reflexivity].
    now rewrite (action_act_same _ (o_act o (e_time e)) (o_act o' (e_time e)) _ _ _ N (O _) (O' _)).
  Qed.
  Lemma frame_same sc o o' e : rd_net (e_road e) = g -> oracle_ok o -> oracle_ok o' -> frame sc o e = frame sc o' e.
  Proof. intros N [_ O] [_ O']. unfold frame. now rewrite (road_act_same (o_road o (e_time e)) (o_road o' (e_time e)) _ N (O _) (O' _)). Qed.
  Lemma simulate_same sc o o' a n : oracle_ok o -> oracle_ok o' -> forall e, rd_net (e_road e) = g -> simulate_frames sc o n e a = simulate_frames sc o' n e a.
  Proof.
    intros O O'. induction n as [|n IH]; intros e N; [reflexivity|]. cbn [simulate_frames]. rewrite <- (forward_same sc o o' e a N O O'). apply bind_ext. intros e1 E1.
    assert (N1 : rd_net (e_road e1) = g).
    { unfold forward in E1. destruct a as [x|]; [|injection E1 as <-; exact N]. destruct (_ && _); [|injection E1 as <-; exact N].
      apply bind_ok in E1 as (rd & A & F). injection F as <-. apply action_act_acted in A as (Na & _). cbn. congruence. }
    rewrite <- (frame_same sc o o' e1 N1 O O'). apply bind_ext. intros e2 E2. apply frame_advances, advances_crossing in E2 as [N2 _].
    destruct (e_done e2); [reflexivity|]. apply bind_ext. intros t _. destruct t; [reflexivity|]. apply IH. congruence.
  Qed.
  Lemma env_step_same sc o o' e a : oracle_ok o -> oracle_ok o' -> rd_net (e_road e) = g -> env_step sc o e a = env_step sc o' e a.
  Proof.
    intros O O' N. unfold env_step. destruct (e_controlled e); [reflexivity|]. unfold simulate. destruct (Reqb _ _); [reflexivity|]. now apply simulate_same.
  Qed.
End OneWay.

(** ** The networks *)
(** Every node [n] leads only to [out n]. *)
Definition leads_to (out : string -> string) (g : graph) : Prop := forall n d, assoc n g = Some d -> keys d = [out n].
Lemma leads_one_way out g : leads_to out g -> one_way_out g.
Proof. intros L n d A. apply L in A. unfold keys in A. apply (f_equal (@List.length string)) in A. rewrite map_length in A. cbn in A. lia. Qed.
Lemma add_leads out g a b l : leads_to out g -> b = out a -> leads_to out (add_lane g a b l).
Proof.
  intros L -> n d. unfold add_lane.
  set (g1 := match assoc a g with Some _ => g | None => assoc_set a [] g end).
  assert (D : match assoc a g1 with Some d => d | None => [] end = match assoc a g with Some d => d | None => [] end).
  { unfold g1. destruct (assoc a g) eqn:E; [now rewrite E | now rewrite P_Base.assoc_set_same]. }
  rewrite D. assert (K : forall x : list lane, keys (assoc_set (out a) x (match assoc (out a) (match assoc a g with Some d => d | None => [] end) with
    Some _ => match assoc a g with Some d => d | None => [] end | None => assoc_set (out a) [] (match assoc a g with Some d => d | None => [] end) end)) = [out a]).
  { intros x. destruct (assoc a g) as [da|] eqn:E.
    - apply L in E. destruct da as [|[k y] [|]]; try discriminate. cbn in E. injection E as ->. cbn [assoc]. rewrite String.eqb_refl. cbn [assoc_set]. now rewrite String.eqb_refl.
    - cbn [assoc assoc_set]. now rewrite String.eqb_refl. }
  destruct (String.eqb_spec a n) as [<-|Ne].
  - rewrite P_Base.assoc_set_same. intros Q. injection Q as <-. apply K.
  - rewrite assoc_set_other by exact Ne. unfold g1. destruct (assoc a g); [apply L|]. rewrite assoc_set_other by exact Ne. apply L.
Qed.
Lemma fold_leads {A} out (f : graph -> A -> graph) l : (forall g x, In x l -> leads_to out g -> leads_to out (f g x)) -> forall g, leads_to out g -> leads_to out (fold_left f l g).
Proof.
  induction l as [|x l IH]; intros H g Lg; [exact Lg|]. cbn [fold_left]. apply IH; [intros g' y Hy; apply H; now right|]. apply H; [now left | exact Lg].
Qed.
Lemma build_leads out adds : (forall x, In x adds -> snd (fst x) = out (fst (fst x))) -> leads_to out (build adds).
Proof.
  intros H. unfold build. apply fold_leads; [|intros n d E; discriminate E]. intros g x Hx Lg. apply add_leads; [exact Lg | now apply H].
Qed.
Lemma highway_one_way n : one_way_out (highway_net n).
Proof.
  apply (leads_one_way (fun _ => "1"%string)). unfold highway_net, straight_road_network. apply fold_leads; [|intros m d E; discriminate E].
  intros g x _ Lg. now apply add_leads.
Qed.
Lemma two_way_one_way len : one_way_out (two_way_net len).
Proof.
  apply (leads_one_way (fun n => if String.eqb n "a" then "b" else "a")%string). apply build_leads. intros x [<-|[<-|[<-|[]]]]; reflexivity.
Qed.
Lemma merge_one_way : one_way_out merge_net.
Proof.
  apply (leads_one_way (fun n => if String.eqb n "a" then "b" else if String.eqb n "b" then "c" else if String.eqb n "c" then "d" else if String.eqb n "j" then "k" else "b")%string).
  apply build_leads. intros x Hx. unfold merge_highway_lanes in Hx. repeat (destruct Hx as [<-|Hx]; [reflexivity|]). destruct Hx.
Qed.
Lemma parking_lanes_out y lim n x : In x (parking_lanes y lim n) -> fst x = ("a", "b")%string \/ fst x = ("b", "c")%string.
Proof. unfold parking_lanes. intros H. apply in_flat_map in H as (k & _ & H). cbv zeta in H. destruct H as [<-|[<-|[]]]; [now left | now right]. Qed.
Definition yard_out (n : string) : string := (if String.eqb n "a" then "b" else if String.eqb n "b" then "c" else "e")%string.
Lemma parking_one_way n : one_way_out (parking_net n).
Proof.
  apply (leads_one_way yard_out). apply build_leads. intros x Hx. apply parking_lanes_out in Hx as [E|E]; rewrite E; reflexivity.
Qed.
Lemma summon_one_way n : one_way_out (summon_net n).
Proof.
  apply (leads_one_way yard_out). apply build_leads. intros x Hx. apply in_app_iff in Hx as [Hx|Hx].
  - apply parking_lanes_out in Hx as [E|E]; rewrite E; reflexivity.
  - unfold summon_middle in Hx. apply in_map_iff in Hx as (y & <- & _). reflexivity.
Qed.
Lemma keeping_one_way : one_way_out lane_keeping_net.
Proof.
  apply (leads_one_way (fun n => if String.eqb n "c" then "d" else if String.eqb n "d" then "a" else "b")%string). unfold lane_keeping_net. apply build_leads. intros x Hx.
  cbn [In] in Hx. destruct Hx as [<-|Hx]; [reflexivity|]. destruct Hx as [<-|Hx]; [reflexivity|]. destruct Hx as [<-|Hx]; [reflexivity|]. destruct Hx.
Qed.
Lemma scene_one_way s : without_chance s -> one_way_out (scene_net s).
Proof.
  destruct s; cbn [without_chance scene_net]; intros H; try contradiction; [apply highway_one_way | apply two_way_one_way | apply merge_one_way | apply parking_one_way | apply summon_one_way].
Qed.

(** ** Where an environment is after [reset] and [step] *)
Lemma foldM_net {A} (f : road -> A -> res road) l rd rd' : (forall rd x rd', f rd x = Ok rd' -> rd_net rd' = rd_net rd) -> foldM f l rd = Ok rd' -> rd_net rd' = rd_net rd.
Proof. intros H E. refine (foldM_keeps (fun r => rd_net r = rd_net rd) f l _ _ _ E eq_refl). intros s x s' _ E' Hs. apply H in E'. congruence. Qed.
Lemma foldM_net2 {A} (f : road * list nat -> A -> res (road * list nat)) l st st' : (forall st x st', f st x = Ok st' -> rd_net (fst st') = rd_net (fst st)) -> foldM f l st = Ok st' -> rd_net (fst st') = rd_net (fst st).
Proof. intros H E. refine (foldM_keeps (fun r => rd_net (fst r) = rd_net (fst st)) f l _ _ _ E eq_refl). intros s x s' _ E' Hs. apply H in E'. congruence. Qed.
Lemma highway_ego_net cs cf h d st j st' : highway_ego cs cf h d st j = Ok st' -> rd_net (fst st') = rd_net (fst st).
Proof. destruct st as [rd ctl]. unfold highway_ego. intros E. apply bind_ok in E as ([p q] & _ & E). apply bind_ok in E as (v & _ & E). injection E as <-. reflexivity. Qed.
Lemma highway_other_net cs cf h d ctl rd j rd' : highway_other cs cf h d ctl rd j = Ok rd' -> rd_net rd' = rd_net rd.
Proof. unfold highway_other. intros E. apply bind_ok in E as (sp & _ & E). apply bind_ok in E as ([p q] & _ & E). apply bind_ok in E as (v & _ & E). injection E as <-. reflexivity. Qed.
Lemma two_way_ahead_net cs cf d rd j rd' : two_way_ahead cs cf d rd j = Ok rd' -> rd_net rd' = rd_net rd.
Proof. unfold two_way_ahead. intros E. apply bind_ok in E as (l & _ & E). apply bind_ok in E as (v & _ & E). injection E as <-. reflexivity. Qed.
Lemma two_way_oncoming_net cs cf d rd j rd' : two_way_oncoming cs cf d rd j = Ok rd' -> rd_net rd' = rd_net rd.
Proof. unfold two_way_oncoming. intros E. apply bind_ok in E as (l & _ & E). apply bind_ok in E as (v & _ & E). injection E as <-. reflexivity. Qed.
Lemma merge_other_net cs cf rd x rd' : merge_other cs cf rd x = Ok rd' -> rd_net rd' = rd_net rd.
Proof. destruct x as [[i s] sp]. unfold merge_other. intros E. apply bind_ok in E as (l & _ & E). apply bind_ok in E as (v & _ & E). injection E as <-. reflexivity. Qed.
Lemma parking_ego_net cs cf d st j st' : parking_ego cs cf d st j = Ok st' -> rd_net (fst st') = rd_net (fst st).
Proof. destruct st as [rd ctl]. unfold parking_ego. intros E. apply bind_ok in E as (v & _ & E). injection E as <-. reflexivity. Qed.
Lemma summon_other_net cs cf d rd j rd' : summon_other cs cf d rd j = Ok rd' -> rd_net rd' = rd_net rd.
Proof. unfold summon_other. destruct (Rltb _ _); intros E; apply bind_ok in E as (v & _ & E); injection E as <-; reflexivity. Qed.
Local Opaque highway_net two_way_net merge_net parking_net summon_net.
Lemma net_vehicle rd v : rd_net (add_vehicle rd v) = rd_net rd. Proof. reflexivity. Qed.
Lemma net_object rd o : rd_net (add_object rd o) = rd_net rd. Proof. reflexivity. Qed.
Lemma net_vehicles rd vs : rd_net (set_vehicles rd vs) = rd_net rd. Proof. reflexivity. Qed.
Lemma net_empty g cf : rd_net (empty_road g cf) = g. Proof. reflexivity. Qed.
Lemma net_fresh rd ctl : e_road (fresh_env rd ctl) = rd. Proof. reflexivity. Qed.
Lemma reset_scene_net cs cf s d x e : without_chance s -> reset cs cf s d = Ok (x, e) -> rd_net (e_road e) = scene_net s.
Proof.
  unfold reset. cbv zeta. destruct s as [h| | |n dur|n dur|dur inc|c n m dst prob]; cbn [without_chance scene_net]; intros W E; try contradiction.
  - apply bind_ok in E as (e0 & E & E0). assert (e0 = e) as -> by congruence. clear E0. unfold highway_reset in E. apply bind_ok in E as ([rd ctl] & E1 & E). apply bind_ok in E as (rd2 & E2 & E).
    injection E as <-. apply (foldM_net2 _ _ _ _ (highway_ego_net cs cf h d)) in E1. apply (foldM_net _ _ _ _ (highway_other_net cs cf h d ctl)) in E2. cbn [fst empty_road rd_net fresh_env e_road] in *. congruence.
  - apply bind_ok in E as (e0 & E & E0). assert (e0 = e) as -> by congruence. clear E0. unfold two_way_reset in E. cbv zeta in E. apply bind_ok in E as (l & _ & E). apply bind_ok in E as (v & _ & E).
    apply bind_ok in E as (rd1 & E1 & E). apply bind_ok in E as (rd2 & E2 & E). injection E as <-. apply (foldM_net _ _ _ _ (two_way_ahead_net cs cf d)) in E1. apply (foldM_net _ _ _ _ (two_way_oncoming_net cs cf d)) in E2.
    rewrite net_vehicle, net_empty in E1. rewrite net_fresh, E2. exact E1.
  - apply bind_ok in E as (e0 & E & E0). assert (e0 = e) as -> by congruence. clear E0. unfold merge_reset in E. cbv zeta in E. apply bind_ok in E as (l & _ & E). apply bind_ok in E as (v & _ & E).
    apply bind_ok in E as (rd1 & E1 & E). apply bind_ok in E as (m & _ & E). apply bind_ok in E as (w & _ & E). injection E as <-. apply (foldM_net _ _ _ _ (merge_other_net cs cf)) in E1. rewrite net_vehicle, net_object, net_empty in E1. rewrite net_fresh, net_vehicle. exact E1.
  - apply bind_ok in E as ([goal e0] & E & E0). assert (e0 = e) as -> by congruence. clear E0. unfold parking_reset in E. apply bind_ok in E as ([rd ctl] & E1 & E). apply bind_ok in E as (l & _ & E).
    apply (foldM_net2 _ _ _ _ (parking_ego_net cs cf d)) in E1. cbv zeta in E. assert (fresh_env (add_object rd goal) ctl = e) as <- by congruence. cbn [fst] in E1. rewrite net_empty in E1. rewrite net_fresh, net_object. exact E1.
  - apply bind_ok in E as ([goal e0] & E & E0). assert (e0 = e) as -> by congruence. clear E0. unfold summon_reset in E. cbv zeta in E. apply bind_ok in E as (v & _ & E). apply bind_ok in E as (rd & E1 & E).
    apply (foldM_net _ _ _ _ (summon_other_net cs cf d)) in E1. match type of E with Ok (_, ?a) = _ => assert (a = e) as <- by congruence end. rewrite net_object, net_vehicle, net_empty in E1. rewrite net_fresh, net_vehicles. exact E1.
Qed.
Lemma gym_step_chance cs g o o' d d' sh a : without_chance (gy_scene g) -> rd_net (e_road (gy_env g)) = scene_net (gy_scene g) -> oracle_ok o -> oracle_ok o' ->
  gym_step cs g o d sh a = gym_step cs g o' d' sh a /\
  forall g' out, gym_step cs g o d sh a = Ok (g', out) -> gy_scene g' = gy_scene g /\ rd_net (e_road (gy_env g')) = scene_net (gy_scene g').
Proof.
  intros W N O O'. unfold gym_step. assert (N' : rd_net (e_road (seen_env cs (gy_cf g) (gy_scene g) (gy_env g))) = scene_net (gy_scene g)) by exact N.
  set (e := seen_env _ _ _ _) in *. clearbody e. destruct g as [cf s t sc go st e0]. cbn [gy_cf gy_scene gy_scenario gy_type gy_goal gy_states gy_env] in *.
  rewrite <- (env_step_same _ (scene_one_way s W) sc o o' e a O O' N'). split.
  - apply bind_ext. intros e1 E1. apply bind_ext. intros os _. apply bind_ext. intros r _. apply bind_ext. intros tm _. apply bind_ext. intros v _.
    destruct s; try reflexivity. contradiction.
  - intros g' out E. apply bind_ok in E as (e1 & E1 & E). apply bind_ok in E as (os & _ & E). apply bind_ok in E as (r & _ & E). apply bind_ok in E as (tm & _ & E). apply bind_ok in E as (v & _ & E). cbv zeta in E.
    apply env_step_net in E1 as [N1 _].
    destruct s as [h| | |n dur|n dur|dur inc|c n m dst prob]; cbn [without_chance] in W; try contradiction.
    1-3: (match type of E with Ok (?a, _) = _ => assert (a = g') as <- by congruence end; split; [reflexivity | cbn [gy_env gy_scene]; congruence]).
    all: (apply bind_ok in E as (su & _ & E); match type of E with Ok (?a, _) = _ => assert (a = g') as <- by congruence end; split; [reflexivity | cbn [gy_env gy_scene]; congruence]).
Qed.
Lemma gym_reset_net cs cf s t d sh cs' g obs : without_chance s -> gym_reset cs cf s t d sh = Ok (cs', g, obs) -> gy_scene g = s /\ rd_net (e_road (gy_env g)) = scene_net s.
Proof.
  intros W. unfold gym_reset. intros E. apply bind_ok in E as ([x e] & Er & E). cbv zeta in E. apply bind_ok in E as (os & _ & E).
  match type of E with Ok (_, ?a, _) = _ => assert (a = g) as <- by congruence end. split; [reflexivity|]. cbn [gy_env]. eapply reset_scene_net; [exact W | exact Er].
Qed.
Lemma play_on_chance cs l l' : Forall2 other_draws l l' -> forall g, without_chance (gy_scene g) -> rd_net (e_road (gy_env g)) = scene_net (gy_scene g) -> play_on cs g l = play_on cs g l'.
Proof.
  induction 1 as [|x y l l' [o o' d d' sh a O O'] _ IH]; intros g W N; [reflexivity|]. cbn [play_on os_oracle os_draws os_shuffle os_action].
  destruct (gym_step_chance cs g o o' d d' sh a W N O O') as [E K]. rewrite <- E. apply bind_ext. intros [g1 out] E1. destruct (K _ _ E1) as [K1 K2]. rewrite (IH g1); [reflexivity | now rewrite K1 | exact K2].
Qed.
