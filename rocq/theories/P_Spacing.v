From Verif Require Import Prelude M_Utils M_Lane M_Road M_Vehicle M_Kinematics M_Control M_Behavior M_Action M_Env M_Scenes M_Nets M_Reset
  S_Geometry S_Road S_Env S_Reset S_Spacing P_Base P_Utils P_Lane P_Graph P_Scenes P_Nets P_Reset.
From Coq Require Import Lia Lra.
Open Scope R_scope.

Lemma straight_network_position n k len s : 0 < len -> l_position (straight_network_lane n k len 0) s 0 = (s, 4 * INR k).
Proof.
  intros H. unfold l_position, straight_network_lane. cbn [l_geom geom_position]. unfold vrot, DEFAULT_WIDTH.
  rewrite Ropp_0, cos_0, sin_0. cbn [fst snd]. set (y := INR k * 4).
  assert (D : straight_dir (1 * 0 - 0 * y, 0 * 0 + 1 * y) (1 * len - 0 * y, 0 * len + 1 * y) = (1, 0)).
  { unfold straight_dir. replace (vnorm _) with len.
    - unfold vsub, vscal. cbn [fst snd]. apply f_equal2; field; lra.
    - unfold vnorm, vsub. cbn [fst snd]. replace (_ + _) with (len * len) by ring. symmetry. apply sqrt_square. lra. }
  unfold straight_position. rewrite D. unfold vadd, vscal, straight_lat. rewrite D. cbn [fst snd]. unfold y. apply f_equal2; ring.
Qed.
Lemma straight_network_heading n k len s : 0 < len -> l_heading (straight_network_lane n k len 0) s = 0.
Proof.
  intros H. unfold l_heading, straight_network_lane. cbn [l_geom geom_heading]. unfold vrot, straight_heading, DEFAULT_WIDTH. rewrite Ropp_0, cos_0, sin_0. cbn [fst snd].
  set (y := INR k * 4). replace (0 * len + 1 * y - (0 * 0 + 1 * y)) with 0 by ring. replace (1 * len - 0 * y - (1 * 0 - 0 * y)) with len by ring.
  unfold atan2. destruct (Rltb 0 len) eqn:Q; [|apply Rltb_false in Q; lra]. unfold Rdiv. rewrite Rmult_0_l. apply atan_0.
Qed.

Lemma max_or_snoc d l x : l <> [] -> max_or d (l ++ [x]) = Rmax (max_or d l) x.
Proof. intros H. destruct l as [|a l]; [congruence|]. cbn [app max_or]. rewrite fold_left_app. reflexivity. Qed.
Lemma lined_prefix h vs v : lined_up h (vs ++ [v]) -> lined_up h vs.
Proof.
  intros L j w Hj. assert (Lj : (j < List.length vs)%nat) by (apply nth_error_Some; congruence).
  destruct (L j w) as (A & B & C & D & E); [now rewrite nth_error_app1|]. split; [exact A|]. split; [exact B|]. split; [exact C|]. split; [exact D|].
  destruct j; [exact E|]. intros u Hu. apply E. rewrite nth_error_app1; [exact Hu|lia].
Qed.
Definition positive_gaps (h : highway_scene) : Prop := 0 < hs_ego_spacing h /\ 0 < hs_density h.
Lemma headway_pos h j s : positive_gaps h -> 0 < s -> 0 < headway h j s.
Proof.
  intros [P1 P2] Hs. unfold headway. pose proof (exp_pos (- INR (hs_lanes h) / 6)) as E.
  assert (0 < 1 / hs_density h) by (apply Rmult_lt_0_compat; [lra|now apply Rinv_0_lt_compat]).
  apply Rmult_lt_0_compat; [|exact E]. apply Rmult_lt_0_compat; [|lra]. destruct (Nat.ltb _ _); lra.
Qed.
Lemma lined_speed h vs j v : lined_up h vs -> nth_error vs j = Some v -> 23 <= v_speed v <= 25.
Proof. intros L H. destruct (L j v H) as (_ & _ & _ & D & _). destruct (Nat.ltb _ _); lra. Qed.
(** The last vehicle is the farthest. *)
Lemma lined_max h vs d v : positive_gaps h -> lined_up h (vs ++ [v]) -> max_or d (map (fun w => fst (v_pos w)) (vs ++ [v])) = fst (v_pos v).
Proof.
  intros P. revert v. induction vs as [|u vs IH] using rev_ind; intros v L; [reflexivity|].
  rewrite map_app. cbn [map]. rewrite max_or_snoc by (rewrite map_app; intro Q; apply app_eq_nil in Q as [_ Q]; discriminate Q).
  rewrite (IH u) by (eapply lined_prefix; exact L). apply Rmax_right.
  assert (Nv : nth_error ((vs ++ [u]) ++ [v]) (S (List.length vs)) = Some v).
  { rewrite nth_error_app2; rewrite app_length; cbn [List.length]; [|lia]. replace (_ - _)%nat with 0%nat by lia. reflexivity. }
  assert (Nu : nth_error ((vs ++ [u]) ++ [v]) (List.length vs) = Some u).
  { rewrite nth_error_app1 by (rewrite app_length; cbn; lia). rewrite nth_error_app2 by lia. now rewrite Nat.sub_diag. }
  pose proof (lined_speed _ _ _ _ L Nv) as Sv. destruct (L _ _ Nv) as (_ & _ & _ & _ & G). specialize (G u Nu).
  pose proof (headway_pos h (S (List.length vs)) (v_speed v) P ltac:(lra)). lra.
Qed.
Lemma lined_add h vs v gap u : lined_up h vs -> positive_gaps h ->
  gap = headway h (List.length vs) (v_speed v) -> 9/10 <= u <= 11/10 ->
  (exists k, (k < hs_lanes h)%nat /\ v_pos v = (max_or (3 * gap) (map (fun w => fst (v_pos w)) vs) + gap * u, 4 * INR k)) ->
  v_heading v = 0 -> v_crashed v = false ->
  (if Nat.ltb (List.length vs) (hs_controlled h) then v_speed v = 25 else 23 <= v_speed v <= 25) ->
  lined_up h (vs ++ [v]).
Proof.
  intros L P Eg Hu (k & Hk & Ep) Hh Hc Hs j w Hj.
  destruct (Nat.lt_ge_cases j (List.length vs)) as [Lj|Lj].
  - rewrite nth_error_app1 in Hj by exact Lj. destruct (L j w Hj) as (A & B & C & D & E). split; [exact A|]. split; [exact B|]. split; [exact C|]. split; [exact D|].
    destruct j; [exact E|]. intros x Hx. apply E. rewrite nth_error_app1 in Hx by lia. exact Hx.
  - assert (j = List.length vs).
    { assert (j < List.length (vs ++ [v]))%nat by (apply nth_error_Some; congruence). rewrite app_length in *. cbn in *. lia. }
    subst j. rewrite nth_error_app2 in Hj by lia. rewrite Nat.sub_diag in Hj. cbn in Hj. injection Hj as <-.
    assert (Sp : 0 < v_speed v) by (destruct (Nat.ltb _ _); lra). pose proof (headway_pos h (List.length vs) (v_speed v) P Sp) as Gp.
    split; [exists k; rewrite Ep; auto|]. split; [exact Hh|]. split; [exact Hc|]. split; [exact Hs|].
    rewrite <- Eg in *. rewrite Ep. cbn [fst].
    destruct vs as [|x vs] using rev_ind; [cbn [List.length] in *; cbn [map max_or] in *; nra|]. clear IHvs.
    rewrite app_length, Nat.add_comm in *. cbn [List.length Nat.add] in *. intros y Hy.
    rewrite nth_error_app1 in Hy by (rewrite app_length; cbn; lia). rewrite nth_error_app2, Nat.sub_diag in Hy by lia. cbn in Hy. injection Hy as <-.
    rewrite (lined_max h vs _ x P L). nra.
Qed.

Lemma highway_lined cs cf h d : draws_ok d -> classes_fit cf (SHighway h) -> options_fit cf (SHighway h) d -> positive_gaps h ->
  exists e, highway_reset cs cf h d = Ok e /\ lined_up h (rd_vehicles (e_road e)) /\
    List.length (rd_vehicles (e_road e)) = (hs_controlled h + hs_vehicles h)%nat /\
    map v_id (firstn (hs_controlled h) (rd_vehicles (e_road e))) = e_controlled e.
Proof.
  intros D C (Hn & Hc & Hd & Hid) P. set (g := highway_net (hs_lanes h)). destruct (highway_net_ok _ Hn) as [B N].
  assert (Lx : forall k vs, map (fun v => fst (l_local (straight_network_lane (hs_lanes h) k 10000 0) (v_pos v))) vs = map (fun w => fst (v_pos w)) vs).
  { intros k vs. apply map_ext. intro v. now rewrite (proj1 (straight_network_local (hs_lanes h) k 10000 (v_pos v) ltac:(lra))). }
  assert (Hw : forall sp s, sp * (15 / 10 * s) * exp (- 5 / 30 * INR (hs_lanes h)) = sp * (3/2 * s) * exp (- INR (hs_lanes h) / 6)).
  { intros sp s. replace (- 5 / 30 * INR (hs_lanes h)) with (- INR (hs_lanes h) / 6) by field. replace (15/10) with (3/2) by field. reflexivity. }
  assert (U : forall k, 9/10 <= uniform d k (9/10) (11/10) <= 11/10).
  { intro k. unfold uniform. destruct D as (Du & _). specialize (Du k). lra. }
  unfold highway_reset.
  set (I1 := fun (k : nat) (st : road * list nat) => rd_net (fst st) = g /\ lined_up h (rd_vehicles (fst st)) /\
    List.length (rd_vehicles (fst st)) = k /\ snd st = map v_id (rd_vehicles (fst st))).
  destruct (foldM_inv I1 (highway_ego cs cf h d) (seq 0 (hs_controlled h)) (empty_road g cf, [])) as ([rd ctl] & E & (G & L & Le & Ids)).
  - intros k [rd ctl] j Hj (G & L & Le & Ids). cbn [fst snd] in *.
    assert (j = k /\ k < hs_controlled h)%nat as [-> Hk].
    { assert (k < hs_controlled h)%nat by (rewrite <- (seq_length (hs_controlled h) 0); apply nth_error_Some; congruence).
      rewrite nth_error_seq' in Hj by lia. injection Hj as <-. lia. }
    unfold highway_ego. destruct (random_pose_total rd d k 25 (hs_lane_id h) (hs_ego_spacing h) _ D G Hn Hid) as (kk & Hkk & _ & ->). cbn [bind].
    match goal with |- context [new_ego ?a ?b ?c ?x ?p ?hh ?s] => destruct (new_ego_total a b c x p hh s) as (v & -> & Nv & _) end.
    { rewrite G. exact B. } { rewrite G. exact N. } { apply ego_kind_cases. }
    cbn [bind]. eexists. split; [reflexivity|]. destruct Nv as (Iv & Kv & Pv & Hv & Sv & Cv & _).
    rewrite straight_network_heading in Hv by lra. rewrite straight_network_position in Pv by lra. rewrite Lx, Hw in Pv.
    split; [exact G|]. cbn [fst snd]. unfold add_vehicle. cbn [rd_vehicles set_vehicles]. split.
    + eapply lined_add with (u := uniform d (2 * k) (9/10) (11/10)); [exact L|exact P|reflexivity|apply U| |exact Hv|exact Cv|].
      * exists kk. split; [exact Hkk|]. rewrite Pv. unfold headway. rewrite Le, Sv. destruct (Nat.ltb_spec k (hs_controlled h)); [reflexivity|lia].
      * rewrite Le. destruct (Nat.ltb_spec k (hs_controlled h)); [exact Sv|lia].
    + split; [rewrite app_length; cbn; lia|]. rewrite map_app, Ids. cbn [map]. now rewrite Iv, Ids.
  - split; [reflexivity|]. split; [intros j v Hj; destruct j; discriminate Hj|]. split; reflexivity.
  - rewrite seq_length in Le. cbn [fst snd] in *. fold g. rewrite E. cbn [bind].
    set (I2 := fun (k : nat) r => rd_net r = g /\ lined_up h (rd_vehicles r) /\ List.length (rd_vehicles r) = (hs_controlled h + k)%nat /\
      firstn (hs_controlled h) (rd_vehicles r) = rd_vehicles rd).
    destruct (foldM_inv I2 (highway_other cs cf h d ctl) (seq (hs_controlled h) (hs_vehicles h)) rd) as (rd' & E' & (G' & L' & Le' & Fs')).
    + intros k rd1 j Hj (G1 & L1 & Le1 & Fs1).
      assert (j = hs_controlled h + k)%nat as ->.
      { assert (k < hs_vehicles h)%nat by (rewrite <- (seq_length (hs_vehicles h) (hs_controlled h)); apply nth_error_Some; congruence).
        rewrite nth_error_seq' in Hj by lia. injection Hj as <-. lia. }
      unfold highway_other. rewrite pydiv_total by exact Hd. cbn [bind].
      destruct (random_pose_total rd1 d (hs_controlled h + k) (random_speed d (hs_controlled h + k)) None (1 / hs_density h) _ D G1 Hn I) as (kk & Hkk & _ & ->). cbn [bind].
      match goal with |- context [new_traffic ?a ?b ?c0 ?dd ?p ?hh ?ss ?tt] => destruct (new_traffic_total a b c0 dd p hh ss tt) as (v & -> & Nv & _) end.
      { rewrite G1. exact B. } { rewrite G1. exact N. }
      cbn [bind]. eexists. split; [reflexivity|]. destruct Nv as (Iv & Kv & Pv & Hv & Sv & Cv & _).
      rewrite straight_network_heading in Hv by lra. rewrite straight_network_position in Pv by lra. rewrite Lx, Hw in Pv.
      split; [exact G1|]. unfold add_vehicle. cbn [rd_vehicles set_vehicles]. split.
      * eapply lined_add with (u := uniform d (2 * (hs_controlled h + k)) (9/10) (11/10)); [exact L1|exact P|reflexivity|apply U| |exact Hv|exact Cv|].
        -- exists kk. split; [exact Hkk|]. rewrite Pv. unfold headway. rewrite Le1, Sv. destruct (Nat.ltb_spec (hs_controlled h + k) (hs_controlled h)); [lia|reflexivity].
        -- rewrite Le1. destruct (Nat.ltb_spec (hs_controlled h + k) (hs_controlled h)); [lia|]. rewrite Sv. unfold random_speed, uniform. destruct D as (Du & _).
           specialize (Du (2 * (hs_controlled h + k) + 1)%nat). lra.
      * split; [rewrite app_length; cbn; lia|]. rewrite firstn_app, Fs1, Le1. replace (hs_controlled h - (hs_controlled h + k))%nat with 0%nat by lia.
        cbn [firstn]. apply app_nil_r.
    + split; [exact G|]. split; [exact L|]. split; [lia|]. rewrite <- Le. apply firstn_all.
    + rewrite seq_length in Le'. rewrite E'. cbn [bind]. eexists. split; [reflexivity|]. cbn [e_road e_controlled fresh_env].
      split; [exact L'|]. split; [exact Le'|]. now rewrite Fs', Ids.
Qed.
