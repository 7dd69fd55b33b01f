(** Theorems about groups of vehicles that do not meet (C113). *)
From Verif Require Import Prelude M_Utils M_Lane M_Road M_Vehicle M_Kinematics M_Control M_Behavior
  S_Geometry S_Road S_Vehicle S_Control S_Behavior S_Apart P_Base P_Utils P_Lane P_Graph P_Bfs P_Query P_Kin P_Crash P_Control P_Behavior P_Traffic P_Joined P_Apart
  T_Road T_Kin T_Control T_Behavior T_Action.
From Coq Require Import Lia Lra.
Open Scope R_scope.

(** ** C113: groups that do not meet evolve independently *)
(** As long as the vehicles after the first [n] stand on none of the lanes of the
    roads the first [n] are on, aim at none of them, and touch neither them nor an
    object, the first [n] move exactly as if they were alone. *)
Theorem C113_others_do_not_matter : forall dt rd frames n, simulates dt rd frames -> (n <= List.length (rd_vehicles rd))%nat ->
  (forall r r2, consecutive rd frames r r2 ->
     (forall v w, In v (firstn n (rd_vehicles r)) -> In w (skipn n (rd_vehicles r)) -> out_of_sight (rd_net rd) v w /\ bound_elsewhere v w) /\
     no_contact n r2 /\ no_object_hit (skipn n (rd_vehicles r2)) r2) ->
  simulates dt (keep_first n rd) (map (keep_first n) frames).
Proof.
  intros dt rd frames n Sim. induction Sim as [rd|rd draws rd1 rd2 fr D A E Sim IH]; intros Hn H; [constructor|].
  destruct (H rd rd2) as (H1 & H2 & H3); [exists 0%nat; split; reflexivity|].
  destruct (frame_first draws rd rd1 rd2 dt n Hn A E H1 H2 H3) as ((rd1' & A' & E') & Ng & Ln).
  cbn [map]. eapply simulates_cons; [exact D | exact A' | exact E' |]. apply IH; [lia|].
  intros r r2 (k & K1 & K2). rewrite Ng. apply H. exists (Datatypes.S k). split; assumption.
Qed.
Print Assumptions C113_others_do_not_matter.
(** The same for the vehicles after the first [n]: those before them, which decide
    before them, make no difference. *)
Theorem C113_predecessors_do_not_matter : forall dt rd frames n, simulates dt rd frames -> (n <= List.length (rd_vehicles rd))%nat ->
  (forall r r2, consecutive rd frames r r2 ->
     (forall v w, In v (firstn n (rd_vehicles r)) -> In w (skipn n (rd_vehicles r)) -> out_of_sight (rd_net rd) w v) /\
     (forall v w, In v (firstn n (rd_vehicles r2)) -> In w (skipn n (rd_vehicles r)) -> bound_elsewhere w v) /\
     no_contact n r2 /\ no_object_hit (firstn n (rd_vehicles r2)) r2) ->
  simulates dt (keep_others n rd) (map (keep_others n) frames).
Proof.
  intros dt rd frames n Sim. induction Sim as [rd|rd draws rd1 rd2 fr D A E Sim IH]; intros Hn H; [constructor|].
  destruct (H rd rd2) as (H1 & H2 & H3 & H4); [exists 0%nat; split; reflexivity|].
  destruct (frame_others draws rd rd1 rd2 dt n Hn A E H1 H2 H3 H4) as ((draws' & rd1' & Dr & A' & E') & Ng & Ln).
  cbn [map]. eapply simulates_cons; [|exact A' | exact E' |].
  - intros i. rewrite Dr. apply D.
  - apply IH; [lia|]. intros r r2 (k & K1 & K2). rewrite Ng. apply H. exists (Datatypes.S k). split; assumption.
Qed.
Print Assumptions C113_predecessors_do_not_matter.
(** Two groups that do not meet: the run of all is the run of each. *)
Theorem C113_groups_independent : forall dt rd frames n, simulates dt rd frames -> (n <= List.length (rd_vehicles rd))%nat ->
  rd_objects rd = [] ->
  (forall r r2, consecutive rd frames r r2 ->
     (forall v w, In v (firstn n (rd_vehicles r)) -> In w (skipn n (rd_vehicles r)) ->
        out_of_sight (rd_net rd) v w /\ out_of_sight (rd_net rd) w v /\ bound_elsewhere v w) /\
     (forall v w, In v (firstn n (rd_vehicles r2)) -> In w (skipn n (rd_vehicles r)) -> bound_elsewhere w v) /\
     no_contact n r2) ->
  simulates dt (keep_first n rd) (map (keep_first n) frames) /\ simulates dt (keep_others n rd) (map (keep_others n) frames).
Proof.
  intros dt rd frames n Sim Hn Ho H.
  assert (O : forall r r2, consecutive rd frames r r2 -> rd_objects r2 = []).
  { clear H Hn. induction Sim as [rd|rd draws rd1 rd2 fr D A E Sim IH]; intros r r2 (k & K1 & K2); [destruct k; discriminate|].
    assert (O2 : rd_objects rd2 = []).
    { pose proof (road_act_acted _ _ _ A) as (_ & O1 & _). apply road_step_ok in E as (vs & _ & _ & _ & _ & Cl).
      pose proof (collide_all_rel (vs, rd_objects rd1)) as [_ F]. rewrite <- Cl in F. cbn [snd] in F. rewrite O1, Ho in F. inversion F. reflexivity. }
    destruct k as [|k]; cbn in K2; [injection K2 as <-; exact O2|]. apply (IH O2 r r2). exists k. split; assumption. }
  split.
  - apply C113_others_do_not_matter; [exact Sim | exact Hn|]. intros r r2 C. destruct (H r r2 C) as (H1 & H2 & H3).
    split; [intros v w Iv Iw; destruct (H1 v w Iv Iw) as (X1 & X2 & X3); split; assumption|]. split; [exact H3|]. intros v o _ Io. rewrite (O r r2 C) in Io. destruct Io.
  - apply C113_predecessors_do_not_matter; [exact Sim | exact Hn|]. intros r r2 C. destruct (H r r2 C) as (H1 & H2 & H3).
    split; [intros v w Iv Iw; destruct (H1 v w Iv Iw) as (X1 & X2 & X3); exact X2|]. split; [exact H2|]. split; [exact H3|]. intros v o _ Io. rewrite (O r r2 C) in Io. destruct Io.
Qed.
Print Assumptions C113_groups_independent.
(** Two parallel roads a kilometre apart, a car on each. *)
Definition lane_at (y : R) : lane := Lane (GStraight (0, y) (1000, y)) 4 (LContinuousLine, LContinuousLine) false 20 0%Z.
Definition two_roads : graph := build [("a", "b", lane_at 0); ("c", "d", lane_at 1000)]%string.
Definition car_at (i : nat) (y : R) (a b : string) : vehicle :=
  Vehicle i KIDM (0, y) 0 20 (a, b, Some 0%Z) 0 0 false true [] (a, b, Some 0%Z) 25 None 1%Z grid_default false 0 idm_default false 0%Z false.
Definition near_car : vehicle := car_at 0 0 "a"%string "b"%string.
Definition far_car : vehicle := car_at 1 1000 "c"%string "d"%string.
Definition far_road : road := Road two_roads [near_car; far_car] [] false 0.
Lemma lane_at_local y p : l_local (lane_at y) p = (fst p, snd p - y).
Proof.
  unfold l_local, lane_at. cbn [l_geom geom_local].
  assert (D : straight_dir (0, y) (1000, y) = (1, 0)).
  { unfold straight_dir. replace (vnorm _) with 1000.
    - unfold vsub, vscal. cbn [fst snd]. apply f_equal2; field.
    - unfold vnorm, vsub. cbn [fst snd]. symmetry. replace (_ + _) with (1000 * 1000) by ring. apply sqrt_square. lra. }
  unfold straight_local, straight_lat. rewrite D. unfold vsub, vdot. cbn [fst snd]. apply f_equal2; ring.
Qed.
Lemma far_runnable : runnable far_road.
Proof.
  split; [eexists; reflexivity|]. split; [discriminate|]. split.
  - assert (L1 : lane_exists two_roads ("a", "b", Some 0%Z)%string) by (exists 0%nat, (lane_at 0); split; [reflexivity|]; eexists _, _; repeat (split; [reflexivity|]); reflexivity).
    assert (L2 : lane_exists two_roads ("c", "d", Some 0%Z)%string) by (exists 0%nat, (lane_at 1000); split; [reflexivity|]; eexists _, _; repeat (split; [reflexivity|]); reflexivity).
    intros v [<-|[<-|[]]]; (split; [assumption | intros _; split; [assumption | exact I]]).
  - left. intros v [<-|[<-|[]]]; discriminate.
Qed.
Lemma two_roads_lane a b k l y : (a = "a" /\ b = "b" /\ y = 0 \/ a = "c" /\ b = "d" /\ y = 1000)%string -> get_lane two_roads (a, b, k) = Ok l -> l = lane_at y.
Proof.
  intros C G. unfold get_lane in G. assert (Q : g_lanes two_roads a b = Ok [lane_at y]) by (destruct C as [(-> & -> & ->)|(-> & -> & ->)]; reflexivity).
  cbn [li_from li_to fst snd] in G. rewrite Q in G. cbn [bind] in G.
  assert (J : In l [lane_at y]).
  { destruct (li_id _) as [z|]; [|cbn in G; injection G as <-; now left]. apply py_index_range in G. tauto. }
  destruct J as [<-|[]]. reflexivity.
Qed.
(** Where such a car is after a frame, and where it aims. *)
Lemma car_frame rd draw v1 u w y i a b :
  (a = "a" /\ b = "b" /\ y = 0 \/ a = "c" /\ b = "d" /\ y = 1000)%string -> rd_net rd = two_roads -> 
  vehicle_act rd draw (car_at i y a b) = Ok v1 -> vehicle_step two_roads false v1 (1/15) = Ok u -> evolves u w ->
  v_target_lane w = (a, b, Some 0%Z) /\ dist2 (0, y) (v_pos w) <= 2.
Proof.
  intros C Ng Av Eu Ev. cbn [vehicle_act car_at v_kind] in Av. pose proof (idm_act_ok _ _ _ _ Av eq_refl) as (Sm & _ & _ & _ & f & r & va & vb & st & ac & _ & Hf & Hp & _ & _ & Hv).
  cbn [v_enable_lane_change car_at] in Hp. injection Hp as <-.
  assert (Va : va = car_at i y a b).
  { apply follow_road_ok in Hf as (_ & _ & _ & _ & _ & l & G & [[_ H]|[H _]]); [exact H|]. exfalso. rewrite Ng in G.
    assert (l = lane_at y) by (eapply two_roads_lane; [exact C | exact G]). subst l. unfold after_end in H. rewrite lane_at_local in H. apply Rltb_true in H.
    cbn [fst car_at v_pos] in H. unfold l_length, lane_at, LANE_VEHICLE_LENGTH in H. cbn [l_geom geom_length] in H.
    assert (vnorm (vsub (1000, y) (0, y)) = 1000).
    { unfold vnorm, vsub. cbn [fst snd]. replace (_ + _) with (1000 * 1000) by ring. apply sqrt_square. lra. }
    rewrite H0 in H. lra. }
  apply evolves_aim in Ev as Ta. destruct Ta as [Ta _]. pose proof (step_fields _ _ _ _ _ Eu) as S. cbv zeta in S.
  assert (Tu : v_target_lane u = v_target_lane v1) by tauto. rewrite Ta, Tu, Hv, Va. split; [reflexivity|].
  assert (T0 : 0 <= 1/15) by lra. pose proof (C21_step_moves_speed_dt _ _ _ _ _ T0 Eu) as D. unfold same_vehicle in Sm.
  assert (P1 : v_pos v1 = (0, y)) by (rewrite Hv, Va; reflexivity). assert (S1 : v_speed v1 = 20) by (rewrite Hv, Va; reflexivity).
  apply evolves_fields in Ev as (_ & Pw & _). rewrite Pw, <- P1, D, S1, Rabs_pos_eq by lra. lra.
Qed.
Example C113_nonvacuous : exists rd2, simulates (1/15) far_road [rd2] /\
  simulates (1/15) (Road two_roads [near_car] [] false 0) [keep_first 1 rd2] /\
  simulates (1/15) (Road two_roads [far_car] [] false 0) [keep_others 1 rd2].
Proof.
  destruct (simulates_total (1/15) 1 _ far_runnable) as (fr & Hl & Sim). destruct fr as [|rd2 [|]]; try discriminate.
  exists rd2. split; [exact Sim|]. apply (C113_groups_independent (1/15) far_road [rd2] 1 Sim); [cbn; lia | reflexivity|].
  intros r r2 (k & K1 & K2). destruct k as [|k]; [|destruct k; discriminate]. cbn in K1, K2. injection K1 as <-. injection K2 as <-.
  inversion Sim as [|? draws rd1 ? ? D A E _]; subst.
  destruct (frame_nth _ _ _ _ _ 0%nat near_car A E eq_refl) as (rm & v1 & u & v2 & Am & _ & Av & Eu & Ev & N0).
  destruct (frame_nth _ _ _ _ _ 1%nat far_car A E eq_refl) as (rm' & w1 & x & w2 & Am' & _ & Aw & Ex & Ew & N1).
  destruct (car_frame rm _ v1 u v2 0 0 "a" "b" (or_introl (conj eq_refl (conj eq_refl eq_refl))) (proj1 Am) Av Eu Ev) as [Tv Dv].
  destruct (car_frame rm' _ w1 x w2 1000 1 "c" "d" (or_intror (conj eq_refl (conj eq_refl eq_refl))) (proj1 Am') Aw Ex Ew) as [Tw Dw].
  assert (Ln : List.length (rd_vehicles rd2) = 2%nat).
  { apply road_act_acted in A as (_ & _ & _ & _ & F1). apply P_Crash.Forall2_length' in F1. apply road_step_stepped in E as (_ & _ & _ & F2 & _).
    apply P_Crash.Forall2_length' in F2. rewrite <- F2, <- F1. reflexivity. }
  destruct (rd_vehicles rd2) as [|a [|b [|]]] eqn:V2; try discriminate. cbn in N0, N1. injection N0 as ->. injection N1 as ->.
  split; [|split].
  - intros v w [<-|[]] [<-|[]]. split; [|split].
    + intros k l G. apply (two_roads_lane _ _ _ _ 0) in G; [|left; repeat split]. subst l. unfold stands_on. rewrite lane_at_local. cbn [fst snd far_car car_at v_pos lane_at l_width].
      rewrite Rabs_pos_eq by lra. lra.
    + intros k l G. apply (two_roads_lane _ _ _ _ 1000) in G; [|right; repeat split]. subst l. unfold stands_on. rewrite lane_at_local. cbn [fst snd near_car car_at v_pos lane_at l_width].
      rewrite Rabs_left by lra. lra.
    + intros _ [H _]. discriminate H.
  - intros v w [<-|[]] [<-|[]] _ [H _]. rewrite Tv in H. discriminate H.
  - unfold no_contact. rewrite V2. intros v w [<-|[]] [<-|[]] (_ & _ & _ & T). unfold is_colliding, colliding in T.
    rewrite Rltb_lt in T; [discriminate|]. unfold V_LENGTH. rewrite <- dist2_norm.
    pose proof (dist2_snd (v_pos w2) (v_pos v2)) as Q. pose proof (dist2_snd (0, 0) (v_pos v2)) as Q0. pose proof (dist2_snd (0, 1000) (v_pos w2)) as Q1.
    cbn [snd] in *. revert Q Q0 Q1. unfold Rabs. repeat destruct Rcase_abs; lra.
Qed.
