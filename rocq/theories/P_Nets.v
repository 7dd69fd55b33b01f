(** Lemmas about the straight road network (road.py:203-215). *)
From Verif Require Import Prelude M_Utils M_Lane M_Road S_Geometry S_Road P_Base P_Utils P_Lane P_Graph.
From Coq Require Import Lia Lra.
Open Scope R_scope.

Lemma nth_error_seq' n k a : (k < n)%nat -> nth_error (seq a n) k = Some (a + k)%nat.
Proof. intros H. rewrite (nth_error_nth' _ 0%nat) by (now rewrite seq_length). now rewrite seq_nth. Qed.
Lemma add_lane_single ls l : add_lane [("0"%string, [("1"%string, ls)])] "0" "1" l = [("0"%string, [("1"%string, ls ++ [l])])].
Proof. reflexivity. Qed.
Lemma add_lane_first l : add_lane [] "0" "1" l = [("0"%string, [("1"%string, [l])])].
Proof. reflexivity. Qed.
Lemma fold_add_lanes (f : nat -> lane) l : forall ls,
  fold_left (fun g k => add_lane g "0" "1" (f k)) l [("0"%string, [("1"%string, ls)])] = [("0"%string, [("1"%string, ls ++ map f l)])].
Proof.
  induction l as [|k l IH]; intros ls; cbn [fold_left map]; [now rewrite app_nil_r|].
  rewrite add_lane_single, IH, <- app_assoc. reflexivity.
Qed.
Lemma straight_network_eq n len a : (0 < n)%nat ->
  straight_road_network n len a = [("0"%string, [("1"%string, map (fun k => straight_network_lane n k len a) (seq 0 n))])].
Proof.
  intros H. destruct n as [|n]; [lia|]. unfold straight_road_network. cbn [seq fold_left map]. unfold empty_graph. rewrite add_lane_first.
  rewrite (fold_add_lanes (fun k => straight_network_lane (S n) k len a)). reflexivity.
Qed.
Lemma straight_network_built n len a : built (straight_road_network n len a).
Proof.
  exists (map (fun k => ("0", "1", straight_network_lane n k len a)) (seq 0 n))%string. unfold build, straight_road_network.
  generalize empty_graph as g. generalize (seq 0 n) as l. intros l. induction l as [|k l IH]; intros g; [reflexivity|]. cbn. apply IH.
Qed.
Lemma straight_network_lanes n len a x y ls : g_lanes (straight_road_network n len a) x y = Ok ls ->
  x = "0"%string /\ y = "1"%string /\ ls = map (fun k => straight_network_lane n k len a) (seq 0 n) /\ (0 < n)%nat.
Proof.
  destruct n as [|n]; [discriminate|]. rewrite straight_network_eq by lia. rewrite g_lanes_has. intros (d & D & E). cbn [assoc] in D.
  destruct (String.eqb_spec x "0"); [|discriminate]. injection D as <-. cbn [assoc] in E. destruct (String.eqb_spec y "1"); [|discriminate]. injection E as <-.
  split; [assumption|]. split; [assumption|]. split; [reflexivity | lia].
Qed.
Lemma straight_network_has n len a x y k l : has_lane (straight_road_network n len a) x y k l <->
  x = "0"%string /\ y = "1"%string /\ (k < n)%nat /\ l = straight_network_lane n k len a.
Proof.
  rewrite has_lane_g. split.
  - intros (ls & G & N). apply straight_network_lanes in G as (-> & -> & -> & Hn). split; [reflexivity|]. split; [reflexivity|].
    assert (Hk : (k < n)%nat).
    { rewrite <- (seq_length n 0), <- (map_length (fun k => straight_network_lane n k len a)). apply nth_error_Some. congruence. }
    rewrite nth_error_map, nth_error_seq' in N by exact Hk. injection N as <-. auto.
  - intros (-> & -> & Hk & ->). exists (map (fun k => straight_network_lane n k len a) (seq 0 n)). rewrite straight_network_eq by lia. split; [reflexivity|].
    rewrite nth_error_map, nth_error_seq' by exact Hk. reflexivity.
Qed.
Lemma straight_network_exists n len a i : lane_exists (straight_road_network n len a) i <->
  exists k, (k < n)%nat /\ i = ("0", "1", Some (Z.of_nat k))%string.
Proof.
  destruct i as [[x y] o]. unfold lane_exists. cbn [li_id li_from li_to fst snd]. split.
  - intros (k & l & -> & H). apply straight_network_has in H as (-> & -> & Hk & _). exists k. auto.
  - intros (k & Hk & [= -> -> ->]). exists k, (straight_network_lane n k len a). split; [reflexivity|]. apply straight_network_has. auto.
Qed.
