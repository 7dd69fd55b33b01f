(** Networks with at most one shortest path between two nodes. *)
From Coq Require Import Lia Permutation.
From Verif Require Import Prelude M_Lane M_Road M_Nets S_Road P_Base P_Graph P_Bfs P_Crossing.
Import ListNotations.

(** Walks of [n] roads from [s]. *)
Fixpoint walks (E : list (string * string)) (n : nat) (s : string) : list (list string) :=
  match n with
  | O => [[s]]
  | S n => flat_map (fun e => if String.eqb (fst e) s then map (cons s) (walks E n (snd e)) else []) E
  end.
Definition arrive (E : list (string * string)) (n : nat) (s t : string) : list (list string) :=
  filter (fun p => String.eqb (last p s) t) (walks E n s).
(** The first length for which there is a walk has only one. *)
Fixpoint first_alone (E : list (string * string)) (s t : string) (n fuel : nat) : bool :=
  match fuel with
  | O => true
  | S fuel => match arrive E n s t with [] => first_alone E s t (S n) fuel | [_] => true | _ => false end
  end.
Definition alone_except (exc : list (string * string)) (E : list (string * string)) : bool :=
  forallb (fun s => forallb (fun t => existsb (fun e => String.eqb (fst e) s && String.eqb (snd e) t) exc || String.eqb s t || first_alone E s t 1 (List.length E)) (nodup string_dec (map snd E))) (nodup string_dec (map fst E)).

Lemma walks_length E n : forall s p, In p (walks E n s) -> List.length p = S n.
Proof.
  induction n as [|n IH]; intros s p H; cbn [walks] in H; [destruct H as [<-|[]]; reflexivity|].
  apply in_flat_map in H as (e & _ & H). destruct (String.eqb (fst e) s); [|destruct H]. apply in_map_iff in H as (q & <- & H). cbn [List.length]. now rewrite (IH _ _ H).
Qed.
Lemma walks_iff g E : (forall a b, edge g a b <-> In (a, b) E) -> forall n s p, In p (walks E n s) <-> (exists q, p = s :: q /\ List.length q = n /\ walk g p).
Proof.
  intros He n. induction n as [|n IH]; intros s p; cbn [walks].
  - split; [intros [<-|[]]; exists []; now repeat split|]. intros (q & -> & L & _). destruct q; [now left | discriminate].
  - rewrite in_flat_map. split.
    + intros ([a b] & Hin & H). cbn [fst snd] in H. destruct (String.eqb_spec a s) as [->|]; [|destruct H]. apply in_map_iff in H as (q & <- & H). apply IH in H as (r & -> & L & W).
      exists (b :: r). split; [reflexivity|]. split; [cbn; now rewrite L|]. cbn [walk]. split; [now apply He | exact W].
    + intros (q & -> & L & W). destruct q as [|b q]; [discriminate|]. destruct W as [Eb W]. apply He in Eb. exists (s, b). split; [exact Eb|]. cbn [fst snd]. rewrite String.eqb_refl.
      apply in_map. apply IH. exists q. split; [reflexivity|]. split; [now injection L | exact W].
Qed.
Lemma arrive_iff g E : (forall a b, edge g a b <-> In (a, b) E) -> forall n s t p, In p (arrive E (S n) s t) <-> walk_from_to g s t p /\ List.length p = S (S n).
Proof.
  intros He n s t p. unfold arrive. rewrite filter_In, (walks_iff g E He), String.eqb_eq. split.
  - intros ((q & -> & L & W) & La). split; [|cbn; now rewrite L]. split; [exact W|]. split; [|exact La]. exists q. split; [reflexivity|]. destruct q; [discriminate | discriminate].
  - intros ((W & (q & -> & N) & La) & L). split; [|exact La]. exists q. split; [reflexivity|]. split; [now injection L | exact W].
Qed.
Lemma first_alone_unique g E s t : (forall a b, edge g a b <-> In (a, b) E) -> forall fuel n p q, first_alone E s t (S n) fuel = true ->
  walk_from_to g s t p -> walk_from_to g s t q -> (forall r, walk_from_to g s t r -> List.length p <= List.length r)%nat -> List.length q = List.length p ->
  (S (S n) <= List.length p < S (S n) + fuel)%nat -> p = q.
Proof.
  intros He fuel. induction fuel as [|fuel IH]; intros n p q F Wp Wq Mn Lq Ln; [lia|]. cbn [first_alone] in F.
  destruct (Nat.eq_dec (List.length p) (S (S n))) as [L|L].
  - assert (Ip : In p (arrive E (S n) s t)) by (apply (arrive_iff g E He); tauto). assert (Iq : In q (arrive E (S n) s t)) by (apply (arrive_iff g E He); split; [exact Wq | congruence]).
    destruct (arrive E (S n) s t) as [|x [|y l]]; [destruct Ip | | discriminate]. destruct Ip as [<-|[]], Iq as [<-|[]]. reflexivity.
  - destruct (arrive E (S n) s t) as [|x l] eqn:A; [apply (IH (S n)); try assumption; lia|]. exfalso.
    assert (Ix : In x (arrive E (S n) s t)) by (rewrite A; now left). apply (arrive_iff g E He) in Ix as [Wx Lx]. specialize (Mn _ Wx). lia.
Qed.
Lemma walk_nodes g E s : (forall a b, edge g a b <-> In (a, b) E) -> forall q x, walk g (s :: q) -> In x q -> In x (map snd E).
Proof.
  intros He q. revert s. induction q as [|b q IH]; intros s x W H; [destruct H|]. destruct W as [Eb W]. destruct H as [<-|H]; [apply He in Eb; apply (in_map snd) in Eb; exact Eb | now apply (IH b)].
Qed.
Lemma unique_shortest g E exc : wf_graph g -> (forall a b, edge g a b <-> In (a, b) E) -> alone_except exc E = true ->
  forall ord ord' s t, ~ In (s, t) exc -> set_order ord -> set_order ord' -> shortest_path g ord s t = shortest_path g ord' s t.
Proof.
  intros W He A ord ord' s t Nx O O'. destruct (shortest_path_spec g ord s t W O) as (p & -> & P0 & P1). destruct (shortest_path_spec g ord' s t W O') as (q & -> & Q0 & Q1). f_equal.
  destruct p as [|x p].
  - symmetry. apply Q0, P0. reflexivity.
  - destruct q as [|y q]; [exfalso; assert (X : x :: p = []) by (apply P0, Q0; reflexivity); discriminate X|].
    destruct (P1 ltac:(discriminate)) as [[Wp Np] Mp]. destruct (Q1 ltac:(discriminate)) as [[Wq Nq] Mq].
    assert (L : List.length (y :: q) = List.length (x :: p)) by (apply Nat.le_antisymm; [apply Mq, Wp | apply Mp, Wq]).
    pose proof Wp as (Wk & (q0 & Eq & Nn) & La). injection Eq as -> ->. destruct q0 as [|b q0]; [now elim Nn|].
    assert (Ht : In t (map snd E)).
    { apply (walk_nodes g E s He (b :: q0) t Wk). rewrite <- La. change (last (s :: b :: q0) s) with (last (b :: q0) s). destruct (@exists_last _ (b :: q0) ltac:(discriminate)) as (l & z & Ez). rewrite Ez, last_last. apply in_or_app. right. now left. }
    assert (Hs : In s (map fst E)) by (destruct Wk as [Eb _]; apply He in Eb; apply (in_map fst) in Eb; exact Eb).
    unfold alone_except in A. rewrite forallb_forall in A. specialize (A s (proj2 (nodup_In string_dec _ _) Hs)). rewrite forallb_forall in A. specialize (A t (proj2 (nodup_In string_dec _ _) Ht)).
    apply orb_prop in A as [A|A]; [apply orb_prop in A as [A|A]|].
    + exfalso. apply existsb_exists in A as ([xx yy] & Hx & A). cbn [fst snd] in A. apply andb_prop in A as [A1 A2]. apply String.eqb_eq in A1, A2. subst. now apply Nx.
    + apply String.eqb_eq in A. subst t. exfalso. inversion Np as [|? ? Ni _]; subst. apply Ni. change (last (s :: b :: q0) s) with (last (b :: q0) s) in La.
      destruct (@exists_last _ (b :: q0) ltac:(discriminate)) as (l & z & Ez). rewrite Ez in La |- *. rewrite last_last in La. subst z. apply in_or_app. right. now left.
    + apply (first_alone_unique g E s t He (List.length E) 0 _ _ A Wp Wq Mp L). split; [cbn; lia|].
      assert (In_ : incl (b :: q0) (map snd E)) by (intros z Hz; exact (walk_nodes g E s He _ z Wk Hz)). inversion Np as [|? ? _ Nd]; subst.
      pose proof (NoDup_incl_length Nd In_) as B. rewrite map_length in B. cbn [List.length] in *. lia.
Qed.
Lemma edges_of_build adds E : (forall x, In x (map fst adds) <-> In x E) -> forall a b, edge (build adds) a b <-> In (a, b) E.
Proof.
  intros HE a b. rewrite <- HE. split.
  - intros (k & l & H). rewrite build_has_iff in H. apply nth_error_In, added_In in H. apply (in_map fst) in H. exact H.
  - intros H. apply in_map_iff in H as ([[a' b'] l] & E0 & H). cbn in E0. injection E0 as -> ->.
    assert (In l (added_between a b adds)) as I.
    { unfold added_between. apply in_map_iff. exists (a, b, l). split; [reflexivity|]. apply filter_In. split; [exact H|]. cbn. now rewrite !String.eqb_refl. }
    apply In_nth_error in I as [k Hk]. exists k, l. now rewrite build_has_iff.
Qed.
Definition pair_dec (a b : string * string) : {a = b} + {a <> b}.
Proof. decide equality; apply string_dec. Defined.
Lemma build_unique adds exc : alone_except exc (nodup pair_dec (map fst adds)) = true ->
  forall ord ord' s t, ~ In (s, t) exc -> set_order ord -> set_order ord' -> shortest_path (build adds) ord s t = shortest_path (build adds) ord' s t.
Proof.
  apply (unique_shortest _ (nodup pair_dec (map fst adds))); [apply wf_built; now exists adds|]. apply edges_of_build. intros x. now rewrite nodup_In.
Qed.

(** The shipped networks. *)
Lemma highway_edges n : highway_net n = build (map (fun k => ("0"%string, "1"%string, straight_network_lane n k 10000 0)) (seq 0 n)).
Proof.
  unfold highway_net, straight_road_network, build. generalize (seq 0 n), empty_graph. intros l. induction l as [|k l IH]; intros g; [reflexivity|]. cbn [fold_left map]. rewrite IH. reflexivity.
Qed.
Lemma all_unique adds : alone_except [] (nodup pair_dec (map fst adds)) = true ->
  forall ord ord' s t, set_order ord -> set_order ord' -> shortest_path (build adds) ord s t = shortest_path (build adds) ord' s t.
Proof. intros A ord ord' s t. apply (build_unique adds [] A). intros []. Qed.
Lemma two_way_unique len : forall ord ord' s t, set_order ord -> set_order ord' -> shortest_path (two_way_net len) ord s t = shortest_path (two_way_net len) ord' s t.
Proof. apply all_unique. reflexivity. Qed.
Lemma merge_unique : forall ord ord' s t, set_order ord -> set_order ord' -> shortest_path merge_net ord s t = shortest_path merge_net ord' s t.
Proof. apply all_unique. reflexivity. Qed.
Lemma keeping_unique : forall ord ord' s t, set_order ord -> set_order ord' -> shortest_path lane_keeping_net ord s t = shortest_path lane_keeping_net ord' s t.
Proof. apply all_unique. reflexivity. Qed.
Lemma roundabout_unique : forall ord ord' s t, set_order ord -> set_order ord' -> shortest_path roundabout_net ord s t = shortest_path roundabout_net ord' s t.
Proof. apply all_unique. vm_compute. reflexivity. Qed.
Lemma parking_unique : forall ord ord' s t, set_order ord -> set_order ord' -> shortest_path (parking_net 15) ord s t = shortest_path (parking_net 15) ord' s t.
Proof. apply all_unique. vm_compute. reflexivity. Qed.
Lemma summon_unique : forall ord ord' s t, set_order ord -> set_order ord' -> shortest_path (summon_net 15) ord s t = shortest_path (summon_net 15) ord' s t.
Proof. apply all_unique. vm_compute. reflexivity. Qed.
Lemma highway_unique n : forall ord ord' s t, set_order ord -> set_order ord' -> shortest_path (highway_net n) ord s t = shortest_path (highway_net n) ord' s t.
Proof.
  rewrite highway_edges. apply all_unique. rewrite map_map. cbn [fst].
  assert (H : forall l : list nat, nodup pair_dec (map (fun _ => ("0", "1")%string) l) = [] \/ nodup pair_dec (map (fun _ => ("0", "1")%string) l) = [("0", "1")%string]).
  { induction l as [|k l IH]; [now left|]. right. cbn [map nodup]. destruct (in_dec pair_dec _ _) as [I|N]; [|destruct l; [reflexivity | elim N; now left]]. destruct IH as [E|E]; [|exact E]. apply (nodup_In pair_dec) in I. rewrite E in I. destruct I. }
  destruct (H (seq 0 n)) as [-> | ->]; reflexivity.
Qed.
(** Turning back at the intersection: there are three ways. *)
Definition turning_back : list (string * string) :=
  flat_map (fun k => [(corner_name "ir" k, corner_name "o" k); (corner_name "ir" k, corner_name "il" k); (corner_name "o" k, corner_name "il" k)]) (seq 0 4).
Lemma intersection_unique : forall ord ord' s t, ~ In (s, t) turning_back -> set_order ord -> set_order ord' -> shortest_path intersection_net ord s t = shortest_path intersection_net ord' s t.
Proof. rewrite crossing_eq. apply build_unique. vm_compute. reflexivity. Qed.
