(** Theorems about road networks (C11-C20). *)
From Verif Require Import Prelude M_Utils M_Lane M_Road M_Vehicle M_Kinematics S_Road
  P_Base P_Lane P_Graph P_Bfs P_Query.
From Coq Require Import Lia Lra Permutation Sorted.
Open Scope R_scope.

(** ** C11: closest lane *)
Theorem C11_closest_first_minimiser : forall g p heading i, built g ->
  get_closest_lane_index g p heading = Ok i ->
  exists l pre post, enum_lanes g = pre ++ (i, l) :: post /\ get_lane g i = Ok l /\ lane_exists g i /\
    (forall j m, In (j, m) pre ->
       l_distance_with_heading l p heading 1 < l_distance_with_heading m p heading 1) /\
    (forall j m, lane_exists g j -> get_lane g j = Ok m ->
       l_distance_with_heading l p heading 1 <= l_distance_with_heading m p heading 1).
Proof. intros g p h i B. apply closest_spec, wf_built, B. Qed.
Print Assumptions C11_closest_first_minimiser.
(** The enumeration order is over exactly the lanes of the network. *)
Theorem C11_enumeration_is_all_lanes : forall g i l, built g ->
  (In (i, l) (enum_lanes g) <->
   exists k, li_id i = Some (Z.of_nat k) /\ has_lane g (li_from i) (li_to i) k l).
Proof. intros g i l B. apply enum_lanes_In, wf_built, B. Qed.
Print Assumptions C11_enumeration_is_all_lanes.
Theorem C11_closest_fails_iff_no_lane : forall g p heading, built g ->
  (forall e, get_closest_lane_index g p heading = Err e <-> g = [] /\ e = ValueError) /\
  (g <> [] -> exists i, get_closest_lane_index g p heading = Ok i).
Proof.
  intros g p h B. split; [intros e; apply closest_err, wf_built, B | apply closest_total, wf_built, B].
Qed.
Print Assumptions C11_closest_fails_iff_no_lane.

(** ** C12: adding lanes *)
(** The lanes of a road are exactly those added to it, in order. *)
Theorem C12_network_is_what_was_added : forall adds a b,
  g_lanes (build adds) a b =
  match added_between a b adds with [] => Err KeyError | ls => Ok ls end.
Proof.
  intros adds a b. rewrite g_lanes_wf by (apply wf_built; now exists adds). now rewrite build_lanes.
Qed.
Print Assumptions C12_network_is_what_was_added.
Theorem C12_add_lane : forall g a b l, built g ->
  built (add_lane g a b l) /\
  (exists n, get_lane (add_lane g a b l) (a, b, Some (Z.of_nat n)) = Ok l /\
             get_lane (add_lane g a b l) (a, b, Some (-1)%Z) = Ok l /\
             ~ (exists l', has_lane g a b n l')) /\
  (forall k l', has_lane g a b k l' -> has_lane (add_lane g a b l) a b k l') /\
  (forall a' b', (a', b') <> (a, b) -> g_lanes (add_lane g a b l) a' b' = g_lanes g a' b').
Proof.
  intros g a b l B. pose proof (wf_built _ B) as W. pose proof (built_add g a b l B) as B'. pose proof (wf_built _ B') as W'.
  assert (G : g_lanes (add_lane g a b l) a b = Ok (lanes_of g a b ++ [l])).
  { rewrite g_lanes_wf by easy. rewrite add_lane_lanes, !String.eqb_refl. simpl. destruct (lanes_of g a b); easy. }
  split; [easy|]. split; [|split].
  - exists (List.length (lanes_of g a b)). split; [|split].
    + apply get_lane_nat, has_lane_g. exists (lanes_of g a b ++ [l]). split; [easy|].
      rewrite nth_error_app2, Nat.sub_diag by lia. easy.
    + unfold get_lane, li_from, li_to, li_id. cbn [fst snd]. rewrite G. cbn [bind]. unfold py_index. cbv zeta.
      change ((-1 <? 0)%Z) with true. cbv iota. rewrite app_length. cbn [List.length].
      destruct (Z.leb_spec 0 (-1 + Z.of_nat (List.length (lanes_of g a b) + 1))); [|lia].
      replace (Z.to_nat (-1 + Z.of_nat (List.length (lanes_of g a b) + 1))) with (List.length (lanes_of g a b)) by lia.
      rewrite nth_error_app2, Nat.sub_diag by lia. easy.
    + intros (l' & H). apply has_lane_g in H as (ls & H & K). apply g_lanes_of in H. subst ls.
      assert (List.length (lanes_of g a b) < List.length (lanes_of g a b))%nat by (apply nth_error_Some; congruence). lia.
  - intros k l' H. apply has_lane_g in H as (ls & H & K). apply g_lanes_of in H. subst ls.
    apply has_lane_g. exists (lanes_of g a b ++ [l]). split; [easy|]. rewrite nth_error_app1; [easy|].
    apply nth_error_Some. congruence.
  - intros a' b' N. rewrite !g_lanes_wf by easy. rewrite add_lane_lanes.
    destruct (String.eqb_spec a a') as [<-|Na], (String.eqb_spec b b') as [<-|Nb]; simpl; easy.
Qed.
Print Assumptions C12_add_lane.
(** Without a lane id only single-lane roads can be looked up. *)
Theorem C12_get_lane_without_id : forall g a b l,
  get_lane g (a, b, None) = Ok l <-> g_lanes g a b = Ok [l].
Proof.
  intros g a b l. rewrite get_lane_none. destruct (g_lanes g a b) as [[|x [|y ls]]|e]; split; intros H; congruence.
Qed.
Print Assumptions C12_get_lane_without_id.
Theorem C12_get_lane_with_id : forall g a b k l,
  get_lane g (a, b, Some (Z.of_nat k)) = Ok l <-> has_lane g a b k l.
Proof. intros g a b k l. now apply (get_lane_has g (a, b, Some (Z.of_nat k)) k l). Qed.
Print Assumptions C12_get_lane_with_id.

(** ** C13, C14: path search *)
Theorem C13_shortest_path : forall g ord start goal, built g -> set_order ord ->
  exists p, shortest_path g ord start goal = Ok p /\
    (p = [] <-> ~ exists q, simple_path g start goal q) /\
    (p <> [] -> simple_path g start goal p /\
       (forall q, walk_from_to g start goal q -> (List.length p <= List.length q)%nat)).
Proof. intros g ord s t B. apply shortest_path_spec, wf_built, B. Qed.
Print Assumptions C13_shortest_path.
Theorem C14_bfs_enumerates_simple_paths : forall g ord start goal, built g -> set_order ord ->
  In start (keys g) ->
  exists L, runs_to (bfs_paths g ord start goal) L None /\
    (forall q, In q L <-> simple_path g start goal q) /\
    NoDup L /\ StronglySorted (fun a b => List.length a <= List.length b)%nat L.
Proof.
  intros g ord s t B O I. destruct (bfs_paths_ok g ord s t (wf_built _ B) O I) as (L & E & H).
  exists L. split; [|easy]. rewrite E. rewrite <- (app_nil_r L) at 2. apply runs_gyields. constructor.
Qed.
Print Assumptions C14_bfs_enumerates_simple_paths.
(** From a node without outgoing roads (or unknown) it yields one empty path and
    then raises KeyError. *)
Theorem C14_bfs_from_dead_end : forall g ord start goal, ~ In start (keys g) ->
  runs_to (bfs_paths g ord start goal) [[]] (Some KeyError).
Proof. intros g ord s t N. rewrite bfs_paths_missing by easy. repeat constructor. Qed.
Print Assumptions C14_bfs_from_dead_end.

Definition diamond : graph := build
  (map (fun ab => (fst ab, snd ab, default_lane (GStraight (0, 0) (10, 0))))
       [("a", "b"); ("a", "c"); ("b", "d"); ("c", "d"); ("d", "a"); ("a", "d")]%string).
Example C13_nonvacuous : built diamond /\ In "a"%string (keys diamond) /\
  shortest_path diamond (fun _ l => l) "b" "c" = Ok ["b"; "d"; "a"; "c"]%string /\
  shortest_path diamond (fun _ l => l) "a" "d" = Ok ["a"; "d"]%string.
Proof. split; [now eexists|]. split; [simpl; tauto|]. split; vm_compute; reflexivity. Qed.

(** ** C15: next_lane *)
(** It always returns an existing lane (or the current one at a dead end). *)
Theorem C15_next_lane_exists : forall g cur rt p draw, built g -> lane_exists g cur -> draw_ok draw ->
  Forall (fun i => edge g (li_from i) (li_to i)) rt ->
  exists i, snd (next_lane g cur rt p draw) = Ok i /\ lane_exists g i.
Proof. intros g cur rt p draw B C D R. now apply next_lane_valid; [apply wf_built| | |]. Qed.
Print Assumptions C15_next_lane_exists.
(** With a route whose first remaining road continues the current one, the next
    lane is on that road; the route keeps only what lies ahead. *)
Theorem C15_next_lane_follows_route : forall g cur rt p draw, built g -> lane_exists g cur ->
  forall r rest,
  (match rt with r0 :: tl => if same_road r0 cur then tl else rt | [] => [] end) = r :: rest ->
  li_from r = li_to cur -> edge g (li_from r) (li_to r) -> li_to r <> ""%string ->
  fst (next_lane g cur rt p draw) = r :: rest /\
  exists i, snd (next_lane g cur rt p draw) = Ok i /\ li_from i = li_from r /\ li_to i = li_to r /\ lane_exists g i.
Proof.
  intros g cur rt p draw B C r rest E F K Ne. rewrite next_lane_unfold. simpl.
  assert (Q : next_lane_route cur rt = (r :: rest, Some (li_to r))).
  { unfold next_lane_route. destruct rt as [|r0 tl]; [easy|]. destruct (same_road r0 cur).
    - rewrite E, (proj2 (String.eqb_eq _ _) F). easy.
    - injection E as -> ->. rewrite (proj2 (String.eqb_eq _ _) F). easy. }
  rewrite Q. simpl. split; [easy|]. destruct (String.eqb_spec (li_to r) "") as [|_]; [easy|].
  rewrite F in K. destruct (next_on_valid g cur p (li_to r) (wf_built _ B) C K) as (i & A1 & A2 & A3 & A4).
  exists i. rewrite F. easy.
Qed.
Print Assumptions C15_next_lane_follows_route.
(** Without a usable route it takes one of the outgoing roads, and stays where it
    is exactly when there is none. *)
Theorem C15_next_lane_without_route : forall g cur p draw, built g -> lane_exists g cur -> draw_ok draw ->
  exists i, snd (next_lane g cur [] p draw) = Ok i /\
    ((~ exists n, edge g (li_to cur) n) -> i = cur) /\
    ((exists n, edge g (li_to cur) n) -> li_from i = li_to cur /\ edge g (li_to cur) (li_to i)).
Proof.
  intros g cur p draw B C D. pose proof (wf_built _ B) as W. rewrite next_lane_unfold. simpl.
  destruct (assoc (li_to cur) g) as [d|] eqn:Ed.
  - destruct W as [N W0]. destruct (W0 _ _ Ed) as (Nd & _). destruct d as [|x d]; [easy|]. set (d0 := x :: d) in *.
    destruct (nth_error (keys d0) (draw (List.length d0))) as [n|] eqn:En.
    + apply nth_error_In in En. apply (assoc_edge g _ d0 n (conj N W0) Ed) in En.
      destruct (next_on_valid g cur p n (conj N W0) C En) as (i & A1 & A2 & A3 & A4).
      exists i. split; [easy|]. split; [intros Q; exfalso; apply Q; eauto|]. rewrite A4. easy.
    + exfalso. apply nth_error_None in En. unfold keys in En. rewrite map_length in En.
      pose proof (D (List.length d0) ltac:(simpl; lia)). lia.
  - exists cur. split; [easy|]. split; [easy|]. intros (n & k & l & d & ls & A & _). congruence.
Qed.
Print Assumptions C15_next_lane_without_route.
(** The lane on the next road: the same id when the lane counts agree, otherwise
    the first of the closest lanes. *)
Theorem C15_next_lane_id : forall g cur rt p draw i here there, built g ->
  snd (next_lane g cur rt p draw) = Ok i -> li_from i = li_to cur ->
  li_to i <> li_to cur \/ li_from cur <> li_from i ->
  g_lanes g (li_from cur) (li_to cur) = Ok here -> g_lanes g (li_from i) (li_to i) = Ok there ->
  (List.length here = List.length there -> li_id i = li_id cur) /\
  (List.length here <> List.length there -> exists k l, li_id i = Some (Z.of_nat k) /\ nth_error there k = Some l /\
     (forall m l', nth_error there m = Some l' -> l_distance l p <= l_distance l' p) /\
     (forall m l', nth_error there m = Some l' -> (m < k)%nat -> l_distance l p < l_distance l' p)).
Proof.
  intros g cur rt p draw i here there B E F Ne H T. pose proof (wf_built _ B) as W. rewrite next_lane_unfold in E. simpl in E.
  assert (Q : exists n, next_on g cur p n = Ok i).
  { destruct (truthy_node _) as [n|]; [eauto|]. destruct (assoc (li_to cur) g) as [[|x d]|].
    - easy.
    - destruct (nth_error _ _) as [n|]; [eauto|easy].
    - injection E as <-. exfalso. destruct Ne as [Ne|Ne]; congruence. }
  destruct Q as [n Q]. pose proof Q as Q0. unfold next_on in Q0. rewrite H in Q0. cbn [bind] in Q0.
  destruct (g_lanes g (li_to cur) n) as [th|] eqn:Et; [|easy]. cbn [bind] in Q0.
  assert (En : li_to i = n).
  { destruct (Nat.eqb _ _); [injection Q0 as <-; easy|]. destruct (closest_lane_id th p); [|easy]. injection Q0 as <-. easy. }
  rewrite F, En in T. rewrite Et in T. injection T as ->.
  destruct (next_on_spec g cur p n here there W H Et) as [A1 A2]. split.
  - intros L. rewrite (A1 L) in Q. injection Q as <-. easy.
  - intros L. destruct (A2 L) as (k & l & Q' & Z). rewrite Q in Q'. injection Q' as ->. exists k, l. easy.
Qed.
Print Assumptions C15_next_lane_id.
Example C15_nonvacuous : lane_exists diamond ("a", "b", Some 0%Z)%string /\ edge diamond "b" "d".
Proof.
  split.
  - exists 0%nat, (default_lane (GStraight (0, 0) (10, 0))). split; [easy|]. eexists _, _. repeat split.
  - exists 0%nat, (default_lane (GStraight (0, 0) (10, 0))). eexists _, _. repeat split.
Qed.

(** ** C16: side lanes *)
Theorem C16_side_lanes : forall g a b k l, has_lane g a b k l ->
  exists out, side_lanes g (a, b, Some (Z.of_nat k)) = Ok out /\ NoDup out /\
  forall j, In j out <->
    (exists m l', j = (a, b, Some (Z.of_nat m)) /\ has_lane g a b m l' /\ (m + 1 = k \/ m = k + 1)%nat).
Proof.
  intros g a b k l H. apply has_lane_g in H as (ls & G & K).
  assert (Hk : (k < List.length ls)%nat) by (apply nth_error_Some; congruence).
  destruct (side_lanes_spec g a b k ls G Hk) as (out & E & N & S). exists out. split; [easy|]. split; [easy|].
  intros j. rewrite S. split.
  - intros (m & -> & L & D). destruct (nth_error ls m) as [l'|] eqn:El; [|apply nth_error_None in El; lia].
    exists m, l'. split; [easy|]. split; [|easy]. apply has_lane_g. eauto.
  - intros (m & l' & -> & L & D). exists m. split; [easy|]. split; [|easy]. apply has_lane_g in L as (ls' & G' & L).
    rewrite G in G'. injection G' as <-. apply nth_error_Some. congruence.
Qed.
Print Assumptions C16_side_lanes.
Theorem C16_all_side_lanes : forall g a b o k l, has_lane g a b k l ->
  exists out, all_side_lanes g (a, b, o) = Ok out /\ NoDup out /\
  forall j, In j out <-> (exists m l', j = (a, b, Some (Z.of_nat m)) /\ has_lane g a b m l').
Proof.
  intros g a b o k l H. apply has_lane_g in H as (ls & G & K).
  destruct (all_side_lanes_spec g a b o ls G) as (out & E & N & S). exists out. split; [easy|]. split; [easy|].
  intros j. rewrite S. split.
  - intros (m & -> & L). destruct (nth_error ls m) as [l'|] eqn:El; [|apply nth_error_None in El; lia].
    exists m, l'. split; [easy|]. apply has_lane_g. eauto.
  - intros (m & l' & -> & L). exists m. split; [easy|]. apply has_lane_g in L as (ls' & G' & L).
    rewrite G in G'. injection G' as <-. apply nth_error_Some. congruence.
Qed.
Print Assumptions C16_all_side_lanes.

(** ** C17: connectivity *)
Theorem C17_is_connected_road : forall g i1 i2 rt same_lane depth, built g ->
  (is_connected_road g i1 i2 rt same_lane depth = true <->
   exists k j rt', (k <= depth)%nat /\ hops g k (i1, rt) (j, rt') /\ met i2 j same_lane).
Proof. intros g i1 i2 rt sl d B. apply connected_iff, wf_built, B. Qed.
Print Assumptions C17_is_connected_road.
Theorem C17_monotone_in_depth : forall g i1 i2 rt same_lane d d', built g -> (d <= d')%nat ->
  is_connected_road g i1 i2 rt same_lane d = true -> is_connected_road g i1 i2 rt same_lane d' = true.
Proof.
  intros g i1 i2 rt sl d d' B L H. apply C17_is_connected_road in H as (k & j & r & A); [|easy].
  apply C17_is_connected_road; [easy|]. exists k, j, r. split; [lia|easy].
Qed.
Print Assumptions C17_monotone_in_depth.
Example C17_nonvacuous :
  is_connected_road diamond ("a", "b", Some 0%Z)%string ("d", "a", Some 0%Z)%string [] false 0 = true /\
  is_connected_road diamond ("a", "b", Some 0%Z)%string ("c", "d", Some 0%Z)%string [] false 1 = false /\
  is_connected_road diamond ("a", "b", Some 0%Z)%string ("c", "d", Some 0%Z)%string [] false 2 = true.
Proof. repeat split. Qed.

(** ** C18: neighbours *)
(** [candidate l id e]: [e] is not the vehicle itself nor a landmark, and lies on
    the lane with a 1 m lateral margin. *)
Theorem C18_neighbours : forall rd v i l, get_lane (rd_net rd) i = Ok l ->
  exists f r, neighbour_vehicles rd v (Some i) = Ok (f, r) /\
  let cand e := In e (map EV (rd_vehicles rd) ++ map EO (rd_objects rd)) /\
                e_id e <> v_id v /\ is_landmark e = false /\
                Rabs (snd (l_local l (e_pos e))) <= l_width l / 2 + 1 /\
                - 5 <= fst (l_local l (e_pos e)) < l_length l + 5 in
  let s e := fst (l_local l (e_pos e)) in
  let s0 := fst (l_local l (v_pos v)) in
  (forall e, f = Some e -> cand e /\ s0 <= s e /\ forall e', cand e' -> s0 <= s e' -> s e <= s e') /\
  (f = None -> forall e', cand e' -> s e' < s0) /\
  (forall e, r = Some e -> cand e /\ s e < s0 /\ forall e', cand e' -> s e' < s0 -> s e' <= s e) /\
  (r = None -> forall e', cand e' -> s0 <= s e').
Proof.
  intros rd v i l G. destruct (neighbours_total rd (v_id v) (v_pos v) i l G) as [[f r] E].
  exists f, r. split; [exact E|]. destruct (neighbours_spec rd (v_id v) (v_pos v) i l f r G E) as (A & B & C & D).
  cbv zeta in *. split; [|split; [|split]].
  - intros e Q. destruct (A e Q) as (A1 & A2 & A3 & A4). split; [split; [exact A1 | exact A2]|]. split; [easy|].
    intros e' [X Y]. now apply A4.
  - intros Q e' [X Y]. now apply B.
  - intros e Q. destruct (C e Q) as (A1 & A2 & A3 & A4). split; [split; [exact A1 | exact A2]|]. split; [easy|].
    intros e' [X Y]. now apply A4.
  - intros Q e' [X Y]. now apply D.
Qed.
Print Assumptions C18_neighbours.
(** Without a lane argument the vehicle's own lane is used. *)
Theorem C18_neighbours_default_lane : forall rd v,
  neighbour_vehicles rd v None = neighbour_vehicles rd v (Some (v_lane_index v)).
Proof. reflexivity. Qed.
Print Assumptions C18_neighbours_default_lane.

(** ** C19: close vehicles *)
Theorem C19_close_vehicles : forall rd v dist count see_behind l,
  get_lane (rd_net rd) (v_lane_index v) = Ok l ->
  let gap w := Rabs (fst (l_local l (v_pos w)) - fst (l_local l (v_pos v))) in
  exists out rest all, close_vehicles_to rd v dist count see_behind = Ok out /\
    (* [all]: the vehicles within reach, each occurrence of the road's list once *)
    (exists keep, all = filter keep (rd_vehicles rd) /\ forall w, keep w = true <->
        (vnorm (vsub (v_pos w) (v_pos v)) < dist /\ v_id w <> v_id v /\
         (see_behind = true \/ -10 < fst (l_local l (v_pos w)) - fst (l_local l (v_pos v))))) /\
    Permutation (out ++ rest) all /\
    StronglySorted (fun a b => gap a <= gap b) (out ++ rest) /\
    (count = None \/ count = Some 0%Z -> rest = []) /\
    (forall k, count = Some (Z.of_nat (S k)) ->
       (List.length out <= S k)%nat /\ (rest <> [] -> List.length out = S k)).
Proof.
  intros rd v dist count sb l G gap. destruct (close_spec rd v dist count sb l G) as (out & rest & E & P & S & A & B).
  exists out, rest, (filter (close_filter v l dist sb) (rd_vehicles rd)). split; [easy|]. split; [|easy].
  exists (close_filter v l dist sb). split; [easy|]. intros w. apply close_filter_iff.
Qed.
Print Assumptions C19_close_vehicles.

(** ** C20: positions along a route *)
(** The pose is on the lane of the route that holds the coordinate, with what is
    left after consuming the lengths of the lanes before it. *)
Theorem C20_along_route : forall g rt s d, rt <> [] -> (forall r, In r rt -> exists l, get_lane g r = Ok l) ->
  exists pre r post l lens, rt = pre ++ r :: post /\ get_lane g r = Ok l /\
    mapM (fun q => rmap l_length (get_lane g q)) pre = Ok lens /\
    position_heading_along_route g rt s d = Ok (l_position l (s - rsum lens) d, l_heading l (s - rsum lens)) /\
    (post <> [] -> s - rsum lens <= l_length l) /\
    (forall n, (n < List.length lens)%nat -> rsum (firstn (S n) lens) < s).
Proof. exact along_general. Qed.
Print Assumptions C20_along_route.
(** Where consecutive straight lanes join end to start the position is continuous. *)
Theorem C20_joined_at_ends : forall g r r' rt l l' st mid en,
  get_lane g r = Ok l -> get_lane g r' = Ok l' ->
  l_geom l = GStraight st mid -> l_geom l' = GStraight mid en -> st <> mid -> mid <> en ->
  (exists h, position_heading_along_route g (r :: r' :: rt) (l_length l) 0 = Ok (mid, h)) /\
  (forall s, l_length l < s -> s - l_length l <= l_length l' ->
     exists h, position_heading_along_route g (r :: r' :: rt) s 0 = Ok (l_position l' (s - l_length l) 0, h)) /\
  l_position l' 0 0 = mid.
Proof.
  intros g r r' rt l l' st mid en G G' E E' N N'.
  destruct (straight_ends st mid N) as [A1 A2]. destruct (straight_ends mid en N') as [B1 B2].
  split; [|split].
  - eexists. rewrite (along_within _ _ _ _ _ _ _ G (Rle_refl _)). unfold l_position, l_length. rewrite E, A2. reflexivity.
  - intros s H K. eexists. rewrite (along_beyond _ _ _ _ _ _ _ G H). destruct rt as [|q rt].
    + now apply along_last.
    + now apply along_within.
  - unfold l_position. now rewrite E'.
Qed.
Print Assumptions C20_joined_at_ends.
Example C20_nonvacuous : get_lane diamond ("a", "b", Some 0%Z)%string = Ok (default_lane (GStraight (0, 0) (10, 0))).
Proof. reflexivity. Qed.
