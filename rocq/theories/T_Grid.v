(** Property theorems C47, C56, C77 (occupancy grid, image stack, goal observation). *)
From Verif Require Import Prelude M_Utils M_Lane M_Road M_Vehicle M_Kinematics M_Control M_Behavior M_Action M_Ttc M_Obs M_Env M_Regulation M_Scenes
  S_Geometry S_Road S_Ttc S_Obs P_Base P_Utils P_Lane P_Graph P_Query P_Nets P_Ttc P_Obs P_Grid T_Kin T_Control T_Behavior T_Obs.
From Coq Require Import Lra Lia Psatz Permutation.
Open Scope R_scope.

(** ** C47: the occupancy grid *)
(** The number of rows is the number of whole cells along, the number of columns the
    number of whole cells across (see C47_wide_grid_loses_vehicle). *)
Theorem C47_shape : forall names size step absolute c, occ_init names size (Some step) absolute = Ok c ->
  0 < fst step -> 0 < snd step ->
  let '((x0, x1), (y0, y1)) := oc_size c in
  (forall s, size = Some s -> oc_size c = s) /\ (size = None -> oc_size c = ((-27.5, 27.5), (-27.5, 27.5))) /\ oc_step c = step /\
  INR (fst (oc_shape c)) * fst step <= x1 - x0 < (INR (fst (oc_shape c)) + 1) * fst step /\
  INR (snd (oc_shape c)) * snd step <= y1 - y0 < (INR (snd (oc_shape c)) + 1) * snd step.
Proof.
  intros names size step ab c E H1 H2. unfold occ_init in E. rewrite (proj2 (Reqb_false (fst step) 0)), (proj2 (Reqb_false (snd step) 0)) in E by lra. cbn [orb] in E.
  set (sz := match size with Some s => s | None => OCC_SIZE end) in *. destruct ((_ <? 0)%Z || (_ <? 0)%Z) eqn:Q in E; [discriminate|]. rewrite orb_false_iff, !Z.ltb_ge in Q. destruct Q as [Q1 Q2].
  assert (forall a b : occ_config, Ok a = Ok b -> b = a) as I by (intros a b H; congruence). apply I in E. rewrite E. cbn [oc_size oc_step oc_shape fst snd]. clear E I.
  assert (F : forall w s, 0 < s -> (0 <= Rfloor (w / s))%Z -> INR (Z.to_nat (Rfloor (w / s))) * s <= w < (INR (Z.to_nat (Rfloor (w / s))) + 1) * s).
  { intros w s Hs P. rewrite INR_IZR_INZ, Z2Nat.id by exact P. destruct (floor_bounds (w / s)) as [A B]. set (q := w / s) in *. assert (W : w = q * s) by (unfold q; field; lra). nra. }
  assert (S1 : forall s, size = Some s -> sz = s) by (intros s ->; reflexivity). assert (S2 : size = None -> sz = ((-27.5, 27.5), (-27.5, 27.5))).
  { intros ->. unfold sz, OCC_SIZE. f_equal; f_equal; lra. }
  destruct sz as [[x0 x1] [y0 y1]]. cbn [fst snd] in *. split; [exact S1|]. split; [exact S2|]. split; [reflexivity|]. split; apply F; assumption.
Qed.
Print Assumptions C47_shape.
(** The default value of [grid_step] cannot be used. *)
Theorem C47_step_must_be_given : forall names size absolute, occ_init names size None absolute = Err TypeError.
Proof. reflexivity. Qed.
Print Assumptions C47_step_must_be_given.

Lemma occ_observe_inv c smax r rd o planes r' : occ_observe c smax r (Some rd) o = Ok (planes, r') ->
  oc_absolute c = false /\ r' = Some (occ_ranges smax r) /\ exists nds raw, recs (rd_net rd) (occ_ranges smax r) o (rd_vehicles rd) nds /\
    mapM (fun name => foldM (occ_place c (occ_ranges smax r) name) nds (zero_plane c)) (oc_features c) = Ok raw /\
    planes = map (map (map (fun x => Rclip x (-1) 1))) raw.
Proof.
  unfold occ_observe. destruct (oc_absolute c); [discriminate|]. intros E. apply bind_ok in E as (ds & D & E). apply bind_ok in E as (nds & N & E). apply bind_ok in E as (raw & M & E).
  injection E as <- <-. split; [reflexivity|]. split; [reflexivity|]. exists nds, raw. split; [exists ds; auto|]. auto.
Qed.
(** Dimensions and values: a plane per feature, all in [-1, 1]. *)
Theorem C47_in_space : forall c smax r rd o planes r', 0 < fst (oc_step c) -> 0 < snd (oc_step c) ->
  occ_observe c smax r (Some rd) o = Ok (planes, r') ->
  List.length planes = List.length (oc_features c) /\
  forall p, In p planes -> List.length p = fst (oc_shape c) /\
    forall row, In row p -> List.length row = snd (oc_shape c) /\ forall x, In x row -> -1 <= x <= 1.
Proof.
  intros c smax r rd o planes r' H1 H2 E. destruct (occ_observe_inv _ _ _ _ _ _ _ E) as (_ & _ & nds & raw & Rc & M & ->). split; [rewrite map_length; now apply mapM_length in M|].
  intros p Hp. apply in_map_iff in Hp as (q & <- & Hq). apply In_nth_error in Hq as [k Hk]. assert (exists name, nth_error (oc_features c) k = Some name) as [name Hn].
  { destruct (nth_error (oc_features c) k) eqn:Q; [eauto|]. apply nth_error_None in Q. apply mapM_length in M. assert (k < List.length raw)%nat by (apply nth_error_Some; intros F; rewrite F in Hk; discriminate). lia. }
  destruct (mapM_nth _ _ _ M _ _ Hn) as (q' & Hq' & Ef). assert (q' = q) as -> by (rewrite Hk in Hq'; now injection Hq').
  destruct (fill_none _ _ _ _ _ H1 H2 _ _ _ _ Rc Ef (zero_dims c)) as [[D1 D2] _]. split; [now rewrite map_length|]. intros row Hr. apply in_map_iff in Hr as (row0 & <- & Hr).
  rewrite Forall_forall in D2. split; [rewrite map_length; now apply D2|]. intros x Hx. apply in_map_iff in Hx as (x0 & <- & _). apply Rclip_bounds. lra.
Qed.
Print Assumptions C47_in_space.
(** Every cell: zero without a vehicle counted in it, else the (scaled, saturated)
    feature of the last such vehicle in the order of the road, relative to the observer. *)
Theorem C47_cells : forall c smax r rd o planes r' k name p i j, 0 < fst (oc_step c) -> 0 < snd (oc_step c) ->
  occ_observe c smax r (Some rd) o = Ok (planes, r') ->
  nth_error (oc_features c) k = Some name -> nth_error planes k = Some p -> (i < fst (oc_shape c))%nat -> (j < snd (oc_shape c))%nat ->
  ((forall w, In w (rd_vehicles rd) -> ~ counted (oc_size c) (oc_step c) o w i j) -> entry p i j = Some 0) /\
  (forall vs1 w vs2, rd_vehicles rd = vs1 ++ w :: vs2 -> counted (oc_size c) (oc_step c) o w i j ->
     (forall w', In w' vs2 -> ~ counted (oc_size c) (oc_step c) o w' i j) ->
     exists x y z, seen_feature (rd_net rd) (Some o) w true name x /\ scaled (range_in true r' name) false x y /\ saturate y z /\ entry p i j = Some z).
Proof.
  intros c smax r rd o planes r' k name p i j H1 H2 E Hn Hp Hi Hj. destruct (occ_observe_inv _ _ _ _ _ _ _ E) as (_ & -> & nds & raw & Rc & M & ->).
  destruct (mapM_nth _ _ _ M _ _ Hn) as (q & Hq & Ef). rewrite nth_error_map, Hq in Hp. injection Hp as <-. rewrite map_entry. split.
  - intros Nw. destruct (fill_none _ _ _ _ _ H1 H2 _ _ _ _ Rc Ef (zero_dims c)) as [_ F]. rewrite F, zero_entry by assumption. cbn. f_equal. rewrite Rclip_id; lra.
  - intros vs1 w vs2 Hv Cw Nw. rewrite Hv in Rc. destruct (fill_last _ _ _ _ _ H1 H2 _ _ _ _ _ _ _ _ Rc Ef (zero_dims c) Hi Hj Cw Nw) as (x & y & S0 & Sc & Ey).
    exists x, y, (Rclip y (-1) 1). split; [exact S0|]. split; [exact Sc|]. split; [now apply clip_saturate|]. rewrite Ey. reflexivity.
Qed.
Print Assumptions C47_cells.
(** The ranges are those configured, or twice the maximal speed for the velocities only. *)
Theorem C47_ranges : forall c smax r rd o planes r', occ_observe c smax r (Some rd) o = Ok (planes, r') ->
  (forall rr, r = Some rr -> rr <> [] -> r' = Some rr) /\
  (r = None \/ r = Some [] -> forall name, range_in true r' name =
     if String.eqb name "vx" then Some (-2 * smax, 2 * smax) else if String.eqb name "vy" then Some (-2 * smax, 2 * smax) else None).
Proof.
  intros c smax r rd o planes r' E. destruct (occ_observe_inv _ _ _ _ _ _ _ E) as (_ & -> & _). unfold occ_ranges, ranges_set. split.
  - intros rr -> N. destruct rr; [contradiction | reflexivity].
  - intros [-> | ->] name; reflexivity.
Qed.
Print Assumptions C47_ranges.
(** It never fails in a sane scene. *)
Theorem C47_total : forall c smax rd o, oc_absolute c = false -> 0 < smax -> (forall name, In name (oc_features c) -> known_feature name) ->
  (exists p, bound_for (rd_net rd) o p) -> (forall w, In w (rd_vehicles rd) -> exists p, bound_for (rd_net rd) w p) ->
  exists planes r', occ_observe c smax None (Some rd) o = Ok (planes, r').
Proof.
  intros c smax rd o Ab Hs K Bo Bw. unfold occ_observe. rewrite Ab.
  assert (exists ds, mapM (fun v => to_dict (rd_net rd) v (Some o) true) (rd_vehicles rd) = Ok ds) as [ds D].
  { apply mapM_total. intros w Hw. apply to_dict_total; [now apply Bw|]. intros w' [= <-]. exact Bo. }
  rewrite D. cbn [bind]. set (rr := occ_ranges smax None).
  assert (Nv : forall kx, exists y, normalize_value rr false (fst kx) (snd kx) = Ok y).
  { intros [n x]. unfold normalize_value, rr. cbn [occ_ranges ranges_set assoc fst snd]. repeat match goal with |- context [String.eqb n ?b] => destruct (String.eqb n b) end; unfold lmap; cbn [fst snd];
      rewrite ?(proj2 (Reqb_false (2 * smax - -2 * smax) 0)) by lra; cbn [bind]; eauto. }
  assert (exists nds, mapM (occ_normalize rr) ds = Ok nds) as [nds N].
  { apply mapM_total. intros d _. apply mapM_total. intros kx _. destruct (Nv kx) as [y ->]. cbn. eauto. }
  rewrite N. cbn [bind]. assert (exists raw, mapM (fun name => foldM (occ_place c rr name) nds (zero_plane c)) (oc_features c) = Ok raw) as [raw ->]; [|cbn [bind]; eauto].
  apply mapM_total. intros name Hn. apply foldM_total. intros p nd Hnd. unfold occ_place.
  assert (exists w d, to_dict (rd_net rd) w (Some o) true = Ok d /\ occ_normalize rr d = Ok nd) as (w & d & Dw & Nd).
  { clear - D N Hnd. revert nds N Hnd. revert ds D. generalize (rd_vehicles rd) as vs. intros vs. induction vs as [|v vs IH]; intros ds D nds N Hnd.
    - injection D as <-. cbn in N. injection N as <-. contradiction.
    - cbn in D. apply bind_ok in D as (d & Dd & D). apply bind_ok in D as (ds' & Ds & D). injection D as <-. cbn in N. apply bind_ok in N as (nd' & Nd & N). apply bind_ok in N as (nds' & Ns & N). injection N as <-.
      destruct Hnd as [-> | Hnd]; [eauto | eapply IH; eassumption]. }
  destruct (feature_xy _ _ _ _ Dw) as [Hx Hy]. destruct (coordinate_total _ _ _ _ _ Nd Hx) as [x ->]. destruct (coordinate_total _ _ _ _ _ Nd Hy) as [y ->]. cbn [bind].
  destruct (_ && _ && _ && _); [|eauto]. assert (In name (keys nd)) as Hk by (rewrite (occ_normalize_keys _ _ _ Nd), (to_dict_keys _ _ _ _ _ Dw); apply K, Hn).
  apply assoc_keys in Hk as [f ->]. eauto.
Qed.
Print Assumptions C47_total.

(** A vehicle just outside the grid, less than a step below its lower edge, is shown in
    the first cells: truncation goes toward zero. *)
Theorem C47_vehicle_outside_is_shown : forall c smax r rd o planes r' k p w, 0 < fst (oc_step c) -> 0 < snd (oc_step c) ->
  occ_observe c smax r (Some rd) o = Ok (planes, r') -> r = None ->
  nth_error (oc_features c) k = Some "presence"%string -> nth_error planes k = Some p -> (0 < fst (oc_shape c))%nat -> (0 < snd (oc_shape c))%nat ->
  rd_vehicles rd = [w] ->
  fst (fst (oc_size c)) - fst (oc_step c) < fst (v_pos w) - fst (v_pos o) < fst (fst (oc_size c)) ->
  fst (snd (oc_size c)) - snd (oc_step c) < snd (v_pos w) - snd (v_pos o) < fst (snd (oc_size c)) ->
  entry p 0 0 = Some 1.
Proof.
  intros c smax r rd o planes r' k p w H1 H2 E -> Hk Hp S1 S2 Hv X Y. destruct (C47_cells _ _ _ _ _ _ _ _ _ _ _ _ H1 H2 E Hk Hp S1 S2) as [_ F].
  destruct (F [] w [] Hv) as (x & y & z & Sf & Sc & Sa & ->).
  - split; right; (split; [reflexivity | lra]).
  - intros w' [].
  - f_equal. destruct Sf as (a & Fa & [(Q & _) | [_ ->]]); [unfold is_relative in Q; cbn in Q; intuition discriminate|]. inversion Fa; subst.
    rewrite (proj2 (C47_ranges _ _ _ _ _ _ _ E) (or_introl eq_refl)) in Sc. cbn in Sc. subst y. unfold saturate in Sa. lra.
Qed.
Print Assumptions C47_vehicle_outside_is_shown.

(** When the grid is longer than wide, a vehicle ahead within its length but further than
    its number of columns is not shown at all. *)
Theorem C47_wide_grid_loses_vehicle : forall c smax r rd o planes r' k p w, 0 < fst (oc_step c) -> 0 < snd (oc_step c) ->
  occ_observe c smax r (Some rd) o = Ok (planes, r') ->
  (exists name, nth_error (oc_features c) k = Some name) -> nth_error planes k = Some p -> rd_vehicles rd = [w] ->
  fst (fst (oc_size c)) + INR (snd (oc_shape c)) * fst (oc_step c) <= fst (v_pos w) - fst (v_pos o) -> (0 < snd (oc_shape c))%nat ->
  forall i j x, entry p i j = Some x -> x = 0.
Proof.
  intros c smax r rd o planes r' k p w H1 H2 E [name Hk] Hp Hv X S2 i j x Ex.
  destruct (C47_in_space _ _ _ _ _ _ _ H1 H2 E) as [_ D]. destruct (D p (nth_error_In _ _ Hp)) as [Dp Dr].
  assert (Hi : (i < fst (oc_shape c))%nat /\ (j < snd (oc_shape c))%nat).
  { unfold entry in Ex. destruct (nth_error p i) as [row|] eqn:Q; [|discriminate]. split; [rewrite <- Dp; apply nth_error_Some; congruence|].
    rewrite <- (proj1 (Dr row (nth_error_In _ _ Q))). apply nth_error_Some. congruence. }
  destruct (C47_cells _ _ _ _ _ _ _ _ _ _ _ _ H1 H2 E Hk Hp (proj1 Hi) (proj2 Hi)) as [F _]. rewrite F in Ex; [congruence|]. intros w' Hw'. rewrite Hv in Hw'. destruct Hw' as [<- | []].
  intros [_ [[Hj C] | [-> C]]].
  - assert (INR j + 1 <= INR (snd (oc_shape c))) by (rewrite <- S_INR; apply le_INR; lia). nra.
  - assert (1 <= INR (snd (oc_shape c))) by (apply (le_INR 1); lia). nra.
Qed.
Print Assumptions C47_wide_grid_loses_vehicle.
(** Absolute grids are refused, and without a road the grid is empty. *)
Theorem C47_absolute_refused : forall c smax r rd o, oc_absolute c = true -> occ_observe c smax r (Some rd) o = Err NotImplementedError.
Proof. intros c smax r rd o H. unfold occ_observe. now rewrite H. Qed.
Print Assumptions C47_absolute_refused.

(** A grid of 55 m by 55 m with cells of 5 m; the other vehicle of the scene is 20 m
    ahead and 4 m aside: row 6, column 9. *)
Example C47_nonvacuous : exists c planes r' p, occ_init None None (Some (5, 5)) false = Ok c /\ oc_shape c = (11, 11)%nat /\
  occ_observe c 30 None (Some obs_road) obs_ego = Ok (planes, r') /\ nth_error planes 0 = Some p /\
  entry p 6 9 = Some 1 /\ entry p 5 5 = Some 1 /\ entry p 0 0 = Some 0.
Proof.
  assert (exists c, occ_init None None (Some (5, 5)) false = Ok c /\ oc_shape c = (11, 11)%nat /\ oc_size c = OCC_SIZE /\ oc_features c = OCC_FEATURES /\ oc_step c = (5, 5) /\ oc_absolute c = false) as (c & Ec & Sh & Sz & Fe & Stp & Ab).
  { unfold occ_init. rewrite (proj2 (Reqb_false (fst (5, 5)) 0)), (proj2 (Reqb_false (snd (5, 5)) 0)) by (cbn; lra). cbn [orb fst snd OCC_SIZE].
    rewrite (floor_unique _ 11%Z) by lra. cbn. eexists. repeat (split; [reflexivity|]). reflexivity. }
  destruct (C47_total c 30 obs_road obs_ego Ab ltac:(lra)) as (planes & r' & E).
  { rewrite Fe. intros name H. unfold known_feature. cbn in *. tauto. }
  { now apply obs_bound. }
  { intros w Hw. apply obs_bound. cbn in Hw. destruct Hw as [<- | [<- | []]]; reflexivity. }
  assert (P1 : 0 < fst (oc_step c)) by (rewrite Stp; cbn; lra). assert (P2 : 0 < snd (oc_step c)) by (rewrite Stp; cbn; lra).
  destruct (C47_in_space _ _ _ _ _ _ _ P1 P2 E) as [Lp _]. rewrite Fe in Lp. destruct planes as [|p planes]; [discriminate|].
  exists c, (p :: planes), r', p. split; [exact Ec|]. split; [exact Sh|]. split; [exact E|]. split; [reflexivity|].
  assert (Hn : nth_error (oc_features c) 0 = Some "presence"%string) by now rewrite Fe.
  assert (Cell : forall i j, (i < 11)%nat -> (j < 11)%nat -> ((forall w, In w [obs_ego; obs_other] -> ~ counted OCC_SIZE (5, 5) obs_ego w i j) -> entry p i j = Some 0) /\
    (forall vs1 w vs2, [obs_ego; obs_other] = vs1 ++ w :: vs2 -> counted OCC_SIZE (5, 5) obs_ego w i j -> (forall w', In w' vs2 -> ~ counted OCC_SIZE (5, 5) obs_ego w' i j) -> entry p i j = Some 1)).
  { intros i j Hi Hj. destruct (C47_cells _ _ _ _ _ _ _ 0%nat "presence"%string p i j P1 P2 E Hn eq_refl ltac:(rewrite Sh; exact Hi) ltac:(rewrite Sh; exact Hj)) as [A B]. rewrite Sz, Stp in A, B. split; [exact A|].
    intros vs1 w vs2 Hv Cw Nw. destruct (B vs1 w vs2 Hv Cw Nw) as (x & y & z & Sf & Sc & Sa & ->).
    f_equal. destruct Sf as (a & Fa & [(Q & _) | [_ ->]]); [unfold is_relative in Q; cbn in Q; intuition discriminate|]. inversion Fa; subst.
    rewrite (proj2 (C47_ranges _ _ _ _ _ _ _ E) (or_introl eq_refl)) in Sc. cbn in Sc. subst y. unfold saturate in Sa. lra. }
  split; [|split].
  - apply (proj2 (Cell 6%nat 9%nat ltac:(lia) ltac:(lia)) [obs_ego] obs_other []); [reflexivity| |intros w' []]. split; left; (split; [lia|]); cbn; lra.
  - apply (proj2 (Cell 5%nat 5%nat ltac:(lia) ltac:(lia)) [] obs_ego [obs_other]); [reflexivity| |].
    + split; left; (split; [lia|]); cbn; lra.
    + intros w' [<- | []] [_ [[_ C] | [C _]]]; [cbn in C; lra | discriminate].
  - apply (proj1 (Cell 0%nat 0%nat ltac:(lia) ltac:(lia))). intros w [<- | [<- | []]] [[[F _] | [_ C]] _]; try lia; cbn in C; lra.
Qed.

(** ** C56: the stack of images *)
Lemma lastn_len {A} n (l : list A) : (n <= List.length l)%nat -> List.length (lastn n l) = n.
Proof. intros H. unfold lastn. rewrite skipn_length. lia. Qed.
Lemma gray_step w pixels (state : list image) frame : state <> [] -> List.length frame = pixels ->
  gray_observe w pixels state frame = Ok (tl state ++ [map (to_gray w) frame]).
Proof.
  intros N L. unfold gray_observe. rewrite map_length, L, Nat.eqb_refl. cbn [negb]. destruct state as [|x st]; [contradiction|]. cbn [roll_back tl].
  destruct (st ++ [x]) as [|y l] eqn:Q; [now apply app_eq_nil in Q as [_ Q]|]. rewrite <- Q, removelast_last. reflexivity.
Qed.
Lemma lastn_snoc {A} n (l : list A) x : (n <= List.length l)%nat -> (0 < n)%nat -> lastn n (l ++ [x]) = tl (lastn n l) ++ [x].
Proof.
  intros H H0. unfold lastn. rewrite app_length. cbn [List.length]. replace (List.length l + 1 - n)%nat with (S (List.length l - n)) by lia.
  rewrite skipn_app. replace (S (List.length l - n) - List.length l)%nat with 0%nat by lia. cbn [skipn]. f_equal. generalize (List.length l - n)%nat as m. clear. intros m. revert l.
  induction m as [|m IH]; intros l; destruct l as [|a l]; try reflexivity. exact (IH l).
Qed.
(** After any number of observations the stack holds the [stack] last images of: as many
    empty images, then the images observed, in order; each observation returns it. *)
Theorem C56_last_images_oldest_first : forall w pixels stack frames, (0 < stack)%nat -> (forall f, In f frames -> List.length f = pixels) ->
  foldM (gray_observe w pixels) frames (gray_init pixels stack) =
    Ok (lastn stack (repeat (repeat 0 pixels) stack ++ map (map (to_gray w)) frames)).
Proof.
  intros w pixels stack frames Hs. induction frames as [|f frames IH] using rev_ind; intros H.
  - cbn [foldM map]. rewrite app_nil_r. unfold lastn. rewrite repeat_length, Nat.sub_diag. reflexivity.
  - rewrite foldM_app, IH by (intros g Hg; apply H, in_or_app; now left). cbn [bind foldM].
    assert (L : (stack <= List.length (repeat (repeat 0%R pixels) stack ++ map (map (to_gray w)) frames))%nat) by (rewrite app_length, repeat_length; lia).
    rewrite gray_step; [cbn [bind] | |].
    + f_equal. rewrite map_app, app_assoc. cbn [map]. now rewrite lastn_snoc.
    + intros F. pose proof (lastn_len _ _ L) as Q. rewrite F in Q. cbn in Q. lia.
    + apply H, in_or_app. right. now left.
Qed.
Print Assumptions C56_last_images_oldest_first.
(** In particular: the last image is the one just observed, and once [stack] images have
    been observed no empty one remains. *)
Theorem C56_full_stack : forall w pixels stack frames st, (0 < stack)%nat -> (forall f, In f frames -> List.length f = pixels) ->
  (stack <= List.length frames)%nat -> foldM (gray_observe w pixels) frames (gray_init pixels stack) = Ok st ->
  List.length st = stack /\ forall k f, nth_error frames (List.length frames - stack + k) = Some f -> nth_error st k = Some (map (to_gray w) f).
Proof.
  intros w pixels stack frames st Hs Hf L E. rewrite C56_last_images_oldest_first in E by assumption. injection E as <-.
  split; [apply lastn_len; rewrite app_length, repeat_length; lia|]. intros k f H. unfold lastn. rewrite app_length, repeat_length, map_length.
  replace (stack + List.length frames - stack)%nat with (stack + (List.length frames - stack))%nat by lia.
  assert (Sk : forall {A} (a b : list A) n, skipn (List.length a + n) (a ++ b) = skipn n b) by (intros A a b n; induction a; [reflexivity | assumption]).
  pose proof (Sk _ (repeat (repeat 0 pixels) stack) (map (map (to_gray w)) frames) (List.length frames - stack)%nat) as Q. rewrite repeat_length in Q. rewrite Q.
  assert (Ns : forall {A} (l : list A) n m, nth_error (skipn n l) m = nth_error l (n + m)) by (intros A l n; revert l; induction n; intros l m; [reflexivity | destruct l; [destruct m; reflexivity | apply IHn]]).
  rewrite Ns, nth_error_map, H. reflexivity.
Qed.
Print Assumptions C56_full_stack.
(** A new object (after each reset) starts from empty images, whatever was observed before. *)
Theorem C56_starts_empty : forall pixels stack, List.length (gray_init pixels stack) = stack /\
  forall im, In im (gray_init pixels stack) -> List.length im = pixels /\ forall x, In x im -> x = 0.
Proof.
  intros pixels stack. split; [apply repeat_length|]. intros im H. apply repeat_spec in H as ->. split; [apply repeat_length|]. intros x Hx. now apply repeat_spec in Hx.
Qed.
Print Assumptions C56_starts_empty.
(** Grey levels are not rescaled: with weights summing to 1 they fill [0, 255], although
    the declared space ends at 1. *)
Theorem C56_grey_levels : forall wr wg wb r g b, 0 <= wr -> 0 <= wg -> 0 <= wb -> wr + wg + wb = 1 ->
  (0 <= r <= 255 -> 0 <= g <= 255 -> 0 <= b <= 255 -> 0 <= to_gray (wr, wg, wb) (r, g, b) <= 255) /\
  to_gray (wr, wg, wb) (255, 255, 255) = 255.
Proof. intros wr wg wb r g b A B C E. unfold to_gray. split; [intros; nra | replace (255 * wr + 255 * wg + 255 * wb) with (255 * (wr + wg + wb)) by ring; rewrite E; ring]. Qed.
Print Assumptions C56_grey_levels.
Example C56_nonvacuous : let w := (2989/10000, 5870/10000, 1141/10000) in
  foldM (gray_observe w 1) [[(255, 255, 255)]; [(0, 0, 0)]] (gray_init 1 3) = Ok [[0]; [to_gray w (255, 255, 255)]; [to_gray w (0, 0, 0)]] /\
  to_gray w (255, 255, 255) = 255.
Proof. split; [reflexivity | unfold to_gray; lra]. Qed.

(** ** C77: the goal observation *)
(** The achieved goal is the observation; both are the features of the vehicle, and the
    desired goal those of the landmark, divided by the scales. *)
Theorem C77_goal_observation : forall names scales g v goal go, goal_observe names scales g (Some v) goal = Ok go ->
  go_achieved go = go_observation go /\ List.length (go_observation go) = List.length names /\ List.length (go_desired go) = List.length names /\
  List.length scales = List.length names /\
  forall j name s, nth_error names j = Some name -> nth_error scales j = Some s -> s <> 0 /\
    (exists x, feature g v true name x /\ nth_error (go_observation go) j = Some (x / s)) /\
    (exists x, nth_error (go_desired go) j = Some (x / s) /\
       (name = "presence"%string /\ x = 1 \/ name = "x"%string /\ x = fst (o_pos goal) \/ name = "y"%string /\ x = snd (o_pos goal) \/
        (name = "vx"%string \/ name = "vy"%string \/ name = "cos_d"%string \/ name = "sin_d"%string) /\ x = 0 \/
        name = "cos_h"%string /\ x = cos (o_heading goal) \/ name = "sin_h"%string /\ x = sin (o_heading goal))).
Proof.
  assert (Dv : forall xs ss out, divide_by xs ss = Ok out -> List.length out = List.length xs /\ List.length ss = List.length xs /\
    forall j x s, nth_error xs j = Some x -> nth_error ss j = Some s -> s <> 0 /\ nth_error out j = Some (x / s)).
  { induction xs as [|x xs IH]; intros [|s ss] out E; cbn in E; try discriminate.
    - injection E as <-. split; [reflexivity|]. split; [reflexivity|]. intros j x s H. destruct j; discriminate.
    - destruct (Reqb s 0) eqn:Q; [discriminate|]. apply Reqb_false in Q. apply bind_ok in E as (r & Er & E). injection E as <-. destruct (IH _ _ Er) as (A & B & C). cbn. split; [now rewrite A|]. split; [now rewrite B|].
      intros [|j] x' s' Hx Hs; cbn in *; [injection Hx as ->; injection Hs as ->; auto | eapply C; eassumption]. }
  intros names scales g v goal go E. unfold goal_observe in E. apply bind_ok in E as (d & D & E). apply bind_ok in E as (o & O & E). apply bind_ok in E as (t & T & E). apply bind_ok in E as (so & So & E). apply bind_ok in E as (st & St & E).
  injection E as <-. cbn [go_achieved go_observation go_desired]. destruct (Dv _ _ _ So) as (A1 & B1 & C1). destruct (Dv _ _ _ St) as (A2 & B2 & C2). pose proof (select_len _ _ _ O) as Lo. pose proof (select_len _ _ _ T) as Lt.
  split; [reflexivity|]. split; [congruence|]. split; [congruence|]. split; [congruence|]. intros j name s Hj Hs. destruct (select_nth _ _ _ _ _ O Hj) as (x & Hx & Ax). destruct (select_nth _ _ _ _ _ T Hj) as (y & Hy & Ay).
  destruct (C1 j x s Hx Hs) as [Ns N1]. destruct (C2 j y s Hy Hs) as [_ N2]. split; [exact Ns|]. split; [exists x; split; [now apply (dict_spec _ _ _ _ _ _ D) | exact N1]|]. exists y. split; [exact N2|].
  unfold object_dict in Ay. cbn [assoc] in Ay. repeat match goal with H : (if String.eqb name ?c then _ else _) = _ |- _ => destruct (String.eqb_spec name c); [injection Ay as <-; subst name; tauto|] end. discriminate.
Qed.
Print Assumptions C77_goal_observation.
(** The parking configuration (parking_env.py:33-36): never fails, and what is observed is
    what the reward is computed on. *)
Definition parking_names : list string := ["x"; "y"; "vx"; "vy"; "cos_h"; "sin_h"]%string.
Definition parking_scales : list R := [100; 100; 5; 5; 1; 1].
Theorem C77_parking_reward_is_of_observation : forall g v goal, (exists p, bound_for g v p) -> o_speed goal = 0 ->
  exists go, goal_observe parking_names parking_scales g (Some v) goal = Ok go /\
    go_achieved go = goal_features (v_pos v) (v_heading v) (v_speed v) /\
    go_desired go = goal_features (o_pos goal) (o_heading goal) (o_speed goal) /\
    goal_rewards parking_compute goal [v] = [parking_compute (go_achieved go) (go_desired go)].
Proof.
  intros g v goal B Sp. destruct (dict_total g v true B) as [d D]. unfold goal_observe. rewrite D. cbn [bind]. unfold vehicle_dict in D. apply bind_ok in D as (dd & _ & D). injection D as <-.
  cbn [select mapM parking_names assoc String.eqb Ascii.eqb Bool.eqb bind object_dict]. unfold parking_scales. cbn [divide_by].
  rewrite (proj2 (Reqb_false 100 0)), (proj2 (Reqb_false 5 0)), (proj2 (Reqb_false 1 0)) by lra. cbn [bind].
  assert (Ev : e_velocity (EV v) = (v_speed v * cos (v_heading v), v_speed v * sin (v_heading v))) by reflexivity. try rewrite Ev. cbn [fst snd e_direction e_heading].
  eexists. split; [reflexivity|]. cbn [go_achieved go_desired]. unfold goal_rewards, goal_features. rewrite Sp. cbn [map]. split; [reflexivity|].
  assert (Z : [fst (o_pos goal) / 100; snd (o_pos goal) / 100; 0 / 5; 0 / 5; cos (o_heading goal) / 1; sin (o_heading goal) / 1] =
     [fst (o_pos goal) / 100; snd (o_pos goal) / 100; 0 * cos (o_heading goal) / 5; 0 * sin (o_heading goal) / 5; cos (o_heading goal) / 1; sin (o_heading goal) / 1]).
  { repeat match goal with |- _ :: _ = _ :: _ => apply f_equal2 end; try reflexivity; try lra. }
  split; [exact Z|]. now rewrite Z.
Qed.
Print Assumptions C77_parking_reward_is_of_observation.
(** The heading itself cannot be a goal feature. *)
Theorem C77_heading_feature_fails : forall names scales g v goal, In "heading"%string names -> (exists p, bound_for g v p) ->
  exists e, goal_observe names scales g (Some v) goal = Err e.
Proof.
  intros names scales g v goal H B. destruct (goal_observe names scales g (Some v) goal) as [go|e] eqn:E; [|eauto]. exfalso.
  unfold goal_observe in E. apply bind_ok in E as (d & D & E). apply bind_ok in E as (o & O & E). apply bind_ok in E as (t & T & E). apply In_nth_error in H as [j Hj].
  destruct (select_nth _ _ _ _ _ T Hj) as (y & _ & Ay). discriminate.
Qed.
Print Assumptions C77_heading_feature_fails.
Example C77_nonvacuous : exists go, goal_observe parking_names parking_scales demo_net (Some obs_ego) (Object 9 KLandmark (10, 14) 0 (PI / 2) false) = Ok go /\
  go_achieved go = [100/100; 0/100; 25 * cos 0 / 5; 25 * sin 0 / 5; cos 0 / 1; sin 0 / 1].
Proof.
  destruct (C77_parking_reward_is_of_observation demo_net obs_ego (Object 9 KLandmark (10, 14) 0 (PI / 2) false)) as (go & E & A & _); [now apply obs_bound | reflexivity|].
  exists go. split; [exact E|]. rewrite A. reflexivity.
Qed.
