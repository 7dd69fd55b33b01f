(** C101-C103: what is drawn. *)
From Verif Require Import Prelude M_Utils M_Lane M_Road M_Vehicle M_Graphics S_Graphics P_Base P_Utils P_Lane P_Graphics.
From Coq Require Import Lia Lra Psatz.
Open Scope R_scope.
Open Scope list_scope.

(** ** C101: the window *)
(** Every position is drawn on the pixel it falls on, up to one pixel, rounded towards
    the top left corner of the window. *)
Theorem C101_pixel : forall sf p,
  Rabs (IZR (fst (pos2pix sf p)) - fst (place sf p)) < 1 /\ Rabs (IZR (snd (pos2pix sf p)) - snd (place sf p)) < 1 /\
  Rabs (IZR (fst (pos2pix sf p))) <= Rabs (fst (place sf p)) /\ Rabs (IZR (snd (pos2pix sf p))) <= Rabs (snd (place sf p)).
Proof. intros sf p. unfold pos2pix, place, pix. cbn [fst snd]. split; [apply trunc_err|]. split; [apply trunc_err|]. split; apply trunc_small. Qed.
Print Assumptions C101_pixel.
(** The window follows a position: it is shown at the configured fraction of the window,
    and any other position at the scaled distance from there, unrotated. *)
Theorem C101_follows : forall sf p q, sf_scaling sf <> 0 ->
  place (move_display_window_to sf p) q =
    (fst (sf_center sf) * IZR (sf_width sf) + sf_scaling sf * (fst q - fst p),
     snd (sf_center sf) * IZR (sf_height sf) + sf_scaling sf * (snd q - snd p)).
Proof. intros sf p q N. unfold place, move_display_window_to, vsub. cbn [fst snd sf_origin sf_scaling]. apply f_equal2; field; exact N. Qed.
Print Assumptions C101_follows.
(** Visible means less than 50 pixels outside of the window: rounding makes no difference. *)
Theorem C101_visible : forall sf p, (0 <= sf_width sf)%Z -> (0 <= sf_height sf)%Z ->
  (is_visible sf p 50 = true <->
   - 50 < fst (place sf p) < IZR (sf_width sf) + 50 /\ - 50 < snd (place sf p) < IZR (sf_height sf) + 50).
Proof.
  intros sf p W H. unfold is_visible, pos2pix, place, pix. cbn [fst snd]. rewrite !andb_true_iff, !Z.ltb_lt.
  rewrite !trunc_gt, !trunc_lt by lia. rewrite !plus_IZR. tauto.
Qed.
Print Assumptions C101_visible.
(** Up to 18 pixels per metre, a vehicle of which any part is in the window is drawn. *)
Theorem C101_vehicles_drawn : forall own sf v q, 0 < sf_scaling sf <= 18 -> (0 <= sf_width sf)%Z -> (0 <= sf_height sf)%Z ->
  covers v q -> in_window sf q -> draw_vehicle own sf v <> [].
Proof.
  intros own sf v q S W H (a & b & Ha & Hb & ->) [Wx Wy]. unfold draw_vehicle, draw_body.
  assert (V : is_visible sf (v_pos v) VISIBLE_MARGIN = true).
  { apply C101_visible; [exact W | exact H|]. unfold place, ahead in *. cbn [fst snd] in *. set (c := cos (v_heading v)) in *. set (s := sin (v_heading v)) in *.
    assert (U : c * c + s * s = 1) by (unfold c, s; pose proof (sin2_cos2 (v_heading v)) as X; unfold Rsqr in X; lra).
    set (x := a * c - b * s) in *. set (y := a * s + b * c) in *.
    assert (N : x * x + y * y <= 29/4). { replace (x * x + y * y) with ((a * a + b * b) * (c * c + s * s)) by (unfold x, y; ring). rewrite U. nra. }
    assert (X : -27/10 < x < 27/10) by nra. assert (Y : -27/10 < y < 27/10) by nra. clearbody x y.
    set (z := sf_scaling sf) in *. set (px := fst (v_pos v) - fst (sf_origin sf)). set (py := snd (v_pos v) - snd (sf_origin sf)).
    replace ((fst (v_pos v) + x - fst (sf_origin sf)) * z) with (px * z + x * z) in Wx by (unfold px; ring).
    replace ((snd (v_pos v) + y - snd (sf_origin sf)) * z) with (py * z + y * z) in Wy by (unfold py; ring).
    assert (-486/10 < x * z < 486/10) by (split; nra). assert (-486/10 < y * z < 486/10) by (split; nra). lra. }
  rewrite V. cbn [negb]. discriminate.
Qed.
Print Assumptions C101_vehicles_drawn.
(** When zoomed in further (five presses of O from the default) they disappear too early:
    the front of this vehicle is in the window, but it is not drawn. *)
Theorem C101_vehicles_vanish : forall own sf v, (1 <= sf_width sf)%Z -> (0 <= sf_height sf)%Z -> sf_scaling sf = 55/10 * (13/10) ^ 5 ->
  v_pos v = (fst (sf_origin sf) - 249/100, snd (sf_origin sf)) -> v_heading v = 0 ->
  (exists q, covers v q /\ in_window sf q) /\ draw_vehicle own sf v = [].
Proof.
  intros own sf v W H S P Hd. assert (Sz : 204/10 < sf_scaling sf < 205/10) by (rewrite S; cbn [pow]; lra). apply IZR_le in W. pose proof (IZR_le _ _ H) as H'. split.
  - exists (fst (sf_origin sf) + 1/100, snd (sf_origin sf)). split.
    + exists (5/2), 0. split; [lra|]. split; [lra|]. unfold ahead. rewrite P, Hd, cos_0, sin_0. cbn [fst snd]. apply f_equal2; lra.
    + unfold in_window, place. cbn [fst snd]. split; [|lra].
      replace ((fst (sf_origin sf) + 1/100 - fst (sf_origin sf)) * sf_scaling sf) with (sf_scaling sf / 100) by field. lra.
  - unfold draw_vehicle, draw_body. destruct (is_visible sf (v_pos v) VISIBLE_MARGIN) eqn:V; [|reflexivity]. exfalso.
    apply C101_visible in V; [|apply le_IZR; lra | exact H]. destruct V as [[V _] _]. unfold place in V. rewrite P in V. cbn [fst snd] in V.
    replace ((fst (sf_origin sf) - 249/100 - fst (sf_origin sf)) * sf_scaling sf) with (- (249/100 * sf_scaling sf)) in V by ring. lra.
Qed.
Print Assumptions C101_vehicles_vanish.
(** The keys O and L zoom in and out by 30%, K and M move the followed vehicle by a tenth
    of the width of the window; nothing else changes the view. *)
Theorem C101_keys : forall es sf, let sf' := fold_left surface_event es sf in
  sf_scaling sf' = sf_scaling sf * powerRZ (13/10) (presses K_o es - presses K_l es) /\
  sf_center sf' = (fst (sf_center sf) + IZR (presses K_k es - presses K_m es) / 10, snd (sf_center sf)) /\
  sf_origin sf' = sf_origin sf /\ sf_width sf' = sf_width sf /\ sf_height sf' = sf_height sf.
Proof.
  induction es as [|e es IH] using rev_ind; intros sf; cbv zeta.
  - cbn. rewrite Rmult_1_r. rewrite (surjective_pairing (sf_center sf)) at 1. split; [reflexivity|]. split; [apply f_equal2; [field | reflexivity]|]. auto.
  - rewrite fold_left_app. cbn [fold_left]. specialize (IH sf). cbv zeta in IH. set (x := fold_left surface_event es sf) in *. clearbody x. destruct IH as (I1 & I2 & I3 & I4 & I5).
    assert (P : forall k, presses k (es ++ [e]) = (presses k es + (if is_press k e then 1 else 0))%Z).
    { intros k. unfold presses. rewrite filter_app, app_length, Nat2Z.inj_add. cbn [filter]. now destruct (is_press k e). }
    rewrite !P. assert (N : 13/10 <> 0) by lra. unfold surface_event, set_view, SCALING_FACTOR, MOVING_FACTOR.
    destruct e as [[]| | |]; cbn [sf_scaling sf_center sf_origin sf_width sf_height is_press]; rewrite ?Z.add_0_r; rewrite ?I2; cbn [fst snd];
      (split; [|split; [|auto]]); try exact I1; try exact I2; try reflexivity.
    + rewrite I1. replace (presses K_o es + 1 - presses K_l es)%Z with (presses K_o es - presses K_l es + 1)%Z by ring. rewrite powerRZ_add by exact N. change (powerRZ (13/10) 1) with (13/10 * 1). ring.
    + rewrite I1. replace (presses K_o es - (presses K_l es + 1))%Z with (presses K_o es - presses K_l es + -1)%Z by ring. rewrite powerRZ_add by exact N. change (powerRZ (13/10) (-1)) with (/ (13/10 * 1)). field.
    + apply f_equal2; [|reflexivity]. rewrite !minus_IZR, plus_IZR. field.
    + apply f_equal2; [|reflexivity]. rewrite !minus_IZR, plus_IZR. field.
Qed.
Print Assumptions C101_keys.
Example C101_nonvacuous : let sf := move_display_window_to (Surface 600 150 (0, 0) (55/10) (3/10, 5/10)) (100, 4) in
  place sf (100, 4) = (180, 75) /\ is_visible sf (100, 4) 50 = true /\ place sf (110, 8) = (235, 97).
Proof.
  cbv zeta. rewrite !C101_follows by (cbn; lra). cbn [sf_center sf_width sf_height sf_scaling fst snd]. split; [apply f_equal2; field|]. split; [|apply f_equal2; field].
  apply C101_visible; try (cbn; lia). rewrite C101_follows by (cbn; lra). cbn [sf_center sf_width sf_height sf_scaling fst snd move_display_window_to]. lra.
Qed.

(** ** C102: the markings of the road *)
(** Every piece of marking drawn lies on the edge of the lane, within the lane, and is at
    least 1.5 m long; stripes are the 3 m (full curves: the 5 m) following the multiples
    of 5 m, wherever the window is. *)
Theorem C102_pieces : forall sf l side a b d, 0 < sf_scaling sf -> (0 <= sf_width sf)%Z -> (0 <= sf_height sf)%Z -> side = 0%nat \/ side = 1%nat ->
  In (a, b, d) (markings sf l side) ->
  d = (if Nat.eqb side 0 then - (l_width l / 2) else l_width l / 2) /\ 0 <= a /\ b <= l_length l /\ b - a > 3/2 /\
  match side_type l side with
  | LNone => False
  | LStriped => exists k, a = Rmax (5 * IZR k) 0 /\ b = Rmin (5 * IZR k + 3) (l_length l)
  | LContinuous => exists k, a = Rmax (5 * IZR k) 0 /\ b = Rmin (5 * IZR k + 5) (l_length l)
  | LContinuousLine => True
  end.
Proof.
  intros sf l side a b d S W H Hs Hin. destruct (count_bounds sf S W H) as [C0 _]. destruct (window_bounds sf l S W H) as (_ & _ & q & Q).
  unfold markings in Hin. rewrite Q in Hin. apply in_clipped in Hin as (a0 & b0 & Hin & -> & -> & G); [|apply stripes_ordered; exact C0].
  change (if Nat.eqb side 0 then - (l_width l / 2) else l_width l / 2) with (edge l side).
  assert (D : d = edge l side).
  { destruct (side_type l side); cbn [stripes In] in Hin; [easy | | |].
    - apply in_map_iff in Hin as (k & E & _). injection E as _ _ <-. now apply side_edge.
    - apply in_map_iff in Hin as (k & E & _). injection E as _ _ <-. now apply side_edge.
    - destruct Hin as [E|[]]. injection E as _ _ <-. now apply side_edge. }
  split; [exact D|]. split; [apply Rmax_r|]. split; [apply Rmin_r|]. split; [exact G|].
  destruct (side_type l side); cbn [stripes In] in Hin; [easy | | | exact I].
  - apply in_map_iff in Hin as (k & E & _). injection E as <- <- _. unfold STRIPE_SPACING, STRIPE_LENGTH. exists (q + k)%Z.
    replace (5 * IZR (q + k)) with (IZR (5 * q) + IZR k * 5) by (rewrite plus_IZR, mult_IZR; ring). auto.
  - apply in_map_iff in Hin as (k & E & _). injection E as <- <- _. unfold STRIPE_SPACING. exists (q + k)%Z.
    replace (5 * IZR (q + k)) with (IZR (5 * q) + IZR k * 5) by (rewrite plus_IZR, mult_IZR; ring). auto.
Qed.
Print Assumptions C102_pieces.

(** Nothing visible is left out on straight and sine lanes, as long as the half perimeter
    of the window exceeds its diagonal by 8.5 m: the marking at any longitudinal [s]
    shown in the window is drawn (striped: if [s] is on a stripe; pieces of 1.5 m or less at
    the ends of the lane are dropped). *)
Theorem C102_visible : forall sf l side s st en, 0 < sf_scaling sf -> (0 <= sf_width sf)%Z -> (0 <= sf_height sf)%Z -> side = 0%nat \/ side = 1%nat ->
  l_geom l = GStraight st en \/ (exists am pu ph, l_geom l = GSine st en am pu ph) -> st <> en ->
  vnorm (IZR (sf_width sf), IZR (sf_height sf)) + 17/2 * sf_scaling sf <= IZR (sf_width sf + sf_height sf) ->
  let d := if Nat.eqb side 0 then - (l_width l / 2) else l_width l / 2 in
  0 <= s <= l_length l -> in_window sf (l_position l s d) ->
  match side_type l side with
  | LNone => True
  | LStriped => forall k, 5 * IZR k <= s <= 5 * IZR k + 3 -> 3/2 < Rmin (5 * IZR k + 3) (l_length l) - Rmax (5 * IZR k) 0 ->
      In (Rmax (5 * IZR k) 0, Rmin (5 * IZR k + 3) (l_length l), d) (markings sf l side)
  | LContinuous => forall k, 5 * IZR k <= s <= 5 * IZR k + 5 -> 3/2 < Rmin (5 * IZR k + 5) (l_length l) - Rmax (5 * IZR k) 0 ->
      In (Rmax (5 * IZR k) 0, Rmin (5 * IZR k + 5) (l_length l), d) (markings sf l side)
  | LContinuousLine => 3/2 < l_length l -> exists a b, In (a, b, d) (markings sf l side) /\ a <= s <= b
  end.
Proof.
  intros sf l side s st en S W H Hs Gm N Wd d Hl Win. change d with (edge l side). apply piece_drawn; try assumption.
  assert (E1 : forall p, fst (l_local l p) = fst (straight_local st en p)).
  { intros p. unfold l_local. destruct Gm as [-> | (am & pu & ph & ->)]; reflexivity. }
  assert (E2 : fst (straight_local st en (l_position l s d)) = s).
  { unfold l_position. destruct Gm as [-> | (am & pu & ph & ->)]; cbn [geom_position]; rewrite straight_local_pos by exact N; reflexivity. }
  rewrite E1. rewrite <- E2 at 1. eapply Rle_trans; [apply local_lipschitz; exact N|].
  set (p := l_position l s d) in *. destruct Win as [Wx Wy]. unfold place in Wx, Wy. cbn [fst snd] in Wx, Wy. unfold vsub, vnorm in *. cbn [fst snd] in *.
  set (x := fst p - fst (sf_origin sf)) in *. set (y := snd p - snd (sf_origin sf)) in *. set (z := sf_scaling sf) in *.
  apply Rmult_le_reg_r with z; [exact S|]. replace ((IZR (sf_width sf + sf_height sf) / z - 17/2) * z) with (IZR (sf_width sf + sf_height sf) - 17/2 * z) by (field; lra).
  apply Rle_trans with (sqrt (IZR (sf_width sf) * IZR (sf_width sf) + IZR (sf_height sf) * IZR (sf_height sf))); [|lra].
  rewrite <- (sqrt_Rsqr z) by lra. rewrite <- sqrt_mult_alt by nra. apply sqrt_le_1_alt. unfold Rsqr.
  replace ((x * x + y * y) * (z * z)) with ((x * z) * (x * z) + (y * z) * (y * z)) by ring.
  apply Rplus_le_compat; apply Rmult_le_compat; lra.
Qed.
Print Assumptions C102_visible.
(** Arcs are drawn entirely when the half perimeter of the window, in metres, exceeds
    their length plus half a turn by 8.5 m. *)
Theorem C102_arcs : forall sf l side s c r sp ep cw, 0 < sf_scaling sf -> (0 <= sf_width sf)%Z -> (0 <= sf_height sf)%Z -> side = 0%nat \/ side = 1%nat ->
  l_geom l = GCircular c r sp ep cw -> 0 < r ->
  l_length l + PI * r + 17/2 <= IZR (sf_width sf + sf_height sf) / sf_scaling sf ->
  let d := if Nat.eqb side 0 then - (l_width l / 2) else l_width l / 2 in
  0 <= s <= l_length l ->
  match side_type l side with
  | LNone => True
  | LStriped => forall k, 5 * IZR k <= s <= 5 * IZR k + 3 -> 3/2 < Rmin (5 * IZR k + 3) (l_length l) - Rmax (5 * IZR k) 0 ->
      In (Rmax (5 * IZR k) 0, Rmin (5 * IZR k + 3) (l_length l), d) (markings sf l side)
  | LContinuous => forall k, 5 * IZR k <= s <= 5 * IZR k + 5 -> 3/2 < Rmin (5 * IZR k + 5) (l_length l) - Rmax (5 * IZR k) 0 ->
      In (Rmax (5 * IZR k) 0, Rmin (5 * IZR k + 5) (l_length l), d) (markings sf l side)
  | LContinuousLine => 3/2 < l_length l -> exists a b, In (a, b, d) (markings sf l side) /\ a <= s <= b
  end.
Proof.
  intros sf l side s c r sp ep cw S W H Hs Gm Hr Wd d Hl. change d with (edge l side). apply piece_drawn; try assumption.
  unfold l_local at 1. rewrite Gm. cbn [geom_local]. cbv zeta. cbn [fst].
  match goal with |- context [wrap_to_pi ?e] => set (x := e) end. pose proof (wrap_bounds x) as B. replace (sp + wrap_to_pi x - sp) with (wrap_to_pi x) by ring.
  set (w := wrap_to_pi x) in *. assert (- (PI * r) <= circ_dir cw * w * r <= PI * r) by (unfold circ_dir; destruct cw; split; nra).
  apply Rabs_le. split; lra.
Qed.
Print Assumptions C102_arcs.
(** The whole road is drawn: the pieces of both sides of every lane of the network, and
    nothing else, each at least one pixel wide. *)
Theorem C102_road : forall sf g o, In o (draw_road sf g) <->
  exists f ts t ls l side a b d, In (f, ts) g /\ In (t, ls) ts /\ In l ls /\ (side = 0 \/ side = 1)%nat /\ In (a, b, d) (markings sf l side) /\
    o = DrawLine (pos2pix sf (l_position l a d)) (pos2pix sf (l_position l b d)) (Z.max (pix sf (3/10)) 1).
Proof.
  intros sf g o. unfold draw_road. split.
  - intros Hin. apply in_flat_map in Hin as ([f ts] & Hg & Hin). apply in_flat_map in Hin as ([t ls] & Ht & Hin). apply in_flat_map in Hin as (l & Hl & Hin). cbn [snd] in *.
    unfold draw_lane in Hin. apply in_app_or in Hin as [Hin|Hin]; apply in_map_iff in Hin as (((a, b), d) & <- & Hin);
      [exists f, ts, t, ls, l, 0%nat, a, b, d | exists f, ts, t, ls, l, 1%nat, a, b, d]; auto 10.
  - intros (f & ts & t & ls & l & side & a & b & d & Hg & Ht & Hl & Hs & Hin & ->). apply in_flat_map. exists (f, ts). split; [exact Hg|].
    apply in_flat_map. exists (t, ls). split; [exact Ht|]. apply in_flat_map. exists l. split; [exact Hl|]. unfold draw_lane. apply in_or_app.
    destruct Hs as [-> | ->]; [left | right]; apply in_map_iff; exists (a, b, d); auto.
Qed.
Print Assumptions C102_road.
(** The default windows (600 x 150 pixels, 600 x 300, 600 x 600) are wide enough. *)
Example C102_nonvacuous : forall sf, (sf_width sf = 600)%Z -> (sf_height sf = 150 \/ sf_height sf = 300 \/ sf_height sf = 600)%Z -> 0 < sf_scaling sf <= 10 ->
  vnorm (IZR (sf_width sf), IZR (sf_height sf)) + 17/2 * sf_scaling sf <= IZR (sf_width sf + sf_height sf).
Proof.
  intros sf -> Hh Hs. unfold vnorm. cbn [fst snd]. rewrite plus_IZR.
  assert (B : forall x y, 0 <= y -> x <= y * y -> sqrt x <= y) by (intros x y Hy Hx; rewrite <- (sqrt_Rsqr y Hy); apply sqrt_le_1_alt; exact Hx).
  destruct Hh as [-> | [-> | ->]].
  - pose proof (B (600 * 600 + 150 * 150) 620 ltac:(lra) ltac:(lra)). lra.
  - pose proof (B (600 * 600 + 300 * 300) 672 ltac:(lra) ltac:(lra)). lra.
  - pose proof (B (600 * 600 + 600 * 600) 849 ltac:(lra) ltac:(lra)). lra.
Qed.
Example C102_stripe : forall o, -8 < o < 100 ->
  In (Rmax (5 * IZR 20) 0, Rmin (5 * IZR 20 + 3) 1000, -2) (markings (Surface 600 150 (o, - (10)) (55/10) (3/10, 5/10))
     (Lane (GStraight (0, 0) (1000, 0)) 4 (LStriped, LContinuousLine) false 30 0) 0).
Proof.
  intros o Ho.
  set (sf := Surface _ _ _ _ _). set (l := Lane _ _ _ _ _ _).
  assert (L : l_length l = 1000). { unfold l_length, l. cbn [l_geom geom_length]. unfold vnorm, vsub. cbn [fst snd]. replace ((1000 - 0) * (1000 - 0) + (0 - 0) * (0 - 0)) with (1000 * 1000) by ring. apply sqrt_sq. lra. }
  assert (P : l_position l 101 (- (l_width l / 2)) = (101, -2)).
  { unfold l_position, l. cbn [l_geom l_width geom_position]. unfold straight_position, straight_lat, straight_dir.
    assert (Nn : vnorm (vsub (1000, 0) (0, 0)) = 1000) by exact L. rewrite Nn. unfold vadd, vscal, vsub. cbn [fst snd]. apply f_equal2; field. }
  pose proof (C102_visible sf l 0 101 (0, 0) (1000, 0)) as V. cbv zeta in V. cbn [Nat.eqb] in V. change (side_type l 0) with LStriped in V. rewrite L, P in V.
  assert (Dl : - (l_width l / 2) = -2) by (unfold l; cbn [l_width]; lra). rewrite Dl in V. apply V.
  - unfold sf. cbn [sf_scaling]. lra.
  - cbn. lia.
  - cbn. lia.
  - now left.
  - now left.
  - intros E. injection E. lra.
  - apply C102_nonvacuous; [reflexivity | left; reflexivity | unfold sf; cbn [sf_scaling]; lra].
  - lra.
  - unfold in_window, place, sf. cbn [fst snd sf_origin sf_scaling sf_width sf_height]. lra.
  - lra.
  - rewrite Rmin_left, Rmax_left by lra. lra.
Qed.

(** ** C103: vehicles and objects *)
(** A rotated image is centred on the requested position, at any angle, and its points
    are turned around it (clockwise by the heading, for the angle used by the viewer). *)
Theorem C103_centred : forall w h pos angle, vadd (blit_origin w h pos angle) (vscal (1/2) (blit_size w h angle)) = pos.
Proof. exact blit_centre. Qed.
Print Assumptions C103_centred.
Theorem C103_turned : forall w h pos heading u v, blit_point w h pos (deg (- heading)) u v = ahead pos heading (u - w / 2) (v - h / 2).
Proof. exact blit_place. Qed.
Print Assumptions C103_turned.

(** What is drawn for a vehicle: nothing if it is not visible; otherwise one box, whose
    colour is the vehicle's own, else red if crashed, else tells its class; each corner of
    the box lies within 4 pixels (horizontally and vertically) of the true place of that
    corner of the vehicle, except that headings of at most 2 degrees are drawn as 0. *)
Theorem C103_vehicle : forall own sf v, 0 < sf_scaling sf -> v_heading v = 0 \/ 2 * PI / 180 < Rabs (v_heading v) ->
  is_visible sf (v_pos v) 50 = true ->
  exists size x y w h angle, draw_vehicle own sf v =
    [DrawBox (match own (v_id v) with Some c => c | None => if v_crashed v then Red else match v_kind v with KIDM => Blue | KMDP => Green | _ => Yellow end end)
       false (size, size) (x, y, w, h) (pos2pix sf (v_pos v)) angle] /\
  let corner a b := blit_point (IZR size) (IZR size) (IZR (fst (pos2pix sf (v_pos v))), IZR (snd (pos2pix sf (v_pos v)))) angle
                      (if a : bool then x + w else x) (if b : bool then y + h else y) in
  forall a b, let true_corner := place sf (ahead (v_pos v) (v_heading v) (if a : bool then 5/2 else -5/2) (if b : bool then 1 else -1)) in
    Rabs (fst (corner a b) - fst true_corner) < 4 /\ Rabs (snd (corner a b) - snd true_corner) < 4.
Proof.
  intros own sf v S Hh V. unfold draw_vehicle, draw_body. change VISIBLE_MARGIN with 50%Z. rewrite V. cbn [negb].
  assert (Dh : drawn_heading (v_heading v) = v_heading v).
  { unfold drawn_heading. destruct Hh as [-> | Hh]; [now destruct (Rltb _ _) | now rewrite Rltb_lt]. }
  rewrite Dh. eexists _, _, _, _, _, _. split; [unfold vehicle_color; destruct (own (v_id v)), (v_kind v); reflexivity|].
  cbv zeta. intros a b. rewrite blit_place. unfold place, pos2pix, pix, ahead, V_LENGTH, V_WIDTH, TIRE_LENGTH. cbn [fst snd].
  set (z := sf_scaling sf) in *. set (c := cos (v_heading v)). set (s := sin (v_heading v)).
  assert (U : c * c + s * s = 1) by (unfold c, s; pose proof (sin2_cos2 (v_heading v)) as X; unfold Rsqr in X; lra).
  set (X := fst (v_pos v) - fst (sf_origin sf)). set (Y := snd (v_pos v) - snd (sf_origin sf)).
  pose proof (trunc_err (X * z)) as TX. pose proof (trunc_err (Y * z)) as TY. apply Rabs_def2 in TX. apply Rabs_def2 in TY.
  destruct (trunc_nonneg (1 * z)) as [T1 _]; [lra|]. destruct (trunc_nonneg (5 * z)) as [T5 _]; [lra|]. destruct (trunc_nonneg (2 * z)) as [T2 _]; [lra|].
  destruct (trunc_nonneg ((5 + 2 * 1) * z)) as [T7 _]; [lra|]. destruct (trunc_nonneg (((5 + 2 * 1) / 2 - 2 / 2) * z)) as [T25 _]; [lra|].
  set (t1 := IZR (Rtrunc (1 * z))) in *. set (t5 := IZR (Rtrunc (5 * z))) in *. set (t2 := IZR (Rtrunc (2 * z))) in *. set (t7 := IZR (Rtrunc ((5 + 2 * 1) * z))) in *. set (t25 := IZR (Rtrunc (((5 + 2 * 1) / 2 - 2 / 2) * z))) in *.
  set (tx := IZR (Rtrunc (X * z))) in *. set (ty := IZR (Rtrunc (Y * z))) in *.
  set (A := if a then 5/2 else -5/2). set (B := if b then 1 else -1).
  set (p := (if a then t1 + t5 else t1) - t7 / 2). set (q := (if b then t25 + t2 else t25) - t7 / 2).
  assert (Ep : -2 < p - A * z < 2) by (unfold p, A; destruct a; lra). assert (Eq : -2 < q - B * z < 2) by (unfold q, B; destruct b; lra).
  replace ((fst (v_pos v) + (A * c - B * s) - fst (sf_origin sf)) * z) with (X * z + (A * z * c - B * z * s)) by (unfold X; ring).
  replace ((snd (v_pos v) + (A * s + B * c) - snd (sf_origin sf)) * z) with (Y * z + (A * z * s + B * z * c)) by (unfold Y; ring).
  set (dp := p - A * z) in *. set (dq := q - B * z) in *. clearbody A B.
  replace p with (A * z + dp) by (unfold dp; ring). replace q with (B * z + dq) by (unfold dq; ring). clearbody dp dq t1 t5 t2 t7 t25 tx ty X Y c s. clear p q.
  assert (N : dp * dp + dq * dq < 8) by nra.
  assert (F1 : -3 < dp * c - dq * s < 3).
  { pose proof (Rle_0_sqr (dp * s + dq * c)) as Z0. unfold Rsqr in Z0. assert ((dp * c - dq * s) * (dp * c - dq * s) < 9).
    { replace ((dp * c - dq * s) * (dp * c - dq * s)) with ((dp * dp + dq * dq) * (c * c + s * s) - (dp * s + dq * c) * (dp * s + dq * c)) by ring. rewrite U. lra. }
    split; nra. }
  assert (F2 : -3 < dp * s + dq * c < 3).
  { pose proof (Rle_0_sqr (dp * c - dq * s)) as Z0. unfold Rsqr in Z0. assert ((dp * s + dq * c) * (dp * s + dq * c) < 9).
    { replace ((dp * s + dq * c) * (dp * s + dq * c)) with ((dp * dp + dq * dq) * (c * c + s * s) - (dp * c - dq * s) * (dp * c - dq * s)) by ring. rewrite U. lra. }
    split; nra. }
  split; apply Rabs_def1; lra.
Qed.
Print Assumptions C103_vehicle.
(** Objects are drawn wherever they are; obstacles turn from yellow to red, landmarks from
    blue to green when hit. *)
Theorem C103_objects : forall sf rd o, In o (rd_objects rd) ->
  exists image rect angle, In (DrawBox (match o_kind o with KObstacle => if o_hit o then Red else Yellow | KLandmark => if o_hit o then Green else Blue end)
    false image rect (pos2pix sf (o_pos o)) angle) (draw_objects sf rd).
Proof.
  intros sf rd o H. unfold draw_objects. eexists _, _, _. apply in_map_iff. exists o. split; [|exact H]. unfold draw_object, object_color. now destruct (o_kind o), (o_hit o).
Qed.
Print Assumptions C103_objects.
(** The scene can always be drawn, except with trajectories shown at less than 3 frames
    per second. *)
Theorem C103_scene_total : forall own sf rd sim, rd_record rd = false \/ 3 <= sim -> exists o, draw_scene own sf rd sim = Ok o.
Proof.
  intros own sf rd sim H. unfold draw_scene, draw_traffic.
  assert (T : exists t, (if rd_record rd then mapM (draw_history sf sim) (rd_vehicles rd) else Ok []) = Ok t).
  { destruct (rd_record rd); [|eauto]. destruct H as [H|H]; [discriminate|]. assert (A : forall v, exists o, draw_history sf sim v = Ok o).
    { intros v. unfold draw_history, islice. destruct (trunc_nonneg (sim / 3) ltac:(lra)) as [B N]. destruct (trunc_nonneg (sim * 2) ltac:(lra)) as [_ N2].
      assert (1 <= Rtrunc (sim / 3))%Z. { assert (IZR 0 < IZR (Rtrunc (sim / 3))) as X by lra. apply lt_IZR in X. lia. }
      destruct (Z.ltb_spec (Rtrunc (sim / 3)) 1); [lia|]. destruct (Z.ltb_spec (Rtrunc (sim * 2)) 0); [lia|]. cbn [bind]. eauto. }
    induction (rd_vehicles rd) as [|v vs [t IH]]; [exists []; reflexivity|]. destruct (A v) as [o E]. exists (o :: t). cbn [mapM]. rewrite E. cbn [bind]. rewrite IH. reflexivity. }
  destruct T as [t ->]. cbn [bind]. eauto.
Qed.
Print Assumptions C103_scene_total.
Theorem C103_slow_trajectories_fail : forall own sf rd sim, rd_record rd = true -> rd_vehicles rd <> [] -> 0 <= sim < 3 -> draw_scene own sf rd sim = Err ValueError.
Proof.
  intros own sf rd sim R V S. unfold draw_scene, draw_traffic. rewrite R. destruct (rd_vehicles rd) as [|v vs]; [easy|]. cbn [mapM]. unfold draw_history at 1, islice.
  assert (E : Rtrunc (sim / 3) = 0%Z). { unfold Rtrunc. rewrite Rleb_le by lra. apply Rfloor_unique. lra. } rewrite E. reflexivity.
Qed.
Print Assumptions C103_slow_trajectories_fail.
(** The scene is the road, then the objects, then the trails, then the vehicles in the
    order of the road: later ones cover earlier ones. *)
Theorem C103_scene : forall own sf rd sim o, draw_scene own sf rd sim = Ok o ->
  exists trails, o = draw_road sf (rd_net rd) ++ draw_objects sf rd ++ trails ++ flat_map (draw_vehicle own sf) (rd_vehicles rd) /\
    (rd_record rd = false -> trails = []) /\
    forall x, In x trails -> exists v s, In v (rd_vehicles rd) /\ In s (v_history v) /\ In x (draw_body sf (vehicle_color None (v_kind v) false) true (sn_pos s) (sn_heading s)).
Proof.
  intros own sf rd sim o E. unfold draw_scene in E. apply bind_ok in E as (t & E & E2). injection E2 as <-. unfold draw_traffic in E. apply bind_ok in E as (tr & E & E2). injection E2 as <-.
  exists (List.concat tr). split; [reflexivity|]. destruct (rd_record rd).
  - split; [discriminate|]. intros x Hx. apply in_concat in Hx as (y & Hy & Hx). revert tr E y Hy Hx. induction (rd_vehicles rd) as [|v vs IH]; intros tr E y Hy Hx.
    + injection E as <-. destruct Hy.
    + cbn [mapM] in E. apply bind_ok in E as (o1 & E1 & E). apply bind_ok in E as (os & E2 & E). injection E as <-. destruct Hy as [<- |Hy].
      * unfold draw_history in E1. apply bind_ok in E1 as (l & El & E1). injection E1 as <-. apply in_flat_map in Hx as (s & Hs & Hx). exists v, s. split; [now left|]. split; [|exact Hx].
        unfold islice in El. destruct (_ <? 1)%Z eqn:Z1; [discriminate|]. destruct (_ <? 0)%Z; [discriminate|]. injection El as <-. apply Z.ltb_ge in Z1.
        apply In_nth_error in Hs as [j Hj]. rewrite every_nth in Hj by lia. destruct (_ <? _)%nat in Hj; [|discriminate]. eapply nth_error_In, Hj.
      * destruct (IH os E2 y Hy Hx) as (v' & s & Hv & R). exists v', s. split; [now right | exact R].
  - injection E as <-. split; [reflexivity|]. intros x [].
Qed.
Print Assumptions C103_scene.
(** Trails at [sim] frames per second: the snapshots of every third of a second (in whole
    frames) of the last two seconds. *)
Theorem C103_trail : forall (h : list snapshot) sim, 3 <= sim -> exists l, islice h (Rtrunc (sim * 2)) (Rtrunc (sim / 3)) = Ok l /\
  forall j, nth_error l j = (if (Z.of_nat j * Rfloor (sim / 3) <? Rfloor (2 * sim))%Z then nth_error h (j * Z.to_nat (Rfloor (sim / 3))) else None).
Proof.
  intros h sim H. unfold islice. assert (E1 : Rtrunc (sim / 3) = Rfloor (sim / 3)) by (unfold Rtrunc; now rewrite Rleb_le by lra).
  assert (E2 : Rtrunc (sim * 2) = Rfloor (2 * sim)) by (unfold Rtrunc; rewrite Rleb_le by lra; f_equal; ring). rewrite E1, E2.
  assert (B1 : (1 <= Rfloor (sim / 3))%Z). { pose proof (Rfloor_bounds (sim / 3)) as B. assert (IZR 0 < IZR (Rfloor (sim / 3))) as X by lra. apply lt_IZR in X. lia. }
  pose proof (Rfloor_nonneg (2 * sim) ltac:(lra)) as B2.
  destruct (Z.ltb_spec (Rfloor (sim / 3)) 1); [lia|]. destruct (Z.ltb_spec (Rfloor (2 * sim)) 0); [lia|]. eexists. split; [reflexivity|].
  intros j. rewrite every_nth by lia. cbn [Nat.add]. destruct (Nat.ltb_spec (j * Z.to_nat (Rfloor (sim / 3))) (Z.to_nat (Rfloor (2 * sim)))) as [L|L], (Z.ltb_spec (Z.of_nat j * Rfloor (sim / 3)) (Rfloor (2 * sim))) as [L'|L']; try reflexivity; exfalso; nia.
Qed.
Print Assumptions C103_trail.
Example C103_nonvacuous : forall id k, exists size x y w h angle,
  draw_vehicle (fun _ => None) (Surface 600 150 (0, 0) (55/10) (3/10, 5/10))
    (Vehicle id k (50, 10) 0 20 ("a", "b", Some 0%Z)%string 0 0 true true [] ("a", "b", Some 0%Z)%string 20 None 1%Z grid_default true 0 idm_default false 0%Z false)
  = [DrawBox Red false (size, size) (x, y, w, h) (275%Z, 55%Z) angle].
Proof.
  intros id k. set (sf := Surface _ _ _ _ _). set (v := Vehicle _ _ _ _ _ _ _ _ _ _ _ _ _ _ _ _ _ _ _ _ _ _).
  destruct (C103_vehicle (fun _ => None) sf v) as (size & x & y & w & h & an & E & _).
  - unfold sf. cbn [sf_scaling]. lra.
  - left. reflexivity.
  - apply C101_visible; try (cbn; lia). unfold place, sf, v. cbn [sf_origin sf_scaling sf_width sf_height fst snd v_pos]. lra.
  - exists size, x, y, w, h, an. rewrite E. cbn [v_crashed v]. do 2 f_equal. unfold pos2pix, pix, sf, v. cbn [sf_origin sf_scaling fst snd v_pos].
    apply f_equal2; unfold Rtrunc; rewrite Rleb_le by lra; apply Rfloor_unique; lra.
Qed.
