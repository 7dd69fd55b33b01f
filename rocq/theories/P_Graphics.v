(** Lemmas about drawings. *)
From Verif Require Import Prelude M_Utils M_Lane M_Road M_Vehicle M_Graphics S_Graphics P_Base P_Utils P_Lane.
From Coq Require Import Lia Lra Psatz.
Open Scope R_scope.
Open Scope list_scope.

Lemma trunc_nonneg x : 0 <= x -> IZR (Rtrunc x) <= x < IZR (Rtrunc x) + 1 /\ (0 <= Rtrunc x)%Z.
Proof. intros H. unfold Rtrunc. rewrite Rleb_le by exact H. split; [apply Rfloor_bounds | now apply Rfloor_nonneg]. Qed.
Lemma trunc_neg x : x < 0 -> x <= IZR (Rtrunc x) < x + 1 /\ (Rtrunc x <= 0)%Z.
Proof.
  intros H. unfold Rtrunc. rewrite Rleb_gt by exact H. rewrite opp_IZR. pose proof (Rfloor_bounds (- x)). split; [lra|].
  pose proof (Rfloor_nonneg (- x) ltac:(lra)). lia.
Qed.
Lemma trunc_err x : Rabs (IZR (Rtrunc x) - x) < 1.
Proof. apply Rabs_def1; destruct (Rle_or_lt 0 x) as [H|H]; [apply trunc_nonneg in H | apply trunc_neg in H | apply trunc_nonneg in H | apply trunc_neg in H]; lra. Qed.
Lemma trunc_small x : Rabs (IZR (Rtrunc x)) <= Rabs x.
Proof.
  destruct (Rle_or_lt 0 x) as [H|H].
  - destruct (trunc_nonneg x H) as [B N]. apply IZR_le in N. rewrite !Rabs_right by lra. lra.
  - destruct (trunc_neg x H) as [B N]. apply IZR_le in N. rewrite (Rabs_left1 (IZR _)), (Rabs_left x) by lra. lra.
Qed.
Lemma trunc_lt x n : (0 < n)%Z -> ((Rtrunc x < n)%Z <-> x < IZR n).
Proof.
  intros Hn. pose proof (IZR_lt _ _ Hn) as Hn'. split; intros H.
  - apply Zlt_le_succ, IZR_le in H. rewrite succ_IZR in H. destruct (Rle_or_lt 0 x) as [P|P]; [apply trunc_nonneg in P; lra | lra].
  - apply lt_IZR. destruct (Rle_or_lt 0 x) as [P|P]; [apply trunc_nonneg in P; lra|]. apply trunc_neg in P as [_ P]. apply IZR_le in P. lra.
Qed.
Lemma trunc_opp x : x <> 0 -> Rtrunc (- x) = (- Rtrunc x)%Z.
Proof.
  intros N. unfold Rtrunc. destruct (Rle_or_lt 0 x) as [P|P].
  - rewrite (Rleb_gt 0 (- x)), (Rleb_le 0 x), Ropp_involutive by lra. reflexivity.
  - rewrite (Rleb_le 0 (- x)), (Rleb_gt 0 x) by lra. lia.
Qed.
Lemma trunc_gt x m : (0 < m)%Z -> ((- m < Rtrunc x)%Z <-> - IZR m < x).
Proof.
  intros Hm. pose proof (IZR_lt _ _ Hm) as Hm'. destruct (Req_dec x 0) as [-> |N].
  - assert (E : Rtrunc 0 = 0%Z) by (unfold Rtrunc; rewrite Rleb_le by lra; apply (Rfloor_IZR 0)). rewrite E. split; [lra | lia].
  - pose proof (trunc_lt (- x) m Hm) as T. rewrite (trunc_opp x N) in T. split; intros H0; [assert (- x < IZR m) by (apply T; lia); lra | assert ((- Rtrunc x < m)%Z) by (apply T; lra); lia].
Qed.

(** ** Pieces of lane markings *)
Ltac split_minmax := repeat match goal with |- context [Rle_dec ?x ?y] =>
  lazymatch x with context [Rle_dec] => fail | _ => lazymatch y with context [Rle_dec] => fail | _ => destruct (Rle_dec x y) end end end.
Lemma clip_piece L a b : a <= b -> 1/2 * 3 < Rabs (Rclip a 0 L - Rclip b 0 L) ->
  Rclip a 0 L = Rmax a 0 /\ Rclip b 0 L = Rmin b L /\ Rmin b L - Rmax a 0 > 3/2.
Proof.
  intros H. unfold Rclip, Rmin, Rmax. split_minmax; intros K;
  unfold Rabs in K; destruct (Rcase_abs _) in K; repeat split; try lra.
Qed.
Lemma clip_piece_back L a b : Rmin b L - Rmax a 0 > 3/2 -> Rclip a 0 L = Rmax a 0 /\ Rclip b 0 L = Rmin b L.
Proof.
  unfold Rclip, Rmin, Rmax. split_minmax; intros K; split; try lra.
Qed.
Lemma in_clipped l ss a b d : (forall x, In x ss -> fst (fst x) <= snd (fst x)) ->
  (In (a, b, d) (clipped l ss) <-> exists a0 b0, In (a0, b0, d) ss /\ a = Rmax a0 0 /\ b = Rmin b0 (l_length l) /\ b - a > 3/2).
Proof.
  intros Hss. unfold clipped. rewrite filter_In, in_map_iff. unfold STRIPE_LENGTH. replace (5/10*3) with (1/2*3) by lra. split.
  - intros [(((a0, b0), d0) & E & Hin) F]. cbn [fst snd] in *. injection E as <- <- <-. apply Rltb_true in F.
    specialize (Hss _ Hin). cbn [fst snd] in Hss. destruct (clip_piece _ _ _ Hss F) as (E1 & E2 & E3).
    exists a0, b0. rewrite E1, E2. auto.
  - intros (a0 & b0 & Hin & -> & -> & G). destruct (clip_piece_back (l_length l) a0 b0 G) as [E1 E2]. split.
    + exists (a0, b0, d). cbn [fst snd]. rewrite E1, E2. auto.
    + cbn [fst snd]. apply Rltb_lt. rewrite Rabs_left; lra.
Qed.
Lemma in_arange n k : In k (arange n) <-> (0 <= k < n)%Z.
Proof.
  unfold arange. rewrite in_map_iff. split.
  - intros (j & <- & Hj). apply in_seq in Hj. lia.
  - intros H. exists (Z.to_nat k). split; [lia|]. apply in_seq. lia.
Qed.
Lemma stripes_ordered t l c s0 side : (0 <= c)%Z -> forall x, In x (stripes t l c s0 side) -> fst (fst x) <= snd (fst x).
Proof.
  intros C x. destruct t; cbn [stripes In]; [easy | | |].
  - rewrite in_map_iff. intros (k & <- & _). cbn [fst snd]. unfold STRIPE_LENGTH. lra.
  - rewrite in_map_iff. intros (k & <- & _). cbn [fst snd]. unfold STRIPE_SPACING. lra.
  - intros [<- |[]]. cbn [fst snd]. unfold STRIPE_LENGTH, STRIPE_SPACING. apply IZR_le in C. nra.
Qed.

(** The window of stripes. *)
Lemma count_bounds sf : 0 < sf_scaling sf -> (0 <= sf_width sf)%Z -> (0 <= sf_height sf)%Z ->
  let A := IZR (sf_width sf + sf_height sf) / sf_scaling sf in
  (0 <= stripes_count sf)%Z /\ IZR (stripes_count sf) <= 2 / 5 * A < IZR (stripes_count sf) + 1.
Proof.
  intros S W H A. unfold stripes_count, STRIPE_SPACING.
  assert (E : 2 * IZR (sf_height sf + sf_width sf) / (5 * sf_scaling sf) = 2 / 5 * A) by (unfold A; rewrite (Z.add_comm (sf_height sf)); field; lra).
  rewrite E. assert (0 <= A). { unfold A. apply Rmult_le_pos; [apply IZR_le; lia | left; now apply Rinv_0_lt_compat]. }
  destruct (trunc_nonneg (2 / 5 * A) ltac:(lra)). split; [assumption | lra].
Qed.
Lemma window_bounds sf l : 0 < sf_scaling sf -> (0 <= sf_width sf)%Z -> (0 <= sf_height sf)%Z ->
  let A := IZR (sf_width sf + sf_height sf) / sf_scaling sf in let o := fst (l_local l (sf_origin sf)) in
  IZR (first_stripe sf l) < o - A + 6 /\ o + A - 17/2 < IZR (first_stripe sf l) + 5 * IZR (stripes_count sf) /\ exists q, first_stripe sf l = (5 * q)%Z.
Proof.
  intros S W H A o. destruct (count_bounds sf S W H) as [C0 C]. fold A in C. unfold first_stripe. fold o. set (c := stripes_count sf) in *. unfold STRIPE_SPACING.
  pose proof (trunc_err o) as T. apply Rabs_def2 in T.
  pose proof (Z.div_mod (Rtrunc o) 5 ltac:(lia)) as D1. pose proof (Z.mod_pos_bound (Rtrunc o) 5 ltac:(lia)) as M1.
  pose proof (Z.div_mod c 2 ltac:(lia)) as D2. pose proof (Z.mod_pos_bound c 2 ltac:(lia)) as M2.
  set (q1 := (Rtrunc o / 5)%Z) in *. set (q2 := (c / 2)%Z) in *. set (r1 := (Rtrunc o mod 5)%Z) in *. set (r2 := (c mod 2)%Z) in *.
  assert (E1 : IZR (Rtrunc o) = 5 * IZR q1 + IZR r1) by (rewrite D1, plus_IZR, mult_IZR; reflexivity).
  assert (E2 : IZR c = 2 * IZR q2 + IZR r2) by (rewrite D2, plus_IZR, mult_IZR; reflexivity).
  assert (R1 : 0 <= IZR r1 <= 4) by (split; apply IZR_le; lia). assert (R2 : 0 <= IZR r2 <= 1) by (split; apply IZR_le; lia).
  rewrite mult_IZR, minus_IZR. split; [lra|]. split; [lra|]. exists (q1 - q2)%Z. ring.
Qed.

(** The longitudinal coordinate of straight and sine lanes does not grow faster than distance. *)
Lemma local_lipschitz st en p q : st <> en ->
  Rabs (fst (straight_local st en p) - fst (straight_local st en q)) <= vnorm (vsub p q).
Proof.
  intros N. unfold straight_local. cbn [fst]. rewrite <- sqrt_Rsqr_abs. unfold vnorm. apply sqrt_le_1_alt.
  pose proof (straight_dir_unit st en N) as U. set (d := straight_dir st en) in *. unfold vdot, vsub in *. cbn [fst snd] in *.
  unfold Rsqr. set (a := fst p - fst q). set (b := snd p - snd q).
  replace ((fst p - fst st) * fst d + (snd p - snd st) * snd d - ((fst q - fst st) * fst d + (snd q - snd st) * snd d)) with (a * fst d + b * snd d) by (unfold a, b; ring).
  pose proof (Rle_0_sqr (a * snd d - b * fst d)) as Z0. unfold Rsqr in Z0. nra.
Qed.

Definition edge (l : lane) (side : nat) : R := if Nat.eqb side 0 then - (l_width l / 2) else l_width l / 2.
Lemma side_edge l side s : side = 0%nat \/ side = 1%nat -> side_lat l side s = edge l side.
Proof. unfold side_lat, edge, l_width_at. intros [-> | ->]; cbn [INR Nat.eqb]; lra. Qed.

(** A marking whose longitudinal position is not too far from that of the corner of the
    window is drawn. *)
Lemma piece_drawn sf l side s : 0 < sf_scaling sf -> (0 <= sf_width sf)%Z -> (0 <= sf_height sf)%Z -> side = 0%nat \/ side = 1%nat ->
  0 <= s <= l_length l ->
  Rabs (s - fst (l_local l (sf_origin sf))) <= IZR (sf_width sf + sf_height sf) / sf_scaling sf - 17/2 ->
  match side_type l side with
  | LNone => True
  | LStriped => forall k, 5 * IZR k <= s <= 5 * IZR k + 3 -> 3/2 < Rmin (5 * IZR k + 3) (l_length l) - Rmax (5 * IZR k) 0 ->
      In (Rmax (5 * IZR k) 0, Rmin (5 * IZR k + 3) (l_length l), edge l side) (markings sf l side)
  | LContinuous => forall k, 5 * IZR k <= s <= 5 * IZR k + 5 -> 3/2 < Rmin (5 * IZR k + 5) (l_length l) - Rmax (5 * IZR k) 0 ->
      In (Rmax (5 * IZR k) 0, Rmin (5 * IZR k + 5) (l_length l), edge l side) (markings sf l side)
  | LContinuousLine => 3/2 < l_length l -> exists a b, In (a, b, edge l side) (markings sf l side) /\ a <= s <= b
  end.
Proof.
  intros S W H Hs Hl D. destruct (window_bounds sf l S W H) as (B1 & B2 & q & Q). destruct (count_bounds sf S W H) as [C0 C].
  set (A := IZR (sf_width sf + sf_height sf) / sf_scaling sf) in *. set (o := fst (l_local l (sf_origin sf))) in *.
  set (s0 := first_stripe sf l) in *. set (c := stripes_count sf) in *.
  assert (Ds : - (A - 17/2) <= s - o <= A - 17/2) by (unfold Rabs in D; destruct (Rcase_abs _) in D; lra).
  assert (L1 : IZR s0 < s - 5/2) by lra. assert (L2 : s < IZR s0 + 5 * IZR c) by lra.
  assert (In_ : forall k, 5 * IZR k <= s <= 5 * IZR k + 5 -> (0 <= k - q < c)%Z /\ IZR s0 + IZR (k - q) * 5 = 5 * IZR k).
  { intros k Hk. rewrite minus_IZR. assert (Eq : IZR s0 = 5 * IZR q) by (rewrite Q, mult_IZR; reflexivity). split; [|lra].
    assert (IZR q < IZR (k + 1)) by (rewrite plus_IZR; lra). assert (IZR k < IZR (q + c)) by (rewrite plus_IZR; lra).
    apply lt_IZR in H0. apply lt_IZR in H1. lia. }
  unfold markings. fold s0 c. pose proof (stripes_ordered (side_type l side) l c s0 side C0) as O.
  destruct (side_type l side) eqn:T; [exact I | | |].
  - intros k Hk G. apply in_clipped; [exact O|]. destruct (In_ k ltac:(lra)) as [R E].
    exists (5 * IZR k), (5 * IZR k + 3). split; [|split; [reflexivity|]; split; [reflexivity | lra]].
    cbn [stripes]. apply in_map_iff. exists (k - q)%Z. split; [|now apply in_arange]. unfold STRIPE_SPACING, STRIPE_LENGTH.
    rewrite E, side_edge by exact Hs. reflexivity.
  - intros k Hk G. apply in_clipped; [exact O|]. destruct (In_ k Hk) as [R E].
    exists (5 * IZR k), (5 * IZR k + 5). split; [|split; [reflexivity|]; split; [reflexivity | lra]].
    cbn [stripes]. apply in_map_iff. exists (k - q)%Z. split; [|now apply in_arange]. unfold STRIPE_SPACING.
    rewrite E, side_edge by exact Hs. reflexivity.
  - intros G. exists (Rmax (IZR s0) 0), (Rmin (IZR s0 + 5 * IZR c + 3) (l_length l)). split.
    + apply in_clipped; [exact O|]. exists (IZR s0), (IZR s0 + 5 * IZR c + 3). split; [|split; [reflexivity|]; split; [reflexivity|]].
      * cbn [stripes]. left. unfold STRIPE_SPACING, STRIPE_LENGTH. rewrite side_edge by exact Hs. f_equal. f_equal; ring.
      * unfold Rmin, Rmax. split_minmax; lra.
    + unfold Rmin, Rmax. split_minmax; lra.
Qed.

(** ** Rotated boxes *)
Lemma min_max_sum x1 x3 : min4 [0; x1; x1 + x3; x3] + max4 [0; x1; x1 + x3; x3] = x1 + x3.
Proof. unfold min4, max4. cbn [tl hd fold_left]. unfold Rmin, Rmax. split_minmax; lra. Qed.
Lemma rad_deg a : rad (deg a) = a.
Proof. unfold rad, deg. pose proof PI_RGT_0. field. lra. Qed.
Lemma blit_centre w h pos angle : vadd (blit_origin w h pos angle) (vscal (1/2) (blit_size w h angle)) = pos.
Proof.
  unfold blit_origin, blit_size, box_corners. cbn [map]. unfold v2_rotate. cbn [fst snd]. set (c := cos (rad angle)). set (s := sin (rad angle)).
  pose proof (min_max_sum (w * c) (h * s)) as X. pose proof (min_max_sum (w * s) (- (h * c))) as Y.
  replace [0 * c - 0 * s; w * c - 0 * s; w * c - - h * s; 0 * c - - h * s] with [0; w * c; w * c + h * s; h * s] by (repeat (f_equal; try ring)).
  replace [0 * s + 0 * c; w * s + 0 * c; w * s + - h * c; 0 * s + - h * c] with [0; w * s; w * s + - (h * c); - (h * c)] by (repeat (f_equal; try ring)).
  unfold vadd, vscal, vsub. cbn [fst snd]. rewrite (surjective_pairing pos) at 3. apply f_equal2; lra.
Qed.
Lemma blit_place w h pos th u v : blit_point w h pos (deg (- th)) u v = ahead pos th (u - w / 2) (v - h / 2).
Proof.
  unfold blit_point, blit_origin, ahead. set (X := min4 _). set (Y := max4 _). unfold v2_rotate. rewrite rad_deg, cos_neg, sin_neg.
  unfold vadd, vsub. cbn [fst snd]. apply f_equal2; field.
Qed.

(** ** Trails *)
Lemma every_nth {A : Type} (step : nat) : (1 <= step)%nat -> forall (l : list A) skip n j,
  nth_error (every step skip n l) j = if (skip + j * step <? n)%nat then nth_error l (skip + j * step) else None.
Proof.
  intros Hs. induction l as [|x l IH]; intros skip n j.
  - assert (E : every step skip n (@nil A) = []) by (destruct n; reflexivity). rewrite E.
    assert (X : forall i, nth_error (@nil A) i = None) by (now intros []). rewrite !X. now destruct (_ <? _)%nat.
  - destruct n as [|n]; [cbn [every]; now destruct j|]. cbn [every]. destruct skip as [|k].
    + destruct j as [|j]; [reflexivity|]. cbn [nth_error]. rewrite IH.
      replace (0 + S j * step)%nat with (S (step - 1 + j * step)) by lia. reflexivity.
    + rewrite IH. reflexivity.
Qed.
