(** Property theorems C50, C51 (interval.py). *)
From Verif Require Import Prelude M_Utils M_Lane M_Interval S_Geometry S_Interval P_Base P_Interval.
From Coq Require Import Lra Lia Psatz.
Open Scope R_scope.

(** ** C50: interval arithmetic *)
Theorem C50_product_encloses : forall a b x y, fst a <= x <= snd a -> fst b <= y <= snd b ->
  fst (intervals_product a b) <= x * y <= snd (intervals_product a b).
Proof. exact product_sound. Qed.
Print Assumptions C50_product_encloses.
(** The result is the exact range of products, unless both factors may change sign. *)
Theorem C50_product_exact_iff : forall a b, fst a <= snd a -> fst b <= snd b ->
  (is_range (fun z => exists x y, fst a <= x <= snd a /\ fst b <= y <= snd b /\ z = x * y) (intervals_product a b) <->
   ~ (fst a < 0 < snd a /\ fst b < 0 < snd b)).
Proof. exact product_exact. Qed.
Print Assumptions C50_product_exact_iff.
Theorem C50_dot_encloses : forall a b x y, List.length y = List.length x -> boxed (fst a) x (snd a) -> boxed (fst b) y (snd b) ->
  fst (intervals_product_vv a b) <= sum_to (List.length x) (fun j => entry x j * entry y j) <= snd (intervals_product_vv a b).
Proof. exact product_vv_sound. Qed.
Print Assumptions C50_dot_encloses.
Theorem C50_matrix_product_encloses : forall n m a b A x, mboxed n m (fst a) A (snd a) -> List.length x = m -> boxed (fst b) x (snd b) ->
  List.length (fst (intervals_product_mv a b)) = n /\ List.length (snd (intervals_product_mv a b)) = n /\
  forall i, (i < n)%nat -> entry (fst (intervals_product_mv a b)) i <= sum_to m (fun j => coef A i j * entry x j) <= entry (snd (intervals_product_mv a b)) i.
Proof. exact product_mv_sound. Qed.
Print Assumptions C50_matrix_product_encloses.
(** Scaling by a known matrix gives the exact range of every coordinate. *)
Theorem C50_scaling_exact : forall n m a b i, shape n m a -> List.length (fst b) = m -> List.length (snd b) = m ->
  (forall j, (j < m)%nat -> entry (fst b) j <= entry (snd b) j) -> (i < n)%nat ->
  is_range (fun y => exists x, List.length x = m /\ boxed (fst b) x (snd b) /\ y = sum_to m (fun j => coef a i j * entry x j))
           (entry (fst (intervals_scaling a b)) i, entry (snd (intervals_scaling a b)) i).
Proof. exact scaling_exact. Qed.
Print Assumptions C50_scaling_exact.
Theorem C50_difference_exact : forall a b, fst a <= snd a -> fst b <= snd b ->
  is_range (fun z => exists x y, fst a <= x <= snd a /\ fst b <= y <= snd b /\ z = x - y) (intervals_diff a b).
Proof.
  intros a b Ha Hb. unfold intervals_diff, is_range. cbn [fst snd]. split; [intros z (x & y & Hx & Hy & ->); lra|].
  split; [exists (fst a), (snd b) | exists (snd a), (fst b)]; repeat split; lra.
Qed.
Print Assumptions C50_difference_exact.
Theorem C50_negative_part_exact : forall a, fst a <= snd a ->
  is_range (fun z => exists x, fst a <= x <= snd a /\ z = Rmin x 0) (interval_negative_part a).
Proof.
  intros a Ha. unfold interval_negative_part, is_range. cbn [fst snd]. split; [intros z (x & Hx & ->); unfold Rmin; repeat destruct (Rle_dec _ _); lra|].
  split; [exists (fst a) | exists (snd a)]; repeat split; lra.
Qed.
Print Assumptions C50_negative_part_exact.
Theorem C50_section_exact : forall lo hi direction, fst lo <= fst hi -> snd lo <= snd hi ->
  is_range (fun z => exists p, (fst lo <= fst p <= fst hi /\ snd lo <= snd p <= snd hi) /\ z = fst p * fst direction + snd p * snd direction)
           (vector_interval_section (lo, hi) direction).
Proof. intros lo hi u Hx Hy. apply (affine_range (fun p => fst p * fst u + snd p * snd u) 0 (fst u) (snd u) lo hi); [intros; ring | exact Hx | exact Hy]. Qed.
Print Assumptions C50_section_exact.
(** Conversions between the axes and a STRAIGHT lane are the exact bounding boxes. *)
Theorem C50_straight_conversions_exact : forall st en w lt fb sl pr lo hi, fst lo <= fst hi -> snd lo <= snd hi ->
  let l := Lane (GStraight st en) w lt fb sl pr in
  let box p := fst lo <= fst p <= fst hi /\ snd lo <= snd p <= snd hi in
  is_range (fun z => exists p, box p /\ z = fst (l_local l p)) (fst (interval_absolute_to_local (lo, hi) l)) /\
  is_range (fun z => exists p, box p /\ z = snd (l_local l p)) (snd (interval_absolute_to_local (lo, hi) l)) /\
  let abs := interval_local_to_absolute (fst lo, fst hi) (snd lo, snd hi) l in
  is_range (fun z => exists p, box p /\ z = fst (l_position l (fst p) (snd p))) (fst (fst abs), fst (snd abs)) /\
  is_range (fun z => exists p, box p /\ z = snd (l_position l (fst p) (snd p))) (snd (fst abs), snd (snd abs)).
Proof.
  intros st en w lt fb sl pr lo hi Hx Hy l box.
  set (u := straight_dir st en). set (v := straight_lat st en).
  split; [|split; [|split]].
  - apply (affine_range (fun p => fst (l_local l p)) (- vdot st u) (fst u) (snd u) lo hi); [|exact Hx|exact Hy]. intros p.
    cbn [l l_local geom_local l_geom straight_local]. unfold straight_local. cbn [fst snd]. fold u. unfold vdot, vsub. cbn [fst snd]. ring.
  - apply (affine_range (fun p => snd (l_local l p)) (- vdot st v) (fst v) (snd v) lo hi); [|exact Hx|exact Hy]. intros p.
    cbn [l l_local geom_local l_geom straight_local]. unfold straight_local. cbn [fst snd]. fold v. unfold vdot, vsub. cbn [fst snd]. ring.
  - unfold interval_local_to_absolute. cbn [fst snd]. rewrite !map_map.
    apply (affine_range (fun p => fst (l_position l (fst p) (snd p))) (fst st) (fst u) (fst v) lo hi); [|exact Hx|exact Hy]. intros p.
    cbn [l l_position geom_position l_geom]. unfold straight_position. fold u v. unfold vadd, vscal. cbn [fst snd]. ring.
  - unfold interval_local_to_absolute. cbn [fst snd]. rewrite !map_map.
    apply (affine_range (fun p => snd (l_position l (fst p) (snd p))) (snd st) (snd u) (snd v) lo hi); [|exact Hx|exact Hy]. intros p.
    cbn [l l_position geom_position l_geom]. unfold straight_position. fold u v. unfold vadd, vscal. cbn [fst snd]. ring.
Qed.
Print Assumptions C50_straight_conversions_exact.
(** On a circular lane the corners do not bound the positions: half a turn of
    radius 20 bulges 20 m out of the computed box. *)
Theorem C50_circular_conversion_escapes :
  let l := default_lane (GCircular (0, 0) 20 0 PI true) in
  let abs := interval_local_to_absolute (0, 20 * PI) (0, 0) l in
  0 <= 10 * PI <= 20 * PI /\ snd (l_position l (10 * PI) 0) = 20 /\ snd (snd abs) = 0.
Proof.
  cbv zeta. pose proof PI_RGT_0. split; [lra|]. split.
  - cbn [default_lane l_position geom_position l_geom circ_dir]. replace (1 * (10 * PI) / 20 + 0) with (PI / 2) by field. unfold vadd, vscal. cbn [fst snd]. rewrite sin_PI2. ring.
  - unfold interval_local_to_absolute, box_corners, default_lane, l_position, geom_position, circ_dir, list_max, vadd, vscal. cbn [fst snd map hd tl fold_left l_geom].
    replace (1 * 0 / 20 + 0) with 0 by field. replace (1 * (20 * PI) / 20 + 0) with PI by field. rewrite sin_0, sin_PI. unfold Rmax; repeat destruct (Rle_dec _ _); lra.
Qed.
Print Assumptions C50_circular_conversion_escapes.

(** The integrator interval bounds the motion of the two ENDS of the state
    interval, so that an Euler step of dx = -k x stays enclosed... *)
Theorem C50_integrator_encloses : forall x k y g dt, 0 <= fst k -> fst k <= g <= snd k -> fst x <= y <= snd x -> 0 <= dt -> snd k * dt <= 1 ->
  fst x + fst (integrator_interval x k) * dt <= y + (- g * y) * dt <= snd x + snd (integrator_interval x k) * dt.
Proof.
  intros [x0 x1] [k0 k1] y g dt. cbn [fst snd]. intros K [G0 G1] [Y0 Y1] Hdt Hk. unfold integrator_interval. cbn [fst snd].
  assert (T0 : 0 <= k0 * dt) by nra. assert (T1 : k0 * dt <= g * dt) by nra. assert (T2 : g * dt <= k1 * dt) by nra.
  replace (y + - g * y * dt) with (y * (1 - g * dt)) by ring.
  destruct (Rleb 0 x0) eqn:E; [apply Rleb_true in E | apply Rleb_false in E; destruct (Rleb x1 0) eqn:E1; [apply Rleb_true in E1 | apply Rleb_false in E1]]; cbn [fst snd].
  - replace (x0 + - k1 * x0 * dt) with (x0 * (1 - k1 * dt)) by ring. replace (x1 + - k0 * x1 * dt) with (x1 * (1 - k0 * dt)) by ring. split; nra.
  - replace (x0 + - k0 * x0 * dt) with (x0 * (1 - k0 * dt)) by ring. replace (x1 + - k1 * x1 * dt) with (x1 * (1 - k1 * dt)) by ring. split; nra.
  - replace (x0 + - k0 * x0 * dt) with (x0 * (1 - k0 * dt)) by ring. replace (x1 + - k0 * x1 * dt) with (x1 * (1 - k0 * dt)) by ring.
    assert (0 <= 1 - g * dt <= 1 - k0 * dt) by lra. set (s := 1 - g * dt) in *. set (r := 1 - k0 * dt) in *. clearbody s r. split; nra.
Qed.
Print Assumptions C50_integrator_encloses.
(** ... but it is not "the interval for dx" of its documentation. *)
Theorem C50_integrator_not_the_range : exists x k y g, 0 <= fst k /\ fst k <= g <= snd k /\ fst x <= y <= snd x /\ - g * y < fst (integrator_interval x k).
Proof.
  exists (0, 1), (1, 1), 1, 1. unfold integrator_interval. cbn [fst snd]. assert (Rleb 0 0 = true) as -> by (apply Rleb_true; lra). cbn [fst snd]. repeat split; lra.
Qed.
Print Assumptions C50_integrator_not_the_range.

(** An affine family over a parameter box is the polytope returned: centre plus
    weighted means of the vertices, which are exactly the values at the box's vertices. *)
Theorem C50_polytope : forall n m f lo hi x, affine n m f -> List.length x = n -> boxed lo x hi ->
  let '(a0, da) := polytope f lo hi in
  mean_of da (lv_sub (f x) a0) /\
  (forall v, In v da -> exists p, boxed lo p hi /\ (forall k, (k < n)%nat -> entry p k = entry lo k \/ entry p k = entry hi k) /\ v = lv_sub (f p) a0).
Proof.
  intros n m f lo hi x Af Lx Bx. unfold polytope. set (c := map2 (fun l h => (l + h) / 2) lo hi).
  destruct (boxed_len_l _ _ _ n Bx Lx) as [L0 L1]. assert (Lc : List.length c = n) by (unfold c; rewrite map2_length; congruence).
  assert (Lv : forall v, In v (box_vertices lo hi) -> List.length v = n) by (intros v Hv; rewrite (vertices_len lo hi v) by (congruence || assumption); exact L0).
  assert (Lf : List.length (f c) = m) by (destruct Af as (a & phi & F); apply F; exact Lc). split.
  - eapply mean_mono; [|apply (mean_affine n m f (f c) (box_vertices lo hi) x Af Lf Lv); apply box_mean; exact Bx]. intros y Hy. now apply dedup_in.
  - intros v Hv. apply dedup_in, in_map_iff in Hv as (p & <- & Hp). exists p.
    assert (V : forall lo hi p, List.length lo = List.length hi -> (forall k, (k < List.length lo)%nat -> entry lo k <= entry hi k) -> In p (box_vertices lo hi) ->
      boxed lo p hi /\ forall k, (k < List.length lo)%nat -> entry p k = entry lo k \/ entry p k = entry hi k).
    { clear. induction lo as [|l lo IH]; intros [|h hi] p L Le Hp; try discriminate; cbn in Hp.
      - destruct Hp as [<- | []]. split; [|intros k Hk; cbn in Hk; lia]. split; [reflexivity|]. split; [reflexivity|]. intros i Hi. cbn in Hi. lia.
      - cbn in L. assert (Q : exists p', In p' (box_vertices lo hi) /\ (p = l :: p' \/ p = h :: p')).
        { apply in_app_or in Hp as [Hp|Hp]; apply in_map_iff in Hp as (p' & <- & Hp'); exists p'; auto. }
        destruct Q as (p' & Hp' & Eq). destruct (IH hi p' ltac:(lia) (fun k Hk => Le (S k) ltac:(cbn; lia)) Hp') as ((A & B & C) & D).
        pose proof (Le O ltac:(cbn; lia)) as Le0. unfold entry in Le0. cbn in Le0.
        split.
        + split; [destruct Eq as [-> | ->]; cbn; lia|]. split; [destruct Eq as [-> | ->]; cbn; lia|]. intros [|i] Hi.
          * destruct Eq as [-> | ->]; unfold entry; cbn; lra.
          * destruct Eq as [-> | ->]; apply (C i); cbn in Hi; lia.
        + intros [|k] Hk; [destruct Eq as [-> | ->]; unfold entry; cbn; auto|]. destruct Eq as [-> | ->]; apply (D k); cbn in Hk; lia. }
    destruct Bx as (_ & _ & Bx). rewrite Lx in Bx.
    destruct (V lo hi p ltac:(congruence) ltac:(rewrite L0; intros k Hk; pose proof (Bx k Hk); lra) Hp) as [W1 W2]. split; [exact W1|]. split; [rewrite L0 in W2; exact W2 | reflexivity].
Qed.
Print Assumptions C50_polytope.
Example C50_nonvacuous :
  intervals_product (-1, 2) (3, 4) = (-4, 8) /\ fst (intervals_product (-1, 1) (-1, 1)) = -2 /\
  affine 1 1 (fun p => [2 + 3 * entry p 0]) /\ boxed [0] [1/2] [1].
Proof.
  split; [|split; [|split]].
  - unfold intervals_product, intervals_product_with, pos_part, neg_part. cbn [fst snd].
    apply f_equal2; unfold Rmax; repeat destruct (Rle_dec _ _); lra.
  - unfold intervals_product, intervals_product_with, pos_part, neg_part. cbn [fst snd]. unfold Rmax; repeat destruct (Rle_dec _ _); lra.
  - exists [2], [[3]]. intros x L. split; [reflexivity|]. intros [|i] Hi; [|lia]. unfold entry, coef. cbn. ring.
  - split; [reflexivity|]. split; [reflexivity|]. intros [|i] Hi; cbn in Hi; [unfold entry; cbn; lra | lia].
Qed.
