(** The lateral control of controlled vehicles along straight lanes. *)
From Verif Require Import Prelude M_Utils M_Lane M_Road M_Vehicle M_Kinematics M_Control P_Base P_Utils P_Lane P_Kin P_Control S_Control S_Track.
From Coq Require Import Lia Lra Ratan.
Open Scope R_scope.

(** ** Trigonometry *)
Lemma sin_cubic t : 0 <= t <= 4 -> t - t * t * t / 6 <= sin t.
Proof.
  intros H. destruct (pre_sin_bound t 0 (proj1 H) (proj2 H)) as [B _]. unfold sin_approx, sin_term in B. cbn [Nat.mul Nat.add sum_f_R0] in B.
  eapply Rle_trans; [|exact B]. apply Req_le. cbn [pow Nat.mul Nat.add fact INR]. field.
Qed.
Lemma sin_below t : 0 <= t -> sin t <= t.
Proof. intros [H| <-]; [apply Rlt_le, sin_lt_x, H | rewrite sin_0; lra]. Qed.
Lemma quot_between p q lo hi : 0 < q -> lo * q <= p <= hi * q -> lo <= p / q <= hi.
Proof. intros Q H. split; apply (Rmult_le_reg_r q); try lra; replace (p / q * q) with p by (field; lra); lra. Qed.
(** [asin x] is at most a few percent more than [x]. *)
Lemma asin_factor x x1 a1 : Rabs x <= x1 -> x1 <= 1 -> 1 <= a1 -> a1 * x1 <= PI / 2 -> 1 <= a1 * (1 - a1 * a1 * (x1 * x1) / 6) ->
  exists a, 1 <= a <= a1 /\ asin x = a * x.
Proof.
  intros Hx H1 Ha Hp Hc. pose proof PI_RGT_0 as P0. pose proof PI_4 as P4.
  assert (Pos : forall u, 0 < u <= x1 -> u <= asin u <= a1 * u).
  { intros u Hu. assert (S : sin (asin u) = u) by (apply sin_asin; lra). pose proof (asin_bound u) as B. pose proof (asin_pos u ltac:(lra)) as Q. split.
    - rewrite <- S at 1. apply sin_below. lra.
    - apply Rnot_lt_le. intros L. assert (X : sin (a1 * u) < sin (asin u)) by (apply sin_increasing_1; try nra).
      rewrite S in X. pose proof (sin_cubic (a1 * u) ltac:(split; nra)) as C.
      assert (u * u <= x1 * x1) by nra. assert (a1 * a1 * (u * u) <= a1 * a1 * (x1 * x1)) by (apply Rmult_le_compat_l; nra).
      assert (u * 1 <= u * (a1 * (1 - a1 * a1 * (u * u) / 6))) by (apply Rmult_le_compat_l; [lra|]; nra). nra. }
  destruct (Rtotal_order x 0) as [N|[-> |N]].
  - rewrite Rabs_left in Hx by exact N. specialize (Pos (- x) ltac:(lra)). rewrite asin_opp in Pos. exists (asin x / x). split; [|field; lra].
    replace (asin x / x) with ((- asin x) / (- x)) by (field; lra). apply quot_between; lra.
  - exists 1. split; [lra|]. rewrite asin_0. ring.
  - rewrite Rabs_right in Hx by lra. specialize (Pos x ltac:(lra)). exists (asin x / x). split; [|field; lra].
    apply quot_between; lra.
Qed.
Lemma sin_factor h h1 : Rabs h <= h1 -> h1 <= 2 -> exists b, 1 - h1 * h1 / 6 <= b <= 1 /\ sin h = b * h.
Proof.
  intros Hh H1. 
  assert (Pos : forall u, 0 < u <= h1 -> u - u * u * u / 6 <= sin u <= u) by (intros u Hu; split; [apply sin_cubic; lra | apply sin_below; lra]).
  assert (Pos' : forall u, 0 < u <= h1 -> (1 - h1 * h1 / 6) * u <= sin u) by (intros u Hu; specialize (Pos u Hu); assert (u * u <= h1 * h1) by nra; assert (u * (u * u) <= u * (h1 * h1)) by (apply Rmult_le_compat_l; lra); lra).
  destruct (Rtotal_order h 0) as [N|[-> |N]].
  - rewrite Rabs_left in Hh by exact N. pose proof (Pos (- h) ltac:(lra)) as A. pose proof (Pos' (- h) ltac:(lra)) as B. rewrite sin_neg in A, B. exists (sin h / h). split; [|field; lra].
    replace (sin h / h) with ((- sin h) / (- h)) by (field; lra). apply quot_between; lra.
  - exists 1. split; [nra|]. rewrite sin_0. ring.
  - rewrite Rabs_right in Hh by lra. pose proof (Pos h ltac:(lra)) as A. pose proof (Pos' h ltac:(lra)) as B. exists (sin h / h). split; [|field; lra].
    apply quot_between; lra.
Qed.
(** The slip angle of a steering angle given by its sine. *)
Lemma sin_slip_asin s : -1 < s < 1 -> sin (slip (asin s)) = s / sqrt (4 - 3 * (s * s)).
Proof.
  intros H. assert (Q : 0 < 1 - s * s) by nra. unfold slip. rewrite sin_atan, tan_asin by lra.
  set (r := sqrt (1 - s²)). assert (R0 : 0 < r) by (apply sqrt_lt_R0; unfold Rsqr; lra). assert (R2 : r * r = 1 - s * s) by (unfold r; rewrite sqrt_sqrt; unfold Rsqr; lra).
  assert (E : sqrt (1 + (1 / 2 * (s / r))²) = sqrt (4 - 3 * (s * s)) / (2 * r)).
  { assert (0 < 4 - 3 * (s * s)) by nra. replace (1 + (1 / 2 * (s / r))²) with ((4 - 3 * (s * s)) / ((2 * r) * (2 * r))).
    - rewrite sqrt_div_alt by nra. rewrite sqrt_square by lra. reflexivity.
    - unfold Rsqr. replace (4 - 3 * (s * s)) with (4 * (r * r) + s * s) by lra. field. lra. }
  rewrite E. assert (0 < sqrt (4 - 3 * (s * s))) by (apply sqrt_lt_R0; nra). field. lra.
Qed.

(** ** Contraction *)
Lemma conv_le (g : R -> R) (C lo hi p K : R) : (forall x, g x = g 0 + (g 1 - g 0 - C) * x + C * (x * x)) -> 0 <= C ->
  lo <= p <= hi -> g lo <= K -> g hi <= K -> g p <= K.
Proof.
  intros G HC Hp H0 H1. destruct (Req_dec lo hi) as [E|N]; [replace p with lo by lra; exact H0|].
  apply (Rmult_le_reg_l (hi - lo)); [lra|].
  assert (X : (hi - lo) * g p = (hi - p) * g lo + (p - lo) * g hi - C * ((p - lo) * (hi - p) * (hi - lo))) by (rewrite (G p), (G lo), (G hi); ring).
  assert (0 <= C * ((p - lo) * (hi - p) * (hi - lo))) by (apply Rmult_le_pos; [exact HC|]; apply Rmult_le_pos; [apply Rmult_le_pos|]; lra).
  assert ((hi - p) * g lo <= (hi - p) * K) by (apply Rmult_le_compat_l; lra). assert ((p - lo) * g hi <= (p - lo) * K) by (apply Rmult_le_compat_l; lra).
  nra.
Qed.
Lemma psd_form (q : R -> R -> R) : (forall y z, q y z = q 1 0 * (y * y) + (q 1 1 - q 1 0 - q 0 1) * (y * z) + q 0 1 * (z * z)) -> 0 < q 1 0 ->
  (q 1 1 - q 1 0 - q 0 1) * (q 1 1 - q 1 0 - q 0 1) <= 4 * q 1 0 * q 0 1 -> forall y z, 0 <= q y z.
Proof.
  intros G A D y z. rewrite G. set (a := q 1 0) in *. set (c := q 0 1) in *. set (b := q 1 1 - a - c) in *. clearbody a b c.
  apply (Rmult_le_reg_l (4 * a)); [lra|]. rewrite Rmult_0_r.
  replace (4 * a * (a * (y * y) + b * (y * z) + c * (z * z))) with ((2 * a * y + b * z) * (2 * a * y + b * z) + (4 * a * c - b * b) * (z * z)) by ring.
  pose proof (Rle_0_sqr (2 * a * y + b * z)) as Q. unfold Rsqr in Q. assert (0 <= (4 * a * c - b * b) * (z * z)) by (apply Rmult_le_pos; [lra | apply (Rle_0_sqr z)]). lra.
Qed.
(** A measure of the distance to the lane; [z] is 25 times the angle. *)
Definition energy (y z : R) : R := y * y + 1 / 2 * (y * z) + 6 / 25 * (z * z).
Lemma energy_nonneg y z : 0 <= energy y z.
Proof. unfold energy. pose proof (Rle_0_sqr (y + z / 4)) as A. pose proof (Rle_0_sqr z) as B. unfold Rsqr in A, B. lra. Qed.
Definition pull (al y z : R) : R := - (5 / 3) * al * y - z.
Definition moved (dt al k m n y z : R) : R := energy (y + dt * (m * z + n * pull al y z)) (z + dt * (k * pull al y z)).

Lemma worst_n al k m n y z K : 217 / 1000 <= n <= 31 / 100 -> moved (1/10) al k m (217/1000) y z <= K -> moved (1/10) al k m (31/100) y z <= K -> moved (1/10) al k m n y z <= K.
Proof. apply (conv_le (fun x => moved (1/10) al k m x y z) ((pull al y z / 10) * (pull al y z / 10))); [intros x; unfold moved, pull, energy; field | apply Rle_0_sqr]. Qed.
Lemma worst_m al k m n y z K : 69 / 100 <= m <= 8 / 5 -> moved (1/10) al k (69/100) n y z <= K -> moved (1/10) al k (8/5) n y z <= K -> moved (1/10) al k m n y z <= K.
Proof. apply (conv_le (fun x => moved (1/10) al k x n y z) (z / 10 * (z / 10))); [intros x; unfold moved, pull, energy; field | apply Rle_0_sqr]. Qed.
Lemma worst_k al k m n y z K : 5 / 2 <= k <= 3 -> moved (1/10) al (5/2) m n y z <= K -> moved (1/10) al 3 m n y z <= K -> moved (1/10) al k m n y z <= K.
Proof. apply (conv_le (fun x => moved (1/10) al x m n y z) (6 / 25 * ((pull al y z / 10) * (pull al y z / 10)))); [intros x; unfold moved, pull, energy; field | apply Rmult_le_pos; [lra | apply Rle_0_sqr]]. Qed.
Lemma worst_al al k m n y z K : 5 / 8 <= al <= 21 / 16 -> moved (1/10) (5/8) k m n y z <= K -> moved (1/10) (21/16) k m n y z <= K -> moved (1/10) al k m n y z <= K.
Proof. apply (conv_le (fun x => moved (1/10) x k m n y z) (energy (n * y / 6) (k * y / 6))); [intros x; unfold moved, pull, energy; field | apply energy_nonneg]. Qed.

Lemma contraction al k m n y z : 5 / 8 <= al <= 21 / 16 -> 5 / 2 <= k <= 3 -> 69 / 100 <= m <= 8 / 5 -> 217 / 1000 <= n <= 31 / 100 ->
  moved (1 / 10) al k m n y z <= 23 / 25 * energy y z.
Proof.
  intros Ha Hk Hm Hn. apply worst_al; [exact Ha | |]; (apply worst_k; [exact Hk | |]); (apply worst_m; [exact Hm | |]); (apply worst_n; [exact Hn | |]).
  all: apply Rminus_le; apply Ropp_le_cancel; rewrite Ropp_0.
  all: match goal with |- 0 <= - (moved ?dt ?a ?k ?m ?n _ _ - _) => apply (psd_form (fun y z => - (moved dt a k m n y z - 23 / 25 * energy y z))) end.
  all: unfold moved, pull, energy; try (intros; field); try lra.
Qed.
Lemma contraction_dt dt al k m n y z : 0 <= dt <= 1 / 10 -> 5 / 8 <= al <= 21 / 16 -> 5 / 2 <= k <= 3 -> 69 / 100 <= m <= 8 / 5 -> 217 / 1000 <= n <= 31 / 100 ->
  moved dt al k m n y z <= (1 - 4 / 5 * dt) * energy y z.
Proof.
  intros Hd Ha Hk Hm Hn. apply Rminus_le.
  apply (conv_le (fun x => moved x al k m n y z - (1 - 4 / 5 * x) * energy y z) (energy (m * z + n * pull al y z) (k * pull al y z)) 0 (1/10)); [intros x; unfold moved, energy; field | apply energy_nonneg | exact Hd | |].
  - unfold moved, energy. apply Req_le. ring.
  - pose proof (contraction al k m n y z Ha Hk Hm Hn). lra.
Qed.
Lemma energy_bounds y z : energy y z <= 25 -> Rabs y <= 117 / 20 /\ Rabs z <= 95 / 8.
Proof.
  unfold energy. intros H. pose proof (Rle_0_sqr (z + 25 / 24 * y)) as A. pose proof (Rle_0_sqr (y + z / 4)) as B. unfold Rsqr in A, B.
  split; apply Rabs_le; split; nra.
Qed.

(** ** The steering law as a linear one with bounded coefficients *)
Definition ref_angle (y v : R) : R := Rclip (asin (Rclip (- KP_LATERAL * y / not_zero v not_zero_eps) (-1) 1)) (- (PI/4)) (PI/4).
Definition command (e v : R) : R :=
  Rclip (asin (Rclip (V_LENGTH / 2 / not_zero v not_zero_eps * (KP_HEADING * e)) (-1) 1)) (- MAX_STEERING_ANGLE) MAX_STEERING_ANGLE.
Lemma not_zero_big v : 20 <= v -> not_zero v not_zero_eps = v.
Proof. intros H. unfold not_zero, not_zero_eps. rewrite Rabs_right by lra. destruct (Rltb (1/100) v) eqn:E; [reflexivity|]. apply Rltb_false in E. lra. Qed.
Lemma PI_big : 3 < PI.
Proof. pose proof PI2_3_2. lra. Qed.
Lemma abs_range x b : Rabs x <= b -> - b <= x <= b.
Proof. unfold Rabs. destruct (Rcase_abs x); lra. Qed.
Lemma abs_prod a x b c : 0 <= a <= b -> Rabs x <= c -> Rabs (a * x) <= b * c.
Proof. intros A X. rewrite Rabs_mult, (Rabs_right a) by lra. apply Rmult_le_compat; try lra. apply Rabs_pos. Qed.

Lemma linear_law y psi v : 20 <= v <= 40 -> energy y (25 * psi) <= 25 ->
  let e := ref_angle y v - psi in let b := slip (command e v) in
  Rabs e < 1 /\ exists al k m n, 5 / 8 <= al <= 21 / 16 /\ 5 / 2 <= k <= 3 /\ 69 / 100 <= m <= 8 / 5 /\ 217 / 1000 <= n <= 31 / 100 /\
    25 * (v * sin b / (V_LENGTH / 2)) = k * pull al y (25 * psi) /\ v * sin (psi + b) = m * (25 * psi) + n * pull al y (25 * psi).
Proof.
  intros Hv He. destruct (energy_bounds _ _ He) as [By Bz]. pose proof PI_big as P3. pose proof PI_4 as P4.
  assert (Bp : Rabs psi <= 475 / 1000) by (rewrite Rabs_mult, (Rabs_right 25) in Bz by lra; lra). clear Bz He.
  cbv zeta. unfold ref_angle, command. rewrite !not_zero_big by lra. unfold KP_LATERAL, KP_HEADING, TAU_DS, V_LENGTH, MAX_STEERING_ANGLE.
  (* the reference *)
  set (x := - (1 / 3 * (1 / (2/10))) * y / v).
  assert (Iv : 0 < / v) by (apply Rinv_0_lt_compat; lra). assert (Iv' : / v <= / 20) by (apply Rinv_le_contravar; lra).
  assert (Iv2 : / 40 <= / v) by (apply Rinv_le_contravar; lra).
  assert (Ex : x = 5 / 3 * (/ v * (- y))) by (unfold x; field; lra).
  assert (Bx : Rabs x <= 4875 / 10000).
  { rewrite Ex. eapply Rle_trans; [apply (abs_prod (5/3) _ (5/3) (/ 20 * (117 / 20))); [lra|]; apply abs_prod; [lra | rewrite Rabs_Ropp; exact By] | lra]. }
  destruct (asin_factor x (4875 / 10000) (105 / 100) Bx ltac:(lra) ltac:(lra) ltac:(lra) ltac:(lra)) as (a & Ra & Ea).
  pose proof (abs_range _ _ Bx) as Rx. rewrite (Rclip_id x) by lra.
  assert (Ba : Rabs (asin x) <= 512 / 1000) by (rewrite Ea; eapply Rle_trans; [apply (abs_prod a x (105/100) (4875/10000)); lra | lra]).
  pose proof (abs_range _ _ Ba) as Rasin. rewrite (Rclip_id (asin x)) by lra.
  set (e := asin x - psi). pose proof (abs_range _ _ Bp) as Rp.
  assert (Be : Rabs e <= 987 / 1000) by (apply Rabs_le; unfold e; lra). split; [lra|].
  (* the steering *)
  set (s := 5 / 2 / v * (1 / (2/10) * e)). assert (Es : s = 25 / 2 * (/ v * e)) by (unfold s; field; lra).
  assert (Bs : Rabs s <= 617 / 1000).
  { rewrite Es. eapply Rle_trans; [apply (abs_prod (25/2) _ (25/2) (/ 20 * (987 / 1000))); [lra|]; apply abs_prod; [lra | exact Be] | lra]. }
  pose proof (abs_range _ _ Bs) as Rs. rewrite (Rclip_id s) by lra.
  destruct (asin_factor s (617 / 1000) (11 / 10) Bs ltac:(lra) ltac:(lra) ltac:(lra) ltac:(lra)) as (a' & Ra' & Ea').
  assert (Ba' : Rabs (asin s) <= 1) by (rewrite Ea'; eapply Rle_trans; [apply (abs_prod a' s (11/10) (617/1000)); lra | lra]).
  pose proof (abs_range _ _ Ba') as Rasin'. rewrite (Rclip_id (asin s)) by lra.
  set (b := slip (asin s)).
  set (q := sqrt (4 - 3 * (s * s))). assert (S2 : s * s <= 617 / 1000 * (617 / 1000)) by nra. assert (S0 : 0 <= s * s) by apply Rle_0_sqr.
  assert (Q : 5 / 3 <= q <= 2).
  { unfold q. split; [replace (5 / 3) with (sqrt (5 / 3 * (5 / 3))) by (apply sqrt_square; lra) | replace 2 with (sqrt (2 * 2)) by (apply sqrt_square; lra)]; apply sqrt_le_1_alt; lra. }
  assert (Sb : sin b = / q * s) by (unfold b; rewrite sin_slip_asin by lra; fold q; field; lra).
  assert (K : / 2 <= / q <= 3 / 5) by (split; [apply Rinv_le_contravar; lra | replace (3 / 5) with (/ (5 / 3)) by field; apply Rinv_le_contravar; lra]).
  assert (Bsb : Rabs (sin b) <= 3702 / 10000) by (rewrite Sb; eapply Rle_trans; [apply (abs_prod (/ q) s (3/5) (617/1000)); lra | lra]).
  destruct (asin_factor (sin b) (3702 / 10000) (103 / 100) Bsb ltac:(lra) ltac:(lra) ltac:(lra) ltac:(lra)) as (c & Rc & Ec).
  rewrite asin_sin in Ec by (pose proof (slip_bounds (asin s)) as B; fold b in B; lra).
  assert (Bb : Rabs b <= 3814 / 10000) by (rewrite Ec; eapply Rle_trans; [apply (abs_prod c (sin b) (103/100) (3702/10000)); lra | lra]).
  pose proof (abs_range _ _ Bb) as Rb.
  destruct (sin_factor (psi + b) (8564 / 10000) ltac:(apply Rabs_le; lra) ltac:(lra)) as (f & Rf & Ef).
  assert (Rf' : 87 / 100 <= f <= 1) by lra.
  exists (25 * (a * / v)), (5 * / q), (f * v / 25), (f * (c * (5 * / q)) / 10).
  assert (Av : 1 * / 40 <= a * / v <= 105 / 100 * / 20) by (split; apply Rmult_le_compat; lra).
  assert (Fv : 87 / 100 * 20 <= f * v <= 1 * 40) by (split; apply Rmult_le_compat; lra).
  assert (Ck : 1 * (5 / 2) <= c * (5 * / q) <= 103 / 100 * 3) by (split; apply Rmult_le_compat; lra).
  assert (Fck : 87 / 100 * (5 / 2) <= f * (c * (5 * / q)) <= 1 * (309 / 100)) by (split; apply Rmult_le_compat; lra).
  assert (Vs : v * s = 25 / 2 * e) by (rewrite Es; field; lra).
  assert (Pl : pull (25 * (a * / v)) y (25 * psi) = 25 * e) by (unfold pull, e; rewrite Ea, Ex; field; lra).
  do 4 (split; [lra|]). rewrite Pl. split.
  - rewrite Sb. replace (25 * (v * (/ q * s) / (5 / 2))) with (10 * / q * (v * s)) by (field; lra). rewrite Vs. field. lra.
  - rewrite Ef. replace (v * (f * (psi + b))) with (f * (v * psi + v * b)) by ring. rewrite Ec, Sb.
    replace (v * (c * (/ q * s))) with (c * / q * (v * s)) by ring. rewrite Vs. field. lra.
Qed.

(** ** One frame *)
Lemma straight_shift st en p h psi k dt s b : st <> en -> h = straight_heading st en + psi + 2 * PI * IZR k ->
  straight_local st en (vadd p (vscal dt (vscal s (cos (h + b), sin (h + b))))) =
  (fst (straight_local st en p) + dt * (s * cos (psi + b)), snd (straight_local st en p) + dt * (s * sin (psi + b))).
Proof.
  intros N ->. replace (straight_heading st en + psi + 2 * PI * IZR k + b) with (straight_heading st en + (psi + b) + 2 * PI * IZR k) by ring.
  rewrite cos_turn, sin_turn, (cos_plus (straight_heading st en)), (sin_plus (straight_heading st en)).
  pose proof (straight_dir_unit st en N) as U. pose proof (straight_dir_heading st en N) as H.
  unfold straight_local, straight_lat, vdot, vsub, vadd, vscal in *. cbn [fst snd] in *.
  destruct (straight_dir st en) as [dx dy]. cbn [fst snd] in *. injection H as H1 H2. rewrite <- H1, <- H2. apply f_equal2.
  - replace (dt * (s * cos (psi + b))) with (dt * (s * (cos (psi + b) * (dx * dx + dy * dy)))) by (rewrite U; ring). ring.
  - replace (dt * (s * sin (psi + b))) with (dt * (s * (sin (psi + b) * (dx * dx + dy * dy)))) by (rewrite U; ring). ring.
Qed.
Lemma law_straight l st en p h psi k v : l_geom l = GStraight st en -> h = straight_heading st en + psi + 2 * PI * IZR k ->
  Rabs (ref_angle (snd (l_local l p)) v - psi) < PI ->
  steering_law l p h v = command (ref_angle (snd (l_local l p)) v - psi) v.
Proof.
  intros G H E. unfold steering_law. destruct (l_local l p) as [s d]. cbn [snd] in E |- *. cbv zeta. unfold l_heading. rewrite G. cbn [geom_heading].
  fold (ref_angle d v). assert (W : wrap_to_pi (straight_heading st en + ref_angle d v - h) = ref_angle d v - psi); [|rewrite W; reflexivity].
  replace (straight_heading st en + ref_angle d v - h) with (ref_angle d v - psi + 2 * PI * IZR (- k)) by (rewrite H, opp_IZR; ring).
  rewrite wrap_turn, wrap_id; [reflexivity|]. revert E. unfold Rabs. destruct (Rcase_abs _); lra.
Qed.
(** Whatever the steering angle: how the deviations change. *)
Lemma frame_beside g rec dt u w l st en y psi : l_geom l = GStraight st en -> st <> en -> beside l u y psi -> vehicle_step g rec u dt = Ok w ->
  let b := slip (if v_crashed u then 0 else v_steering u) in
  beside l w (y + dt * (v_speed u * sin (psi + b))) (psi + dt * (v_speed u * sin b / (V_LENGTH / 2))).
Proof.
  intros G N [Y [k K]] S. pose proof (step_fields _ _ _ _ _ S) as F. cbv zeta in F |- *. destruct F as (P & H & _).
  unfold beside, l_heading, l_local in *. rewrite G in *. cbn [geom_heading geom_local] in *.
  rewrite P, (straight_shift st en _ _ psi k) by assumption. cbn [fst snd]. rewrite Y. split; [reflexivity|].
  exists k. rewrite H, K. ring.
Qed.
Lemma drift_energy y psi : drift y psi = energy y (25 * psi).
Proof. unfold drift, energy. field. Qed.

(** The vehicle steers towards the lane: both deviations shrink. *)
Lemma frame_closer g rec dt u w l st en y psi : l_geom l = GStraight st en -> st <> en -> 0 <= dt <= 1 / 10 -> beside l u y psi -> drift y psi <= 25 ->
  v_crashed u = false -> 20 <= v_speed u <= 40 -> v_steering u = steering_law l (v_pos u) (v_heading u) (v_speed u) ->
  vehicle_step g rec u dt = Ok w -> exists y' psi', beside l w y' psi' /\ drift y' psi' <= (1 - 4 / 5 * dt) * drift y psi.
Proof.
  intros G N Hd B D C V S St. pose proof (frame_beside g rec dt u w l st en y psi G N B St) as X. cbv zeta in X. rewrite C in X.
  rewrite drift_energy in D. destruct B as [Y [k K]]. unfold l_heading in K. rewrite G in K. cbn [geom_heading] in K.
  destruct (linear_law y psi (v_speed u) V D) as (E & al & kk & m & n & Ral & Rk & Rm & Rn & L1 & L2).
  pose proof PI_big as P3. rewrite (law_straight l st en _ _ psi k _ G K) in S by (rewrite Y; lra). rewrite Y in S. rewrite <- S in L1, L2.
  eexists _, _. split; [exact X|]. rewrite !drift_energy.
  replace (25 * (psi + dt * (v_speed u * sin (slip (v_steering u)) / (V_LENGTH / 2)))) with (25 * psi + dt * (kk * pull al y (25 * psi))) by (rewrite <- L1; ring).
  rewrite L2. exact (contraction_dt dt al kk m n y (25 * psi) Hd Ral Rk Rm Rn).
Qed.

(** ** The cone *)
Lemma sin_slip_between d : - (PI / 2) < d < PI / 2 -> exists q, 0 <= q <= 1 /\ sin (slip d) = q * sin d.
Proof.
  intros H. set (s := sin d). assert (S : -1 < s < 1).
  { unfold s. split; [replace (-1) with (sin (- (PI / 2))) by (rewrite sin_neg, sin_PI2; ring) | rewrite <- sin_PI2]; apply sin_increasing_1; lra. }
  assert (Ed : asin s = d) by (unfold s; apply asin_sin; lra). pose proof (sin_slip_asin s S) as X. rewrite Ed in X. rewrite X. exists (/ sqrt (4 - 3 * (s * s))).
  assert (Q : 1 <= sqrt (4 - 3 * (s * s))) by (rewrite <- sqrt_1; apply sqrt_le_1_alt; nra). split; [|field; lra].
  split; [apply Rlt_le, Rinv_0_lt_compat; lra | rewrite <- Rinv_1; apply Rinv_le_contravar; lra].
Qed.
(** Clipping scales down. *)
Lemma clip_between x a : 0 < a -> exists q, 0 <= q <= 1 /\ Rclip x (- a) a = q * x.
Proof.
  intros A. destruct (Rle_lt_dec (Rabs x) a) as [H|H].
  - exists 1. split; [lra|]. rewrite Rclip_id; [ring | apply abs_range; exact H].
  - assert (X : 0 < Rabs x) by lra. exists (a / Rabs x). split; [split; [apply Rlt_le, Rdiv_lt_0_compat; lra | apply Rlt_le, (Rmult_lt_reg_r (Rabs x)); [exact X|]; replace (a / Rabs x * Rabs x) with a by (field; lra); lra]|].
    unfold Rclip. revert H X. unfold Rabs. destruct (Rcase_abs x); intros H X.
    + rewrite Rmax_right, Rmin_left by lra. field. lra.
    + rewrite Rmax_left, Rmin_right by lra. field. lra.
Qed.
Lemma sin_scaled t q : - (PI / 2) <= t <= PI / 2 -> 0 <= q <= 1 -> exists r, 0 <= r <= 1 /\ sin (q * t) = r * sin t.
Proof.
  intros Ht Hq. pose proof PI_RGT_0 as P0.
  assert (Pos : forall u, 0 < u <= PI / 2 -> exists r, 0 <= r <= 1 /\ sin (q * u) = r * sin u).
  { intros u Hu. assert (0 < sin u) by (apply sin_gt_0; lra). assert (q * u <= 1 * u) by (apply Rmult_le_compat_r; lra). assert (0 <= q * u) by (apply Rmult_le_pos; lra).
    exists (sin (q * u) / sin u). split; [|field; lra]. apply quot_between; [lra|]. rewrite Rmult_0_l, Rmult_1_l. split; [apply sin_ge_0; lra | apply sin_incr_1; lra]. }
  destruct (Rtotal_order t 0) as [N|[-> |N]].
  - destruct (Pos (- t) ltac:(lra)) as (r & R & E). exists r. split; [exact R|]. replace (q * - t) with (- (q * t)) in E by ring. rewrite !sin_neg in E. lra.
  - exists 0. split; [lra|]. rewrite Rmult_0_r, sin_0. ring.
  - apply Pos. lra.
Qed.
Lemma over_not_zero v : exists q, 0 <= q <= 1 /\ v / not_zero v not_zero_eps = q.
Proof.
  eexists. split; [|reflexivity]. unfold not_zero, not_zero_eps. destruct (Rltb (1/100) (Rabs v)) eqn:E.
  - apply Rltb_true in E. assert (v <> 0) by (intros ->; rewrite Rabs_R0 in E; lra). replace (v / v) with 1 by (field; assumption). lra.
  - apply Rltb_false in E. apply abs_range in E. destruct (Rltb 0 v) eqn:V; [apply Rltb_true in V; lra | apply Rltb_false in V]. replace (v / - (1/100)) with (- v * 100) by field. lra.
Qed.
Lemma not_zero_ne v : not_zero v not_zero_eps <> 0.
Proof.
  unfold not_zero, not_zero_eps. destruct (Rltb (1/100) (Rabs v)) eqn:E; [|destruct (Rltb 0 v); lra].
  apply Rltb_true in E. intros ->. rewrite Rabs_R0 in E. lra.
Qed.
(** A frame turns the vehicle by a fraction of the angle to its reference. *)
Lemma turn_between e v dt : 0 <= dt <= 1 / 5 -> exists q, 0 <= q <= 1 /\ dt * (v * sin (slip (command e v)) / (V_LENGTH / 2)) = q * e.
Proof.
  intros Hd. pose proof PI_RGT_0 as P0. unfold command, MAX_STEERING_ANGLE, V_LENGTH, KP_HEADING, TAU_DS.
  destruct (over_not_zero v) as (q5 & R5 & E5). pose proof (not_zero_ne v) as Nz. set (nz := not_zero v not_zero_eps) in *.
  destruct (clip_between (5 / 2 / nz * (1 / (2/10) * e)) 1 ltac:(lra)) as (q1 & R1 & E1). pose proof (Rclip_bounds (5 / 2 / nz * (1 / (2/10) * e)) (-1) 1 ltac:(lra)) as B1.
  replace (- (1)) with (-1) in E1 by ring. set (s := Rclip (5 / 2 / nz * (1 / (2/10) * e)) (-1) 1) in *.
  destruct (clip_between (asin s) (PI / 3) ltac:(lra)) as (q2 & R2 & E2). pose proof (Rclip_bounds (asin s) (- (PI / 3)) (PI / 3) ltac:(lra)) as B2.
  set (d := Rclip (asin s) (- (PI / 3)) (PI / 3)) in *.
  destruct (sin_slip_between d ltac:(lra)) as (q3 & R3 & E3).
  destruct (sin_scaled (asin s) q2 (asin_bound s) R2) as (q4 & R4 & E4). rewrite sin_asin in E4 by exact B1.
  exists (5 * dt * (q3 * q4) * (q1 * q5)). split.
  - assert (0 <= q3 * q4 <= 1) by (split; [apply Rmult_le_pos; lra | rewrite <- (Rmult_1_r 1); apply Rmult_le_compat; lra]).
    assert (0 <= q1 * q5 <= 1) by (split; [apply Rmult_le_pos; lra | rewrite <- (Rmult_1_r 1); apply Rmult_le_compat; lra]).
    assert (0 <= 5 * dt * (q3 * q4) <= 1) by (split; [apply Rmult_le_pos; lra | rewrite <- (Rmult_1_r 1); apply Rmult_le_compat; lra]).
    split; [apply Rmult_le_pos; lra | rewrite <- (Rmult_1_r 1); apply Rmult_le_compat; lra].
  - rewrite E3, E2, E4, E1, <- E5. field. exact Nz.
Qed.
Lemma frame_cone g rec dt u w l st en y psi : l_geom l = GStraight st en -> st <> en -> 0 <= dt <= 1 / 5 -> beside l u y psi -> - (PI / 4) <= psi <= PI / 4 ->
  v_crashed u = true \/ v_steering u = steering_law l (v_pos u) (v_heading u) (v_speed u) ->
  vehicle_step g rec u dt = Ok w -> exists y' psi', beside l w y' psi' /\ Rmin psi (ref_angle y (v_speed u)) <= psi' <= Rmax psi (ref_angle y (v_speed u)).
Proof.
  intros G N Hd B Hp S St. pose proof (frame_beside g rec dt u w l st en y psi G N B St) as X. cbv zeta in X.
  eexists _, _. split; [exact X|]. clear X. destruct (v_crashed u) eqn:C.
  - rewrite slip_0, sin_0. replace (psi + dt * (v_speed u * 0 / (V_LENGTH / 2))) with psi by (unfold V_LENGTH; field). split; [apply Rmin_l | apply Rmax_l].
  - destruct S as [S|S]; [discriminate|]. destruct B as [Y [k K]]. unfold l_heading in K. rewrite G in K. cbn [geom_heading] in K. pose proof PI_RGT_0 as P0.
    pose proof (Rclip_bounds (asin (Rclip (- KP_LATERAL * y / not_zero (v_speed u) not_zero_eps) (-1) 1)) (- (PI / 4)) (PI / 4) ltac:(lra)) as Rr. fold (ref_angle y (v_speed u)) in Rr.
    rewrite (law_straight l st en _ _ psi k _ G K) in S by (rewrite Y; apply Rabs_def1; lra). rewrite Y in S. rewrite S.
    destruct (turn_between (ref_angle y (v_speed u) - psi) (v_speed u) dt Hd) as (q & R & ->). set (r := ref_angle y (v_speed u)) in *.
    unfold Rmin, Rmax. destruct (Rle_dec psi r); nra.
Qed.

(** ** Controlled vehicles *)
Lemma any_act_ok act g draw v a v1 : act = controlled_act \/ act = mdp_act -> act g draw v a = Ok v1 ->
  same_body v v1 /\ v_accel v1 = (v_target_speed v1 - v_speed v) / (6/10) /\
  exists l, get_lane g (v_target_lane v1) = Ok l /\ v_steering v1 = steering_law l (v_pos v) (v_heading v) (v_speed v).
Proof.
  intros [-> | ->] E; [apply controlled_act_ok in E as (B & _ & _ & A & L) | apply mdp_act_ok in E as (B & _ & A & L)]; (split; [exact B|]; split; [exact A | exact L]).
Qed.
Lemma beside_body v v1 l y psi : same_body v v1 -> beside l v y psi -> beside l v1 y psi.
Proof. intros B. unfold same_body in B. unfold beside. destruct B as (_ & _ & -> & -> & _). exact (fun x => x). Qed.
Lemma act_frame act g rec dt draw v a v1 w l st en y psi : act = controlled_act \/ act = mdp_act -> act g draw v a = Ok v1 -> vehicle_step g rec v1 dt = Ok w ->
  get_lane g (v_target_lane w) = Ok l -> l_geom l = GStraight st en -> st <> en -> 0 <= dt <= 1 / 10 ->
  v_crashed v = false -> 20 <= v_speed v <= 40 -> 20 <= v_target_speed w <= 40 -> beside l v y psi -> drift y psi <= 25 ->
  v_crashed w = false /\ 20 <= v_speed w <= 40 /\ fst (l_local l (v_pos w)) <= fst (l_local l (v_pos v)) + 4 /\
  exists y' psi', beside l w y' psi' /\ drift y' psi' <= (1 - 4 / 5 * dt) * drift y psi.
Proof.
  intros Ha A S G Gm N Hd C V T B D. apply any_act_ok in A as (SB & Ac & l1 & G1 & St); [|exact Ha].
  pose proof (beside_body _ _ _ _ _ SB B) as B1. unfold same_body in SB. destruct SB as (_ & _ & Ep & Eh & Es & _ & Ec & _).
  pose proof (step_fields _ _ _ _ _ S) as SF. cbv zeta in SF. destruct SF as (P2 & _ & _ & C2 & _ & _ & _ & TL2 & T2 & _).
  rewrite TL2, G1 in G. injection G as ->. rewrite C in Ec. rewrite T2 in T.
  pose proof (closed_loop_speed g rec v1 v dt w Es Ec ltac:(lra) Ac S) as Q.
  split; [congruence|]. split; [assert (0 <= dt / (6/10) <= 1) by lra; nra|]. split.
  - destruct B as [_ [k K]]. unfold l_heading, l_local in *. rewrite Gm in *. cbn [geom_heading geom_local] in *.
    rewrite P2, Ep, (straight_shift st en _ _ psi k) by (congruence || assumption). cbn [fst]. rewrite Es.
    match goal with |- _ + dt * (_ * cos ?t) <= _ => pose proof (COS_bound t) as Cb; assert (dt * (v_speed v * cos t) <= 1 / 10 * 40); [|lra] end.
    destruct (Rle_dec 0 (cos (psi + slip (if v_crashed v1 then 0 else v_steering v1)))) as [H|H].
    + apply Rmult_le_compat; try lra; [apply Rmult_le_pos; lra|]. replace 40 with (40 * 1) by ring. apply Rmult_le_compat; lra.
    + assert (dt * (v_speed v * cos (psi + slip (if v_crashed v1 then 0 else v_steering v1))) <= 0); [|lra]. apply Rnot_le_lt in H.
      assert (v_speed v * cos (psi + slip (if v_crashed v1 then 0 else v_steering v1)) <= 0) by nra. nra.
  - apply (frame_closer g rec dt v1 w l st en); try assumption; [rewrite Es; exact V | rewrite Ep, Eh, Es; exact St].
Qed.

Lemma run_closer act g rec dt v acts tr l st en : act = controlled_act \/ act = mdp_act -> performs act g rec dt v acts tr ->
  l_geom l = GStraight st en -> st <> en -> 0 <= dt <= 1 / 10 -> forall y psi,
  v_crashed v = false -> 20 <= v_speed v <= 40 -> Forall (fun w => get_lane g (v_target_lane w) = Ok l /\ 20 <= v_target_speed w <= 40) tr ->
  beside l v y psi -> drift y psi <= 25 ->
  forall j w, nth_error tr j = Some w -> exists y' psi', beside l w y' psi' /\ drift y' psi' <= (1 - 4 / 5 * dt) ^ (S j) * drift y psi.
Proof.
  intros Ha P Gm N Hd. induction P as [|v a acts draw v1 v2 tr Dr A S P IH]; intros y psi C V F B D j w Hj; [destruct j; discriminate|].
  inversion F as [|? ? [G T] Ft]; subst.
  destruct (act_frame act g rec dt draw v a v1 v2 l st en y psi Ha A S G Gm N Hd C V T B D) as (C2 & V2 & _ & y2 & psi2 & B2 & D2).
  assert (D0 : 0 <= drift y psi) by (rewrite drift_energy; apply energy_nonneg).
  destruct j as [|j]; cbn [nth_error] in Hj.
  - injection Hj as <-. exists y2, psi2. split; [exact B2|]. cbn [pow]. rewrite Rmult_1_r. exact D2.
  - destruct (IH y2 psi2 C2 V2 Ft B2 ltac:(nra) j w Hj) as (y' & psi' & B' & D'). exists y', psi'. split; [exact B'|].
    eapply Rle_trans; [exact D'|]. change ((1 - 4 / 5 * dt) ^ Datatypes.S (Datatypes.S j)) with ((1 - 4 / 5 * dt) * (1 - 4 / 5 * dt) ^ Datatypes.S j). rewrite (Rmult_comm (1 - 4 / 5 * dt)), Rmult_assoc.
    apply Rmult_le_compat_l; [apply pow_le; lra | exact D2].
Qed.
(** Without further orders the target lane is kept until its end is near. *)
Lemma run_kept act g rec dt v acts tr l st en : act = controlled_act \/ act = mdp_act -> performs act g rec dt v acts tr ->
  l_geom l = GStraight st en -> st <> en -> 0 <= dt <= 1 / 10 -> forall y psi,
  Forall idle acts -> get_lane g (v_target_lane v) = Ok l -> 20 <= v_target_speed v <= 40 -> fst (l_local l (v_pos v)) + 4 * INR (List.length acts) <= l_length l - 5 / 2 ->
  v_crashed v = false -> 20 <= v_speed v <= 40 -> beside l v y psi -> drift y psi <= 25 ->
  Forall (fun w => v_target_lane w = v_target_lane v /\ v_target_speed w = v_target_speed v) tr.
Proof.
  intros Ha P Gm N Hd. induction P as [|v a acts draw v1 v2 tr Dr A S P IH]; intros y psi Fi G T Lg C V B D; [constructor|].
  inversion Fi as [|? ? Ia Ft]; subst. cbn [List.length] in Lg. rewrite S_INR in Lg. pose proof (pos_INR (List.length acts)) as L0.
  assert (AE : after_end l (v_pos v) None = false) by (unfold after_end; apply Rltb_ge; unfold LANE_VEHICLE_LENGTH; lra).
  assert (Fr : follow_road g draw v = Ok v) by (unfold follow_road; rewrite G; cbn [bind]; rewrite AE; reflexivity).
  assert (K : v_target_lane v1 = v_target_lane v /\ v_target_speed v1 = v_target_speed v).
  { assert (A' : controlled_act g draw v a = Ok v1) by (destruct Ha as [-> | ->]; [exact A | destruct Ia as [-> | ->]; exact A]).
    unfold controlled_act in A'. rewrite Fr in A'. cbn [bind] in A'. assert (Im : apply_meta g v a = Ok v) by (destruct Ia as [-> | ->]; reflexivity).
    rewrite Im in A'. cbn [bind] in A'. apply low_level_ok in A' as (_ & _ & _ & TL & TS & _). split; [exact TL | exact TS]. }
  pose proof (step_fields _ _ _ _ _ S) as SF. cbv zeta in SF. destruct SF as (_ & _ & _ & _ & _ & _ & _ & TL2 & T2 & _).
  assert (E1 : v_target_lane v2 = v_target_lane v) by (rewrite TL2; apply K). assert (E2 : v_target_speed v2 = v_target_speed v) by (rewrite T2; apply K).
  constructor; [split; [exact E1 | exact E2]|].
  destruct (act_frame act g rec dt draw v a v1 v2 l st en y psi Ha A S) as (C2 & V2 & L2 & y2 & psi2 & B2 & D2); try assumption; [rewrite E1; exact G | rewrite E2; exact T|].
  assert (D0 : 0 <= drift y psi) by (rewrite drift_energy; apply energy_nonneg).
  assert (F : Forall (fun w => v_target_lane w = v_target_lane v2 /\ v_target_speed w = v_target_speed v2) tr).
  { apply (IH y2 psi2); try assumption; [rewrite E1; exact G | rewrite E2; exact T | lra | nra]. }
  eapply Forall_impl; [|exact F]. intros u [U1 U2]. split; [rewrite U1; exact E1 | rewrite U2; exact E2].
Qed.
Lemma ref_bounds y v : - (PI / 4) <= ref_angle y v <= PI / 4.
Proof. apply Rclip_bounds. pose proof PI_RGT_0. lra. Qed.
Lemma run_cone act g rec dt v acts tr l st en : act = controlled_act \/ act = mdp_act -> performs act g rec dt v acts tr ->
  l_geom l = GStraight st en -> st <> en -> 0 <= dt <= 1 / 5 -> forall y psi,
  Forall (fun w => get_lane g (v_target_lane w) = Ok l) tr -> beside l v y psi -> - (PI / 4) <= psi <= PI / 4 ->
  forall w, In w tr -> exists y' psi', beside l w y' psi' /\ - (PI / 4) <= psi' <= PI / 4.
Proof.
  intros Ha P Gm N Hd. induction P as [|v a acts draw v1 v2 tr Dr A S P IH]; intros y psi F B Hp w Hw; [destruct Hw|].
  inversion F as [|? ? G Ft]; subst.
  assert (X : exists y' psi', beside l v2 y' psi' /\ - (PI / 4) <= psi' <= PI / 4).
  { apply any_act_ok in A as (SB & _ & l1 & G1 & St); [|exact Ha]. pose proof (beside_body _ _ _ _ _ SB B) as B1.
    unfold same_body in SB. destruct SB as (_ & _ & Ep & Eh & Es & _).
    pose proof (step_fields _ _ _ _ _ S) as SF. cbv zeta in SF. destruct SF as (_ & _ & _ & _ & _ & _ & _ & TL2 & _). rewrite TL2, G1 in G. injection G as ->.
    destruct (frame_cone g rec dt v1 v2 l st en y psi Gm N Hd B1 Hp) as (y' & psi' & B' & H'); [right; rewrite Ep, Eh, Es; exact St | exact S|].
    exists y', psi'. split; [exact B'|]. pose proof (ref_bounds y (v_speed v1)) as Rb. revert H'. unfold Rmin, Rmax. destruct (Rle_dec _ _); lra. }
  destruct X as (y2 & psi2 & B2 & H2). destruct Hw as [<- |Hw]; [exists y2, psi2; split; assumption|].
  exact (IH y2 psi2 Ft B2 H2 w Hw).
Qed.
