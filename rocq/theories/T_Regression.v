(** C87: identification of linear parameters (utils.py:125-217). *)
From Coq Require Import Lia Lra.
From Verif Require Import Prelude M_Interval M_Regression S_Interval S_Regression P_Base P_Interval P_Regression.
Open Scope R_scope.

Definition estimate la data lambda delta sigma bound : list R := fst (fst (confidence_ellipsoid la data lambda delta sigma bound)).
Definition gram_of la data lambda delta sigma bound : list (list R) := snd (fst (confidence_ellipsoid la data lambda delta sigma bound)).
Definition radius_of la data lambda delta sigma bound : R := snd (confidence_ellipsoid la data lambda delta sigma bound).

(** A well-formed data set: as many features as outputs, at least one, all of size n. *)
Definition well_formed (n : nat) (data : dataset) : Prop :=
  (0 < n)%nat /\ (0 < List.length (ds_outputs data))%nat /\
  List.length (ds_features data) = List.length (ds_outputs data) /\ Forall (fun phi => List.length phi = n) (ds_features data).

(** The estimate is the unique minimiser of the regularised squared error. *)
Theorem C87_estimate_minimises la n data lambda delta sigma bound :
  numpy_contract n la -> well_formed n data -> 0 < sigma -> 0 < lambda ->
  let th := estimate la data lambda delta sigma bound in
  List.length th = n /\
  forall t, List.length t = n -> t <> th -> squared_error n data lambda sigma th < squared_error n data lambda sigma t.
Proof.
  intros C (Hn & HN & L1 & L2) Hs Hl th. assert (Sh : shape (List.length (ds_outputs data)) n (ds_features data)) by now split.
  pose proof (estimate_len la n data lambda delta sigma bound Sh HN Hn Hs Hl C) as Lth. split; [exact Lth|]. intros t Lt NE.
  pose proof (estimate_excess la n data lambda delta sigma bound Sh HN Hn Hs Hl C t Lt) as X.
  fold (estimate la data lambda delta sigma bound) in X, Lth. fold th in X, Lth.
  destruct (gram_positive n _ _ lambda sigma Sh HN Hn Hs Hl) as (_ & _ & P).
  assert (0 < quadratic n (gramian (ds_features data) lambda sigma) (lv_sub t th)); [|lra].
  apply P; [rewrite len_sub; lia|]. destruct (Classical_Prop.classic (exists i, entry (lv_sub t th) i <> 0)) as [|N]; [assumption|].
  exfalso. apply NE. apply (nth_ext t th 0 0); [lia|]. intros i Hi. destruct (Req_dec (entry (lv_sub t th) i) 0) as [Z|NZ]; [|exfalso; apply N; now exists i].
  rewrite entry_sub in Z by lia. unfold entry in Z. lra.
Qed.

(** The radius is a number: the argument of the logarithm is at least 1 and the
    argument of each square root is non-negative. *)
Theorem C87_radius_defined la n data lambda delta sigma bound :
  numpy_contract n la -> well_formed n data -> 0 < sigma -> 0 < lambda -> 0 < delta <= 1 ->
  let q := la_det la (gram_of la data lambda delta sigma bound) / lambda ^ n in
  1 <= q /\ 1 <= sqrt q / delta /\ 0 <= 2 * ln (sqrt q / delta) /\ 0 <= lambda * INR n /\
  radius_of la data lambda delta sigma bound = sqrt (2 * ln (sqrt q / delta)) + sqrt (lambda * INR n) * bound.
Proof.
  intros C (Hn & HN & L1 & L2) Hs Hl Hd q. assert (Sh : shape (List.length (ds_outputs data)) n (ds_features data)) by now split.
  pose proof (gram_positive n _ _ lambda sigma Sh HN Hn Hs Hl) as GP. destruct (C _ GP) as (_ & Le & Fe & _ & Dt). rewrite Forall_forall in Fe.
  assert (Hq : 1 <= q).
  { unfold q, gram_of. change (snd (fst (confidence_ellipsoid la data lambda delta sigma bound))) with (gramian (ds_features data) lambda sigma).
    rewrite Dt. pose proof (pow_lt lambda n Hl) as PL. pose proof (product_large (la_eigvals la (gramian (ds_features data) lambda sigma)) lambda Hl) as PR.
    rewrite Le in PR. apply (Rmult_le_reg_r (lambda ^ n)); [exact PL|]. unfold Rdiv. rewrite Rmult_assoc, Rinv_l, Rmult_1_r, Rmult_1_l by lra.
    apply PR. intros w Hw. exact (gram_eigen n _ _ lambda sigma w Sh HN Hs (Fe w Hw)). }
  assert (Hsq : 1 <= sqrt q) by (rewrite <- sqrt_1; now apply sqrt_le_1_alt).
  assert (Ha : 1 <= sqrt q / delta).
  { apply (Rmult_le_reg_r delta); [lra|]. unfold Rdiv. rewrite Rmult_assoc, Rinv_l by lra. lra. }
  split; [exact Hq|]. split; [exact Ha|]. split; [|split].
  - destruct Ha as [Ha|Ha]; [pose proof (ln_increasing 1 _ Rlt_0_1 Ha) as K; rewrite ln_1 in K; lra|rewrite <- Ha, ln_1; lra].
  - pose proof (pos_INR n). nra.
  - apply (ellipsoid_len la n). exact (estimate_len la n data lambda delta sigma bound Sh HN Hn Hs Hl C).
Qed.

(** Data generated without noise by a parameter of bounded coordinates: the parameter
    lies in the confidence ellipsoid. *)
Theorem C87_true_parameter_in_ellipsoid la n data lambda delta sigma bound ts :
  numpy_contract n la -> well_formed n data -> 0 < sigma -> 0 < lambda -> 0 <= bound ->
  explained n ts data -> (forall i, (i < n)%nat -> Rabs (entry ts i) <= bound) ->
  quadratic n (gram_of la data lambda delta sigma bound) (lv_sub (estimate la data lambda delta sigma bound) ts)
    <= (radius_of la data lambda delta sigma bound) ^ 2.
Proof.
  intros C (Hn & HN & L1 & L2) Hs Hl Hb (Lt & _ & _ & E) Bd. assert (Sh : shape (List.length (ds_outputs data)) n (ds_features data)) by now split.
  pose proof (estimate_error la n data lambda delta sigma bound Sh HN Hn Hs Hl C ts Lt E) as EE. cbn zeta in EE.
  pose proof (ellipsoid_len la n data lambda delta sigma bound (estimate_len la n data lambda delta sigma bound Sh HN Hn Hs Hl C)) as Eb.
  unfold radius_of. rewrite Eb. unfold gram_of, estimate. eapply Rle_trans; [exact EE|].
  assert (I : inner n ts ts <= INR n * (bound * bound)).
  { rewrite <- sum_const. apply sum_le. intros i Hi. apply abs_square. now apply Bd. }
  pose proof (pos_INR n) as PI. pose proof (sqrt_sqrt (lambda * INR n) ltac:(nra)) as Q.
  pose proof (sqrt_pos (2 * ln (sqrt (la_det la (gramian (ds_features data) lambda sigma) / lambda ^ n) / delta))) as P1. pose proof (sqrt_pos (lambda * INR n)) as P2.
  set (a := sqrt (2 * ln _)) in *. set (c := sqrt (lambda * INR n)) in *.
  assert (lambda * inner n ts ts <= lambda * (INR n * (bound * bound))) by (apply Rmult_le_compat_l; lra).
  assert (lambda * (INR n * (bound * bound)) = (c * bound) * (c * bound)) by (replace (c * bound * (c * bound)) with (c * c * (bound * bound)) by ring; rewrite Q; ring).
  assert (0 <= c * bound) by nra. nra.
Qed.

(** A data set generated by a parameter of the box is never declared inconsistent. *)
Theorem C87_never_rejected la n data lo hi ts :
  numpy_contract n la -> well_formed n data -> explained n ts data -> boxed lo ts hi ->
  is_consistent_dataset la data (Some (lo, hi)) = Ok true.
Proof.
  destruct data as [ph yy]. intros C (Hn & HN & L1 & L2) (Lt & _ & _ & E) B. cbn [ds_outputs ds_features] in *. unfold is_consistent_dataset. cbn [ds_outputs ds_features].
  destruct (rev yy) as [|y ys] eqn:Ey; [apply (f_equal (@List.length R)) in Ey; rewrite rev_length in Ey; cbn in Ey; lia|].
  destruct (rev ph) as [|p ps] eqn:Ep; [apply (f_equal (@List.length lvec)) in Ep; rewrite rev_length in Ep; cbn in Ep; lia|].
  destruct ys as [|y' ys']; [reflexivity|]. destruct ps as [|p' ps']; [reflexivity|]. set (ys := y' :: ys') in *. set (ps := p' :: ps') in *.
  assert (Dy : yy = rev ys ++ [y]) by (rewrite <- (rev_involutive yy), Ey; reflexivity).
  assert (Dp : ph = rev ps ++ [p]) by (rewrite <- (rev_involutive ph), Ep; reflexivity).
  rewrite Dy, Dp, !app_length in L1. cbn [List.length] in L1. rewrite !rev_length in L1. assert (Ll : List.length ps = List.length ys) by lia.
  rewrite Dp in L2. apply Forall_app in L2. destruct L2 as [L2 L3]. inversion L3 as [|? ? Lp _]; subst.
  set (train := Dataset (rev ps) (rev ys)).
  assert (Sh : shape (List.length (ds_outputs train)) (List.length ts) (ds_features train)).
  { split; [cbn; rewrite !app_length, !rev_length; cbn in *; lia|exact L2]. }
  assert (Ht : (0 < List.length (ds_outputs train))%nat) by (cbn; rewrite app_length; cbn; lia).
  assert (Et : forall k, (k < List.length (ds_outputs train))%nat -> nth k (ds_outputs train) 0 = inner (List.length ts) ts (nth k (ds_features train) [])).
  { intros k Hk. cbn [ds_outputs ds_features train] in *. specialize (E k). rewrite app_length in E. specialize (E ltac:(lia)).
    rewrite !app_nth1 in E by (rewrite ?rev_length in *; lia). exact E. }
  pose proof (clipped_error la (List.length ts) lo hi ts C Hn B eq_refl train Sh Ht Et) as K.
  destruct (confidence_polytope la train lo hi) as [[[th d] g] beta] eqn:Ec. destruct K as (K1 & _ & K3 & K4 & K5).
  f_equal. specialize (E (List.length (rev ys))). rewrite app_length in E. specialize (E ltac:(cbn; lia)).
  rewrite (app_nth2 (rev ys)), Nat.sub_diag in E by lia. cbn [nth] in E.
  rewrite (app_nth2 (rev ps)) in E by (rewrite !rev_length; lia). rewrite !rev_length, Ll, Nat.sub_diag in E. cbn [nth] in E. rewrite E.
  now apply valid_next.
Qed.

(** The estimate and the vertices returned by [confidence_polytope] lie in the box. *)
Theorem C87_within_the_box la n data lo hi :
  numpy_contract n la -> well_formed n data -> List.length lo = n -> List.length hi = n -> (forall i, (i < n)%nat -> entry lo i <= entry hi i) ->
  shape n n (la_inv la (la_eigvecs la (gramian (ds_features data) LAMBDA SIGMA))) ->
  let '(th, vertices, _, _) := confidence_polytope la data lo hi in
  boxed lo th hi /\ List.length vertices = Nat.pow 2 n /\ forall dv, In dv vertices -> boxed lo (lv_add th dv) hi.
Proof.
  intros C (Hn & HN & L1 & L2) Ll Lh Hb Sv. assert (Sh : shape (List.length (ds_outputs data)) n (ds_features data)) by now split.
  assert (Hs : 0 < SIGMA) by (unfold SIGMA; lra). assert (Hl : 0 < LAMBDA) by (unfold LAMBDA; lra).
  unfold confidence_polytope.
  pose proof (estimate_len la n data LAMBDA DELTA SIGMA (box_bound lo hi) Sh HN Hn Hs Hl C) as Lth.
  pose proof (gram_positive n _ _ LAMBDA SIGMA Sh HN Hn Hs Hl) as GP. destruct (C _ GP) as (_ & Le & _).
  destruct (confidence_ellipsoid la data LAMBDA DELTA SIGMA (box_bound lo hi)) as [[th g] beta] eqn:Ec. cbn [fst snd] in *.
  assert (Eg : g = gramian (ds_features data) LAMBDA SIGMA) by (unfold confidence_ellipsoid in Ec; congruence). rewrite <- Eg in *. cbv zeta.
  set (c := lv_clip th lo hi). assert (Lc : List.length c = n) by (unfold c; rewrite clip_len; lia).
  assert (Bc : forall i, (i < n)%nat -> entry lo i <= entry c i <= entry hi i).
  { intros i Hi. unfold c. rewrite clip_entry by lia. apply clip1_in. now apply Hb. }
  split; [split; [|split]; [lia|lia|rewrite Lc; exact Bc]|]. split.
  - rewrite map_length, Lth. clear. induction n as [|n IH]; [reflexivity|]. cbn [signs]. rewrite app_length, !map_length, IH. cbn. lia.
  - intros dv Hdv. apply in_map_iff in Hdv. destruct Hdv as (h & <- & _). set (x := lm_apply _ h).
    assert (Lx : List.length x = n).
    { unfold x. rewrite len_apply. apply (shape_mul n n n); [apply shape_scale, Sv| |exact Hn].
      unfold diag. rewrite map_length, Le. split; [now rewrite map_length, seq_length|].
      apply Forall_map, Forall_forall. intros. now rewrite map_length, seq_length. }
    assert (L' : List.length (lv_clip x (lv_sub lo c) (lv_sub hi c)) = n) by (rewrite clip_len; rewrite ?len_sub; lia).
    split; [rewrite len_add; lia|]. split; [rewrite len_add; lia|]. intros i Hi. rewrite len_add in Hi by lia.
    rewrite entry_add by lia. rewrite clip_entry by (rewrite ?len_sub; lia).
    pose proof (clip1_in (entry x i) (entry (lv_sub lo c) i) (entry (lv_sub hi c) i)) as K. rewrite !entry_sub in * by lia.
    specialize (Bc i ltac:(lia)). lra.
Qed.

(** ** The contract is met in dimensions 1 and 2 by the textbook formulas *)
Definition la1 : linalg := {|
  la_inv := fun m => match m with [[a]] => [[/ a]] | _ => m end;
  la_det := fun m => match m with [[a]] => a | _ => 0 end;
  la_eigvals := fun m => match m with [[a]] => [a] | _ => [] end;
  la_eigvecs := fun _ => [[1]] |}.
Definition gap (a b d : R) : R := sqrt ((a - d) ^ 2 + 4 * b ^ 2).
Definition la2 : linalg := {|
  la_inv := fun m => match m with [[a; b]; [c; d]] => let k := / (a * d - b * c) in [[k * d; - (k * b)]; [- (k * c); k * a]] | _ => m end;
  la_det := fun m => match m with [[a; b]; [c; d]] => a * d - b * c | _ => 0 end;
  la_eigvals := fun m => match m with [[a; b]; [c; d]] => [(a + d + gap a b d) / 2; (a + d - gap a b d) / 2] | _ => [] end;
  la_eigvecs := fun _ => [[3 / 5; - (4 / 5)]; [4 / 5; 3 / 5]] |}.

Lemma two_by_two a : positive_definite 2 a -> exists x b z, a = [[x; b]; [b; z]] /\ 0 < x /\ 0 < z /\ 0 < x * z - b * b.
Proof.
  intros ((L & F) & Sy & P). destruct a as [|r0 [|r1 [|? ?]]]; cbn in L; try lia.
  inversion F as [|? ? F0 F']; subst. inversion F' as [|? ? F1 _]; subst.
  destruct r0 as [|x [|b [|? ?]]]; cbn in F0; try lia. destruct r1 as [|c [|z [|? ?]]]; cbn in F1; try lia.
  specialize (Sy 0%nat 1%nat ltac:(lia) ltac:(lia)). cbn in Sy. subst c. exists x, b, z. split; [reflexivity|].
  pose proof (P [1; 0] eq_refl ltac:(exists 0%nat; cbn; lra)) as P1. pose proof (P [0; 1] eq_refl ltac:(exists 1%nat; cbn; lra)) as P2.
  cbn in P1, P2. assert (Hx : 0 < x) by lra. assert (Hz : 0 < z) by lra. split; [exact Hx|]. split; [exact Hz|].
  pose proof (P [- b; x] eq_refl ltac:(exists 1%nat; cbn; lra)) as P3. cbn in P3. nra.
Qed.
Theorem C87_contract_met_1 : numpy_contract 1 la1.
Proof.
  intros a ((L & F) & _ & P). destruct a as [|r0 [|? ?]]; cbn in L; try lia. inversion F as [|? ? F0 _]; subst. destruct r0 as [|x [|? ?]]; cbn in F0; try lia.
  pose proof (P [1] eq_refl ltac:(exists 0%nat; cbn; lra)) as P1. cbn in P1. cbn [la1 la_inv la_eigvals la_det].
  split; [|split; [reflexivity|split; [|split]]].
  - split; [now repeat constructor|]. split; [now repeat constructor|]. split; intros i j Hi Hj; assert (i = 0%nat) by lia; assert (j = 0%nat) by lia; subst; cbn; field; lra.
  - constructor; [|constructor]. exists [1]. split; [reflexivity|]. split; [exists 0%nat; cbn; lra|]. intros i Hi. assert (i = 0%nat) by lia. subst. cbn. ring.
  - intros v y Hv Ly. specialize (Hv x (or_introl eq_refl)). destruct y as [|y0 [|? ?]]; cbn in Ly; try lia. cbn. nra.
  - cbn. ring.
Qed.
Theorem C87_contract_met_2 : numpy_contract 2 la2.
Proof.
  intros a PD. destruct (two_by_two a PD) as (x & b & z & -> & Hx & Hz & D). cbn [la2 la_inv la_eigvals la_det].
  assert (Hg : 0 <= (x - z) ^ 2 + 4 * b ^ 2) by (pose proof (pow2_ge_0 (x - z)); pose proof (pow2_ge_0 b); lra). assert (G : gap x b z * gap x b z = (x - z) ^ 2 + 4 * b ^ 2) by (unfold gap; now apply sqrt_sqrt).
  assert (Gp : 0 <= gap x b z) by apply sqrt_pos. set (r := gap x b z) in *.
  split; [|split; [reflexivity|split; [|split]]].
  - split; [now repeat constructor|]. split; [now repeat constructor|].
    split; intros i j Hi Hj; destruct i as [|[|i]], j as [|[|j]]; try lia; cbn; field; lra.
  - assert (E : forall v, (v - x) * (v - z) = b * b -> eigenvalue 2 [[x; b]; [b; z]] v).
    { intros v Hv. destruct (Req_dec b 0) as [-> |NB].
      - destruct (Req_dec v x) as [-> |NX].
        + exists [1; 0]. split; [reflexivity|]. split; [exists 0%nat; cbn; lra|]. intros [|[|i]] Hi; try lia; cbn; ring.
        + assert (v = z) by nra. subst. exists [0; 1]. split; [reflexivity|]. split; [exists 1%nat; cbn; lra|]. intros [|[|i]] Hi; try lia; cbn; ring.
      - exists [b; v - x]. split; [reflexivity|]. split; [exists 0%nat; cbn; lra|]. intros [|[|i]] Hi; try lia; cbn; lra. }
    repeat constructor; apply E; nra.
  - intros v y Hv Ly. destruct y as [|p [|q [|? ?]]]; cbn in Ly; try lia. cbn. specialize (Hv _ (or_intror (or_introl eq_refl))).
    assert (V1 : v <= (x + z - r) / 2) by exact Hv. clear Hv.
    assert (A : r >= x - z) by nra. assert (A' : r >= z - x) by nra. assert (B1 : 0 <= x - v) by lra. assert (B2 : 0 <= z - v) by lra.
    assert (B3 : b * b <= (x - v) * (z - v)).
    { assert (E : (x - (x + z - r) / 2) * (z - (x + z - r) / 2) = b * b) by nra. rewrite <- E. apply Rmult_le_compat; lra. }
    assert (0 <= (x - v) * (p * p) + 2 * b * (p * q) + (z - v) * (q * q)); [|lra].
    destruct (Req_dec (x - v) 0) as [Z0|NZ].
    + assert (b = 0) by nra. subst b. nra.
    + assert (0 < x - v) by lra. assert (0 <= (x - v) * ((x - v) * (p * p) + 2 * b * (p * q) + (z - v) * (q * q))).
      { replace ((x - v) * ((x - v) * (p * p) + 2 * b * (p * q) + (z - v) * (q * q))) with (((x - v) * p + b * q) * ((x - v) * p + b * q) + ((x - v) * (z - v) - b * b) * (q * q)) by ring.
        pose proof (Rle_0_sqr ((x - v) * p + b * q)) as Q1. pose proof (Rle_0_sqr q) as Q2. unfold Rsqr in *. nra. }
      nra.
  - cbn. nra.
Qed.

(** A concrete data set of two features that meets the hypotheses. *)
Example C87_nonvacuous :
  let data := Dataset [[1; 2]; [3; -1]; [0; 1]] [-1; 4; -1] in
  well_formed 2 data /\ explained 2 [1; -1] data /\ boxed [0; -2] [1; -1] [2; 0] /\ is_consistent_dataset la2 data (Some ([0; -2], [2; 0])) = Ok true.
Proof.
  intros data. assert (W : well_formed 2 data) by (split; [lia|]; split; [cbn; lia|]; split; [reflexivity|repeat constructor]).
  assert (E : explained 2 [1; -1] data).
  { split; [reflexivity|]. split; [reflexivity|]. split; [repeat constructor|]. intros [|[|[|k]]] Hk; cbn in Hk; try lia; cbn; ring. }
  assert (B : boxed [0; -2] [1; -1] [2; 0]) by (split; [reflexivity|]; split; [reflexivity|]; intros [|[|i]] Hi; cbn in Hi; try lia; cbn; lra).
  split; [exact W|]. split; [exact E|]. split; [exact B|]. exact (C87_never_rejected la2 2 data [0; -2] [2; 0] [1; -1] C87_contract_met_2 W E B).
Qed.

Lemma ln_le_id x : 0 < x -> ln x <= x.
Proof. intros H. destruct (Rle_or_lt (ln x) x) as [|L]; [assumption|]. apply exp_increasing in L. rewrite exp_ln in L by assumption. pose proof (exp_ineq1_le x). lra. Qed.
(** Data that no parameter of the box explains can be rejected: feature 1 gave output 0,
    then 1000. *)
Theorem C87_inconsistent_rejected : is_consistent_dataset la1 (Dataset [[1]; [1]] [0; 1000]) (Some ([-1], [1])) = Ok false.
Proof.
  unfold is_consistent_dataset. cbn [rev app ds_outputs ds_features]. unfold confidence_polytope.
  assert (Eb : box_bound [-1] [1] = 1).
  { unfold box_bound. cbn. rewrite Rabs_left, Rabs_R1 by lra. unfold Rmax. repeat destruct (Rle_dec _ _); lra. }
  rewrite Eb. set (g := gramian [[1]] LAMBDA SIGMA).
  assert (Eg : g = [[10 + LAMBDA]]) by (unfold g, gramian, SIGMA; cbn; f_equal; f_equal; field).
  unfold confidence_ellipsoid. cbn [ds_features ds_outputs]. fold g. rewrite Eg. cbn -[LAMBDA SIGMA DELTA sqrt ln Rmult Rdiv INR clip1 Rltb].
  f_equal. apply Rltb_false. unfold LAMBDA, SIGMA, DELTA. 
  set (s := sqrt (2 * ln _)).
  replace (lv_dot [1] [1]) with 1 by (cbn; ring). change (lv_min (la_eigvals la1 [[10 + 1 / 100000]])) with (10 + 1 / 100000).
  match goal with |- context [clip1 ?a (-1) 1] => replace (clip1 a (-1) 1) with 0
    by (rewrite ?Rmult_0_r, ?Rplus_0_r, ?Rmult_0_r; unfold clip1, Rmin, Rmax; repeat destruct (Rle_dec _ _); lra) end.
  replace (lv_dot [0] [1]) with 0 by (cbn; ring).
  rewrite Rminus_0_r, Rabs_right by lra. change (INR 1) with 1.
  assert (S1 : sqrt (1 / (10 + 1 / 100000)) <= 1) by (rewrite <- sqrt_1 at 3; apply sqrt_le_1_alt; replace (1 / (10 + 1 / 100000)) with (100000 / 1000001) by field; lra).
  assert (S2 : sqrt (1 / 100000 * 1) <= 1) by (apply Rle_trans with (sqrt 1); [apply sqrt_le_1_alt; lra|rewrite sqrt_1; lra]).
  assert (S3 : s <= 200).
  { unfold s. rewrite <- (sqrt_square 200) by lra. apply sqrt_le_1_alt. replace ((10 + 1 / 100000) / (1 / 100000 * 1)) with 1000001 by field. set (q := sqrt 1000001).
    assert (Q : q <= 1001) by (unfold q; rewrite <- (sqrt_square 1001) by lra; apply sqrt_le_1_alt; lra).
    assert (Q0 : 0 < q) by (apply sqrt_lt_R0; lra). replace (q / (1 / 10)) with (10 * q) by field. pose proof (ln_le_id (10 * q) ltac:(lra)). lra. }
  pose proof (sqrt_pos (1 / (10 + 1 / 100000))). pose proof (sqrt_pos (1 / 100000 * 1)). assert (0 <= s) by apply sqrt_pos. nra.
Qed.

(** Finding: the vertices of [confidence_polytope] need not surround the true parameter,
    although the data are exact: the axes of the polytope are read from the inverse of
    the matrix of eigenvectors, so that the region is turned the wrong way.  Here the
    eigenvectors of the Gramian matrix are the unit vectors (3/5, 4/5) and (-4/5, 3/5). *)
Definition skew_data : dataset := Dataset [[3 / 5; 4 / 5]] [0].
Lemma skew_gram : gramian [[3 / 5; 4 / 5]] LAMBDA SIGMA = [[18 / 5 + LAMBDA; 24 / 5]; [24 / 5; 32 / 5 + LAMBDA]].
Proof. unfold gramian, SIGMA. cbn. f_equal; [f_equal; [|f_equal]|f_equal; f_equal; [|f_equal]]; field. Qed.
Lemma skew_gap l : gap (18 / 5 + l) (24 / 5) (32 / 5 + l) = 10.
Proof. unfold gap. rewrite <- (sqrt_square 10) by lra. f_equal. field. Qed.
Theorem C87_polytope_excludes_true_parameter :
  well_formed 2 skew_data /\ explained 2 [- (4 / 5); 3 / 5] skew_data /\ boxed [-1; -1] [- (4 / 5); 3 / 5] [1; 1] /\
  numpy_contract 2 la2 /\
  (let '(theta, vertices, g, _) := confidence_polytope la2 skew_data [-1; -1] [1; 1] in
   (forall i j, (i < 2)%nat -> (j < 2)%nat -> sum_to 2 (fun k => coef g i k * coef (la_eigvecs la2 g) k j) = entry (la_eigvals la2 g) j * coef (la_eigvecs la2 g) i j) /\
   ~ in_polytope 2 theta vertices [- (4 / 5); 3 / 5]).
Proof.
  split; [split; [lia|]; split; [cbn; lia|]; split; [reflexivity|constructor; [reflexivity|constructor]]|].
  split; [split; [reflexivity|]; split; [reflexivity|]; split; [repeat constructor|]; intros [|k] Hk; cbn in Hk; try lia; cbn; field|].
  split; [split; [reflexivity|]; split; [reflexivity|]; intros [|[|i]] Hi; cbn in Hi; try lia; cbn; lra|].
  split; [exact C87_contract_met_2|]. unfold confidence_polytope. 
  assert (Eb : box_bound [-1; -1] [1; 1] = 1).
  { unfold box_bound. cbn. rewrite Rabs_left, Rabs_R1 by lra. unfold Rmax. repeat destruct (Rle_dec _ _); lra. }
  rewrite Eb. destruct (confidence_ellipsoid la2 skew_data LAMBDA DELTA SIGMA 1) as [[th g] beta] eqn:Ec.
  assert (Eg : g = gramian [[3 / 5; 4 / 5]] LAMBDA SIGMA) by (unfold confidence_ellipsoid in Ec; cbn [ds_features skew_data] in Ec; congruence).
  rewrite skew_gram in Eg.
  assert (Lth : th = [0; 0]).
  { apply (f_equal (fun c => fst (fst c))) in Ec. unfold confidence_ellipsoid in Ec. cbn [ds_features ds_outputs skew_data fst] in Ec. rewrite skew_gram in Ec. rewrite <- Ec.
    cbn -[LAMBDA SIGMA]. f_equal; [ring|f_equal; ring]. }
  assert (Hbeta : 1 <= beta).
  { apply (f_equal snd) in Ec. unfold confidence_ellipsoid in Ec. cbn [ds_features ds_outputs skew_data fst snd] in Ec. rewrite skew_gram in Ec. rewrite <- Ec. clear.
    match goal with |- context [List.length ?l] => set (d := List.length l); assert (Hd : d = 2%nat) by reflexivity; rewrite Hd end.
    pose proof (sqrt_pos (LAMBDA * INR 2)). apply Rle_trans with (sqrt 1); [rewrite sqrt_1; lra|].
    assert (sqrt 1 <= sqrt (2 * ln (sqrt (la_det la2 [[18 / 5 + LAMBDA; 24 / 5]; [24 / 5; 32 / 5 + LAMBDA]] / LAMBDA ^ 2) / DELTA))); [|lra].
    apply sqrt_le_1_alt. set (q := _ / LAMBDA ^ 2). assert (Q : 1 <= q) by (replace q with (1000001) by (unfold q, LAMBDA; cbn; field); lra).
    assert (1 <= sqrt q) by (rewrite <- sqrt_1; now apply sqrt_le_1_alt).
    assert (L1 : ln (exp 1) <= ln (sqrt q / DELTA)); [|rewrite ln_exp in L1; lra].
    assert (X : exp 1 < sqrt q / DELTA) by (pose proof exp_le_3; unfold DELTA; replace (sqrt q / (1 / 10)) with (10 * sqrt q) by field; lra). left. apply ln_increasing; [apply exp_pos|exact X]. }
  assert (S1 : 1 <= sqrt beta) by (rewrite <- sqrt_1; now apply sqrt_le_1_alt).
  clear Ec. subst th g. cbv zeta. split.
  - intros [|[|i]] [|[|j]] Hi Hj; try lia; cbn -[LAMBDA]; rewrite skew_gap; field.
  - set (s := sqrt beta) in *. clearbody s. cbn [la2 la_eigvals la_eigvecs la_inv]. rewrite skew_gap.
    replace ((18 / 5 + LAMBDA + (32 / 5 + LAMBDA) + 10) / 2) with (10 + LAMBDA) by field.
    replace ((18 / 5 + LAMBDA + (32 / 5 + LAMBDA) - 10) / 2) with LAMBDA by field.
    set (s1 := sqrt (1 / (10 + LAMBDA))) in *. set (s2 := sqrt (1 / LAMBDA)) in *.
    assert (H1 : 0 <= s1 <= 1).
    { split; [apply sqrt_pos|]. unfold s1. apply Rle_trans with (sqrt 1); [|rewrite sqrt_1; lra]. apply sqrt_le_1_alt. unfold LAMBDA. replace (1 / (10 + 1 / 100000)) with (100000 / 1000001) by field. lra. }
    assert (H2 : 300 <= s2).
    { unfold s2. rewrite <- (sqrt_square 300) by lra. apply sqrt_le_1_alt. unfold LAMBDA. replace (1 / (1 / 100000)) with 100000 by field. lra. }
    intros (w & Lw & Fw & Sw & E). pose proof (E 0%nat ltac:(lia)) as E0. pose proof (E 1%nat ltac:(lia)) as E1. clear E.
    cbn -[clip1] in Lw. destruct w as [|w0 [|w1 [|w2 [|w3 [|? ?]]]]]; cbn in Lw; try lia.
    cbn -[clip1] in E0, E1.
    fold s1 s2 in E0, E1. clearbody s1 s2.
    assert (K : 3 / 5 * (3 / 5) - - (4 / 5) * (4 / 5) = 1) by field. rewrite K, Rinv_1 in E0, E1.
    assert (Z : clip1 0 (-1) 1 = 0) by (unfold clip1, Rmin, Rmax; repeat destruct (Rle_dec _ _); lra). rewrite Z in E0, E1.
    assert (Hi : forall a, 1 <= a -> clip1 a (-1 - 0) (1 - 0) = 1) by (intros; unfold clip1, Rmin, Rmax; repeat destruct (Rle_dec _ _); lra).
    assert (Lo : forall a, a <= -1 -> clip1 a (-1 - 0) (1 - 0) = -1) by (intros; unfold clip1, Rmin, Rmax; repeat destruct (Rle_dec _ _); lra).
    assert (A : 0 <= s * s1 <= s) by nra. assert (B : 300 * s <= s * s2) by nra.
    repeat match type of E0 with context [clip1 ?a (-1 - 0) (1 - 0)] => first [rewrite (Lo a) in E0 by lra | rewrite (Hi a) in E0 by lra] end.
    repeat match type of E1 with context [clip1 ?a (-1 - 0) (1 - 0)] => first [rewrite (Lo a) in E1 by lra | rewrite (Hi a) in E1 by lra] end.
    lra.
Qed.

Print Assumptions C87_estimate_minimises.
Print Assumptions C87_radius_defined.
Print Assumptions C87_true_parameter_in_ellipsoid.
Print Assumptions C87_never_rejected.
Print Assumptions C87_within_the_box.
Print Assumptions C87_contract_met_1.
Print Assumptions C87_contract_met_2.
Print Assumptions C87_inconsistent_rejected.
Print Assumptions C87_polytope_excludes_true_parameter.
