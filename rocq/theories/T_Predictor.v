(** Property theorem C51 (interval.py, class LPV). *)
From Verif Require Import Prelude M_Utils M_Lane M_Interval S_Geometry S_Interval P_Base P_Interval.
From Coq Require Import Lra Lia Psatz.
Open Scope R_scope.

(** ** C51: predictors enclose all trajectories *)
(** One step of the box predictor, any matrix and any step length. *)
Theorem C51_naive_step_encloses : forall n q m a0 da b d omega u xi dt x x',
  shape n n a0 -> Forall (shape n n) da -> da <> [] -> shape n q d -> shape n m b -> List.length u = m -> 0 <= dt ->
  boxed (fst xi) x (snd xi) -> follows n q m a0 da b d omega u dt x x' ->
  boxed (fst (naive_step a0 da b d omega u xi dt)) x' (snd (naive_step a0 da b d omega u xi dt)).
Proof. exact naive_sound. Qed.
Print Assumptions C51_naive_step_encloses.
(** One step of the polytopic predictor, for Metzler matrices and steps that are
    short for its diagonal. *)
Theorem C51_metzler_step_encloses : forall n q m a0 da b d omega u xi dt x x',
  shape n n a0 -> Forall (shape n n) da -> da <> [] -> shape n q d -> shape n m b -> List.length u = m -> 0 <= dt ->
  (forall i j, (i < n)%nat -> (j < n)%nat -> i <> j -> 0 <= coef a0 i j) -> (forall i, (i < n)%nat -> 0 <= 1 + dt * coef a0 i i) ->
  boxed (fst xi) x (snd xi) -> follows n q m a0 da b d omega u dt x x' ->
  boxed (fst (metzler_step a0 da b d omega u xi dt)) x' (snd (metzler_step a0 da b d omega u xi dt)).
Proof. exact metzler_sound. Qed.
Print Assumptions C51_metzler_step_encloses.

(** Repeated prediction: at each step the control is set, then [step(dt)]. *)
Fixpoint predict (s : lpv) (dt : R) (us : list lvec) : lpv :=
  match us with [] => s | u :: us' => predict (lpv_step (set_control s u None) dt) dt us' end.
(** Repeated motion of the real system under the same controls, with arbitrary
    parameters and perturbations at each step. *)
Inductive driven (n q m : nat) (a : lmat) (da : list lmat) (b d : lmat) (omega : itv lvec) (c : lvec) (dt : R) : lvec -> list lvec -> lvec -> Prop :=
| driven_nil : forall x, driven n q m a da b d omega c dt x [] x
| driven_cons : forall x u us x1 x2, List.length u = m -> follows_about n q m a da b d omega u c dt x x1 ->
    driven n q m a da b d omega c dt x1 us x2 -> driven n q m a da b d omega c dt x (u :: us) x2.
Lemma driven_inv_nil n q m a da b d omega c dt x x' : driven n q m a da b d omega c dt x [] x' -> x' = x.
Proof. now inversion 1. Qed.
Lemma driven_inv_cons n q m a da b d omega c dt x u us x' : driven n q m a da b d omega c dt x (u :: us) x' ->
  exists x1, List.length u = m /\ follows_about n q m a da b d omega u c dt x x1 /\ driven n q m a da b d omega c dt x1 us x'.
Proof. inversion 1 as [|? ? ? x1 ? Lu F D]; exists x1; auto. Qed.
(** What is reported of the predictor's interval: converted back to the original coordinates. *)
Definition reported (s : lpv) : itv lvec := change_interval_back (lp_coord s) (lp_center s) (lp_xi s).

Lemma predict_sound n q m a da b d omega c dt t ti us : (0 < n)%nat -> inverses n t ti -> shape n n a -> Forall (shape n n) da -> da <> [] ->
  shape n m b -> shape n q d -> List.length c = n -> 0 <= dt ->
  (forall i j, (i < n)%nat -> (j < q)%nat -> sum_to n (fun l => coef ti i l * coef d l j) = coef d i j) ->
  let ca := change_matrix (Some (t, ti)) a in
  (is_metzler ca = false \/ (truly_metzler n ca /\ forall i, (i < n)%nat -> 0 <= 1 + dt * coef ca i i)) ->
  forall s x x', lp_a0 s = ca -> lp_da s = map (change_matrix (Some (t, ti))) da -> lp_b s = change_input (Some (t, ti)) b -> lp_d s = d -> lp_omega s = omega ->
  lp_coord s = Some (t, ti) -> lp_center s = c -> List.length x = n ->
  boxed (fst (lp_xi s)) (change_vector (Some (t, ti)) c x) (snd (lp_xi s)) ->
  driven n q m a da b d omega c dt x us x' ->
  List.length x' = n /\ boxed (fst (reported (predict s dt us))) x' (snd (reported (predict s dt us))).
Proof.
  intros Hn I Sa Fd Nd Sb Sd Lc Hdt HD ca Hs. induction us as [|u us IH]; intros s x x' Ea Eda Eb Ed Eo Ec Ece Lx B D.
  - apply driven_inv_nil in D. rewrite D. split; [exact Lx|]. cbn [predict]. unfold reported. rewrite Ec, Ece. now apply (change_back_sound n t ti).
  - apply driven_inv_cons in D as (x1 & Lu & F & D'). cbn [predict].
    pose proof I as (St & Si & _ & _).
    pose proof (changed_follows n q m a da b d omega u c dt x x1 t ti Hn I Sa Fd Sb Sd Lc HD F) as F'.
    apply (IH (lpv_step (set_control s u None) dt) x1 x'); try assumption; try reflexivity.
    + apply F.
    + apply (lpv_step_sound n q m (set_control s u None) dt (change_vector (Some (t, ti)) c x)); cbn [set_control lp_xi lp_a0 lp_da lp_b lp_d lp_omega lp_u].
      * unfold lpv_shape. cbn [set_control lp_a0 lp_da lp_b lp_d lp_u]. rewrite Ea, Eda, Eb, Ed. split; [apply shape_change; assumption|].
        split; [rewrite Forall_map; eapply Forall_impl; [|exact Fd]; intros; apply shape_change; assumption|]. split; [destruct da; [easy | discriminate]|].
        split; [exact Sd|]. split; [|exact Lu]. unfold change_input. eapply shape_mul; eassumption.
      * exact Hdt.
      * unfold sound_step. cbn [set_control lp_a0]. rewrite Ea. exact Hs.
      * exact B.
      * rewrite Ea, Eda, Eb, Ed, Eo. exact F'.
Qed.

(** Metzler closed loop: for any number of steps, the reported interval contains
    the state of every trajectory started in the initial interval. *)
Theorem C51_metzler_system_enclosed : forall eig n q m x0 a0 da b d omega u k c xi dt us x x',
  (0 < n)%nat -> shape n n a0 -> Forall (shape n n) da -> da <> [] -> shape n m b -> shape m n k -> (0 < m)%nat -> shape n q d ->
  List.length c = n -> List.length x = n -> 0 <= dt ->
  let a := lm_add a0 (lm_mul b k) in
  (forall i j, (i < n)%nat -> (j < n)%nat -> i <> j -> 0 <= coef a i j) -> (forall i, (i < n)%nat -> 0 <= 1 + dt * coef a i i) ->
  boxed (fst xi) x (snd xi) -> driven n q m a da b d omega c dt x us x' ->
  let s := predict (lpv_make eig x0 a0 da b d omega u k c (Some xi)) dt us in
  boxed (fst (reported s)) x' (snd (reported s)).
Proof.
  intros eig n q m x0 a0 da b d omega u k c xi dt us x x' Hn Sa Fd Nd Sb Sk Hm Sd Lc Lx Hdt a Mz Dg Bx D s.
  assert (Sbk : shape n n (lm_mul b k)) by (eapply shape_mul; eassumption). assert (Sac : shape n n a) by (apply shape_add; assumption).
  assert (M : is_metzler a = true) by (apply (is_metzler_intro n); [exact Sac|]; intros i j Hi Hj Ne; pose proof (Mz i j Hi Hj Ne); unfold METZLER_EPS; lra).
  assert (La : List.length a = n) by apply Sac.
  assert (C : coordinates_of eig a = Some (eye n, eye n)) by (unfold coordinates_of; rewrite M, La; reflexivity).
  assert (CM : forall z, shape n n z -> change_matrix (Some (eye n, eye n)) z = z) by (intros z Sz; unfold change_matrix; rewrite (mul_eye_l n n) by assumption; apply (mul_eye_r n n); assumption).
  unfold s. eapply (predict_sound n q m a da b d omega c dt (eye n) (eye n) us Hn (eye_inverses n) Sac Fd Nd Sb Sd Lc Hdt);
    try (unfold lpv_make; fold a; rewrite C; reflexivity).
  - intros i j Hi Hj. rewrite <- (sum_if n i (fun l => coef d l j) Hi). apply sum_ext. intros l Hl. rewrite coef_eye by assumption. reflexivity.
  - right. cbv zeta. rewrite CM by exact Sac. split; [exact Mz | exact Dg].
  - exact Lx.
  - unfold lpv_make. fold a. rewrite C. cbn [lp_xi fst snd]. unfold change_vector. destruct (boxed_len_l _ _ _ n Bx Lx) as [L0 L1]. destruct Bx as (_ & _ & Bx).
    rewrite !apply_eye by (rewrite len_sub; congruence). apply (boxed_intro n); try (rewrite len_sub; congruence). intros i Hi. rewrite !entry_sub by congruence.
    rewrite Lx in Bx. pose proof (Bx i Hi). lra.
  - exact D.
Qed.
Print Assumptions C51_metzler_system_enclosed.

(** Non-Metzler closed loop with eigenvector coordinates (t, ti): enclosed when the
    initial state is a point and the perturbation matrix is the same in the new coordinates
    (for instance without perturbation). *)
Theorem C51_rotated_system_enclosed : forall eig n q m x0 a0 da b d omega u k c dt us x' t ti,
  (0 < n)%nat -> shape n n a0 -> Forall (shape n n) da -> da <> [] -> shape n m b -> shape m n k -> (0 < m)%nat -> shape n q d ->
  List.length c = n -> List.length x0 = n -> 0 <= dt ->
  let a := lm_add a0 (lm_mul b k) in
  is_metzler a = false -> eig a = Some (t, ti) -> inverses n t ti ->
  (forall i j, (i < n)%nat -> (j < q)%nat -> sum_to n (fun l => coef ti i l * coef d l j) = coef d i j) ->
  let ca := change_matrix (Some (t, ti)) a in
  (is_metzler ca = false \/ ((forall i j, (i < n)%nat -> (j < n)%nat -> i <> j -> 0 <= coef ca i j) /\ forall i, (i < n)%nat -> 0 <= 1 + dt * coef ca i i)) ->
  driven n q m a da b d omega c dt x0 us x' ->
  let s := predict (lpv_make eig x0 a0 da b d omega u k c None) dt us in
  boxed (fst (reported s)) x' (snd (reported s)).
Proof.
  intros eig n q m x0 a0 da b d omega u k c dt us x' t ti Hn Sa Fd Nd Sb Sk Hm Sd Lc Lx Hdt a NM Eg I HD ca Hs D s.
  assert (Sbk : shape n n (lm_mul b k)) by (eapply shape_mul; eassumption). assert (Sac : shape n n a) by (apply shape_add; assumption).
  assert (C : coordinates_of eig a = Some (t, ti)) by (unfold coordinates_of; rewrite NM; exact Eg).
  unfold s. eapply (predict_sound n q m a da b d omega c dt t ti us Hn I Sac Fd Nd Sb Sd Lc Hdt HD Hs); try (unfold lpv_make; fold a; rewrite C; reflexivity).
  - exact Lx.
  - unfold lpv_make. fold a. rewrite C. cbn [lp_xi fst snd].
    split; [reflexivity|]. split; [reflexivity|]. intros; lra.
  - exact D.
Qed.
Print Assumptions C51_rotated_system_enclosed.

(** Non-Metzler closed loop without real eigenvector coordinates: the box predictor
    works in the original coordinates and ignores the centre; enclosed for a zero centre. *)
Theorem C51_unrotated_system_enclosed : forall eig n q m x0 a0 da b d omega u k c xi dt us x x',
  (0 < n)%nat -> shape n n a0 -> Forall (shape n n) da -> da <> [] -> shape n m b -> shape m n k -> (0 < m)%nat -> shape n q d ->
  List.length x = n -> 0 <= dt -> (forall i, entry c i = 0) ->
  let a := lm_add a0 (lm_mul b k) in
  is_metzler a = false -> eig a = None ->
  boxed (fst xi) x (snd xi) -> driven n q m a da b d omega c dt x us x' ->
  let s := predict (lpv_make eig x0 a0 da b d omega u k c (Some xi)) dt us in
  boxed (fst (reported s)) x' (snd (reported s)).
Proof.
  intros eig n q m x0 a0 da b d omega u k c xi dt us x x' Hn Sa Fd Nd Sb Sk Hm Sd Lx Hdt Hc a NM Eg Bx D s.
  assert (Sbk : shape n n (lm_mul b k)) by (eapply shape_mul; eassumption). assert (Sac : shape n n a) by (apply shape_add; assumption).
  assert (C : coordinates_of eig a = None) by (unfold coordinates_of; rewrite NM; exact Eg).
  assert (G : forall us s x x', lp_a0 s = a -> lp_da s = da -> lp_b s = b -> lp_d s = d -> lp_omega s = omega -> lp_coord s = None -> List.length x = n ->
     boxed (fst (lp_xi s)) x (snd (lp_xi s)) -> driven n q m a da b d omega c dt x us x' -> boxed (fst (reported (predict s dt us))) x' (snd (reported (predict s dt us)))).
  { clear - Hn Sac Fd Nd Sb Sd Hdt Hc NM. induction us as [|u us IH]; intros s x x' Ea Eda Eb Ed Eo Ec Lx B D.
    - apply driven_inv_nil in D. rewrite D. cbn [predict]. unfold reported, change_interval_back. rewrite Ec. exact B.
    - apply driven_inv_cons in D as (x1 & Lu & F & D'). cbn [predict].
      assert (F' : follows n q m a da b d omega u dt x x1).
      { destruct F as (F1 & F2 & lam & w & F3 & F4 & F5 & F6 & E). split; [exact F1|]. split; [exact F2|]. exists lam, w. split; [exact F3|]. split; [exact F4|]. split; [exact F5|].
        split; [exact F6|]. intros i Hi. rewrite (E i Hi). do 3 f_equal. f_equal. apply sum_ext. intros j _. rewrite Hc. ring. }
      apply (IH (lpv_step (set_control s u None) dt) x1 x'); try assumption; try reflexivity.
      + apply F.
      + apply (lpv_step_sound n q m (set_control s u None) dt x); cbn [set_control lp_xi lp_a0 lp_da lp_b lp_d lp_omega lp_u]; try assumption.
        * unfold lpv_shape. cbn [set_control lp_a0 lp_da lp_b lp_d lp_u]. rewrite Ea, Eda, Eb, Ed. auto 10.
        * left. cbn [set_control lp_a0]. rewrite Ea. exact NM.
        * rewrite Ea, Eda, Eb, Ed, Eo. exact F'. }
  unfold s. apply (G us _ x x'); try (unfold lpv_make; fold a; rewrite C; reflexivity); try assumption.
  - unfold lpv_make. fold a. cbn [lp_da]. rewrite C. cbn [change_matrix]. apply map_id.
  - unfold lpv_make. fold a. rewrite C. cbn [lp_xi change_vector fst snd]. exact Bx.
Qed.
Print Assumptions C51_unrotated_system_enclosed.

(** ** Where the enclosure fails *)
Local Ltac comp := cbn [lpv_make lpv_step set_control reported predict lp_a0 lp_da lp_b lp_d lp_omega lp_u lp_k lp_center lp_coord lp_x lp_xi
  lm_mul lm_add lm_sub lm_scale lm_apply lm_sum lm_col lv_add lv_sub lv_scale lv_dot map2 map fold_left seq List.length hd nth fst snd
  change_matrix change_input change_vector change_interval_back intervals_scaling metzler_step naive_step eye Nat.eqb entry coef sum_to
  intervals_product_mv intervals_product_sm intervals_product_with].
Local Ltac projs := cbv beta iota zeta delta [lp_a0 lp_da lp_b lp_d lp_omega lp_u lp_k lp_center lp_coord lp_x lp_xi].
Local Ltac cells := repeat match goal with |- _ :: _ = _ :: _ => apply f_equal2 | |- (_, _) = (_, _) => apply f_equal2 end; try reflexivity; lra.
Local Ltac parts := unfold pos_part, neg_part; repeat first [rewrite Rmax_left by lra | rewrite Rmax_right by lra].
Local Ltac metz_false i j := match goal with |- is_metzler ?a = false => destruct (is_metzler a) eqn:E; [exfalso | reflexivity];
  apply (is_metzler_true a i j) in E; [cbn in E; unfold METZLER_EPS in E; lra | cbn; lia | cbn; lia | lia] end.
Local Ltac metz_true n := apply (is_metzler_intro n); [split; [reflexivity | repeat constructor] |];
  intros i j Hi Hj Ne; destruct i as [|[|i]], j as [|[|j]]; try lia; unfold METZLER_EPS; cbn; try lra.

Definition ex_a : lmat := [[-1; -3/4]; [0; -2]].
Definition ex_t : lmat := [[1; 3/5]; [0; 4/5]].
Definition ex_ti : lmat := [[1; -3/4]; [0; 5/4]].
Definition ex_zero : lmat := [[0; 0]; [0; 0]].
Lemma ex_inverses : inverses 2 ex_t ex_ti.
Proof.
  split; [split; [reflexivity | repeat constructor]|]. split; [split; [reflexivity | repeat constructor]|].
  split; intros i j Hi Hj; destruct i as [|[|i]], j as [|[|j]]; try lia; cbn; field.
Qed.
Lemma ex_closed : lm_add ex_a (lm_mul [[0]; [0]] [[0; 0]]) = ex_a.
Proof. unfold ex_a. comp. cells. Qed.
Lemma ex_diag : change_matrix (Some (ex_t, ex_ti)) ex_a = [[-1; 0]; [0; -2]].
Proof. unfold ex_a, ex_t, ex_ti. comp. cells. Qed.
Lemma ex_zero_change : change_matrix (Some (ex_t, ex_ti)) ex_zero = ex_zero.
Proof. unfold ex_zero, ex_t, ex_ti. comp. cells. Qed.
Lemma ex_not_metzler : is_metzler ex_a = false.
Proof. unfold ex_a. metz_false 0%nat 1%nat. Qed.
Lemma ex_diag_metzler : is_metzler [[-1; 0]; [0; -2]] = true.
Proof. metz_true 2%nat. Qed.

(** The matrix of perturbations is not expressed in the new coordinates: a
    perturbation in [-1, 1] on the second coordinate of a stable system takes it out of
    the reported interval in one step of 0.1 s. *)
Theorem C51_perturbation_not_rotated : forall eig, eig ex_a = Some (ex_t, ex_ti) ->
  let s := lpv_make eig [0; 0] ex_a [ex_zero] [[0]; [0]] [[0]; [1]] ([-1], [1]) [0] [[0; 0]] [0; 0] None in
  let r := reported (predict s (1/10) [[0]]) in
  inverses 2 ex_t ex_ti /\
  driven 2 1 1 ex_a [ex_zero] [[0]; [0]] [[0]; [1]] ([-1], [1]) [0; 0] (1/10) [0; 0] [[0]] [0; 1/10] /\
  entry (snd r) 1 = 8/100 /\ ~ boxed (fst r) [0; 1/10] (snd r).
Proof.
  intros eig Eg s r. split; [exact ex_inverses|].
  assert (D : driven 2 1 1 ex_a [ex_zero] [[0]; [0]] [[0]; [1]] ([-1], [1]) [0; 0] (1/10) [0; 0] [[0]] [0; 1/10]).
  { eapply driven_cons; [reflexivity | | apply driven_nil]. split; [reflexivity|]. split; [reflexivity|]. exists [0], [1].
    split; [reflexivity|]. split; [intros k Hk; destruct k; [|cbn in Hk; lia]; cbn; lra|]. split; [reflexivity|].
    split; [split; [reflexivity|]; split; [reflexivity|]; intros i Hi; destruct i; [|cbn in Hi; lia]; cbn; lra|].
    intros i Hi. destruct i as [|[|i]]; [| |lia]; unfold ex_a, ex_zero; comp; lra. }
  assert (Es : entry (snd r) 1 = 8/100).
  { unfold r, s, lpv_make. rewrite ex_closed. unfold coordinates_of. rewrite ex_not_metzler, Eg. cbn [map]. rewrite ex_diag, ex_zero_change.
    unfold predict, set_control, lpv_step. projs. rewrite ex_diag_metzler. unfold reported, ex_t, ex_ti, ex_zero. comp. parts. lra. }
  split; [exact D|]. split; [exact Es|]. intros (_ & _ & B). specialize (B 1%nat ltac:(cbn; lia)). rewrite Es in B. cbn in B. lra.
Qed.
Print Assumptions C51_perturbation_not_rotated.

(** The two ends of an initial interval are each changed to the new coordinates, which does
    not keep their order: after one step the reported lower bound is above the
    upper bound and both initial corners have escaped, the one at rest included. *)
Theorem C51_initial_interval_inverted : forall eig, eig ex_a = Some (ex_t, ex_ti) ->
  let s := lpv_make eig [0; 0] ex_a [ex_zero] [[0]; [0]] [[0]; [0]] ([-1], [1]) [0] [[0; 0]] [0; 0] (Some ([0; 0], [0; 1])) in
  let r := reported (predict s (1/10) [[0]]) in
  let moves x x' := driven 2 1 1 ex_a [ex_zero] [[0]; [0]] [[0]; [0]] ([-1], [1]) [0; 0] (1/10) x [[0]] x' in
  moves [0; 0] [0; 0] /\ moves [0; 1] [-3/40; 8/10] /\
  entry (snd r) 0 < entry (fst r) 0 /\ ~ boxed (fst r) [0; 0] (snd r) /\ ~ boxed (fst r) [-3/40; 8/10] (snd r).
Proof.
  intros eig Eg s r moves.
  assert (D : moves [0; 0] [0; 0] /\ moves [0; 1] [-3/40; 8/10]).
  { split; (eapply driven_cons; [reflexivity | | apply driven_nil]; split; [reflexivity|]; split; [reflexivity|]; exists [0], [1];
    split; [reflexivity|]; split; [intros k Hk; destruct k; [|cbn in Hk; lia]; cbn; lra|]; split; [reflexivity|];
    split; [split; [reflexivity|]; split; [reflexivity|]; intros i Hi; destruct i; [|cbn in Hi; lia]; cbn; lra|];
    intros i Hi; destruct i as [|[|i]]; [| |lia]; unfold ex_a, ex_zero; comp; lra). }
  assert (Es : entry (snd r) 0 = -3/40 /\ entry (fst r) 0 = 0).
  { unfold r, s, lpv_make. rewrite ex_closed. unfold coordinates_of. rewrite ex_not_metzler, Eg. cbn [map]. rewrite ex_diag, ex_zero_change.
    unfold predict, set_control, lpv_step. projs. rewrite ex_diag_metzler. unfold reported, ex_t, ex_ti, ex_zero. comp. parts. lra. }
  destruct Es as [E1 E0]. split; [apply D|]. split; [apply D|]. rewrite E1, E0. split; [lra|].
  split; intros (_ & _ & B); specialize (B 0%nat ltac:(cbn; lia)); rewrite E1, E0 in B; cbn in B; lra.
Qed.
Print Assumptions C51_initial_interval_inverted.

(** The nominal state [x_t] ignores the centre: a system at rest at its centre 10 keeps
    its reported interval [10, 10] while the nominal state moves away. *)
Theorem C51_nominal_state_ignores_centre : forall eig,
  let s := lpv_make eig [10] [[-1]] [[[0]]] [[0]] [[0]] ([0], [0]) [0] [[0]] [10] None in
  let s1 := predict s (1/10) [[0]] in
  reported s1 = ([10], [10]) /\ lp_x s1 = [9].
Proof.
  intros eig s s1.
  assert (E : lm_add [[-1]] (lm_mul [[0]] [[0]]) = [[-1]]) by (comp; cells).
  assert (M : is_metzler [[-1]] = true) by metz_true 1%nat.
  assert (C : change_matrix (Some (eye 1, eye 1)) [[-1]] = [[-1]]) by (comp; cells).
  assert (R1 : lp_x s1 = [9]).
  { unfold s1, s, lpv_make. rewrite E. unfold coordinates_of. rewrite M. change (List.length [[-1]]) with 1%nat. rewrite C. unfold predict, set_control, lpv_step. projs. comp. cells. }
  split; [|exact R1].
  unfold s1, s, lpv_make. rewrite E. unfold coordinates_of. rewrite M. change (List.length [[-1]]) with 1%nat. rewrite C. unfold predict, set_control, lpv_step. projs. rewrite M. unfold reported. comp. parts.
  cells.
Qed.
Print Assumptions C51_nominal_state_ignores_centre.

(** A step longer than the fastest time constant inverts the interval. *)
Theorem C51_long_step_inverts : forall eig,
  let s := lpv_make eig [0] [[-1]] [[[0]]] [[0]] [[0]] ([0], [0]) [0] [[0]] [0] (Some ([0], [1])) in
  let r := reported (predict s 3 [[0]]) in
  driven 1 1 1 [[-1]] [[[0]]] [[0]] [[0]] ([0], [0]) [0] 3 [1] [[0]] [-2] /\ r = ([0], [-2]) /\ ~ boxed (fst r) [-2] (snd r).
Proof.
  intros eig s r.
  assert (E : lm_add [[-1]] (lm_mul [[0]] [[0]]) = [[-1]]) by (comp; cells).
  assert (M : is_metzler [[-1]] = true) by metz_true 1%nat.
  assert (C : change_matrix (Some (eye 1, eye 1)) [[-1]] = [[-1]]) by (comp; cells).
  assert (Er : r = ([0], [-2])).
  { unfold r, s, lpv_make. rewrite E. unfold coordinates_of. rewrite M. change (List.length [[-1]]) with 1%nat. rewrite C. unfold predict, set_control, lpv_step. projs. rewrite M. unfold reported. comp. parts.
    cells. }
  split.
  { eapply driven_cons; [reflexivity | | apply driven_nil]. split; [reflexivity|]. split; [reflexivity|]. exists [0], [0].
    split; [reflexivity|]. split; [intros k Hk; destruct k; [|cbn in Hk; lia]; cbn; lra|]. split; [reflexivity|].
    split; [split; [reflexivity|]; split; [reflexivity|]; intros i Hi; destruct i; [|cbn in Hi; lia]; cbn; lra|].
    intros i Hi. destruct i as [|i]; [|lia]. comp. lra. }
  split; [exact Er|]. rewrite Er. intros (_ & _ & B). specialize (B 0%nat ltac:(cbn; lia)). cbn in B. lra.
Qed.
Print Assumptions C51_long_step_inverts.

(** The Metzler test tolerates entries down to -1e-9, for which the predictor is not
    exact: the upper bound then misses a reachable state. *)
Theorem C51_metzler_tolerance : forall eig,
  let e := 1 / 1000000000 in
  let a := [[0; - e]; [0; 0]] in
  let s := lpv_make eig [0; 0] a [ex_zero] [[0]; [0]] [[0]; [0]] ([0], [0]) [0] [[0; 0]] [0; 0] (Some ([0; -1], [0; 1])) in
  let r := reported (predict s 1 [[0]]) in
  driven 2 1 1 a [ex_zero] [[0]; [0]] [[0]; [0]] ([0], [0]) [0; 0] 1 [0; -1] [[0]] [e; -1] /\ ~ boxed (fst r) [e; -1] (snd r).
Proof.
  intros eig e a s r.
  assert (E : lm_add a (lm_mul [[0]; [0]] [[0; 0]]) = a) by (unfold a; comp; cells).
  assert (M : is_metzler a = true) by (unfold a, e; metz_true 2%nat).
  assert (C : change_matrix (Some (eye 2, eye 2)) a = a) by (unfold a; comp; cells).
  assert (Er : entry (snd r) 0 = - e).
  { unfold r, s, lpv_make. rewrite E. unfold coordinates_of. rewrite M. change (List.length a) with 2%nat. rewrite C. unfold predict, set_control, lpv_step. projs. rewrite M. unfold reported, ex_zero, a, e. comp. parts. lra. }
  split.
  { eapply driven_cons; [reflexivity | | apply driven_nil]. split; [reflexivity|]. split; [reflexivity|]. exists [0], [0].
    split; [reflexivity|]. split; [intros k Hk; destruct k; [|cbn in Hk; lia]; cbn; lra|]. split; [reflexivity|].
    split; [split; [reflexivity|]; split; [reflexivity|]; intros i Hi; destruct i; [|cbn in Hi; lia]; cbn; lra|].
    intros i Hi. destruct i as [|[|i]]; [| |lia]; unfold a, ex_zero; comp; lra. }
  intros (_ & _ & B). specialize (B 0%nat ltac:(cbn; lia)). rewrite Er in B. unfold e in B. cbn in B. lra.
Qed.
Print Assumptions C51_metzler_tolerance.

(** A rotated system that meets the hypotheses of the enclosure theorem (no perturbation
    enters) and moves. *)
Example C51_nonvacuous : forall eig, eig ex_a = Some (ex_t, ex_ti) ->
  let s := predict (lpv_make eig [0; 1] ex_a [ex_zero] [[0]; [0]] [[0]; [0]] ([-1], [1]) [0] [[0; 0]] [0; 0] None) (1/10) [[0]; [0]] in
  exists x', driven 2 1 1 ex_a [ex_zero] [[0]; [0]] [[0]; [0]] ([-1], [1]) [0; 0] (1/10) [0; 1] [[0]; [0]] x' /\ entry x' 1 = 64/100 /\
  boxed (fst (reported s)) x' (snd (reported s)).
Proof.
  intros eig Eg s. exists [-51/400; 64/100].
  assert (D : driven 2 1 1 ex_a [ex_zero] [[0]; [0]] [[0]; [0]] ([-1], [1]) [0; 0] (1/10) [0; 1] [[0]; [0]] [-51/400; 64/100]).
  { assert (F : forall x x', List.length x = 2%nat -> List.length x' = 2%nat ->
        (forall i, (i < 2)%nat -> entry x' i = entry x i + 1/10 * (coef ex_a i 0 * entry x 0 + coef ex_a i 1 * entry x 1)) ->
        follows_about 2 1 1 ex_a [ex_zero] [[0]; [0]] [[0]; [0]] ([-1], [1]) [0] [0; 0] (1/10) x x').
    { intros x x' L L' E. split; [exact L|]. split; [exact L'|]. exists [0], [1].
      split; [reflexivity|]. split; [intros k Hk; destruct k; [|cbn in Hk; lia]; cbn; lra|]. split; [reflexivity|].
      split; [split; [reflexivity|]; split; [reflexivity|]; intros i Hi; destruct i; [|cbn in Hi; lia]; cbn; lra|].
      intros i Hi. rewrite (E i Hi). destruct i as [|[|i]]; [| |lia]; unfold ex_a, ex_zero, entry; comp; lra. }
    eapply driven_cons with (x1 := [-3/40; 8/10]); [reflexivity | apply F; try reflexivity; intros i Hi; destruct i as [|[|i]]; [| |lia]; unfold ex_a; comp; lra |].
    eapply driven_cons with (x1 := [-51/400; 64/100]); [reflexivity | apply F; try reflexivity; intros i Hi; destruct i as [|[|i]]; [| |lia]; unfold ex_a; comp; lra |].
    apply driven_nil. }
  split; [exact D|]. split; [reflexivity|].
  apply (C51_rotated_system_enclosed eig 2 1 1 [0; 1] ex_a [ex_zero] [[0]; [0]] [[0]; [0]] ([-1], [1]) [0] [[0; 0]] [0; 0] (1/10) [[0]; [0]] _ ex_t ex_ti);
    rewrite ?ex_closed; try lia; try lra; try reflexivity; try (split; [reflexivity | repeat constructor]).
  - repeat constructor.
  - discriminate.
  - exact ex_not_metzler.
  - exact Eg.
  - exact ex_inverses.
  - intros i j Hi Hj. destruct i as [|[|i]]; [| |lia]; (destruct j; [|lia]); unfold ex_ti; comp; lra.
  - right. rewrite ex_diag. split; [intros i j Hi Hj Ne; destruct i as [|[|i]], j as [|[|j]]; try lia; comp; lra|].
    intros i Hi. destruct i as [|[|i]]; [| |lia]; comp; lra.
  - exact D.
Qed.
