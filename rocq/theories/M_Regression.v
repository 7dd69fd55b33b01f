(** Model of the parameter identification of highway_env/utils.py:123-206 (used by
    vehicle/uncertainty/estimation.py).  Definitions only. *)
From Verif Require Import Prelude M_Interval.
Open Scope R_scope.

(** What the code takes from numpy.linalg: [inv], [det], the eigenvalues and the matrix
    of eigenvectors of [eig].  Their contract is stated in S_Regression. *)
Record linalg : Type := Linalg {
  la_inv : lmat -> lmat;
  la_det : lmat -> R;
  la_eigvals : lmat -> lvec;
  la_eigvecs : lmat -> lmat }.

(** A dictionary {"features": [phi_0, ...], "outputs": [y_0, ...]}. *)
Record dataset : Type := Dataset { ds_features : list lvec; ds_outputs : list R }.

(** Default arguments, utils.py:123 and 169. *)
Definition LAMBDA : R := 1 / 100000.
Definition DELTA : R := 1 / 10.
Definition SIGMA : R := 1 / 10.

(** [np.transpose] of a matrix. *)
Definition transpose (a : lmat) : lmat := map (lm_col a) (seq 0 (List.length (hd [] a))).

(** utils.py:123-142 [confidence_ellipsoid]: estimated parameter, Gramian matrix, radius. *)
Definition gramian (phi : lmat) (lambda sigma : R) : lmat :=
  lm_add (lm_scale (1 / sigma) (lm_mul (transpose phi) phi)) (lm_scale lambda (eye (List.length (hd [] phi)))).
Definition confidence_ellipsoid (la : linalg) (data : dataset) (lambda delta sigma bound : R) : lvec * lmat * R :=
  let phi := ds_features data in
  let g := gramian phi lambda sigma in
  let theta := lv_scale (/ sigma) (lm_apply (lm_mul (la_inv la g) (transpose phi)) (ds_outputs data)) in
  let d := List.length theta in
  let beta := sqrt (2 * ln (sqrt (la_det la g / lambda ^ d) / delta)) + sqrt (lambda * INR d) * bound in
  (theta, g, beta).

(** [np.clip], element-wise. *)
Definition clip1 (x lo hi : R) : R := Rmin (Rmax x lo) hi.
Fixpoint lv_clip (x lo hi : lvec) : lvec :=
  match x, lo, hi with a :: x', l :: lo', h :: hi' => clip1 a l h :: lv_clip x' lo' hi' | _, _, _ => [] end.

(** [np.amax(np.abs(parameter_box))]. *)
Definition box_bound (lo hi : lvec) : R := list_max 0 (map Rabs (lo ++ hi)).

(** [np.diag(v)]. *)
Definition diag (v : lvec) : lmat :=
  map (fun i => map (fun j => if Nat.eqb i j then nth i v 0 else 0) (seq 0 (List.length v))) (seq 0 (List.length v)).
(** [itertools.product([-1, 1], repeat=n)]. *)
Fixpoint signs (n : nat) : list lvec :=
  match n with O => [[]] | S k => map (cons (-1)) (signs k) ++ map (cons 1) (signs k) end.

(** utils.py:145-165 [confidence_polytope]: clipped parameter, clipped vertices,
    Gramian matrix, radius. *)
Definition confidence_polytope (la : linalg) (data : dataset) (lo hi : lvec) : lvec * list lvec * lmat * R :=
  let '(theta0, g, beta) := confidence_ellipsoid la data LAMBDA DELTA SIGMA (box_bound lo hi) in
  let radius := lm_mul (lm_scale (sqrt beta) (la_inv la (la_eigvecs la g))) (diag (map (fun v => sqrt (1 / v)) (la_eigvals la g))) in
  let theta := lv_clip theta0 lo hi in
  let d_theta := map (fun h => lv_clip (lm_apply radius h) (lv_sub lo theta) (lv_sub hi theta)) (signs (List.length theta0)) in
  (theta, d_theta, g, beta).

(** [np.amin] of a list. *)
Definition lv_min (v : lvec) : R := match v with [] => 0 | x :: v' => list_min x v' end.

(** utils.py:168-186 [is_valid_observation] with the default sigma.  [phi] is a column,
    so that [phi.transpose() @ phi] is the 1 x 1 matrix phi.phi, whose only eigenvalue
    is its entry. *)
Definition is_valid_observation (la : linalg) (y : R) (phi theta : lvec) (g : lmat) (beta : R) : bool :=
  let error := Rabs (y - lv_dot theta phi) in
  let error_bound := sqrt (lv_dot phi phi / lv_min (la_eigvals la g)) * beta + SIGMA in
  Rltb error error_bound.

(** utils.py:189-206 [is_consistent_dataset].  [data] is copied: the caller's lists
    are unchanged.  [outputs.pop(-1)] raises IndexError on an empty list; without a box
    [np.abs(None)] raises TypeError. *)
Definition is_consistent_dataset (la : linalg) (data : dataset) (box : option (lvec * lvec)) : res bool :=
  match rev (ds_outputs data), rev (ds_features data) with
  | y :: ys, phi :: phis =>
      match ys, phis with
      | _ :: _, _ :: _ =>
          match box with
          | None => Err TypeError
          | Some (lo, hi) =>
              let '(theta, _, g, beta) := confidence_polytope la (Dataset (rev phis) (rev ys)) lo hi in
              Ok (is_valid_observation la y phi theta g beta)
          end
      | _, _ => Ok true
      end
  | _, _ => Err IndexError
  end.
