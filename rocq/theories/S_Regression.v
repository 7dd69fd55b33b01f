(** Specification of the identification of linear parameters, coordinate by coordinate. *)
From Verif Require Import Prelude M_Interval M_Regression S_Interval.
Open Scope R_scope.

(** Scalar product of two vectors of size [n]. *)
Definition inner (n : nat) (x y : list R) : R := sum_to n (fun i => entry x i * entry y i).
(** x^T a x *)
Definition quadratic (n : nat) (a : list (list R)) (x : list R) : R :=
  sum_to n (fun i => sum_to n (fun j => entry x i * coef a i j * entry x j)).

(** Symmetric positive definite matrices. *)
Definition positive_definite (n : nat) (a : list (list R)) : Prop :=
  shape n n a /\ (forall i j, (i < n)%nat -> (j < n)%nat -> coef a i j = coef a j i) /\
  (forall x, List.length x = n -> (exists i, entry x i <> 0) -> 0 < quadratic n a x).

(** [v] is an eigenvalue of [a]: some non-zero vector is scaled by [v]. *)
Definition eigenvalue (n : nat) (a : list (list R)) (v : R) : Prop := exists x, List.length x = n /\ (exists i, entry x i <> 0) /\
  forall i, (i < n)%nat -> sum_to n (fun j => coef a i j * entry x j) = v * entry x i.

(** What is assumed of numpy.linalg, on symmetric positive definite matrices of size n:
    [inv] inverts, [eig] returns n eigenvalues, of which the least bounds the quadratic
    form below, and [det] is their product. *)
Definition numpy_contract (n : nat) (la : linalg) : Prop := forall a, positive_definite n a ->
  inverses n a (la_inv la a) /\
  List.length (la_eigvals la a) = n /\ Forall (eigenvalue n a) (la_eigvals la a) /\
  (forall v x, (forall w, In w (la_eigvals la a) -> v <= w) -> List.length x = n -> v * inner n x x <= quadratic n a x) /\
  la_det la a = fold_right Rmult 1 (la_eigvals la a).

(** The data are explained exactly by the parameter [theta]: every output is the scalar
    product of [theta] and the features. *)
Definition explained (n : nat) (theta : list R) (data : dataset) : Prop :=
  List.length theta = n /\ List.length (ds_features data) = List.length (ds_outputs data) /\
  Forall (fun phi => List.length phi = n) (ds_features data) /\
  forall k, (k < List.length (ds_outputs data))%nat -> nth k (ds_outputs data) 0 = inner n theta (nth k (ds_features data) []).

(** The regularised squared error of a parameter. *)
Definition squared_error (n : nat) (data : dataset) (lambda sigma : R) (theta : list R) : R :=
  / sigma * sum_to (List.length (ds_outputs data)) (fun k => (nth k (ds_outputs data) 0 - inner n theta (nth k (ds_features data) [])) ^ 2)
  + lambda * inner n theta theta.

(** The point [x] is [theta] plus an average of the vertices. *)
Definition in_polytope (n : nat) (theta : list R) (vertices : list (list R)) (x : list R) : Prop := exists w : list R,
  List.length w = List.length vertices /\ Forall (fun c => 0 <= c) w /\ sum_to (List.length w) (entry w) = 1 /\
  forall i, (i < n)%nat -> entry x i = entry theta i + sum_to (List.length w) (fun k => entry w k * entry (nth k vertices []) i).
