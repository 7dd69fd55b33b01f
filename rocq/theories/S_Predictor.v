(** Specification of the linear prediction of a vehicle along a straight lane. *)
From Verif Require Import Prelude S_Interval.
Open Scope R_scope.

(** Abscissa and speed along the lane, those of the front vehicle, lateral position and
    heading relative to the lane. *)
Record course : Type := Course { c_s : R; c_front : R; c_speed : R; c_front_speed : R; c_lat : R; c_psi : R }.

(** One step of a driver and of its front vehicle that both pursue the speed [target] (and the
    speed of the front vehicle if [follow]), with any gains within the boxes
    [theta_a] (speed, front speed, gap: unused) and [theta_b] (heading, lateral position), while
    the position is perturbed by at most 1 m/s along and 0.5 m/s across the lane. *)
Definition advances (theta_a theta_b : list R * list R) (target : R) (follow : bool) (dt : R) (c c' : course) : Prop :=
  exists k1 k2 g1 g2 e1 e2,
    entry (fst theta_a) 0 <= k1 <= entry (snd theta_a) 0 /\ entry (fst theta_a) 1 <= k2 <= entry (snd theta_a) 1 /\
    entry (fst theta_b) 0 <= g1 <= entry (snd theta_b) 0 /\ entry (fst theta_b) 1 <= g2 <= entry (snd theta_b) 1 /\
    Rabs e1 <= 1 /\ Rabs e2 <= 1 / 2 /\
    c_s c' = c_s c + dt * (c_speed c + e1) /\
    c_front c' = c_front c + dt * c_front_speed c /\
    c_speed c' = c_speed c + dt * (k1 * (target - c_speed c) + if follow then k2 * (c_front_speed c - c_speed c) else 0) /\
    c_front_speed c' = c_front_speed c + dt * (k1 * (target - c_front_speed c)) /\
    c_lat c' = c_lat c + dt * (c_psi c + e2) /\
    c_psi c' = c_psi c - dt * (g1 * c_psi c + g2 * c_lat c).
Inductive travels (theta_a theta_b : list R * list R) (target : R) (follow : bool) (dt : R) : nat -> course -> course -> Prop :=
| travels_none : forall c, travels theta_a theta_b target follow dt 0 c c
| travels_more : forall n c c1 c2, advances theta_a theta_b target follow dt c c1 -> travels theta_a theta_b target follow dt n c1 c2 ->
    travels theta_a theta_b target follow dt (S n) c c2.

(** What is assumed of the numerical routine: it returns a basis of eigenvectors and its inverse. *)
Definition eigenvectors (eig : list (list R) -> option (list (list R) * list (list R))) : Prop :=
  forall n a t ti, (0 < n)%nat -> shape n n a -> eig a = Some (t, ti) ->
    inverses n t ti /\ exists mu : nat -> R, forall i j, (i < n)%nat -> (j < n)%nat -> sum_to n (fun l => coef a i l * coef t l j) = mu j * coef t i j.
