(** Specification vocabulary for the lane-keeping environment. *)
From Verif Require Import Prelude M_Utils M_Lane M_Road M_Vehicle M_Kinematics M_Action M_Bicycle M_Keeping.
Open Scope R_scope.

(** Where the vehicle is: progress along, and signed distance from, the segment from
    (50, 50) to (115, 15); signed vertical distance from the sine curve. *)
Definition straight_progress (p : vec) : R := (65 * (fst p - 50) - 35 * (snd p - 50)) / sqrt 5450.
Definition straight_offset (p : vec) : R := (35 * (fst p - 50) + 65 * (snd p - 50)) / sqrt 5450.
Definition sine_offset (p : vec) : R := snd p - 5 * sin (2 * PI * fst p / 100).
(** Within 5 m of the segment, up to 5 m before its start and (strictly) after its end. *)
Definition on_segment (p : vec) : Prop :=
  Rabs (straight_offset p) <= 5 /\ - 5 <= straight_progress p < sqrt 5450 + 5.
Definition where_is (k : keeper) : vec := v_pos (b_base (k_ego k)).

(** The configurations in which the agent only steers a BicycleVehicle. *)
Definition steering_only (c : keeping_config) : Prop :=
  ca_longitudinal (kc_action c) = false /\ ca_lateral (kc_action c) = true /\ ca_dynamical (kc_action c) = true /\
  0 < kc_policy c /\ 0 < kc_simulation c.

(** [keeping_run c k inputs tr]: calling [step] with each action (and the noise values then
    drawn) succeeds and leads through [tr]: environment after the step and what was returned. *)
Inductive keeping_run (c : keeping_config) : keeper -> list (list R * list R * list R) -> list (keeper * (keeping_obs * R * bool)) -> Prop :=
| keeping_run_nil : forall k, keeping_run c k [] []
| keeping_run_cons : forall k a n1 n2 inputs k' out tr,
    keeping_step c a n1 n2 k = Ok (k', out) ->
    keeping_run c k' inputs tr ->
    keeping_run c k ((a, n1, n2) :: inputs) ((k', out) :: tr).
(** Each value within [e] of the expected one. *)
Definition near (e : R) (seen expected : list R) : Prop := Forall2 (fun o x => Rabs (o - x) <= e) seen expected.

(** Calls of a user: [reset], [step]; [session c k ops k' n]: they succeed and lead from [k] to [k'], with [n] steps. *)
Inductive keeping_call : Type :=
| CallReset (n1 n2 : list R)
| CallStep (a n1 n2 : list R).
Inductive session (c : keeping_config) : keeper -> list keeping_call -> keeper -> nat -> Prop :=
| session_nil : forall k, session c k [] k 0
| session_reset : forall k n1 n2 calls k1 o k' n,
    keeping_reset c (k_trajectory k) n1 n2 = Ok (k1, o) -> session c k1 calls k' n ->
    session c k (CallReset n1 n2 :: calls) k' n
| session_step : forall k a n1 n2 calls k1 out k' n,
    keeping_step c a n1 n2 k = Ok (k1, out) -> session c k1 calls k' n ->
    session c k (CallStep a n1 n2 :: calls) k' (S n).
