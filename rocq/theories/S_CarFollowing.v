(** Specification of the car-following law, in the words of its definition and
    independent of the model's code. *)
From Verif Require Import Prelude M_Utils M_Lane M_Road M_Vehicle.
Open Scope R_scope.

(** How fast [e] closes on [f] along its own heading: its speed minus the component
    of the velocity of [f] in its direction. *)
Definition closing_speed (e : vehicle) (f : entity) : R := v_speed e - e_speed f * cos (e_heading f - v_heading e).
(** The gap at standstill, plus the time gap, plus a braking distance. *)
Definition wanted_gap (d0 T amax b : R) (v c : R) : R := d0 + v * T + v * c / (2 * sqrt (amax * b)).
(** The law: free acceleration minus interaction. *)
Definition car_following_law (amax v target wanted gap : R) : R :=
  amax * (1 - (v / target) ^ 4 - (wanted / gap) ^ 2).
(** The gap at which a follower at speed [v] neither gains nor loses speed behind a
    leader at the same speed. *)
Definition equilibrium_gap (d0 T v target : R) : R := (d0 + v * T) / sqrt (1 - (v / target) ^ 4).
