(** Specification vocabulary for the traffic created on the highway. *)
From Verif Require Import Prelude M_Utils M_Lane M_Road M_Vehicle M_Scenes M_Nets M_Reset.
Open Scope R_scope.

(** The nominal headway in front of the vehicle created after [j] others, driving at
    [speed]: 1.5 s of travel, scaled by the option for controlled vehicles or by the
    density of traffic, and reduced with the number of lanes. *)
Definition headway (h : highway_scene) (j : nat) (speed : R) : R :=
  (if Nat.ltb j (hs_controlled h) then hs_ego_spacing h else 1 / hs_density h) * (3/2 * speed) * exp (- INR (hs_lanes h) / 6).

(** The vehicles in order of creation: each on the centre of a lane, facing forward,
    and between 90% and 110% of its nominal headway in front of the previous one,
    whatever their lanes. *)
Definition lined_up (h : highway_scene) (vs : list vehicle) : Prop :=
  forall j v, nth_error vs j = Some v ->
    (exists k, (k < hs_lanes h)%nat /\ snd (v_pos v) = 4 * INR k) /\
    v_heading v = 0 /\ v_crashed v = false /\
    (if Nat.ltb j (hs_controlled h) then v_speed v = 25 else 23 <= v_speed v <= 25) /\
    match j with
    | O => 39/10 * headway h j (v_speed v) <= fst (v_pos v) <= 41/10 * headway h j (v_speed v)
    | S i => forall u, nth_error vs i = Some u ->
        9/10 * headway h j (v_speed v) <= fst (v_pos v) - fst (v_pos u) <= 11/10 * headway h j (v_speed v)
    end.
