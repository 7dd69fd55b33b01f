(** Specification vocabulary for car following. *)
From Verif Require Import Prelude M_Utils M_Lane M_Road M_Vehicle M_Kinematics M_Control M_Behavior S_Road S_Control S_Behavior.
Open Scope R_scope.

(** At this frame vehicle [i] is not crashed, it is localised on lane [l] and has
    not reached its end, and what is in front of it is at longitudinal position [x]
    and moves along the lane at speed [u] (it may be a vehicle or an object). *)
Definition follows (i : nat) (l : lane) (x u : R) (rd : road) : Prop :=
  exists v f rear, nth_error (rd_vehicles rd) i = Some v /\ v_crashed v = false /\
    get_lane (rd_net rd) (v_lane_index v) = Ok l /\ fst (l_local l (v_pos v)) <= l_length l - 5/2 /\
    neighbour_vehicles rd v None = Ok (Some f, rear) /\
    fst (l_local l (e_pos f)) = x /\
    e_velocity f = vscal u (cos (l_heading l x), sin (l_heading l x)).

(** A leader that never reverses and never brakes harder than [b]: position along
    the lane and speed at each frame. *)
Definition leads (dt b : R) (lead : nat -> R * R) : Prop := forall n,
  fst (lead (S n)) = fst (lead n) + snd (lead n) * dt /\ 0 <= snd (lead n) /\ snd (lead n) - b * dt <= snd (lead (S n)).

(** Distance covered while braking at [b] from speed [v], one frame being [dt]. *)
Definition braking_distance (b dt v : R) : R := v * v / (2 * b) + v * dt / 2.
