(** Specification of "elsewhere": what a group of vehicles must satisfy to be out of
    sight and out of reach of another group. *)
From Verif Require Import Prelude M_Utils M_Lane M_Road M_Vehicle M_Kinematics S_Road S_Vehicle.
Open Scope R_scope.

(** The position [p] is on the lane: at most 1 m beyond its sides and 5 m beyond
    its ends. *)
Definition stands_on (l : lane) (p : vec) : Prop :=
  Rabs (snd (l_local l p)) <= l_width l / 2 + 1 /\ -5 <= fst (l_local l p) < l_length l + 5.
(** [w] stands on none of the lanes of the road where [v] is... *)
Definition out_of_sight (g : graph) (v w : vehicle) : Prop :=
  forall k l, get_lane g (li_from (v_lane_index v), li_to (v_lane_index v), k) = Ok l -> ~ stands_on l (v_pos w).
(** ... and [t], the lane [w] aims at (if it aims at any), belongs to another road. *)
Definition bound_elsewhere (v w : vehicle) : Prop :=
  is_controlled (v_kind w) = true ->
  ~ (li_from (v_target_lane w) = li_from (v_lane_index v) /\ li_to (v_target_lane w) = li_to (v_lane_index v)).

(** The first [n] vehicles of a road, and the others. *)
Definition keep_first (n : nat) (rd : road) : road := set_vehicles rd (firstn n (rd_vehicles rd)).
Definition keep_others (n : nat) (rd : road) : road := set_vehicles rd (skipn n (rd_vehicles rd)).

(** On this road, no vehicle of the first group touches one of the second. *)
Definition no_contact (n : nat) (rd : road) : Prop :=
  forall v w, In v (firstn n (rd_vehicles rd)) -> In w (skipn n (rd_vehicles rd)) -> ~ touch v w.
(** Vehicles of a group touch no object of the road. *)
Definition no_object_hit (vs : list vehicle) (rd : road) : Prop :=
  forall v o, In v vs -> In o (rd_objects rd) -> is_colliding_obj v o = false.
(** [r] and [r2] are consecutive roads of a run. *)
Definition consecutive (rd : road) (frames : list road) (r r2 : road) : Prop :=
  exists k, nth_error (rd :: frames) k = Some r /\ nth_error frames k = Some r2.
