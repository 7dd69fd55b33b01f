(** Specification vocabulary for vehicle motion and collisions. *)
From Verif Require Import Prelude M_Utils M_Lane M_Road M_Vehicle M_Kinematics S_Geometry.
Open Scope R_scope.

(** [drives g record dt v cmds tr]: starting from [v], storing the command
    (steering, acceleration) and then calling [step dt], for each command in
    turn, goes through the states [tr] (one after each step). *)
Inductive drives (g : graph) (record : bool) (dt : R) : vehicle -> list (R * R) -> list vehicle -> Prop :=
| drives_nil : forall v, drives g record dt v [] []
| drives_cons : forall v st ac cmds v1 tr,
    vehicle_step g record (set_action v st ac) dt = Ok v1 ->
    drives g record dt v1 cmds tr ->
    drives g record dt v ((st, ac) :: cmds) (v1 :: tr).

(** Length of the polygonal line through the positions. *)
Fixpoint path_length (p : vec) (tr : list vehicle) : R :=
  match tr with
  | [] => 0
  | v :: tr' => dist2 p (v_pos v) + path_length (v_pos v) tr'
  end.

(** What a history record contains. *)
Definition snap (v : vehicle) : snapshot := Snapshot (v_pos v) (v_heading v) (v_speed v).

(** Two vehicles whose (0.9-scaled) footprints overlap according to the code's
    own test, both with collisions enabled. *)
Definition touch (v w : vehicle) : Prop :=
  v_id v <> v_id w /\ v_collisions v = true /\ v_collisions w = true /\ is_colliding v w = true.
(** A vehicle with collisions enabled overlapping an obstacle. *)
Definition touch_obstacle (v : vehicle) (o : object) : Prop :=
  v_collisions v = true /\ o_kind o = KObstacle /\ is_colliding_obj v o = true.
