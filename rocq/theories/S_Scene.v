(** Specification vocabulary: the scenes in which episodes start. *)
From Verif Require Import Prelude M_Utils M_Lane M_Road M_Vehicle M_Kinematics M_Control M_Behavior M_Env M_Nets M_Reset
  S_Geometry S_Road S_Control S_Env S_Reset S_Joined.
Open Scope R_scope.

(** How a vehicle stands: where, in which direction, how fast; undamaged. *)
Definition stands (v : vehicle) (p u : vec) (speed : R) : Prop :=
  v_pos v = p /\ facing (v_heading v) = u /\ v_speed v = speed /\ v_crashed v = false.
(** How an object stands. *)
Definition lies (o : object) (p u : vec) : Prop :=
  o_pos o = p /\ facing (o_heading o) = u /\ o_speed o = 0.
(** A vehicle of the surrounding traffic. *)
Definition traffic (cf : common) (v : vehicle) : Prop := v_kind v = kind_of (cf_traffic cf).
(** The only controlled vehicle of an environment. *)
Definition sole_agent (cf : common) (e : env) (v : vehicle) : Prop :=
  e_controlled e = [v_id v] /\ v_kind v = ego_kind cf.

(** The route of [v] starts on its road and follows the roads of [g] to [dest], if
    there is a way. *)
Definition bound_for (g : graph) (v : vehicle) (dest : string) : Prop :=
  exists rt, v_route v = Some rt /\ hd_error rt = Some (v_lane_index v) /\ chain rt /\ on_network g rt /\
    ((exists q, simple_path g (li_to (v_lane_index v)) dest q) -> li_to (last rt (v_lane_index v)) = dest).

(** Vehicles are inspected in turn; a vehicle to be removed disappears and the next one
    escapes inspection. *)
Inductive swept (bad : vehicle -> Prop) : list vehicle -> list vehicle -> Prop :=
| swept_nil : swept bad [] []
| swept_keep : forall v l l', ~ bad v -> swept bad l l' -> swept bad (v :: l) (v :: l')
| swept_last : forall v, bad v -> swept bad [v] []
| swept_next : forall v w l l', bad v -> swept bad l l' -> swept bad (v :: w :: l) (w :: l').

(** The [i]-th vehicle of the summon scene: parked on the [i]-th spot, or driving
    slowly between the rows. *)
Definition summon_vehicle (cf : common) (d : draws) (i : nat) (w : vehicle) : Prop :=
  (dr_unit d (2 * i + 1) <= 3/4 /\ v_kind w = KVehicle /\
     ((1/2 <= dr_unit d (2 * i + 2) /\ stands w (4 * INR i - 30, 16) (0, 1) 0) \/
      (dr_unit d (2 * i + 2) < 1/2 /\ stands w (4 * INR i - 30, -16) (0, -1) 0))) \/
  (3/4 < dr_unit d (2 * i + 1) /\ traffic cf w /\
     stands w (-28 + 5 * INR i - 4 * INR (dr_int d (2 * i + 2) 2), -8 + 4 * INR (dr_int d (2 * i + 1) 5)) (1, 0) 2).

(** The roundabout: [s] metres after the west entry on the ring of radius [r], driving
    clockwise on the screen. *)
Definition ring_spot (r s : R) (w : vehicle) (speed : R) : Prop :=
  stands w (vscal r (facing (deg 156 - s / r))) (facing (deg 156 - s / r - PI / 2)) speed.
(** Where the [j]-th of them is, from the entry of the west arm on, and where it goes. *)
Definition round_place (d : draws) (j : nat) (w : vehicle) (speed : R) : Prop :=
  match j with
  | 0%nat => ring_spot 24 (5 + 2 * dr_normal d 0) w speed
  | 1%nat => ring_spot 20 (20 + 2 * dr_normal d 2) w speed
  | 2%nat => ring_spot 20 (-20 + 2 * dr_normal d 4) w speed
  | _ => stands w (120 - 2 * dr_normal d 6, -2) (-1, 0) speed
  end.
Definition round_dest (d : draws) (incoming : option Z) (j : nat) (dest : string) : Prop :=
  match j, incoming with
  | 0%nat, Some k => nth_error ["exr"; "sxr"; "nxr"]%string (Z.to_nat (k mod 3)) = Some dest
  | _, _ => nth_error ["exr"; "sxr"; "nxr"]%string (dr_int d j 3) = Some dest
  end.
Definition round_vehicle (cf : common) (g : graph) (d : draws) (incoming : option Z) (j : nat) (w : vehicle) : Prop :=
  traffic cf w /\ round_place d j w (16 + 2 * dr_normal d (2 * j + 1)) /\ exists dest, round_dest d incoming j dest /\ bound_for g w dest.

(** The [k]-th agent of the intersection. *)
Definition crossing_agent (destination : option string) (d : draws) (k : nat) (v : vehicle) : Prop :=
  v_kind v = KMDP /\ stands v (arm_point k (60 + 5 * dr_normal d (1000 + k))) (turned_quarters k (0, -1)) 10 /\ v_target_speed v = 9 /\ v_speed_index v = 2%Z /\ v_grid v = SpeedGrid 0 9 3 /\
  bound_for intersection_net v (match destination with Some s => if String.eqb s "" then corner_name "o" (1 + dr_int d k 3) else s | None => corner_name "o" (1 + dr_int d k 3) end).
