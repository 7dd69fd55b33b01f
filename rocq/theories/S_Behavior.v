(** Specification vocabulary for autonomous traffic. *)
From Verif Require Import Prelude M_Utils M_Lane M_Road M_Vehicle M_Kinematics M_Control M_Behavior S_Road S_Control.
Open Scope R_scope.

(** Successive frames of a road without external actions: [Road.act] then
    [Road.step dt]; [frames] lists the road after each frame.  Every vehicle may
    see different random draws at each frame. *)
Inductive simulates (dt : R) : road -> list road -> Prop :=
| simulates_nil : forall rd, simulates dt rd []
| simulates_cons : forall rd draws rd1 rd2 frames,
    (forall i, draw_ok (draws i)) -> road_act draws rd = Ok rd1 -> road_step rd1 dt = Ok rd2 ->
    simulates dt rd2 frames -> simulates dt rd (rd2 :: frames).

(** The lanes a vehicle refers to exist, and so do the roads of its route. *)
Definition well_placed (g : graph) (v : vehicle) : Prop :=
  lane_exists g (v_lane_index v) /\
  (is_controlled (v_kind v) = true -> lane_exists g (v_target_lane v) /\ route_on_network g (v_route v)).

(** Linear vehicles assume every vehicle around has a target speed: no obstacle
    and only controlled vehicles. *)
Definition linear_compatible (rd : road) : Prop :=
  (forall v, In v (rd_vehicles rd) -> v_kind v <> KLinear) \/
  ((forall v, In v (rd_vehicles rd) -> is_controlled (v_kind v) = true) /\
   (forall o, In o (rd_objects rd) -> o_kind o = KLandmark)).

(** A road in which the simulation can run. *)
Definition runnable (rd : road) : Prop :=
  built (rd_net rd) /\ rd_net rd <> [] /\
  (forall v, In v (rd_vehicles rd) -> well_placed (rd_net rd) v) /\ linear_compatible rd.

(** Vehicle [i] has not crashed and nothing is ahead of it on its lane. *)
Definition unobstructed (i : nat) (rd : road) : Prop :=
  exists v rear, nth_error (rd_vehicles rd) i = Some v /\ v_crashed v = false /\
    neighbour_vehicles rd v None = Ok (None, rear).
