(** Vocabulary of the property on route hypotheses (C92). *)
From Verif Require Import Prelude M_Utils M_Lane M_Road M_Vehicle M_Kinematics M_Control M_Behavior M_Interval M_Regression M_Models.
Open Scope R_scope.

(** A history of the vehicle: the road and the vehicle at each call of [act]; nothing is
    assumed on how they change in between. *)
Definition moment : Type := (road * vehicle)%type.
(** The hypotheses after a history that started from [m]. *)
Definition thinks (la : linalg) (hist : list moment) (m : models) : res models :=
  foldM (fun m (x : moment) => do (_, m') <- think la (fst x) (snd x) m; Ok m') hist m.
(** States of the hypotheses that can occur: those of a new vehicle, and what any
    history makes of them. *)
Definition reachable_models (la : linalg) (m : models) : Prop := exists hist, thinks la hist no_models = Ok m.

(** Whether the samples recorded for a hypothesis pass the test. *)
Definition passes (la : linalg) (ss : list sample) : Prop :=
  ss = [] \/ is_consistent_dataset la (lateral_data ss) (Some steering_range) = Ok true.

(** Along a history, the hypothesis with dictionary [d] is the one the vehicle follows:
    at each call, once the routes are updated, its first road is the lane the vehicle
    aims for; the vehicle steers with the gains [theta]. *)
Fixpoint follows_hypothesis (la : linalg) (theta : R * R) (d : nat) (m : models) (hist : list moment) : Prop :=
  match hist with
  | [] => True
  | (rd, v) :: hist' =>
      ip_steer_par (v_par v) = theta /\
      (forall v1 m1 h, update_possible_routes la (rd_net rd) v m = Ok (v1, m1) -> In h (mm_hyps m1) -> hy_data h = d ->
         exists rest, get_list v1 m1 (hy_route h) = v_target_lane v :: rest) /\
      (forall v1 m1, think la rd v m = Ok (v1, m1) -> follows_hypothesis la theta d m1 hist')
  end.
(** Gains within LinearVehicle.STEERING_RANGE. *)
Definition usual_gains (theta : R * R) : Prop :=
  fst (fst STEERING_RANGE) <= fst theta <= fst (snd STEERING_RANGE) /\ snd (fst STEERING_RANGE) <= snd theta <= snd (snd STEERING_RANGE).

(** A road of a route whose lane is not given, read as its first lane. *)
Definition lane_or_first (i : lane_index) : lane_index :=
  match i with (a, b, Some k) => (a, b, Some k) | (a, b, None) => (a, b, Some 0%Z) end.
