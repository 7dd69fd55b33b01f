(** Specification vocabulary of the gym loop: [reset] then any number of [step]s. *)
From Verif Require Import Prelude M_Utils M_Lane M_Road M_Vehicle M_Kinematics M_Control M_Behavior M_Regulation M_Action M_Env M_Scenes M_Nets M_Reset M_Ttc M_Obs M_Gym
  S_Geometry S_Road S_Vehicle S_Control S_Behavior S_Regulation S_Env S_Obs S_Ttc S_Reset.
From Coq Require Import Permutation.
Open Scope R_scope.

(** What MDPVehicle's class attributes can be in a process that only runs environments
    of the package: as imported, or as the roundabout leaves them. *)
Definition shared_grid (cs : classes) : Prop := cl_grid cs = SpeedGrid 20 30 3 \/ cl_grid cs = SpeedGrid 0 16 3.
(** [np_random.shuffle] permutes. *)
Definition shuffles (sh : nat -> list (list R) -> list (list R)) : Prop := forall k l, Permutation (sh k l) l.

(** ** Observation spaces *)
(** A Kinematics observer that shows several vehicles, all of its features being known,
    normalised and clipped. *)
Definition kin_usable (c : kin_config) (r : option ranges) : Prop :=
  (2 <= kc_count c)%Z /\ kc_normalize c = true /\ kc_clip c = true /\
  (forall name, In name (kin_features c) -> known_feature name) /\
  (forall name, In name (kin_features c) -> naturally_bounded name \/
     match r with Some (x :: rr) => In name (keys (x :: rr)) | _ => is_relative name end) /\
  match r with Some rr => forall name ab, In (name, ab) rr -> fst ab <> snd ab | None => True end.
Definition is_goal_scene (s : scene) : Prop := match s with SParking _ _ | SSummon _ _ => True | _ => False end.
Definition goal_names : list string := ["x"; "y"; "vx"; "vy"; "cos_h"; "sin_h"]%string.
Definition goal_scales : list R := [100; 100; 5; 5; 1; 1].
(** The observation asked for suits the environment. *)
Definition observation_fits (cf : common) (s : scene) (t : observation_type) : Prop :=
  match observer_of t with
  | Kinematics c r => kin_usable c r
  | TimeToCollision horizon => ego_kind cf = KMDP /\ 0 < cf_policy cf /\ 0 <= horizon /\ t = OneObserver (TimeToCollision horizon)
  | KinematicsGoal names scales => is_goal_scene s /\ names = goal_names /\ scales = goal_scales
  end.
(** How many observations a step returns. *)
Definition observers_count (s : scene) (t : observation_type) : nat :=
  match t with OneObserver _ => 1%nat | ManyObservers _ => agents_count s end.
(** An observation belongs to its space. *)
Definition in_observation_space (policy : R) (t : observation_type) (ob : observation) : Prop :=
  match observer_of t, ob with
  | Kinematics c _, ObsRows rows =>
      Z.of_nat (List.length rows) = kc_count c /\
      forall row, In row rows -> List.length row = List.length (kin_features c) /\ forall x, In x row -> -1 <= x <= 1
  | TimeToCollision horizon, ObsGrid g =>
      exists n, INR n <= horizon * policy < INR n + 1 /\ dims 3 3 n g /\
      forall plane row x, In plane g -> In row plane -> In x row -> x = 0 \/ x = 1/2 \/ x = 1
  | KinematicsGoal names _, ObsGoal go =>
      List.length (go_observation go) = List.length names /\ List.length (go_desired go) = List.length names /\
      go_achieved go = go_observation go
  | _, _ => False
  end.

(** ** Playing *)
(** Actions and configurations for which rewards are defined. *)
Definition rewards_fit (cf : common) (s : scene) (t : observation_type) : Prop :=
  match s with
  | SHighway h => fst (hw_speed (hs_cfg h)) <> snd (hw_speed (hs_cfg h)) /\ hw_collision (hs_cfg h) <= 0
  | STwoWay | SMerge => exists lo la, cf_action cf = Single (Discrete lo la)
  | SRoundabout _ _ => match cf_action cf with Single (Continuous c) => ca_lateral c && ca_longitudinal c = false | _ => True end
  | SIntersection c _ _ _ _ => is_collision c <= 0
  | SParking n _ => observer_of t = KinematicsGoal goal_names goal_scales /\ (n = 1%nat \/ t = ManyObservers (observer_of t))
  | SSummon _ _ => observer_of t = KinematicsGoal goal_names goal_scales
  end.
(** Where the reward lies (see C42, C72, C73). *)
Definition reward_range (s : scene) (r : R) : Prop :=
  match s with
  | SHighway _ | STwoWay | SRoundabout _ _ => 0 <= r <= 1
  | SMerge => True
  | SIntersection c _ _ _ _ => (if is_normalize c then 0 else is_collision c) <= r <= 1
  | SParking _ _ | SSummon _ _ => r <= 0
  end.
(** In the merge, the class attributes must be as imported. *)
Definition store_fits (s : scene) (cs : classes) : Prop :=
  match s with SMerge => cl_grid cs = SpeedGrid 20 30 3 | _ => shared_grid cs end.
(** Successive steps, each with any random draws and any class attributes: what they
    return, with the environment after each. *)
Inductive gym_plays : gym -> list agent_action -> list (gym * outcome) -> Prop :=
| gym_plays_nil : forall g, gym_plays g [] []
| gym_plays_cons : forall cs g o d sh a g1 out acts trace,
    store_fits (gy_scene g) cs -> oracle_ok o -> draws_ok d -> shuffles sh ->
    gym_step cs g o d sh a = Ok (g1, out) -> gym_plays g1 acts trace -> gym_plays g (a :: acts) ((g1, out) :: trace).
Definition last_gym (g : gym) (trace : list (gym * outcome)) : gym := last (map fst trace) g.
