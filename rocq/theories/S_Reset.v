(** Specification vocabulary for the creation of scenes. *)
From Verif Require Import Prelude M_Utils M_Lane M_Road M_Vehicle M_Kinematics M_Control M_Behavior M_Regulation M_Action M_Env M_Scenes M_Nets M_Reset
  S_Geometry S_Road S_Control S_Behavior S_Regulation S_Env.
Open Scope R_scope.

(** What random generators return: numbers in [0, 1], integers below the bound, two
    distinct arms of the intersection; sets are iterated in some order. *)
Definition draws_ok (d : draws) : Prop :=
  (forall k, 0 <= dr_unit d k <= 1) /\ (forall k, draw_ok (dr_int d k)) /\
  (forall k, (fst (dr_pair d k) < 4)%nat /\ (snd (dr_pair d k) < 4)%nat /\ fst (dr_pair d k) <> snd (dr_pair d k)) /\
  (forall t i, draw_ok (dr_frame d t i)) /\ set_order (dr_ord d).

(** The classes of vehicles fit together: linear vehicles need every vehicle around
    them to be controlled and no obstacle; the intersection needs meta-actions. *)
Definition classes_fit (cf : common) (s : scene) : Prop :=
  match s with
  | SMerge | SSummon _ _ => cf_traffic cf = CIdm
  | SParking _ _ => True
  | SIntersection _ _ _ _ _ => ego_kind cf = KMDP
  | _ => cf_traffic cf = CIdm \/ ego_kind cf = KMDP
  end.
(** Sizes and options in the configuration make sense. *)
Definition options_fit (cf : common) (s : scene) (d : draws) : Prop :=
  match s with
  | SHighway h => (0 < hs_lanes h)%nat /\ (0 < hs_controlled h)%nat /\ hs_density h <> 0 /\
      match hs_lane_id h with Some k => (- Z.of_nat (hs_lanes h) <= k < Z.of_nat (hs_lanes h))%Z | None => True end
  | STwoWay | SMerge => True
  | SParking n _ => (0 < n)%nat
  | SSummon n _ => (n <= 15)%nat
  | SRoundabout _ incoming => match incoming with Some k => (-3 <= k < 3)%Z | None => True end
  | SIntersection _ n _ _ _ => (1 <= n <= 4)%nat /\ (2 <= cf_simulation cf)%nat /\ (n = 1%nat \/ forall k, (k < n)%nat -> Rabs (dr_normal d (1000 + k)) <= 5)
  end.

(** How many vehicles the agent controls. *)
Definition agents_count (s : scene) : nat :=
  match s with SHighway h => hs_controlled h | SParking n _ => n | SIntersection _ n _ _ _ => n | _ => 1%nat end.
(** A new episode. *)
Definition starts (e : env) (n : nat) : Prop := e_time e = 0%Z /\ e_steps e = 0%Z /\ e_done e = false /\ List.length (e_controlled e) = n /\ NoDup (e_controlled e).

(** Successive steps of an environment, with any draws.  Before each of them other
    environments of the process may have assigned the class attributes: any store [cs]. *)
Inductive plays (cf : common) (s : scene) (sc : scenario) : env -> list agent_action -> list env -> Prop :=
| plays_nil : forall e, plays cf s sc e [] []
| plays_cons : forall cs e o d a acts e1 trace, oracle_ok o -> draws_ok d ->
    scene_step cs cf s sc o d (seen_env cs cf s e) a = Ok e1 ->
    plays cf s sc e1 acts trace -> plays cf s sc e (a :: acts) (e1 :: trace).

(** ** The intersection, seen from above
    The centre is the origin; arm 0 comes from the south (y grows southwards). *)
(** [a] quarter turns. *)
Definition turned_quarters (a : nat) (p : vec) : vec :=
  match a with
  | 0%nat => p
  | 1%nat => (- snd p, fst p)
  | 2%nat => (- fst p, - snd p)
  | _ => (snd p, - fst p)
  end.
(** The point [s] metres after the start of the access road of arm [a], which is 100 m
    long and ends 11 m before the centre, 2 m to its right. *)
Definition arm_point (a : nat) (s : R) : vec := turned_quarters a (2, 111 - s).
(** The way from arm [a] across the intersection and out of arm [b]. *)
Definition way_across (a b : nat) : route :=
  [(corner_name "o" a, corner_name "ir" a, Some 0%Z); (corner_name "ir" a, corner_name "il" b, None); (corner_name "il" b, corner_name "o" b, None)].
(** On the last 20 m of the exit road of arm [c], which begins 11 m and ends 111 m from the centre. *)
Definition about_to_leave (v : vehicle) : Prop :=
  exists c, (c < 4)%nat /\ v_lane_index v = (corner_name "il" c, corner_name "o" c, Some 0%Z) /\ 91 <= vdot (v_pos v) (turned_quarters c (0, 1)).
(** The traffic of the intersection: its network, no obstacle, vehicles that can be
    simulated under its priority rules. *)
Definition intersection_traffic_ok (rd : road) : Prop :=
  rd_net rd = intersection_net /\ rd_objects rd = [] /\ regulated rd /\ distinct_vehicles rd.

(** ** Class attributes shared by the environments of a process *)
(** The classes whose attributes an instance of class [c] sees: its own and those it
    inherits from. *)
Definition ancestors (c : traffic_class) : list traffic_class :=
  match c with
  | CIdm => [CIdm]
  | CLinear => [CLinear; CIdm]
  | CAggressive => [CAggressive; CLinear; CIdm]
  | CDefensive => [CDefensive; CLinear; CIdm]
  end.
Definition is_roundabout_reset (op : operation) : Prop :=
  match op with OReset _ _ (SRoundabout _ _) _ => True | _ => False end.
Definition is_intersection_reset (c : traffic_class) (op : operation) : Prop :=
  match op with OReset _ cf (SIntersection _ _ _ _ _) _ => cf_traffic cf = c | _ => False end.
(** The environment an operation is about. *)
Definition concerns (k : nat) (op : operation) : bool :=
  match op with OReset j _ _ _ => Nat.eqb k j | OStep j _ _ _ => Nat.eqb k j end.
(** The class attributes already have the values the operation would assign. *)
Definition already_assigned (cs : classes) (op : operation) : Prop :=
  (is_roundabout_reset op -> cl_grid cs = SpeedGrid 0 16 3) /\
  (forall c, is_intersection_reset c op -> (match c with CIdm => Some (cl_idm cs) | CLinear => cl_linear cs | CAggressive => cl_aggressive cs | CDefensive => cl_defensive cs end) = Some (Tuning 7 6 (-3))).
