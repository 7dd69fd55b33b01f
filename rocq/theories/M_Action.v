(** Model of envs/common/action.py *)
From Verif Require Import Prelude M_Utils M_Lane M_Road M_Vehicle M_Kinematics M_Control M_Behavior.
Open Scope R_scope.

(** An agent's action (action.py:13): an integer, an array, or a tuple of actions. *)
Inductive agent_action : Type :=
| ActInt (k : Z)
| ActVec (x : list R)
| ActTuple (l : list agent_action).

(** What [vehicle.act] receives: a label or a dict of low-level controls. *)
Inductive command : Type :=
| Label (m : meta_action)
| Controls (acceleration steering : R).

(** [vehicle.act(command)] for every class of vehicle.
    kinematics.py:111-118 (a dict is stored; a label would be stored too and fail
    when the vehicle moves: the error is raised here), controller.py:75-103 and
    220-238 (a dict is none of the labels), behavior.py:78-104 (ignored). *)
Definition vehicle_command (rd : road) (draw : nat -> nat) (v : vehicle) (c : command) : res vehicle :=
  match v_kind v with
  | KVehicle | KBicycle =>
      match c with Controls ac st => Ok (set_action v st ac) | Label _ => Err TypeError end
  | KControlled => controlled_act (rd_net rd) draw v (match c with Label m => Some m | Controls _ _ => None end)
  | KMDP => mdp_act (rd_net rd) draw v (match c with Label m => Some m | Controls _ _ => None end)
  | KIDM | KLinear => idm_act rd draw v
  end.

(** action.py:143-164: the three tables of meta-actions. *)
Definition ACTIONS_ALL : list (Z * meta_action) :=
  [(0%Z, LANE_LEFT); (1%Z, IDLE); (2%Z, LANE_RIGHT); (3%Z, FASTER); (4%Z, SLOWER)].
Definition ACTIONS_LONGI : list (Z * meta_action) := [(0%Z, SLOWER); (1%Z, IDLE); (2%Z, FASTER)].
Definition ACTIONS_LAT : list (Z * meta_action) := [(0%Z, LANE_LEFT); (1%Z, IDLE); (2%Z, LANE_RIGHT)].
(** action.py:166-187. *)
Definition meta_table (longitudinal lateral : bool) : res (list (Z * meta_action)) :=
  if longitudinal && lateral then Ok ACTIONS_ALL
  else if longitudinal then Ok ACTIONS_LONGI
  else if lateral then Ok ACTIONS_LAT
  else Err ValueError.
Definition meta_eqb (a b : meta_action) : bool :=
  match a, b with
  | LANE_LEFT, LANE_LEFT | IDLE, IDLE | LANE_RIGHT, LANE_RIGHT | FASTER, FASTER | SLOWER, SLOWER => true
  | _, _ => false
  end.
(** [self.actions[k]] and [self.actions_indexes[name]] (action.py:181-187). *)
Definition action_of (t : list (Z * meta_action)) (k : Z) : res meta_action :=
  match find (fun x => Z.eqb (fst x) k) t with Some x => Ok (snd x) | None => Err KeyError end.
Definition index_of (t : list (Z * meta_action)) (m : meta_action) : res Z :=
  match find (fun x => meta_eqb (snd x) m) t with Some x => Ok (fst x) | None => Err KeyError end.

(** action.py:76-106: configuration of a continuous action. *)
Record continuous : Type := ContinuousCfg {
  ca_acceleration : R * R;
  ca_steering : R * R;
  ca_longitudinal : bool;
  ca_lateral : bool;
  ca_dynamical : bool;
  ca_clip : bool }.
Definition ACC_RANGE : R * R := (-5, 5).
Definition STEER_RANGE : R * R := (- PI / 4, PI / 4).
Definition continuous_default : continuous := ContinuousCfg ACC_RANGE STEER_RANGE true true false true.
(** action.py:99-106. *)
Definition make_continuous (acceleration steering : option (R * R)) (longitudinal lateral dynamical clip : bool) : res continuous :=
  if negb lateral && negb longitudinal then Err ValueError
  else Ok (ContinuousCfg (match acceleration with Some r => r | None => ACC_RANGE end)
             (match steering with Some r => r | None => STEER_RANGE end) longitudinal lateral dynamical clip).
(** action.py:108-110 [space]: number of coordinates. *)
Definition continuous_size (c : continuous) : nat := if ca_lateral c && ca_longitudinal c then 2%nat else 1%nat.

(** action.py:116-134 [ContinuousAction.act]: the command sent to the vehicle. *)
Definition continuous_command (c : continuous) (x : list R) : res command :=
  let x := if ca_clip c then map (fun a => Rclip a (-1) 1) x else x in
  let at_ k := match nth_error x k with Some a => Ok a | None => Err IndexError end in
  if ca_longitudinal c && ca_lateral c then
    do a0 <- at_ 0%nat; do acc <- lmap a0 (-1, 1) (ca_acceleration c);
    do a1 <- at_ 1%nat; do st <- lmap a1 (-1, 1) (ca_steering c);
    Ok (Controls acc st)
  else if ca_longitudinal c then
    do a0 <- at_ 0%nat; do acc <- lmap a0 (-1, 1) (ca_acceleration c); Ok (Controls acc 0)
  else
    do a0 <- at_ 0%nat; do st <- lmap a0 (-1, 1) (ca_steering c); Ok (Controls 0 st).

(** Single-agent action types and the multi-agent one (action.py:200-223; a
    multi-agent type nested in another one is not modelled). *)
Inductive single_action : Type :=
| Discrete (longitudinal lateral : bool)
| Continuous (c : continuous).
Inductive action_type : Type :=
| Single (s : single_action)
| Multi (s : single_action).

(** action.py:196-197, 116-134: the command of a single agent. *)
Definition single_command (s : single_action) (a : agent_action) : res command :=
  match s, a with
  | Discrete lo la, ActInt k => do t <- meta_table lo la; do m <- action_of t k; Ok (Label m)
  | Continuous c, ActVec x => continuous_command c x
  | _, _ => Err TypeError
  end.
(** action.py:111-114, 192-194 [vehicle_class]. *)
Definition vehicle_class (s : single_action) : vkind :=
  match s with Discrete _ _ => KMDP | Continuous c => if ca_dynamical c then KBicycle else KVehicle end.

(** Rank in [road.vehicles] of the object with identity [id]. *)
Fixpoint rank_of (id : nat) (vs : list vehicle) : option nat :=
  match vs with
  | [] => None
  | v :: vs' => if Nat.eqb (v_id v) id then Some 0%nat else option_map S (rank_of id vs')
  end.
(** Send a command to the vehicle with identity [id].  A controlled vehicle that
    is no longer on the road cannot influence it; that case is not modelled
    further. *)
Definition command_vehicle (rd : road) (draw : nat -> nat) (id : nat) (c : command) : res road :=
  match rank_of id (rd_vehicles rd) with
  | None => Ok rd
  | Some k =>
      match nth_error (rd_vehicles rd) k with
      | None => Ok rd
      | Some v => do v' <- vehicle_command rd draw v c; Ok (set_vehicles rd (update_nth k v' (rd_vehicles rd)))
      end
  end.
Definition act_single (s : single_action) (draw : nat -> nat) (rd : road) (id : nat) (a : agent_action) : res road :=
  do c <- single_command s a; command_vehicle rd draw id c.

(** action.py:220-223: [zip(action, agents_action_types)] stops at the shorter. *)
Fixpoint act_multi (s : single_action) (draws : nat -> nat -> nat) (rd : road) (ids : list nat) (acts : list agent_action) : res road :=
  match ids, acts with
  | id :: ids', a :: acts' => do rd1 <- act_single s (draws id) rd id a; act_multi s draws rd1 ids' acts'
  | _, _ => Ok rd
  end.
(** [self.action_type.act(action)] (abstract.py:216) with the controlled vehicles
    [ids] ([env.vehicle] is the first one, abstract.py:73-76).  Without controlled
    vehicle [None.act] raises AttributeError. *)
Definition action_act (t : action_type) (draws : nat -> nat -> nat) (rd : road) (ids : list nat) (a : agent_action) : res road :=
  match t with
  | Single s => match ids with id :: _ => act_single s (draws id) rd id a
                             | [] => do _ <- single_command s a; Err AttributeError end
  | Multi s => match a with ActTuple l => act_multi s draws rd ids l | _ => Err TypeError (* AssertionError *) end
  end.
