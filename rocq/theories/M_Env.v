(** Model of envs/common/abstract.py: the generic environment. *)
From Verif Require Import Prelude M_Utils M_Lane M_Road M_Vehicle M_Kinematics M_Control M_Behavior M_Regulation M_Action.
Open Scope R_scope.

(** abstract.py:38-71: state of an environment (without its rendering
    attributes, see M_Viewer). *)
Record env : Type := Env {
  e_road : road;
  e_controlled : list nat;     (* identities of controlled_vehicles *)
  e_time : Z;
  e_steps : Z;
  e_done : bool }.
Definition set_road (e : env) (rd : road) : env := Env rd (e_controlled e) (e_time e) (e_steps e) (e_done e).
Definition tick (e : env) : env := Env (e_road e) (e_controlled e) (e_time e + 1) (e_steps e) (e_done e).
Definition count_step (e : env) : env := Env (e_road e) (e_controlled e) (e_time e) (e_steps e + 1) (e_done e).

(** The object with identity [id] among the vehicles of the road. *)
Definition vehicle_by_id (rd : road) (id : nat) : option vehicle :=
  find (fun v => Nat.eqb (v_id v) id) (rd_vehicles rd).
(** abstract.py:74-76 [vehicle]; None as AttributeError at its uses. *)
Definition ego (e : env) : res vehicle :=
  match e_controlled e with
  | [] => Err AttributeError
  | id :: _ => match vehicle_by_id (e_road e) id with Some v => Ok v | None => Err AttributeError end
  end.
(** [controlled_vehicles] as objects. *)
Definition controlled (e : env) : list vehicle :=
  flat_map (fun id => match vehicle_by_id (e_road e) id with Some v => [v] | None => [] end) (e_controlled e).

(** What a concrete environment provides. *)
Record scenario : Type := Scenario {
  sc_simulation : R;                         (* config["simulation_frequency"] *)
  sc_policy : R;                             (* config["policy_frequency"] *)
  sc_manual : bool;                          (* config["manual_control"] *)
  sc_action : action_type;
  sc_regulated : bool;                       (* RegulatedRoad or Road *)
  sc_terminal : env -> res bool }.           (* _is_terminal *)

(** abstract.py:211 [int(simulation_frequency // policy_frequency)]. *)
Definition frames_per_step (sc : scenario) : Z := Rfloor (sc_simulation sc / sc_policy sc).

(** Random draws, by simulation time: [o_act] for the commands to the controlled
    vehicles, [o_road] for Road.act. *)
Record oracle : Type := Oracle { o_act : Z -> nat -> nat -> nat; o_road : Z -> nat -> nat -> nat }.

Definition scenario_step (sc : scenario) (rd : road) (dt : R) : res road :=
  if sc_regulated sc then regulated_step YIELD_DURATION rd dt else road_step rd dt.

(** abstract.py:213-216: the action is forwarded at the times that are multiples of
    the number of frames per step. *)
Definition forward (sc : scenario) (o : oracle) (e : env) (a : option agent_action) : res env :=
  match a with
  | Some x =>
      if negb (sc_manual sc) && Z.eqb (e_time e mod frames_per_step sc) 0
      then do rd <- action_act (sc_action sc) (o_act o (e_time e)) (e_road e) (e_controlled e) x; Ok (set_road e rd)
      else Ok e
  | None => Ok e
  end.
(** abstract.py:218-220: one frame. *)
Definition frame (sc : scenario) (o : oracle) (e : env) : res env :=
  do rd1 <- road_act (o_road o (e_time e)) (e_road e);
  do rd2 <- scenario_step sc rd1 (1 / sc_simulation sc);
  Ok (tick (set_road e rd2)).
(** abstract.py:209-229 [_simulate]: at most [n] frames. *)
Fixpoint simulate_frames (sc : scenario) (o : oracle) (n : nat) (e : env) (a : option agent_action) : res env :=
  match n with
  | O => Ok e
  | S n' =>
      do e1 <- forward sc o e a;
      do e2 <- frame sc o e1;
      if e_done e2 then Ok e2
      else do t <- sc_terminal sc e2; if t then Ok e2 else simulate_frames sc o n' e2 a
  end.
Definition simulate (sc : scenario) (o : oracle) (e : env) (a : option agent_action) : res env :=
  if Reqb (sc_policy sc) 0 then Err ZeroDivisionError
  else simulate_frames sc o (Z.to_nat (frames_per_step sc)) e a.

(** abstract.py:177-207 [step], without observation, reward and info. *)
Definition env_step (sc : scenario) (o : oracle) (e : env) (a : agent_action) : res env :=
  match e_controlled e with
  | [] => Err NotImplementedError
  | _ => simulate sc o (count_step e) (Some a)
  end.

(** abstract.py:256-265 [close]. *)
Definition close (e : env) : env := Env (e_road e) (e_controlled e) (e_time e) (e_steps e) true.

(** abstract.py:267-292 [get_available_actions]. *)
Definition available_lane (e : env) (g : graph) (v : vehicle) (t : list (Z * meta_action)) (lateral : bool)
  (acc : list Z) (i : lane_index) : res (list Z) :=
  match li_id i, li_id (v_lane_index v) with
  | Some k, Some c =>
      do l <- get_lane g i;
      if is_reachable_from l (v_pos v) && lateral then
        do lt <- (if (k <? c)%Z then do x <- index_of t LANE_LEFT; Ok [x] else Ok []);
        do rt <- (if (c <? k)%Z then do x <- index_of t LANE_RIGHT; Ok [x] else Ok []);
        Ok (acc ++ lt ++ rt)
      else Ok acc
  | _, _ => Err TypeError
  end.
Definition get_available_actions (sc : scenario) (e : env) : res (list Z) :=
  match sc_action sc with
  | Single (Discrete lo la) =>
      do t <- meta_table lo la;
      do idle <- index_of t IDLE;
      do v <- ego e;
      let g := rd_net (e_road e) in
      do sides <- side_lanes g (v_lane_index v);
      do acc <- foldM (available_lane e g v t la) sides [idle];
      do acc <- (if (v_speed_index v <? sg_count (v_grid v) - 1)%Z && lo
                 then do x <- index_of t FASTER; Ok (acc ++ [x]) else Ok acc);
      (if (0 <? v_speed_index v)%Z && lo
       then do x <- index_of t SLOWER; Ok (acc ++ [x]) else Ok acc)
  | _ => Err ValueError
  end.
