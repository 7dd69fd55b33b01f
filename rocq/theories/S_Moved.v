(** Specification for C111: the same scene, somewhere else on the plane.

    A motion turns the plane by an angle and then shifts it.  It may also change the
    representative of the heading of any vehicle by a number of whole turns. *)
From Verif Require Import Prelude M_Utils M_Lane M_Road M_Vehicle M_Kinematics M_Action M_Env M_Scenes.
Open Scope R_scope.

Record motion : Type := Motion { m_angle : R; m_shift : vec; m_turns : nat -> Z }.

(** Where a point goes, and which way it then faces. *)
Definition put (m : motion) (p : vec) : vec := vadd (m_shift m) (vrot (m_angle m) p).
Definition face (m : motion) (i : nat) (h : R) : R := h + m_angle m + 2 * PI * IZR (m_turns m i).

Definition put_geometry (m : motion) (g : geometry) : geometry :=
  match g with
  | GStraight st en => GStraight (put m st) (put m en)
  | GSine st en a w ph => GSine (put m st) (put m en) a w ph
  | GCircular c r sp ep cw => GCircular (put m c) r (sp + m_angle m) (ep + m_angle m) cw
  end.
Definition put_lane (m : motion) (l : lane) : lane :=
  Lane (put_geometry m (l_geom l)) (l_width l) (l_line_types l) (l_forbidden l) (l_speed_limit l) (l_priority l).
Definition put_graph (m : motion) (g : graph) : graph :=
  map (fun ad => (fst ad, map (fun bl => (fst bl, map (put_lane m) (snd bl))) (snd ad))) g.
Definition put_snapshot (m : motion) (i : nat) (x : snapshot) : snapshot :=
  Snapshot (put m (sn_pos x)) (face m i (sn_heading x)) (sn_speed x).
Definition put_vehicle (m : motion) (v : vehicle) : vehicle :=
  set_history (set_pose v (put m (v_pos v)) (face m (v_id v) (v_heading v)) (v_speed v))
    (map (put_snapshot m (v_id v)) (v_history v)).
Definition put_object (m : motion) (o : object) : object :=
  Object (o_id o) (o_kind o) (put m (o_pos o)) (o_speed o) (face m (o_id o) (o_heading o)) (o_hit o).
Definition put_road (m : motion) (rd : road) : road :=
  Road (put_graph m (rd_net rd)) (map (put_vehicle m) (rd_vehicles rd)) (map (put_object m) (rd_objects rd))
    (rd_record rd) (rd_steps rd).
Definition put_env (m : motion) (e : env) : env :=
  Env (put_road m (e_road e)) (e_controlled e) (e_time e) (e_steps e) (e_done e).

(** The angle is a whole number of quarter turns, of whole turns. *)
Definition quarterly (m : motion) : Prop := exists k : Z, m_angle m = PI / 2 * IZR k.
Definition wholly (m : motion) : Prop := exists k : Z, m_angle m = 2 * PI * IZR k.

(** A lane that goes from one point to another one. *)
Definition goes_somewhere (l : lane) : Prop :=
  match l_geom l with
  | GStraight st en | GSine st en _ _ _ => st <> en
  | GCircular _ _ _ _ _ => False
  end.
Definition lanes_of (g : graph) : list lane := flat_map (fun ad => flat_map snd (snd ad)) g.

(** The motions allowed on a network: any shift, and quarter turns when every lane is
    straight (or sinusoidal) and its ends differ: the angle of a null vector does not turn. *)
Definition fits (m : motion) (g : graph) : Prop :=
  wholly m \/ (quarterly m /\ forall l, In l (lanes_of g) -> goes_somewhere l).
(** A pure shift, headings untouched. *)
Definition shifts (m : motion) : Prop := m_angle m = 0 /\ forall i, m_turns m i = 0%Z.

(** Any number of steps, each with its random draws and its action. *)
Fixpoint plays_out (sc : scenario) (xs : list (oracle * agent_action)) (e : env) : res env :=
  match xs with
  | [] => Ok e
  | x :: xs' => do e' <- env_step sc (fst x) e (snd x); plays_out sc xs' e'
  end.

(** The environments whose end does not mention absolute positions: all driving
    environments but merge (whose episodes end at x = 370) and the parking ones. *)
Inductive placeless : scenario -> Prop :=
| placeless_highway : forall c sim pol manual act, placeless (highway_scenario c sim pol manual act)
| placeless_roundabout : forall d sim pol manual act, placeless (roundabout_scenario d sim pol manual act)
| placeless_two_way : forall sim pol manual act, placeless (two_way_scenario sim pol manual act)
| placeless_intersection : forall c sim pol manual act, placeless (intersection_scenario c sim pol manual act).
