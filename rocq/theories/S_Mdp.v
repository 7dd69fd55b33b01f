(** Specification: the finite MDP of an environment. *)
From Verif Require Import Prelude M_Road M_Vehicle M_Control M_Env M_Reset M_Ttc M_Gym M_Config.
Open Scope R_scope.

(** The environment that the agent would see now. *)
Definition present (cs : classes) (p : player) : env := seen_env cs (gy_cf (pl_gym p)) (gy_scene (pl_gym p)) (gy_env (pl_gym p)).
(** What an environment pays for: the lane furthest to the right, the highest speed,
    and each lane change.  The other environments do not pay for these three. *)
Record prices : Type := Prices { pr_right : R; pr_fast : R; pr_change : R }.
Definition prices_of (g : game) : option prices :=
  match g with
  | GHighway => Some (Prices (10/100) (40/100) 0)
  | GMerge => Some (Prices (10/100) (20/100) (- (5/100)))
  | GRoundabout => Some (Prices 0 (20/100) (- (5/100)))
  | _ => None
  end.
(** Why an environment made with its default options has no finite MDP. *)
Definition refusal (g : game) : option exn :=
  match g with
  | GHighway => None
  | GMerge | GRoundabout | GTwoWay => Some KeyError
  | GParking | GSummon | GIntersection | GAgents => Some AttributeError
  end.
(** The entry of the table of rewards for speed level [h], lane [i], time [j] and action [a]. *)
Definition reward_entry (m : mdp) (h i j a : nat) (r : R) : Prop :=
  let '(_, l, t) := mdp_shape m in
  exists row, nth_error (mdp_reward m) ((h * Z.to_nat l + i) * Z.to_nat t + j) = Some row /\ nth_error row a = Some r.
Definition transition_entry (m : mdp) (h i j a : nat) (s : Z) : Prop :=
  let '(_, l, t) := mdp_shape m in
  exists row, nth_error (mdp_transition m) ((h * Z.to_nat l + i) * Z.to_nat t + j) = Some row /\ nth_error row a = Some s.
(** A vehicle [u] that is what the state of speed level [h], lane [k] and time [j] stands
    for: driven with the same speed levels, at the speed of that level, in that lane of
    the road of [v] without changing lane, and crashed where the grid has a collision. *)
Definition stands_for (grid : grid3) (v : vehicle) (h k j : nat) (u : vehicle) : Prop :=
  v_kind u = KMDP /\ v_grid u = v_grid v /\ v_speed_index u = Z.of_nat h /\
  v_speed u = sg_min (v_grid v) + (INR h / 2) * (sg_max (v_grid v) - sg_min (v_grid v)) /\
  v_lane_index u = (li_from (v_lane_index v), li_to (v_lane_index v), Some (Z.of_nat k)) /\ v_target_lane u = v_lane_index u /\
  cell grid h k j = (if v_crashed u then 1 else 0).
