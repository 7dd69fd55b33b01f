(** Model of road/regulation.py (RegulatedRoad). *)
From Verif Require Import Prelude M_Utils M_Lane M_Road M_Vehicle M_Kinematics M_Control M_Behavior.
Open Scope R_scope.

(** regulation.py:13-14 class constants.  YIELD_DURATION is a parameter [yd] of the
    definitions below so that the general rule is visible; the code uses 0. *)
Definition REGULATION_FREQUENCY : R := 2.
Definition YIELD_DURATION : R := 0.

(** regulation.py:54-67 [respect_priorities]: the first or the second vehicle. *)
Definition respect_priorities (g : graph) (v1 v2 : vehicle) : res bool (* true: v1 yields *) :=
  do l1 <- get_lane g (v_lane_index v1);
  do l2 <- get_lane g (v_lane_index v2);
  Ok (if (l_priority l2 <? l_priority l1)%Z then false
      else if (l_priority l1 <? l_priority l2)%Z then true
      else Rltb (front_distance_to v2 v1) (front_distance_to v1 v2)).

(** regulation.py:71: [np.arange(0.25, 3, 0.25)]. *)
Definition conflict_times : list R := map (fun k => INR (S k) * (1/4)) (seq 0 11).

(** regulation.py:72-73: only controlled vehicles have
    [predict_trajectory_constant_speed]. *)
Definition predicted (g : graph) (v : vehicle) : res (list (vec * R)) :=
  if is_controlled (v_kind v) then predict_constant_speed g v conflict_times else Err AttributeError.

(** regulation.py:76-83: check of one pair of predicted poses. *)
Definition poses_conflict (a b : vec * R) : bool :=
  if Rltb V_LENGTH (vnorm (vsub (fst b) (fst a))) then false
  else rotated_rectangles_intersect (Rect (fst a) (15/10 * V_LENGTH) (9/10 * V_WIDTH) (snd a))
                                    (Rect (fst b) (15/10 * V_LENGTH) (9/10 * V_WIDTH) (snd b)).
(** regulation.py:70-83 [is_conflict_possible]. *)
Definition is_conflict_possible (g : graph) (v1 v2 : vehicle) : res bool :=
  do p1 <- predicted g v1;
  do p2 <- predicted g v2;
  Ok (existsb (fun ab => poses_conflict (fst ab) (snd ab)) (combine p1 p2)).

(** regulation.py:30-38: unfreezing one vehicle. *)
Definition unfreeze (yd : R) (g : graph) (v : vehicle) : res vehicle :=
  if v_is_yielding v then
    if Rleb (yd * REGULATION_FREQUENCY) (IZR (v_yield_timer v)) then
      do l <- get_lane g (v_lane_index v);
      if v_has_color v
      then Ok (set_yield (set_target_speed v (l_speed_limit l)) false (v_yield_timer v) false)
      else Err AttributeError
    else Ok (set_yield v true (v_yield_timer v + 1) (v_has_color v))
  else Ok v.

(** regulation.py:45-51: only controlled vehicles that are not MDP vehicles are
    forced to yield. *)
Definition can_be_forced (v : vehicle) : bool :=
  match v_kind v with KControlled | KIDM | KLinear => true | _ => false end.
Definition force (v : vehicle) : vehicle :=
  if can_be_forced v then set_yield (set_target_speed v 0) true 0%Z true else v.

(** regulation.py:41-51: one pair. *)
Definition enforce_pair (g : graph) (vs : list vehicle) (ij : nat * nat) : res (list vehicle) :=
  match nth_error vs (fst ij), nth_error vs (snd ij) with
  | Some v1, Some v2 =>
      do c <- is_conflict_possible g v1 v2;
      if c then
        do first <- respect_priorities g v1 v2;
        Ok (if first then update_nth (fst ij) (force v1) vs else update_nth (snd ij) (force v2) vs)
      else Ok vs
  | _, _ => Ok vs
  end.
(** [for i in range(n - 1): for j in range(i + 1, n)]. *)
Definition all_pairs (n : nat) : list (nat * nat) :=
  flat_map (fun i => map (pair i) (seq (S i) (n - S i))) (seq 0 (n - 1)).

(** regulation.py:27-51 [enforce_road_rules]. *)
Definition enforce_road_rules (yd : R) (rd : road) : res road :=
  do vs <- mapM (unfreeze yd (rd_net rd)) (rd_vehicles rd);
  do vs' <- foldM (enforce_pair (rd_net rd)) (all_pairs (List.length vs)) vs;
  Ok (set_vehicles rd vs').

(** regulation.py:21-25 [step]. *)
Definition regulation_period (dt : R) : Z := Rtrunc (1 / dt / REGULATION_FREQUENCY).
Definition regulated_step (yd : R) (rd : road) (dt : R) : res road :=
  let rd1 := set_steps rd (rd_steps rd + 1) in
  if Reqb dt 0 then Err ZeroDivisionError
  else if (regulation_period dt =? 0)%Z then Err ZeroDivisionError
  else
    do rd2 <- (if ((rd_steps rd1) mod (regulation_period dt) =? 0)%Z then enforce_road_rules yd rd1 else Ok rd1);
    road_step rd2 dt.
