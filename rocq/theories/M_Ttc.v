(** Model of envs/common/finite_mdp.py and of the TimeToCollision observation
    (envs/common/observation.py:90-119).  Definitions only. *)
From Verif Require Import Prelude M_Utils M_Lane M_Road M_Vehicle M_Kinematics M_Control.
Open Scope R_scope.

(** A numpy array of shape (SPEED, LANES, TIME) as nested lists. *)
Notation grid3 := (list (list (list R))).
Definition cell (g : grid3) (h i j : nat) : R := nth j (nth i (nth h g []) []) 0.
(** [np.zeros((v, l, t))], [np.ones]. *)
Definition full3 (x : R) (v l t : nat) : grid3 := repeat (repeat (repeat x t) l) v.
Fixpoint modify_nth {A : Type} (k : nat) (f : A -> A) (l : list A) : list A :=
  match l, k with
  | [], _ => []
  | x :: l', O => f x :: l'
  | x :: l', S k' => x :: modify_nth k' f l'
  end.
(** [grid[h, i, j] = np.maximum(grid[h, i, j], cost)] at one cell. *)
Definition raise_cell (g : grid3) (h i j : nat) (cost : R) : grid3 :=
  modify_nth h (modify_nth i (modify_nth j (fun x => Rmax x cost))) g.
(** [np.ceil]. *)
Definition Rceil (x : R) : Z := (- Rfloor (- x))%Z.

(** numpy index normalisation: negative indices count from the end. *)
Definition np_index (n k : Z) : res nat :=
  if ((0 <=? k) && (k <? n))%Z then Ok (Z.to_nat k)
  else if ((- n <=? k) && (k <? 0))%Z then Ok (Z.to_nat (k + n)) else Err IndexError.
(** finite_mdp.py:126, for a list of lanes at one time. *)
Definition raise_lanes (g : grid3) (h : nat) (lanes : list Z) (nl : nat) (j : nat) (cost : R) : res grid3 :=
  foldM (fun g k => do i <- np_index (Z.of_nat nl) k; Ok (raise_cell g h i j cost)) lanes g.
(** finite_mdp.py:122-126, both quantised times. *)
Definition raise_times (g : grid3) (h : nat) (lanes : list Z) (nl nt : nat) (times : list Z) (cost : R) : res grid3 :=
  foldM (fun g t => if ((0 <=? t) && (t <? Z.of_nat nt))%Z then raise_lanes g h lanes nl (Z.to_nat t) cost else Ok g) times g.
(** finite_mdp.py:107-126: one collision point [m, cost] of one vehicle. *)
Definition mark_point (net : graph) (v : vehicle) (nl nt : nat) (tq ego_speed : R) (h : nat) (other : vehicle)
    (g : grid3) (point : R * R) : res grid3 :=
  do d <- lane_distance_to net v (EV other);
  let distance := d + fst point in
  let projected := v_speed other * vdot (e_direction (EV other)) (e_direction (EV v)) in
  let ttc := distance / not_zero (ego_speed - projected) not_zero_eps in
  if Rltb ttc 0 then Ok g
  else if is_connected_road net (v_lane_index v) (v_lane_index other) (match v_route v with Some r => r | None => [] end) false 3 then
    do lo <- all_side_lanes net (v_lane_index other);
    do lv <- all_side_lanes net (v_lane_index v);
    do lanes <- (if Nat.eqb (List.length lo) (List.length lv)
                 then match li_id (v_lane_index other) with Some k => Ok [k] | None => Err IndexError end
                 else Ok (zrange nl));
    raise_times g h lanes nl nt [Rtrunc (ttc / tq); Rceil (ttc / tq)] (snd point)
  else Ok g.
(** finite_mdp.py:102-126: one other vehicle.  LENGTH is 5 for every vehicle. *)
Definition mark_vehicle (net : graph) (v : vehicle) (nl nt : nat) (tq ego_speed : R) (h : nat) (g : grid3) (other : vehicle) : res grid3 :=
  if Nat.eqb (v_id other) (v_id v) || Reqb ego_speed (v_speed other) then Ok g
  else
    let margin := V_LENGTH / 2 + V_LENGTH / 2 in
    foldM (mark_point net v nl nt tq ego_speed h other) [(0, 1); (- margin, 1/2); (margin, 1/2)] g.
(** finite_mdp.py:83-127 [compute_ttc_grid]; [ev] is env.vehicle, [v] the observer.
    SPEED_COUNT and index_to_speed only exist for MDPVehicle. *)
Definition compute_ttc_grid (rd : road) (ev v : vehicle) (tq horizon : R) : res grid3 :=
  let net := rd_net rd in
  do road_lanes <- all_side_lanes net (v_lane_index ev);
  match v_kind v with
  | KMDP =>
      if Reqb tq 0 then Err ZeroDivisionError
      else
        let nv := sg_count (v_grid v) in
        let nl := List.length road_lanes in
        let nt := Rtrunc (horizon / tq) in
        if ((nv <? 0) || (nt <? 0))%Z then Err ValueError
        else foldM (fun g h => foldM (mark_vehicle net v nl (Z.to_nat nt) tq (index_to_speed (v_grid v) (Z.of_nat h)) h) (rd_vehicles rd) g)
                   (seq 0 (Z.to_nat nv)) (full3 0 (Z.to_nat nv) nl (Z.to_nat nt))
  | _ => Err AttributeError
  end.

(** ** Finite MDP *)
Notation shape3 := (Z * Z * Z)%type.
(** [np.ravel_multi_index] of an index that is in range. *)
Definition ravel (sh : shape3) (h i j : Z) : Z := let '(v, l, t) := sh in ((h * l + i) * t + j)%Z.
(** finite_mdp.py:153-167 [clip_position]. *)
Definition clip_position (sh : shape3) (h i j : Z) : Z :=
  let '(v, l, t) := sh in ravel sh (Zclip h 0 (v - 1)) (Zclip i 0 (l - 1)) (Zclip j 0 (t - 1)).
(** finite_mdp.py:130-150 [transition_model], at one position of the arrays: the
    masked assignments overwrite the default in this order. *)
Definition transition_model (sh : shape3) (h i j a : Z) : Z :=
  if ((a =? 4) && (j =? 0))%Z then clip_position sh (h - 1) i (j + 1)
  else if ((a =? 3) && (j =? 0))%Z then clip_position sh (h + 1) i (j + 1)
  else if (a =? 2)%Z then clip_position sh h (i + 1) (j + 1)
  else if (a =? 0)%Z then clip_position sh h (i - 1) (j + 1)
  else clip_position sh h i (j + 1).

(** The pieces of [DeterministicMDP(transition, reward, terminal, state)]. *)
Record mdp := Mdp {
  mdp_state : Z;
  mdp_transition : list (list Z);
  mdp_reward : list (list R);
  mdp_terminal : list bool;
  mdp_shape : shape3
}.
(** [np.ravel] of a function of the position, in the order of the array. *)
Definition ravel_table {A : Type} (v l t : nat) (f : nat -> nat -> nat -> A) : list A :=
  flat_map (fun h => flat_map (fun i => map (fun j => f h i j) (seq 0 t)) (seq 0 l)) (seq 0 v).
(** The constants env.config["collision_reward"], RIGHT_LANE_REWARD,
    HIGH_SPEED_REWARD, LANE_CHANGE_REWARD. *)
Record mdp_rewards := MdpRewards { mr_collision : R; mr_right : R; mr_speed : R; mr_change : R }.
(** finite_mdp.py:14-80 [finite_mdp], up to the construction of the MDP object of the
    external module.  [actions] is env.action_space.n. *)
Definition finite_mdp (rd : road) (ev : vehicle) (rw : mdp_rewards) (actions : nat) (tq horizon : R) : res mdp :=
  do grid <- compute_ttc_grid rd ev ev tq horizon;
  do lanes <- all_side_lanes (rd_net rd) (v_lane_index ev);
  let v := Z.to_nat (sg_count (v_grid ev)) in
  let l := List.length lanes in
  let t := Z.to_nat (Rtrunc (horizon / tq)) in
  let sh := (Z.of_nat v, Z.of_nat l, Z.of_nat t) in
  match li_id (v_lane_index ev) with
  | None => Err TypeError
  | Some lane =>
      if ((0 <=? v_speed_index ev) && (v_speed_index ev <? Z.of_nat v) && (0 <=? lane) && (lane <? Z.of_nat l) && (0 <? Z.of_nat t))%Z then
        let state := ravel sh (v_speed_index ev) lane 0 in
        let transition := ravel_table v l t (fun h i j => map (fun a => transition_model sh (Z.of_nat h) (Z.of_nat i) (Z.of_nat j) (Z.of_nat a)) (seq 0 actions)) in
        let state_reward := ravel_table v l t (fun h i j =>
          mr_collision rw * cell grid h i j + mr_right rw * (INR i / Rmax (INR l - 1) 1) + mr_speed rw * (INR h / Rmax (INR v - 1) 1)) in
        let action_reward := [mr_change rw; 0; mr_change rw; 0; 0] in
        let reward := map (fun s => map (fun a => s + a) action_reward) state_reward in
        let terminal := ravel_table v l t (fun h i j => Reqb (cell grid h i j) 1 || Nat.eqb j (t - 1)) in
        Ok (Mdp state transition reward terminal sh)
      else Err ValueError
  end.

(** ** observation.py:90-119 TimeToCollisionObservation *)
(** python slice [l[a:b]] for 0 <= a, b. *)
Definition slice {A : Type} (a b : nat) (l : list A) : list A := firstn (b - a) (skipn a l).
(** [np.repeat(g, counts, axis=0)]. *)
Fixpoint np_repeat {A : Type} (counts : list nat) (g : list A) : list A :=
  match counts, g with c :: cs, x :: g' => repeat x c ++ np_repeat cs g' | _, _ => [] end.
(** observation.py:112-114: the first and last layers are repeated once more per layer of [g].
    With one layer both indices designate it and [+=] counts once. *)
Definition repeat_ends {A : Type} (g : list A) : list A :=
  let n := List.length g in
  np_repeat (map (fun k => if Nat.eqb k 0 || Nat.eqb k (n - 1) then 1 + n else 1)%nat (seq 0 n)) g.
(** observation.py:101-119 [observe], with a road.  Slices with negative bounds
    (lane index and speed index are never negative) are not modelled.
    np.array([0, -1]) is out of range when there is no layer. *)
Definition ttc_observe (rd : road) (ev v : vehicle) (policy_frequency horizon : R) : res grid3 :=
  if Reqb policy_frequency 0 then Err ZeroDivisionError
  else
    do grid <- compute_ttc_grid rd ev v (1 / policy_frequency) horizon;
    do lanes <- all_side_lanes (rd_net rd) (v_lane_index ev);
    let nl := List.length lanes in
    match li_id (v_lane_index v) with
    | None => Err TypeError
    | Some lane =>
        let padded := map (fun plane => map (map (fun _ => 1)) plane ++ plane ++ map (map (fun _ => 1)) plane) grid in
        let l0 := Z.to_nat (Z.of_nat nl + lane - 1) in
        let lf := Z.to_nat (Z.of_nat nl + lane + 1) in
        let clamped := map (slice l0 (lf + 1)) padded in
        match clamped with
        | [] => Err IndexError
        | _ =>
            let padded2 := repeat_ends clamped in
            let v0 := Z.to_nat (Z.of_nat (List.length grid) + v_speed_index v - 1) in
            let vf := Z.to_nat (Z.of_nat (List.length grid) + v_speed_index v + 1) in
            Ok (slice v0 (vf + 1) padded2)
        end
    end.
(** observation.py:102-103: before the road exists. *)
Definition ttc_observe_no_road (policy_frequency horizon : R) : grid3 :=
  full3 0 3 3 (Z.to_nat (Rtrunc (horizon * policy_frequency))).
