(** Specification of the observations, in terms of the state of the vehicles. *)
From Verif Require Import Prelude M_Lane M_Road M_Vehicle.
Open Scope R_scope.

(** Where a vehicle is going: the end of the last lane of its route, or where it is. *)
Definition bound_for (g : graph) (v : vehicle) (p : vec) : Prop :=
  match v_route v with
  | Some (r0 :: rt) => exists l, get_lane g (last (r0 :: rt) r0) = Ok l /\ p = l_position l (l_length l) 0
  | _ => p = v_pos v
  end.
(** Unit vector to [p] from the vehicle, zero when it is there. *)
Definition heads_for (v : vehicle) (p d : vec) : Prop :=
  (p = v_pos v /\ d = (0, 0)) \/
  (p <> v_pos v /\ d = vscal (/ vnorm (vsub p (v_pos v))) (vsub p (v_pos v))).

(** [feature g v intentions name x]: in absolute coordinates, the feature [name] of [v] is [x]. *)
Inductive feature (g : graph) (v : vehicle) (intentions : bool) : string -> R -> Prop :=
| f_presence : feature g v intentions "presence" 1
| f_x : feature g v intentions "x" (fst (v_pos v))
| f_y : feature g v intentions "y" (snd (v_pos v))
| f_vx : feature g v intentions "vx" (v_speed v * cos (v_heading v))
| f_vy : feature g v intentions "vy" (v_speed v * sin (v_heading v))
| f_heading : feature g v intentions "heading" (v_heading v)
| f_cos_h : feature g v intentions "cos_h" (cos (v_heading v))
| f_sin_h : feature g v intentions "sin_h" (sin (v_heading v))
| f_cos_d : forall p d, bound_for g v p -> heads_for v p d ->
    feature g v intentions "cos_d" (if intentions then fst d else 0)
| f_sin_d : forall p d, bound_for g v p -> heads_for v p d ->
    feature g v intentions "sin_d" (if intentions then snd d else 0).

(** Position and velocity are given relative to the origin, if any. *)
Definition is_relative (name : string) : Prop := In name ["x"; "y"; "vx"; "vy"]%string.
Definition seen_feature (g : graph) (origin : option vehicle) (v : vehicle) (intentions : bool) (name : string) (x : R) : Prop :=
  match origin with
  | None => feature g v intentions name x
  | Some o => exists a, feature g v intentions name a /\
      ((is_relative name /\ exists b, feature g o true name b /\ x = a - b) \/ (~ is_relative name /\ x = a))
  end.

(** A value in a range mapped to [-1, 1], saturated if [clip]; unchanged without a range. *)
Definition saturate (x y : R) : Prop :=
  (x < -1 /\ y = -1) \/ (-1 <= x <= 1 /\ y = x) \/ (1 < x /\ y = 1).
Definition scaled (range : option (R * R)) (clip : bool) (x y : R) : Prop :=
  match range with
  | None => y = x
  | Some (a, b) => a <> b /\
      exists z, z = 2 * (x - a) / (b - a) - 1 /\ (if clip then saturate z y else y = z)
  end.

(** The entry in row [i], column [j] of a table. *)
Definition entry (t : list (list R)) (i j : nat) : option R :=
  match nth_error t i with Some row => nth_error row j | None => None end.

(** The ranges used when none are configured: five seconds ahead and behind at [smax], the
    width of the road to the left and right, twice [smax] for speeds. *)
Definition standard_range (smax : R) (lanes : nat) (name : string) : option (R * R) :=
  if String.eqb name "x" then Some (-5 * smax, 5 * smax)
  else if String.eqb name "y" then Some (- (4 * INR lanes), 4 * INR lanes)
  else if String.eqb name "vx" then Some (-2 * smax, 2 * smax)
  else if String.eqb name "vy" then Some (-2 * smax, 2 * smax)
  else None.

(** The range of a feature, when normalisation is on and ranges are known. *)
Definition range_in (normalize : bool) (r : option (list (string * (R * R)))) (name : string) : option (R * R) :=
  if normalize then match r with Some rr => assoc name rr | None => None end else None.

(** A feature whose value is between -1 and 1 by definition. *)
Definition naturally_bounded (name : string) : Prop :=
  In name ["presence"; "cos_h"; "sin_h"; "cos_d"; "sin_d"]%string.
Definition known_feature (name : string) : Prop :=
  In name ["presence"; "x"; "y"; "vx"; "vy"; "heading"; "cos_h"; "sin_h"; "cos_d"; "sin_d"]%string.

(** ** Occupancy grids *)
(** The coordinate [x] is counted in the cell [k] of an axis starting at [lower] with cells
    of width [step]: inside the cell, except that the first one also takes what lies
    less than one step below the grid. *)
Definition counted_in (lower step x : R) (k : nat) : Prop :=
  ((0 < k)%nat /\ lower + INR k * step <= x < lower + (INR k + 1) * step) \/
  (k = 0%nat /\ lower - step < x < lower + step).
(** Vehicle [w] is counted in row [i] (across, [y]) and column [j] (along, [x]) of a grid
    centred on [o]. *)
Definition counted (size : (R * R) * (R * R)) (step : R * R) (o w : vehicle) (i j : nat) : Prop :=
  counted_in (fst (snd size)) (snd step) (snd (v_pos w) - snd (v_pos o)) i /\
  counted_in (fst (fst size)) (fst step) (fst (v_pos w) - fst (v_pos o)) j.

(** The last [n] elements. *)
Definition lastn {A : Type} (n : nat) (l : list A) : list A := skipn (List.length l - n) l.
