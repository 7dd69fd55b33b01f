(** Model of highway_env/road/lane.py *)
From Verif Require Import Prelude M_Utils.
Open Scope R_scope.

(** The three lane classes (lane.py:121, 171, 213) with their constructor
    arguments that determine the centre line. *)
Inductive geometry : Type :=
| GStraight (start end_ : vec)
| GSine (start end_ : vec) (amplitude pulsation phase : R)
| GCircular (center : vec) (radius start_phase end_phase : R) (clockwise : bool).

(** lane.py:111-118 [LineType]. *)
Inductive line_type : Type := LNone | LStriped | LContinuous | LContinuousLine.

(** A lane object: geometry plus the attributes shared by all classes. *)
Record lane : Type := Lane {
  l_geom : geometry;
  l_width : R;
  l_line_types : line_type * line_type;
  l_forbidden : bool;
  l_speed_limit : R;
  l_priority : Z }.

(** lane.py:15-16 class constants. *)
Definition DEFAULT_WIDTH : R := 4.
Definition LANE_VEHICLE_LENGTH : R := 5.

(** Constructor defaults (lane.py:125-132, 175-185, 217-227). *)
Definition default_lane (g : geometry) : lane :=
  Lane g DEFAULT_WIDTH (LStriped, LStriped) false 20 0%Z.

(** lane.py:233 [self.direction = 1 if clockwise else -1]. *)
Definition circ_dir (clockwise : bool) : R := if clockwise then 1 else -1.

(** lane.py:149-150 [direction], [direction_lateral] of a straight lane (numpy
    division: meaningless when the two ends coincide). *)
Definition straight_dir (st en : vec) : vec :=
  vscal (/ vnorm (vsub en st)) (vsub en st).
Definition straight_lat (st en : vec) : vec :=
  let d := straight_dir st en in (- snd d, fst d).

(** lane.py:147 (straight, sine), 237 (circular): [length]. *)
Definition geom_length (g : geometry) : R :=
  match g with
  | GStraight st en | GSine st en _ _ _ => vnorm (vsub en st)
  | GCircular _ r sp ep cw => r * (ep - sp) * circ_dir cw
  end.
Definition l_length (l : lane) : R := geom_length (l_geom l).

(** lane.py:155-156 StraightLane.position. *)
Definition straight_position (st en : vec) (s d : R) : vec :=
  vadd (vadd st (vscal s (straight_dir st en))) (vscal d (straight_lat st en)).

(** lane.py:155-156, 200-202, 241-243 [position]. *)
Definition geom_position (g : geometry) (s d : R) : vec :=
  match g with
  | GStraight st en => straight_position st en s d
  | GSine st en a p ph => straight_position st en s (d + a * sin (p * s + ph))
  | GCircular c r sp ep cw =>
      let phi := circ_dir cw * s / r + sp in
      vadd c (vscal (r - d * circ_dir cw) (cos phi, sin phi))
  end.
Definition l_position (l : lane) (s d : R) : vec := geom_position (l_geom l) s d.

(** lane.py:146 heading attribute of straight lanes. *)
Definition straight_heading (st en : vec) : R :=
  atan2 (snd en - snd st) (fst en - fst st).

(** lane.py:158-159, 204-206, 245-248 [heading_at]. *)
Definition geom_heading (g : geometry) (s : R) : R :=
  match g with
  | GStraight st en => straight_heading st en
  | GSine st en a p ph => straight_heading st en + atan (a * p * cos (p * s + ph))
  | GCircular c r sp ep cw =>
      let phi := circ_dir cw * s / r + sp in phi + PI / 2 * circ_dir cw
  end.
Definition l_heading (l : lane) (s : R) : R := geom_heading (l_geom l) s.

(** lane.py:161-162, 250-251 [width_at]. *)
Definition l_width_at (l : lane) (s : R) : R := l_width l.

(** lane.py:164-168 StraightLane.local_coordinates. *)
Definition straight_local (st en : vec) (p : vec) : R * R :=
  let delta := vsub p st in
  (vdot delta (straight_dir st en), vdot delta (straight_lat st en)).

(** lane.py:164-168, 208-210, 253-260 [local_coordinates]. *)
Definition geom_local (g : geometry) (p : vec) : R * R :=
  match g with
  | GStraight st en => straight_local st en p
  | GSine st en a pu ph =>
      let '(s, d) := straight_local st en p in (s, d - a * sin (pu * s + ph))
  | GCircular c r sp ep cw =>
      let delta := vsub p c in
      let phi0 := atan2 (snd delta) (fst delta) in
      let phi := sp + wrap_to_pi (phi0 - sp) in
      let rr := vnorm delta in
      (circ_dir cw * (phi - sp) * r, circ_dir cw * (r - rr))
  end.
Definition l_local (l : lane) (p : vec) : R * R := geom_local (l_geom l) p.

(** python truthiness of an optional float: [None] and [0.0] are falsy. *)
Definition falsy_float (x : option R) : bool :=
  match x with None => true | Some v => Reqb v 0 end.

(** lane.py:61-76 [on_lane]: coordinates are recomputed when either hint is
    missing or zero. *)
Definition on_lane (l : lane) (p : vec) (s d : option R) (margin : R) : bool :=
  let '(s', d') :=
    match s, d with
    | Some sv, Some dv =>
        if Reqb sv 0 || Reqb dv 0 then l_local l p else (sv, dv)
    | _, _ => l_local l p
    end in
  Rleb (Rabs d') (l_width_at l s' / 2 + margin)
  && (Rleb (- LANE_VEHICLE_LENGTH) s' && Rltb s' (l_length l + LANE_VEHICLE_LENGTH)).

(** lane.py:78-90 [is_reachable_from]. *)
Definition is_reachable_from (l : lane) (p : vec) : bool :=
  if l_forbidden l then false
  else
    let '(s, d) := l_local l p in
    Rleb (Rabs d) (2 * l_width_at l s)
    && (Rleb 0 s && Rltb s (l_length l + LANE_VEHICLE_LENGTH)).

(** lane.py:92-95 [after_end]. *)
Definition after_end (l : lane) (p : vec) (s : option R) : bool :=
  let s' := match s with
            | Some sv => if Reqb sv 0 then fst (l_local l p) else sv
            | None => fst (l_local l p)
            end in
  Rltb (l_length l - LANE_VEHICLE_LENGTH / 2) s'.

(** lane.py:97-100 [distance]. *)
Definition l_distance (l : lane) (p : vec) : R :=
  let '(s, r) := l_local l p in
  Rabs r + Rmax (s - l_length l) 0 + Rmax (0 - s) 0.

(** lane.py:102-108 [distance_with_heading]. *)
Definition l_distance_with_heading (l : lane) (p : vec) (heading : option R) (weight : R) : R :=
  match heading with
  | None => l_distance l p
  | Some h =>
      let '(s, r) := l_local l p in
      let angle := Rabs (wrap_to_pi (h - l_heading l s)) in
      Rabs r + Rmax (s - l_length l) 0 + Rmax (0 - s) 0 + weight * angle
  end.
