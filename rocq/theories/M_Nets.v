(** The road networks of the provided environments. *)
From Verif Require Import Prelude M_Utils M_Lane M_Road.
Open Scope R_scope.
Open Scope string_scope.

(** Constructor calls of lane.py with the keyword arguments the environments use. *)
Definition straight_lane (st en : vec) (width : R) (lt : line_type * line_type) (forbidden : bool) (limit : R) (prio : Z) : lane :=
  Lane (GStraight st en) width lt forbidden limit prio.
Definition sine_lane (st en : vec) (a w ph width : R) (lt : line_type * line_type) (forbidden : bool) : lane :=
  Lane (GSine st en a w ph) width lt forbidden 20 0%Z.
Definition circular_lane (c : vec) (r sp ep : R) (cw : bool) (lt : line_type * line_type) (limit : R) (prio : Z) : lane :=
  Lane (GCircular c r sp ep cw) DEFAULT_WIDTH lt false limit prio.

(** highway_env.py:55-58 [_create_road]: length 10000 and angle 0 by default
    (road.py:204). *)
Definition highway_net (lanes : nat) : graph := straight_road_network lanes 10000 0.

(** two_way_env.py:65-82 [_make_road]. *)
Definition two_way_net (length : R) : graph := build [
  ("a", "b", straight_lane (0, 0) (length, 0) DEFAULT_WIDTH (LContinuousLine, LStriped) false 20 0%Z);
  ("a", "b", straight_lane (0, DEFAULT_WIDTH) (length, DEFAULT_WIDTH) DEFAULT_WIDTH (LNone, LContinuousLine) false 20 0%Z);
  ("b", "a", straight_lane (length, 0) (0, 0) DEFAULT_WIDTH (LNone, LNone) false 20 0%Z)].

(** merge_env.py:65-96 [_make_road]. *)
Definition merge_highway_lanes (y : R) (lt ltm : line_type * line_type) : list (string * string * lane) := [
  ("a", "b", straight_lane (0, y) (150 + 80, y) DEFAULT_WIDTH lt false 20 0%Z);
  ("b", "c", straight_lane (150 + 80, y) (150 + 80 + 80, y) DEFAULT_WIDTH ltm false 20 0%Z);
  ("c", "d", straight_lane (150 + 80 + 80, y) (150 + 80 + 80 + 150, y) DEFAULT_WIDTH lt false 20 0%Z)].
Definition merge_ljk : lane :=
  straight_lane (0, 65/10 + 4 + 4) (150, 65/10 + 4 + 4) DEFAULT_WIDTH (LContinuousLine, LContinuousLine) true 20 0%Z.
Definition merge_lkb : lane :=
  sine_lane (l_position merge_ljk 150 (- (325/100))) (l_position merge_ljk (150 + 80) (- (325/100)))
            (325/100) (2 * PI / (2 * 80)) (PI / 2) DEFAULT_WIDTH (LContinuousLine, LContinuousLine) true.
Definition merge_lbc : lane :=
  straight_lane (l_position merge_lkb 80 0) (vadd (l_position merge_lkb 80 0) (80, 0)) DEFAULT_WIDTH (LNone, LContinuousLine) true 20 0%Z.
Definition merge_net : graph := build (
  merge_highway_lanes 0 (LContinuousLine, LStriped) (LContinuousLine, LStriped) ++
  merge_highway_lanes DEFAULT_WIDTH (LNone, LContinuousLine) (LNone, LStriped) ++
  [("j", "k", merge_ljk); ("k", "b", merge_lkb); ("b", "c", merge_lbc)]).

(** parking_env.py:66-85 [_create_road]; python [spots // 2]. *)
Definition spot_x (spots k : nat) : R := (INR k - IZR (Z.of_nat spots / 2)) * (4 + 0) - 4 / 2.
Definition parking_lanes (y_offset limit : R) (spots : nat) : list (string * string * lane) :=
  flat_map (fun k =>
    let x := spot_x spots k in
    [("a", "b", straight_lane (x, y_offset) (x, y_offset + 8) 4 (LContinuous, LContinuous) false limit 0%Z);
     ("b", "c", straight_lane (x, - y_offset) (x, - y_offset - 8) 4 (LContinuous, LContinuous) false limit 0%Z)]) (seq 0 spots).
Definition parking_net (spots : nat) : graph := build (parking_lanes 10 20 spots).

(** summon_env.py:34-70 [_create_road]; [int(spots / 2)] is [spots // 2] for
    spots >= 0; the middle lanes are at np.arange(-8, 12, 4). *)
Definition summon_x_range (spots : nat) : R := (IZR (Z.of_nat spots / 2) + 1) * 4.
Definition summon_middle (spots : nat) : list (string * string * lane) :=
  map (fun y => ("d", "e", straight_lane (- summon_x_range spots, y) (summon_x_range spots, y) 4 (LStriped, LStriped) false 5 0%Z))
      [-8; -4; 0; 4; 8].
Definition summon_net (spots : nat) : graph := build (parking_lanes 12 5 spots ++ summon_middle spots).

(** lane_keeping_env.py:82-95 [_make_road]. *)
Definition lane_keeping_sine : lane := sine_lane (0, 0) (500, 0) 5 (2 * PI / 100) 0 10 (LStriped, LStriped) false.
Definition lane_keeping_straight : lane := straight_lane (50, 50) (115, 15) 10 (LStriped, LStriped) false 20 0%Z.
Definition lane_keeping_link : lane :=
  straight_lane (115, 15) (115 + 20, 15 + 20 * (15 - 50) / (115 - 50)) 10 (LNone, LStriped) false 20 0%Z.
Definition lane_keeping_net : graph := build
  [("a", "b", lane_keeping_sine); ("c", "d", lane_keeping_straight); ("d", "a", lane_keeping_link)].

(** roundabout_env.py:55-120 [_make_road].  [deg] is np.deg2rad. *)
Definition deg (x : R) : R := x * PI / 180.
Definition ring_lanes (radius : R) (lt : line_type * line_type) : list (string * string * lane) :=
  let arc a b := circular_lane (0, 0) radius (deg a) (deg b) false lt 20 0%Z in [
  ("se", "ex", arc (90 - 24) 24);
  ("ex", "ee", arc 24 (- 24));
  ("ee", "nx", arc (- 24) (- 90 + 24));
  ("nx", "ne", arc (- 90 + 24) (- 90 - 24));
  ("ne", "wx", arc (- 90 - 24) (- 180 + 24));
  ("wx", "we", arc (- 180 + 24) (- 180 - 24));
  ("we", "sx", arc (180 - 24) (90 + 24));
  ("sx", "se", arc (90 + 24) (90 - 24))].
Definition r_access : R := 170.
Definition r_dev : R := 85.
Definition r_a : R := 5.
Definition r_delta_st : R := 2/10 * r_dev.
Definition r_delta_en : R := r_dev - r_delta_st.
Definition r_w : R := 2 * PI / r_dev.
Definition r_straight (st en : vec) (lt : line_type * line_type) : lane := straight_lane st en DEFAULT_WIDTH lt false 20 0%Z.
Definition r_entry (st en : vec) : lane := sine_lane st en r_a r_w (- PI / 2) DEFAULT_WIDTH (LContinuous, LContinuous) false.
Definition r_exit (st en : vec) : lane := sine_lane st en r_a r_w (- PI / 2 + r_w * r_delta_en) DEFAULT_WIDTH (LContinuous, LContinuous) false.
Definition access_lanes : list (string * string * lane) :=
  let dev := r_dev in let a := r_a in let st := r_delta_st in let en := r_delta_en in let acc := r_access in [
  ("ser", "ses", r_straight (2, acc) (2, dev / 2) (LStriped, LContinuous));
  ("ses", "se", r_entry (2 + a, dev / 2) (2 + a, dev / 2 - st));
  ("sx", "sxs", r_exit (- 2 - a, - dev / 2 + en) (- 2 - a, dev / 2));
  ("sxs", "sxr", r_straight (- 2, dev / 2) (- 2, acc) (LNone, LContinuous));
  ("eer", "ees", r_straight (acc, - 2) (dev / 2, - 2) (LStriped, LContinuous));
  ("ees", "ee", r_entry (dev / 2, - 2 - a) (dev / 2 - st, - 2 - a));
  ("ex", "exs", r_exit (- dev / 2 + en, 2 + a) (dev / 2, 2 + a));
  ("exs", "exr", r_straight (dev / 2, 2) (acc, 2) (LNone, LContinuous));
  ("ner", "nes", r_straight (- 2, - acc) (- 2, - dev / 2) (LStriped, LContinuous));
  ("nes", "ne", r_entry (- 2 - a, - dev / 2) (- 2 - a, - dev / 2 + st));
  ("nx", "nxs", r_exit (2 + a, dev / 2 - en) (2 + a, - dev / 2));
  ("nxs", "nxr", r_straight (2, - dev / 2) (2, - acc) (LNone, LContinuous));
  ("wer", "wes", r_straight (- acc, 2) (- dev / 2, 2) (LStriped, LContinuous));
  ("wes", "we", r_entry (- dev / 2, 2 + a) (- dev / 2 + st, 2 + a));
  ("wx", "wxs", r_exit (dev / 2 - en, - 2 - a) (- dev / 2, - 2 - a));
  ("wxs", "wxr", r_straight (- dev / 2, - 2) (- acc, - 2) (LNone, LContinuous))].
Definition roundabout_net : graph := build (
  ring_lanes 20 (LContinuous, LStriped) ++ ring_lanes (20 + 4) (LNone, LContinuous) ++ access_lanes).

(** intersection_env.py:99-154 [_make_road].  The node names of corner [c]. *)
Definition corner_name (p : string) (c : nat) : string :=
  p ++ (match (c mod 4)%nat with 0%nat => "0" | 1%nat => "1" | 2%nat => "2" | _ => "3" end).
Definition I_ACCESS : R := 50 + 50.
Definition I_RIGHT : R := DEFAULT_WIDTH + 5.
Definition I_LEFT : R := I_RIGHT + DEFAULT_WIDTH.
Definition I_OUTER : R := I_RIGHT + DEFAULT_WIDTH / 2.
Definition corner_lanes (c : nat) : list (string * string * lane) :=
  let w := DEFAULT_WIDTH in
  let angle := deg (90 * INR c) in
  let prio := (if Nat.odd c then 3 else 1)%Z in
  let rot := vrot angle in [
  (corner_name "o" c, corner_name "ir" c,
   straight_lane (rot (w / 2, I_ACCESS + I_OUTER)) (rot (w / 2, I_OUTER)) w (LStriped, LContinuous) false 10 prio);
  (corner_name "ir" c, corner_name "il" (c + 3),
   circular_lane (rot (I_OUTER, I_OUTER)) I_RIGHT (angle + deg 180) (angle + deg 270) true (LNone, LContinuous) 10 prio);
  (corner_name "ir" c, corner_name "il" (c + 1),
   circular_lane (rot (- I_LEFT + w / 2, I_LEFT - w / 2)) I_LEFT (angle + deg 0) (angle + deg (- 90)) false (LNone, LNone) 10 (prio - 1));
  (corner_name "ir" c, corner_name "il" (c + 2),
   straight_lane (rot (w / 2, I_OUTER)) (rot (w / 2, - I_OUTER)) w (LStriped, LNone) false 10 prio);
  (corner_name "il" (c + 3), corner_name "o" (c + 3),
   straight_lane (rot (I_OUTER, w / 2)) (rot (I_ACCESS + I_OUTER, w / 2)) w (LNone, LContinuous) false 10 prio)].
Definition intersection_net : graph := build (flat_map corner_lanes (seq 0 4)).
