(** Model of envs/common/observation.py (all but the TimeToCollision observation, see
    M_Ttc): features, normalisation, the Kinematics, OccupancyGrid, KinematicsGoal,
    Grayscale and MultiAgent observations. *)
From Verif Require Import Prelude M_Utils M_Lane M_Road M_Vehicle M_Kinematics M_Control M_Behavior M_Action M_Ttc.
Open Scope R_scope.

(** ** Feature dictionaries *)
Definition features : Type := list (string * R).

(** kinematics.py:238-256 [to_dict], without [origin_vehicle]. *)
Definition vehicle_dict (g : graph) (v : vehicle) (intentions : bool) : res features :=
  do d <- destination_direction g v;
  let vel := e_velocity (EV v) in
  let dir := e_direction (EV v) in
  Ok [("presence", 1); ("x", fst (v_pos v)); ("y", snd (v_pos v)); ("vx", fst vel); ("vy", snd vel);
      ("heading", v_heading v); ("cos_h", fst dir); ("sin_h", snd dir);
      ("cos_d", if intentions then fst d else 0); ("sin_d", if intentions then snd d else 0)]%string.
(** kinematics.py:253-256, [d[key] -= origin_dict[key]] for the four keys. *)
Definition sub_feature (o : features) (acc : res features) (k : string) : res features :=
  do d <- acc;
  match assoc k d, assoc k o with
  | Some a, Some b => Ok (assoc_set k (a - b) d)
  | _, _ => Err KeyError
  end.
Definition relative_dict (d o : features) : res features :=
  fold_left (sub_feature o) ["x"; "y"; "vx"; "vy"]%string (Ok d).
(** kinematics.py:238-257 [to_dict]. *)
Definition to_dict (g : graph) (v : vehicle) (origin : option vehicle) (intentions : bool) : res features :=
  do d <- vehicle_dict g v intentions;
  match origin with
  | None => Ok d
  | Some o => do od <- vehicle_dict g o true; relative_dict d od
  end.
(** road/objects.py:49-67 [to_dict] of an object, without origin: no "heading". *)
Definition object_dict (o : object) : features :=
  [("presence", 1); ("x", fst (o_pos o)); ("y", snd (o_pos o)); ("vx", 0); ("vy", 0);
   ("cos_h", cos (o_heading o)); ("sin_h", sin (o_heading o)); ("cos_d", 0); ("sin_d", 0)]%string.

(** [pd.DataFrame.from_records([d])[features]]: one row; an unknown name raises
    KeyError.  Feature names are assumed distinct. *)
Definition select (names : list string) (d : features) : res (list R) :=
  mapM (fun k => match assoc k d with Some x => Ok x | None => Err KeyError end) names.

(** ** Normalisation *)
Definition ranges : Type := list (string * (R * R)).
(** [if not self.features_range]: None or the empty dict. *)
Definition ranges_set (r : option ranges) : option ranges :=
  match r with Some (x :: r') => Some (x :: r') | _ => None end.

(** One value of the column [name]: [utils.lmap] then [np.clip] if the column has a
    range.  A degenerate range gives inf or nan in numpy, here ZeroDivisionError. *)
Definition normalize_value (r : ranges) (clip : bool) (name : string) (x : R) : res R :=
  match assoc name r with
  | None => Ok x
  | Some ab => do y <- lmap x ab (-1, 1); Ok (if clip then Rclip y (-1) 1 else y)
  end.
Definition normalize_row (r : ranges) (clip : bool) (names : list string) (row : list R) : res (list R) :=
  mapM (fun nx => normalize_value r clip (fst nx) (snd nx)) (combine names row).

(** observation.py:164-184 [normalize_obs]: the ranges used, computed from the road the
    observer is on if they are not set ([smax] is MDPVehicle.SPEED_MAX). *)
Definition default_ranges (g : graph) (smax : R) (observer : vehicle) : res ranges :=
  do side <- all_side_lanes g (v_lane_index observer);
  let w := DEFAULT_WIDTH * INR (List.length side) in
  Ok [("x", (-5 * smax, 5 * smax)); ("y", (- w, w)); ("vx", (-2 * smax, 2 * smax)); ("vy", (-2 * smax, 2 * smax))]%string.
Definition kin_ranges (g : graph) (smax : R) (observer : vehicle) (r : option ranges) : res ranges :=
  match ranges_set r with Some r' => Ok r' | None => default_ranges g smax observer end.

(** ** Kinematics *)
(** observation.py:128-159: constructor arguments. *)
Record kin_config : Type := KinConfig {
  kc_features : option (list string);
  kc_count : Z;                        (* vehicles_count *)
  kc_absolute : bool;
  kc_order : string;
  kc_normalize : bool;
  kc_clip : bool;
  kc_see_behind : bool;
  kc_intentions : bool }.              (* observe_intentions *)
Definition KIN_FEATURES : list string := ["presence"; "x"; "y"; "vx"; "vy"]%string.
Definition kin_default : kin_config := KinConfig None 5 false "sorted" true true false false.
(** [features or self.FEATURES]. *)
Definition kin_features (c : kin_config) : list string :=
  match kc_features c with Some (f :: fs) => f :: fs | _ => KIN_FEATURES end.

(** python [l[k:]]. *)
Definition py_from {A : Type} (k : Z) (l : list A) : list A :=
  if (0 <=? k)%Z then skipn (Z.to_nat k) l
  else skipn (Z.to_nat (Z.of_nat (List.length l) + k)) l.

(** observation.py:190-203: the rows before normalisation. *)
Definition kin_rows (c : kin_config) (perception : R) (rd : road) (observer : vehicle) : res (list (list R)) :=
  let names := kin_features c in
  do d <- to_dict (rd_net rd) observer None true;
  do first <- select names d;
  do close <- close_vehicles_to rd observer perception (Some (kc_count c - 1)%Z) (kc_see_behind c);
  match close with
  | [] => Ok [first]
  | _ =>
      match py_from (- kc_count c + 1) close with
      | [] => Err KeyError                     (* a DataFrame without columns *)
      | shown =>
          let origin := if kc_absolute c then None else Some observer in
          do rows <- mapM (fun v => do d <- to_dict (rd_net rd) v origin (kc_intentions c); select names d) shown;
          Ok (first :: rows)
      end
  end.
(** observation.py:207-210 "Fill missing rows". *)
Definition pad_rows (count : Z) (width : nat) (rows : list (list R)) : list (list R) :=
  rows ++ repeat (repeat 0 width) (Z.to_nat (count - Z.of_nat (List.length rows))).
(** observation.py:186-217 [observe].  [r] is [self.features_range], returned as
    updated; [shuffle] is what [np_random.shuffle] does to the rows after the first. *)
Definition kin_observe (c : kin_config) (smax perception : R) (shuffle : list (list R) -> list (list R))
  (r : option ranges) (rd : option road) (observer : vehicle) : res (list (list R) * option ranges) :=
  let names := kin_features c in
  match rd with
  | None => if (kc_count c <? 0)%Z then Err ValueError
            else Ok (repeat (repeat 0 (List.length names)) (Z.to_nat (kc_count c)), r)
  | Some rd =>
      do rows <- kin_rows c perception rd observer;
      do nr <- (if kc_normalize c
                then do r' <- kin_ranges (rd_net rd) smax observer r;
                     do rows' <- mapM (normalize_row r' (kc_clip c) names) rows; Ok (rows', Some r')
                else Ok (rows, r));
      let padded := pad_rows (kc_count c) (List.length names) (fst nr) in
      let out := if String.eqb (kc_order c) "shuffled"
                 then match padded with [] => [] | e :: rest => e :: shuffle rest end
                 else padded in
      Ok (out, snd nr)
  end.

(** ** OccupancyGrid *)
Record occ_config : Type := OccConfig {
  oc_features : list string;
  oc_size : (R * R) * (R * R);         (* grid_size: x then y *)
  oc_step : R * R;                     (* grid_step *)
  oc_shape : nat * nat;                (* grid.shape[1:] *)
  oc_absolute : bool }.
Definition OCC_FEATURES : list string := ["presence"; "vx"; "vy"]%string.
Definition OCC_SIZE : (R * R) * (R * R) := ((-(55/10) * 5, 55/10 * 5), (-(55/10) * 5, 55/10 * 5)).
(** observation.py:243-246: the shape uses the argument [grid_step] (not the
    default): None raises TypeError.  A zero step gives inf (here ZeroDivisionError);
    a negative number of cells raises ValueError in [np.zeros]. *)
Definition occ_init (names : option (list string)) (size : option ((R * R) * (R * R))) (step : option (R * R)) (absolute : bool)
  : res occ_config :=
  let size' := match size with Some s => s | None => OCC_SIZE end in
  match step with
  | None => Err TypeError
  | Some st =>
      if Reqb (fst st) 0 || Reqb (snd st) 0 then Err ZeroDivisionError
      else
        let nx := Rfloor ((snd (fst size') - fst (fst size')) / fst st) in
        let ny := Rfloor ((snd (snd size') - fst (snd size')) / snd st) in
        if (nx <? 0)%Z || (ny <? 0)%Z then Err ValueError
        else Ok (OccConfig (match names with Some f => f | None => OCC_FEATURES end) size' st (Z.to_nat nx, Z.to_nat ny) absolute)
  end.
(** observation.py:260-264: default ranges of [normalize]. *)
Definition occ_ranges (smax : R) (r : option ranges) : ranges :=
  match ranges_set r with
  | Some r' => r'
  | None => [("vx", (-2 * smax, 2 * smax)); ("vy", (-2 * smax, 2 * smax))]%string
  end.
(** observation.py:253-268 [normalize], one record of all features. *)
Definition occ_normalize (r : ranges) (d : features) : res features :=
  mapM (fun kx => do y <- normalize_value r false (fst kx) (snd kx); Ok (fst kx, y)) d.
(** observation.py:286-291: the coordinate, un-normalised when [name] has a range. *)
Definition occ_coordinate (r : ranges) (name : string) (d : features) : res R :=
  match assoc name d with
  | None => Err KeyError
  | Some x => match assoc name r with None => Ok x | Some ab => lmap x (-1, 1) ab end
  end.
(** observation.py:292-293 [int((x - lower) / step)]. *)
Definition occ_cell (x lower step : R) : Z := Rtrunc ((x - lower) / step).

Notation plane := (list (list R)).
(** [grid[layer, i, j] = x] within bounds. *)
Definition set_cell (p : plane) (i j : nat) (x : R) : plane :=
  modify_nth i (modify_nth j (fun _ => x)) p.
(** observation.py:284-295: one vehicle in one layer. *)
Definition occ_place (c : occ_config) (r : ranges) (name : string) (p : plane) (d : features) : res plane :=
  do x <- occ_coordinate r "x" d;
  do y <- occ_coordinate r "y" d;
  let cx := occ_cell x (fst (fst (oc_size c))) (fst (oc_step c)) in
  let cy := occ_cell y (fst (snd (oc_size c))) (snd (oc_step c)) in
  if (0 <=? cy)%Z && (cy <? Z.of_nat (fst (oc_shape c)))%Z && (0 <=? cx)%Z && (cx <? Z.of_nat (snd (oc_shape c)))%Z
  then match assoc name d with
       | None => Err KeyError
       | Some f => Ok (set_cell p (Z.to_nat cy) (Z.to_nat cx) f)
       end
  else Ok p.
Definition zero_plane (c : occ_config) : plane := repeat (repeat 0 (snd (oc_shape c))) (fst (oc_shape c)).
(** observation.py:270-298 [observe]: the clipped grid and the updated ranges. *)
Definition occ_observe (c : occ_config) (smax : R) (r : option ranges) (rd : option road) (observer : vehicle)
  : res (list plane * option ranges) :=
  match rd with
  | None => Ok (map (fun _ => zero_plane c) (oc_features c), r)
  | Some rd =>
      if oc_absolute c then Err NotImplementedError
      else
        let r' := occ_ranges smax r in
        do ds <- mapM (fun v => to_dict (rd_net rd) v (Some observer) true) (rd_vehicles rd);
        do nds <- mapM (occ_normalize r') ds;
        do planes <- mapM (fun name => foldM (occ_place c r' name) nds (zero_plane c)) (oc_features c);
        Ok (map (map (map (fun x => Rclip x (-1) 1))) planes, Some r')
  end.

(** ** KinematicsGoal *)
(** [obs / scales] elementwise; a zero scale gives inf or nan, here ZeroDivisionError.
    Different lengths raise ValueError (broadcasting a single scale is not modelled). *)
Fixpoint divide_by (xs scales : list R) : res (list R) :=
  match xs, scales with
  | [], [] => Ok []
  | x :: xs', s :: ss' => if Reqb s 0 then Err ZeroDivisionError else do r <- divide_by xs' ss'; Ok (x / s :: r)
  | _, _ => Err ValueError
  end.
Record goal_obs : Type := GoalObs { go_observation : list R; go_achieved : list R; go_desired : list R }.
(** observation.py:317-332 [observe]; [observer = None] before any vehicle exists. *)
Definition goal_observe (names : list string) (scales : list R) (g : graph) (observer : option vehicle) (goal : object)
  : res goal_obs :=
  match observer with
  | None => let z := repeat 0 (List.length names) in Ok (GoalObs z z z)
  | Some v =>
      do d <- vehicle_dict g v true;
      do o <- select names d;
      do t <- select names (object_dict goal);
      do so <- divide_by o scales;
      do st <- divide_by t scales;
      Ok (GoalObs so so st)
  end.

(** ** Grayscale *)
(** observation.py:84-87 [_record_to_grayscale]: an image is the flat list of its RGB
    pixels; [np.dot(raw_rgb, weights)] pixel by pixel. *)
Definition rgb : Type := (R * R * R)%type.
Definition to_gray (w : R * R * R) (px : rgb) : R :=
  let '(wr, wg, wb) := w in let '(r, g, b) := px in r * wr + g * wg + b * wb.
Definition image : Type := list R.
(** observation.py:62-67: the state is [stack_size] empty images of [h * w] pixels;
    the list is along the last axis. *)
Definition gray_init (pixels stack : nat) : list image := repeat (repeat 0 pixels) stack.
(** [np.roll(state, -1, axis=-1)]. *)
Definition roll_back {A : Type} (l : list A) : list A :=
  match l with [] => [] | x :: l' => l' ++ [x] end.
(** observation.py:77-82 [observe]: the returned array is the new state.  A frame with
    another number of pixels raises ValueError (reshape), a stack of size zero IndexError. *)
Definition gray_observe (w : R * R * R) (pixels : nat) (state : list image) (frame : list rgb) : res (list image) :=
  let new := map (to_gray w) frame in
  if negb (Nat.eqb (List.length new) pixels) then Err ValueError
  else match roll_back state with
       | [] => Err IndexError
       | rolled => Ok (removelast rolled ++ [new])
       end.

(** ** MultiAgentObservation *)
(** observation.py:357-373 with Kinematics observations: one observation type per
    vehicle in [controlled_vehicles], each with its own ranges; [observe] returns them in order. *)
Definition multi_observe (c : kin_config) (smax perception : R) (shuffle : nat -> list (list R) -> list (list R))
  (rs : list (option ranges)) (rd : road) (agents : list vehicle) : res (list (list (list R) * option ranges)) :=
  mapM (fun kra => kin_observe c smax perception (shuffle (fst kra)) (fst (snd kra)) (Some rd) (snd (snd kra)))
       (combine (seq 0 (List.length agents)) (combine rs agents)).
