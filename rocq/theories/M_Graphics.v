(** Model of road/graphics.py and vehicle/graphics.py: what is drawn, and where.
    The primitives of pygame (lines, rectangles, rotated images) are kept as a list of
    drawing orders; their rasterisation is not modelled. *)
From Verif Require Import Prelude M_Utils M_Lane M_Road M_Vehicle.
Open Scope R_scope.

(** road/graphics.py:19-37 [WorldSurface]: size in pixels, world position of its top left
    corner, pixels per metre, place of the followed point in the window. *)
Record surface : Type := Surface {
  sf_width : Z;
  sf_height : Z;
  sf_origin : vec;
  sf_scaling : R;
  sf_center : R * R }.
(** road/graphics.py:28-31. *)
Definition INITIAL_SCALING : R := 55/10.
Definition INITIAL_CENTERING : R * R := (5/10, 5/10).
Definition SCALING_FACTOR : R := 13/10.
Definition MOVING_FACTOR : R := 1/10.

(** road/graphics.py:39-46 [pix]: [int] truncates towards zero. *)
Definition pix (sf : surface) (length : R) : Z := Rtrunc (length * sf_scaling sf).
(** road/graphics.py:48-65 [pos2pix], [vec2pix]. *)
Definition pos2pix (sf : surface) (p : vec) : Z * Z :=
  (pix sf (fst p - fst (sf_origin sf)), pix sf (snd p - snd (sf_origin sf))).
(** road/graphics.py:67-75 [is_visible]. *)
Definition is_visible (sf : surface) (p : vec) (margin : Z) : bool :=
  let '(x, y) := pos2pix sf p in
  ((- margin <? x) && (x <? sf_width sf + margin) && (- margin <? y) && (y <? sf_height sf + margin))%Z.
Definition VISIBLE_MARGIN : Z := 50.
(** road/graphics.py:77-85 [move_display_window_to]. *)
Definition move_display_window_to (sf : surface) (p : vec) : surface :=
  Surface (sf_width sf) (sf_height sf)
    (vsub p (fst (sf_center sf) * IZR (sf_width sf) / sf_scaling sf, snd (sf_center sf) * IZR (sf_height sf) / sf_scaling sf))
    (sf_scaling sf) (sf_center sf).

(** Keyboard events: the keys that are looked at; any other key is [KOther]. *)
Inductive key : Type := KLeft | KRight | KUp | KDown | K_o | K_l | K_k | K_m | KOther.
Inductive event : Type := KeyDown (k : key) | KeyUp (k : key) | Quit | OtherEvent.
(** road/graphics.py:87-101 [WorldSurface.handle_event]. *)
Definition set_view (sf : surface) (scaling : R) (center : R * R) : surface :=
  Surface (sf_width sf) (sf_height sf) (sf_origin sf) scaling center.
Definition surface_event (sf : surface) (e : event) : surface :=
  match e with
  | KeyDown K_l => set_view sf (sf_scaling sf * (1 / SCALING_FACTOR)) (sf_center sf)
  | KeyDown K_o => set_view sf (sf_scaling sf * SCALING_FACTOR) (sf_center sf)
  | KeyDown K_m => set_view sf (sf_scaling sf) (fst (sf_center sf) - MOVING_FACTOR, snd (sf_center sf))
  | KeyDown K_k => set_view sf (sf_scaling sf) (fst (sf_center sf) + MOVING_FACTOR, snd (sf_center sf))
  | _ => sf
  end.

(** Colours (road/graphics.py:23-27, 257-262, vehicle/graphics.py:18-25). *)
Inductive color : Type := White | Red | Green | Blue | Yellow | OwnColor.

(** Drawing orders: a line between two pixels with its width; a rectangle [rect] (top
    left corner, size, in pixels of an image of the given size) filled with a colour,
    the image being rotated by [angle] degrees and blitted with its centre at [at_]. *)
Inductive order : Type :=
| DrawLine (a b : Z * Z) (width : Z)
| DrawBox (c : color) (transparent : bool) (image : Z * Z) (rect : R * R * R * R) (at_ : Z * Z) (angle : R).

(** ** Lanes: road/graphics.py:104-201 *)
Definition STRIPE_SPACING : Z := 5.
Definition STRIPE_LENGTH : R := 3.
Definition STRIPE_WIDTH : R := 3/10.
(** road/graphics.py:124-126: number of stripes and position of the first one. *)
Definition stripes_count (sf : surface) : Z :=
  Rtrunc (2 * IZR (sf_height sf + sf_width sf) / (IZR STRIPE_SPACING * sf_scaling sf)).
Definition first_stripe (sf : surface) (l : lane) : Z :=
  ((Rtrunc (fst (l_local l (sf_origin sf))) / STRIPE_SPACING - stripes_count sf / 2) * STRIPE_SPACING)%Z.
(** [np.arange(n)]. *)
Definition arange (n : Z) : list Z := map Z.of_nat (seq 0 (Z.to_nat n)).
(** The lateral position of a side, [(side - 0.5) * width]. *)
Definition side_lat (l : lane) (side : nat) (s : R) : R := (INR side - 5/10) * l_width_at l s.
(** road/graphics.py:136-188 [striped_line], [continuous_curve], [continuous_line]: the
    stripes before clipping, as (start, end, lateral). *)
Definition stripes (t : line_type) (l : lane) (count s0 : Z) (side : nat) : list (R * R * R) :=
  match t with
  | LNone => []
  | LStriped => map (fun k => let s := IZR s0 + IZR k * IZR STRIPE_SPACING in
                              (s, s + STRIPE_LENGTH, side_lat l side s)) (arange count)
  | LContinuous => map (fun k => let s := IZR s0 + IZR k * IZR STRIPE_SPACING in
                              (s, s + IZR STRIPE_SPACING, side_lat l side s)) (arange count)
  | LContinuousLine => let s := IZR s0 + 0 * IZR STRIPE_SPACING in
                       [(s, IZR s0 + IZR count * IZR STRIPE_SPACING + STRIPE_LENGTH, side_lat l side s)]
  end.
(** road/graphics.py:203-223 [draw_stripes]: clipping to the lane, short pieces dropped. *)
Definition clipped (l : lane) (ss : list (R * R * R)) : list (R * R * R) :=
  filter (fun x => Rltb (5/10 * STRIPE_LENGTH) (Rabs (fst (fst x) - snd (fst x))))
    (map (fun x => (Rclip (fst (fst x)) 0 (l_length l), Rclip (snd (fst x)) 0 (l_length l), snd x)) ss).
(** road/graphics.py:116-134 [LaneGraphics.display]: the pieces drawn on one side. *)
Definition side_type (l : lane) (side : nat) : line_type :=
  match side with O => fst (l_line_types l) | _ => snd (l_line_types l) end.
Definition markings (sf : surface) (l : lane) (side : nat) : list (R * R * R) :=
  clipped l (stripes (side_type l side) l (stripes_count sf) (first_stripe sf l) side).
Definition draw_piece (sf : surface) (l : lane) (x : R * R * R) : order :=
  DrawLine (pos2pix sf (l_position l (fst (fst x)) (snd x))) (pos2pix sf (l_position l (snd (fst x)) (snd x)))
    (Z.max (pix sf STRIPE_WIDTH) 1).
Definition draw_lane (sf : surface) (l : lane) : list order :=
  map (draw_piece sf l) (markings sf l 0) ++ map (draw_piece sf l) (markings sf l 1).
(** road/graphics.py:224-239 [draw_ground] is not used by the project and not modelled. *)

(** road/graphics.py:247-260 [RoadGraphics.display]. *)
Definition draw_road (sf : surface) (g : graph) : list order :=
  flat_map (fun e => flat_map (fun e2 => flat_map (draw_lane sf) (snd e2)) (snd e)) g.

(** ** Rotated images: road/graphics.py:330-362, vehicle/graphics.py:82-109 [blit_rotate].
    [pygame.math.Vector2.rotate]: counter-clockwise by an angle in degrees. *)
Definition deg (a : R) : R := a * 180 / PI.
Definition rad (a : R) : R := a * PI / 180.
Definition v2_rotate (angle : R) (p : vec) : vec :=
  let a := rad angle in (fst p * cos a - snd p * sin a, fst p * sin a + snd p * cos a).
Definition box_corners (w h : R) : list vec := [(0, 0); (w, 0); (w, - h); (0, - h)].
Definition min4 (l : list R) : R := fold_left Rmin (tl l) (hd 0 l).
Definition max4 (l : list R) : R := fold_left Rmax (tl l) (hd 0 l).
(** Top left corner of the rotated image on the target surface, and its size (that of
    the rotated box: the rounding of [pygame.transform.rotate] is not modelled). *)
Definition blit_origin (w h : R) (pos : vec) (angle : R) : vec :=
  let rot := map (v2_rotate angle) (box_corners w h) in
  let min_x := min4 (map fst rot) in
  let max_y := max4 (map snd rot) in
  let pivot := (w / 2, - (h / 2)) in
  let move := vsub (v2_rotate angle pivot) pivot in
  (fst pos - w / 2 + min_x - fst move, snd pos - h / 2 - max_y + snd move).
Definition blit_size (w h : R) (angle : R) : vec :=
  let rot := map (v2_rotate angle) (box_corners w h) in
  (max4 (map fst rot) - min4 (map fst rot), max4 (map snd rot) - min4 (map snd rot)).
(** The place on the target surface of the point [u] pixels right and [v] pixels below
    the top left corner of the image. *)
Definition blit_point (w h : R) (pos : vec) (angle u v : R) : vec :=
  let rot := map (v2_rotate angle) (box_corners w h) in
  let q := v2_rotate angle (u, - v) in
  vadd (blit_origin w h pos angle) (fst q - min4 (map fst rot), max4 (map snd rot) - snd q).

(** ** Vehicles: vehicle/graphics.py:27-152 *)
(** vehicle/graphics.py:142-156 [get_color]; [own] is the value of the attribute
    [color], None when absent. *)
Definition vehicle_color (own : option color) (k : vkind) (crashed : bool) : color :=
  match own with
  | Some c => c
  | None => if crashed then Red
            else match k with KLinear => Yellow | KIDM => Blue | KMDP => Green | _ => Yellow end
  end.
Definition TIRE_LENGTH : R := 1.
(** vehicle/graphics.py:70, road/graphics.py:325: small headings are drawn as zero. *)
Definition drawn_heading (h : R) : R := if Rltb (2 * PI / 180) (Rabs h) then h else 0.
(** vehicle/graphics.py:40-77 [VehicleGraphics.display] (tires and label not modelled). *)
Definition draw_body (sf : surface) (c : color) (transparent : bool) (p : vec) (heading : R) : list order :=
  if negb (is_visible sf p VISIBLE_MARGIN) then []
  else
    let length := V_LENGTH + 2 * TIRE_LENGTH in
    let rect := (IZR (pix sf TIRE_LENGTH), IZR (pix sf (length / 2 - V_WIDTH / 2)), IZR (pix sf V_LENGTH), IZR (pix sf V_WIDTH)) in
    [DrawBox c transparent (pix sf length, pix sf length) rect (pos2pix sf p) (deg (- drawn_heading heading))].
Definition draw_vehicle (own : nat -> option color) (sf : surface) (v : vehicle) : list order :=
  draw_body sf (vehicle_color (own (v_id v)) (v_kind v) (v_crashed v)) false (v_pos v) (v_heading v).
(** vehicle/graphics.py:123-140 [display_history]: [islice(history, None, stop, step)]
    raises ValueError when the step is zero.  The recorded states are vehicles of the
    same class, not crashed and without own colour (kinematics.py:106-110, 156). *)
Fixpoint every {A : Type} (step skip n : nat) (l : list A) : list A :=
  match l, n with
  | x :: l', S n' => match skip with
                     | O => x :: every step (step - 1) n' l'
                     | S k => every step k n' l'
                     end
  | _, _ => []
  end.
Definition islice {A : Type} (l : list A) (stop step : Z) : res (list A) :=
  if (step <? 1)%Z then Err ValueError
  else if (stop <? 0)%Z then Err ValueError
  else Ok (every (Z.to_nat step) 0 (Z.to_nat stop) l).
Definition draw_history (sf : surface) (simulation : R) (v : vehicle) : res (list order) :=
  do l <- islice (v_history v) (Rtrunc (simulation * 2)) (Rtrunc (simulation / 3));
  Ok (flat_map (fun s => draw_body sf (vehicle_color None (v_kind v) false) true (sn_pos s) (sn_heading s)) l).
(** road/graphics.py:262-279 [display_traffic]. *)
Definition draw_traffic (own : nat -> option color) (sf : surface) (rd : road) (simulation : R) : res (list order) :=
  do trails <- (if rd_record rd then mapM (draw_history sf simulation) (rd_vehicles rd) else Ok []);
  Ok (List.concat trails ++ flat_map (draw_vehicle own sf) (rd_vehicles rd)).

(** ** Road objects: road/graphics.py:281-385 *)
Definition object_color (k : okind) (hit : bool) : color :=
  match k, hit with KObstacle, true => Red | KObstacle, false => Yellow | KLandmark, true => Green | KLandmark, false => Blue end.
Definition draw_object (sf : surface) (o : object) : order :=
  let rect := (0, IZR (pix sf O_WIDTH) / 2 - IZR (pix sf O_WIDTH) / 2, IZR (pix sf O_LENGTH), IZR (pix sf O_WIDTH)) in
  DrawBox (object_color (o_kind o) (o_hit o)) false (pix sf O_LENGTH, pix sf O_LENGTH) rect (pos2pix sf (o_pos o)) (deg (- drawn_heading (o_heading o))).
Definition draw_objects (sf : surface) (rd : road) : list order := map (draw_object sf) (rd_objects rd).

(** envs/common/graphics.py:92-131 [EnvViewer.display] (without agent surface and
    predicted trajectory): the window is moved, then the road, the objects and the
    traffic are drawn, in this order. *)
Definition draw_scene (own : nat -> option color) (sf : surface) (rd : road) (simulation : R) : res (list order) :=
  do t <- draw_traffic own sf rd simulation;
  Ok (draw_road sf (rd_net rd) ++ draw_objects sf rd ++ t).
