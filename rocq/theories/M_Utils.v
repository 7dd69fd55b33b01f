(** Model of highway_env/utils.py *)
From Verif Require Import Prelude.
Open Scope R_scope.

(** utils.py:11-12 [do_every]: [duration < timer]. *)
Definition do_every (duration timer : R) : bool := Rltb duration timer.

(** utils.py:15-17 [lmap]. An interval is a pair of floats. Python raises
    ZeroDivisionError for python floats with [x[0] == x[1]] (numpy: inf/nan). *)
Definition lmap (v : R) (x y : R * R) : res R :=
  if Reqb (snd x - fst x) 0 then Err ZeroDivisionError
  else Ok (fst y + (v - fst x) * (snd y - fst y) / (snd x - fst x)).

(** [lmap] when the range is known to be non-degenerate (used by the other
    models with literal ranges). *)
Definition lmap_val (v : R) (x y : R * R) : R :=
  fst y + (v - fst x) * (snd y - fst y) / (snd x - fst x).

(** utils.py:26-27 [constrain] = [np.clip]. *)
Definition constrain (x a b : R) : R := Rclip x a b.

(** utils.py:30-36 [not_zero]. *)
Definition not_zero (x eps : R) : R :=
  if Rltb eps (Rabs x) then x
  else if Rltb 0 x then eps
  else - eps.
(** Default value of [eps] (utils.py:30). *)
Definition not_zero_eps : R := 1/100.

(** utils.py:39-40 [wrap_to_pi]. *)
Definition wrap_to_pi (x : R) : R := Rpymod (x + PI) (2 * PI) - PI.

(** utils.py:43-51 [point_in_rectangle]. *)
Definition point_in_rectangle (p rmin rmax : vec) : bool :=
  Rleb (fst rmin) (fst p) && Rleb (fst p) (fst rmax)
  && (Rleb (snd rmin) (snd p) && Rleb (snd p) (snd rmax)).

(** utils.py:54-69 [point_in_rotated_rectangle]: note that the point is rotated
    by [+angle] (and not [-angle]). *)
Definition point_in_rotated_rectangle (p center : vec) (length width angle : R) : bool :=
  let ru := vrot angle (vsub p center) in
  point_in_rectangle ru (- (length / 2), - (width / 2)) (length / 2, width / 2).

(** utils.py:72-86 [point_in_ellipse]. *)
Definition point_in_ellipse (p center : vec) (angle length width : R) : bool :=
  let ru := vrot angle (vsub p center) in
  Rltb ((fst ru / length) * (fst ru / length) + (snd ru / width) * (snd ru / width)) 1.

(** The tuples [(center, length, width, angle)] of utils.py:89-110. *)
Record rect := Rect { r_center : vec; r_length : R; r_width : R; r_angle : R }.

(** The nine points of utils.py:112-116: centre, edge mid-points, corners, in
    the rectangle's own frame. *)
Definition nine_points (l w : R) : list vec :=
  let lv := (l / 2, 0) in
  let wv := (0, w / 2) in
  let neg v := vscal (-1) v in
  [ (0, 0);
    neg lv; lv; neg wv; wv;
    vsub (neg lv) wv; vadd (neg lv) wv; vsub lv wv; vadd lv wv ].

(** utils.py:101-120 [has_corner_inside]. *)
Definition has_corner_inside (r1 r2 : rect) : bool :=
  existsb (fun p => point_in_rotated_rectangle (vadd (r_center r1) (vrot (r_angle r1) p))
                      (r_center r2) (r_length r2) (r_width r2) (r_angle r2))
          (nine_points (r_length r1) (r_width r1)).

(** utils.py:89-98 [rotated_rectangles_intersect]. *)
Definition rotated_rectangles_intersect (r1 r2 : rect) : bool :=
  has_corner_inside r1 r2 || has_corner_inside r2 r1.

(** utils.py:161-164, the clipping at the end of [confidence_polytope],
    coordinate by coordinate: the estimate is clipped to the parameter box and
    every deviation to the box shifted by the clipped estimate.  The linear
    algebra producing [theta] and [d_theta] is in M_Regression. *)
Definition clip_confidence (lo hi theta : R) (d_theta : list R) : R * list R :=
  let th := Rclip theta lo hi in
  (th, map (fun d => Rclip d (lo - th) (hi - th)) d_theta).
