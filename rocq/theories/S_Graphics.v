(** Specification vocabulary for the drawings. *)
From Verif Require Import Prelude M_Utils M_Vehicle M_Graphics.
Open Scope R_scope.

(** The (exact) place of a world position on a surface, in pixels. *)
Definition place (sf : surface) (p : vec) : vec :=
  ((fst p - fst (sf_origin sf)) * sf_scaling sf, (snd p - snd (sf_origin sf)) * sf_scaling sf).
(** [p] is shown by the window. *)
Definition in_window (sf : surface) (p : vec) : Prop :=
  0 <= fst (place sf p) <= IZR (sf_width sf) /\ 0 <= snd (place sf p) <= IZR (sf_height sf).
(** The point [a] metres ahead and [b] metres to the right of the centre of a vehicle at
    [p] with heading [h] (the y axis points downwards, angles grow clockwise). *)
Definition ahead (p : vec) (h a b : R) : vec :=
  (fst p + (a * cos h - b * sin h), snd p + (a * sin h + b * cos h)).
(** The rectangle occupied by a vehicle, 5 m by 2 m. *)
Definition covers (v : vehicle) (q : vec) : Prop :=
  exists a b, -5/2 <= a <= 5/2 /\ -1 <= b <= 1 /\ q = ahead (v_pos v) (v_heading v) a b.
(** How often a key is pressed. *)
Definition is_press (k : key) (e : event) : bool :=
  match e, k with
  | KeyDown KLeft, KLeft | KeyDown KRight, KRight | KeyDown KUp, KUp | KeyDown KDown, KDown
  | KeyDown K_o, K_o | KeyDown K_l, K_l | KeyDown K_k, K_k | KeyDown K_m, K_m | KeyDown KOther, KOther => true
  | _, _ => false
  end.
Definition presses (k : key) (es : list event) : Z := Z.of_nat (List.length (filter (is_press k) es)).
