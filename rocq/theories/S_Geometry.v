(** Geometric specification, independent of the model's algorithms. *)
From Verif Require Import Prelude.
Open Scope R_scope.

(** [w] is an angle equal to [x] up to full turns and lying in [-pi, pi). *)
Definition is_wrapped (x w : R) : Prop :=
  - PI <= w < PI /\ exists k : Z, w = x + 2 * PI * IZR k.

(** The closed rectangle of given centre, length, width whose long axis points
    in direction [angle]: the points centre + a*(axis) + b*(normal). *)
Definition in_rectangle (center : vec) (length width angle : R) (p : vec) : Prop :=
  exists a b, - (length / 2) <= a <= length / 2 /\ - (width / 2) <= b <= width / 2 /\
    fst p = fst center + a * cos angle - b * sin angle /\
    snd p = snd center + a * sin angle + b * cos angle.

(** Euclidean distance. *)
Definition dist2 (p q : vec) : R := sqrt ((fst p - fst q) ^ 2 + (snd p - snd q) ^ 2).

(** A quarter-turn multiple. *)
Definition quarter_turns (angle : R) : Prop := exists k : Z, angle = IZR k * (PI / 2).

(** The nine distinguished points of a rectangle: its centre, the four corners
    and the four middles of its sides. *)
Definition unit_step (i : R) : Prop := i = -1 \/ i = 0 \/ i = 1.
Definition mark (center : vec) (length width angle : R) (p : vec) : Prop :=
  exists i j, unit_step i /\ unit_step j /\
    fst p = fst center + i * (length / 2) * cos angle - j * (width / 2) * sin angle /\
    snd p = snd center + i * (length / 2) * sin angle + j * (width / 2) * cos angle.
