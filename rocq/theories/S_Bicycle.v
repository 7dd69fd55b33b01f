(** Specification vocabulary for the dynamic bicycle model. *)
From Verif Require Import Prelude M_Utils M_Lane M_Road M_Vehicle M_Kinematics M_Bicycle.
Open Scope R_scope.

(** [f] vanishes at zero up to the linear map given by its two rows: the linear
    map is the (Frechet) derivative of [f] at zero, and [f] is zero there. *)
Definition derivative_at_zero (f : R -> R -> R -> R * R) (row1 row2 : R * R * R) : Prop :=
  f 0 0 0 = (0, 0) /\
  forall eps, 0 < eps -> exists delta, 0 < delta /\
    forall x y u, Rabs x < delta -> Rabs y < delta -> Rabs u < delta ->
      let lin (row : R * R * R) := fst (fst row) * x + snd (fst row) * y + snd row * u in
      Rabs (fst (f x y u) - lin row1) <= eps * (Rabs x + Rabs y + Rabs u) /\
      Rabs (snd (f x y u) - lin row2) <= eps * (Rabs x + Rabs y + Rabs u).

(** [b_drives g record dt b cmds tr]: storing each command (steering,
    acceleration) and calling [step dt] leads through the states [tr]. *)
Inductive b_drives (g : graph) (record : bool) (dt : R) : bicycle -> list (R * R) -> list bicycle -> Prop :=
| b_drives_nil : forall b, b_drives g record dt b [] []
| b_drives_cons : forall b st ac cmds b1 tr,
    b_step g record (b_act b st ac) dt = Ok b1 ->
    b_drives g record dt b1 cmds tr ->
    b_drives g record dt b ((st, ac) :: cmds) (b1 :: tr).
