(** Specification vocabulary: vehicles beside the lane they want to follow. *)
From Verif Require Import Prelude M_Utils M_Lane M_Vehicle.
Open Scope R_scope.

(** [v] is [y] metres beside the centre of [l] and its heading is [psi] radians away from
    that of the lane, up to whole turns. *)
Definition beside (l : lane) (v : vehicle) (y psi : R) : Prop :=
  snd (l_local l (v_pos v)) = y /\
  exists k : Z, v_heading v = l_heading l (fst (l_local l (v_pos v))) + psi + 2 * PI * IZR k.
(** Both deviations in one number: zero only on the centre line in its direction. *)
Definition drift (y psi : R) : R := y * y + 25 / 2 * (y * psi) + 150 * (psi * psi).
