(** Specification vocabulary for controlled vehicles. *)
From Verif Require Import Prelude M_Utils M_Lane M_Road M_Vehicle M_Kinematics M_Control S_Road.
Open Scope R_scope.

(** [performs act g record dt v acts tr]: starting from [v], calling [act] with
    each action and then [step dt] goes through the states [tr] (one after each
    step).  Each call may see different random draws. *)
Inductive performs (act : graph -> (nat -> nat) -> vehicle -> option meta_action -> res vehicle)
  (g : graph) (record : bool) (dt : R) : vehicle -> list (option meta_action) -> list vehicle -> Prop :=
| performs_nil : forall v, performs act g record dt v [] []
| performs_cons : forall v a acts draw v1 v2 tr,
    draw_ok draw -> act g draw v a = Ok v1 -> vehicle_step g record v1 dt = Ok v2 ->
    performs act g record dt v2 acts tr ->
    performs act g record dt v (a :: acts) (v2 :: tr).

(** Consecutive elements are connected. *)
Fixpoint chain (rt : route) : Prop :=
  match rt with
  | r0 :: ((r1 :: _) as rest) => li_to r0 = li_from r1 /\ chain rest
  | _ => True
  end.

(** Every road of the route exists. *)
Definition on_network (g : graph) (rt : route) : Prop := Forall (fun i => edge g (li_from i) (li_to i)) rt.
Definition route_on_network (g : graph) (rt : option route) : Prop :=
  match rt with None => True | Some r => on_network g r end.
