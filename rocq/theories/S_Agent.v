(** Specification vocabulary: films of an episode, and plans. *)
From Verif Require Import Prelude M_Utils M_Lane M_Road M_Vehicle M_Kinematics M_Control M_Behavior M_Action M_Env S_Road S_Env.
Import ListNotations.
Open Scope R_scope.

(** [n] frames, all of them recorded. *)
Inductive shots (sc : scenario) (o : oracle) : nat -> env -> list env -> Prop :=
| shots_none : forall e, shots sc o 0 e []
| shots_one : forall n e e1 l, advances sc o e e1 -> shots sc o n e1 l -> shots sc o (S n) e (e1 :: l).
(** All the frames of an episode whose steps run to their end. *)
Inductive film (sc : scenario) : env -> list agent_action -> list env -> Prop :=
| film_none : forall e, film sc e [] []
| film_step : forall e o a acts e1 l l', oracle_ok o ->
    applies sc o a (Env (e_road e) (e_controlled e) (e_time e) (e_steps e + 1) (e_done e)) e1 ->
    shots sc o (Z.to_nat (frames_per_step sc)) e1 l -> film sc (last l e1) acts l' -> film sc e (a :: acts) (l ++ l')%list.
(** The elements number [s], [2 s], [3 s], ... of a list, when [t] have been seen already. *)
Fixpoint picked {A : Type} (s t : nat) (l : list A) : list A :=
  match l with
  | [] => []
  | x :: l' => if Nat.eqb (S t mod s) 0 then x :: picked s (S t) l' else picked s (S t) l'
  end.
(** The same vehicle in the same state, up to its recorded history. *)
Definition same_state (v w : vehicle) : Prop := set_history v [] = set_history w [].
(** A pixel of a rectangle. *)
Definition pixel_of (at_ size p : Z * Z) : Prop :=
  (fst at_ <= fst p < fst at_ + fst size /\ snd at_ <= snd p < snd at_ + snd size)%Z.
(** The number of the action that [a] asks of the first agent. *)
Definition first_action (t : action_type) (a : agent_action) : option Z :=
  match t, a with
  | Single _, ActInt k => Some k
  | Multi _, ActTuple (ActInt k :: _) => Some k
  | _, _ => None
  end.
