(** Specification: seeds. *)
From Verif Require Import Prelude M_Seed.

(** The numbers that environment [k] takes, in order, and those taken by one of its two parts. *)
Definition numbers (k : nat) (o : list (nat * drawer * R)) : list R := map snd (filter (fun x => Nat.eqb (fst (fst x)) k) o).
Definition is_by (who who' : drawer) : bool := match who, who' with ByEnv, ByEnv | ByRoad, ByRoad => true | _, _ => false end.
Definition numbers_by (k : nat) (who : drawer) (o : list (nat * drawer * R)) : list R :=
  map snd (filter (fun x => Nat.eqb (fst (fst x)) k && is_by (snd (fst x)) who) o).
(** How many numbers that makes. *)
Definition takes (k : nat) (l : list happening) : nat := List.length (filter (fun h => match h with Draw k' _ => Nat.eqb k' k | _ => false end) l).
Definition takes_by (k : nat) (who : drawer) (l : list happening) : nat :=
  List.length (filter (fun h => match h with Draw k' who' => Nat.eqb k' k && is_by who' who | _ => false end) l).
(** Nothing gives environment [k] another generator. *)
Definition not_seeded (k : nat) (h : happening) : Prop :=
  match h with Make k' _ | Seed k' _ | Copy _ k' => k' <> k | Reset _ | Draw _ _ => True end.
Definition not_reset (k : nat) (h : happening) : Prop := h <> Reset k.
(** [k] has been made. *)
Definition exists_in (w : world) (k : nat) : Prop := wo_seat w k <> None.
Definition after (stream : Z -> nat -> R) (l : list happening) : world := fst (history stream at_start l).
(** What environment [k] takes during [l]. *)
Definition taken (stream : Z -> nat -> R) (before l : list happening) (k : nat) : list R := numbers k (snd (history stream (after stream before) l)).
Definition taken_by (stream : Z -> nat -> R) (before l : list happening) (k : nat) (who : drawer) : list R :=
  numbers_by k who (snd (history stream (after stream before) l)).
(** [n] numbers of the generator of seed [s], from the [i]-th. *)
Definition from_seed (stream : Z -> nat -> R) (s : Z) (i n : nat) : list R := map (stream s) (seq i n).
