(** Model of the random generators of environment objects (abstract.py:37-71, 112-114,
    155-167, 385-396, road.py:255).  Definitions only.

    The generators are objects: [seed] makes a new one, the road created by [reset] is given
    a reference to the one the environment has then, and a copy of the environment copies
    them.  What the numbers are used for is not modelled here (see M_Gym): each number is
    taken either by the environment itself (vehicles placed or spawned by the environment,
    shuffled observations) or by its road (what vehicles do). *)
From Verif Require Import Prelude.

(** A [RandomState]: the seed it was made from and how many numbers it has given. *)
Definition generator : Type := (Z * nat)%type.
(** [env.np_random] and [env.road.np_random]. *)
Record seat : Type := Seat { se_env : nat; se_road : nat }.
(** The memory of the process: generators by address, and environment objects. *)
Record world : Type := World { wo_cell : nat -> generator; wo_next : nat; wo_seat : nat -> option seat }.
Inductive drawer : Type := ByEnv | ByRoad.
Inductive happening : Type :=
| Make (k : nat) (entropy : Z)     (* a new environment object; [seed()] takes its seed from the system *)
| Seed (k : nat) (s : Z)           (* env.seed(s) *)
| Reset (k : nat)                  (* env.reset(), without the numbers it takes *)
| Draw (k : nat) (who : drawer)    (* a number is taken *)
| Copy (k k' : nat).               (* env' = copy.deepcopy(env) *)
Definition set_at {A : Type} (f : nat -> A) (i : nat) (x : A) : nat -> A := fun j => if Nat.eqb j i then x else f j.
(** A new generator: its address is the next one. *)
Definition alloc (w : world) (g : generator) : world := World (set_at (wo_cell w) (wo_next w) g) (S (wo_next w)) (wo_seat w).
Definition set_seat (w : world) (k : nat) (s : seat) : world := World (wo_cell w) (wo_next w) (set_at (wo_seat w) k (Some s)).
(** abstract.py:112-114 [seed]: gym's seeding.np_random makes a new RandomState. *)
Definition seed_env (w : world) (k : nat) (s : Z) : world :=
  match wo_seat w k with
  | None => w
  | Some t => set_seat (alloc w (s, 0%nat)) k (Seat (wo_next w) (se_road t))
  end.
(** abstract.py:155-167 [reset]: every class makes a new road with [np_random=self.np_random]
    (highway_env.py:57-58, intersection_env.py:153, ...); road.py:255 keeps the reference. *)
Definition reset_env (w : world) (k : nat) : world :=
  match wo_seat w k with
  | None => w
  | Some t => set_seat w k (Seat (se_env t) (se_env t))
  end.
(** abstract.py:45-71 [__init__]: [self.seed()], then [self.reset()]. *)
Definition make_env (w : world) (k : nat) (e : Z) : world := set_seat (alloc w (e, 0%nat)) k (Seat (wo_next w) (wo_next w)).
(** copy.deepcopy of a reference: an object already copied is not copied again. *)
Definition copy_ref (w : world) (memo : list (nat * nat)) (r : nat) : world * list (nat * nat) * nat :=
  match find (fun x => Nat.eqb (fst x) r) memo with
  | Some x => (w, memo, snd x)
  | None => (alloc w (wo_cell w r), (r, wo_next w) :: memo, wo_next w)
  end.
(** abstract.py:385-396 [__deepcopy__]: all attributes with one memo. *)
Definition copy_env (w : world) (k k' : nat) : world :=
  match wo_seat w k with
  | None => w
  | Some t =>
      let '(w1, m1, o) := copy_ref w [] (se_env t) in
      let '(w2, _, r) := copy_ref w1 m1 (se_road t) in
      set_seat w2 k' (Seat o r)
  end.
Definition address (t : seat) (who : drawer) : nat := match who with ByEnv => se_env t | ByRoad => se_road t end.
(** One happening, with the number taken. *)
Definition happens (stream : Z -> nat -> R) (w : world) (h : happening) : world * list (nat * drawer * R) :=
  match h with
  | Make k e => (make_env w k e, [])
  | Seed k s => (seed_env w k s, [])
  | Reset k => (reset_env w k, [])
  | Copy k k' => (copy_env w k k', [])
  | Draw k who =>
      match wo_seat w k with
      | None => (w, [])
      | Some t =>
          let a := address t who in
          let '(s, n) := wo_cell w a in
          (World (set_at (wo_cell w) a (s, S n)) (wo_next w) (wo_seat w), [(k, who, stream s n)])
      end
  end.
Fixpoint history (stream : Z -> nat -> R) (w : world) (l : list happening) : world * list (nat * drawer * R) :=
  match l with
  | [] => (w, [])
  | h :: l' => let '(w1, o1) := happens stream w h in let '(w2, o2) := history stream w1 l' in (w2, o1 ++ o2)
  end.
(** The process at the start. *)
Definition at_start : world := World (fun _ => (0%Z, 0%nat)) 0 (fun _ => None).
