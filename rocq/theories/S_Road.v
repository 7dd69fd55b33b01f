(** Specification vocabulary for road networks, independent of the algorithms. *)
From Verif Require Import Prelude M_Lane M_Road M_Vehicle.
From Coq Require Import Permutation.

(** Lane [k] of the road from [a] to [b] is [l]. *)
Definition has_lane (g : graph) (a b : string) (k : nat) (l : lane) : Prop :=
  exists d ls, assoc a g = Some d /\ assoc b d = Some ls /\ nth_error ls k = Some l.

(** A lane index that designates a lane of the network by a proper id. *)
Definition lane_exists (g : graph) (i : lane_index) : Prop :=
  exists k l, li_id i = Some (Z.of_nat k) /\ has_lane g (li_from i) (li_to i) k l.

(** A network obtained by any sequence of [add_lane] calls. *)
Definition built (g : graph) : Prop := exists adds, g = build adds.

(** The lanes that a sequence of [add_lane] calls put between two nodes. *)
Definition added_between (a b : string) (adds : list (string * string * lane)) : list lane :=
  map snd (filter (fun x => String.eqb (fst (fst x)) a && String.eqb (snd (fst x)) b) adds).

(** There is a road from [a] to [b]. *)
Definition edge (g : graph) (a b : string) : Prop := exists k l, has_lane g a b k l.

(** Every two consecutive nodes are joined by a road. *)
Fixpoint walk (g : graph) (p : list string) : Prop :=
  match p with
  | a :: ((b :: _) as rest) => edge g a b /\ walk g rest
  | _ => True
  end.

(** A walk of at least one road from [s] to [t]. *)
Definition walk_from_to (g : graph) (s t : string) (p : list string) : Prop :=
  walk g p /\ (exists q, p = s :: q /\ q <> []) /\ last p s = t.

(** ... that visits no node twice. *)
Definition simple_path (g : graph) (s t : string) (p : list string) : Prop :=
  walk_from_to g s t p /\ NoDup p.

(** Whatever order python iterates a set in: some permutation. *)
Definition set_order (ord : list string -> list string -> list string) : Prop :=
  forall path l, Permutation (ord path l) l.

(** [np_random.randint(n)] returns a number below [n]. *)
Definition draw_ok (draw : nat -> nat) : Prop := forall n, (0 < n)%nat -> (draw n < n)%nat.

(** Outcome of running a generator to its end: what it yielded, and how it ended
    ([None]: exhausted). *)
Inductive runs_to {A : Type} : gen A -> list A -> option exn -> Prop :=
| runs_stop : runs_to GStop [] None
| runs_raise : forall e, runs_to (GRaise e) [] (Some e)
| runs_yield : forall a g l e, runs_to g l e -> runs_to (GYield a g) (a :: l) e.

(** ** Connectivity (is_connected_road) *)

(** Lane 2 is on the road of lane 1, or ends where lane 1's road starts
    (optionally with the same lane id). *)
Definition met (i2 i1 : lane_index) (same_lane : bool) : Prop :=
  (li_from i2 = li_from i1 /\ li_to i2 = li_to i1 \/ li_to i2 = li_from i1) /\
  (same_lane = true -> li_id i2 = li_id i1).

(** One hop from a lane, following a planned route: first forget the planned
    roads equal to the current one; then, if the next planned road starts at the
    end of the current one, take it; otherwise take any outgoing road with the
    same lane id. *)
Inductive hop (g : graph) : lane_index * route -> lane_index * route -> Prop :=
| hop_forget : forall i r rt st,
    li_from r = li_from i -> li_to r = li_to i -> hop g (i, rt) st -> hop g (i, r :: rt) st
| hop_planned : forall i r rt,
    ~ (li_from r = li_from i /\ li_to r = li_to i) ->
    li_from r = li_to i -> hop g (i, r :: rt) (r, rt)
| hop_any : forall i rt n,
    match rt with [] => True | r :: _ => ~ (li_from r = li_from i /\ li_to r = li_to i) /\ li_from r <> li_to i end ->
    edge g (li_to i) n -> hop g (i, rt) ((li_to i, n, li_id i), rt).

Inductive hops (g : graph) : nat -> lane_index * route -> lane_index * route -> Prop :=
| hops_0 : forall st, hops g 0 st st
| hops_S : forall n st st' st'', hop g st st' -> hops g n st' st'' -> hops g (S n) st st''.
