(** Model of class RoadNetwork, highway_env/road/road.py:19-230 *)
From Verif Require Import Prelude M_Utils M_Lane.
Open Scope R_scope.

(** road.py:15-16 [LaneIndex], [Route].  The lane id is an int or None. *)
Definition lane_index : Type := (string * string * option Z)%type.
Definition route : Type := list lane_index.
Definition li_from (i : lane_index) : string := fst (fst i).
Definition li_to (i : lane_index) : string := snd (fst i).
Definition li_id (i : lane_index) : option Z := snd i.

(** road.py:20 [graph: Dict[str, Dict[str, List[AbstractLane]]]] (python dicts
    keep insertion order). *)
Definition graph : Type := list (string * list (string * list lane)).

(** road.py:22-23 *)
Definition empty_graph : graph := [].

(** [self.graph[_from]], [self.graph[_from][_to]] : KeyError when absent. *)
Definition g_succ (g : graph) (n : string) : res (list (string * list lane)) :=
  match assoc n g with Some d => Ok d | None => Err KeyError end.
Definition g_lanes (g : graph) (a b : string) : res (list lane) :=
  do d <- g_succ g a;
  match assoc b d with Some ls => Ok ls | None => Err KeyError end.

(** road.py:25-37 [add_lane]. *)
Definition add_lane (g : graph) (a b : string) (l : lane) : graph :=
  let g1 := match assoc a g with Some _ => g | None => assoc_set a [] g end in
  let d := match assoc a g1 with Some d => d | None => [] end in
  let d1 := match assoc b d with Some _ => d | None => assoc_set b [] d end in
  let ls := match assoc b d1 with Some ls => ls | None => [] end in
  assoc_set a (assoc_set b (ls ++ [l]) d1) g1.

(** A network is what any sequence of [add_lane] calls builds. *)
Definition build (adds : list (string * string * lane)) : graph :=
  fold_left (fun g x => add_lane g (fst (fst x)) (snd (fst x)) (snd x)) adds empty_graph.

(** road.py:39-49 [get_lane]: id None is accepted on single-lane roads only
    ([lst[None]] raises TypeError). *)
Definition get_lane (g : graph) (i : lane_index) : res lane :=
  do ls <- g_lanes g (li_from i) (li_to i);
  match li_id i with
  | None => if Nat.eqb (List.length ls) 1 then py_index ls 0 else Err TypeError
  | Some k => py_index ls k
  end.

(** road.py:59-64: the (index, lane) pairs in iteration order. *)
Definition enum_road (a b : string) (ls : list lane) : list (lane_index * lane) :=
  map (fun kl => ((a, b, Some (Z.of_nat (fst kl))), snd kl)) (combine (seq 0 (List.length ls)) ls).
Definition enum_lanes (g : graph) : list (lane_index * lane) :=
  flat_map (fun ad => flat_map (fun bl => enum_road (fst ad) (fst bl) (snd bl)) (snd ad)) g.

(** road.py:51-65 [get_closest_lane_index]; [np.argmin] keeps the first minimum
    and raises ValueError on an empty list. *)
Definition get_closest_lane_index (g : graph) (p : vec) (heading : option R) : res lane_index :=
  rmap fst (first_min (fun il => l_distance_with_heading (snd il) p heading 1) (enum_lanes g)).

(** [route[0][:2] == current_index[:2]] *)
Definition same_road (i j : lane_index) : bool :=
  String.eqb (li_from i) (li_from j) && String.eqb (li_to i) (li_to j).

(** road.py:82-91: the part of [next_lane] that consults (and pops) the route.
    Returns the remaining route and the planned next node, if any. *)
Definition next_lane_route (cur : lane_index) (rt : route) : route * option string :=
  let rt1 := match rt with
             | r0 :: rt' => if same_road r0 cur then rt' else rt
             | [] => []
             end in
  match rt1 with
  | r0 :: _ => if String.eqb (li_from r0) (li_to cur) then (rt1, Some (li_to r0)) else (rt1, None)
  | [] => (rt1, None)
  end.

(** python truthiness of the planned node: None and "" are falsy (road.py:93). *)
Definition truthy_node (o : option string) : option string :=
  match o with
  | Some s => if String.eqb s "" then None else Some s
  | None => None
  end.

(** road.py:104-107: [min(lanes, key=lambda l: get_lane((_to,next_to,l)).distance(position))]. *)
Definition closest_lane_id (ls : list lane) (p : vec) : res Z :=
  rmap fst (first_min (fun kl => l_distance (snd kl) p) (combine (zrange (List.length ls)) ls)).

(** road.py:67-109 [next_lane].  [draw n] is the result of [np_random.randint(n)];
    [randint(0)] raises ValueError.  The route list is mutated in place: the
    remaining route is returned first.  [position] is always supplied. *)
Definition next_lane (g : graph) (cur : lane_index) (rt : route) (p : vec) (draw : nat -> nat)
  : route * res lane_index :=
  let '(rt1, planned) := next_lane_route cur rt in
  (rt1,
   let finish (next_to : string) : res lane_index :=
     do here <- g_lanes g (li_from cur) (li_to cur);
     do there <- g_lanes g (li_to cur) next_to;
     if Nat.eqb (List.length here) (List.length there)
     then Ok (li_to cur, next_to, li_id cur)
     else do k <- closest_lane_id there p; Ok (li_to cur, next_to, Some k) in
   match truthy_node planned with
   | Some n => finish n
   | None =>
       match assoc (li_to cur) g with
       | None => Ok cur
       | Some d =>
           match d with
           | [] => Err ValueError
           | _ => match nth_error (keys d) (draw (List.length d)) with
                  | Some n => finish n
                  | None => Err IndexError
                  end
           end
       end
   end).

(** Outputs of a python generator run with bounded fuel. *)
Inductive gen (A : Type) : Type :=
| GYield : A -> gen A -> gen A
| GStop : gen A
| GRaise : exn -> gen A
| GFuel : gen A.
Arguments GYield {A} _ _.
Arguments GStop {A}.
Arguments GRaise {A} _.
Arguments GFuel {A}.

Fixpoint gyields {A : Type} (l : list A) (k : gen A) : gen A :=
  match l with [] => k | a :: l' => GYield a (gyields l' k) end.

Definition mem (s : string) (l : list string) : bool := existsb (String.eqb s) l.
Definition in_graph (g : graph) (n : string) : bool := mem n (keys g).

(** road.py:124 [set(graph[node].keys()) - set(path)], in the order the set is
    iterated: [ord path] permutes its argument. *)
Definition bfs_succ (ord : list string -> list string -> list string)
  (d : list (string * list lane)) (path : list string) : list string :=
  ord path (filter (fun n => negb (mem n path)) (keys d)).

(** road.py:124-128: what one expansion yields, and what it appends to the queue. *)
Definition bfs_found (goal : string) (path : list string) (nexts : list string) : list (list string) :=
  map (fun n => path ++ [n]) (filter (fun n => String.eqb n goal) nexts).
Definition bfs_push (g : graph) (goal : string) (path : list string) (nexts : list string)
  : list (string * list string) :=
  map (fun n => (n, path ++ [n]))
      (filter (fun n => negb (String.eqb n goal) && in_graph g n) nexts).

(** road.py:119-128 the while loop of [bfs_paths].  All yields of an expansion
    precede the next pop, and appending to the queue does not affect them. *)
Fixpoint bfs (fuel : nat) (g : graph) (ord : list string -> list string -> list string)
  (goal : string) (queue : list (string * list string)) : gen (list string) :=
  match fuel with
  | O => match queue with [] => GStop | _ => GFuel end
  | S fuel' =>
      match queue with
      | [] => GStop
      | (node, path) :: rest =>
          match assoc node g with
          | None => GYield [] (GRaise KeyError)
          | Some d =>
              let nexts := bfs_succ ord d path in
              gyields (bfs_found goal path nexts)
                      (bfs fuel' g ord goal (rest ++ bfs_push g goal path nexts))
          end
      end
  end.

(** Fuel that is proved to be enough (number of simple paths bound). *)
Fixpoint path_weight (n k : nat) : nat :=
  match k with O => 1 | S k' => S (n * path_weight n k') end.
Definition bfs_fuel (g : graph) : nat := path_weight (List.length g) (List.length g).

(** road.py:111-128 [bfs_paths]. *)
Definition bfs_paths (g : graph) ord (start goal : string) : gen (list string) :=
  bfs (bfs_fuel g) g ord goal [(start, [start])].

(** road.py:130-138 [shortest_path]: [next(gen, [])]. *)
Definition shortest_path (g : graph) ord (start goal : string) : res (list string) :=
  match bfs_paths g ord start goal with
  | GYield p _ => Ok p
  | GStop => Ok []
  | GRaise e => Err e
  | GFuel => Err RecursionError
  end.

(** road.py:140-145 [all_side_lanes]. *)
Definition all_side_lanes (g : graph) (i : lane_index) : res (list lane_index) :=
  do ls <- g_lanes g (li_from i) (li_to i);
  Ok (map (fun k => (li_from i, li_to i, Some k)) (zrange (List.length ls))).

(** road.py:147-158 [side_lanes]; comparing None with an int raises TypeError. *)
Definition side_lanes (g : graph) (i : lane_index) : res (list lane_index) :=
  match li_id i with
  | None => Err TypeError
  | Some k =>
      let left := if (0 <? k)%Z then [(li_from i, li_to i, Some (k - 1)%Z)] else [] in
      do ls <- g_lanes g (li_from i) (li_to i);
      let right := if (k <? Z.of_nat (List.length ls) - 1)%Z
                   then [(li_from i, li_to i, Some (k + 1)%Z)] else [] in
      Ok (left ++ right)
  end.

(** python [==] on lane ids. *)
Definition id_eqb (a b : option Z) : bool :=
  match a, b with
  | None, None => true
  | Some x, Some y => Z.eqb x y
  | _, _ => false
  end.

(** road.py:161-163 [is_same_road]. *)
Definition is_same_road (i1 i2 : lane_index) (same_lane : bool) : bool :=
  same_road i1 i2 && (negb same_lane || id_eqb (li_id i1) (li_id i2)).

(** road.py:166-168 [is_leading_to_road]. *)
Definition is_leading_to_road (i1 i2 : lane_index) (same_lane : bool) : bool :=
  String.eqb (li_to i1) (li_from i2) && (negb same_lane || id_eqb (li_id i1) (li_id i2)).

(** road.py:170-198 [is_connected_road], recursion on fuel = depth + length of
    the route (each call decreases one of them). *)
Fixpoint is_connected_fuel (fuel : nat) (g : graph) (i1 i2 : lane_index) (rt : route)
  (same_lane : bool) (depth : nat) : bool :=
  if is_same_road i2 i1 same_lane || is_leading_to_road i2 i1 same_lane then true
  else
    match fuel with
    | O => false
    | S fuel' =>
        match depth with
        | O => false
        | S depth' =>
            let search :=
              existsb (fun n => is_connected_fuel fuel' g (li_to i1, n, li_id i1) i2 rt same_lane depth')
                      (keys (match assoc (li_to i1) g with Some d => d | None => [] end)) in
            match rt with
            | [] => search
            | r0 :: rt' =>
                if same_road r0 i1 then is_connected_fuel fuel' g i1 i2 rt' same_lane depth
                else if String.eqb (li_from r0) (li_to i1)
                     then is_connected_fuel fuel' g r0 i2 rt' same_lane depth'
                     else search
            end
        end
    end.
Definition is_connected_road (g : graph) (i1 i2 : lane_index) (rt : route)
  (same_lane : bool) (depth : nat) : bool :=
  is_connected_fuel (depth + List.length rt) g i1 i2 rt same_lane depth.

(** road.py:200-201 [lanes_list]. *)
Definition lanes_list (g : graph) : list lane :=
  flat_map (fun ad => flat_map snd (snd ad)) g.

(** road.py:204-215 [straight_road_network]; note the rotation is by [-angle]. *)
Definition straight_network_lane (lanes k : nat) (length angle : R) : lane :=
  let y := INR k * DEFAULT_WIDTH in
  Lane (GStraight (vrot (- angle) (0, y)) (vrot (- angle) (length, y)))
       DEFAULT_WIDTH
       (if Nat.eqb k 0 then LContinuousLine else LStriped,
        if Nat.eqb k (lanes - 1) then LContinuousLine else LNone)
       false 20 0%Z.
Definition straight_road_network (lanes : nat) (length angle : R) : graph :=
  fold_left (fun g k => add_lane g "0" "1" (straight_network_lane lanes k length angle))
            (seq 0 lanes) empty_graph.

(** road.py:217-230 [position_heading_along_route]. *)
Fixpoint position_heading_along_route (g : graph) (rt : route) (s d : R) : res (vec * R) :=
  match rt with
  | [] => Err IndexError
  | r0 :: rt' =>
      do l <- get_lane g r0;
      match rt' with
      | [] => Ok (l_position l s d, l_heading l s)
      | _ => if Rltb (l_length l) s
             then position_heading_along_route g rt' (s - l_length l) d
             else Ok (l_position l s d, l_heading l s)
      end
  end.
