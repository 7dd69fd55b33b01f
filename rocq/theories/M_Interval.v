(** Model of highway_env/interval.py: interval arithmetic and interval predictors.
    Definitions only.

    A numpy vector is a list of reals, a matrix the list of its rows.  Where numpy
    raises ValueError because shapes do not agree the list operations below
    truncate instead; every theorem assumes the shapes agree. *)
From Verif Require Import Prelude M_Lane.
Open Scope R_scope.

Notation lvec := (list R).
Notation lmat := (list (list R)).
(** An interval [[lower, upper]] of values of type [A]. *)
Definition itv (A : Type) : Type := (A * A)%type.

(** ** numpy element-wise operations *)
Fixpoint map2 {A B C : Type} (f : A -> B -> C) (a : list A) (b : list B) : list C :=
  match a, b with x :: a', y :: b' => f x y :: map2 f a' b' | _, _ => [] end.
Definition lv_add : lvec -> lvec -> lvec := map2 Rplus.
Definition lv_sub : lvec -> lvec -> lvec := map2 Rminus.
Definition lv_scale (c : R) (a : lvec) : lvec := map (Rmult c) a.
Definition lm_add : lmat -> lmat -> lmat := map2 lv_add.
Definition lm_sub : lmat -> lmat -> lmat := map2 lv_sub.
Definition lm_scale (c : R) (a : lmat) : lmat := map (lv_scale c) a.
(** [np.dot] of two vectors. *)
Fixpoint lv_dot (a b : lvec) : R := match a, b with x :: a', y :: b' => x * y + lv_dot a' b' | _, _ => 0 end.
(** [np.dot] / [@] of a matrix and a vector. *)
Definition lm_apply (a : lmat) (x : lvec) : lvec := map (fun row => lv_dot row x) a.
(** [p = lambda x: np.maximum(x, 0)], [n = lambda x: np.maximum(-x, 0)]. *)
Definition pos_part (x : R) : R := Rmax x 0.
Definition neg_part (x : R) : R := Rmax (- x) 0.

(** ** interval.py:11-23 [intervals_product] *)
(** The code is generic in [np.dot]; so is the model. *)
Definition intervals_product_with {A B C : Type} (dot : A -> B -> C) (add sub : C -> C -> C)
    (pa na : A -> A) (pb nb : B -> B) (a : itv A) (b : itv B) : itv C :=
  (add (sub (sub (dot (pa (fst a)) (pb (fst b))) (dot (pa (snd a)) (nb (fst b)))) (dot (na (fst a)) (pb (snd b)))) (dot (na (snd a)) (nb (snd b))),
   add (sub (sub (dot (pa (snd a)) (pb (snd b))) (dot (pa (fst a)) (nb (snd b)))) (dot (na (snd a)) (pb (fst b)))) (dot (na (fst a)) (nb (fst b)))).
(** scalars *)
Definition intervals_product : itv R -> itv R -> itv R :=
  intervals_product_with Rmult Rplus Rminus pos_part neg_part pos_part neg_part.
(** two vectors: the scalar product *)
Definition intervals_product_vv : itv lvec -> itv lvec -> itv R :=
  intervals_product_with lv_dot Rplus Rminus (map pos_part) (map neg_part) (map pos_part) (map neg_part).
(** a matrix and a vector *)
Definition intervals_product_mv : itv lmat -> itv lvec -> itv lvec :=
  intervals_product_with lm_apply lv_add lv_sub (map (map pos_part)) (map (map neg_part)) (map pos_part) (map neg_part).
(** a scalar and a matrix *)
Definition intervals_product_sm : itv R -> itv lmat -> itv lmat :=
  intervals_product_with lm_scale lm_add lm_sub pos_part neg_part (map (map pos_part)) (map (map neg_part)).

(** interval.py:26-38 [intervals_scaling], a matrix and a vector interval. *)
Definition intervals_scaling (a : lmat) (b : itv lvec) : itv lvec :=
  let p := map (map pos_part) a in
  let n := map (map neg_part) a in
  (lv_sub (lm_apply p (fst b)) (lm_apply n (snd b)), lv_sub (lm_apply p (snd b)) (lm_apply n (fst b))).
(** interval.py:41-49 [intervals_diff], on scalars. *)
Definition intervals_diff (a b : itv R) : itv R := (fst a - snd b, snd a - fst b).
(** interval.py:52-59 [interval_negative_part], on scalars. *)
Definition interval_negative_part (a : itv R) : itv R := (Rmin (fst a) 0, Rmin (snd a) 0).
(** interval.py:62-77 [integrator_interval]: element-wise product of the gain
    interval with [x], without flipping [x]. *)
Definition integrator_interval (x k : itv R) : itv R :=
  let gain := if Rleb 0 (fst x) then (- snd k, - fst k)
              else if Rleb (snd x) 0 then (- fst k, - snd k)
              else (- fst k, - fst k) in
  (fst gain * fst x, snd gain * snd x).
(** The four corners of a box, in the order of the code. *)
Definition box_corners (lo hi : vec) : list vec :=
  [(fst lo, snd lo); (fst lo, snd hi); (fst hi, snd lo); (fst hi, snd hi)].
(** python [min(l)] / [max(l)] of a non-empty list given as head and tail. *)
Definition list_min (x : R) (l : list R) : R := fold_left Rmin l x.
Definition list_max (x : R) (l : list R) : R := fold_left Rmax l x.
(** interval.py:80-86 [vector_interval_section]; [v_i] is (lower corner, upper corner). *)
Definition vector_interval_section (v : itv vec) (direction : vec) : itv R :=
  let d := map (fun c => fst c * fst direction + snd c * snd direction) (box_corners (fst v) (snd v)) in
  (list_min (hd 0 d) (tl d), list_max (hd 0 d) (tl d)).
(** interval.py:89-104 [interval_absolute_to_local]. *)
Definition interval_absolute_to_local (position : itv vec) (lane : lane) : itv R * itv R :=
  let cs := map (l_local lane) (box_corners (fst position) (snd position)) in
  let ls := map fst cs in
  let ts := map snd cs in
  ((list_min (hd 0 ls) (tl ls), list_max (hd 0 ls) (tl ls)), (list_min (hd 0 ts) (tl ts), list_max (hd 0 ts) (tl ts))).
(** interval.py:107-122 [interval_local_to_absolute]. *)
Definition interval_local_to_absolute (longitudinal lateral : itv R) (lane : lane) : itv vec :=
  let cs := map (fun c => l_position lane (fst c) (snd c)) (box_corners (fst longitudinal, fst lateral) (snd longitudinal, snd lateral)) in
  let xs := map fst cs in
  let ys := map snd cs in
  ((list_min (hd 0 xs) (tl xs), list_min (hd 0 ys) (tl ys)), (list_max (hd 0 xs) (tl xs), list_max (hd 0 ys) (tl ys))).

(** ** interval.py:125-142 [polytope] *)
(** [itertools.product([0, 1], repeat=n)] applied to the parameter box: its
    vertices, the last parameter varying fastest. *)
Fixpoint box_vertices (lo hi : lvec) : list lvec :=
  match lo, hi with
  | l :: lo', h :: hi' => map (cons l) (box_vertices lo' hi') ++ map (cons h) (box_vertices lo' hi')
  | _, _ => [[]]
  end.
Definition lv_eqb (a b : lvec) : bool := if list_eq_dec Req_EM_T a b then true else false.
(** [list({d.tostring(): d for d in d_a}.values())]: a dictionary keyed by the
    bytes keeps each distinct value once, at the place of its first occurrence.  (Floats 0.0 and -0.0 have different bytes;
    reals do not tell them apart.) *)
Definition dedup (l : list lvec) : list lvec :=
  rev (fold_left (fun acc x => if existsb (lv_eqb x) acc then acc else x :: acc) l []).
(** The matrices are flattened to vectors here. *)
Definition polytope (f : lvec -> lvec) (lo hi : lvec) : lvec * list lvec :=
  let means := map2 (fun l h => (l + h) / 2) lo hi in
  (f means, dedup (map (fun v => lv_sub (f v) (f means)) (box_vertices lo hi))).

(** ** interval.py:145-146 [is_metzler], [eps = 1e-9] *)
Definition METZLER_EPS : R := 1 / 1000000000.
Definition is_metzler (a : lmat) : bool :=
  forallb (fun i => forallb (fun j => Nat.eqb i j || Rleb (- METZLER_EPS) (nth j (nth i a []) 0))
                            (seq 0 (List.length (nth i a []))))
          (seq 0 (List.length a)).

(** ** interval.py:149-311 class LPV *)
Record lpv := LPV {
  lp_a0 : lmat;             (* in the changed coordinates, feedback included *)
  lp_da : list lmat;        (* in the changed coordinates *)
  lp_b : lmat;              (* in the changed coordinates *)
  lp_d : lmat;              (* NOT changed *)
  lp_omega : itv lvec;
  lp_u : lvec;              (* the column vector u *)
  lp_k : lmat;
  lp_center : lvec;
  lp_coord : option (lmat * lmat); (* transformation and its inverse *)
  lp_x : lvec;              (* x_t, the nominal state, NOT changed *)
  lp_xi : itv lvec;         (* x_i_t, in the changed coordinates *)
}.
Definition lm_col (a : lmat) (j : nat) : lvec := map (fun row => nth j row 0) a.
(** [a @ b] for matrices. [n] is the number of columns of [b]. *)
Definition lm_mul (a b : lmat) : lmat :=
  map (fun row => map (fun j => lv_dot row (lm_col b j)) (seq 0 (List.length (hd [] b)))) a.
Definition eye (n : nat) : lmat := map (fun i => map (fun j => if Nat.eqb i j then 1 else 0) (seq 0 n)) (seq 0 n).

(** interval.py:198-223 [update_coordinates_frame], the choice of coordinates.
    [eig a0] stands for [np.linalg.eig] followed by [np.linalg.inv]: the matrix
    of eigenvectors and its inverse, [None] when an eigenvalue is not real or the
    matrix is singular. *)
Definition coordinates_of (eig : lmat -> option (lmat * lmat)) (a0 : lmat) : option (lmat * lmat) :=
  if is_metzler a0 then Some (eye (List.length a0), eye (List.length a0)) else eig a0.
(** interval.py:230-271 [change_coordinates(value, matrix=True, back=False)]. *)
Definition change_matrix (c : option (lmat * lmat)) (m : lmat) : lmat :=
  match c with None => m | Some (t, ti) => lm_mul (lm_mul ti m) t end.
(** [change_coordinates(v, offset=False)] for [b]: only the left product. *)
Definition change_input (c : option (lmat * lmat)) (m : lmat) : lmat :=
  match c with None => m | Some (_, ti) => lm_mul ti m end.
(** [change_coordinates(v)] for a vector. *)
Definition change_vector (c : option (lmat * lmat)) (center v : lvec) : lvec :=
  match c with None => v | Some (_, ti) => lm_apply ti (lv_sub v center) end.
(** [change_coordinates(v, back=True)] for a vector. *)
Definition change_vector_back (c : option (lmat * lmat)) (center v : lvec) : lvec :=
  match c with None => v | Some (t, _) => lv_add (lm_apply t v) center end.
(** [change_coordinates(value, interval=True)] and with [back=True]. *)
Definition change_interval (c : option (lmat * lmat)) (center : lvec) (v : itv lvec) : itv lvec :=
  match c with None => v | Some (_, ti) => intervals_scaling ti (lv_sub (fst v) center, lv_sub (snd v) center) end.
Definition change_interval_back (c : option (lmat * lmat)) (center : lvec) (v : itv lvec) : itv lvec :=
  match c with None => v | Some (t, _) => let w := intervals_scaling t v in (lv_add (fst w) center, lv_add (snd w) center) end.

(** interval.py:150-196 [LPV.__init__].  All arguments are given ([b], [d], [u],
    [k], [center] default to zeros of the right shape; the default [u] has the
    wrong shape and makes [step] raise).  [x_i] optional as in the code.  The
    in-place [value -= center] of the coordinate change also shifts the [x_i]
    array the caller's copy was made into, which is not read again. *)
Definition lpv_make (eig : lmat -> option (lmat * lmat)) (x0 : lvec) (a0 : lmat) (da : list lmat) (b d : lmat)
    (omega : itv lvec) (u : lvec) (k : lmat) (center : lvec) (xi : option (itv lvec)) : lpv :=
  let a := lm_add a0 (lm_mul b k) in
  let c := coordinates_of eig a in
  let x := match xi with Some i => i | None => (x0, x0) end in
  LPV (change_matrix c a) (map (change_matrix c) da) (change_input c b) d omega u k center c x0
      (change_vector c center (fst x), change_vector c center (snd x)).
(** interval.py:225-228 [set_control]. *)
Definition set_control (s : lpv) (control : lvec) (state : option lvec) : lpv :=
  let u := match state with Some x => lv_sub control (lm_apply (lp_k s) x) | None => control end in
  LPV (lp_a0 s) (lp_da s) (lp_b s) (lp_d s) (lp_omega s) u (lp_k s) (lp_center s) (lp_coord s) (lp_x s) (lp_xi s).

(** python [sum] of a non-empty list of matrices. *)
Definition lm_sum (l : list lmat) : lmat := match l with [] => [] | m :: ms => fold_left lm_add ms m end.
(** interval.py:281-293 [step_naive_predictor]; [da] is not empty. *)
Definition naive_step (a0 : lmat) (da : list lmat) (b d : lmat) (omega : itv lvec) (u : lvec) (xi : itv lvec) (dt : R) : itv lvec :=
  let parts := map (fun m => intervals_product_sm (0, 1) (m, m)) da in
  let ai := (lm_add a0 (lm_sum (map fst parts)), lm_add a0 (lm_sum (map snd parts))) in
  let bu := lm_apply b u in
  let p := intervals_product_mv ai xi in
  let q := intervals_product_mv (d, d) omega in
  (lv_add (fst xi) (lv_scale dt (lv_add (lv_add (fst p) (fst q)) bu)),
   lv_add (snd xi) (lv_scale dt (lv_add (lv_add (snd p) (snd q)) bu))).
(** interval.py:295-311 [step_interval_predictor]; [da] is not empty. *)
Definition metzler_step (a0 : lmat) (da : list lmat) (b d : lmat) (omega : itv lvec) (u : lvec) (xi : itv lvec) (dt : R) : itv lvec :=
  let dap := lm_sum (map (map (map pos_part)) da) in
  let dan := lm_sum (map (map (map neg_part)) da) in
  let P := map (map pos_part) d in
  let N := map (map neg_part) d in
  let bu := lm_apply b u in
  let p := map pos_part in
  let n := map neg_part in
  (lv_add (fst xi) (lv_scale dt
     (lv_add (lv_sub (lv_add (lv_sub (lv_sub (lm_apply a0 (fst xi)) (lm_apply dap (n (fst xi)))) (lm_apply dan (p (snd xi)))) (lm_apply P (fst omega))) (lm_apply N (snd omega))) bu)),
   lv_add (snd xi) (lv_scale dt
     (lv_add (lv_sub (lv_add (lv_add (lv_add (lm_apply a0 (snd xi)) (lm_apply dap (p (snd xi)))) (lm_apply dan (n (fst xi)))) (lm_apply P (snd omega))) (lm_apply N (fst omega))) bu))).
(** interval.py:273-279 [LPV.step]. *)
Definition lpv_step (s : lpv) (dt : R) : lpv :=
  let f := if is_metzler (lp_a0 s) then metzler_step else naive_step in
  let xi := f (lp_a0 s) (lp_da s) (lp_b s) (lp_d s) (lp_omega s) (lp_u s) (lp_xi s) dt in
  let dx := lv_add (lm_apply (lp_a0 s) (lp_x s)) (lm_apply (lp_b s) (lp_u s)) in
  LPV (lp_a0 s) (lp_da s) (lp_b s) (lp_d s) (lp_omega s) (lp_u s) (lp_k s) (lp_center s) (lp_coord s)
      (lv_add (lp_x s) (lv_scale dt dx)) xi.
