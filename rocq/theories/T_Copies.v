(** C52: copying an environment. *)
From Coq Require Import Lia.
From Verif Require Import Prelude M_Heap S_Heap P_Heap.
Open Scope nat_scope.

(** C52: if no uncopiable object can be reached without going through the rendering
    attributes, a copy is made, in which every object of the environment has exactly one
    new counterpart, with the same class and corresponding attributes; everything that
    existed before is unchanged. *)
Theorem C52_copy : forall h r, closed h -> r < List.length h ->
  (forall a o, reaches_state h r a -> nth_error h a = Some o -> ob_kind o <> OOpaque) ->
  exists h' f, deepcopy h (VRef r) = Ok (h', VRef (f r)) /\ holds_copy h r f h' /\ closed h'.
Proof.
  intros h r C L N. pose proof (deepcopy_outcome h C (VRef r) L) as D.
  destruct (deepcopy h (VRef r)) as [[h' v]|e] eqn:E.
  - destruct (copy_holds h C r h' v L E) as (f & -> & H). exists h', f.
    destruct (copy_owned h r h' _ C L E) as [O _].
    split; [reflexivity|split; [exact H|exact (owned_closed _ _ O)]].
  - destruct D as [_ Q]. exfalso. destruct Q as (a & o & Ha & Ho & K). exact (N a o Ha Ho K).
Qed.
Print Assumptions C52_copy.

(** C52: the viewer of a rendered environment is not copied, nor its callback: the
    copy has None instead. *)
Theorem C52_no_viewer : forall h r h' v o, closed h -> nth_error h r = Some o -> ob_kind o = OEnv ->
  deepcopy h (VRef r) = Ok (h', v) ->
  exists b o', v = VRef b /\ nth_error h' b = Some o' /\ ob_kind o' = OEnv /\ ob_class o' = ob_class o /\
    map fst (ob_fields o') = map fst (ob_fields o) /\
    forall w, (In ("viewer"%string, w) (ob_fields o') \/ In ("automatic_rendering_callback"%string, w) (ob_fields o')) ->
      w = VAtom ANone.
Proof.
  intros h r h' v o C Ho K E. destruct (copy_holds h C r h' v (nth_lt _ _ _ Ho) E) as (f & -> & H).
  destruct H as (_ & _ & _ & P & _). destruct (P r o (state_here h r) Ho) as (o' & E' & K' & Cl & F).
  exists (f r), o'. split; [reflexivity|]. split; [exact E'|]. split; [congruence|]. split; [exact Cl|]. split.
  - clear -F. induction F as [|x y l l' (Q & _) F IH]; [reflexivity|]. cbn [map]. f_equal; [now symmetry|exact IH].
  - intros w W.
    assert (G : forall l l', Forall2 (same_attribute f o) l l' -> forall name, rendering_attribute o name ->
              In (name, w) l' -> w = VAtom ANone).
    { clear. induction 1 as [|x y l l' (Q & Q1 & _) F IH]; intros name Rn Hin; [destruct Hin|].
      destruct Hin as [->|Hin]; [|now apply (IH name)]. cbn [fst snd] in *. apply Q1. now rewrite Q. }
    destruct W as [W|W]; (eapply G; [exact F| |exact W]; split; [exact K|auto]).
Qed.
Print Assumptions C52_no_viewer.

(** C52: otherwise (for instance a viewer held by another object than the environment)
    the copy fails with TypeError. *)
Theorem C52_cannot_copy : forall h r a o, closed h -> r < List.length h ->
  reaches_state h r a -> nth_error h a = Some o -> ob_kind o = OOpaque ->
  deepcopy h (VRef r) = Err TypeError.
Proof. intros. eapply copy_opaque; eauto. Qed.
Print Assumptions C52_cannot_copy.

(** Programs on either side of a copy: the first knows objects that existed before it,
    the second knows the copy. *)
Definition knew (h : heap) (r : regs) : Prop := forall x b, r x = VRef b -> b < List.length h.

Lemma C52_sides : forall h r h' v r1 cs, closed h -> r < List.length h -> deepcopy h (VRef r) = Ok (h', v) -> knew h r1 ->
  exists own, owned (fst (interleave h' r1 (knows v) cs)) own /\
    regs_mine (fst (interleave h' r1 (knows v) cs)) own true (fst (snd (interleave h' r1 (knows v) cs))) /\
    regs_mine (fst (interleave h' r1 (knows v) cs)) own false (snd (snd (interleave h' r1 (knows v) cs))).
Proof.
  intros h r h' v r1 cs C L E K. destruct (copy_owned h r h' v C L E) as (O & M & Lh).
  assert (R1 : regs_mine h' (extended h (fun _ => true) false) true r1).
  { intros x. destruct (r1 x) as [|b] eqn:Ex; cbn; [exact Logic.I|]. pose proof (K x b Ex) as Lb.
    split; [lia|]. now rewrite (extended_same h (fun _ => true) false b Lb). }
  pose proof (interleave_owned cs h' _ r1 (knows v) O R1 (fun _ => M)) as I.
  destruct (interleave h' r1 (knows v) cs) as [hf [r1f r2f]]. destruct I as (own & _ & _ & I). exists own. exact I.
Qed.

(** C52: whatever the two programs do afterwards (including creating objects and
    copying again), in whatever order, no object is ever within reach of both. *)
Theorem C52_nothing_shared : forall h r h' v r1 cs hf r1f r2f a, closed h -> r < List.length h ->
  deepcopy h (VRef r) = Ok (h', v) -> knew h r1 ->
  interleave h' r1 (knows v) cs = (hf, (r1f, r2f)) ->
  within_reach hf r1f a -> within_reach hf r2f a -> False.
Proof.
  intros h r h' v r1 cs hf r1f r2f a C L E K I W1 W2.
  destruct (C52_sides h r h' v r1 cs C L E K) as (own & O & R1 & R2). rewrite I in O, R1, R2. cbn [fst snd] in *.
  destruct (within_owned _ _ _ _ _ O R1 W1) as [_ Q1]. destruct (within_owned _ _ _ _ _ O R2 W2) as [_ Q2]. congruence.
Qed.
Print Assumptions C52_nothing_shared.

(** C52: so what one of them does next changes nothing that the other can see. *)
Theorem C52_changes_invisible : forall h r h' v r1 cs hf r1f r2f c a, closed h -> r < List.length h ->
  deepcopy h (VRef r) = Ok (h', v) -> knew h r1 ->
  interleave h' r1 (knows v) cs = (hf, (r1f, r2f)) ->
  (within_reach hf r1f a -> nth_error (fst (do_act hf r2f c)) a = nth_error hf a) /\
  (within_reach hf r2f a -> nth_error (fst (do_act hf r1f c)) a = nth_error hf a).
Proof.
  intros h r h' v r1 cs hf r1f r2f c a C L E K I.
  destruct (C52_sides h r h' v r1 cs C L E K) as (own & O & R1 & R2). rewrite I in O, R1, R2. cbn [fst snd] in *. split; intros W.
  - destruct (within_owned _ _ _ _ _ O R1 W) as [La Q]. pose proof (do_act_owned hf own false r2f c O R2) as A.
    destruct (do_act hf r2f c) as [h2 r2']. destruct A as (_ & _ & _ & _ & _ & F & _). cbn [fst]. now apply F.
  - destruct (within_owned _ _ _ _ _ O R2 W) as [La Q]. pose proof (do_act_owned hf own true r1f c O R1) as A.
    destruct (do_act hf r1f c) as [h2 r1']. destruct A as (_ & _ & _ & _ & _ & F & _). cbn [fst]. now apply F.
Qed.
Print Assumptions C52_changes_invisible.

(** C52: in particular a program that only knows the copy never changes an object that
    existed before the copy. *)
Theorem C52_original_untouched : forall cs h r h' v a o r1, closed h -> r < List.length h ->
  deepcopy h (VRef r) = Ok (h', v) -> nth_error h a = Some o ->
  nth_error (fst (interleave h' r1 (knows v) (map (fun c => (false, c)) cs))) a = Some o.
Proof.
  intros cs h r h' v a o r1 C L E Ho.
  destruct (copy_owned h r h' v C L E) as (O & M & Lh). destruct (copy_holds h C r h' v L E) as (f & -> & Hc).
  assert (Ho' : nth_error h' a = Some o) by (now apply (proj1 Hc)).
  assert (Q : extended h (fun _ => true) false a = true) by (now rewrite (extended_same h (fun _ => true) false a (nth_lt _ _ _ Ho))).
  assert (R2 : regs_mine h' (extended h (fun _ => true) false) false (knows (VRef (f r)))) by (intros x; exact M).
  revert O R2 Ho' Q. generalize (extended h (fun _ => true) false). generalize (knows (VRef (f r))).
  clear. revert h' r1. induction cs as [|c cs IH]; intros h' r1 r2 own O R2 Ho Q; cbn [map interleave fst]; [exact Ho|].
  pose proof (do_act_owned h' own false r2 c O R2) as A. destruct (do_act h' r2 c) as [h1 r2'].
  destruct A as (own' & S' & O' & R' & L' & F' & _).
  apply (IH h1 r1 r2' own' O' R').
  - rewrite F'; [exact Ho|exact (nth_lt _ _ _ Ho)|exact Q].
  - rewrite S'; [exact Q|exact (nth_lt _ _ _ Ho)].
Qed.
Print Assumptions C52_original_untouched.

(** A rendered environment: its action type refers back to it, its road and its list of
    controlled vehicles share a vehicle, its viewer holds a surface. *)
Definition rendered : heap :=
  [ Obj OEnv "HighwayEnv" [("road", VRef 1); ("controlled_vehicles", VRef 3); ("action_type", VRef 4);
      ("viewer", VRef 5); ("automatic_rendering_callback", VRef 5); ("time", VAtom (AInt 3))];
    Obj OPlain "Road" [("vehicles", VRef 2)];
    Obj OPlain "list" [("0", VRef 7)];
    Obj OPlain "list" [("0", VRef 7)];
    Obj OPlain "DiscreteMetaAction" [("env", VRef 0)];
    Obj OPlain "EnvViewer" [("screen", VRef 6); ("env", VRef 0)];
    Obj OOpaque "Surface" [];
    Obj OPlain "MDPVehicle" [("road", VRef 1); ("speed", VAtom (AFloat 25)); ("position", VRef 8)];
    Obj OPlain "ndarray" [("0", VAtom (AFloat 3)); ("1", VAtom (AFloat 4))] ]%string.
Lemma rendered_closed : closed rendered.
Proof.
  intros a o name b Ha Hin.
  do 9 (destruct a as [|a]; [cbn in Ha; injection Ha as <-; cbn in Hin;
    repeat (destruct Hin as [Hin|Hin]; [inversion Hin; cbn; lia|]); destruct Hin|]).
  destruct a; discriminate Ha.
Qed.

(** C52: the environment is copied without its viewer: seven new objects; the vehicle
    of the copy is one object, shared by its road and its controlled vehicles; changing
    its speed in the copy leaves the original at 25.  The viewer itself cannot be copied. *)
Example C52_nonvacuous :
  closed rendered /\
  deepcopy rendered (VRef 5) = Err TypeError /\
  exists h', deepcopy rendered (VRef 0) = Ok (h', VRef 9) /\ List.length h' = 16 /\
    (exists b, nth_error h' 11 = Some (Obj OPlain "list" [("0", VRef b)]%string) /\
               nth_error h' 14 = Some (Obj OPlain "list" [("0", VRef b)]%string) /\
               nth_error h' b = Some (Obj OPlain "MDPVehicle" [("road", VRef 10); ("speed", VAtom (AFloat 25)); ("position", VRef 13)]%string)) /\
    nth_error h' 15 = Some (Obj OPlain "DiscreteMetaAction" [("env", VRef 9)]%string) /\
    let hf := fst (interleave h' (knows (VRef 0)) (knows (VRef 9))
      [(false, Load 1 0 "road"); (false, Load 1 1 "vehicles"); (false, Load 1 1 "0");
       (false, Const 2 (AFloat 30)); (false, Store 1 "speed" 2)]%string) in
    nth_error hf 12 = Some (Obj OPlain "MDPVehicle" [("road", VRef 10); ("speed", VAtom (AFloat 30)); ("position", VRef 13)]%string) /\
    nth_error hf 7 = nth_error rendered 7.
Proof.
  split; [exact rendered_closed|]. split; [vm_compute; reflexivity|].
  eexists. split; [vm_compute; reflexivity|]. split; [vm_compute; reflexivity|].
  split; [exists 12; repeat split; vm_compute; reflexivity|]. split; [vm_compute; reflexivity|].
  cbv zeta. split; vm_compute; reflexivity.
Qed.
Print Assumptions C52_nonvacuous.
