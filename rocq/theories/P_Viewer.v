(** Lemmas about rendering and the keyboard. *)
From Verif Require Import Prelude M_Utils M_Lane M_Road M_Vehicle M_Kinematics M_Control M_Behavior M_Regulation M_Action M_Env M_Graphics M_Viewer S_Graphics S_Viewer
  P_Base P_Utils P_Action P_Graphics T_Graphics.
From Coq Require Import Lia Lra.
Open Scope R_scope.
Open Scope list_scope.

(** ** Rendering without events *)
Lemma display_ok vc sc g vw vw' : display vc sc g vw = Ok vw' ->
  vw' = vw \/ (vc_enabled vc = true /\ exists sf, vw_shown vw' = Some (gu_env g, sf)).
Proof.
  unfold display. destruct (vc_enabled vc); cbn [negb].
  - intros E. apply bind_ok in E as (x & _ & E). injection E as <-. right. split; [reflexivity|]. eexists. reflexivity.
  - intros E. injection E as <-. now left.
Qed.
Lemma display_enabled vc sc g vw vw' : display vc sc g vw = Ok vw' -> vc_enabled vc = true -> exists sf, vw_shown vw' = Some (gu_env g, sf).
Proof. unfold display. intros E H. rewrite H in E. cbn [negb] in E. apply bind_ok in E as (x & _ & E). injection E as <-. eexists. reflexivity. Qed.

(** The viewer used by [render]. *)
Definition viewer_of (vc : view_config) (g : gui) : viewer := match gu_viewer g with Some vw => vw | None => new_viewer vc (gu_center g) end.
Lemma render_quiet vc sc draws g m g' x : render vc sc draws [] g m = Ok (g', x) ->
  gu_env g' = gu_env g /\ gu_last g' = gu_last g /\ gu_center g' = gu_center g /\ gu_callback g' = gu_callback g /\ gu_mode g' = m /\ gu_auto g' = true /\
  gu_should g' = (match m with Human => false | RgbArray => gu_should g end) /\
  exists vw, gu_viewer g' = Some vw /\ x = (match m with Human => None | RgbArray => Some (vw_shown vw) end) /\
    (gu_should g = false -> vw = viewer_of vc g) /\
    (gu_should g = true -> vc_enabled vc = true -> exists sf, vw_shown vw = Some (gu_env g, sf)).
Proof.
  unfold render, viewer_of. cbn [gu_viewer set_mode gu_should set_auto set_viewer gu_center]. set (vw := match gu_viewer g with Some vw => vw | None => new_viewer vc (gu_center g) end).
  intros E. apply bind_ok in E as (vw1 & D & E). apply bind_ok in E as (g4 & E4 & E).
  assert (X : g4 = set_viewer (set_auto (set_viewer (set_mode g m) (Some vw)) true) (Some vw1)).
  { destruct (vc_offscreen vc); [now injection E4 as <-|]. cbn [handle_events bind gu_viewer set_viewer] in E4. injection E4 as <-. reflexivity. }
  subst g4. cbn [gu_viewer set_viewer] in E.
  assert (V1 : gu_should g = false -> vw1 = vw) by (intros Hs; rewrite Hs in D; now injection D as <-).
  assert (V2 : gu_should g = true -> vc_enabled vc = true -> exists sf, vw_shown vw1 = Some (gu_env g, sf)) by (intros Hs He; rewrite Hs in D; exact (display_enabled _ _ _ _ _ D He)).
  destruct m; injection E as <- <-; cbn [gu_env gu_last gu_center gu_callback gu_mode gu_auto gu_should gu_viewer set_viewer set_auto set_mode set_should]; do 7 (split; [reflexivity|]); exists vw1; auto.
Qed.

(** Rendering never fails when drawing cannot. *)
Lemma display_total vc sc g vw : 3 <= sc_simulation sc -> exists vw', display vc sc g vw = Ok vw'.
Proof.
  intros H. unfold display. destruct (vc_enabled vc); cbn [negb]; [|eauto].
  destruct (C103_scene_total (vc_colors vc) (move_display_window_to (set_view (vw_surface vw) (sf_scaling (vw_surface vw)) (gu_center g)) (window_position (gu_env g))) (e_road (gu_env g)) (sc_simulation sc) (or_intror H)) as [x E].
  rewrite E. cbn [bind]. eauto.
Qed.
Lemma render_total vc sc draws g m : 3 <= sc_simulation sc -> exists g' x, render vc sc draws [] g m = Ok (g', x).
Proof.
  intros H. unfold render. cbn [gu_viewer set_mode gu_should set_auto set_viewer gu_center]. set (vw := match gu_viewer g with Some vw => vw | None => _ end).
  assert (D : exists vw1, (if gu_should g then display vc sc (set_auto (set_viewer (set_mode g m) (Some vw)) true) vw else Ok vw) = Ok vw1) by (destruct (gu_should g); [now apply display_total | eauto]).
  destruct D as [vw1 ->]. cbn [bind]. destruct (vc_offscreen vc); cbn [bind handle_events gu_viewer set_viewer]; destruct m; eexists _, _; reflexivity.
Qed.

Lemma auto_quiet vc sc draws g g' : automatic_rendering vc sc draws [] g = Ok g' ->
  gu_env g' = gu_env g /\ gu_last g' = gu_last g /\ gu_center g' = gu_center g /\ gu_callback g' = gu_callback g /\ gu_auto g' = gu_auto g /\
  (gu_viewer g = None \/ gu_auto g = false -> g' = g) /\
  (gu_viewer g <> None -> gu_auto g = true -> gu_viewer g' <> None /\ (vc_enabled vc = true -> exists sf, shows g' (Some (gu_env g, sf))) /\
    gu_should g' = (match (match gu_callback g with Some m => m | None => gu_mode g end) with Human => false | RgbArray => true end) /\
    gu_mode g' = (match gu_callback g with Some m => m | None => gu_mode g end)).
Proof.
  unfold automatic_rendering. destruct (gu_viewer g) as [vw|] eqn:V; [|intros E; injection E as <-; rewrite V; do 5 (split; [reflexivity|]); split; [reflexivity | congruence]].
  destruct (gu_auto g) eqn:A; [|intros E; injection E as <-; do 4 (split; [reflexivity|]); split; [exact A|]; split; [reflexivity | congruence]].
  intros E. apply bind_ok in E as ([g2 x] & E & E2). injection E2 as <-. cbn [gu_callback gu_mode set_should] in E.
  apply render_quiet in E as (R1 & R2 & R3 & R4 & R5 & R6 & R7 & vw' & R8 & R9 & _ & R10). cbn [gu_env gu_last gu_center gu_callback gu_should set_should] in *.
  do 4 (split; [assumption|]). split; [exact R6|]. split; [intros [?|?]; congruence|]. intros _ _. split; [congruence|]. split; [|split; [|exact R5]].
  - intros He. destruct (R10 eq_refl He) as [sf S]. exists sf, vw'. auto.
  - rewrite R7. now destruct (match gu_callback g with Some m => m | None => gu_mode g end).
Qed.
Lemma auto_total vc sc draws g : 3 <= sc_simulation sc -> exists g', automatic_rendering vc sc draws [] g = Ok g'.
Proof.
  intros H. unfold automatic_rendering. destruct (gu_viewer g) as [vw|]; [|eauto]. destruct (gu_auto g); [|eauto].
  destruct (render_total vc sc draws (set_should g true) (match gu_callback (set_should g true) with Some m => m | None => gu_mode (set_should g true) end) H) as (g' & x & ->). cbn [bind]. eauto.
Qed.

Lemma gui_forward_ok sc o g a g' : gui_forward sc o g a = Ok g' ->
  forward sc o (gu_env g) a = Ok (gu_env g') /\ gu_viewer g' = gu_viewer g /\ gu_auto g' = gu_auto g /\ gu_should g' = gu_should g /\ gu_mode g' = gu_mode g /\ gu_callback g' = gu_callback g /\ gu_center g' = gu_center g.
Proof.
  unfold gui_forward. intros E. apply bind_ok in E as (e & F & E).
  assert (X : g' = set_genv g e \/ exists l, g' = set_last (set_genv g e) l).
  { destruct (sc_action sc) as [[|c]|]; [now injection E as <-; left | | now injection E as <-; left].
    destruct a as [[| |]|]; try (now injection E as <-; left). destruct (_ && _); injection E as <-; [right; eauto | now left]. }
  destruct X as [-> | [l ->]]; cbn; auto 10.
Qed.
Lemma gui_forward_total sc o g a e : forward sc o (gu_env g) a = Ok e -> exists g', gui_forward sc o g a = Ok g' /\ gu_env g' = e.
Proof.
  intros F. unfold gui_forward. rewrite F. cbn [bind]. destruct (sc_action sc) as [[|c]|]; [eexists; split; reflexivity | | eexists; split; reflexivity].
  destruct a as [[| |]|]; try (eexists; split; reflexivity). destruct (_ && _); eexists; split; reflexivity.
Qed.

(** Stepping with rendering simulates what stepping alone does. *)
Lemma gui_frames_env vc sc o u a : (forall t, us_events u t = []) -> forall n g g', gui_frames vc sc o u n g a = Ok g' ->
  simulate_frames sc o n (gu_env g) a = Ok (gu_env g').
Proof.
  intros Q. induction n as [|n IH]; intros g g' E; cbn [gui_frames simulate_frames] in *; [now injection E as <-|].
  apply bind_ok in E as (g1 & F & E). apply gui_forward_ok in F as (F & _). rewrite F. cbn [bind].
  apply bind_ok in E as (e2 & Fr & E). rewrite Fr. cbn [bind]. apply bind_ok in E as (g3 & A & E). rewrite Q in A. apply auto_quiet in A as (A & _). cbn [gu_env set_genv] in A. rewrite A in *.
  destruct (e_done e2); [injection E as <-; congruence|]. apply bind_ok in E as (t & T & E). rewrite T. cbn [bind]. destruct t; [injection E as <-; congruence|].
  rewrite <- A. now apply IH.
Qed.
Lemma gui_frames_total vc sc o u a : (forall t, us_events u t = []) -> 3 <= sc_simulation sc -> forall n g e, simulate_frames sc o n (gu_env g) a = Ok e ->
  exists g', gui_frames vc sc o u n g a = Ok g' /\ gu_env g' = e.
Proof.
  intros Q H3. induction n as [|n IH]; intros g e E; cbn [gui_frames simulate_frames] in *; [injection E as <-; eauto|].
  apply bind_ok in E as (e1 & F & E). destruct (gui_forward_total _ _ _ _ _ F) as (g1 & -> & E1). cbn [bind]. rewrite E1.
  apply bind_ok in E as (e2 & Fr & E). rewrite Fr. cbn [bind]. rewrite Q. destruct (auto_total vc sc (us_draws u (e_time e2)) (set_genv g1 e2) H3) as [g3 A]. rewrite A. cbn [bind].
  apply auto_quiet in A as (A & _). cbn [gu_env set_genv] in A. rewrite A. destruct (e_done e2); [injection E as <-; eauto|].
  apply bind_ok in E as (t & T & E). rewrite T. cbn [bind]. destruct t; [injection E as <-; eauto|]. apply IH. now rewrite A.
Qed.

(** A property of the rendering attributes kept by a simulation. *)
Lemma gui_frames_keep vc sc o u a (Qs : list event -> Prop) (P : gui -> Prop) : (forall t, Qs (us_events u t)) ->
  (forall g e l, P g -> P (set_last (set_genv g e) l)) ->
  (forall draws es g g', Qs es -> P g -> automatic_rendering vc sc draws es g = Ok g' -> P g') ->
  forall n g g', P g -> gui_frames vc sc o u n g a = Ok g' -> P g'.
Proof.
  intros Q K1 K2. assert (K0 : forall g e, P g -> P (set_genv g e)) by (intros g e H; exact (K1 g e (gu_last g) H)).
  induction n as [|n IH]; intros g g' H E; cbn [gui_frames] in E; [now injection E as <-|].
  apply bind_ok in E as (g1 & F & E). assert (H1 : P g1).
  { unfold gui_forward in F. apply bind_ok in F as (e & _ & F). destruct (sc_action sc) as [[|c]|]; [injection F as <-; now apply K0 | | injection F as <-; now apply K0].
    destruct a as [[| |]|]; try (injection F as <-; now apply K0). destruct (_ && _); injection F as <-; [now apply K1 | now apply K0]. }
  apply bind_ok in E as (e2 & Fr & E). apply bind_ok in E as (g3 & A & E). assert (H3 : P g3) by (eapply K2; [apply Q | apply K0; exact H1 | exact A]).
  destruct (e_done (gu_env g3)); [now injection E as <-|]. apply bind_ok in E as (t & T & E). destruct t; [now injection E as <-|]. exact (IH _ _ H3 E).
Qed.

Lemma gui_frames_S vc sc o u n g a : gui_frames vc sc o u (S n) g a =
  (do g1 <- gui_forward sc o g a;
   do e2 <- frame sc o (gu_env g1);
   do g3 <- automatic_rendering vc sc (us_draws u (e_time e2)) (us_events u (e_time e2)) (set_genv g1 e2);
   if e_done (gu_env g3) then Ok g3
   else do t <- sc_terminal sc (gu_env g3); if t then Ok g3 else gui_frames vc sc o u n g3 a).
Proof. reflexivity. Qed.
Lemma gui_frames_shows vc sc o u a : (forall t, us_events u t = []) -> vc_enabled vc = true -> forall n g g', gu_viewer g <> None -> gu_auto g = true ->
  gui_frames vc sc o u (S n) g a = Ok g' -> exists sf, shows g' (Some (gu_env g', sf)).
Proof.
  intros Q He. induction n as [|n IH]; intros g g' V A E; rewrite gui_frames_S in E;
  apply bind_ok in E as (g1 & Fo & E); apply gui_forward_ok in Fo as (_ & V1 & A1 & _); apply bind_ok in E as (e2 & _ & E); apply bind_ok in E as (g3 & AR & E); rewrite Q in AR;
  apply auto_quiet in AR as (E3 & _ & _ & _ & A3 & _ & R); cbn [gu_env gu_auto gu_viewer set_genv] in *;
  destruct R as (V3 & Sh & _); try congruence; destruct (Sh He) as [sf S3];
  (destruct (e_done (gu_env g3)); [injection E as <-; exists sf; now rewrite E3|]); apply bind_ok in E as (t & _ & E); (destruct t; [injection E as <-; exists sf; now rewrite E3|]).
  - cbn [gui_frames] in E. injection E as <-. exists sf. now rewrite E3.
  - apply (IH g3); [exact V3 | congruence | exact E].
Qed.

(** ** Events *)
Lemma keyboard_keeps sc draws g e g' : keyboard sc draws g e = Ok g' ->
  gu_viewer g' = gu_viewer g /\ gu_auto g' = gu_auto g /\ gu_should g' = gu_should g /\ gu_mode g' = gu_mode g /\ gu_callback g' = gu_callback g /\ gu_center g' = gu_center g /\
  e_done (gu_env g') = e_done (gu_env g) /\ e_time (gu_env g') = e_time (gu_env g) /\ e_steps (gu_env g') = e_steps (gu_env g) /\ e_controlled (gu_env g') = e_controlled (gu_env g).
Proof.
  assert (K : forall a, gui_act sc draws g a = Ok g' -> gu_viewer g' = gu_viewer g /\ gu_auto g' = gu_auto g /\ gu_should g' = gu_should g /\ gu_mode g' = gu_mode g /\ gu_callback g' = gu_callback g /\ gu_center g' = gu_center g /\
    e_done (gu_env g') = e_done (gu_env g) /\ e_time (gu_env g') = e_time (gu_env g) /\ e_steps (gu_env g') = e_steps (gu_env g) /\ e_controlled (gu_env g') = e_controlled (gu_env g)).
  { intros a E. unfold gui_act in E. apply bind_ok in E as (rd & _ & E).
    destruct (sc_action sc) as [[|c]|]; [injection E as <-; cbn; auto 12 | | injection E as <-; cbn; auto 12]. destruct a; injection E as <-; cbn; auto 12. }
  unfold keyboard. destruct (sc_action sc) as [[lo la|c]|] eqn:T.
  - destruct (discrete_key lo la e); [|intros E; injection E as <-; auto 12]. intros E. apply bind_ok in E as (t & _ & E). apply bind_ok in E as (k & _ & E). now apply K in E.
  - intros E. apply bind_ok in E as (x & _ & E). now apply K in E.
  - intros E. injection E as <-. auto 12.
Qed.
Lemma handle_events_ok sc draws : forall es g vw g' vw', handle_events sc draws g vw es = Ok (g', vw') ->
  gu_auto g' = gu_auto g /\ gu_should g' = gu_should g /\ gu_mode g' = gu_mode g /\ gu_callback g' = gu_callback g /\
  e_time (gu_env g') = e_time (gu_env g) /\ e_steps (gu_env g') = e_steps (gu_env g) /\ e_controlled (gu_env g') = e_controlled (gu_env g) /\ vw_shown vw' = vw_shown vw /\
  (In Quit es -> gu_viewer g' = None /\ e_done (gu_env g') = true) /\
  (~ In Quit es -> gu_viewer g' = gu_viewer g /\ e_done (gu_env g') = e_done (gu_env g)) /\
  (gu_viewer g = None -> gu_viewer g' = None) /\ (e_done (gu_env g) = true -> e_done (gu_env g') = true) /\
  gu_center g' = sf_center (fold_left surface_event es (set_view (vw_surface vw) (sf_scaling (vw_surface vw)) (gu_center g))) /\
  sf_scaling (vw_surface vw') = sf_scaling (fold_left surface_event es (set_view (vw_surface vw) (sf_scaling (vw_surface vw)) (gu_center g))).
Proof.
  induction es as [|e es IH]; intros g vw g' vw' E; cbn [handle_events] in E.
  - injection E as <- <-. cbn. do 8 (split; [reflexivity|]). split; [easy|]. split; [auto|]. auto.
  - apply bind_ok in E as (g3 & K & E). apply keyboard_keeps in K as (K1 & K2 & K3 & K4 & K5 & K6 & K7 & K8 & K9 & K10).
    apply IH in E as (I1 & I2 & I3 & I4 & I5 & I6 & I7 & I8 & I9 & I10 & I11 & I12 & I13 & I14). cbn [vw_shown vw_surface] in *.
    set (gq := match e with Quit => gui_close g | _ => g end) in *.
    assert (G : gu_auto gq = gu_auto g /\ gu_should gq = gu_should g /\ gu_mode gq = gu_mode g /\ gu_callback gq = gu_callback g /\ gu_center gq = gu_center g /\
      e_time (gu_env gq) = e_time (gu_env g) /\ e_steps (gu_env gq) = e_steps (gu_env g) /\ e_controlled (gu_env gq) = e_controlled (gu_env g) /\
      (e = Quit -> gu_viewer gq = None /\ e_done (gu_env gq) = true) /\ (e <> Quit -> gu_viewer gq = gu_viewer g /\ e_done (gu_env gq) = e_done (gu_env g)) /\
      (gu_viewer g = None -> gu_viewer gq = None) /\ (e_done (gu_env g) = true -> e_done (gu_env gq) = true)).
    { unfold gq. destruct e; cbn; try (do 8 (split; [reflexivity|]); split; [discriminate|]; auto). do 8 (split; [reflexivity|]). split; [auto|]. split; [congruence|]. auto. }
    destruct G as (G1 & G2 & G3 & G4 & G5 & G6 & G7 & G8 & G9 & G10 & G11 & G12).
    cbn [gu_viewer gu_auto gu_should gu_mode gu_callback gu_center gu_env set_gcenter] in *. rewrite K6 in I13, I14.
    assert (SE : forall x : surface, set_view x (sf_scaling x) (sf_center x) = x) by (intros []; reflexivity).
    rewrite SE in I13, I14. rewrite G5 in I13, I14. cbn [fold_left].
    do 4 (split; [congruence|]). do 3 (split; [congruence|]). split; [exact I8|].
    split; [|split; [|split; [|split; [|split; [exact I13 | exact I14]]]]].
    + intros [-> |Hq]; [|exact (I9 Hq)]. destruct (G9 eq_refl) as [Q1 Q2]. split; [apply I11; congruence | apply I12; congruence].
    + intros Hn. assert (e <> Quit) by (intros ->; apply Hn; now left). destruct (G10 H) as [Q1 Q2]. destruct I10 as [Q3 Q4]; [intros Hq; apply Hn; now right|]. split; congruence.
    + intros Hv. apply I11. rewrite K1. auto.
    + intros Hv. apply I12. rewrite K7. auto.
Qed.

(** The steps of [render]. *)
Lemma render_ok vc sc draws es g m g' x : render vc sc draws es g m = Ok (g', x) -> exists vw1 g4,
  (if gu_should g then display vc sc (set_auto (set_viewer (set_mode g m) (Some (viewer_of vc g))) true) (viewer_of vc g) else Ok (viewer_of vc g)) = Ok vw1 /\
  (let g3 := set_viewer (set_auto (set_viewer (set_mode g m) (Some (viewer_of vc g))) true) (Some vw1) in
   if vc_offscreen vc then g4 = g3
   else exists g5 vw2, handle_events sc draws g3 vw1 es = Ok (g5, vw2) /\ g4 = (match gu_viewer g5 with None => g5 | Some _ => set_viewer g5 (Some vw2) end)) /\
  (match m with Human => g' = set_should g4 false /\ x = None
              | RgbArray => g' = g4 /\ exists vw3, gu_viewer g4 = Some vw3 /\ x = Some (vw_shown vw3) end).
Proof.
  unfold render, viewer_of. cbn [gu_viewer set_mode gu_should set_auto set_viewer gu_center]. intros E. apply bind_ok in E as (vw1 & D & E). apply bind_ok in E as (g4 & E4 & E).
  exists vw1, g4. split; [exact D|]. split.
  - cbv zeta. destruct (vc_offscreen vc); [now injection E4 as <-|]. apply bind_ok in E4 as ([g5 vw2] & E5 & E4). injection E4 as <-. eauto.
  - destruct m; [now injection E as <- <-|]. destruct (gu_viewer g4) as [vw3|] eqn:V; [|discriminate]. injection E as <- <-. eauto.
Qed.

Lemma render_facts vc sc draws es g m g' x : render vc sc draws es g m = Ok (g', x) ->
  gu_callback g' = gu_callback g /\ gu_mode g' = m /\ gu_auto g' = true /\ gu_should g' = (match m with Human => false | RgbArray => gu_should g end) /\
  (m = RgbArray -> gu_viewer g' <> None) /\
  (forall vw, gu_viewer g' = Some vw -> x = (match m with Human => None | RgbArray => Some (vw_shown vw) end) /\
    (gu_should g = false -> vw_shown vw = vw_shown (viewer_of vc g)) /\
    (gu_should g = true -> vc_enabled vc = true -> exists sf, vw_shown vw = Some (gu_env g, sf))).
Proof.
  intros E. apply render_ok in E as (vw1 & g4 & D & H & F). cbv zeta in H.
  assert (V1 : gu_should g = false -> vw1 = viewer_of vc g) by (intros Hs; rewrite Hs in D; now injection D as <-).
  assert (V2 : gu_should g = true -> vc_enabled vc = true -> exists sf, vw_shown vw1 = Some (gu_env g, sf)) by (intros Hs He; rewrite Hs in D; exact (display_enabled _ _ _ _ _ D He)).
  assert (X : gu_callback g4 = gu_callback g /\ gu_mode g4 = m /\ gu_auto g4 = true /\ gu_should g4 = gu_should g /\ (forall vw, gu_viewer g4 = Some vw -> vw_shown vw = vw_shown vw1)).
  { destruct (vc_offscreen vc).
    - subst g4. cbn. do 4 (split; [reflexivity|]). intros vw E. now injection E as <-.
    - destruct H as (g5 & vw2 & H & ->). apply handle_events_ok in H as (H1 & H2 & H3 & H4 & _ & _ & _ & H8 & _). cbn in H1, H2, H3, H4. destruct (gu_viewer g5) eqn:V5; cbn [gu_callback gu_mode gu_auto gu_should set_viewer gu_viewer]; do 4 (split; [assumption|]).
      + intros vw E. now injection E as <-.
      + congruence. }
  destruct X as (X1 & X2 & X3 & X4 & X5). destruct m.
  - destruct F as [-> ->]. cbn [gu_callback gu_mode gu_auto gu_should set_should gu_viewer]. do 3 (split; [assumption|]). split; [reflexivity|]. split; [discriminate|]. intros vw V. split; [reflexivity|]. rewrite (X5 _ V).
    split; [intros Hs; now rewrite V1 | exact V2].
  - destruct F as [-> (vw3 & V & ->)]. do 4 (split; [assumption|]). split; [congruence|]. intros vw V'. rewrite V in V'. injection V' as <-. split; [reflexivity|]. rewrite (X5 _ V). split; [intros Hs; now rewrite V1 | exact V2].
Qed.
Lemma auto_facts vc sc draws es g g' : automatic_rendering vc sc draws es g = Ok g' ->
  g' = g \/ (gu_callback g' = gu_callback g /\ let m := (match gu_callback g with Some m => m | None => gu_mode g end) in gu_mode g' = m /\ gu_viewer g <> None /\ gu_should g' = (match m with Human => false | RgbArray => true end)).
Proof.
  unfold automatic_rendering. destruct (gu_viewer g) as [vw|] eqn:V; [|intros E; injection E as <-; now left]. destruct (gu_auto g); [|intros E; injection E as <-; now left].
  intros E. apply bind_ok in E as ([g2 x] & E & E2). injection E2 as <-. apply render_facts in E as (E1 & E2 & _ & E4 & _). cbn [gu_callback gu_mode gu_should set_should] in *. right. split; [assumption|].
  cbv zeta. split; [assumption|]. split; [discriminate | assumption].
Qed.
Lemma gui_step_frames vc sc o u g a g' : gui_step vc sc o u g a = Ok g' ->
  exists g1, gui_frames vc sc o u (Z.to_nat (frames_per_step sc)) (set_genv g (count_step (gu_env g))) (Some a) = Ok g1 /\ g' = set_auto g1 false.
Proof.
  unfold gui_step, gui_simulate. destruct (e_controlled (gu_env g)); [discriminate|]. destruct (Reqb _ _); [discriminate|]. intros E. apply bind_ok in E as (g1 & E & E2). injection E2 as <-. eauto.
Qed.
