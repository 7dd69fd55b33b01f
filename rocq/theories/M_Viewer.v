(** Model of envs/common/graphics.py and of the rendering parts of envs/common/abstract.py:
    the window, the keyboard, and when frames are drawn. *)
From Verif Require Import Prelude M_Utils M_Lane M_Road M_Vehicle M_Kinematics M_Control M_Behavior M_Regulation M_Action M_Env M_Graphics.
Open Scope R_scope.

(** The modes of [render] (abstract.py:33). *)
Inductive rmode : Type := Human | RgbArray.
(** Configuration used by the viewer (abstract.py:97-109). *)
Record view_config : Type := ViewConfig {
  vc_width : Z;
  vc_height : Z;
  vc_scaling : R;
  vc_offscreen : bool;                 (* config["offscreen_rendering"] *)
  vc_enabled : bool;                   (* False when SDL_VIDEODRIVER is "dummy" *)
  vc_colors : nat -> option color }.   (* attribute [color] of the vehicles *)
(** What a drawn frame shows: the state of the environment and the view. *)
Definition picture : Type := (env * surface)%type.
(** envs/common/graphics.py:22-49 [EnvViewer]: the surface and the last frame drawn. *)
Record viewer : Type := Viewer { vw_surface : surface; vw_shown : option picture }.
(** The environment with its rendering attributes (abstract.py:62-67), the last continuous
    action (action.py:106, 134), and the list config["centering_position"], which the
    surface shares (envs/common/graphics.py:37). *)
Record gui : Type := Gui {
  gu_env : env;
  gu_viewer : option viewer;
  gu_auto : bool;              (* enable_auto_render *)
  gu_should : bool;            (* should_update_rendering *)
  gu_mode : rmode;             (* rendering_mode *)
  gu_callback : option rmode;  (* automatic_rendering_callback: a recorder calling render(mode) *)
  gu_last : list R;            (* action_type.last_action *)
  gu_center : R * R }.
Definition set_genv (g : gui) (e : env) : gui :=
  Gui e (gu_viewer g) (gu_auto g) (gu_should g) (gu_mode g) (gu_callback g) (gu_last g) (gu_center g).
Definition set_viewer (g : gui) (v : option viewer) : gui :=
  Gui (gu_env g) v (gu_auto g) (gu_should g) (gu_mode g) (gu_callback g) (gu_last g) (gu_center g).
Definition set_auto (g : gui) (b : bool) : gui :=
  Gui (gu_env g) (gu_viewer g) b (gu_should g) (gu_mode g) (gu_callback g) (gu_last g) (gu_center g).
Definition set_should (g : gui) (b : bool) : gui :=
  Gui (gu_env g) (gu_viewer g) (gu_auto g) b (gu_mode g) (gu_callback g) (gu_last g) (gu_center g).
Definition set_mode (g : gui) (m : rmode) : gui :=
  Gui (gu_env g) (gu_viewer g) (gu_auto g) (gu_should g) m (gu_callback g) (gu_last g) (gu_center g).
Definition set_last (g : gui) (x : list R) : gui :=
  Gui (gu_env g) (gu_viewer g) (gu_auto g) (gu_should g) (gu_mode g) (gu_callback g) x (gu_center g).
Definition set_gcenter (g : gui) (c : R * R) : gui :=
  Gui (gu_env g) (gu_viewer g) (gu_auto g) (gu_should g) (gu_mode g) (gu_callback g) (gu_last g) c.

(** ** Keyboard: envs/common/graphics.py:157-205 *)
(** action.py:116-134: the vector remembered by a continuous action. *)
Definition remembered (c : continuous) (x : list R) : list R :=
  if ca_clip c then map (fun a => Rclip a (-1) 1) x else x.
(** [action[k] = x] on an array; out of range raises IndexError. *)
Definition set_coord (k : nat) (x : R) (a : list R) : res (list R) :=
  if (k <? List.length a)%nat then Ok (update_nth k x a) else Err IndexError.
(** envs/common/graphics.py:170-181 [handle_discrete_action_event]: the label sent. *)
Definition discrete_key (lo la : bool) (e : event) : option meta_action :=
  match e with
  | KeyDown KRight => if lo then Some FASTER else None
  | KeyDown KLeft => if lo then Some SLOWER else None
  | KeyDown KDown => if la then Some LANE_RIGHT else None
  | KeyDown KUp => Some LANE_LEFT
  | _ => None
  end.
(** envs/common/graphics.py:183-205 [handle_continuous_action_event]: the new vector. *)
Definition continuous_key (c : continuous) (e : event) (a : list R) : res (list R) :=
  let st := (continuous_size c - 1)%nat in
  match e with
  | KeyDown KRight => if ca_lateral c then set_coord st (7/10) a else Ok a
  | KeyDown KLeft => if ca_lateral c then set_coord st (- (7/10)) a else Ok a
  | KeyDown KDown => if ca_longitudinal c then set_coord 0 (- (7/10)) a else Ok a
  | KeyDown KUp => if ca_longitudinal c then set_coord 0 (7/10) a else Ok a
  | KeyUp KRight | KeyUp KLeft => if ca_lateral c then set_coord st 0 a else Ok a
  | KeyUp KDown | KeyUp KUp => if ca_longitudinal c then set_coord 0 0 a else Ok a
  | _ => Ok a
  end.
(** [self.action_type.act(x)] called by the viewer. *)
Definition gui_act (sc : scenario) (draws : nat -> nat -> nat) (g : gui) (a : agent_action) : res gui :=
  do rd <- action_act (sc_action sc) draws (e_road (gu_env g)) (e_controlled (gu_env g)) a;
  let g1 := set_genv g (set_road (gu_env g) rd) in
  match sc_action sc, a with
  | Single (Continuous c), ActVec x => Ok (set_last g1 (remembered c x))
  | _, _ => Ok g1
  end.
(** envs/common/graphics.py:155-168 [EventHandler.handle_event]. *)
Definition keyboard (sc : scenario) (draws : nat -> nat -> nat) (g : gui) (e : event) : res gui :=
  match sc_action sc with
  | Single (Discrete lo la) =>
      match discrete_key lo la e with
      | None => Ok g
      | Some m => do t <- meta_table lo la; do k <- index_of t m; gui_act sc draws g (ActInt k)
      end
  | Single (Continuous c) => do a <- continuous_key c e (gu_last g); gui_act sc draws g (ActVec a)
  | Multi _ => Ok g
  end.

(** ** The viewer *)
(** abstract.py:256-265 [close]. *)
Definition gui_close (g : gui) : gui := set_viewer (set_genv g (close (gu_env g))) None.
(** envs/common/graphics.py:82-90 [handle_events]: [vw] is the viewer object running the
    loop, which survives the closing of the environment; [draws] by event. *)
Fixpoint handle_events (sc : scenario) (draws : nat -> nat -> nat -> nat) (g : gui) (vw : viewer) (es : list event) : res (gui * viewer) :=
  match es with
  | [] => Ok (g, vw)
  | e :: es' =>
      let g1 := match e with Quit => gui_close g | _ => g end in
      let sf := surface_event (set_view (vw_surface vw) (sf_scaling (vw_surface vw)) (gu_center g1)) e in
      let vw1 := Viewer sf (vw_shown vw) in
      let g2 := set_gcenter g1 (sf_center sf) in
      do g3 <- keyboard sc (draws (List.length es')) g2 e;
      handle_events sc draws g3 vw1 es'
  end.
(** envs/common/graphics.py:22-49, 139-144: a new viewer; [window_position]. *)
Definition new_viewer (vc : view_config) (center : R * R) : viewer :=
  Viewer (Surface (vc_width vc) (vc_height vc) (0, 0) (vc_scaling vc) center) None.
Definition window_position (e : env) : vec :=
  match ego e with Ok v => v_pos v | Err _ => (0, 0) end.
(** envs/common/graphics.py:92-131 [display]: drawing may raise. *)
Definition display (vc : view_config) (sc : scenario) (g : gui) (vw : viewer) : res viewer :=
  if negb (vc_enabled vc) then Ok vw
  else
    let sf := move_display_window_to (set_view (vw_surface vw) (sf_scaling (vw_surface vw)) (gu_center g)) (window_position (gu_env g)) in
    do _ <- draw_scene (vc_colors vc) sf (e_road (gu_env g)) (sc_simulation sc);
    Ok (Viewer sf (Some (gu_env g, sf))).
(** abstract.py:231-254 [render]; [es] are the events waiting in the queue.  Returns the
    image for rgb_array (None: a black surface on which nothing has been drawn).
    The scaling of 0 (a division by zero) is not considered. *)
Definition render (vc : view_config) (sc : scenario) (draws : nat -> nat -> nat -> nat) (es : list event) (g : gui) (m : rmode)
  : res (gui * option (option picture)) :=
  let g1 := set_mode g m in
  let vw := match gu_viewer g1 with Some vw => vw | None => new_viewer vc (gu_center g1) end in
  let g2 := set_auto (set_viewer g1 (Some vw)) true in
  do vw1 <- (if gu_should g2 then display vc sc g2 vw else Ok vw);
  let g3 := set_viewer g2 (Some vw1) in
  do g4 <- (if vc_offscreen vc then Ok g3
            else do (g', vw2) <- handle_events sc draws g3 vw1 es;
                 Ok (match gu_viewer g' with None => g' | Some _ => set_viewer g' (Some vw2) end));
  match m with
  | RgbArray => match gu_viewer g4 with
                | None => Err AttributeError
                | Some vw3 => Ok (g4, Some (vw_shown vw3))
                end
  | Human => Ok (set_should g4 false, None)
  end.
(** abstract.py:294-310 [_automatic_rendering]. *)
Definition automatic_rendering vc sc draws es (g : gui) : res gui :=
  match gu_viewer g with
  | Some _ =>
      if gu_auto g then
        let g1 := set_should g true in
        do (g2, _) <- render vc sc draws es g1 (match gu_callback g1 with Some m => m | None => gu_mode g1 end); Ok g2
      else Ok g
  | None => Ok g
  end.

(** ** Stepping with rendering: abstract.py:209-229 [_simulate]. *)
(** Events and their random draws, by simulation time. *)
Record user : Type := User { us_events : Z -> list event; us_draws : Z -> nat -> nat -> nat -> nat }.
Definition gui_forward (sc : scenario) (o : oracle) (g : gui) (a : option agent_action) : res gui :=
  do e <- forward sc o (gu_env g) a;
  let g1 := set_genv g e in
  match sc_action sc, a with
  | Single (Continuous c), Some (ActVec x) =>
      if negb (sc_manual sc) && Z.eqb (e_time (gu_env g) mod frames_per_step sc) 0 then Ok (set_last g1 (remembered c x)) else Ok g1
  | _, _ => Ok g1
  end.
Fixpoint gui_frames (vc : view_config) (sc : scenario) (o : oracle) (u : user) (n : nat) (g : gui) (a : option agent_action) : res gui :=
  match n with
  | O => Ok g
  | S n' =>
      do g1 <- gui_forward sc o g a;
      do e2 <- frame sc o (gu_env g1);
      do g3 <- automatic_rendering vc sc (us_draws u (e_time e2)) (us_events u (e_time e2)) (set_genv g1 e2);
      if e_done (gu_env g3) then Ok g3
      else do t <- sc_terminal sc (gu_env g3); if t then Ok g3 else gui_frames vc sc o u n' g3 a
  end.
Definition gui_simulate vc sc o u (g : gui) (a : option agent_action) : res gui :=
  if Reqb (sc_policy sc) 0 then Err ZeroDivisionError
  else do g1 <- gui_frames vc sc o u (Z.to_nat (frames_per_step sc)) g a; Ok (set_auto g1 false).
(** abstract.py:177-207 [step], without observation, reward and info. *)
Definition gui_step vc sc o u (g : gui) (a : agent_action) : res gui :=
  match e_controlled (gu_env g) with
  | [] => Err NotImplementedError
  | _ => gui_simulate vc sc o u (set_genv g (count_step (gu_env g))) (Some a)
  end.
(** abstract.py:156-168 [reset], with the new scene given: the action type is rebuilt, the
    rendering attributes stay. *)
Definition initial_last (t : action_type) : list R :=
  match t with Single (Continuous c) => repeat 0 (continuous_size c) | _ => [] end.
Definition gui_reset (sc : scenario) (g : gui) (scene : env) : gui :=
  set_last (set_genv g scene) (initial_last (sc_action sc)).
(** abstract.py:38-71: a new environment, after its first reset. *)
Definition gui_new (sc : scenario) (scene : env) (center : R * R) : gui :=
  Gui scene None false true Human None (initial_last (sc_action sc)) center.
