(** Specification vocabulary: sessions with a window and a keyboard. *)
From Verif Require Import Prelude M_Utils M_Vehicle M_Action M_Env M_Graphics M_Viewer.
Open Scope R_scope.

(** Positions of the pedals and of the wheel after some keyboard events: decided by the
    last event about one of the two keys, whatever happens to the other. *)
Definition pedal (x : R) (e : event) : R :=
  match e with KeyDown KUp => 7/10 | KeyDown KDown => - (7/10) | KeyUp KUp | KeyUp KDown => 0 | _ => x end.
Definition wheel (x : R) (e : event) : R :=
  match e with KeyDown KRight => 7/10 | KeyDown KLeft => - (7/10) | KeyUp KRight | KeyUp KLeft => 0 | _ => x end.
(** The events of a list are handled one after the other. *)
Inductive typed (sc : scenario) : gui -> list event -> gui -> Prop :=
| typed_nil : forall g, typed sc g [] g
| typed_cons : forall g e es draws g1 g2, keyboard sc draws g e = Ok g1 -> typed sc g1 es g2 -> typed sc g (e :: es) g2.

(** What a user does with an environment. *)
Inductive rop : Type := OpStep (a : agent_action) | OpRender (m : rmode) | OpReset (scene : env) | OpClose.
(** A session, with the state at each call of [render] and what the call returned.  In
    [quiet] sessions no event occurs. *)
Inductive viewed (vc : view_config) (sc : scenario) (quiet : bool) : gui -> list rop -> list (env * rmode * option (option picture)) -> gui -> Prop :=
| viewed_nil : forall g, viewed vc sc quiet g [] [] g
| viewed_step : forall g a o u g1 ops out g2, (quiet = true -> forall t, us_events u t = []) -> gui_step vc sc o u g a = Ok g1 ->
    viewed vc sc quiet g1 ops out g2 -> viewed vc sc quiet g (OpStep a :: ops) out g2
| viewed_render : forall g m draws es x g1 ops out g2, (quiet = true -> es = []) -> render vc sc draws es g m = Ok (g1, x) ->
    viewed vc sc quiet g1 ops out g2 -> viewed vc sc quiet g (OpRender m :: ops) ((gu_env g, m, x) :: out) g2
| viewed_reset : forall g scene ops out g2, viewed vc sc quiet (gui_reset sc g scene) ops out g2 -> viewed vc sc quiet g (OpReset scene :: ops) out g2
| viewed_close : forall g ops out g2, viewed vc sc quiet (gui_close g) ops out g2 -> viewed vc sc quiet g (OpClose :: ops) out g2.
Definition is_rendering (o : rop) : bool := match o with OpRender _ => true | _ => false end.
Definition steps_or_resets (o : rop) : bool := match o with OpStep _ | OpReset _ => true | _ => false end.
(** The frame in the window. *)
Definition shows (g : gui) (p : option picture) : Prop := exists vw, gu_viewer g = Some vw /\ vw_shown vw = p.
