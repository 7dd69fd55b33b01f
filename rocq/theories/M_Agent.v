(** Model of envs/common/graphics.py:50-81, 92-142 and vehicle/graphics.py:111-121: what an
    agent can show in the window - its plan and its own panel. *)
From Verif Require Import Prelude M_Utils M_Lane M_Road M_Vehicle M_Kinematics M_Control M_Behavior M_Regulation M_Action M_Env M_Graphics.
Open Scope R_scope.
Open Scope list_scope.

(** The class attribute [ACTIONS] of an environment: only intersection_env.py:19-23 has
    one, with the three actions on the speed. *)
Definition env_ACTIONS (intersection : bool) : option (list (Z * meta_action)) :=
  if intersection then Some ACTIONS_LONGI else None.
(** envs/common/graphics.py:75-76.  When the actions are tuples they are left as they are;
    [MDPVehicle.act] (controller.py:220-237, 77-99) recognises no label in them, which is
    what IDLE does.  (Vectors of continuous actions are never used: below, those vehicles
    have no [predict_trajectory].) *)
Definition plan_labels (acts : option (list (Z * meta_action))) (t : action_type) (l : list agent_action) : res (list meta_action) :=
  match t with
  | Single (Discrete _ _) =>
      mapM (fun a => match acts, a with
                     | None, _ => Err AttributeError
                     | Some tb, ActInt k => action_of tb k
                     | Some _, _ => Err TypeError
                     end) l
  | _ => Ok (map (fun _ => IDLE) l)
  end.
(** envs/common/graphics.py:69-81 [set_agent_action_sequence]; [old] is the trajectory
    shown so far.  The attribute [predict_trajectory] is looked up before the arguments are
    evaluated. *)
Definition set_action_sequence (intersection : bool) (sc : scenario) (draw : nat -> nat) (e : env) (old : list vehicle) (l : list agent_action)
  : res (list vehicle) :=
  do ms <- plan_labels (env_ACTIONS intersection) (sc_action sc) l;
  if (1 <? List.length ms)%nat then
    do v <- ego e;
    match v_kind v with
    | KMDP =>
        if Reqb (sc_policy sc) 0 then Err ZeroDivisionError
        else if Reqb (sc_simulation sc) 0 then Err ZeroDivisionError
        else predict_trajectory (rd_net (e_road e)) draw v ms (1 / sc_policy sc) (1 / 3 / sc_policy sc) (1 / sc_simulation sc)
    | _ => Err AttributeError
    end
  else Ok old.

(** vehicle/graphics.py:111-121 [display_trajectory]. *)
Definition draw_plan (own : nat -> option color) (sf : surface) (states : list vehicle) : list order :=
  flat_map (fun v => draw_body sf (vehicle_color (own (v_id v)) (v_kind v) (v_crashed v)) true (v_pos v) (v_heading v)) states.
(** envs/common/graphics.py:92-131 [display], with a plan. *)
Definition draw_scene_with (own : nat -> option color) (sf : surface) (rd : road) (simulation : R) (plan : list vehicle) : res (list order) :=
  do t <- draw_traffic own sf rd simulation;
  Ok (draw_road sf (rd_net rd) ++ draw_plan own sf plan ++ draw_objects sf rd ++ t).

(** ** The panel of the agent *)
(** envs/common/graphics.py:33-34, 58-65: size of the screen, without and with a panel. *)
Definition screen_size (panel : bool) (w h : Z) : Z * Z :=
  if panel then if (h <? w)%Z then (w, 2 * h)%Z else (2 * w, h)%Z else (w, h).
(** envs/common/graphics.py:115-118, 127: where the two surfaces are copied. *)
Definition simulation_at : Z * Z := (0, 0)%Z.
Definition panel_at (w h : Z) : Z * Z := if (h <? w)%Z then (0, h)%Z else (w, 0)%Z.
(** envs/common/graphics.py:136-140 [get_image]: size of the image, width first, before the
    exchange of the axes. *)
Definition image_size (panel render_agent offscreen : bool) (w h : Z) : Z * Z :=
  if render_agent && negb offscreen then screen_size panel w h else (w, h).
