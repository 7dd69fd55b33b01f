(** Specification vocabulary for copies of environments. *)
From Verif Require Import Prelude M_Utils M_Lane M_Road M_Vehicle M_Control M_Behavior M_Action M_Env M_Scenes M_Nets M_Reset.
Open Scope R_scope.

(** [w] is another object than [v], with all the same attributes; [f] tells which
    object of the copy corresponds to which object of the original. *)
Record same_vehicle (f : nat -> nat) (v w : vehicle) : Prop := SameVehicle {
  sv_id : v_id w = f (v_id v);
  sv_kind : v_kind w = v_kind v;
  sv_position : v_pos w = v_pos v;
  sv_heading : v_heading w = v_heading v;
  sv_speed : v_speed w = v_speed v;
  sv_lane : v_lane_index w = v_lane_index v;
  sv_action : v_steering w = v_steering v /\ v_accel w = v_accel v;
  sv_crashed : v_crashed w = v_crashed v;
  sv_collisions : v_collisions w = v_collisions v;
  sv_history : v_history w = v_history v;
  sv_target_lane : v_target_lane w = v_target_lane v;
  sv_target_speed : v_target_speed w = v_target_speed v;
  sv_route : v_route w = v_route v;
  sv_speed_index : v_speed_index w = v_speed_index v;
  sv_grid : v_grid w = v_grid v;
  sv_enable : v_enable_lane_change w = v_enable_lane_change v;
  sv_timer : v_timer w = v_timer v;
  sv_par : v_par w = v_par v;
  sv_yield : v_is_yielding w = v_is_yielding v /\ v_yield_timer w = v_yield_timer v;
  sv_color : v_has_color w = v_has_color v }.
Record same_obstacle (f : nat -> nat) (a b : object) : Prop := SameObstacle {
  so_id : o_id b = f (o_id a);
  so_kind : o_kind b = o_kind a;
  so_position : o_pos b = o_pos a;
  so_speed : o_speed b = o_speed a;
  so_heading : o_heading b = o_heading a;
  so_hit : o_hit b = o_hit a }.
Record alike (f : nat -> nat) (e e' : env) : Prop := Alike {
  al_net : rd_net (e_road e') = rd_net (e_road e);
  al_vehicles : Forall2 (same_vehicle f) (rd_vehicles (e_road e)) (rd_vehicles (e_road e'));
  al_objects : Forall2 (same_obstacle f) (rd_objects (e_road e)) (rd_objects (e_road e'));
  al_record : rd_record (e_road e') = rd_record (e_road e) /\ rd_steps (e_road e') = rd_steps (e_road e);
  al_controlled : e_controlled e' = map f (e_controlled e);
  al_clock : e_time e' = e_time e /\ e_steps e' = e_steps e /\ e_done e' = e_done e }.
(** The objects of an environment. *)
Definition part_of (i : nat) (e : env) : Prop :=
  In i (e_controlled e) \/ (exists v, In v (rd_vehicles (e_road e)) /\ v_id v = i) \/
  (exists o, In o (rd_objects (e_road e)) /\ o_id o = i).

(** The random generator is copied too: corresponding vehicles draw the same numbers. *)
Definition same_numbers (f : nat -> nat) (o o' : oracle) : Prop :=
  (forall t i, o_act o' t (f i) = o_act o t i) /\ (forall t, o_road o' t = o_road o t).

(** Same outcome: the same exception, or environments that are alike. *)
Definition same_outcome (f : nat -> nat) (r r' : res env) : Prop :=
  match r, r' with
  | Ok e, Ok e' => alike f e e'
  | Err x, Err y => y = x
  | _, _ => False
  end.

(** A whole episode: the successive environments, and the exception that ended it, if
    any.  The inputs of a step: class attributes of the process, random numbers, action. *)
Record step_input : Type := StepInput { in_classes : classes; in_oracle : oracle; in_draws : draws; in_action : agent_action }.
Fixpoint play_out (cf : common) (s : scene) (sc : scenario) (e : env) (xs : list step_input) : list env * option exn :=
  match xs with
  | [] => ([], None)
  | x :: xs' =>
      match scene_step (in_classes x) cf s sc (in_oracle x) (in_draws x) (seen_env (in_classes x) cf s e) (in_action x) with
      | Ok e' => let '(l, r) := play_out cf s sc e' xs' in (e' :: l, r)
      | Err r => ([], Some r)
      end
  end.
Definition same_input (f : nat -> nat) (x y : step_input) : Prop :=
  in_classes y = in_classes x /\ same_numbers f (in_oracle x) (in_oracle y) /\ in_draws y = in_draws x /\ in_action y = in_action x.

(** Everything but the vehicles is as in the original. *)
Record same_scene (f : nat -> nat) (e e' : env) : Prop := SameScene {
  ss_net : rd_net (e_road e') = rd_net (e_road e);
  ss_objects : Forall2 (same_obstacle f) (rd_objects (e_road e)) (rd_objects (e_road e'));
  ss_record : rd_record (e_road e') = rd_record (e_road e) /\ rd_steps (e_road e') = rd_steps (e_road e);
  ss_controlled : e_controlled e' = map f (e_controlled e);
  ss_clock : e_time e' = e_time e /\ e_steps e' = e_steps e /\ e_done e' = e_done e }.
(** The ego vehicle: the first controlled one. *)
Definition is_ego (e : env) (v : vehicle) : Prop := hd_error (e_controlled e) = Some (v_id v).

(** [w] is a new vehicle, in the same place, that has done nothing yet. *)
Record re_created (g : graph) (v w : vehicle) : Prop := ReCreated {
  rc_pose : v_pos w = v_pos v /\ v_heading w = v_heading v /\ v_speed w = v_speed v;
  rc_lane : get_closest_lane_index g (v_pos v) (Some (v_heading v)) = Ok (v_lane_index w);
  rc_action : v_steering w = 0 /\ v_accel w = 0;
  rc_safe : v_crashed w = false /\ v_collisions w = true;
  rc_history : v_history w = [];
  rc_yield : v_is_yielding w = false }.
(** The aims are kept (a null target speed counts as none). *)
Definition same_aims (v w : vehicle) : Prop :=
  v_target_lane w = v_target_lane v /\ v_route w = v_route v /\
  v_target_speed w = (if Reqb (v_target_speed v) 0 then v_speed v else v_target_speed v).
