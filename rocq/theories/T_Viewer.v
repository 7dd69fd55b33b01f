(** Theorems about the keyboard (C100) and the window (C104). *)
From Verif Require Import Prelude M_Utils M_Lane M_Road M_Vehicle M_Kinematics M_Control M_Behavior M_Regulation M_Action M_Env M_Graphics M_Viewer S_Graphics S_Viewer S_Env S_Control P_Env
  P_Base P_Utils P_Action P_Graphics P_Viewer P_Move T_Action T_Graphics T_Kin T_Env.
From Coq Require Import Lia Lra.
Open Scope R_scope.
Open Scope list_scope.

(** ** C100: keyboard control *)
(** With meta-actions, pressing an arrow does what the agent's action with that name does:
    right FASTER, left SLOWER, down LANE_RIGHT, up LANE_LEFT.  [k] is the number of that
    action in this environment. *)
Theorem C100_meta : forall sc draws g lo la t k a ky, sc_action sc = Single (Discrete lo la) -> meta_table lo la = Ok t -> action_of t k = Ok a ->
  (ky, a) = (KRight, FASTER) \/ (ky, a) = (KLeft, SLOWER) \/ (ky, a) = (KDown, LANE_RIGHT) \/ (ky, a) = (KUp, LANE_LEFT) ->
  keyboard sc draws g (KeyDown ky) =
    match action_act (sc_action sc) draws (e_road (gu_env g)) (e_controlled (gu_env g)) (ActInt k) with
    | Ok rd => Ok (set_genv g (set_road (gu_env g) rd)) | Err x => Err x end.
Proof.
  intros sc draws g lo la t k a ky T Tb A H. unfold keyboard. rewrite T.
  assert (X : discrete_key lo la (KeyDown ky) = Some a /\ index_of t a = Ok k).
  { unfold action_of in A. destruct lo, la; cbn in Tb; try discriminate; injection Tb as <-; cbn [find fst ACTIONS_ALL ACTIONS_LONGI ACTIONS_LAT] in A;
    repeat (match type of A with context [Z.eqb ?i k] => destruct (Z.eqb_spec i k) as [<- |]; [cbn in A; injection A as <- | ] end); try discriminate A;
    destruct H as [H|[H|[H|H]]]; try discriminate H; injection H as ->; split; reflexivity. }
  destruct X as [-> X]. rewrite Tb. cbn [bind]. rewrite X. cbn [bind]. unfold gui_act. rewrite T. unfold bind. destruct (action_act _ _ _ _ _); reflexivity.
Qed.
Print Assumptions C100_meta.
(** Other keys, releases, and arrows of an axis that is not controlled do nothing, except
    the up arrow when lane changes are not among the actions: it raises KeyError. *)
Theorem C100_meta_others : forall sc draws g lo la, sc_action sc = Single (Discrete lo la) -> lo = true \/ la = true ->
  (forall ky, keyboard sc draws g (KeyUp ky) = Ok g) /\
  (forall ky, ~ In ky [KRight; KLeft; KDown; KUp] -> keyboard sc draws g (KeyDown ky) = Ok g) /\
  keyboard sc draws g Quit = Ok g /\ keyboard sc draws g OtherEvent = Ok g /\
  (lo = false -> keyboard sc draws g (KeyDown KRight) = Ok g /\ keyboard sc draws g (KeyDown KLeft) = Ok g) /\
  (la = false -> keyboard sc draws g (KeyDown KDown) = Ok g /\ keyboard sc draws g (KeyDown KUp) = Err KeyError).
Proof.
  intros sc draws g lo la T H. unfold keyboard. rewrite T. split; [intros; reflexivity|]. split.
  - intros ky N. destruct ky; try reflexivity; exfalso; apply N; cbn; tauto.
  - split; [reflexivity|]. split; [reflexivity|]. split; [intros ->; split; reflexivity|]. intros ->. split; [reflexivity|]. destruct H as [-> |H]; [reflexivity | discriminate H].
Qed.
Print Assumptions C100_meta_others.
(** Several agents: the keyboard has no effect. *)
Theorem C100_multi : forall sc s draws g e, sc_action sc = Multi s -> keyboard sc draws g e = Ok g.
Proof. intros sc s draws g e T. unfold keyboard. now rewrite T. Qed.
Print Assumptions C100_multi.

Lemma clip_id x : -1 <= x <= 1 -> Rclip x (-1) 1 = x.
Proof. intros H. unfold Rclip, Rmin, Rmax. split_minmax; lra. Qed.
Lemma pedal_range x e : -1 <= x <= 1 -> -1 <= pedal x e <= 1.
Proof. intros H. destruct e as [[]|[]| |]; cbn; lra. Qed.
Lemma wheel_range x e : -1 <= x <= 1 -> -1 <= wheel x e <= 1.
Proof. intros H. destruct e as [[]|[]| |]; cbn; lra. Qed.
Lemma gui_act_continuous sc draws g c x g' : sc_action sc = Single (Continuous c) -> gui_act sc draws g (ActVec x) = Ok g' -> gu_last g' = remembered c x.
Proof. intros T. unfold gui_act. rewrite T. intros E. apply bind_ok in E as (rd & _ & E). injection E as <-. reflexivity. Qed.
(** With continuous actions the arrows move the pedals and the wheel to 70% of their course,
    and releasing one of the two keys of an axis puts the axis back to zero, even when
    the other one is still held. *)
Theorem C100_pedals : forall sc c es g g', sc_action sc = Single (Continuous c) -> typed sc g es g' ->
  (forall x y, ca_longitudinal c = true -> ca_lateral c = true -> gu_last g = [x; y] -> -1 <= x <= 1 -> -1 <= y <= 1 -> gu_last g' = [fold_left pedal es x; fold_left wheel es y]) /\
  (forall x, ca_longitudinal c = true -> ca_lateral c = false -> gu_last g = [x] -> -1 <= x <= 1 -> gu_last g' = [fold_left pedal es x]) /\
  (forall y, ca_longitudinal c = false -> ca_lateral c = true -> gu_last g = [y] -> -1 <= y <= 1 -> gu_last g' = [fold_left wheel es y]).
Proof.
  intros sc c es g g' T H. induction H as [g|g e es draws g1 g2 K H [I1 [I2 I3]]]; [repeat split; intros; assumption|].
  unfold keyboard in K. rewrite T in K. apply bind_ok in K as (a & A & K). apply (gui_act_continuous _ _ _ _ _ _ T) in K. unfold remembered in K.
  split; [|split].
  - intros x y Lo La L Hx Hy. rewrite L in A. cbn [fold_left]. apply I1; [assumption | assumption | | now apply pedal_range | now apply wheel_range].
    assert (a = [pedal x e; wheel y e]) as ->. { unfold continuous_key, continuous_size in A. rewrite Lo, La in A. cbn [andb Nat.sub] in A. destruct e as [[]|[]| |]; cbn in A; injection A as <-; reflexivity. }
    rewrite K. destruct (ca_clip c); [|reflexivity]. cbn [map]. now rewrite !clip_id by (now apply pedal_range || now apply wheel_range).
  - intros x Lo La L Hx. rewrite L in A. cbn [fold_left]. apply I2; [assumption | assumption | | now apply pedal_range].
    assert (a = [pedal x e]) as ->. { unfold continuous_key, continuous_size in A. rewrite Lo, La in A. cbn [andb Nat.sub] in A. destruct e as [[]|[]| |]; cbn in A; injection A as <-; reflexivity. }
    rewrite K. destruct (ca_clip c); [|reflexivity]. cbn [map]. now rewrite !clip_id by now apply pedal_range.
  - intros y Lo La L Hy. rewrite L in A. cbn [fold_left]. apply I3; [assumption | assumption | | now apply wheel_range].
    assert (a = [wheel y e]) as ->. { unfold continuous_key, continuous_size in A. rewrite Lo, La in A. cbn [andb Nat.sub] in A. destruct e as [[]|[]| |]; cbn in A; injection A as <-; reflexivity. }
    rewrite K. destruct (ca_clip c); [|reflexivity]. cbn [map]. now rewrite !clip_id by now apply wheel_range.
Qed.
Print Assumptions C100_pedals.
(** A new environment, and an environment that has been reset whatever happened before,
    have pedals and wheel released. *)
Theorem C100_released_at_reset : forall sc c scene g0 g es g', sc_action sc = Single (Continuous c) ->
  g0 = gui_reset sc g scene \/ (exists center, g0 = gui_new sc scene center) -> typed sc g0 es g' ->
  gu_env g0 = scene /\
  (ca_longitudinal c = true -> ca_lateral c = true -> gu_last g' = [fold_left pedal es 0; fold_left wheel es 0]) /\
  (ca_longitudinal c = true -> ca_lateral c = false -> gu_last g' = [fold_left pedal es 0]) /\
  (ca_longitudinal c = false -> ca_lateral c = true -> gu_last g' = [fold_left wheel es 0]).
Proof.
  intros sc c scene g0 g es g' T H0 H. assert (L : gu_last g0 = repeat 0 (continuous_size c) /\ gu_env g0 = scene).
  { destruct H0 as [-> |[center ->]]; unfold gui_reset, gui_new, initial_last; rewrite T; split; reflexivity. }
  destruct L as [L Ee]. split; [exact Ee|]. destruct (C100_pedals sc c es g0 g' T H) as (P1 & P2 & P3). unfold continuous_size in L.
  split; [|split]; intros Lo La; rewrite Lo, La in L; cbn in L; [apply P1 | apply P2 | apply P3]; try assumption; lra.
Qed.
Print Assumptions C100_released_at_reset.
(** The controls of the vehicle follow: after any event they are the mapped positions
    of pedals and wheel. *)
Lemma command_by_id rd draw id c rd' v : command_vehicle rd draw id c = Ok rd' -> vehicle_by_id rd id = Some v ->
  exists v', vehicle_command rd draw v c = Ok v' /\ (v_id v' = v_id v -> vehicle_by_id rd' id = Some v').
Proof.
  unfold command_vehicle, vehicle_by_id. intros E F.
  assert (X : exists k, rank_of id (rd_vehicles rd) = Some k /\ nth_error (rd_vehicles rd) k = Some v /\ forall v', v_id v' = v_id v -> find (fun w => (v_id w =? id)%nat) (update_nth k v' (rd_vehicles rd)) = Some v').
  { clear E. induction (rd_vehicles rd) as [|w vs IH]; cbn [find rank_of] in *; [discriminate|]. destruct (v_id w =? id)%nat eqn:N.
    - injection F as <-. exists 0%nat. split; [reflexivity|]. split; [reflexivity|]. intros v' I. cbn [update_nth find]. now rewrite I, N.
    - destruct (IH F) as (k & R & Nt & U). exists (S k). rewrite R. split; [reflexivity|]. split; [exact Nt|]. intros v' I. cbn [update_nth find]. rewrite N. now apply U. }
  destruct X as (k & R & Nt & U). rewrite R, Nt in E. apply bind_ok in E as (v' & C & E). injection E as <-. exists v'. split; [exact C|]. intros I. cbn [rd_vehicles set_vehicles]. now apply U.
Qed.
Theorem C100_controls : forall sc c draws g e g' id ids v x y, sc_action sc = Single (Continuous c) -> ca_longitudinal c = true -> ca_lateral c = true ->
  e_controlled (gu_env g) = id :: ids -> vehicle_by_id (e_road (gu_env g)) id = Some v -> v_kind v = KVehicle \/ v_kind v = KBicycle ->
  gu_last g = [x; y] -> -1 <= x <= 1 -> -1 <= y <= 1 -> keyboard sc draws g e = Ok g' ->
  exists v', vehicle_by_id (e_road (gu_env g')) id = Some v' /\
    v_accel v' = affine (ca_acceleration c) (pedal x e) /\ v_steering v' = affine (ca_steering c) (wheel y e) /\
    v_pos v' = v_pos v /\ v_heading v' = v_heading v /\ v_speed v' = v_speed v.
Proof.
  intros sc c draws g e g' id ids v x y T Lo La Ec Ev Kv L Hx Hy K. unfold keyboard in K. rewrite T in K. apply bind_ok in K as (a & A & K).
  assert (a = [pedal x e; wheel y e]) as ->. { rewrite L in A. unfold continuous_key, continuous_size in A. rewrite Lo, La in A. cbn [andb Nat.sub] in A. destruct e as [[]|[]| |]; cbn in A; injection A as <-; reflexivity. }
  unfold gui_act in K. apply bind_ok in K as (rd & Ac & K). rewrite T in Ac, K. injection K as <-. cbn [gu_env set_last set_genv e_road set_road].
  unfold action_act in Ac. rewrite Ec in Ac. unfold act_single in Ac. rewrite (proj1 (C44_affine c _ _) Lo La) in Ac. cbn [bind] in Ac.
  destruct (command_by_id _ _ _ _ _ _ Ac Ev) as (v' & C & I). unfold vehicle_command in C.
  assert (CL : forall z, -1 <= z <= 1 -> T_Action.clipped c z = z) by (intros z Hz; unfold T_Action.clipped; destruct (ca_clip c); [now apply clip_id | reflexivity]).
  rewrite !CL in C by (now apply pedal_range || now apply wheel_range).
  assert (v' = set_action v (affine (ca_steering c) (wheel y e)) (affine (ca_acceleration c) (pedal x e))) as -> by (destruct Kv as [Kv|Kv]; rewrite Kv in C; now injection C as <-).
  eexists. split; [apply I; reflexivity|]. repeat split.
Qed.
Print Assumptions C100_controls.

(** Whether the keyboard is listened to does not depend on manual_control: every call of
    [render] on screen handles all the waiting events in order; rendering off screen
    handles none. *)
Lemma keyboard_same sc draws g e g' h : keyboard sc draws g e = Ok g' -> gu_env h = gu_env g -> gu_last h = gu_last g ->
  exists h', keyboard sc draws h e = Ok h' /\ gu_env h' = gu_env g' /\ gu_last h' = gu_last g'.
Proof.
  intros K Ee El. assert (A : forall a x, gui_act sc draws g a = Ok x -> exists h', gui_act sc draws h a = Ok h' /\ gu_env h' = gu_env x /\ gu_last h' = gu_last x).
  { intros a x E. unfold gui_act in *. rewrite Ee. apply bind_ok in E as (rd & -> & E). cbn [bind].
    destruct (sc_action sc) as [[|c]|]; [injection E as <- | destruct a; injection E as <- | injection E as <-]; eexists; (split; [reflexivity|]); cbn; auto. }
  unfold keyboard in *. destruct (sc_action sc) as [[lo la|c]|].
  - destruct (discrete_key lo la e); [|injection K as <-; eauto]. apply bind_ok in K as (t & -> & K). cbn [bind]. apply bind_ok in K as (k & -> & K). cbn [bind]. now apply A.
  - rewrite El. apply bind_ok in K as (a & -> & K). cbn [bind]. now apply A.
  - injection K as <-. eauto.
Qed.
Lemma handle_typed sc draws : forall es g vw g' vw' h, ~ In Quit es -> handle_events sc draws g vw es = Ok (g', vw') -> gu_env h = gu_env g -> gu_last h = gu_last g ->
  exists h', typed sc h es h' /\ gu_env h' = gu_env g' /\ gu_last h' = gu_last g'.
Proof.
  induction es as [|e es IH]; intros g vw g' vw' h N E Ee El; cbn [handle_events] in E.
  - injection E as <- <-. exists h. split; [constructor|]. auto.
  - apply bind_ok in E as (g3 & K & E). assert (Hq : match e with Quit => gui_close g | _ => g end = g) by (destruct e; try reflexivity; exfalso; apply N; now left). rewrite Hq in K.
    destruct (keyboard_same _ _ _ _ _ h K) as (h1 & K1 & E1 & L1); [exact Ee | exact El|].
    destruct (IH _ _ _ _ h1 ltac:(intros X; apply N; now right) E E1 L1) as (h' & Ty & R). exists h'. split; [econstructor; eassumption | exact R].
Qed.
Theorem C100_listens : forall vc sc draws es g m g' x, render vc sc draws es g m = Ok (g', x) ->
  (vc_offscreen vc = true -> gu_env g' = gu_env g /\ gu_last g' = gu_last g) /\
  (vc_offscreen vc = false -> ~ In Quit es -> exists h, typed sc g es h /\ gu_env g' = gu_env h /\ gu_last g' = gu_last h).
Proof.
  intros vc sc draws es g m g' x E. apply render_ok in E as (vw1 & g4 & _ & H & F). cbv zeta in H.
  assert (X : gu_env g' = gu_env g4 /\ gu_last g' = gu_last g4) by (destruct m; [destruct F as [-> _] | destruct F as [-> _]]; auto). destruct X as [X1 X2].
  split; intros O; rewrite O in H.
  - subst g4. auto.
  - intros N. destruct H as (g5 & vw2 & H & ->). destruct (handle_typed _ _ _ _ _ _ _ g N H eq_refl eq_refl) as (h & Ty & Eh & Lh). exists h. split; [exact Ty|].
    rewrite X1, X2. destruct (gu_viewer g5); cbn; auto.
Qed.
Print Assumptions C100_listens.
Theorem C100_same_without_manual_control : forall vc sc b draws es g m,
  render vc (Scenario (sc_simulation sc) (sc_policy sc) b (sc_action sc) (sc_regulated sc) (sc_terminal sc)) draws es g m = render vc sc draws es g m.
Proof.
  intros vc sc b draws es g m. set (sc' := Scenario _ _ _ _ _ _).
  assert (H : forall es g vw, handle_events sc' draws g vw es = handle_events sc draws g vw es).
  { clear. induction es as [|e es IH]; intros g vw; [reflexivity|]. cbn [handle_events]. change (keyboard sc') with (keyboard sc). unfold bind. destruct (keyboard sc _ _ _); [apply IH | reflexivity]. }
  unfold render. cbv zeta. change (display vc sc') with (display vc sc). unfold bind.
  destruct (if gu_should _ then _ else _) as [vw1|]; [|reflexivity]. rewrite H. reflexivity.
Qed.
Print Assumptions C100_same_without_manual_control.
(** Under manual control the agent's actions are ignored. *)
Theorem C100_manual : forall vc sc o u g a b, sc_manual sc = true -> gui_step vc sc o u g a = gui_step vc sc o u g b.
Proof.
  intros vc sc o u g a b M. unfold gui_step. destruct (e_controlled (gu_env g)) as [|i0 is0]; [reflexivity|].
  assert (F : forall g, gui_forward sc o g (Some a) = gui_forward sc o g (Some b)).
  { intros h. unfold gui_forward, forward. rewrite M. cbn [negb andb bind]. destruct (sc_action sc) as [[|c]|]; [reflexivity | | reflexivity]. now destruct a, b. }
  unfold gui_simulate. destruct (Reqb _ _); [reflexivity|]. generalize (set_genv g (count_step (gu_env g))). intros h.
  assert (X : forall j h, gui_frames vc sc o u j h (Some a) = gui_frames vc sc o u j h (Some b)).
  { induction j as [|j IH]; intros k; [reflexivity|]. rewrite !gui_frames_S, F. unfold bind. destruct (gui_forward sc o k (Some b)) as [g1|]; [|reflexivity].
    destruct (frame _ _ _) as [e2|]; [|reflexivity]. destruct (automatic_rendering _ _ _ _ _) as [g3|]; [|reflexivity]. destruct (e_done _); [reflexivity|].
    destruct (sc_terminal sc _) as [[]|]; [reflexivity | apply IH | reflexivity]. }
  now rewrite X.
Qed.
Print Assumptions C100_manual.
Definition manual_scenario (t : action_type) : scenario := Scenario 15 1 true t false (fun _ => Ok false).
Definition keyed_vehicle (k : vkind) : vehicle :=
  Vehicle 0 k (50, 4) 0 20 ("0", "1", Some 1%Z)%string 0 0 false false [] ("0", "1", Some 1%Z)%string 20 None 0%Z grid_default true 0 idm_default false 0%Z false.
Definition keyed_env (k : vkind) : env := Env (Road demo_net [keyed_vehicle k] [] false 0%Z) [0%nat] 0 0 false.
Example C100_nonvacuous : exists g', typed (manual_scenario (Single (Continuous continuous_default))) (gui_new (manual_scenario (Single (Continuous continuous_default))) (keyed_env KVehicle) (3/10, 5/10))
    [KeyDown KUp; KeyDown KLeft; KeyDown KRight; KeyUp KLeft] g' /\ gu_last g' = [7/10; 0].
Proof.
  set (sc := manual_scenario _). set (g0 := gui_new _ _ _).
  assert (St : forall g e id ids v x y, sc_action sc = Single (Continuous continuous_default) -> e_controlled (gu_env g) = id :: ids -> gu_last g = [x; y] ->
    rd_vehicles (e_road (gu_env g)) = [v] -> v_kind v = KVehicle -> v_id v = id -> exists g', keyboard sc (fun _ _ => 0%nat) g e = Ok g' /\ e_controlled (gu_env g') = id :: ids /\ (exists v', rd_vehicles (e_road (gu_env g')) = [v'] /\ v_kind v' = KVehicle /\ v_id v' = id) /\
      exists x' y', gu_last g' = [x'; y']).
  { intros g e id ids v x y T C L V K I. unfold keyboard. rewrite T, L.
    assert (A : exists x1 y1, continuous_key continuous_default e [x; y] = Ok [x1; y1]) by (destruct e as [[]|[]| |]; cbn; eauto). destruct A as (x1 & y1 & ->). cbn [bind].
    unfold gui_act. rewrite T, C. unfold action_act, act_single. rewrite (proj1 (C44_affine continuous_default x1 y1) eq_refl eq_refl). cbn [bind].
    unfold command_vehicle. rewrite V. cbn [rank_of]. rewrite I, Nat.eqb_refl. cbn [nth_error]. unfold vehicle_command. rewrite K. cbn [bind]. eexists. split; [reflexivity|].
    split; [exact C|]. split; [eexists; split; [reflexivity|]; cbn; now rewrite K, I|]. cbn. eauto. }
  assert (Ty : forall es g id ids, sc_action sc = Single (Continuous continuous_default) -> e_controlled (gu_env g) = id :: ids -> (exists x y, gu_last g = [x; y]) ->
    (exists v, rd_vehicles (e_road (gu_env g)) = [v] /\ v_kind v = KVehicle /\ v_id v = id) -> exists g', typed sc g es g').
  { induction es as [|e es IH]; intros g id ids T C (x & y & L) (v & V & K & I); [exists g; constructor|].
    destruct (St g e id ids v x y T C L V K I) as (g1 & K1 & C1 & V1 & L1). destruct (IH g1 id ids T C1 L1 V1) as [g' H]. exists g'. econstructor; eassumption. }
  destruct (Ty [KeyDown KUp; KeyDown KLeft; KeyDown KRight; KeyUp KLeft] g0 0%nat []) as [g' H]; [reflexivity | reflexivity | exists 0, 0; reflexivity | eexists; split; [reflexivity | split; reflexivity]|].
  exists g'. split; [exact H|]. destruct (C100_pedals sc continuous_default _ _ _ eq_refl H) as [P _].
  rewrite (P 0 0 eq_refl eq_refl eq_refl ltac:(lra) ltac:(lra)). reflexivity.
Qed.

(** ** C104: what the window shows *)
(** Without events, or off screen, rendering does not change the simulation. *)
Theorem C104_transparent : forall vc sc o u g a, (forall t, us_events u t = []) ->
  (forall g', gui_step vc sc o u g a = Ok g' -> env_step sc o (gu_env g) a = Ok (gu_env g')) /\
  (3 <= sc_simulation sc -> forall e, env_step sc o (gu_env g) a = Ok e -> exists g', gui_step vc sc o u g a = Ok g' /\ gu_env g' = e) /\
  (forall draws m g' x, render vc sc draws [] g m = Ok (g', x) -> gu_env g' = gu_env g) /\
  (3 <= sc_simulation sc -> forall draws m, exists g' x, render vc sc draws [] g m = Ok (g', x)).
Proof.
  intros vc sc o u g a Q. split; [|split; [|split]].
  - intros g' E. unfold gui_step, env_step, gui_simulate, simulate in *. destruct (e_controlled (gu_env g)); [discriminate|]. destruct (Reqb _ _); [discriminate|].
    apply bind_ok in E as (g1 & E & E2). injection E2 as <-. apply gui_frames_env in E; [exact E | exact Q].
  - intros H e E. unfold gui_step, env_step, gui_simulate, simulate in *. destruct (e_controlled (gu_env g)); [discriminate|]. destruct (Reqb _ _); [discriminate|].
    destruct (gui_frames_total vc sc o u (Some a) Q H _ (set_genv g (count_step (gu_env g))) e E) as (g1 & -> & Ee). cbn [bind]. eauto.
  - intros draws m g' x E. now apply render_quiet in E.
  - intros H draws m. now apply render_total.
Qed.
Print Assumptions C104_transparent.
Theorem C104_offscreen : forall vc sc, vc_offscreen vc = true ->
  (forall draws es g m, render vc sc draws es g m = render vc sc draws [] g m) /\
  (forall o u g a, gui_step vc sc o u g a = gui_step vc sc o (User (fun _ => []) (us_draws u)) g a).
Proof.
  intros vc sc O. assert (R : forall draws es g m, render vc sc draws es g m = render vc sc draws [] g m) by (intros; unfold render; cbv zeta; rewrite O; reflexivity). split; [exact R|].
  intros o u g a. unfold gui_step, gui_simulate. destruct (e_controlled _); [reflexivity|]. destruct (Reqb _ _); [reflexivity|]. generalize (set_genv g (count_step (gu_env g))). intros h. f_equal.
  generalize (Z.to_nat (frames_per_step sc)). intros j. revert h. induction j as [|j IH]; intros h; [reflexivity|]. rewrite !gui_frames_S. cbn [us_events us_draws]. unfold bind.
  destruct (gui_forward sc o h (Some a)) as [g1|]; [|reflexivity]. destruct (frame _ _ _) as [e2|]; [|reflexivity]. unfold automatic_rendering.
  assert (A : forall d es k, match render vc sc d es k (match gu_callback k with Some m => m | None => gu_mode k end) with Ok a0 => let (g2, _) := a0 in Ok g2 | Err e => Err e end
    = match render vc sc d [] k (match gu_callback k with Some m => m | None => gu_mode k end) with Ok a0 => let (g2, _) := a0 in Ok g2 | Err e => Err e end) by (intros; now rewrite R).
  unfold bind. rewrite A. destruct (if gu_viewer _ then _ else _) as [g3|]; [|reflexivity]. destruct (e_done _); [reflexivity|]. destruct (sc_terminal sc _) as [[]|]; try reflexivity. apply IH.
Qed.
Print Assumptions C104_offscreen.
(** Images: as long as "human" rendering is not used, every image returned by
    render("rgb_array") is of the state at the time of the call, whatever happened before
    (steps, resets, closings, key presses). *)
Definition only_images (o : rop) : Prop := o <> OpRender Human.
Theorem C104_images_current : forall vc sc quiet g ops out g', viewed vc sc quiet g ops out g' -> vc_enabled vc = true ->
  gu_should g = true -> gu_viewer g = None -> gu_callback g <> Some Human -> Forall only_images ops ->
  forall e m x, In (e, m, x) out -> exists sf, x = Some (Some (e, sf)).
Proof.
  intros vc sc quiet g ops out g' V He Sh Vw Cb. 
  set (P := fun g => gu_should g = true /\ gu_callback g <> Some Human /\ (gu_viewer g <> None -> gu_mode g = RgbArray)).
  assert (HP : P g) by (unfold P; rewrite Vw; repeat split; congruence). clear Sh Vw Cb. revert HP.
  assert (A : forall draws es g g', P g -> automatic_rendering vc sc draws es g = Ok g' -> P g').
  { clear. intros draws es g g' (S1 & S2 & S3) E. apply auto_facts in E as [-> |(E1 & E2 & E3 & E4)]; [unfold P; auto|]. cbv zeta in *.
    assert (M : (match gu_callback g with Some m => m | None => gu_mode g end) = RgbArray) by (destruct (gu_callback g) as [[]|]; [congruence | reflexivity | now apply S3]). rewrite M in *. unfold P. rewrite E1. auto. }
  induction V as [g|g a o u g1 ops out g2 _ E V IH|g m draws es x g1 ops out g2 _ E V IH|g scene ops out g2 V IH|g ops out g2 V IH]; intros HP F e0 m0 x0 Hin; [destruct Hin | | | |]; inversion F as [|? ? F1 F2]; subst.
  - apply gui_step_frames in E as (h & E & ->). apply (IH) with m0; [|exact F2|exact Hin].
    assert (HP' : P h). { eapply (gui_frames_keep vc sc o u (Some a) (fun _ => True) P); [intros; exact I | | | | exact E]. - intros k e1 l K. exact K. - intros d es k k' _ K. now apply A. - exact HP. }
    exact HP'.
  - destruct m; [now exfalso; apply F1|]. destruct HP as (S1 & S2 & S3). apply render_facts in E as (E1 & E2 & E3 & E4 & E5 & E6). destruct (gu_viewer g1) as [vw|] eqn:V1; [|now exfalso; apply E5]. destruct (E6 vw eq_refl) as (X & _ & Y).
    destruct Hin as [Hin|Hin].
    + injection Hin as <- <- <-. destruct (Y S1 He) as [sf Z]. exists sf. now rewrite X, Z.
    + apply (IH) with m0; [unfold P; rewrite E4, E1; auto | exact F2 | exact Hin].
  - apply (IH) with m0; [exact HP | exact F2 | exact Hin].
  - apply (IH) with m0; [|exact F2 | exact Hin]. destruct HP as (S1 & S2 & S3). unfold P. cbn. split; [exact S1|]. split; [exact S2 | congruence].
Qed.
Print Assumptions C104_images_current.
(** Each new image is centred on the ego vehicle (the first controlled one), or on the origin
    of the world without one: its position is shown at the configured fraction of the
    window, at the current zoom. *)
Theorem C104_centred : forall vc sc g vw vw', vc_enabled vc = true -> sf_scaling (vw_surface vw) <> 0 -> display vc sc g vw = Ok vw' ->
  exists sf, vw_shown vw' = Some (gu_env g, sf) /\ sf_scaling sf = sf_scaling (vw_surface vw) /\
    let middle := (fst (gu_center g) * IZR (sf_width sf), snd (gu_center g) * IZR (sf_height sf)) in
    (forall v, ego (gu_env g) = Ok v -> place sf (v_pos v) = middle) /\
    (e_controlled (gu_env g) = [] -> place sf (0, 0) = middle).
Proof.
  intros vc sc g vw vw' He Hs D. unfold display in D. rewrite He in D. cbn [negb] in D. apply bind_ok in D as (x & _ & D). injection D as <-. cbn [vw_shown].
  eexists. split; [reflexivity|]. split; [reflexivity|]. cbn zeta. split.
  - intros v E. rewrite C101_follows by exact Hs. unfold window_position. rewrite E. cbn. apply f_equal2; ring.
  - intros E. rewrite C101_follows by exact Hs. unfold window_position, ego. rewrite E. cbn. apply f_equal2; ring.
Qed.
Print Assumptions C104_centred.

(** A window: after [render], a step leaves it showing the new state. *)
Theorem C104_render_step : forall vc sc draws es g m g1 x o u a g2, vc_enabled vc = true -> (1 <= frames_per_step sc)%Z ->
  render vc sc draws es g m = Ok (g1, x) -> gu_viewer g1 <> None -> (forall t, us_events u t = []) -> gui_step vc sc o u g1 a = Ok g2 ->
  exists sf, shows g2 (Some (gu_env g2, sf)).
Proof.
  intros vc sc draws es g m g1 x o u a g2 He Fr R V Q E. apply render_facts in R as (_ & _ & Au & _). apply gui_step_frames in E as (h & E & ->).
  destruct (Z.to_nat (frames_per_step sc)) as [|n] eqn:N; [lia|]. destruct (gui_frames_shows vc sc o u (Some a) Q He n (set_genv g1 (count_step (gu_env g1))) h V Au E) as [sf S]. exists sf. exact S.
Qed.
Print Assumptions C104_render_step.
(** But the window is then only redrawn by a step that follows immediately another call of
    [render]: after render("human") and a step, whatever further steps and resets are
    made, the next call of [render] still shows, or returns, the state after that step. *)
Lemma kept_viewed vc sc quiet g ops out g' vw : viewed vc sc quiet g ops out g' -> forallb steps_or_resets ops = true ->
  gu_viewer g = Some vw -> gu_auto g = false -> gu_should g = false -> gu_viewer g' = Some vw /\ gu_should g' = false.
Proof.
  intros V. induction V as [g|g a o u g1 ops out g2 _ E V IH|g m draws es x g1 ops out g2 _ E V IH|g scene ops out g2 V IH|g ops out g2 V IH]; intros F Hv Ha Hs; cbn in F; try discriminate F; [auto | |].
  - apply gui_step_frames in E as (h & E & ->). set (P := fun g => gu_viewer g = Some vw /\ gu_auto g = false /\ gu_should g = false).
    assert (HP : P h). { eapply (gui_frames_keep vc sc o u (Some a) (fun _ => True) P); [intros; exact I | | | | exact E].
      - intros k e l K. exact K.
      - intros d es k k' _ (K1 & K2 & K3) A. unfold automatic_rendering in A. rewrite K1, K2 in A. injection A as <-. unfold P. auto.
      - unfold P. auto. }
    destruct HP as (P1 & P2 & P3). apply IH; auto.
  - apply IH; auto.
Qed.
Theorem C104_stale : forall vc sc draws es g g1 x o u a g2 ops out g3 draws' m g4 y, vc_enabled vc = true -> (1 <= frames_per_step sc)%Z -> gu_callback g <> Some RgbArray ->
  render vc sc draws es g Human = Ok (g1, x) -> gu_viewer g1 <> None ->
  (forall t, us_events u t = []) -> gui_step vc sc o u g1 a = Ok g2 ->
  viewed vc sc true g2 ops out g3 -> forallb steps_or_resets ops = true ->
  render vc sc draws' [] g3 m = Ok (g4, y) ->
  exists sf, shows g4 (Some (gu_env g2, sf)) /\ (m = RgbArray -> y = Some (Some (gu_env g2, sf))).
Proof.
  intros vc sc draws es g g1 x o u a g2 ops out g3 draws' m g4 y He Fr Cb R V Q E Vd Ops R2.
  destruct (C104_render_step _ _ _ _ _ _ _ _ _ _ _ _ He Fr R V Q E) as (sf & vw & Vw & Sh).
  apply render_facts in R as (R1 & R2' & R3 & R4 & _). apply gui_step_frames in E as (h & E & ->).
  set (P := fun g => gu_should g = false /\ gu_callback g <> Some RgbArray /\ gu_mode g = Human).
  assert (HP : P h). { eapply (gui_frames_keep vc sc o u (Some a) (fun _ => True) P); [intros; exact I | | | | exact E].
    - intros k e l K. exact K.
    - intros d es' k k' _ (K1 & K2 & K3) A. apply auto_facts in A as [-> |(A1 & A2 & A3 & A4)]; [unfold P; auto|]. cbv zeta in *.
      assert (M : (match gu_callback k with Some m => m | None => gu_mode k end) = Human) by (destruct (gu_callback k) as [[]|]; [reflexivity | congruence | assumption]). rewrite M in *. unfold P. rewrite A1. auto.
    - unfold P. cbn. rewrite R1. auto. }
  destruct HP as (P1 & _). destruct (kept_viewed _ _ _ _ _ _ _ vw Vd Ops Vw eq_refl P1) as [V3 S3].
  apply render_quiet in R2 as (_ & _ & _ & _ & _ & _ & _ & vw4 & V4 & Y & Z & _). assert (vw4 = vw) as -> by (rewrite (Z S3); unfold viewer_of; now rewrite V3).
  exists sf. split; [exists vw; auto|]. intros ->. now rewrite Y, Sh.
Qed.
Print Assumptions C104_stale.
(** After a reset the window still shows the previous episode: the first call of [render]
    in the new one draws nothing. *)
Theorem C104_reset_stale : forall vc sc draws g g1 x ops out g2 draws' m g3 y, vc_enabled vc = true -> gu_should g = true ->
  render vc sc draws [] g Human = Ok (g1, x) -> (forall o, In o ops -> exists scene, o = OpReset scene) -> viewed vc sc true g1 ops out g2 ->
  render vc sc draws' [] g2 m = Ok (g3, y) ->
  exists sf, shows g3 (Some (gu_env g, sf)) /\ (m = RgbArray -> y = Some (Some (gu_env g, sf))).
Proof.
  intros vc sc draws g g1 x ops out g2 draws' m g3 y He Sh R Ops Vd R2. apply render_quiet in R as (_ & _ & _ & _ & _ & _ & S1 & vw & V1 & _ & _ & Pic). destruct (Pic Sh He) as [sf Pi].
  assert (K : gu_viewer g2 = Some vw /\ gu_should g2 = false).
  { clear R2. revert V1 S1. induction Vd as [g0|g0 a o u g1 ops out g2 _ E V IH|g0 m' dr es x' g1 ops out g2 _ E V IH|g0 scene ops out g2 V IH|g0 ops out g2 V IH]; intros V1 S1; [auto | | | |].
    - destruct (Ops (OpStep a) (or_introl eq_refl)) as [? X]. discriminate X.
    - destruct (Ops (OpRender m') (or_introl eq_refl)) as [? X]. discriminate X.
    - apply IH; auto. intros o' Ho. apply Ops. now right.
    - destruct (Ops OpClose (or_introl eq_refl)) as [? X]. discriminate X. }
  destruct K as [V2 S2]. apply render_quiet in R2 as (_ & _ & _ & _ & _ & _ & _ & vw3 & V3 & Y & Z & _). assert (vw3 = vw) as -> by (rewrite (Z S2); unfold viewer_of; now rewrite V2).
  exists sf. split; [exists vw; auto|]. intros ->. now rewrite Y, Pi.
Qed.
Print Assumptions C104_reset_stale.
(** A window closed and opened again is black until a step is made. *)
Theorem C104_reopened_black : forall vc sc draws es g g1 x scene draws' m g2 y, render vc sc draws es g Human = Ok (g1, x) ->
  render vc sc draws' [] (gui_reset sc (gui_close g1) scene) m = Ok (g2, y) -> shows g2 None /\ (m = RgbArray -> y = Some None).
Proof.
  intros vc sc draws es g g1 x scene draws' m g2 y R R2. apply render_facts in R as (_ & _ & _ & S1 & _).
  apply render_quiet in R2 as (_ & _ & _ & _ & _ & _ & _ & vw & V & Y & Z & _). assert (vw_shown vw = None) by (rewrite Z; [reflexivity | exact S1]).
  split; [exists vw; auto|]. intros ->. now rewrite Y, H.
Qed.
Print Assumptions C104_reopened_black.
(** Closing the window with the mouse: the episode is over; a call returning an image
    fails; a step stops at the frame where it happens. *)
Theorem C104_quit : forall vc sc draws es g, vc_offscreen vc = false -> In Quit es ->
  (forall g' x, render vc sc draws es g Human = Ok (g', x) -> gu_viewer g' = None /\ e_done (gu_env g') = true) /\
  (forall r, render vc sc draws es g RgbArray <> Ok r).
Proof.
  intros vc sc draws es g O Q. split.
  - intros g' x R. apply render_ok in R as (vw1 & g4 & _ & H & F & _). cbv zeta in H. rewrite O in H. destruct H as (g5 & vw2 & H & ->). apply handle_events_ok in H as (_ & _ & _ & _ & _ & _ & _ & _ & H & _). destruct (H Q) as [H1 H2].
    rewrite H1 in F. subst g'. cbn. auto.
  - intros [g' x] R. apply render_ok in R as (vw1 & g4 & _ & H & _ & vw3 & V & _). cbv zeta in H. rewrite O in H. destruct H as (g5 & vw2 & H & ->). apply handle_events_ok in H as (_ & _ & _ & _ & _ & _ & _ & _ & H & _). destruct (H Q) as [H1 _].
    rewrite H1 in V. congruence.
Qed.
Print Assumptions C104_quit.
Theorem C104_quit_during_step : forall vc sc draws es g g1 x o u a g2, vc_offscreen vc = false -> gu_callback g <> Some RgbArray -> (1 <= frames_per_step sc)%Z ->
  render vc sc draws es g Human = Ok (g1, x) -> gu_viewer g1 <> None ->
  In Quit (us_events u (e_time (gu_env g1) + 1)) -> gui_step vc sc o u g1 a = Ok g2 ->
  gu_viewer g2 = None /\ e_done (gu_env g2) = true /\ (e_time (gu_env g2) = e_time (gu_env g1) + 1)%Z.
Proof.
  intros vc sc draws es g g1 x o u a g2 O Cb Fr R V Q E. apply render_facts in R as (R1 & R2 & R3 & _). apply gui_step_frames in E as (h & E & ->).
  destruct (Z.to_nat (frames_per_step sc)) as [|n] eqn:N; [lia|]. rewrite gui_frames_S in E. apply bind_ok in E as (k1 & F & E). apply gui_forward_ok in F as (Fw & F1 & F2 & F3 & F4 & F5 & _).
  cbn [gu_env set_genv gu_viewer gu_auto gu_should gu_mode gu_callback] in *. apply bind_ok in E as (e2 & Fm & E). 
  assert (T1 : e_time (gu_env k1) = e_time (gu_env g1)). { unfold forward in Fw. cbn [e_time count_step] in Fw. destruct (_ && _); [apply bind_ok in Fw as (rd & _ & Fw)|]; injection Fw as Fw; now rewrite <- Fw. }
  assert (T2 : e_time e2 = (e_time (gu_env g1) + 1)%Z). { unfold frame in Fm. apply bind_ok in Fm as (r1 & _ & Fm). apply bind_ok in Fm as (r2 & _ & Fm). injection Fm as <-. cbn. now rewrite T1. }
  apply bind_ok in E as (k3 & A & E). unfold automatic_rendering in A. cbn [gu_viewer set_genv gu_auto gu_callback gu_mode set_should] in A.
  rewrite F1, F2, R3, F4, F5, R2, R1 in A. destruct (gu_viewer g1) as [vw|]; [|easy].
  assert (M : (match gu_callback g with Some m => m | None => Human end) = Human) by (destruct (gu_callback g) as [[]|]; congruence). rewrite M in A.
  apply bind_ok in A as ([k2 y] & A & A2). injection A2 as <-. rewrite T2 in A.
  pose proof (proj1 (C104_quit vc sc _ _ _ O Q) _ _ A) as [Q1 Q2].
  assert (T3 : e_time (gu_env k2) = e_time e2). { apply render_ok in A as (vw1 & g4 & _ & H & X & _). cbv zeta in H. rewrite O in H. destruct H as (g5 & vw2 & H & ->). apply handle_events_ok in H as (_ & _ & _ & _ & H & _). rewrite X. cbn in H. destruct (gu_viewer g5); cbn; exact H. }
  rewrite Q2 in E. injection E as <-. cbn [gu_viewer set_auto gu_env]. split; [exact Q1|]. split; [exact Q2|]. now rewrite T3, T2.
Qed.
Print Assumptions C104_quit_during_step.
(** Moving the view with K and M survives closing the window (it is written into the
    configuration); zooming with O and L does not. *)
Theorem C104_view_after_closing : forall vc sc draws es g g1 x draws' m g2 y vw, vc_offscreen vc = false ->
  render vc sc draws es g Human = Ok (g1, x) -> render vc sc draws' [] (gui_close g1) m = Ok (g2, y) -> gu_viewer g2 = Some vw ->
  sf_scaling (vw_surface vw) = vc_scaling vc /\
  sf_center (vw_surface vw) = (fst (gu_center g) + IZR (presses K_k es - presses K_m es) / 10, snd (gu_center g)).
Proof.
  intros vc sc draws es g g1 x draws' m g2 y vw O R R2 V. pose proof (render_facts _ _ _ _ _ _ _ _ R) as (_ & _ & _ & S1 & _). apply render_ok in R as (vw1 & g4 & D & H & X & _). cbv zeta in H. rewrite O in H. destruct H as (g5 & vw2 & H & ->).
  apply handle_events_ok in H as (_ & _ & _ & _ & _ & _ & _ & _ & _ & _ & _ & _ & H & _). cbn [gu_center set_viewer set_auto set_mode] in H.
  assert (C : gu_center g1 = gu_center g5) by (rewrite X; destruct (gu_viewer g5); reflexivity).
  pose proof (C101_keys es (set_view (vw_surface vw1) (sf_scaling (vw_surface vw1)) (gu_center g))) as K. cbv zeta in K. cbn [sf_center set_view] in K.
  apply render_quiet in R2 as (_ & _ & _ & _ & _ & _ & _ & vw' & V' & _ & Z & _). rewrite V in V'. injection V' as <-. rewrite (Z S1). unfold viewer_of. cbn [gu_viewer gui_close set_viewer new_viewer vw_surface sf_scaling sf_center gu_center set_genv].
  split; [reflexivity|]. rewrite C, H. exact (proj1 (proj2 K)).
Qed.
Print Assumptions C104_view_after_closing.

(** The default highway in a 600 x 150 window: render, two steps, image: the image is a
    step old. *)
Definition demo_view : view_config := ViewConfig 600 150 (55/10) false true (fun _ => None).
Definition demo_oracle : oracle := Oracle (fun _ _ _ => 0%nat) (fun _ _ _ => 0%nat).
Definition no_user : user := User (fun _ => []) (fun _ _ _ _ => 0%nat).
Example C104_nonvacuous : exists g1 g2 g3 g4 y sf, let g := gui_new demo_scenario demo_env (3/10, 5/10) in
  render demo_view demo_scenario (fun _ _ _ => 0%nat) [] g Human = Ok (g1, None) /\
  gui_step demo_view demo_scenario demo_oracle no_user g1 (ActInt 3) = Ok g2 /\
  gui_step demo_view demo_scenario demo_oracle no_user g2 (ActInt 3) = Ok g3 /\
  render demo_view demo_scenario (fun _ _ _ => 0%nat) [] g3 RgbArray = Ok (g4, y) /\
  y = Some (Some (gu_env g2, sf)) /\ gu_env g2 <> gu_env g3 /\ gu_env g4 = gu_env g3.
Proof.
  set (g := gui_new demo_scenario demo_env (3/10, 5/10)). assert (Sim : 3 <= sc_simulation demo_scenario) by (cbn; lra).
  assert (Fq : frequencies_ok demo_scenario) by (split; [cbn; lra | discriminate]).
  assert (De : decides demo_scenario) by apply (C40_always_decided 15 1 false (Single (Discrete true true))).
  assert (Oo : oracle_ok demo_oracle) by (split; intros ? ? n Hn; exact Hn).
  assert (Qu : forall t, us_events no_user t = []) by reflexivity.
  destruct (render_total demo_view demo_scenario (fun _ _ _ => 0%nat) g Human Sim) as (g1 & x & R).
  pose proof R as R'. apply render_quiet in R' as (Re & _ & _ & Rc & _ & _ & _ & vw & Rv & Rx & _). subst x.
  destruct (C71_step_never_fails demo_scenario demo_oracle (gu_env g1) (ActInt 3) Fq De Oo) as (e2 & E2 & Rd2); [rewrite Re; exact demo_ready | rewrite Re; cbn; lia|].
  destruct (proj1 (proj2 (C104_transparent demo_view demo_scenario demo_oracle no_user g1 (ActInt 3) Qu)) Sim e2 E2) as (g2 & S2 & G2).
  pose proof (env_step_persists _ _ _ _ _ E2) as (_ & C2 & _).
  destruct (C71_step_never_fails demo_scenario demo_oracle (gu_env g2) (ActInt 3) Fq De Oo) as (e3 & E3 & Rd3); [rewrite G2; exact Rd2 | rewrite G2, C2, Re; cbn; lia|].
  destruct (proj1 (proj2 (C104_transparent demo_view demo_scenario demo_oracle no_user g2 (ActInt 3) Qu)) Sim e3 E3) as (g3 & S3 & G3).
  destruct (render_total demo_view demo_scenario (fun _ _ _ => 0%nat) g3 RgbArray Sim) as (g4 & y & R4).
  destruct (C104_stale demo_view demo_scenario (fun _ _ _ => 0%nat) [] g g1 None demo_oracle no_user (ActInt 3) g2 [OpStep (ActInt 3)] [] g3 (fun _ _ _ => 0%nat) RgbArray g4 y) as (sf & _ & Y).
  - reflexivity.
  - rewrite demo_frames. lia.
  - discriminate.
  - exact R.
  - congruence.
  - exact Qu.
  - exact S2.
  - econstructor; [intros _; exact Qu | exact S3 | constructor].
  - reflexivity.
  - exact R4.
  - exists g1, g2, g3, g4, y, sf. cbv zeta. split; [exact R|]. split; [exact S2|]. split; [exact S3|]. split; [exact R4|]. split; [now apply Y|]. split.
    + intros X. rewrite X, G3 in E3. apply env_step_frames in E3 as (E3 & _).
        assert (T : forall n e a e', simulate_frames demo_scenario demo_oracle n e a = Ok e' -> e_steps e' = e_steps e).
        { clear. induction n as [|n IH]; intros e a e' E; cbn [simulate_frames] in E; [now injection E as <-|]. apply bind_ok in E as (e1 & F & E). apply bind_ok in E as (e2 & Fm & E).
          assert (T1 : e_steps e1 = e_steps e). { unfold forward in F. destruct a; [|now injection F as <-]. destruct (_ && _); [apply bind_ok in F as (rd & _ & F)|]; injection F as F; now rewrite <- F. }
          assert (T2 : e_steps e2 = e_steps e1). { unfold frame in Fm. apply bind_ok in Fm as (r1 & _ & Fm). apply bind_ok in Fm as (r2 & _ & Fm). now injection Fm as <-. }
          destruct (e_done e2); [injection E as <-; congruence|]. apply bind_ok in E as (t & _ & E). destruct t; [injection E as <-; congruence|]. apply IH in E. congruence. }
        apply T in E3. cbn [e_steps] in E3. lia.
    + now apply render_quiet in R4.
Qed.
