(** Where the scene lies does not matter: everything commutes with a motion (C111). *)
From Verif Require Import Prelude M_Utils M_Lane M_Road M_Vehicle M_Kinematics M_Control M_Behavior M_Regulation M_Action M_Env
  S_Moved P_Base P_Utils P_Lane P_Rename.
From Coq Require Import Lra Lia FunctionalExtensionality.
Open Scope R_scope.

(** ** Turns of the plane *)
Lemma vrot_plus : forall s t p, vrot (s + t) p = vrot s (vrot t p).
Proof. intros s t [x y]. unfold vrot; cbn [fst snd]. rewrite cos_plus, sin_plus. f_equal; ring. Qed.
Lemma vrot_turns : forall t k p, vrot (t + 2 * PI * IZR k) p = vrot t p.
Proof. intros t k [x y]. unfold vrot; cbn [fst snd]. now rewrite cos_turn, sin_turn. Qed.
Lemma vrot_sub : forall t p q, vsub (vrot t p) (vrot t q) = vrot t (vsub p q).
Proof. intros t [x y] [z w]. unfold vrot, vsub; cbn [fst snd]. f_equal; ring. Qed.
Lemma vrot_adds : forall t p q, vadd (vrot t p) (vrot t q) = vrot t (vadd p q).
Proof. intros t [x y] [z w]. unfold vrot, vadd; cbn [fst snd]. f_equal; ring. Qed.
Lemma vrot_scal : forall t k p, vscal k (vrot t p) = vrot t (vscal k p).
Proof. intros t k [x y]. unfold vrot, vscal; cbn [fst snd]. f_equal; ring. Qed.
Lemma vrot_dot : forall t p q, vdot (vrot t p) (vrot t q) = vdot p q.
Proof.
  intros t [x y] [z w]. unfold vrot, vdot; cbn [fst snd]. pose proof (cos_sin_1 t) as E.
  replace ((cos t * x - sin t * y) * (cos t * z - sin t * w) + (sin t * x + cos t * y) * (sin t * z + cos t * w))
    with ((cos t * cos t + sin t * sin t) * (x * z + y * w)) by ring. rewrite E. ring.
Qed.
Lemma vnorm_dot : forall p, vnorm p = sqrt (vdot p p).
Proof. intros [x y]. reflexivity. Qed.
Lemma vrot_vnorm : forall t p, vnorm (vrot t p) = vnorm p.
Proof. intros t p. now rewrite !vnorm_dot, vrot_dot. Qed.
Lemma vrot_facing : forall s t, vrot s (cos t, sin t) = (cos (t + s), sin (t + s)).
Proof. intros s t. unfold vrot; cbn [fst snd]. rewrite cos_plus, sin_plus. f_equal; ring. Qed.
Lemma vrot_whole : forall k p, vrot (2 * PI * IZR k) p = p.
Proof.
  intros k [x y]. rewrite <- (Rplus_0_l (2 * PI * IZR k)), vrot_turns. unfold vrot; cbn [fst snd].
  rewrite cos_0, sin_0. f_equal; ring.
Qed.

Section Motion.
  Variable m : motion.
  Notation pt := (put m).
  Notation pl := (put_lane m).
  Notation pg := (put_graph m).
  Notation pv := (put_vehicle m).
  Notation po := (put_object m).
  Notation pr := (put_road m).
  Notation pe := (put_env m).

  Lemma put_sub : forall p q, vsub (pt p) (pt q) = vrot (m_angle m) (vsub p q).
  Proof. intros p q. rewrite <- vrot_sub. unfold put, vadd, vsub; cbn [fst snd]. f_equal; ring. Qed.
  Lemma put_add : forall p u, vadd (pt p) (vrot (m_angle m) u) = pt (vadd p u).
  Proof. intros p u. unfold put. rewrite <- vrot_adds. unfold vadd; cbn [fst snd]. f_equal; ring. Qed.
  Lemma put_norm : forall p q, vnorm (vsub (pt p) (pt q)) = vnorm (vsub p q).
  Proof. intros p q. now rewrite put_sub, vrot_vnorm. Qed.
  Lemma face_cos : forall i h, (cos (face m i h), sin (face m i h)) = vrot (m_angle m) (cos h, sin h).
  Proof. intros i h. unfold face. rewrite cos_turn, sin_turn, vrot_facing. reflexivity. Qed.
  Lemma face_plus : forall i h b, (cos (face m i h + b), sin (face m i h + b)) = vrot (m_angle m) (cos (h + b), sin (h + b)).
  Proof.
    intros i h b. rewrite <- (face_cos i (h + b)). unfold face.
    replace (h + m_angle m + 2 * PI * IZR (m_turns m i) + b) with (h + b + m_angle m + 2 * PI * IZR (m_turns m i)) by ring.
    reflexivity.
  Qed.
  Lemma face_add : forall i h b, face m i h + b = face m i (h + b).
  Proof. intros. unfold face. ring. Qed.

  (** ** Lanes *)
  Definition sound (l : lane) : Prop := wholly m \/ (quarterly m /\ goes_somewhere l).
  Lemma put_dir : forall st en, straight_dir (pt st) (pt en) = vrot (m_angle m) (straight_dir st en).
  Proof. intros st en. unfold straight_dir. rewrite put_norm, put_sub. now rewrite vrot_scal. Qed.
  Lemma put_lat : forall st en, straight_lat (pt st) (pt en) = vrot (m_angle m) (straight_lat st en).
  Proof.
    intros st en. unfold straight_lat. rewrite put_dir. destruct (straight_dir st en) as [x y].
    unfold vrot; cbn [fst snd]. f_equal; ring.
  Qed.
  Lemma put_straight_position : forall st en s d, straight_position (pt st) (pt en) s d = pt (straight_position st en s d).
  Proof.
    intros st en s d. unfold straight_position. rewrite put_dir, put_lat, !vrot_scal, !put_add. reflexivity.
  Qed.
  Lemma put_position : forall l s d, l_position (pl l) s d = pt (l_position l s d).
  Proof.
    intros l s d. unfold l_position. cbn [put_lane l_geom]. destruct (l_geom l) as [st en|st en a w ph|c r sp ep cw];
      cbn [put_geometry geom_position]; try apply put_straight_position.
    cbv zeta. rewrite <- put_add, <- vrot_scal, vrot_facing.
    replace (circ_dir cw * s / r + (sp + m_angle m)) with (circ_dir cw * s / r + sp + m_angle m) by ring. reflexivity.
  Qed.
  Lemma put_length : forall l, l_length (pl l) = l_length l.
  Proof.
    intros l. unfold l_length. cbn [put_lane l_geom]. destruct (l_geom l) as [st en|st en a w ph|c r sp ep cw];
      cbn [put_geometry geom_length]; try apply put_norm. ring.
  Qed.
  Lemma put_straight_local : forall st en p, straight_local (pt st) (pt en) (pt p) = straight_local st en p.
  Proof. intros st en p. unfold straight_local. now rewrite put_dir, put_lat, put_sub, !vrot_dot. Qed.
  Lemma put_local : forall l p, sound l -> l_local (pl l) (pt p) = l_local l p.
  Proof.
    intros l p H. unfold l_local. cbn [put_lane l_geom]. unfold sound, goes_somewhere in H.
    destruct (l_geom l) as [st en|st en a w ph|c r sp ep cw]; cbn [put_geometry geom_local].
    - apply put_straight_local.
    - now rewrite put_straight_local.
    - destruct H as [[k K]|[_ []]]. cbv zeta. rewrite put_sub, K, vrot_whole.
      set (a := atan2 _ _). replace (a - (sp + 2 * PI * IZR k)) with (a - sp + 2 * PI * IZR (- k)) by (rewrite opp_IZR; ring).
      rewrite wrap_turn. f_equal. f_equal. f_equal. ring.
  Qed.
  (** Headings of lanes turn with the scene, up to whole turns. *)
  Definition turned (h h' : R) : Prop := exists k : Z, h' = h + m_angle m + 2 * PI * IZR k.
  Lemma turned_same : forall h h', cos h' = cos (h + m_angle m) -> sin h' = sin (h + m_angle m) -> turned h h'.
  Proof.
    intros h h' C S. pose proof (wrap_congr _ _ C S) as E.
    destruct (wrap_is_wrapped h') as [_ [j J]], (wrap_is_wrapped (h + m_angle m)) as [_ [i I]].
    exists (i - j)%Z. rewrite minus_IZR. lra.
  Qed.
  Lemma turned_straight : forall st en, wholly m \/ st <> en -> turned (straight_heading st en) (straight_heading (pt st) (pt en)).
  Proof.
    intros st en [[k K]|N].
    - exists (- k)%Z. rewrite opp_IZR, K. unfold straight_heading.
      change (atan2 (snd (vsub (pt en) (pt st))) (fst (vsub (pt en) (pt st))) =
              atan2 (snd (vsub en st)) (fst (vsub en st)) + 2 * PI * IZR k + 2 * PI * - IZR k).
      rewrite put_sub, K, vrot_whole. ring.
    - apply turned_same.
      + assert (N' : pt st <> pt en).
        { intro E. apply (f_equal (fun p => vsub p (pt st))) in E. rewrite !put_sub in E.
          apply (f_equal vnorm) in E. rewrite !vrot_vnorm in E. pose proof (norm_pos st en N).
          replace (vsub st st) with ((0, 0) : vec) in E by (unfold vsub; f_equal; ring).
          rewrite (proj2 (vnorm_zero (0, 0)) eq_refl) in E. lra. }
        pose proof (straight_dir_heading _ _ N') as E. rewrite put_dir, (straight_dir_heading _ _ N), vrot_facing in E.
        injection E as E1 E2. symmetry. exact E1.
      + assert (N' : pt st <> pt en).
        { intro E. apply (f_equal (fun p => vsub p (pt st))) in E. rewrite !put_sub in E.
          apply (f_equal vnorm) in E. rewrite !vrot_vnorm in E. pose proof (norm_pos st en N).
          replace (vsub st st) with ((0, 0) : vec) in E by (unfold vsub; f_equal; ring).
          rewrite (proj2 (vnorm_zero (0, 0)) eq_refl) in E. lra. }
        pose proof (straight_dir_heading _ _ N') as E. rewrite put_dir, (straight_dir_heading _ _ N), vrot_facing in E.
        injection E as E1 E2. symmetry. exact E2.
  Qed.
  Lemma put_heading : forall l s, sound l -> turned (l_heading l s) (l_heading (pl l) s).
  Proof.
    intros l s H. unfold l_heading. cbn [put_lane l_geom]. unfold sound, goes_somewhere in H.
    destruct (l_geom l) as [st en|st en a w ph|c r sp ep cw]; cbn [put_geometry geom_heading].
    - apply turned_straight. tauto.
    - assert (N : wholly m \/ st <> en) by tauto. destruct (turned_straight st en N) as [k K]. exists k. rewrite K. ring.
    - exists 0%Z. cbv zeta. unfold Rdiv. ring.
  Qed.
  Lemma turned_wrap : forall h h' i x, turned h h' -> wrap_to_pi (h' + x - face m i 0) = wrap_to_pi (h + x).
  Proof.
    intros h h' i x [k K]. unfold face.
    replace (h' + x - (0 + m_angle m + 2 * PI * IZR (m_turns m i))) with (h + x + 2 * PI * IZR (k - m_turns m i)) by (rewrite minus_IZR, K; ring).
    apply wrap_turn.
  Qed.
  Lemma face_0 : forall i h, face m i h = h + face m i 0.
  Proof. intros. unfold face. ring. Qed.
  Lemma put_on_lane_hint : forall l p s d w, sound l -> on_lane (pl l) (pt p) s d w = on_lane l p s d w.
  Proof. intros l p s d w H. unfold on_lane. rewrite put_local by exact H. unfold l_width_at. rewrite put_length. reflexivity. Qed.
  Lemma put_reachable : forall l p, sound l -> is_reachable_from (pl l) (pt p) = is_reachable_from l p.
  Proof. intros l p H. unfold is_reachable_from. rewrite put_local by exact H. unfold l_width_at. rewrite put_length. reflexivity. Qed.
  Lemma put_after_end : forall l p s, sound l -> after_end (pl l) (pt p) s = after_end l p s.
  Proof. intros l p s H. unfold after_end. rewrite put_local by exact H. now rewrite put_length. Qed.
  Lemma put_distance : forall l p, sound l -> l_distance (pl l) (pt p) = l_distance l p.
  Proof. intros l p H. unfold l_distance. rewrite put_local by exact H. now rewrite put_length. Qed.
  Lemma put_distance_heading : forall l p i h w, sound l ->
    l_distance_with_heading (pl l) (pt p) (Some (face m i h)) w = l_distance_with_heading l p (Some h) w.
  Proof.
    intros l p i h w H. unfold l_distance_with_heading. rewrite put_local by exact H. rewrite put_length.
    destruct (l_local l p) as [s r]. pose proof (put_heading l s H) as [k K].
    assert (E : wrap_to_pi (face m i h - l_heading (pl l) s) = wrap_to_pi (h - l_heading l s)).
    { unfold face. rewrite K.
      replace (h + m_angle m + 2 * PI * IZR (m_turns m i) - (l_heading l s + m_angle m + 2 * PI * IZR k))
        with (h - l_heading l s + 2 * PI * IZR (m_turns m i - k)) by (rewrite minus_IZR; ring). apply wrap_turn. }
    now rewrite E.
  Qed.

  (** ** Networks *)
  Lemma assoc_map : forall {A B} (f : A -> B) k (l : list (string * A)),
    assoc k (map (fun x => (fst x, f (snd x))) l) = option_map f (assoc k l).
  Proof. induction l as [|[a x] l IH]; cbn [map assoc fst snd]; [reflexivity|]. rewrite IH. destruct (String.eqb _ _); reflexivity. Qed.
  Definition put_roads (d : list (string * list lane)) : list (string * list lane) := map (fun bl => (fst bl, map pl (snd bl))) d.
  Lemma put_assoc : forall g a, assoc a (pg g) = option_map put_roads (assoc a g).
  Proof. intros g a. unfold put_graph. exact (assoc_map put_roads a g). Qed.
  Lemma put_roads_keys : forall d, keys (put_roads d) = keys d.
  Proof. intros d. unfold keys, put_roads. rewrite map_map. reflexivity. Qed.
  Lemma put_g_lanes : forall g a b, g_lanes (pg g) a b = rmap (map pl) (g_lanes g a b).
  Proof.
    intros g a b. unfold g_lanes, g_succ. rewrite put_assoc. destruct (assoc a g) as [d|]; cbn [option_map bind]; [|reflexivity].
    unfold put_roads. rewrite (assoc_map (map pl)). destruct (assoc b d); reflexivity.
  Qed.
  Lemma py_index_map : forall {A B} (f : A -> B) l i, py_index (map f l) i = rmap f (py_index l i).
  Proof.
    intros A B f l i. unfold py_index. rewrite map_length. cbv zeta. destruct (0 <=? _)%Z; [|reflexivity].
    rewrite nth_error_map. destruct (nth_error l _); reflexivity.
  Qed.
  Lemma put_get_lane : forall g i, get_lane (pg g) i = rmap pl (get_lane g i).
  Proof.
    intros g i. unfold get_lane. rewrite put_g_lanes. destruct (g_lanes g (li_from i) (li_to i)) as [ls|x]; cbn [rmap bind]; [|reflexivity].
    rewrite map_length. destruct (li_id i); [apply py_index_map|]. destruct (_ =? _)%nat; [apply py_index_map|reflexivity].
  Qed.
  Lemma put_enum : forall g, enum_lanes (pg g) = map (fun il => (fst il, pl (snd il))) (enum_lanes g).
  Proof.
    intros g. unfold enum_lanes, put_graph. induction g as [|[a d] g IH]; [reflexivity|]. cbn [map flat_map fst snd].
    rewrite IH, map_app. f_equal. clear IH. induction d as [|[b ls] d IH]; [reflexivity|]. cbn [map flat_map fst snd].
    rewrite IH, map_app. f_equal. clear IH. unfold enum_road. rewrite map_length. generalize (seq 0 (List.length ls)).
    induction ls as [|l ls IH]; intros [|k ks]; cbn [map combine]; try reflexivity. now rewrite IH.
  Qed.

  Lemma bind_on : forall {A B} (r : res A) (k k' : A -> res B), (forall x, r = Ok x -> k x = k' x) -> bind r k = bind r k'.
  Proof. intros A B [x|x] k k' H; cbn; auto. Qed.
  Lemma first_min_map : forall {A B} (f : A -> B) (key : B -> R) l, first_min key (map f l) = rmap f (first_min (fun x => key (f x)) l).
  Proof.
    intros A B f key [|x l]; [reflexivity|]. cbn [map first_min rmap bind]. f_equal. revert x.
    induction l as [|y l IH]; intros x; cbn [map first_min_from]; [reflexivity|]. rewrite <- IH. f_equal.
    destruct (Rltb _ _); reflexivity.
  Qed.
  Lemma first_min_ext : forall {A} (key key' : A -> R) l, (forall x, In x l -> key x = key' x) -> first_min key l = first_min key' l.
  Proof.
    intros A key key' [|x l] H; [reflexivity|]. cbn [first_min]. f_equal. assert (Hx : key x = key' x) by (apply H; now left).
    assert (Hl : forall y, In y l -> key y = key' y) by (intros; apply H; now right). clear H. revert x Hx.
    induction l as [|y l IH]; intros x Hx; cbn [first_min_from]; [reflexivity|].
    rewrite (Hl y (or_introl eq_refl)), Hx. apply IH; [intros; apply Hl; now right|].
    destruct (Rltb _ _); [apply Hl; now left|exact Hx].
  Qed.
  Lemma fits_lanes : forall g l, fits m g -> In l (lanes_of g) -> sound l.
  Proof. intros g l [H|[Q H]] I; [now left|right; auto]. Qed.
  Lemma g_lanes_of : forall g a b ls l, g_lanes g a b = Ok ls -> In l ls -> In l (lanes_of g).
  Proof.
    intros g a b ls l E I. unfold g_lanes, g_succ in E. destruct (assoc a g) as [d|] eqn:A; [|discriminate].
    cbn [bind] in E. destruct (assoc b d) as [ls'|] eqn:B; [|discriminate]. injection E as ->.
    apply assoc_In in A. apply assoc_In in B. unfold lanes_of. apply in_flat_map. exists (a, d). split; [exact A|].
    apply in_flat_map. exists (b, ls). split; assumption.
  Qed.
  Lemma get_lane_of : forall g i l, get_lane g i = Ok l -> In l (lanes_of g).
  Proof.
    intros g i l E. unfold get_lane in E. destruct (g_lanes g (li_from i) (li_to i)) as [ls|] eqn:L; [|discriminate]. cbn [bind] in E.
    assert (P : forall k, py_index ls k = Ok l -> In l ls).
    { intros k. unfold py_index. cbv zeta. destruct (0 <=? _)%Z; [|discriminate].
      destruct (nth_error ls _) eqn:N; [|discriminate]. intro H. injection H as ->. now apply nth_error_In in N. }
    apply (g_lanes_of _ _ _ _ _ L). destruct (li_id i); [now apply P in E|]. destruct (_ =? _)%nat; [now apply P in E|discriminate].
  Qed.
  Lemma enum_lanes_of : forall g i l, In (i, l) (enum_lanes g) -> In l (lanes_of g).
  Proof.
    intros g i l I. unfold enum_lanes in I. apply in_flat_map in I. destruct I as [[a d] [A I]]. apply in_flat_map in I.
    destruct I as [[b ls] [B I]]. cbn [fst snd] in *. unfold enum_road in I. apply in_map_iff in I. destruct I as [[k x] [E I]].
    cbn [snd] in E. injection E as _ <-. apply in_combine_r in I. unfold lanes_of. apply in_flat_map. exists (a, d). split; [exact A|].
    apply in_flat_map. exists (b, ls). split; assumption.
  Qed.

  Variable g : graph.
  Hypothesis ok : fits m g.
  Lemma at_lane : forall {A} i (f f' : lane -> res A), (forall l, sound l -> f' (pl l) = f l) ->
    bind (get_lane (pg g) i) f' = bind (get_lane g i) f.
  Proof.
    intros A i f f' H. rewrite put_get_lane, bind_rmap. apply bind_on. intros l E. apply H.
    apply (fits_lanes g); [exact ok|]. now apply get_lane_of in E.
  Qed.
  Lemma put_closest : forall p i h, get_closest_lane_index (pg g) (pt p) (Some (face m i h)) = get_closest_lane_index g p (Some h).
  Proof.
    intros p i h. unfold get_closest_lane_index. rewrite put_enum, first_min_map. cbn [snd fst].
    rewrite (first_min_ext _ (fun il => l_distance_with_heading (snd il) p (Some h) 1)).
    - destruct (first_min _ _) as [[j l]|x]; reflexivity.
    - intros [j l] I. cbn [snd]. apply put_distance_heading. apply (fits_lanes g); [exact ok|]. now apply enum_lanes_of in I.
  Qed.
  Lemma put_closest_id : forall ls p, (forall l, In l ls -> sound l) -> closest_lane_id (map pl ls) (pt p) = closest_lane_id ls p.
  Proof.
    intros ls p H. unfold closest_lane_id. rewrite map_length.
    assert (C : combine (zrange (List.length ls)) (map pl ls) = map (fun kl => (fst kl, pl (snd kl))) (combine (zrange (List.length ls)) ls)).
    { clear H. generalize (zrange (List.length ls)). induction ls as [|l ls IH]; intros [|k ks]; cbn [map combine]; try reflexivity. now rewrite IH. }
    rewrite C, first_min_map. cbn [snd fst].
    rewrite (first_min_ext _ (fun kl => l_distance (snd kl) p)).
    - destruct (first_min _ _) as [[j l]|x]; reflexivity.
    - intros [k l] I. cbn [snd]. apply put_distance, H. now apply in_combine_r in I.
  Qed.
  Lemma put_next : forall cur rt p d, next_lane (pg g) cur rt (pt p) d = next_lane g cur rt p d.
  Proof.
    intros cur rt p d. unfold next_lane. destruct (next_lane_route cur rt) as [rt1 planned]. f_equal.
    assert (F : forall n,
      (do here <- g_lanes (pg g) (li_from cur) (li_to cur); do there <- g_lanes (pg g) (li_to cur) n;
       if Nat.eqb (List.length here) (List.length there) then Ok (li_to cur, n, li_id cur)
       else do k <- closest_lane_id there (pt p); Ok (li_to cur, n, Some k)) =
      (do here <- g_lanes g (li_from cur) (li_to cur); do there <- g_lanes g (li_to cur) n;
       if Nat.eqb (List.length here) (List.length there) then Ok (li_to cur, n, li_id cur)
       else do k <- closest_lane_id there p; Ok (li_to cur, n, Some k))).
    { intro n. rewrite !put_g_lanes.
      destruct (g_lanes g (li_from cur) (li_to cur)) as [here|x]; cbn [rmap bind]; [|reflexivity].
      destruct (g_lanes g (li_to cur) n) as [there|x] eqn:T; cbn [rmap bind]; [|reflexivity].
      rewrite !map_length. destruct (_ =? _)%nat; [reflexivity|]. rewrite put_closest_id; [reflexivity|].
      intros l I. apply (fits_lanes g); [exact ok|]. now apply (g_lanes_of _ _ _ _ _ T). }
    cbv zeta.
destruct (truthy_node planned) as [n|]; [apply F|]. rewrite put_assoc.
    destruct (assoc (li_to cur) g) as [r|]; cbn [option_map]; [|reflexivity].
    assert (L : List.length (put_roads r) = List.length r) by (unfold put_roads; apply map_length).
    rewrite L, put_roads_keys. destruct r as [|x r]; [reflexivity|]. cbn [put_roads map].
    destruct (nth_error (keys (x :: r)) _); [apply F|reflexivity].
  Qed.

  (** ** One vehicle *)
  Lemma put_steering : forall v i, steering_control (pg g) (pv v) i = steering_control g v i.
  Proof.
    intros v i. unfold steering_control. apply at_lane. intros l H. f_equal. cbn [put_vehicle set_history set_pose v_pos v_heading v_speed].
    unfold steering_law. rewrite put_local by exact H. destruct (l_local l (v_pos v)) as [s d]. cbv zeta.
    set (c := Rclip (asin (Rclip (- KP_LATERAL * d / _) _ _)) _ _).
    pose proof (put_heading l (s + v_speed v * PURSUIT_TAU) H) as [k K].
    assert (E : wrap_to_pi (l_heading (pl l) (s + v_speed v * PURSUIT_TAU) + c - face m (v_id v) (v_heading v)) =
                wrap_to_pi (l_heading l (s + v_speed v * PURSUIT_TAU) + c - v_heading v)).
    { rewrite K. unfold face. match goal with |- wrap_to_pi ?a = wrap_to_pi ?b => replace a with (b + 2 * PI * IZR (k - m_turns m (v_id v))) by (rewrite minus_IZR; ring) end.
      apply wrap_turn. }
    now rewrite E.
  Qed.
  Lemma put_idm_steering : forall v i, idm_steering (pg g) (pv v) i = idm_steering g v i.
  Proof.
    intros v i. unfold idm_steering. cbn [put_vehicle set_history set_pose v_kind v_par].
    destruct (v_kind v); try apply put_steering. apply at_lane. intros l H. f_equal. cbn [put_vehicle set_history set_pose v_pos v_heading v_speed].
    unfold linear_steering_law. rewrite put_local by exact H. destruct (l_local l (v_pos v)) as [s d]. cbv zeta.
    pose proof (put_heading l (s + v_speed v * PURSUIT_TAU) H) as [k K].
    assert (E : wrap_to_pi (l_heading (pl l) (s + v_speed v * PURSUIT_TAU) - face m (v_id v) (v_heading v)) =
                wrap_to_pi (l_heading l (s + v_speed v * PURSUIT_TAU) - v_heading v)).
    { rewrite K. unfold face. match goal with |- wrap_to_pi ?a = wrap_to_pi ?b => replace a with (b + 2 * PI * IZR (k - m_turns m (v_id v))) by (rewrite minus_IZR; ring) end.
      apply wrap_turn. }
    now rewrite E.
  Qed.
  Lemma put_follow : forall d v, follow_road (pg g) d (pv v) = rmap pv (follow_road g d v).
  Proof.
    intros d v. unfold follow_road. cbn [put_vehicle set_history set_pose v_pos v_target_lane v_route]. rewrite rmap_bind.
    apply at_lane. intros l H. rewrite put_after_end by exact H. destruct (after_end l (v_pos v) None); [|reflexivity].
    rewrite put_next. destruct (next_lane g (v_target_lane v) _ (v_pos v) d) as [rt' r]. rewrite rmap_bind. apply bind_ext. intro i.
    destruct (v_route v); reflexivity.
  Qed.
  Lemma put_candidate_lane : forall i k, lane_change_candidate (pg g) i k = lane_change_candidate g i k.
  Proof.
    intros i k. unfold lane_change_candidate. destruct (li_id i); [|reflexivity]. rewrite put_g_lanes, bind_rmap.
    apply bind_ext. intro ls. now rewrite map_length.
  Qed.
  Lemma put_try : forall v k, try_lane_change (pg g) (pv v) k = rmap pv (try_lane_change g v k).
  Proof.
    intros v k. unfold try_lane_change. cbn [put_vehicle set_history set_pose v_pos v_target_lane]. rewrite put_candidate_lane, rmap_bind.
    apply bind_ext. intro i. rewrite rmap_bind. apply at_lane. intros l H. rewrite put_reachable by exact H.
    destruct (is_reachable_from l (v_pos v)); reflexivity.
  Qed.
  Lemma put_meta : forall v a, apply_meta (pg g) (pv v) a = rmap pv (apply_meta g v a).
  Proof. intros v [[]|]; cbn [apply_meta]; try reflexivity; apply put_try. Qed.
  Lemma put_low : forall v, low_level (pg g) (pv v) = rmap pv (low_level g v).
  Proof.
    intros v. unfold low_level. rewrite put_steering. cbn [put_vehicle set_history set_pose v_target_lane].
    rewrite rmap_bind. apply bind_ext. intro s. reflexivity.
  Qed.
  Lemma put_controlled_act : forall d v a, controlled_act (pg g) d (pv v) a = rmap pv (controlled_act g d v a).
  Proof.
    intros d v a. unfold controlled_act. rewrite put_follow, bind_rmap, rmap_bind. apply bind_ext. intro v1.
    rewrite put_meta, bind_rmap, rmap_bind. apply bind_ext. intro v2. apply put_low.
  Qed.
  Lemma put_mdp_act : forall d v a, mdp_act (pg g) d (pv v) a = rmap pv (mdp_act g d v a).
  Proof.
    intros d v [[]|]; cbn [mdp_act]; try apply put_controlled_act;
      (rewrite <- put_controlled_act; reflexivity).
  Qed.
  (** A step of the equations of motion. *)
  Lemma put_vehicle_step : forall b v dt, vehicle_step (pg g) b (pv v) dt = rmap pv (vehicle_step g b v dt).
  Proof.
    assert (P : forall b v dt, on_state_update (pg g) b (integrate (clip_actions (pv v)) dt) =
                             rmap pv (on_state_update g b (integrate (clip_actions v) dt))).
    { intros b v dt.
      assert (I : integrate (clip_actions (pv v)) dt = pv (integrate (clip_actions v) dt)).
      { unfold integrate.
        change (clip_actions (pv v)) with (pv (clip_actions v)). set (w := clip_actions v).
        cbn [put_vehicle set_history set_pose v_heading v_pos v_speed v_steering v_accel v_id].
        rewrite face_plus, !vrot_scal, put_add, face_add. reflexivity. }
      rewrite I. set (w := integrate (clip_actions v) dt). unfold on_state_update.
      change (v_pos (pv w)) with (pt (v_pos w)). change (v_heading (pv w)) with (face m (v_id w) (v_heading w)).
      rewrite put_closest, rmap_bind. apply bind_ext. intro i. destruct b; [|reflexivity].
      cbn [rmap bind]. f_equal. unfold push_history.
      unfold put_vehicle. cbn [set_history set_lane_index set_pose v_id v_kind v_pos v_heading v_speed v_lane_index v_steering v_accel v_crashed
    v_collisions v_history v_target_lane v_target_speed v_route v_speed_index v_grid v_enable_lane_change v_timer v_par v_is_yielding v_yield_timer v_has_color].
      rewrite <- firstn_map. reflexivity. }
    intros b v dt. unfold vehicle_step. change (v_kind (pv v)) with (v_kind v).
    destruct (is_idm (v_kind v)); [|apply P].
    change (set_timer (pv v) (v_timer (pv v) + dt)) with (pv (set_timer v (v_timer v + dt))). apply P.
  Qed.
End Motion.
