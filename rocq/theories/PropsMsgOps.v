(** Property theorems for the texts of the exceptions of built grids and viewers (C94).
    [announces x l]: the exceptions of x with a text of the program are exactly those of the first failing check of l; when all checks
    pass, x is a result or an exception of Python itself.  [sreach E s]: the grid s was built and then changed by any calls. *)
From Coq Require Import ZArith Reals List Bool String.
From Verif Require Import Num Py SpecNum Validate Ring RingSystem FS GridParams SpecGrid GridDiag Names GridProp SpecProp Geometry Build SpecBuild Shallot AddLaws ShallotOps SpecOps
  OpsReadP OpsExP Viewer Fmt Text Message SpecMsg SpecMsgGrid MessageExP MessageOps SpecMsgOps MessageOpsP MessageTellP MessageTell2P MessageBuildP MessageOpsExP.
Import ListNotations.
Local Open Scope string_scope.
Local Open Scope list_scope.

(** C94.  Texts of the exceptions of grids and viewers. *)
Theorem C94_viewer {T} {NT : Num T} {LT : NumLaws T} fmt ax axis (prop : earg (gprop T)) masked index frozen co :
  small axis -> osmall index -> (forall p, prop = EIs p -> preach p /\ within (p_params p)) ->
  announces (snd (new_viewer_m fmt ax axis prop masked index frozen co)) (viewer_checks fmt ax axis prop masked index frozen co).
Proof. exact (viewer_announces fmt ax axis prop masked index frozen co). Qed.
Print Assumptions C94_viewer.
Theorem C94_getters {T} {NT : Num T} {LT : NumLaws T} {AL : AddLaws T} (E : env T) (s : shallot T) m b : sreach E s ->
  reports (snd (get_disk_radius_m m b s)) (getter_checks m b) /\ reports (snd (get_inclination_m m b s)) (getter_checks m b) /\
  reports (snd (get_tilt_m m b s)) (getter_checks m b) /\ reports (snd (get_fx_map_m m b s)) (getter_checks m b) /\
  reports (snd (get_fy_map_m m b s)) (getter_checks m b) /\ reports (snd (get_diagnostic_map_m m b s)) (getter_checks m b) /\
  (s_fit s <> None -> reports (snd (get_gradient_fit_m m b s)) (getter_checks m b)).
Proof. exact (getters_report E s m b). Qed.
Print Assumptions C94_getters.
Theorem C94_hill {T} {NT : Num T} {LT : NumLaws T} {AL : AddLaws T} fmt (E : env T) (s : shallot T) h : sreach E s -> small h ->
  reports (snd (generate_hill_radius_mask_m fmt h s)) (hill_checks fmt h).
Proof. exact (fun r sh => first_checks (hill_follows fmt h (reached_sinv r) sh)). Qed.
Print Assumptions C94_hill.
Theorem C94_point {T} {NT : Num T} {LT : NumLaws T} {AL : AddLaws T} fmt (E : env T) (s : shallot T) y x r m :
  sreach E s -> within (s_params s) -> small y -> small x -> small r ->
  announces (snd (get_grid_point_data_m fmt y x r m s)) (point_checks fmt (s_params s) y x r m).
Proof. exact (fun h w sy sx sr => heeds_announces _ _ (point_heeds fmt y x r m (reached_sinv h) w sy sx sr)). Qed.
Print Assumptions C94_point.
Theorem C94_extract {T} {NT : Num T} {LT : NumLaws T} {AL : AddLaws T} fmt (E : env T) (s : shallot T) is v :
  sreach E s -> unmasked s is -> (Z.of_nat (List.length is) <= 2 ^ 53)%Z -> osmall v ->
  announces (snd (extract_solutions_m fmt v s)) (extract_checks fmt (List.length is) v).
Proof. exact (extract_announces E fmt s is v). Qed.
Print Assumptions C94_extract.
Theorem C94_closest {T} {NT : Num T} {LT : NumLaws T} {AL : AddLaws T} fmt (E : env T) (s : shallot T) a b c d m :
  sreach E s -> small a -> small b -> small c -> small d ->
  announces (snd (determine_closest_m fmt a b c d m s)) (closest_checks fmt a b c d m).
Proof. exact (fun h sa sb sc sd => heeds_announces _ _ (closest_heeds fmt a b c d m (reached_sinv h) sa sb sc sd)). Qed.
Print Assumptions C94_closest.
Theorem C94_gradients {T} {NT : Num T} {LT : NumLaws T} {AL : AddLaws T} (E : env T) (s : shallot T) gs m b :
  sreach E s -> s_grads s = Some gs -> (forall g, In g gs -> exists o, scaled_gradient g = Ok o) ->
  announces (snd (get_gradients_m m b s)) (gradients_checks gs m b).
Proof. exact (fun h hg hs => heeds_announces _ _ (gradients_heeds m b (reached_sinv h) hg hs)). Qed.
Print Assumptions C94_gradients.
Theorem C94_eclipse {T} {NT : Num T} {LT : NumLaws T} fmt (s : shallot T) a b c : small a -> small b -> small c ->
  reports (snd (set_eclipse_parameters_m fmt a b c s)) (eclipse_checks fmt a b c).
Proof. exact (fun sa sb sc => first_checks (@eclipse_follows T NT LT fmt s a b c sa sb sc)). Qed.
Print Assumptions C94_eclipse.
Theorem C94_removal {T} {NT : Num T} {LT : NumLaws T} fmt (s : shallot T) v : tame_array v ->
  (forall gs, s_grads s = Some gs -> (Z.of_nat (List.length gs) <= 2 ^ 53)%Z) ->
  announces (snd (remove_gradients_m fmt v s)) (removal_checks fmt str_int s v).
Proof. exact (fun h n => heeds_announces _ _ (removal_heeds fmt s h n)). Qed.
Print Assumptions C94_removal.
Theorem C94_addition {T} {NT : Num T} {LT : NumLaws T} fmt (E : env T) (s : shallot T) t l e tr :
  ready s -> arr_wf t -> arr_wf l -> tame_array l -> (forall v, e = Some v -> tame_array v) -> (forall v, tr = Some v -> tame_array v) ->
  announces (snd (add_gradients_m E fmt t l e tr s)) (addition_checks E fmt str_int str_tuple s t l e tr).
Proof. exact (fun r wt wl tl te tt' => heeds_announces _ _ (addition_heeds E fmt t r wt wl tl te tt')). Qed.
Print Assumptions C94_addition.
Theorem C94_addition_refused {T} {NT : Num T} fmt (E : env T) (s : shallot T) t l e tr : ~ ready s ->
  add_gradients_m E fmt t l e tr s = (s, MOk tt).
Proof. exact (@addition_refused T NT E fmt s t l e tr). Qed.
Print Assumptions C94_addition_refused.
Theorem C94_scaling {T} {NT : Num T} {LT : NumLaws T} fmt (E : env T) (s : shallot T) v u tr :
  (forall gs g, s_grads s = Some gs -> In g gs -> tame_gradient g) -> (forall t, tr = Some t -> tame_array t) ->
  announces (snd (update_gradient_scaling_m E fmt v u tr s)) (scaling_checks E fmt str_int str_tuple s v u tr).
Proof. exact (fun g t => heeds_announces _ _ (scaling_heeds E fmt s v u g t)). Qed.
Print Assumptions C94_scaling.
Theorem C94_construct {T} {NT : Num T} {LT : NumLaws T} fmt (E : env T) (parameters : earg (gparams T)) nf level keep inter e t :
  small nf -> small level -> first_error (grid_checks fmt parameters nf level keep inter) e t ->
  snd (snd (new_shallot_m E fmt parameters nf level keep inter)) = MErr e (Some t).
Proof. exact (@construct_announces T NT LT E fmt parameters nf level keep inter e t). Qed.
Print Assumptions C94_construct.
Theorem C94_construct_later {T} {NT : Num T} {LT : NumLaws T} fmt (E : env T) (g : gparams T) nf level keep inter e t :
  small nf -> small level -> reachable g -> Forall passes (grid_checks fmt (EIs g) nf level keep inter) ->
  (g_ext g = false \/ exists g', extend_grid g = (g', Ok tt)) -> (forall c, In c (radius_of_params E g) -> ~ xlt (val c) (XFin 0)) ->
  snd (snd (new_shallot_m E fmt (EIs g) nf level keep inter)) = MErr e (Some t) -> e = AttributeError /\ t = "check code or user input".
Proof. exact (@complains_r T NT LT E fmt g nf level keep inter e t). Qed.
Print Assumptions C94_construct_later.
Theorem C94_save {T} {NT : Num T} {LT : NumLaws T} fmt (E : env T) (s : shallot T) d y : within (s_params s) -> osmall y ->
  announces (snd (shallot_save_m E fmt s d y)) (save_checks fmt (s_params s) d y).
Proof. exact (fun w sy => heeds_announces _ _ (save_heeds E fmt s d y w sy)). Qed.
Print Assumptions C94_save.
Theorem C94_load {T} {NT : Num T} (E : env T) (f : fs T) (s : shallot T) d : announces (load_attributes_m E f s d) (load_checks f d).
Proof. exact (heeds_announces _ _ (load_heeds E f s d)). Qed.
Print Assumptions C94_load.
Theorem C94_quadrants {T} {NT : Num T} (g : gparams T) (p : gprop T) t : announces (fill_quadrants_m g p t) (quadrant_checks str_tuple g p).
Proof. exact (heeds_announces _ _ (quadrants_heeds g p t)). Qed.
Print Assumptions C94_quadrants.
Theorem C94_outcome {T} {NT : Num T} fmt (E : env T) :
  (forall ax axis prop masked index frozen co, outs (new_viewer_m fmt ax axis prop masked index frozen co) = new_viewer ax axis prop masked index frozen co) /\
  (forall m b s, outs (get_disk_radius_m m b s) = get_disk_radius m b s /\ outs (get_inclination_m m b s) = get_inclination m b s /\
     outs (get_tilt_m m b s) = get_tilt m b s /\ outs (get_fx_map_m m b s) = get_fx_map m b s /\ outs (get_fy_map_m m b s) = get_fy_map m b s /\
     outs (get_diagnostic_map_m m b s) = get_diagnostic_map m b s /\ outs (get_gradient_fit_m m b s) = get_gradient_fit m b s /\
     outs (get_gradients_m m b s) = get_gradients m b s) /\
  (forall h s, outs (generate_hill_radius_mask_m fmt h s) = generate_hill_radius_mask h s) /\
  (forall t l e tr s, outs (add_gradients_m E fmt t l e tr s) = add_gradients E t l e tr s) /\
  (forall i s, outs (remove_gradients_m fmt i s) = remove_gradients i s) /\
  (forall a b c s, outs (set_eclipse_parameters_m fmt a b c s) = set_eclipse_parameters a b c s) /\
  (forall v u tr s, outs (update_gradient_scaling_m E fmt v u tr s) = update_gradient_scaling E v u tr s) /\
  (forall y x r m s, outs (get_grid_point_data_m fmt y x r m s) = get_grid_point_data y x r m s) /\
  (forall n s, outs (extract_solutions_m fmt n s) = extract_solutions n s) /\
  (forall a b c d m s, outs (determine_closest_m fmt a b c d m s) = determine_closest a b c d m s) /\
  (forall g nf lv k i, outs2 (new_shallot_m E fmt g nf lv k i) = new_shallot E g nf lv k i) /\
  (forall s d y, shallot_save E s d y = fst (shallot_save_m E fmt s d y) ++ match snd (shallot_save_m E fmt s d y) with MOk _ => [] | MErr e _ => [SRaise e] end) /\
  (forall f d lv, outs (shallot_load_m E fmt f d lv) = shallot_load E f d lv).
Proof. exact (@outcomes T NT E fmt). Qed.
Print Assumptions C94_outcome.
(** a wrong property_masked is not named *)
Theorem C94_named_refuted : ~ (forall (E : env f64) s m b e t, sreach E s -> ~ is_bool b -> snd (get_disk_radius_m m b s) = MErr e (Some t) ->
  t = "property_masked is not of type boolean").
Proof. exact named_refuted. Qed.
Print Assumptions C94_named_refuted.
Example C94_ex : exists s, sreach env2 s /\ texts2 s = true. Proof. exact texts2_reached. Qed.
