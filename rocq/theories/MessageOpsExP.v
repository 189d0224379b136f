(** Texts of exceptions of built grids: statements for all reachable grids, a refutation and examples. *)
From Coq Require Import ZArith Reals List Bool String Lia.
From Verif Require Import Num NumP Py SpecNum Validate Ring RingSystem FS GridParams SpecGrid GridDiag Names GridProp SpecProp GridPropP Geometry Build SpecBuild BuildCP Shallot AddLaws ShallotOps SpecOps
  OpsP OpsReadP OpsExtractP OpsWrapP BuildExP OpsExP Viewer Fmt Text Message SpecMsg SpecMsgGrid MessageExP MessageOps SpecMsgOps MessageOpsP MessageTellP MessageTell2P MessageBuildP TestsP TestsMsgP.
Import ListNotations.
Local Open Scope string_scope.
Local Open Scope list_scope.

Section R.
Context {T : Type} {NT : Num T} {LT : NumLaws T} {AL : AddLaws T} (E : env T).
Variable fmt : nat -> T -> string.
Notation shallot := (shallot T).
Theorem getters_report (s : shallot) m b : sreach E s ->
  reports (snd (get_disk_radius_m m b s)) (getter_checks m b) /\ reports (snd (get_inclination_m m b s)) (getter_checks m b) /\
  reports (snd (get_tilt_m m b s)) (getter_checks m b) /\ reports (snd (get_fx_map_m m b s)) (getter_checks m b) /\
  reports (snd (get_fy_map_m m b s)) (getter_checks m b) /\ reports (snd (get_diagnostic_map_m m b s)) (getter_checks m b) /\
  (s_fit s <> None -> reports (snd (get_gradient_fit_m m b s)) (getter_checks m b)).
Proof.
  intros Hr. assert (H := reached_sinv Hr).
  split; [exact (first_checks (cube_follows WRadius m b H))|]. split; [exact (first_checks (cube_follows WInclination m b H))|].
  split; [exact (first_checks (cube_follows WTilt m b H))|]. split; [exact (first_checks (cube_follows WFx m b H))|].
  split; [exact (first_checks (cube_follows WFy m b H))|]. split; [exact (first_checks (dmap_follows m b H))|].
  intros Hf. destruct (s_fit s) as [p|] eqn:Hp; [|contradiction Hf; reflexivity]. exact (first_checks (fit_follows m b H Hp)).
Qed.
Theorem extract_announces (s : shallot) is v : sreach E s -> unmasked s is -> (Z.of_nat (List.length is) <= 2 ^ 53)%Z -> osmall v ->
  announces (snd (extract_solutions_m fmt v s)) (extract_checks fmt (List.length is) v).
Proof. intros Hr Hu. rewrite (unmasked_count Hu). intros Hn Hv. apply heeds_announces, (@extract_heeds T NT LT AL fmt s v (reached_sinv Hr) Hn Hv). Qed.
Theorem viewer_announces ax axis (prop : earg (gprop T)) masked index frozen co : small axis -> osmall index ->
  (forall p, prop = EIs p -> preach p /\ within (p_params p)) ->
  announces (snd (new_viewer_m fmt ax axis prop masked index frozen co)) (viewer_checks fmt ax axis prop masked index frozen co).
Proof.
  intros Sa Si Hp. apply heeds_announces, viewer_heeds; [exact Sa|exact Si|]. intros p Ep. destruct (Hp p Ep) as [A B]. split; [exact (preach_inv A)|exact B].
Qed.
Theorem complains_r (g : gparams T) nf level keep inter e t : small nf -> small level -> reachable g ->
  Forall passes (grid_checks fmt (EIs g) nf level keep inter) ->
  (g_ext g = false \/ exists g', extend_grid g = (g', Ok tt)) -> (forall c, In c (radius_of_params E g) -> ~ xlt (val c) (XFin 0)) ->
  snd (snd (new_shallot_m E fmt (EIs g) nf level keep inter)) = MErr e (Some t) -> e = AttributeError /\ t = "check code or user input".
Proof. intros Sn Sl Hr. apply construct_complains; [exact Sn|exact Sl|exact (reachable_proper Hr)]. Qed.
Theorem outcomes :
  (forall ax axis prop masked index frozen co, outs (new_viewer_m fmt ax axis prop masked index frozen co) = new_viewer ax axis prop masked index frozen co) /\
  (forall m b s, outs (get_disk_radius_m m b s) = get_disk_radius m b s /\ outs (get_inclination_m m b s) = get_inclination m b s /\
     outs (get_tilt_m m b s) = get_tilt m b s /\ outs (get_fx_map_m m b s) = get_fx_map m b s /\ outs (get_fy_map_m m b s) = get_fy_map m b s /\
     outs (get_diagnostic_map_m m b s) = get_diagnostic_map m b s /\ outs (get_gradient_fit_m m b s) = get_gradient_fit m b s /\
     outs (get_gradients_m m b s) = get_gradients m b s) /\
  (forall h s, outs (generate_hill_radius_mask_m fmt h s) = generate_hill_radius_mask h s) /\
  (forall t l e tr s, outs (add_gradients_m E fmt t l e tr s) = add_gradients E t l e tr s) /\
  (forall i s, outs (remove_gradients_m fmt i s) = remove_gradients i s) /\
  (forall a b c s, outs (set_eclipse_parameters_m fmt a b c s) = set_eclipse_parameters a b c s) /\
  (forall v u tr s, outs (update_gradient_scaling_m E fmt v u tr s) = update_gradient_scaling E v u tr s) /\
  (forall y x r m s, outs (get_grid_point_data_m fmt y x r m s) = get_grid_point_data y x r m s) /\
  (forall n s, outs (extract_solutions_m fmt n s) = extract_solutions n s) /\
  (forall a b c d m s, outs (determine_closest_m fmt a b c d m s) = determine_closest a b c d m s) /\
  (forall g nf lv k i, outs2 (new_shallot_m E fmt g nf lv k i) = new_shallot E g nf lv k i) /\
  (forall s d y, shallot_save E s d y = fst (shallot_save_m E fmt s d y) ++ match snd (shallot_save_m E fmt s d y) with MOk _ => [] | MErr e _ => [SRaise e] end) /\
  (forall f d lv, outs (shallot_load_m E fmt f d lv) = shallot_load E f d lv).
Proof.
  split; [exact (viewer_out fmt)|]. split.
  { intros m b s. repeat split; [apply radius_same|apply inclination_same|apply tilt_same|apply fx_same|apply fy_same|apply dmap_same|apply fit_same|apply gradients_same]. }
  split; [exact (hill_same fmt)|]. split; [exact (add_same E fmt)|]. split; [exact (remove_same fmt)|]. split; [exact (eclipse_same fmt)|].
  split; [exact (scaling_same E fmt)|]. split; [exact (point_same fmt)|]. split; [exact (extract_same fmt)|]. split; [exact (closest_same fmt)|].
  split; [exact (new_shallot_out E fmt)|]. split; [exact (save_out E fmt)|exact (load_out E fmt)].
Qed.
End R.

(** the text about a wrong property_masked speaks of masked *)
Lemma named_refuted : ~ (forall (E : env f64) s m b e t, sreach E s -> ~ is_bool b -> snd (get_disk_radius_m m b s) = MErr e (Some t) -> t = "property_masked is not of type boolean").
Proof.
  intros H. destruct built_reach as [s Hs]. 
  specialize (H env2 s (PBool true) (PInt 1) TypeError "masked is not of type boolean" Hs). 
  assert (X : "masked is not of type boolean" = "property_masked is not of type boolean") by (apply H; [intros [? X]; discriminate X|reflexivity]). discriminate X.
Qed.
(** texts of a grid with three gradients *)
Definition texts2 (s : shallot f64) : bool :=
  forallb (fun b => b) [
    says TypeError "masked is not of type boolean" (snd (get_tilt_m (PInt 0) (PBool true) s));
    says ValueError "The hill_radius argument must be greater than or equal to 0.0000" (snd (generate_hill_radius_mask_m fmt_fixed (PInt (-1)) s));
    says ValueError "The x_index argument must be less than or equal to 5.0000" (snd (get_grid_point_data_m fmt_fixed (PInt 0) (PInt 6) (PInt 9) (PBool true) s));
    says ValueError "The num_solutions argument must be greater than or equal to 0.0000" (snd (extract_solutions_m fmt_fixed (Some (PInt (-1))) s));
    says ValueError "The inclination argument must be less than or equal to 90.0000" (snd (determine_closest_m fmt_fixed (PInt 1) (PInt 91) (PInt 200) (PInt 0) (PBool true) s));
    says TypeError "limb_darkening is not of type 'number'" (snd (set_eclipse_parameters_m fmt_fixed (PInt 1) (PInt 1) PNone s));
    says TypeError "times is not of type np.ndarray" (snd (add_gradients_m env2 fmt_fixed (PInt 1) (PInt 1) None None s));
    says InvalidShape "times (2,), light_curve_gradients (1,) should all have the same shape." (snd (add_gradients_m env2 fmt_fixed (F [1; 2]%Z) (F [1]%Z) None None s));
    says ValueError "scaled gradient is greater than one, check the measured gradient, orbital scale and transmission change"
      (snd (add_gradients_m env2 fmt_fixed (F [1]%Z) (F [70]%Z) None (Some (F [1]%Z)) s));
    says ValueError "The indices argument must contain solely values less than or equal to 2.0000" (snd (remove_gradients_m fmt_fixed (PArr "int64" [1%nat] [SI 3]) s));
    says InvalidShape "transmission_changes (2,), gradients (3,) should all have the same shape." (snd (update_gradient_scaling_m env2 fmt_fixed None None (Some (F [1; 2]%Z)) s));
    says TypeError "masked is not of type boolean" (snd (get_gradients_m (PBool true) PNone s));
    says TypeError "y_value is not of type integer" (snd (shallot_save_m env2 fmt_fixed s (PStr "d") (Some PNone)))].
Lemma texts2_ok : OpsExP.holds ops2 texts2. Proof. vm_compute. exact eq_refl. Qed.
Lemma texts2_reached : exists s, sreach env2 s /\ texts2 s = true. Proof. exact (holds_in ops2 texts2 ops2_wf texts2_ok). Qed.
