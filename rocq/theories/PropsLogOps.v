(** Property theorems for the logs of grids (C96).  [op_log s o]: whether the call o on the grid s raises, and its records;
    [said text l]: how often the text was logged; [begun start l]: how often a text with this start; [clearing s l]: l tells
    that the fit is cleared, if there is one.  [fmt] stands for "{:.kf}". *)
From Coq Require Import ZArith Reals List Bool String.
From Verif Require Import Num Py SpecNum Ring RingSystem FS GridParams GridProp SpecProp Geometry Build SpecBuild Shallot AddLaws ShallotOps SpecOps SpecFmt Fmt Text Log LogOps SpecLogOps LogOpsP LogOpsSP LogOpsExP.
Import ListNotations.
Local Open Scope string_scope.
Local Open Scope list_scope.

(** C96.  What grids log. *)
(** a fit that is lost is reported once, and only then; so are lost gradients *)
Theorem C96_cleared {T} {NT : Num T} {LT : NumLaws T} (E : env T) fmt (s : shallot T) o :
  (fit_lost s (do_op E s o) -> said "gradient fit has been cleared" (snd (op_log E fmt s o)) = 1) /\
  (~ fit_lost s (do_op E s o) -> said "gradient fit has been cleared" (snd (op_log E fmt s o)) = 0).
Proof. exact (@fit_told T NT LT E fmt s o). Qed.
Print Assumptions C96_cleared.
Theorem C96_dropped {T} {NT : Num T} {LT : NumLaws T} (E : env T) fmt (s : shallot T) o :
  (gradients_lost s (do_op E s o) -> said "gradients set to None due to dependency on eclipse duration" (snd (op_log E fmt s o)) = 1) /\
  (~ gradients_lost s (do_op E s o) -> said "gradients set to None due to dependency on eclipse duration" (snd (op_log E fmt s o)) = 0).
Proof. exact (@gradients_told T NT LT E fmt s o). Qed.
Print Assumptions C96_dropped.
(** in any history, each clearing was preceded by a determination of its own *)
Theorem C96_history {T} {NT : Num T} {LT : NumLaws T} (E : env T) fmt ops (s : shallot T) :
  said "gradient fit has been cleared" (ops_log E fmt s ops) + has_fit (do_ops E s ops) <= begun "determining " (ops_log E fmt s ops) + has_fit s.
Proof. exact (@history T NT LT E fmt ops s). Qed.
Print Assumptions C96_history.
(** calls that do nothing say why, and change nothing *)
Theorem C96_refusals {T} {NT : Num T} {LT : NumLaws T} (E : env T) fmt (s : shallot T) :
  (forall t l e tr, snd (op_log E fmt s (OAdd t l e tr)) = [MISSING] <-> ~ eclipse_known s) /\
  (forall i, snd (op_log E fmt s (ORemove i)) = [NO_GRADIENTS] <-> s_grads s = None) /\
  (forall v u t, snd (op_log E fmt s (OScale v u t)) = [NO_CHANGES] <-> v = None /\ u = None /\ t = None) /\
  (forall w, snd (op_log E fmt s (OFit w)) = [NOTHING_TO_FIT] <-> s_grads s = None) /\
  (forall m b, snd (op_log E fmt s (OGetFit m b)) = [NO_FIT] <-> s_fit s = None).
Proof. exact (@refusals T NT LT E fmt s). Qed.
Print Assumptions C96_refusals.
Theorem C96_refused {T} {NT : Num T} {LT : NumLaws T} (E : env T) fmt (s : shallot T) o r :
  In r [MISSING; NO_GRADIENTS; NO_CHANGES; NOTHING_TO_FIT; NO_FIT] -> snd (op_log E fmt s o) = [r] -> do_op E s o = s /\ fst (op_log E fmt s o) = None.
Proof. exact (@refused_still T NT LT E fmt s o r). Qed.
Print Assumptions C96_refused.
(** calls that go through *)
Theorem C96_add {T} {NT : Num T} {LT : NumLaws T} (E : env T) (s s' : shallot T) t l e tr lg : arr_wf t -> eclipse_known s ->
  add_gradients_l E t l e tr s = (s', Ok tt, lg) ->
  exists n r c, lg = r :: c /\ ADDING n r /\ clearing s c /\ number_of_gradients s' = number_of_gradients s + n.
Proof. exact (@add_succeeds T NT LT E s s' t l e tr lg). Qed.
Print Assumptions C96_add.
Theorem C96_edits {T} {NT : Num T} {LT : NumLaws T} (E : env T) (s s' : shallot T) :
  (forall i lg, s_grads s <> None -> remove_gradients_l i s = (s', Ok tt, lg) -> clearing s lg) /\
  (forall v u t lg, ~ (v = None /\ u = None /\ t = None) -> update_gradient_scaling_l E v u t s = (s', Ok tt, lg) -> clearing s lg) /\
  (forall a b c lg, set_eclipse_parameters_l a b c s = (s', Ok tt, lg) ->
     (s_grads s = None /\ lg = []) \/ (s_grads s <> None /\ exists c, lg = DROPPED :: c /\ clearing s c)) /\
  (forall w gs r lg, s_grads s = Some gs -> determine_gradient_fit_l w s = (s', r, lg) -> exists x, lg = [x] /\ FITTING (List.length gs) x).
Proof. exact (conj (fun i lg => @remove_succeeds T NT s s' i lg) (conj (fun v u t lg => @scale_succeeds T NT E s s' v u t lg) (conj (fun a b c lg => @eclipse_succeeds T NT s s' a b c lg) (fun w gs r lg => @fit_says T NT s s' w gs r lg)))). Qed.
Print Assumptions C96_edits.
Theorem C96_extract {T} {NT : Num T} {LT : NumLaws T} {AL : AddLaws T} (E : env T) (s s' : shallot T) is n l lg :
  sreach E s -> unmasked s is -> n = None \/ (exists k, n = Some (PInt k) \/ n = Some (PNpInt k)) ->
  extract_solutions_l n s = (s', Ok l, lg) ->
  exists a b c, read_count a = Some (Z.of_nat (List.length l)) /\ read_count b = Some (Z.of_nat (List.length is)) /\ ((s_fit s <> None /\ c = []) \/ (s_fit s = None /\ c = [NO_FIT])) /\
    lg = mkRec 20 "extract_solutions" ("extracting " ++ a ++ " out of " ++ b ++ " possible solutions")%string :: c.
Proof. exact (@extract_says T NT LT E AL s s' is n l lg). Qed.
Print Assumptions C96_extract.
(** the values seen at the point that is returned, but the row coordinate of C51 in place of its dy *)
Theorem C96_closest {T} {NT : Num T} {LT : NumLaws T} {AL : AddLaws T} (E : env T) fmt (s s' : shallot T) v1 v2 v3 v4 m cy cx cr y x q d lg :
  sreach E s -> determine_closest_l fmt v1 v2 v3 v4 (PBool m) s = (s', Ok ((cy, cx, cr), (y, x, q), d), lg) ->
  exists R I Ti, seen s m (s_dr s) (place s y x q) R /\ seen s m (s_inc s) (place s y x q) I /\ seen s m (s_tilt s) (place s y x q) Ti /\
    map l_func lg = repeat "determine_closest_grid_point" 6 /\
    map l_text lg = ["property_name: input_value --> grid_value";
      "disk_radius: " ++ fmt 2 (num_of v1) ++ " --> " ++ fmt 2 R; "inclination: " ++ fmt 2 (num_of v2) ++ " --> " ++ fmt 2 I;
      "tilt: " ++ fmt 2 (num_of v3) ++ " --> " ++ fmt 2 Ti; "impact_parameter: " ++ fmt 2 (num_of v4) ++ " --> " ++ fmt 2 (row_of s (num_of v4) y); "'fit': " ++ fmt 6 d]%string.
Proof. exact (@closest_says T NT LT E fmt AL s s' v1 v2 v3 v4 m cy cx cr y x q d lg). Qed.
Print Assumptions C96_closest.
Theorem C96_impact_refuted : ~ (forall (E : env f64) s s' v1 v2 v3 v4 m cy cx cr i d lg, sreach E s ->
  determine_closest_l fmt_fixed v1 v2 v3 v4 (PBool m) s = (s', Ok ((cy, cx, cr), i, d), lg) ->
  In ("impact_parameter: " ++ fmt_fixed 2 (num_of v4) ++ " --> " ++ fmt_fixed 2 cy)%string (map l_text lg)).
Proof. exact impact_refuted. Qed.
Print Assumptions C96_impact_refuted.
(** calls that raise say at most what they were going to do *)
Theorem C96_error {T} {NT : Num T} {LT : NumLaws T} (E : env T) fmt (s : shallot T) o e lg : op_log E fmt s o = (Some e, lg) ->
  match o with
  | OAdd (PArr _ [n] _) _ _ _ => lg = [] \/ exists r, lg = [r] /\ ADDING n r
  | OFit _ => exists r, lg = [r] /\ FITTING (number_of_gradients s) r
  | OExtract _ => lg = [] \/ exists r, l_func r = "extract_solutions" /\ lg = r :: (match s_fit s with Some _ => [] | None => [NO_FIT] end)
  | _ => lg = []
  end.
Proof. exact (@error_says T NT LT E fmt s o e lg). Qed.
Print Assumptions C96_error.
Theorem C96_announced_refuted : ~ (forall (E : env f64) s t l e tr n r, sreach E s -> ADDING n r ->
  In r (snd (op_log E fmt_fixed s (OAdd t l e tr))) -> fst (op_log E fmt_fixed s (OAdd t l e tr)) = None).
Proof. exact announced_refuted. Qed.
Print Assumptions C96_announced_refuted.
(** calls that only read or set a mask are silent, and the console shows everything or nothing *)
Theorem C96_quiet {T} {NT : Num T} {LT : NumLaws T} (E : env T) fmt (s : shallot T) o level :
  (silent o = true -> snd (op_log E fmt s o) = []) /\
  console level (snd (op_log E fmt s o)) = if Z.leb level 20 then snd (op_log E fmt s o) else [].
Proof. exact (conj (@quiet_calls T NT E fmt s o) (@op_levels T NT LT E fmt s o level)). Qed.
Print Assumptions C96_quiet.
(** building reports each row in turn, then the greatest deviation *)
Theorem C96_built {T} {NT : Num T} {LT : NumLaws T} (E : env T) fmt (g : gparams T) nf ll keep inter og st r lg :
  new_shallot_l E fmt (EIs g) nf ll keep inter = (og, (st, r), lg) ->
  let n := List.length (g_dy g) in
  match r with
  | Ok s => exists rows v m, lg = rows ++ [mkRec 20 "diagnose_fxfy_resolution" ("maximum deviation is " ++ fmt 4 v ++ " - explore by plotting")%string] /\
      Forall2 (fun y x => ROW y n x) (seq 1 n) rows /\ s_dmap s = Some m /\ greatest (p_data m) v
  | Err _ => exists k, k <= n /\ Forall2 (fun y x => ROW y n x) (seq 1 k) lg
  end.
Proof. exact (@new_says T NT LT E fmt g nf ll keep inter og st r lg). Qed.
Print Assumptions C96_built.
(** a build that is resumed reports the rows that are left *)
Theorem C96_resumed {T} {NT : Num T} {LT : NumLaws T} (E : env T) (s : shallot T) i start st r lg : build_grid_l E s i start = ((st, r), lg) ->
  let n := List.length (g_dy (s_params s)) in let k := Z.to_nat (int_of start) in
  exists m, Forall2 (fun y x => ROW y n x) (seq (S k) m) lg /\ m <= n - k /\ match r with Ok _ => m = n - k | Err _ => True end.
Proof. exact (@build_says T NT E s i start st r lg). Qed.
Print Assumptions C96_resumed.
Theorem C96_outcome {T} {NT : Num T} (E : env T) fmt :
  (forall t l e tr s, fst (add_gradients_l E t l e tr s) = add_gradients E t l e tr s) /\
  (forall i s, fst (remove_gradients_l (T := T) i s) = remove_gradients i s) /\
  (forall a b c s, fst (set_eclipse_parameters_l (T := T) a b c s) = set_eclipse_parameters a b c s) /\
  (forall v u t s, fst (update_gradient_scaling_l E v u t s) = update_gradient_scaling E v u t s) /\
  (forall w s, fst (determine_gradient_fit_l (T := T) w s) = determine_gradient_fit w s) /\
  (forall m b s, fst (get_gradient_fit_l (T := T) m b s) = get_gradient_fit m b s) /\
  (forall n s, fst (extract_solutions_l (T := T) n s) = extract_solutions n s) /\
  (forall a b c d m s, fst (determine_closest_l fmt a b c d m s) = determine_closest a b c d m s) /\
  (forall s i y, fst (build_grid_l E s i y) = build_grid E s i y) /\
  (forall g nf ll k i, fst (new_shallot_l E fmt g nf ll k i) = new_shallot E g nf ll k i).
Proof.
  exact (conj (add_drop E) (conj (@remove_drop T NT) (conj (@eclipse_drop T NT) (conj (scale_drop E) (conj (@fit_drop T NT) (conj (@getfit_drop T NT) (conj (@extract_drop T NT)
    (conj (closest_drop fmt) (conj (build_drop E) (new_drop E fmt)))))))))).
Qed.
Print Assumptions C96_outcome.
Example C96_ex : lines fitted2 =
  ["INFO     - determine_gradient_fit: no gradients present";
   "INFO     - add_gradients: adding 3 gradients";
   "INFO     - determine_gradient_fit: determining 3 gradient rms's";
   "INFO     - extract_solutions: extracting 2 out of 24 possible solutions";
   "INFO     - _reset_gradient_fit: gradient fit has been cleared";
   "INFO     - get_gradient_fit: no gradient fit found";
   "INFO     - update_gradient_scaling: no changes passed";
   "INFO     - determine_gradient_fit: determining 2 gradient rms's";
   "INFO     - set_eclipse_parameters: gradients set to None due to dependency on eclipse duration";
   "INFO     - _reset_gradient_fit: gradient fit has been cleared";
   "INFO     - determine_closest_grid_point: property_name: input_value --> grid_value";
   "INFO     - determine_closest_grid_point: disk_radius: 5.00 --> 3.75";
   "INFO     - determine_closest_grid_point: inclination: 30.00 --> 24.00";
   "INFO     - determine_closest_grid_point: tilt: 80.00 --> 90.00";
   "INFO     - determine_closest_grid_point: impact_parameter: 1.00 --> 0.33";
   "INFO     - determine_closest_grid_point: 'fit': 11.747636"] /\
  built_lines =
  ["INFO     - _build_grid: building y = 1/2"; "INFO     - _build_grid: building y = 2/2";
   "INFO     - diagnose_fxfy_resolution: maximum deviation is 0.0424 - explore by plotting"].
Proof. exact ex_lines. Qed.
