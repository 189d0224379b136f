(** Property theorems for the texts of exceptions (C85-C87).
    [fmt k x] stands for "{:.kf}" of x; [fmt_fixed] is that of binary64.  [reports x l]: x is an error exactly when a check of l fails,
    and then carries the exception and the text of the first failing one. *)
From Coq Require Import ZArith Reals List Bool String.
From Flocq Require Import BinarySingleNaN.
From Verif Require Import Num NumP Py SpecNum Validate ValidateP Ring RingSystem FS GridParams GridDiag Names GridProp Fmt SpecFmt FmtP Text SpecText Message
  SpecMsg SpecMsgGrid TextRingP MessageP MessageSpecP MessageRingP MessageGridP MessageExP MessageRefP MessageMergeP.
Import ListNotations.
Local Open Scope string_scope.
Local Open Scope list_scope.

(** C85.  Texts of the validators. *)
Theorem C85_number {T} {NT : Num T} {LT : NumLaws T} fmt name (v : pyval T) ci lo up ex :
  small v -> small lo -> small up -> numberlike lo -> numberlike up ->
  reports (number_m fmt name v ci lo up ex) [number_check (fun b => fmt 4 (num_of b)) name v ci lo up ex].
Proof. exact (fun a b c d e => one_check (@number_judges T NT LT fmt name v ci lo up ex a b c d e)). Qed.
Print Assumptions C85_number.
Theorem C85_array {T} {NT : Num T} {LT : NumLaws T} fmt name (v : pyval T) lo up ex dt nd :
  osmall lo -> osmall up -> onum lo -> onum up -> (forall d sh el s, v = PArr d sh el -> In s el -> ssmall s) ->
  reports (array_m fmt name v lo up ex dt nd) [array_check (fun b => fmt 4 (num_of b)) str_int name v lo up ex dt nd].
Proof. exact (fun a b c d e => one_check (@array_judges T NT LT fmt name v lo up ex dt nd a b c d e)). Qed.
Print Assumptions C85_array.
Theorem C85_shapes {T} (l : list (pyval T)) names : 2 <= List.length l -> List.length l = List.length names -> all_arrays l ->
  reports (same_shape_m l names) [shapes_check str_tuple l names].
Proof. exact (fun a b c => one_check (@shapes_judge T l names a b c)). Qed.
Print Assumptions C85_shapes.
Theorem C85_both ex lo up v : low ex lo v /\ high ex up v /\ ~ xlt up lo <-> ex = true /\ v <> XNaN /\ lo = v /\ up = v.
Proof. exact (@both_iff ex lo up v). Qed.
Print Assumptions C85_both.
Theorem C85_written (b : pyval f64) : numberlike b -> small b ->
  val (num_of b) = value b /\ writes 4 (num_of b) (fmt_fixed 4 (num_of b)).
Proof. exact (@bound_written b). Qed.
Print Assumptions C85_written.
Theorem C85_printed_refuted :
  ~ (forall (v lo : f64) name w n, read_number w = Some (false, n, 4) ->
     number_m fmt_fixed name (PFloat v) false (PFloat lo) p_inf false =
       MErr ValueError (Some ("The " ++ name ++ " argument must be " ++ at_least false w)%string) ->
     xlt (val v) (XFin (IZR n / 10000))).
Proof. exact printed_bound_refuted. Qed.
Print Assumptions C85_printed_refuted.
Theorem C85_integers z : exists d, read_count d = Some (Z.abs z) /\ str_int z = (if Z.ltb z 0 then "-" ++ d else d)%string.
Proof. exact (int_text z). Qed.
Print Assumptions C85_integers.
Theorem C85_tuples l : exists ds, Forall2 (fun n d => read_count d = Some (Z.of_nat n)) l ds /\
  str_tuple l = match ds with [] => "()" | [d] => "(" ++ d ++ ",)" | _ => "(" ++ String.concat ", " ds ++ ")" end%string.
Proof. exact (tuple_text l). Qed.
Print Assumptions C85_tuples.
Theorem C85_misuse {T} (l : list (pyval T)) names :
  (List.length l < 2 -> same_shape_m l names = MErr AttributeError (Some "arrays_list argument should contain at least two arrays")) /\
  (2 <= List.length l -> List.length l <> List.length names -> exists a b, read_count a = Some (Z.of_nat (List.length l)) /\ read_count b = Some (Z.of_nat (List.length names)) /\
     same_shape_m l names = MErr AttributeError (Some ("arrays_list (" ++ a ++ ") should have the same length as names_list (" ++ b ++ ")")%string)).
Proof. exact (misuse l names). Qed.
Print Assumptions C85_misuse.
Example C85_tuples_ex : str_tuple [] = "()" /\ str_tuple [7] = "(7,)" /\ str_tuple [10; 0; 205] = "(10, 0, 205)" /\ str_int (-30) = "-30" /\
  same_shape_m [PArr "float64" [2] [] : pyval f64; PArr "float64" [2] []] ["a"] = MErr AttributeError (Some "arrays_list (2) should have the same length as names_list (1)").
Proof. repeat split. Qed.
Theorem C85_outcome {T} {NT : Num T} fmt :
  (forall name (v : pyval T) ci lo up ex, outcome (number_m fmt name v ci lo up ex) = number v ci lo up ex) /\
  (forall name (v : pyval T) lo up ex dt nd, outcome (array_m fmt name v lo up ex dt nd) = array v lo up ex dt nd) /\
  (forall (l : list (pyval T)) names, outcome (same_shape_m l names) = same_shape_arrays l (List.length names)).
Proof. exact (conj (@number_out T NT fmt) (conj (@array_out T NT fmt) (@same_shape_out T))). Qed.
Print Assumptions C85_outcome.
Example C85_ex : number_m fmt_fixed "x" (PFloat tiny_v) false (PFloat tiny_lo) p_inf false =
  MErr ValueError (Some "The x argument must be greater than or equal to 0.0000").
Proof. exact tiny_rejected. Qed.
Example C85_both_ex : number_m fmt_fixed "x" (PInt 1 : pyval f64) false (PInt 1) (PInt 1) true =
  MErr ValueError (Some "The x argument must be greater than 1.0000less than 1.0000").
Proof. apply err_is. vm_compute. exact eq_refl. Qed.

(** C86.  Texts of rings and ring systems. *)
Theorem C86_ring {T} {NT : Num T} {LT : NumLaws T} fmt (i o t inc tilt : pyval T) :
  plain i -> small i -> small o -> small t -> small inc -> small tilt ->
  reports (new_ring_m fmt i o t inc tilt) (ring_checks fmt i o t inc tilt).
Proof. exact (fun p a b c d e => first_checks (@ring_follows T NT LT fmt i o t inc tilt p a b c d e)). Qed.
Print Assumptions C86_ring.
Theorem C86_setter {T} {NT : Num T} {LT : NumLaws T} fmt (r : ring T) s : plain (setter_arg s) -> small (setter_arg s) ->
  reports (snd (set_ring_m fmt r s)) [setter_check fmt r s].
Proof. exact (fun a b => one_check (@setter_judges T NT LT fmt r s a b)). Qed.
Print Assumptions C86_setter.
Theorem C86_system {T} {NT : Num T} {LT : NumLaws T} fmt h (p i o t inc tilt lv : pyval T) :
  small p -> small inc -> small tilt -> small lv -> elements_small i -> elements_small o -> elements_small t ->
  reports (new_system_m fmt h p i o t inc tilt lv) (system_checks fmt str_int str_tuple p i o t inc tilt lv).
Proof. exact (fun a b c d e f g => first_checks (@system_follows T NT LT fmt h p i o t inc tilt lv a b c d e f g)). Qed.
Print Assumptions C86_system.
Theorem C86_add {T} {NT : Num T} {LT : NumLaws T} fmt h (s : rsys T) (index rg : pyval T) : small index -> (num_rings s <= 2 ^ 53)%Z ->
  reports (snd (add_ring_m fmt h s index rg)) (place_checks fmt h s index rg 0).
Proof. exact (fun a b => first_checks (@add_follows T NT LT fmt h s index rg a b)). Qed.
Print Assumptions C86_add.
Theorem C86_remove {T} {NT : Num T} {LT : NumLaws T} fmt h (s : rsys T) (index : pyval T) : small index -> (num_rings s <= 2 ^ 53)%Z ->
  reports (snd (remove_ring_m fmt h s index)) (remove_checks fmt s index).
Proof. exact (fun a b => first_checks (@remove_follows T NT LT fmt h s index a b)). Qed.
Print Assumptions C86_remove.
Theorem C86_replace {T} {NT : Num T} {LT : NumLaws T} fmt h (s : rsys T) (index rg : pyval T) : small index -> (num_rings s <= 2 ^ 53)%Z ->
  reports (snd (replace_ring_m fmt h s index rg)) (remove_checks fmt s index ++ place_checks fmt h s index rg 1).
Proof. exact (fun a b => first_checks (@replace_follows T NT LT fmt h s index rg a b)). Qed.
Print Assumptions C86_replace.
Theorem C86_split {T} {NT : Num T} {LT : NumLaws T} fmt h (s : rsys T) (nd : pyval T) : small nd -> elements_small nd -> forall e t,
  first_error (division_checks fmt str_int str_tuple s nd) e t -> split_rings_m fmt h s nd = (h, s, MErr e (Some t)).
Proof. exact (@split_text T NT LT fmt h s nd). Qed.
Print Assumptions C86_split.
Theorem C86_empty {T} {NT : Num T} {LT : NumLaws T} fmt h (s : rsys T) (index : pyval T) : s_rings s = [] -> int_like index -> small index ->
  remove_ring_m fmt h s index = (h, s, MErr ValueError
    (Some ("The upper_bound argument (" ++ fmt 4 (n_ofZ (-1)) ++ ") must be greater than the lower_bound (" ++ fmt 4 (n_ofZ 0) ++ ") argument.")%string)).
Proof. exact (@empty_text T NT LT fmt h s index). Qed.
Print Assumptions C86_empty.
(** merging: nothing is said about an empty system (the error is that of indexing), else the first ring to be made that is not a ring *)
Theorem C86_merge {T} {NT : Num T} {LT : NumLaws T} fmt h (s : rsys T) (tol : T) :
  (s_rings s = [] -> merge_rings_m fmt h s tol = (h, s, MErr IndexError None)) /\
  (forall r0 rs, rings_of h s = r0 :: rs ->
     reports (snd (merge_rings_m fmt h s tol)) (rings_checks fmt (s_inc s) (s_tilt s) (merge_loop tol (r0 :: rs) (r_in r0) (r_in r0) (r_tr r0)))).
Proof. exact (@merge_text T NT LT fmt h s tol). Qed.
Print Assumptions C86_merge.
Theorem C86_equal_radii_refuted :
  ~ (forall (h : list (ring f64)) (s : rsys f64) (index rg : pyval f64) a b,
     snd (add_ring_m fmt_fixed h s index rg) =
       MErr ValueError (Some ("Ring must have an inner radius (" ++ a ++ ") > the preceding ring's outer radius (" ++ b ++ ")")%string) ->
     a <> b).
Proof. exact overlap_text_refuted. Qed.
Print Assumptions C86_equal_radii_refuted.
Theorem C86_demand_refuted :
  ~ (forall (h : list (ring f64)) (s : rsys f64) (index : pyval f64) l p, neighbour h s index (-1) p ->
     snd (add_ring_m fmt_fixed h s index (PObj "Ring" l)) = MOk tt -> xlt (val (r_out p)) (val (r_in (deref h l)))).
Proof. exact demand_refuted. Qed.
Print Assumptions C86_demand_refuted.
Theorem C86_outcome {T} {NT : Num T} fmt :
  (forall i o t inc tilt : pyval T, outcome (new_ring_m fmt i o t inc tilt) = new_ring i o t inc tilt) /\
  (forall (r : ring T) s, out2 (set_ring_m fmt r s) = set_ring r s) /\
  (forall h (p i o t inc tilt lv : pyval T), outcome (new_system_m fmt h p i o t inc tilt lv) = new_system h p i o t inc tilt lv) /\
  (forall h (s : rsys T) i r, out2 (add_ring_m fmt h s i r) = add_ring h s i r) /\
  (forall h (s : rsys T) i, out2 (remove_ring_m fmt h s i) = remove_ring h s i) /\
  (forall h (s : rsys T) i r, out2 (replace_ring_m fmt h s i r) = replace_ring h s i r) /\
  (forall h (s : rsys T) nd, out2 (split_rings_m fmt h s nd) = split_rings h s nd) /\
  (forall h (s : rsys T) tol, out2 (merge_rings_m fmt h s tol) = merge_rings h s tol).
Proof.
  exact (conj (@new_ring_out T NT fmt) (conj (@set_ring_out T NT fmt) (conj (@new_system_out T NT fmt) (conj (@add_out T NT fmt)
    (conj (@remove_out T NT fmt) (conj (@replace_out T NT fmt) (conj (@split_out T NT fmt) (@merge_out T NT fmt)))))))).
Qed.
Print Assumptions C86_outcome.
Example C86_ex : snd (add_ring_m fmt_fixed h0 (sys0 [0]) (PInt 1) (PObj "Ring" 1)) =
  MErr ValueError (Some "Ring must have an inner radius (2.00) > the preceding ring's outer radius (2.00)").
Proof. exact overlap_equal. Qed.
Example C86_touching_ex : snd (add_ring_m fmt_fixed h0 (sys0 [0]) (PInt 1) (PObj "Ring" 2)) = MOk tt.
Proof. exact touching_accepted. Qed.

(** C87.  Texts of grid parameters, properties, gradients, diagnostics and of loading. *)
Theorem C87_params {T} {NT : Num T} {LT : NumLaws T} fmt (a b c d e f g h : pyval T) :
  small a -> small b -> small c -> small d -> small e -> small f -> small g -> small h ->
  reports (new_params_m fmt a b c d e f g h) (params_checks fmt a b c d e f g h).
Proof. exact (fun sa sb sc sd se sf sg sh => first_checks (@params_follows T NT LT fmt a b c d e f g h sa sb sc sd se sf sg sh)). Qed.
Print Assumptions C87_params.
Theorem C87_extend {T} {NT : Num T} fmt (g : gparams T) : g_ext g = false -> extend_grid_m fmt g =
  (g, MErr AttributeError (Some "This grid parameter object can not be extended. That is only possible when dx[0] = dy[0] = 0.")).
Proof. exact (@extend_text T NT fmt g). Qed.
Print Assumptions C87_extend.
Theorem C87_property {T} {NT : Num T} {LT : NumLaws T} fmt n u (v : pyval T) (g : earg (gparams T)) :
  reports (new_gprop_m fmt n u v g) (property_checks fmt str_int str_tuple n u v g).
Proof. exact (first_checks (@property_follows T NT LT fmt n u v g)). Qed.
Print Assumptions C87_property.
Theorem C87_gradient {T} {NT : Num T} {LT : NumLaws T} fmt (v : pyval T) (g : earg (gparams T)) pos : small pos ->
  reports (new_grad_m fmt v g pos) (gradient_checks fmt str_int str_tuple v g pos).
Proof. exact (fun a => first_checks (@gradient_follows T NT LT fmt v g pos a)). Qed.
Print Assumptions C87_gradient.
Theorem C87_mask {T} {NT : Num T} {LT : NumLaws T} fmt (p : gprop T) (v : pyval T) :
  reports (snd (set_mask_m fmt p v)) (mask_checks fmt str_int str_tuple p v).
Proof. exact (first_checks (@mask_follows T NT LT fmt p v)). Qed.
Print Assumptions C87_mask.
Theorem C87_contrast {T} {NT : Num T} {LT : NumLaws T} fmt (p : gprop T) a b c d : osmall a -> osmall b -> osmall d ->
  reports (snd (set_contrast_m fmt p a b c d)) (contrast_checks fmt p a b c d).
Proof. exact (fun sa sb sd => first_checks (@contrast_follows T NT LT fmt p a b c d sa sb sd)). Qed.
Print Assumptions C87_contrast.
Theorem C87_measure {T} {NT : Num T} {LT : NumLaws T} fmt (g : ggrad T) m o t e : small m -> small o -> osmall t -> osmall e ->
  value (or_else (PInt 1) t) <> XFin 0 ->
  reports (snd (determine_mask_m fmt g m o t e)) (measure_checks fmt m o t e).
Proof. exact (fun sm so st se z => first_checks (@measure_follows T NT LT fmt g m o t e sm so st se z)). Qed.
Print Assumptions C87_measure.
Theorem C87_keep {T} {NT : Num T} {LT : NumLaws T} fmt (d : gdiag T) (y x fy dr : pyval T) : small y -> small x -> sizes_small d ->
  reports (snd (save_diagnostic_m fmt d y x fy dr)) (keep_checks fmt str_int str_tuple d y x fy dr).
Proof. exact (fun sy sx sd => first_checks (@keep_follows T NT LT fmt d y x fy dr sy sx sd)). Qed.
Print Assumptions C87_keep.
Theorem C87_missing {T} {NT : Num T} {LT : NumLaws T} fmt (d : gdiag T) y x : sizes_small d ->
  let uy := (if d_ext d then 2 * (d_my d - 1) else d_my d - 1)%Z in
  let ux := (if d_ext d then 2 * (d_mx d - 1) else d_mx d - 1)%Z in
  (0 <= y <= uy)%Z -> (0 <= x <= ux)%Z ->
  let ky := (if d_ext d then Z.abs (y - d_my d) else y)%Z in
  let kx := (if d_ext d then Z.abs (x - d_mx d) else x)%Z in
  forall e o, get_diagnostic_m fmt d (PInt y) (PInt x) = MErr e o <->
    (dget (d_fy d) (KInt ky, KInt kx) = None \/ dget (d_dr d) (KInt ky, KInt kx) = None) /\
    e = KeyError /\ o = Some ("'(" ++ str_int ky ++ ", " ++ str_int kx ++ ")'")%string.
Proof. exact (@key_text T NT LT fmt d y x). Qed.
Print Assumptions C87_missing.
Theorem C87_missing_refuted {T} {NT : Num T} {LT : NumLaws T} fmt :
  ~ (forall (d : gdiag T) y x o, sizes_small d -> get_diagnostic_m fmt d (PInt y) (PInt x) = MErr KeyError o ->
     o = Some ("'(" ++ str_int y ++ ", " ++ str_int x ++ ")'")%string).
Proof. exact (@missing_refuted T NT LT fmt). Qed.
Print Assumptions C87_missing_refuted.
Theorem C87_load {T} {NT : Num T} (f : fs T) (d : string) (n : pname) (u : punit) e o :
  (params_load_m f d = MErr e o <-> (exists e', params_load f d = Err e') /\ e = LoadErr /\ o = Some ("failed to load grid parameters from " ++ d)%string) /\
  (diag_load_m f d = MErr e o <-> (exists e', diag_load f d = Err e') /\ e = LoadErr /\ o = Some ("failed to load grid diagnostics from " ++ d)%string) /\
  (grad_load_m f d = MErr e o <-> (exists e', grad_load f d = Err e') /\ e = LoadErr /\ o = Some ("failed to load Gradient [None] from " ++ d)%string) /\
  (gprop_load_m f (PStr d) (EIs n) (EIs u) = MErr e o <-> (exists e', gprop_load f (PStr d) (EIs n) (EIs u) = Err e') /\ e = LoadErr /\
     o = Some ("failed to load " ++ get_name n ++ " [" ++ unit_display u ++ "] from " ++ d)%string).
Proof. exact (@load_texts T NT f d n u e o). Qed.
Print Assumptions C87_load.
Theorem C87_load_distinct n u d n' u' d' :
  ("failed to load " ++ get_name n ++ " [" ++ unit_display u ++ "] from " ++ d)%string =
  ("failed to load " ++ get_name n' ++ " [" ++ unit_display u' ++ "] from " ++ d')%string -> n = n' /\ u = u' /\ d = d'.
Proof. exact (@load_distinct n u d n' u' d'). Qed.
Print Assumptions C87_load_distinct.
Theorem C87_outcome {T} {NT : Num T} fmt :
  (forall a b c d e f g h : pyval T, outcome (new_params_m fmt a b c d e f g h) = new_params a b c d e f g h) /\
  (forall g : gparams T, out2 (extend_grid_m fmt g) = extend_grid g) /\
  (forall (d : gdiag T) y x, outcome (get_diagnostic_m fmt d y x) = get_diagnostic d y x) /\
  (forall (d : gdiag T) y x fy dr, out2 (save_diagnostic_m fmt d y x fy dr) = save_diagnostic d y x fy dr) /\
  (forall n u (v : pyval T) g, outcome (new_gprop_m fmt n u v g) = new_gprop n u v g) /\
  (forall (p : gprop T) v, out2 (set_mask_m fmt p v) = set_mask p v) /\
  (forall (p : gprop T) a b c d, out2 (set_contrast_m fmt p a b c d) = set_contrast p a b c d) /\
  (forall (v : pyval T) g pos, outcome (new_grad_m fmt v g pos) = new_grad v g pos) /\
  (forall (g : ggrad T) m o t e, out2 (determine_mask_m fmt g m o t e) = determine_mask g m o t e).
Proof.
  exact (conj (@new_params_out T NT fmt) (conj (@extend_grid_out T NT fmt) (conj (@get_diag_out T NT fmt) (conj (@save_diag_out T NT fmt)
    (conj (@new_gprop_out T NT fmt) (conj (@set_mask_out T NT fmt) (conj (@contrast_out T NT fmt) (conj (@new_grad_out T NT fmt) (@determine_mask_out T NT fmt))))))))).
Qed.
Print Assumptions C87_outcome.
Example C87_ex : new_params_m fmt_fixed (PInt 0 : pyval f64) (PInt 1) (PInt 2) (PInt 1) (PInt 1) (PInt 2) (PInt 2) (PInt 3) =
  MErr ValueError (Some "max_y must be greater than min_y").
Proof. apply err_is. vm_compute. exact eq_refl. Qed.
Example C87_missing_ex : sizes_small (mirrored : gdiag f64) /\
  get_diagnostic_m fmt_fixed mirrored (PInt 0) (PInt 0) = MErr KeyError (Some "'(2, 2)'").
Proof. exact (conj mirrored_small (mirrored_text fmt_fixed)). Qed.
