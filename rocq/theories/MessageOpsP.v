(** Without the texts, the functions of MessageOps.v are those of the other model files. *)
From Coq Require Import ZArith Reals List Bool String Lia.
From Verif Require Import Num Py Validate Ring RingSystem FS GridParams GridDiag Names GridProp Geometry Build Shallot ShallotOps Viewer Fmt Text Message MessageOps MessageP.
Import ListNotations.
Set Implicit Arguments.
Local Open Scope string_scope.
Local Open Scope list_scope.

Section P.
Context {T : Type} {NT : Num T} (E : env T).
Variable fmt : nat -> T -> string.
Notation pyval := (pyval T).
Notation shallot := (shallot T).

Definition outs {S A} (x : S * mres A) : S * res A := (fst x, outcome (snd x)).

Lemma bool_out name (v : pyval) : outcome (boolean_m name v) = boolean_v v. Proof. apply out_saying. Qed.
Lemma str_out name (v : pyval) : outcome (string_m name v) = string_v v. Proof. apply out_saying. Qed.
Lemma carg_out A name shown (e : earg A) : outcome (class_arg_m name shown e) = class_arg e. Proof. apply out_saying. Qed.
Lemma get_data_outs (p : gprop T) v : outs (get_data_m p v) = get_data p v.
Proof. unfold outs. apply get_data_out. Qed.
Lemma determine_mask_outs (g : ggrad T) m o t e : outs (determine_mask_m fmt g m o t e) = determine_mask g m o t e.
Proof. exact (determine_mask_out fmt g m o t e). Qed.

(** replace an erased result by the result *)
Ltac look x := let e := fresh "e" in let t := fresh "t" in destruct x as [?|e t]; cbn [outcome].
Ltac both H := match type of H with outcome ?x = ?y => rewrite <- H; look x end.

Theorem viewer_out ax axis prop masked index frozen co :
  outs (new_viewer_m fmt ax axis prop masked index frozen co) = new_viewer ax axis prop masked index frozen co.
Proof.
  unfold new_viewer_m, new_viewer.
  both (number_out fmt "axis" axis true (PInt 0) (PInt 2) false); [|reflexivity].
  both (carg_out "ax" "Axes" ax); [|reflexivity]. both (carg_out "grid_property" "GridProperty" prop); [|reflexivity].
  match goal with |- context [get_data ?q masked] => rewrite <- (get_data_outs q masked); destruct (get_data_m q masked) as [q' r] end.
  unfold outs. cbn [fst snd]. f_equal. apply out_bind; [reflexivity|]. intros d. cbv zeta. apply out_bind; [apply number_out|]. intros i.
  apply out_bind; [destruct co as [|l|]; [reflexivity| |reflexivity]; destruct (forallb _ l); reflexivity|]. intros c.
  apply out_bind; [destruct (vector_at _ _) as [|? [|? ?]]; reflexivity|]. intros tol.
  destruct (is_bool_v i || is_bool_v _); [reflexivity|]. destruct frozen as [b|]; [|reflexivity].
  apply out_bind; [apply bool_out|]. reflexivity.
Qed.

(** *** methods *)
Definition same {A} (m : MM (T := T) A) (m' : M (T := T) A) : Prop := forall s, outs (m s) = m' s.
Lemma same_ret A (a : A) : same (tret a) (ret a). Proof. intros s. reflexivity. Qed.
Lemma same_lift A (r : mres A) (r' : res A) : outcome r = r' -> same (tlift r) (lift r'). Proof. intros <- s. reflexivity. Qed.
Lemma same_bind A B (m : MM A) (m' : M A) (f : A -> MM B) (f' : A -> M B) : same m m' -> (forall a, same (f a) (f' a)) ->
  same (tbind m f) (ShallotOps.mbind m' f').
Proof.
  intros H Hf s. unfold tbind, ShallotOps.mbind. rewrite <- (H s). destruct (m s) as [s1 [a|e t]]; [apply Hf|reflexivity].
Qed.
Lemma read_out p put m b : outs (read_property_m (T := T) p put m b) = read_property p put m b.
Proof.
  unfold read_property_m, read_property. rewrite <- (get_data_outs p b). destruct (get_data_m p b) as [q [d|e t]]; [|reflexivity]. cbn [outs fst snd outcome].
  both (bool_out "masked" m); [|reflexivity]. destruct a; [|reflexivity]. destruct (combined_mask (put q)); [|reflexivity].
  destruct (shape_eqb _ _); reflexivity.
Qed.
Lemma radius_same m b : same (get_disk_radius_m m b) (get_disk_radius m b). Proof. intros s. apply read_out. Qed.
Lemma inclination_same m b : same (get_inclination_m m b) (get_inclination m b). Proof. intros s. apply read_out. Qed.
Lemma tilt_same m b : same (get_tilt_m m b) (get_tilt m b). Proof. intros s. apply read_out. Qed.
Lemma fx_same m b : same (get_fx_map_m m b) (get_fx_map m b). Proof. intros s. apply read_out. Qed.
Lemma fy_same m b : same (get_fy_map_m m b) (get_fy_map m b). Proof. intros s. apply read_out. Qed.
Lemma dmap_same m b : same (get_diagnostic_map_m m b) (get_diagnostic_map m b).
Proof. intros s. unfold get_diagnostic_map_m, get_diagnostic_map. destruct (s_dmap s); [apply read_out|reflexivity]. Qed.
Lemma fit_same m b : same (get_gradient_fit_m m b) (get_gradient_fit m b).
Proof.
  intros s. unfold get_gradient_fit_m, get_gradient_fit. destruct (s_fit s); [|reflexivity].
  rewrite <- read_out. destruct (read_property_m _ _ _ _) as [q [d|e t]]; reflexivity.
Qed.
Lemma hill_same h : same (generate_hill_radius_mask_m fmt h) (generate_hill_radius_mask h).
Proof.
  intros s. unfold generate_hill_radius_mask_m, generate_hill_radius_mask.
  both (number_out fmt "hill_radius" h false (PFloat n_zero) p_inf false); [|reflexivity].
  match goal with |- context [set_mask ?p ?v] => change (set_mask p v) with (set_mask p v); rewrite <- (set_mask_out fmt p v); destruct (set_mask_m fmt p v) as [q r] end. reflexivity.
Qed.
Lemma append_same ps : same (append_gradients_m E fmt ps) (append_gradients E ps).
Proof.
  induction ps as [|p ps IH]; [apply same_ret|]. intros s. cbn [append_gradients_m append_gradients].
  both (new_grad_out fmt (PArr "float64" (shape3 (s_params s)) (map (@SF T) (gradient_values E s p))) (EIs (s_params s)) (PNpFloat p)); [apply IH|reflexivity].
Qed.
Lemma disk_same ps : same (determine_disk_gradients_m E fmt ps) (determine_disk_gradients E ps).
Proof. intros s. apply append_same. Qed.
Lemma each2_out A B C (f : A -> B -> A * mres C) (f' : A -> B -> A * res C) : (forall a b, outs (f a b) = f' a b) ->
  forall l m, outs (each2_m f l m) = each2 f' l m.
Proof.
  intros H. induction l as [|a l IH]; intros [|b m]; try reflexivity. cbn [each2_m each2].
  rewrite <- (H a b). destruct (f a b) as [a' [c|e t]]; [|reflexivity]. cbn [outs fst snd outcome].
  rewrite <- IH. destruct (each2_m f l m) as [l' [cs|e t]]; reflexivity.
Qed.
Lemma reset_same : same (reset_fit_m (T := T)) (reset_fit (T := T)). Proof. intros s. reflexivity. Qed.
Lemma measured_same l e tr : same (set_measured_m E fmt l e tr) (set_measured E l e tr).
Proof.
  intros s. unfold set_measured_m, set_measured.
  match goal with |- outs (match ?x with MOk _ => _ | MErr _ _ => _ end) = match ?y with Ok _ => _ | Err _ => _ end =>
    assert (H : outcome x = y) by (apply out_bind; [apply array_out|]; intros er; apply out_bind; [apply array_out|]; intros t;
      apply out_bind; [apply same_shape_out|]; intros _; apply out_bind; [apply out_silent|]; reflexivity); rewrite <- H; destruct x as [[o vs]|] end; [|reflexivity].
  cbn [outcome]. match goal with |- context [each2_m ?f ?l ?m] => match goal with |- context [each2 ?f' l m] => 
    rewrite <- (@each2_out _ _ _ f f' (fun g v => determine_mask_outs g _ _ _ _) l m); destruct (each2_m f l m) as [new r] end end.
  unfold outs. cbn [fst snd]. f_equal. destruct r; reflexivity.
Qed.
Theorem add_same t l e tr : same (add_gradients_m E fmt t l e tr) (add_gradients E t l e tr).
Proof.
  intros s. unfold add_gradients_m, add_gradients. destruct (s_limb s); [|reflexivity]. destruct (s_ecl s) as [ecl|]; [|reflexivity]. destruct (s_vel s); [|reflexivity].
  match goal with |- outs (match ?x with MOk _ => _ | MErr _ _ => _ end) = match ?y with Ok _ => _ | Err _ => _ end =>
    assert (H : outcome x = y) by (apply out_bind; [apply array_out|]; intros ?; apply out_bind; [apply array_out|]; intros ?;
      apply out_bind; [apply same_shape_out|]; reflexivity); rewrite <- H; destruct x as [[t' l']|] end; [|reflexivity].
  cbn [outcome]. refine (@same_bind _ _ _ _ _ _ (@disk_same _) _ s). intros _. apply same_bind; [apply measured_same|]. intros _. apply reset_same.
Qed.
Theorem remove_same i : same (remove_gradients_m fmt i) (remove_gradients i).
Proof.
  intros s. unfold remove_gradients_m, remove_gradients. destruct (s_grads s) as [gs|]; [|reflexivity].
  both (array_out fmt "indices" i (Some (PInt 0)) (Some (PInt (Z.of_nat (List.length gs) - 1))) false (Some "int64") (Some 1%Z)); [|reflexivity].
  destruct (delete_all gs _) as [gs' [[]|e]]; reflexivity.
Qed.
Theorem eclipse_same a b c : same (set_eclipse_parameters_m fmt a b c) (set_eclipse_parameters a b c).
Proof.
  intros s. unfold set_eclipse_parameters_m, set_eclipse_parameters.
  both (number_out fmt "eclipse_duration" a false (PFloat n_zero) p_inf false); [|reflexivity].
  both (number_out fmt "transverse_velocity" b false (PFloat n_zero) p_inf false); [|reflexivity].
  both (number_out fmt "limb_darkening" c false (PFloat n_zero) (PFloat n_one) false); [|reflexivity].
  cbv zeta. match goal with |- context [match s_grads ?x with _ => _ end] => destruct (s_grads x) end; reflexivity.
Qed.
Theorem scaling_same v u tr : same (update_gradient_scaling_m E fmt v u tr) (update_gradient_scaling E v u tr).
Proof.
  intros s. unfold update_gradient_scaling_m, update_gradient_scaling. cbv zeta.
  set (s1 := match v with Some v => with_eclipse s (s_ecl s) (Some v) (s_limb s) | None => s end).
  set (s2 := match u with Some u => with_eclipse s1 (s_ecl s1) (s_vel s1) (Some u) | None => s1 end).
  match goal with |- context [match ?x with MOk _ => _ | MErr _ _ => _ end] => match goal with |- context [match ?y with Ok _ => _ | Err _ => _ end] =>
    assert (H : outcome x = y) end end.
  { destruct tr as [t|]; [|reflexivity]. apply out_bind; [apply array_out|]. intros t'. apply out_bind; [apply same_shape_out|]. reflexivity. }
  match type of H with outcome ?x = ?y => rewrite <- H; destruct x as [tv|] end; [|reflexivity]. cbn [outcome].
  set (sc := match v with Some _ => true | None => match u with Some _ => true | None => false end end). clearbody sc.
  assert (G : forall gs L, outs (each2_m (fun (g : ggrad T) (t : option T) =>
       match (if sc then determine_orbital_scale E s2 else Ok (dflt PNone (gg_orb g))) with
       | Ok o => determine_mask_m fmt g (dflt PNone (gg_meas g)) o match t with Some t => Some (PNpFloat t) | None => gg_trans g end (gg_err g)
       | Err e => (g, MErr e None) end) gs L) =
     each2 (fun (g : ggrad T) (t : option T) =>
       match (if sc then determine_orbital_scale E s2 else Ok (dflt PNone (gg_orb g))) with
       | Ok o => determine_mask g (dflt PNone (gg_meas g)) o match t with Some t => Some (PNpFloat t) | None => gg_trans g end (gg_err g)
       | Err e => (g, Err e) end) gs L).
  { intros gs L. apply each2_out. intros g t. match goal with |- context [match ?x with Ok _ => _ | Err _ => _ end] => destruct x end; [apply determine_mask_outs|reflexivity]. }
  assert (K : outs (match s_grads s2 with
     | Some gs => let '(gs0, r) := each2_m (fun (g : ggrad T) (t : option T) =>
       match (if sc then determine_orbital_scale E s2 else Ok (dflt PNone (gg_orb g))) with
       | Ok o => determine_mask_m fmt g (dflt PNone (gg_meas g)) o match t with Some t => Some (PNpFloat t) | None => gg_trans g end (gg_err g)
       | Err e => (g, MErr e None) end) gs match tv with Some l => map Some l | None => repeat None (List.length gs) end in
       match r with MOk _ => reset_fit_m (with_grads s2 (Some gs0) (s_fit s2)) | MErr e t => (with_grads s2 (Some gs0) (s_fit s2), MErr e t) end
     | None => (s2, MErr TypeError None) end) =
    match s_grads s2 with
     | Some gs => let '(gs0, r) := each2 (fun (g : ggrad T) (t : option T) =>
       match (if sc then determine_orbital_scale E s2 else Ok (dflt PNone (gg_orb g))) with
       | Ok o => determine_mask g (dflt PNone (gg_meas g)) o match t with Some t => Some (PNpFloat t) | None => gg_trans g end (gg_err g)
       | Err e => (g, Err e) end) gs match tv with Some l => map Some l | None => repeat None (List.length gs) end in
       match r with Ok _ => reset_fit (with_grads s2 (Some gs0) (s_fit s2)) | Err e => (with_grads s2 (Some gs0) (s_fit s2), Err e) end
     | None => (s2, Err TypeError) end).
  { destruct (s_grads s2) as [gs|]; [|reflexivity]. rewrite <- G. destruct (each2_m _ gs _) as [gs' [r|e t]]; reflexivity. }
  destruct sc; [exact K|]. destruct tv; [exact K|reflexivity].
Qed.
Theorem gradients_same m b : same (get_gradients_m m b) (get_gradients m b).
Proof.
  intros s. unfold get_gradients_m, get_gradients. destruct (s_grads s) as [gs|]; [|reflexivity].
  match goal with |- outs (match ?x with MOk _ => _ | MErr _ _ => _ end) = match ?y with Ok _ => _ | Err _ => _ end =>
    assert (H : outcome x = y) by (apply out_bind; [apply bool_out|]; intros []; [apply out_silent|reflexivity]); rewrite <- H; destruct x as [mk|] end; [|reflexivity].
  cbn [outcome]. cbv zeta. match goal with |- context [each2_m ?f ?l ?m] => match goal with |- context [each2 ?f' l m] =>
    assert (G : outs (each2_m f l m) = each2 f' l m); [apply each2_out|rewrite <- G; destruct (each2_m f l m) as [gs' r]; reflexivity] end end.
  intros g []. both (scaled_out g); [|reflexivity]. rewrite <- (get_data_outs (gg_prop g) b). destruct (get_data_m (gg_prop g) b) as [p [d|e t]]; reflexivity.
Qed.
Lemma point_gradients_same y x r m : same (point_gradients_m y x r m) (point_gradients y x r m).
Proof.
  intros s. unfold point_gradients_m, point_gradients. destruct (s_grads s) as [gs|]; [|reflexivity]. cbv zeta.
  match goal with |- context [each2_m ?f ?l ?m] => match goal with |- context [each2 ?f' l m] =>
    assert (G : outs (each2_m f l m) = each2 f' l m); [apply each2_out|rewrite <- G; destruct (each2_m f l m) as [gs' rr]] end end.
  - intros g []. rewrite <- (get_data_outs (gg_prop g) m). destruct (get_data_m (gg_prop g) m) as [p [d|e t]]; [|reflexivity].
    unfold outs. cbn [fst snd outcome]. f_equal. apply out_bind; [apply out_silent|reflexivity].
  - unfold outs. cbn [fst snd]. f_equal. destruct rr; reflexivity.
Qed.
Ltac same_step := first [apply same_ret | apply same_lift; first [apply number_out | apply bool_out | apply out_silent]
  | apply radius_same | apply inclination_same | apply tilt_same | apply fx_same | apply fy_same | apply dmap_same | apply point_gradients_same
  | apply same_bind; [|intros ?]].
Theorem point_same y x r m : same (get_grid_point_data_m fmt y x r m) (get_grid_point_data y x r m).
Proof.
  intros s. unfold get_grid_point_data_m, get_grid_point_data. destruct (g_shape (s_params s)) as [[my mx] mr].
  match goal with |- outs (?a s) = ?b s => assert (H : same a b); [|apply H] end. repeat same_step.
Qed.
Lemma loop_same k : same (extract_loop_m fmt k) (extract_loop k).
Proof.
  induction k as [|k IH]; [apply same_ret|]. intros s. cbn [extract_loop_m extract_loop]. destruct (s_fit s) as [p|]; [|reflexivity].
  destruct (nanargmin (p_data p)) as [i|]; [|reflexivity]. destruct (unravel (p_shape p) i) as [[y x] r].
  match goal with |- outs (?a s) = ?b s => assert (H : same a b); [|apply H] end.
  apply same_bind; [apply point_same|]. intros d. apply same_bind; [intros q; reflexivity|]. intros _. apply same_bind; [exact IH|]. intros l. apply same_ret.
Qed.
Theorem extract_same n : same (extract_solutions_m fmt n) (extract_solutions n).
Proof.
  intros s. unfold extract_solutions_m, extract_solutions.
  match goal with |- outs (match ?x with MOk _ => _ | MErr _ _ => _ end) = match ?y with Ok _ => _ | Err _ => _ end =>
    assert (H : outcome x = y) by (apply out_bind; [apply out_silent|]; intros; apply number_out); rewrite <- H; destruct x as [v|] end; [|reflexivity].
  cbn [outcome]. refine (@same_bind _ _ _ _ _ _ (@fit_same _ _) _ s). intros _. apply loop_same.
Qed.
Theorem closest_same a b c d m : same (determine_closest_m fmt a b c d m) (determine_closest a b c d m).
Proof.
  intros s. unfold determine_closest_m, determine_closest. cbv zeta.
  match goal with |- outs (?a s) = ?b s => assert (H : same a b); [|apply H] end. repeat same_step.
  match goal with |- context [unravel ?q ?k] => destruct (unravel q k) as [[? ?] ?] end. repeat same_step.
Qed.

(** *** building *)
Lemma disk_arrays_out fx fy s c : outcome (disk_arrays_m E fmt fx fy s c) = disk_arrays E fx fy s c.
Proof. apply out_bind; [apply number_out|]. intros _. apply out_bind; [apply number_out|]. reflexivity. Qed.
Lemma stretch_out new new' join outer (mx rf : T) : (forall z, outcome (new z) = new' z) -> forall fuel shift fys drs,
  outcome (stretch_m fuel new join outer mx rf shift fys drs) = stretch fuel new' join outer mx rf shift fys drs.
Proof.
  intros H. induction fuel as [|fuel IH]; intros; [reflexivity|]. cbn [stretch_m stretch]. apply out_bind; [apply H|]. intros fd.
  apply out_bind; [apply out_silent|]. intros m. destruct (outer (snd fd)) as [r|]; [|reflexivity]. cbv zeta.
  destruct (n_gt _ _); [reflexivity|]. destruct (n_lt _ _); [apply IH|reflexivity].
Qed.
Lemma point_out g nf dy s c : outcome (grid_point_m E fmt g nf dy s c) = grid_point E g nf dy s c.
Proof.
  apply out_bind; [apply out_silent|]. intros rf.
  apply out_bind; [apply stretch_out; intros z; apply out_bind; [apply out_silent|]; intros fx; apply out_bind; [apply disk_arrays_out|]; reflexivity|]. intros h.
  apply out_bind; [apply stretch_out; intros z; apply out_bind; [apply out_silent|]; intros fx; apply out_bind; [apply disk_arrays_out|]; reflexivity|]. intros v.
  apply out_bind; [apply out_silent|]. intros i. apply out_bind; [apply disk_arrays_out|]. reflexivity.
Qed.
Lemma build_point_out y s x : outcome (build_point_m E fmt y s x) = build_point E y s x.
Proof.
  unfold build_point_m, build_point. cbv zeta. destruct (n_isnan _); [reflexivity|]. apply out_bind; [apply point_out|]. intros col.
  repeat (apply out_bind; [apply out_silent|]; intros ?). match goal with |- context [s_diag ?q] => destruct (s_diag q) as [d|] end; [|reflexivity].
  match goal with |- context [save_diagnostic d ?a ?b ?u ?v] => rewrite <- (save_diag_out fmt d a b u v); destruct (save_diagnostic_m fmt d a b u v) as [d' [[]|e t]] end; reflexivity.
Qed.
Lemma fold_out A S (f : S -> A -> mres S) (f' : S -> A -> res S) : (forall s a, outcome (f s a) = f' s a) ->
  forall l s, outcome (fold_mres f l s) = fold_res f' l s.
Proof. intros H. induction l as [|a l IH]; intros s; [reflexivity|]. apply out_bind; [apply H|]. intros; apply IH. Qed.
Lemma build_rows_out i ys : forall s, outs (build_rows_m E fmt i ys s) = build_rows E i ys s.
Proof.
  induction ys as [|y ys IH]; intros s; [reflexivity|]. cbn [build_rows_m build_rows].
  assert (H : outcome (build_row_m E fmt s y) = build_row E s y) by (apply fold_out; intros; apply build_point_out).
  rewrite <- H. destruct (build_row_m E fmt s y) as [s'|]; [|reflexivity]. cbn [outcome]. rewrite <- IH. destruct (build_rows_m E fmt i ys s') as [l r]. reflexivity.
Qed.
Theorem build_grid_out s i y : outs (build_grid_m E fmt s i y) = build_grid E s i y.
Proof.
  unfold build_grid_m, build_grid. both (number_out fmt "start_y" y true (PInt 0) (PInt (Z.of_nat (List.length (g_dy (s_params s))))) false); [|reflexivity].
  match goal with |- context [match ?x with Ok _ => _ | Err _ => _ end] => destruct x as [s'|] end; [|reflexivity]. cbv zeta.
  rewrite <- build_rows_out. destruct (build_rows_m _ _ _ _ _) as [l [s2|e t]]; [|reflexivity]. cbn [outs fst snd outcome].
  destruct (set_contrasts s2); reflexivity.
Qed.
Lemma fill_out g p t : outcome (fill_quadrants_m g p t) = fill_quadrants g p t.
Proof.
  unfold fill_quadrants_m. destruct (p_shape p) as [|ny [|nx [|nr [|? ?]]]] eqn:Es; try (unfold fill_quadrants; rewrite Es; reflexivity).
  cbv zeta. destruct (negb _) eqn:En; [|apply out_silent]. unfold fill_quadrants. rewrite Es. cbv zeta. rewrite En. reflexivity.
Qed.
Lemma extend_out s : outs (extend_shallot_m E fmt s) = extend_shallot E s.
Proof.
  unfold extend_shallot_m, extend_shallot. rewrite <- (extend_grid_out fmt (s_params s)). destruct (extend_grid_m fmt (s_params s)) as [g [[]|e t]].
  - unfold outs, out2. cbn [fst snd outcome]. f_equal. repeat (apply out_bind; [apply fill_out|]; intros ?). reflexivity.
  - cbn [out2 fst snd outcome]. destruct e; reflexivity.
Qed.
Theorem finish_out s : outs (finish_shallot_m E fmt s) = finish_shallot E s.
Proof.
  unfold finish_shallot_m, finish_shallot. rewrite <- extend_out. destruct (extend_shallot_m E fmt s) as [g [s'|e t]]; [|reflexivity].
  unfold outs. cbn [fst snd outcome]. f_equal. apply out_silent.
Qed.
Definition outs2 {G S A} (x : G * (S * mres A)) : G * (S * res A) := (fst x, outs (snd x)).
Theorem new_shallot_out g nf lv k i : outs2 (new_shallot_m E fmt g nf lv k i) = new_shallot E g nf lv k i.
Proof.
  unfold new_shallot_m, new_shallot. cbv zeta.
  match goal with |- outs2 (match ?x with MOk _ => _ | MErr _ _ => _ end) = match ?y with Ok _ => _ | Err _ => _ end =>
    assert (H : outcome x = y) end.
  { apply out_bind; [apply number_out|]. intros _. apply out_bind; [apply carg_out|]. intros g'. apply out_bind; [apply number_out|]. intros n.
    apply out_bind; [apply bool_out|]. intros b. apply out_bind; [apply bool_out|]. reflexivity. }
  match type of H with outcome ?x = _ => rewrite <- H; destruct x as [[s b]|] end; [|reflexivity]. cbn [outcome].
  rewrite <- build_grid_out. destruct (build_grid_m E fmt s b (PInt 0)) as [l [s'|e t]]; [|reflexivity]. cbn [outs fst snd outcome].
  rewrite <- finish_out. destruct (finish_shallot_m E fmt s') as [g' r]. reflexivity.
Qed.

(** *** saving and loading *)
Theorem save_out s d y : shallot_save E s d y =
  fst (shallot_save_m E fmt s d y) ++ match snd (shallot_save_m E fmt s d y) with MOk _ => [] | MErr e _ => [SRaise e] end.
Proof.
  assert (F : forall d, save_files E s d = save_files E (with_diag s None) d ++ match s_diag s with None => [] | Some _ => [SRaise TypeError] end).
  { intros d'. unfold save_files, with_diag. cbn [s_nf s_params s_dr s_inc s_tilt s_fx s_fy s_grads s_diag]. rewrite <- !app_assoc. reflexivity. }
  unfold shallot_save, shallot_save_m. both (str_out "directory" d); [|reflexivity]. cbv zeta.
  destruct y as [v|].
  - both (number_out fmt "y_value" v true (PInt 0) (PInt (Z.of_nat (List.length (g_dy (s_params s))))) false).
    + cbn [fst snd]. rewrite F. destruct (s_diag s); reflexivity.
    + destruct (String.eqb a TEMP); reflexivity.
  - cbn [fst snd]. rewrite F. destruct (s_diag s); reflexivity.
Qed.
Lemma attributes_out f s d : outcome (load_attributes_m E f s d) = load_attributes E f s d.
Proof.
  apply out_bind; [apply out_silent|]. intros x. apply out_bind; [destruct (snd x); reflexivity|]. intros nf.
  apply out_bind; [apply params_load_out|]. intros g. repeat (apply out_bind; [apply gprop_load_out|]; intros ?). cbv zeta.
  destruct (String.eqb d ""); [reflexivity|]. destruct (existsb _ _); reflexivity.
Qed.
Lemma perform_out A f (p : list (step T) * mres A) : outs (perform_m f p) = perform f (outs p).
Proof. unfold perform_m, perform, outs. cbn [fst snd]. destruct (run f (fst p)) as [f' [[]|e]]; reflexivity. Qed.
Lemma load_into_out f s d lv : outs (load_into_m E fmt f s d lv) = load_into E f s d lv.
Proof.
  unfold load_into_m, load_into. rewrite <- attributes_out. destruct (load_attributes_m E f s d) as [s'|]; [|reflexivity]. cbn [outcome].
  both (number_out fmt "logging_level" lv true (PInt 10) (PInt 50) false); [|reflexivity].
  assert (X : forall q, outcome (snd (finish_shallot_m E fmt q)) = snd (finish_shallot E q)) by (intros q; rewrite <- finish_out; reflexivity).
  destruct (fs_exists _ _); [|unfold outs; cbn [fst snd]; rewrite X; reflexivity].
  match goal with |- context [match ?x with Ok _ => _ | Err _ => _ end] => destruct x as [v|] end; [|reflexivity].
  rewrite <- build_grid_out, <- perform_out. destruct (perform_m f _) as [f' [q|e' t']]; [|reflexivity]. unfold outs. cbn [fst snd outcome]. rewrite X. reflexivity.
Qed.
Lemma dummy_out : outs2 (dummy_m E fmt) = dummy E.
Proof.
  unfold dummy_m, dummy. rewrite <- (new_params_out fmt). destruct (new_params_m fmt _ _ _ _ _ _ _ _) as [g|]; [|reflexivity]. apply new_shallot_out.
Qed.
Theorem load_out f d lv : outs (shallot_load_m E fmt f d lv) = shallot_load E f d lv.
Proof.
  unfold shallot_load_m, shallot_load. both (str_out "directory" d); [|reflexivity].
  rewrite <- dummy_out. unfold outs2. cbn [snd]. rewrite <- perform_out. destruct (perform_m f _) as [f' [q|e' t']]; [|reflexivity]. apply load_into_out.
Qed.
End P.
