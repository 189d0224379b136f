(** The functions with texts have the results of the functions without. *)
From Coq Require Import ZArith List Bool String Ascii Lia.
From Verif Require Import Num Py Validate Ring RingSystem FS GridParams GridDiag Names GridProp Fmt Text Message.
Import ListNotations.
Set Implicit Arguments.

Section E.
Context {T : Type} {NT : Num T}.
Variable fmt : nat -> T -> string.
Notation pyval := (pyval T).
Notation ring := (ring T).
Notation rsys := (rsys T).

Lemma out_bind A B (x : mres A) (f : A -> mres B) (y : res A) (g : A -> res B) :
  outcome x = y -> (forall a, outcome (f a) = g a) -> outcome (mbind x f) = bind y g.
Proof. intros <- H. destruct x; [apply H | reflexivity]. Qed.
Lemma out_saying A t (x : res A) : outcome (saying t x) = x. Proof. destruct x; reflexivity. Qed.
Lemma out_silent A (x : res A) : outcome (silent x) = x. Proof. destruct x; reflexivity. Qed.

Lemma number_bounds_out name (v lo up : pyval) ex :
  outcome (number_bounds_m fmt name v lo up ex) = number_bounds v lo up ex.
Proof.
  unfold number_bounds_m, number_bounds, number_type_m.
  apply out_bind; [apply out_saying | intros _]. apply out_bind; [apply out_saying | intros _].
  destruct (v_cmp _ lo up); [reflexivity|]. cbv zeta.
  match goal with |- outcome (if ?b then _ else _) = _ => destruct b; reflexivity end.
Qed.
Lemma number_out name (v : pyval) ci lo up ex : outcome (number_m fmt name v ci lo up ex) = number v ci lo up ex.
Proof. apply out_bind; [apply out_saying | intros w; apply number_bounds_out]. Qed.
Lemma array_bounds_out name (el : list (scal T)) lo up ex :
  outcome (array_bounds_m fmt name el lo up ex) = array_bounds el lo up ex.
Proof.
  unfold array_bounds_m, array_bounds, number_type_m.
  apply out_bind; [apply out_saying | intros _]. apply out_bind; [apply out_saying | intros _].
  destruct (v_cmp _ lo up); [reflexivity|]. destruct (scal_of lo); [|reflexivity]. destruct (scal_of up); [|reflexivity].
  cbv zeta. match goal with |- outcome (if ?b then _ else _) = _ => destruct b; reflexivity end.
Qed.
Lemma array_out name (v : pyval) lo up ex dt nd : outcome (array_m fmt name v lo up ex dt nd) = array v lo up ex dt nd.
Proof.
  unfold array_m, array. destruct v; try reflexivity.
  apply out_bind. { destruct lo, up; try reflexivity; apply array_bounds_out. }
  intros _. apply out_bind. { destruct nd; [apply out_saying | reflexivity]. }
  intros _. apply out_bind. { destruct dt; [apply out_saying | reflexivity]. } reflexivity.
Qed.
Lemma loop_out sh : forall (l : list pyval) names b, List.length l = List.length names ->
  outcome (same_shape_loop_m sh (combine l names) b) = same_shape_loop sh l b.
Proof.
  induction l as [|v l IH]; intros [|n names] b H; try discriminate H; [reflexivity|].
  destruct v; try reflexivity. cbn. apply IH. injection H as H. exact H.
Qed.
Lemma same_shape_out (l : list pyval) names : outcome (same_shape_m l names) = same_shape_arrays l (List.length names).
Proof.
  unfold same_shape_m, same_shape_arrays. destruct (Nat.ltb (List.length l) 2); [reflexivity|].
  destruct (Nat.eqb (List.length l) (List.length names)) eqn:E; [|reflexivity]. cbn [negb].
  apply PeanoNat.Nat.eqb_eq in E. destruct l as [|a l]; [reflexivity|].
  destruct (Py.shape_of a); [|reflexivity]. apply out_bind; [apply loop_out, E|]. intros []; reflexivity.
Qed.

Ltac erase := repeat (first [apply number_out | apply array_out | apply same_shape_out | apply out_saying | apply out_silent
   | reflexivity | apply out_bind; [| intros ?]]).

Lemma inner_out u (v : pyval) : outcome (check_inner_m fmt u v) = check_inner u v.
Proof. apply out_bind; [apply out_silent|]. intros z. erase. Qed.
Lemma outer_out u (v : pyval) : outcome (check_outer_m fmt u v) = check_outer u v. Proof. unfold check_outer_m. erase. Qed.
Lemma tr_out (v : pyval) : outcome (check_tr_m fmt v) = check_tr v. Proof. unfold check_tr_m. erase. Qed.
Lemma inc_out (v : pyval) : outcome (check_inc_m fmt v) = check_inc v. Proof. unfold check_inc_m. erase. Qed.
Lemma tilt_out (v : pyval) : outcome (check_tilt_m fmt v) = check_tilt v. Proof. unfold check_tilt_m. erase. Qed.
Lemma new_ring_out (i o t inc tilt : pyval) : outcome (new_ring_m fmt i o t inc tilt) = new_ring i o t inc tilt.
Proof.
  apply out_bind; [apply inner_out|]. intros x. apply out_bind; [apply outer_out|]. intros y.
  apply out_bind; [apply tr_out|]. intros z. apply out_bind; [apply inc_out|]. intros a.
  apply out_bind; [apply tilt_out|]. reflexivity.
Qed.
(** the same for functions that also return a state *)
Definition out2 {A} (x : A * mres unit) : A * res unit := (fst x, outcome (snd x)).
Lemma upd_out (r : ring) A (x : mres A) (y : res A) f : outcome x = y -> out2 (upd_m r x f) = upd r y f.
Proof. intros <-. destruct x; reflexivity. Qed.
Lemma set_ring_out (r : ring) s : out2 (set_ring_m fmt r s) = set_ring r s.
Proof.
  destruct s; apply upd_out; [apply inner_out | apply outer_out | apply tr_out | apply inc_out | apply tilt_out].
Qed.
Lemma make_rings_out inc tilt : forall l : list (T * T * T), outcome (make_rings_m fmt inc tilt l) = make_rings inc tilt l.
Proof.
  induction l as [|[[i o] t] l IH]; [reflexivity|]. cbn [make_rings_m make_rings].
  apply out_bind; [apply new_ring_out|]. intros r. apply out_bind; [exact IH|]. reflexivity.
Qed.
Lemma new_system_out (h : list ring) (p i o t inc tilt lv : pyval) :
  outcome (new_system_m fmt h p i o t inc tilt lv) = new_system h p i o t inc tilt lv.
Proof.
  unfold new_system_m, new_system.
  apply out_bind; [apply number_out | intros pl]. apply out_bind; [apply number_out | intros ic].
  apply out_bind; [apply number_out | intros tl]. cbv zeta.
  apply out_bind; [apply array_out | intros a]. apply out_bind; [apply array_out | intros b].
  apply out_bind; [apply array_out | intros c]. apply out_bind; [apply same_shape_out | intros _].
  apply out_bind; [apply make_rings_out | intros rs]. apply out_bind; [apply number_out | intros _].
  destruct (alloc h rs). reflexivity.
Qed.
Lemma prevent_out (h : list ring) (s : rsys) i r b : outcome (prevent_overlap_m fmt h s i r b) = prevent_overlap h s i r b.
Proof.
  unfold prevent_overlap_m, prevent_overlap.
  apply out_bind; [apply number_out | intros v]. apply out_bind; [apply out_saying | intros l]. cbv zeta.
  apply out_bind. { destruct (Z.eqb (int_of v) 0); [reflexivity|]. apply out_bind; [apply out_silent | reflexivity]. }
  intros lw. destruct (n_lt (r_in (deref h l)) lw); [reflexivity|].
  apply out_bind. { destruct (Z.eqb _ (num_rings s)); [reflexivity|]. apply out_bind; [apply out_silent | reflexivity]. }
  intros u. destruct (n_lt u _); reflexivity.
Qed.
Lemma override_out (h : list ring) (s : rsys) l : out2 (override_m fmt h s l) = override h s l.
Proof.
  unfold override_m, override. rewrite <- set_ring_out.
  destruct (set_ring_m fmt (deref h l) (SetInc (PNpFloat (s_inc s)))) as [r1 [a|e t]]; [|reflexivity].
  cbn [out2 fst snd outcome]. rewrite <- set_ring_out. destruct (set_ring_m fmt r1 _) as [r2 [b|e t]]; reflexivity.
Qed.
Lemma add_out (h : list ring) (s : rsys) i r : out2 (add_ring_m fmt h s i r) = add_ring h s i r.
Proof.
  unfold add_ring_m, add_ring. rewrite <- (prevent_out h s i r false).
  destruct (prevent_overlap_m fmt h s i r false) as [[k l]|e t]; [|reflexivity]. cbn [outcome].
  rewrite <- override_out. destruct (override_m fmt h s l) as [h' [a|e t]]; reflexivity.
Qed.
Lemma remove_out (h : list ring) (s : rsys) i : out2 (remove_ring_m fmt h s i) = remove_ring h s i.
Proof.
  unfold remove_ring_m, remove_ring. rewrite <- (number_out "index" i true (PInt 0) (PInt (num_rings s - 1)) false).
  destruct (number_m _ _ _ _ _ _ _); reflexivity.
Qed.
Lemma replace_out (h : list ring) (s : rsys) i r : out2 (replace_ring_m fmt h s i r) = replace_ring h s i r.
Proof.
  unfold replace_ring_m, replace_ring. rewrite <- (number_out "index" i true (PInt 0) (PInt (num_rings s - 1)) false).
  destruct (number_m _ _ _ _ _ _ _); [|reflexivity]. cbn [outcome]. rewrite <- (prevent_out h s i r true).
  destruct (prevent_overlap_m fmt h s i r true) as [[k l]|e t]; [|reflexivity]. cbn [outcome].
  rewrite <- override_out. destruct (override_m fmt h s l) as [h' [b|e t]]; reflexivity.
Qed.
Lemma divisions_out (s : rsys) nd : outcome (divisions_m fmt s nd) = divisions s nd.
Proof.
  unfold divisions_m, divisions. rewrite <- (number_out "num_divisions" nd true (PInt 2) p_inf false).
  destruct (number_m _ _ _ _ _ _ _) as [v|[] t]; try reflexivity. cbn [outcome].
  apply out_bind; [apply array_out | intros a]. apply out_bind; [apply (same_shape_out [_; _] [_; _])|]. reflexivity.
Qed.
Lemma split_out (h : list ring) (s : rsys) nd : out2 (split_rings_m fmt h s nd) = split_rings h s nd.
Proof.
  unfold split_rings_m, split_rings.
  match goal with |- out2 (match ?x with _ => _ end) = match ?y with _ => _ end => assert (E : outcome x = y) end.
  { apply out_bind; [apply divisions_out|]. intros ds. apply make_rings_out. }
  rewrite <- E. cbv zeta. match goal with |- out2 (match ?x with _ => _ end) = _ => destruct x end; [|reflexivity].
  cbn [outcome]. destruct (alloc h a). reflexivity.
Qed.
Lemma merge_out (h : list ring) (s : rsys) tol : out2 (merge_rings_m fmt h s tol) = merge_rings h s tol.
Proof.
  unfold merge_rings_m, merge_rings. destruct (rings_of h s) as [|r0 rs]; [reflexivity|].
  rewrite <- make_rings_out. destruct (make_rings_m _ _ _ _); [|reflexivity]. cbn [outcome]. destruct (alloc h a). reflexivity.
Qed.

Lemma axis_out x (mn mx n : pyval) : outcome (determine_axis_m fmt x mn mx n) = determine_axis mn mx n.
Proof.
  unfold determine_axis_m, determine_axis. apply out_bind; [apply number_out | intros a].
  apply out_bind; [apply number_out | intros b]. destruct (v_cmp _ a b); [reflexivity|].
  apply out_bind; [apply number_out | reflexivity].
Qed.
Lemma rf_out (m n : pyval) : outcome (determine_rf_m fmt m n) = determine_rf m n.
Proof. unfold determine_rf_m, determine_rf. apply out_bind; [apply number_out | intros a]. apply out_bind; [apply number_out | reflexivity]. Qed.
Lemma new_params_out (a b c d e f g h : pyval) : outcome (new_params_m fmt a b c d e f g h) = new_params a b c d e f g h.
Proof.
  apply out_bind; [apply axis_out | intros dx]. apply out_bind; [apply axis_out | intros dy].
  apply out_bind; [apply rf_out | intros r]. apply out_silent.
Qed.
Lemma extend_grid_out (g : gparams T) : out2 (extend_grid_m fmt g) = extend_grid g.
Proof.
  unfold extend_grid_m, extend_grid. destruct (g_ext g); [|reflexivity]. cbn [negb].
  destruct (g_shape g) as [[ny nx] nr]. destruct (last_opt (g_dy g)) as [my|]; [|reflexivity].
  destruct (last_opt (g_dx g)) as [mx|]; [|reflexivity].
  rewrite <- (axis_out "x" (PNpFloat (n_neg mx))). destruct (determine_axis_m _ "x" _ _ _) as [dx|]; [|reflexivity]. cbn [outcome].
  rewrite <- (axis_out "y" (PNpFloat (n_neg my))). destruct (determine_axis_m _ "y" _ _ _) as [dy|]; [|reflexivity]. cbn [outcome].
  cbv zeta. destruct (extendable_of dx dy); reflexivity.
Qed.
Lemma params_load_out (f : fs T) d : outcome (params_load_m f d) = params_load f d. Proof. apply out_saying. Qed.

Lemma gen_key_out (d : gdiag T) y x : outcome (gen_key_m fmt d y x) = gen_key d y x.
Proof.
  unfold gen_key_m, gen_key. cbv zeta. apply out_bind; [apply number_out | intros a].
  apply out_bind; [apply number_out | intros b]. destruct (d_ext d); reflexivity.
Qed.
Lemma get_diag_out (d : gdiag T) y x : outcome (get_diagnostic_m fmt d y x) = get_diagnostic d y x.
Proof.
  unfold get_diagnostic_m, get_diagnostic. apply out_bind; [apply gen_key_out | intros k].
  destruct (dget (d_fy d) k); [|reflexivity]. destruct (dget (d_dr d) k); reflexivity.
Qed.
Lemma save_diag_out (d : gdiag T) y x fy dr : out2 (save_diagnostic_m fmt d y x fy dr) = save_diagnostic d y x fy dr.
Proof.
  unfold save_diagnostic_m, save_diagnostic. destruct (d_ext d); [reflexivity|].
  match goal with |- out2 (match ?x with _ => _ end) = match ?y with _ => _ end => assert (E : outcome x = y) end.
  { apply out_bind; [apply array_out | intros a]. apply out_bind; [apply array_out | intros b].
    apply out_bind; [apply (same_shape_out [_; _] [_; _]) | intros _]. apply out_bind; [apply gen_key_out|]. reflexivity. }
  rewrite <- E. match goal with |- out2 (match ?x with _ => _ end) = _ => destruct x as [[[k a] b]|] end; reflexivity.
Qed.
Lemma diag_load_out (f : fs T) d : outcome (diag_load_m f d) = diag_load f d. Proof. apply out_saying. Qed.

Lemma limits_out (p : gprop T) a b : out2 (set_limits_m fmt p a b) = set_limits p a b.
Proof.
  unfold set_limits_m, set_limits. destruct (all_nans (p_data p)); [reflexivity|]. cbv zeta.
  match goal with |- context [number ?v false m_inf p_inf false] => rewrite <- (number_out "vmin" v false m_inf p_inf false) end.
  destruct (number_m fmt "vmin" _ _ _ _ _) as [lo|]; [|reflexivity]. cbn [outcome].
  match goal with |- context [number ?v false m_inf p_inf false] => rewrite <- (number_out "vmax" v false m_inf p_inf false) end.
  destruct (number_m fmt "vmax" _ _ _ _ _) as [up|]; reflexivity.
Qed.
Lemma contrast_out (p : gprop T) a b c d : out2 (set_contrast_m fmt p a b c d) = set_contrast p a b c d.
Proof.
  unfold set_contrast_m, set_contrast. rewrite <- limits_out.
  destruct (set_limits_m fmt p a b) as [q [u|]]; [|reflexivity]. cbn [out2 fst snd outcome].
  unfold string_m. destruct (string_v _) as [s|]; [|reflexivity]. cbn [saying].
  rewrite <- (number_out "num_colors"). destruct (number_m fmt "num_colors" _ _ _ _ _); reflexivity.
Qed.
Lemma new_gprop_out n u v (g : earg (gparams T)) : outcome (new_gprop_m fmt n u v g) = new_gprop n u v g.
Proof.
  unfold new_gprop_m, new_gprop. apply out_bind; [apply out_saying | intros n']. apply out_bind; [apply out_saying | intros u'].
  apply out_bind; [apply out_saying | intros g']. apply out_bind; [apply array_out | intros d].
  apply out_bind; [apply (same_shape_out [_; _] [_; _]) | intros _]. destruct d; try reflexivity.
  unfold set_contrast_default. rewrite <- contrast_out. destruct (set_contrast_m fmt _ _ _ _ _) as [q [a|]]; reflexivity.
Qed.
Lemma set_mask_out (p : gprop T) v : out2 (set_mask_m fmt p v) = set_mask p v.
Proof.
  unfold set_mask_m, set_mask. rewrite <- (array_out "mask"). destruct (array_m _ _ _ _ _ _ _ _) as [[]|]; try reflexivity.
  cbn [outcome]. rewrite <- (same_shape_out [_; _] ["mask"%string; "data"%string]). destruct (same_shape_m _ _); reflexivity.
Qed.
Lemma get_data_out (p : gprop T) v :
  (fst (get_data_m p v), outcome (snd (get_data_m p v))) = get_data p v.
Proof.
  unfold get_data_m, boolean_m. destruct (boolean_v v) as [b|e] eqn:E.
  - cbn [saying]. destruct (get_data p v) as [q r]. cbn [fst snd]. rewrite out_silent. reflexivity.
  - cbn [saying]. unfold get_data. rewrite E. reflexivity.
Qed.
Lemma gprop_load_out (f : fs T) d n u : outcome (gprop_load_m f d n u) = gprop_load f d n u.
Proof.
  unfold gprop_load_m, string_m, class_arg_m.
  destruct d; try reflexivity. cbn [string_v saying mbind]. destruct n as [n|]; [|reflexivity].
  destruct u as [u|]; [|reflexivity]. cbn [class_arg saying mbind]. apply out_saying.
Qed.
Lemma new_grad_out v (g : earg (gparams T)) pos : outcome (new_grad_m fmt v g pos) = new_grad v g pos.
Proof. apply out_bind; [apply new_gprop_out | intros p]. apply out_bind; [apply number_out | reflexivity]. Qed.
Lemma scaled_out (g : ggrad T) : outcome (scaled_gradient_m g) = scaled_gradient g.
Proof.
  unfold scaled_gradient_m, scaled_gradient. destruct (gg_meas g); [|reflexivity]. destruct (gg_trans g); [|reflexivity].
  apply out_bind; [apply out_silent | intros ts]. destruct (gg_orb g); [|reflexivity]. cbv zeta. destruct (n_gt _ _); reflexivity.
Qed.
Lemma determine_mask_out (g : ggrad T) m o t e : out2 (determine_mask_m fmt g m o t e) = determine_mask g m o t e.
Proof.
  unfold determine_mask_m, determine_mask.
  rewrite <- (number_out "measured_gradient" m). destruct (number_m _ "measured_gradient" _ _ _ _ _); [|reflexivity]. cbn [outcome]. cbv zeta.
  rewrite <- (number_out "orbital_scale" o). destruct (number_m _ "orbital_scale" _ _ _ _ _); [|reflexivity]. cbn [outcome].
  rewrite <- (number_out "transmission_change" (dflt (PInt 1) t)). destruct (number_m _ "transmission_change" _ _ _ _ _); [|reflexivity]. cbn [outcome].
  rewrite <- (number_out "measured_error" (dflt (PInt 1) e)). destruct (number_m _ "measured_error" _ _ _ _ _); [|reflexivity]. cbn [outcome].
  match goal with |- context [scaled_gradient ?x] => rewrite <- (scaled_out x); destruct (scaled_gradient_m x) as [[]|] end; reflexivity.
Qed.
Lemma grad_load_out (f : fs T) d : outcome (grad_load_m f d) = grad_load f d. Proof. apply out_saying. Qed.
End E.
