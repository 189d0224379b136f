(** The log of a concrete grid; expectations about logs that fail. *)
From Coq Require Import ZArith Reals List Bool String Lia.
From Verif Require Import Num NumP Py SpecNum Validate Ring RingSystem FS GridParams GridProp Names Geometry Build SpecBuild Shallot ShallotOps SpecOps BuildExP OpsExP OpsWrapP SpecFmt Fmt Text Message Log LogOps SpecLogOps LogOpsP LogOpsSP.
Import ListNotations.
Local Open Scope string_scope.
Local Open Scope list_scope.

Definition fitted2 : list (@op f64) :=
  [OFit false; OEclipse (PInt 2) (PInt 3) (PFloat (n_div (n_ofZ 1) (n_ofZ 2))); OAdd (F [10; -20; 5]%Z) (F [1; 2; 3]%Z) None None; OFit false;
   OExtract (Some (PInt 2)); ORemove (indices [1]%Z); OGetFit (PBool true) (PBool true); OScale None None None; OFit false; OEclipse (PInt 2) (PInt 3) (PInt 0);
   OClosest (PInt 5) (PInt 30) (PInt 80) (PFloat (n_ofZ 1)) (PBool true)].
Definition lines (l : list (@op f64)) : list string := match built2 with Ok s => map line_of (console 20 (ops_log env2 fmt_fixed s l)) | Err _ => [] end.
Definition built_lines : list string :=
  match grid_f64 with Ok g => map line_of (console 20 (snd (new_shallot_l env2 fmt_fixed (EIs g) (PInt 4) (PInt 10) (PBool false) (PBool false)))) | Err _ => [] end.
Lemma ex_lines : lines fitted2 =
  ["INFO     - determine_gradient_fit: no gradients present";
   "INFO     - add_gradients: adding 3 gradients";
   "INFO     - determine_gradient_fit: determining 3 gradient rms's";
   "INFO     - extract_solutions: extracting 2 out of 24 possible solutions";
   "INFO     - _reset_gradient_fit: gradient fit has been cleared";
   "INFO     - get_gradient_fit: no gradient fit found";
   "INFO     - update_gradient_scaling: no changes passed";
   "INFO     - determine_gradient_fit: determining 2 gradient rms's";
   "INFO     - set_eclipse_parameters: gradients set to None due to dependency on eclipse duration";
   "INFO     - _reset_gradient_fit: gradient fit has been cleared";
   "INFO     - determine_closest_grid_point: property_name: input_value --> grid_value";
   "INFO     - determine_closest_grid_point: disk_radius: 5.00 --> 3.75";
   "INFO     - determine_closest_grid_point: inclination: 30.00 --> 24.00";
   "INFO     - determine_closest_grid_point: tilt: 80.00 --> 90.00";
   "INFO     - determine_closest_grid_point: impact_parameter: 1.00 --> 0.33";
   "INFO     - determine_closest_grid_point: 'fit': 11.747636"] /\
  built_lines =
  ["INFO     - _build_grid: building y = 1/2"; "INFO     - _build_grid: building y = 2/2";
   "INFO     - diagnose_fxfy_resolution: maximum deviation is 0.0424 - explore by plotting"].
Proof. split; vm_compute; exact eq_refl. Qed.

(** the row of the closest point is logged with another impact parameter than the one returned *)
Definition impact_test (s : shallot f64) : bool :=
  match determine_closest_l fmt_fixed (PInt 5) (PInt 30) (PInt 80) (PFloat (n_ofZ 1)) (PBool true) s with
  | (_, Ok ((cy, _, _), _, _), lg) => negb (existsb (String.eqb ("impact_parameter: " ++ fmt_fixed 2 (n_ofZ 1 : f64) ++ " --> " ++ fmt_fixed 2 cy)%string) (map l_text lg))
  | _ => false
  end.
Lemma impact_refuted : ~ (forall (E : env f64) s s' v1 v2 v3 v4 m cy cx cr i d lg, sreach E s ->
  determine_closest_l fmt_fixed v1 v2 v3 v4 (PBool m) s = (s', Ok ((cy, cx, cr), i, d), lg) ->
  In ("impact_parameter: " ++ fmt_fixed 2 (num_of v4) ++ " --> " ++ fmt_fixed 2 cy)%string (map l_text lg)).
Proof.
  intros H. destruct (holds_in [] impact_test) as (s & Hs & Ht); [constructor|vm_compute; exact eq_refl|]. unfold impact_test in Ht.
  destruct (determine_closest_l _ _ _ _ _ _ s) as [[s' [[[[[cy cx] cr] i] d]|]] lg] eqn:Es; [|discriminate].
  specialize (H env2 s s' _ _ _ _ _ cy cx cr i d lg Hs Es). apply negb_true_iff in Ht. rewrite <- not_true_iff_false in Ht. apply Ht. apply existsb_exists. eexists. split; [exact H|]. apply String.eqb_refl.
Qed.

(** gradients that are announced need not be added without an exception *)
Definition ready2 : list (@op f64) := [OEclipse (PInt 2) (PInt 3) (PFloat (n_div (n_ofZ 1) (n_ofZ 2)))].
Definition bad_add : @op f64 := OAdd (F [10; -20]%Z) (F [1; 2]%Z) None (Some (F [20; 20]%Z)).
Definition announce_test (s : shallot f64) : bool :=
  match op_log env2 fmt_fixed s bad_add with (Some ValueError, [r]) => String.eqb (l_text r) "adding 2 gradients" && String.eqb (l_func r) "add_gradients" && Z.eqb (l_level r) 20 | _ => false end.
Lemma announced_refuted : ~ (forall (E : env f64) s t l e tr n r, sreach E s -> ADDING n r -> In r (snd (op_log E fmt_fixed s (OAdd t l e tr))) -> fst (op_log E fmt_fixed s (OAdd t l e tr)) = None).
Proof.
  intros H. destruct (holds_in ready2 announce_test) as (s & Hs & Ht); [repeat constructor|vm_compute; exact eq_refl|]. unfold announce_test, bad_add in Ht.
  destruct (op_log env2 fmt_fixed s _) as [x lg] eqn:Es. destruct x as [[]|]; try discriminate. destruct lg as [|r [|? ?]]; try discriminate.
  apply andb_prop in Ht as [Ht H3]. apply andb_prop in Ht as [H1 H2]. apply String.eqb_eq in H1, H2. apply Z.eqb_eq in H3.
  specialize (H env2 s (F [10; -20]%Z) (F [1; 2]%Z) None (Some (F [20; 20]%Z)) 2 r Hs). rewrite Es in H. enough (Some ValueError = None) by discriminate. apply H; [|now left].
  exists "2". split; [reflexivity|]. destruct r; cbn in *; subst; reflexivity.
Qed.
