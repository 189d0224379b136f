(** Keeping diagnostics changes nothing else in a built grid. *)
From Coq Require Import ZArith Reals List Bool String Lia Lra.
From Verif Require Import Num NumP Py SpecNum Validate ValidateP Ring RingP RingSystem XLibm FS FSP GridParams SpecGrid GridParamsP GridParamsXP GridDiag GridDiagP GridCrashP
  Names GridProp SpecProp GridPropP Geometry SpecGeom GeomP GeomMoreP EdgeP Build SpecBuild BuildP BuildQP StretchP BuildXP InterpP Shallot BuildGP BuildGridP BuildCP BuildDP BuildEP BuildFP BuildHP ColumnP WholeP
  BuildExP SaveExP WholeOP SpecError WholeEP WholeExP DiagBuildP.
Import ListNotations.
Set Implicit Arguments.

Section K.
Context {T : Type} {NT : Num T} {LT : NumLaws T} (E : env T).
Notation pyval := (pyval T).

(** without the diagnostics *)
Definition forget (s : shallot T) : shallot T := with_diag s None.
Definition forget_res (r : res (shallot T)) : res (shallot T) := match r with Ok s => Ok (forget s) | Err e => Err e end.

Lemma point_forget nr D s d y x : shapely nr s -> y < ny_of s -> x < nx_of s -> s_diag s = Some d -> holds E D s d ->
  build_point E y (forget s) x = forget_res (build_point E y s x).
Proof.
  intros Hs Hy Hx Hd Hh. unfold build_point. cbn [forget with_diag s_params s_radius s_shear s_nf s_dr s_inc s_tilt s_fx s_fy].
  destruct (n_isnan _); [reflexivity|]. destruct (grid_point _ _ _ _ _ _) as [col|] eqn:Ep; cbn [bind]; [|reflexivity].
  destruct (put_column (s_dr s) y x (c_dr col)) as [p1|]; cbn [bind]; [|reflexivity].
  destruct (put_column (s_inc s) y x (c_inc col)) as [p2|]; cbn [bind]; [|reflexivity].
  destruct (put_column (s_tilt s) y x (c_tilt col)) as [p3|]; cbn [bind]; [|reflexivity].
  destruct (put_column (s_fx s) y x (c_fx col)) as [p4|]; cbn [bind]; [|reflexivity].
  destruct (put_column (s_fy s) y x (c_fy col)) as [p5|]; cbn [bind]; [|reflexivity].
  cbn [with_cubes s_diag with_diag]. rewrite Hd. destruct Hh as (A & B & C & _).
  rewrite save_ok; [reflexivity|exact C| | |].
  - exists (List.length (c_fys col)), (map (@SF T) (c_fys col)), (map (@SF T) (c_drs col)). split; [reflexivity|]. rewrite (sampled_len E _ _ _ _ _ Ep). reflexivity.
  - rewrite A. split; [constructor|]. cbn [zof]. lia.
  - rewrite B. split; [constructor|]. cbn [zof]. lia.
Qed.

Lemma points_forget nr y xs D s d : shapely nr s -> y < ny_of s -> (forall x, In x xs -> x < nx_of s) -> s_diag s = Some d -> holds E D s d ->
  fold_res (build_point E y) xs (forget s) = forget_res (fold_res (build_point E y) xs s).
Proof.
  revert D s d; induction xs as [|x xs IH]; intros D s d Hs Hy Hxs Hd Hh; cbn [fold_res]; [reflexivity|].
  rewrite (@point_forget nr D s d y x Hs Hy (Hxs x (or_introl eq_refl)) Hd Hh). destruct (build_point E y s x) as [s1|] eqn:E1; cbn [forget_res bind]; [|reflexivity].
  assert (U1 := point_updated E Hs Hy (Hxs x (or_introl eq_refl)) E1). destruct (others_sizes E (proj1 U1)) as (Ey & Ex & _).
  destruct (@point_holds T NT E nr D s d y x s1 Hs Hy (Hxs x (or_introl eq_refl)) Hd Hh E1) as (d1 & Hd1 & Hh1).
  apply (IH _ s1 d1 (updated_shapely U1 Hs) ltac:(now rewrite Ey) ltac:(intros z Hz; rewrite Ex; apply Hxs; now right) Hd1 Hh1).
Qed.

Definition forget_prog (q : list (step T) * res (shallot T)) : list (step T) * res (shallot T) := let '(l, r) := q in (l, forget_res r).

Lemma rows_forget nr ys D s d : shapely nr s -> (forall y, In y ys -> y < ny_of s) -> s_diag s = Some d -> holds E D s d ->
  build_rows E false ys (forget s) = forget_prog (build_rows E false ys s).
Proof.
  revert D s d; induction ys as [|y ys IH]; intros D s d Hs Hys Hd Hh; cbn [build_rows]; [reflexivity|].
  unfold build_row at 1. change (s_params (forget s)) with (s_params s). fold (nx_of s).
  assert (Y := Hys y (or_introl eq_refl)).
  rewrite (@points_forget nr y (seq 0 (nx_of s)) D s d Hs Y ltac:(intros x Hx; now apply in_seq0 in Hx) Hd Hh).
  change (fold_res (build_point E y) (seq 0 (nx_of s)) s) with (build_row E s y).
  destruct (build_row E s y) as [s1|] eqn:E1; cbn [forget_res]; [|reflexivity].
  assert (U := row_updated E Hs Y E1). destruct (others_sizes E (proj1 U)) as (Ey & Ex & _).
  unfold build_row in E1. fold (nx_of s) in E1.
  destruct (@points_hold T NT E nr y (seq 0 (nx_of s)) D s d s1 Hs Y ltac:(intros x Hx; now apply in_seq0 in Hx) Hd Hh E1) as (d1 & Hd1 & Hh1).
  rewrite (IH _ s1 d1 (updated_shapely U Hs) ltac:(intros z Hz; rewrite Ey; apply Hys; now right) Hd1 Hh1).
  destruct (build_rows E false ys s1) as [l r]. reflexivity.
Qed.

Lemma build_forget (g : gparams T) nf : consistent g ->
  build_grid E (fresh_shallot E g nf None) false (PInt 0) = forget_prog (build_grid E (fresh_shallot E g nf (Some (new_diag g))) false (PInt 0)).
Proof.
  intros Hg. unfold build_grid. change (s_params (fresh_shallot E g nf (Some (new_diag g)))) with g. change (s_params (fresh_shallot E g nf None)) with g. rewrite number_start. change (int_of (PInt 0 : pyval)) with 0%Z. cbn [Z.eqb].
  rewrite !init_ok. change (s_params (fresh_shallot E g nf (Some (new_diag g)))) with g. change (s_params (fresh_shallot E g nf None)) with g. change (Z.to_nat 0) with 0.
  set (s0 := with_all (fresh_shallot E g nf (Some (new_diag g))) (nan_cube g)). change (with_all (fresh_shallot E g nf None) (nan_cube g)) with (forget s0).
  change (s_params s0) with g. change (s_params (forget s0)) with g. rewrite Nat.sub_0_r.
  set (nr := List.length (g_rfa g)).
  assert (Hsh := consistent_shape3 Hg).
  assert (S0 : shapely nr s0).
  { intros w. unfold s0. rewrite cube_with_all, nan_cube_shape, nan_cube_data, repeat_length, Hsh, volume3. split; reflexivity. }
  assert (Y0 : forall y, In y (seq 0 (List.length (g_dy g))) -> y < ny_of s0) by (intros y Hy; apply in_seq0 in Hy; exact Hy).
  assert (Hsize : g_shape g = (List.length (g_dy g), List.length (g_dx g), List.length (g_rfa g))).
  { unfold shape3 in Hsh. destruct (g_shape g) as [[a b] c]. injection Hsh as -> -> ->. reflexivity. }
  assert (H0 : holds E (fun _ _ => false) s0 (new_diag g)).
  { unfold holds, new_diag. rewrite Hsize. cbn [d_my d_mx d_ext]. split; [reflexivity|]. split; [reflexivity|]. split; [reflexivity|]. split; [reflexivity|]. intros y x _ _. cbn [andb]. reflexivity. }
  rewrite (@rows_forget nr _ _ s0 (new_diag g) S0 Y0 eq_refl H0).
  destruct (build_rows E false (seq 0 (List.length (g_dy g))) s0) as [l1 [s1|]] eqn:E1; cbn [forget_prog forget_res]; [|reflexivity].
  assert (U := @rows_updated T NT E nr false _ s0 l1 s1 S0 Y0 E1).
  destruct U as (Ho & _ & _). assert (Hm : s_dmap s1 = None /\ s_grads s1 = None) by exact (others_extra Ho).
  rewrite (set_contrasts_ok _ (proj1 Hm) (proj2 Hm)). rewrite (set_contrasts_ok (forget s1) (proj1 Hm) (proj2 Hm)). reflexivity.
Qed.

Lemma finish_forget s : finish_shallot E (forget s) = (fst (finish_shallot E s), forget_res (snd (finish_shallot E s))).
Proof.
  unfold finish_shallot, extend_shallot. cbn [forget with_diag s_params s_dr s_inc s_tilt s_fx s_fy s_nf s_diag s_dmap s_grads s_fit s_ecl s_vel s_limb].
  assert (D : forall (t : shallot T) (g : gparams T), (g, diagnose_shallot (forget t)) = (fst (g, diagnose_shallot t), forget_res (snd (g, diagnose_shallot t)))).
  { intros t g. unfold diagnose_shallot. change (s_params (forget t)) with (s_params t). change (s_dr (forget t)) with (s_dr t).
    destruct (diagnose _ _) as [m|]; reflexivity. }
  destruct (extend_grid (s_params s)) as [g [u|e]].
  - destruct (fill_quadrants g (s_dr s) false) as [p1|]; cbn [bind]; [|reflexivity].
    destruct (fill_quadrants g (s_inc s) false) as [p2|]; cbn [bind]; [|reflexivity].
    destruct (fill_quadrants g (s_tilt s) true) as [p3|]; cbn [bind]; [|reflexivity].
    destruct (fill_quadrants g (s_fx s) false) as [p4|]; cbn [bind]; [|reflexivity].
    destruct (fill_quadrants g (s_fy s) false) as [p5|]; cbn [bind]; [|reflexivity].
    apply (D (mkSh _ _ _ _ _ _ _ _ _ _ _ _ _ _ _ _)).
  - destruct e; try reflexivity. apply (D s).
Qed.

(** the constructor with and without diagnostics *)
Theorem same_without (g : gparams T) nf ll : reachable g ->
  new_shallot E (EIs g) nf ll (PBool false) (PBool false) =
  let '(og, (l, r)) := new_shallot E (EIs g) nf ll (PBool true) (PBool false) in (og, (l, forget_res r)).
Proof.
  intros Hr. assert (Hg := pr_cons (reachable_proper Hr)). unfold new_shallot.
  destruct (number ll _ _ _ _); cbn [bind class_arg]; [|reflexivity].
  destruct (number nf true (PInt 1) p_inf false) as [nf'|]; cbn [bind]; [|reflexivity].
  cbn [boolean_v bind]. rewrite (build_forget nf' Hg).
  destruct (build_grid E (fresh_shallot E g nf' (Some (new_diag g))) false (PInt 0)) as [l [s|]] eqn:Eb; cbn [forget_prog forget_res].
  - rewrite finish_forget. destruct (finish_shallot E s) as [g' r]. reflexivity.
  - reflexivity.
Qed.
End K.
