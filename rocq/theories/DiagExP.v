(** The diagnostics of a small grid. *)
From Coq Require Import ZArith Reals List Bool String Lia Lra.
From Verif Require Import Num NumP Py SpecNum Validate ValidateP Ring RingP RingSystem XLibm FS FSP GridParams SpecGrid GridParamsP GridParamsXP GridDiag GridDiagP GridCrashP
  Names GridProp SpecProp GridPropP Geometry SpecGeom GeomP GeomMoreP EdgeP Build SpecBuild BuildP BuildQP StretchP BuildXP InterpP Shallot BuildGP BuildGridP BuildCP BuildDP BuildEP BuildFP BuildHP ColumnP WholeP
  BuildExP SaveExP WholeOP SpecError WholeEP WholeExP DiagBuildP DiagSameP.
Import ListNotations.
Set Implicit Arguments.
Local Open Scope R_scope.

(** the grid that load builds first, with diagnostics *)
Theorem dummy_diagnostics : exists g og l s d, new_params (PInt 0) (PInt 1) (PInt 2) (PInt 0) (PInt 1) (PInt 2) (PInt 2) (PInt 2) = Ok g /\
  new_shallot env_xr (EIs g) (PInt 100) (PInt 50) (PBool true) (PBool false) = (og, (l, Ok s)) /\ s_diag s = Some d /\
  g_dy (s_params s) = [XFin (-1); XFin 0; XFin 1] /\ g_dx (s_params s) = [XFin (-1); XFin 0; XFin 1] /\
  (exists fx fy r i t, casts_eclipse (-1) (-1) fx fy r i t /\ nth_error (p_data (s_dr s)) 0 = Some (XFin r)) /\
  get_diagnostic d (PInt 0) (PInt 0) = Err KeyError /\
  (exists ys ds m, get_diagnostic d (PInt 1) (PInt 1) = Ok (sf ys, sf ds) /\ good_samples (-1) (-1) ys ds m) /\
  (exists ys ds m, get_diagnostic d (PInt 1) (PInt 2) = Ok (sf ys, sf ds) /\ good_samples 0 (-1) ys ds m) /\
  get_diagnostic d (PInt 2) (PInt 1) = Err KeyError.
Proof.
  destruct dummy_disk as (og & l & s0 & H & fx & fy & r & ic & t & C & Cr & _).
  destruct (dummy_grid H) as (g & Hg & Hs & Ax & _ & Lr). assert (Hre : reachable g) by (eapply rc_new; exact Hg).
  rewrite (@same_without xr _ _ env_xr g _ _ Hre) in Hs.
  destruct (new_shallot env_xr (EIs g) (PInt 100) (PInt 50) (PBool true) (PBool false)) as [og' [l' [s|]]] eqn:Ek;
    [|apply pair_equal_spec in Hs as [_ Hs]; apply pair_equal_spec in Hs as [_ Hs]; discriminate Hs].
  apply pair_equal_spec in Hs as [_ Hs]. apply pair_equal_spec in Hs as [_ Hs]. cbn [forget_res] in Hs. assert (Ep : s_params s0 = s_params s) by (injection Hs as <-; reflexivity).
  assert (Ed : s_dr s0 = s_dr s) by (injection Hs as <-; reflexivity). clear Hs. rewrite Ep in *. change (cube_of WRadius s0) with (s_dr s0) in Cr. rewrite Ed in Cr.
  assert (Sml : Forall (@small xr) [PInt 0; PInt 1; PInt 2; PInt 0; PInt 1; PInt 2; PInt 2; PInt 2]) by (repeat constructor; cbn; lia).
  assert (V : forall z, value (PInt z : pyval xr) = XFin (IZR z)) by reflexivity.
  assert (Nx : (2 <= zof (PInt 2 : pyval xr))%Z) by (cbn; lia). assert (Bx : (2 * zof (PInt 2 : pyval xr) <= 2 ^ 53)%Z) by (cbn; lia).
  destruct (new_params_spaced Sml (V 0%Z) (V 1%Z) (V 0%Z) (V 1%Z) (V 2%Z) Hg) as (_ & _ & _ & _ & _ & _ & _ & _ & _ & Ex).
  assert (Eg : g_ext g = true) by (apply Ex; auto).
  destruct (@constructor_reflects xr _ _ env_xr g _ _ _ _ _ _ _ Hre Eg Ek) as (Hx & _).
  destruct (@extend_mirrors _ _ _ _ _ _ _ _ g _ _ _ _ Sml (V 0%Z) (V 1%Z) (V 0%Z) (V 1%Z) Hg Eg Nx Nx Bx Bx) as (g' & Hx' & [Mx _] & [My _] & _).
  rewrite Hx in Hx'. apply pair_equal_spec in Hx' as [Hp _]. subst g'. destruct (new_params_sizes Sml Hg) as (Ly & Lx & _). cbn [zof] in Lx, Ly.
  assert (Mx3 : List.length (g_dx (s_params s)) = 3%nat) by lia. assert (My3 : List.length (g_dy (s_params s)) = 3%nat) by lia.
  assert (Three : forall m : list xr, List.length m = 3%nat -> (forall i, (i < 3)%nat -> nth_error m i = Some (XFin (INR i - 1))) -> m = [XFin (-1); XFin 0; XFin 1]).
  { intros m Hm Hi. destruct m as [|a [|b [|c [|? ?]]]]; try discriminate Hm. assert (K0 := Hi 0%nat ltac:(lia)). assert (K1 := Hi 1%nat ltac:(lia)). assert (K2 := Hi 2%nat ltac:(lia)).
    cbn [nth_error INR] in *. injection K0 as ->. injection K1 as ->. injection K2 as ->. repeat (f_equal; try ring). }
  assert (Ay := Three _ My3 (fun i Hi => proj1 (Ax i Hi))). assert (Axx := Three _ Mx3 (fun i Hi => proj2 (Ax i Hi))).
  destruct (@kept_diagnostics env_xr eq_refl (PInt 100) 100%nat eq_refl ltac:(lia) _ _ _ _ _ _ _ _ g _ _ _ _ _ Sml (V 0%Z) (V 1%Z) (V 0%Z) (V 1%Z) (V 2%Z) Hg Nx Nx Bx Bx (Rle_refl 1) (Rle_refl 1) _ _ _ _ _ Ek) as (d & Hd & K).
  exists g, og', l', s, d. split; [exact Hg|]. split; [exact Ek|]. split; [exact Hd|]. split; [exact Ay|]. split; [exact Axx|].
  rewrite Eg, Ay, Axx in K. cbn [List.length] in K.
  split; [exists fx, fy, r, ic, t; split; assumption|].
  split; [apply (K 0%nat 0%nat ltac:(lia) ltac:(lia)); lia|].
  split; [destruct (proj2 (K 1%nat 1%nat ltac:(lia) ltac:(lia)) (-1) (-1) ltac:(lia) ltac:(lia) eq_refl eq_refl) as [_ A]; destruct A as (ys & ds & m & A & B & _); [intros; lra|exists ys, ds, m; split; assumption]|].
  split; [destruct (proj2 (K 1%nat 2%nat ltac:(lia) ltac:(lia)) (-1) 0 ltac:(lia) ltac:(lia) eq_refl eq_refl) as [_ A]; destruct A as (ys & ds & m & A & B & _); [intros; lra|exists ys, ds, m; split; assumption]|].
  destruct (proj2 (K 2%nat 1%nat ltac:(lia) ltac:(lia)) 0 (-1) ltac:(lia) ltac:(lia) eq_refl eq_refl) as [A _]. apply A; lra.
Qed.

(** looking up a grid point does not give its samples *)
Theorem lookup_refuted : ~ (forall g og l s d i j dy dx r, reachable g ->
  new_shallot env_xr (EIs g) (PInt 100) (PInt 50) (PBool true) (PBool false) = (og, (l, Ok s)) -> s_diag s = Some d ->
  nth_error (g_dy (s_params s)) i = Some (XFin dy) -> nth_error (g_dx (s_params s)) j = Some (XFin dx) -> 
  cell (List.length (g_dx (s_params s))) (List.length (g_rfa (s_params s))) (p_data (s_dr s)) i j 0 = Some (XFin r) ->
  exists ys ds m, get_diagnostic d (PInt (Z.of_nat i)) (PInt (Z.of_nat j)) = Ok (sf ys, sf ds) /\ good_samples dx dy ys ds m).
Proof.
  intros X. destruct dummy_diagnostics as (g & og & l & s & d & Hg & Hs & Hd & Ay & Ax & (fx & fy & r & i & t & _ & Hr) & K & _).
  destruct (X g og l s d 0%nat 0%nat (-1) (-1) r) as (ys & ds & m & A & _); auto.
  - eapply rc_new; exact Hg.
  - rewrite Ay. reflexivity.
  - rewrite Ax. reflexivity.
  - change (Z.of_nat 0) with 0%Z in A. rewrite K in A. discriminate A.
Qed.
