(** Property C84: the diagnostics kept while a grid is built. *)
From Coq Require Import ZArith Reals List.
From Verif Require Import Num NumP Py SpecNum XLibm FS GridParams SpecGrid GridDiag GridProp SpecProp Geometry SpecGeom SpecError Build SpecBuild Shallot BuildDP BuildEP BuildExP WholeExP DiagBuildP DiagSameP DiagExP.
Import ListNotations.
Local Open Scope R_scope.

(** ** C84 *)
(** keeping them changes neither the outcome nor the parameters, the effects or the grid, whatever the numbers are *)
Theorem C84_same {T} {NT : Num T} {LT : NumLaws T} (E : env T) (g : gparams T) nf ll : reachable g ->
  new_shallot E (EIs g) nf ll (PBool false) (PBool false) =
  let '(og, (l, r)) := new_shallot E (EIs g) nf ll (PBool true) (PBool false) in
  (og, (l, match r with Ok s => Ok (with_diag s None) | Err e => Err e end)).
Proof. exact (@same_without T NT LT E g nf ll). Qed.
Print Assumptions C84_same.
(** looking up (i, j) of a grid that was not mirrored gives the samples of that point; in a mirrored one those of
    (i - 1, j - 1), and a KeyError in the first row and column *)
Theorem C84_lookup (E : env xr) nf n mnx mxx nx mny mxy ny mxr nr g x0 x1 y0 y1 r1 ll inter og l s :
  e_libm E = Libm_xr -> num_index nf = Ok n -> (2 <= n)%nat ->
  Forall small [mnx; mxx; nx; mny; mxy; ny; mxr; nr] ->
  value mnx = XFin x0 -> value mxx = XFin x1 -> value mny = XFin y0 -> value mxy = XFin y1 -> value mxr = XFin r1 ->
  new_params mnx mxx nx mny mxy ny mxr nr = Ok g -> (2 <= zof nx)%Z -> (2 <= zof ny)%Z -> (2 * zof nx <= 2 ^ 53)%Z -> (2 * zof ny <= 2 ^ 53)%Z ->
  1 <= x1 -> 1 <= y1 -> new_shallot E (EIs g) nf ll (PBool true) inter = (og, (l, Ok s)) ->
  let p := s_params s in let o := if g_ext g then 1%nat else 0%nat in
  exists d, s_diag s = Some d /\ forall i j, (i < List.length (g_dy p))%nat -> (j < List.length (g_dx p))%nat ->
    let got := get_diagnostic d (PInt (Z.of_nat i)) (PInt (Z.of_nat j)) in
    ((i < o \/ j < o)%nat -> got = Err KeyError) /\
    forall dy dx, (o <= i)%nat -> (o <= j)%nat -> nth_error (g_dy p) (i - o) = Some (XFin dy) -> nth_error (g_dx p) (j - o) = Some (XFin dx) ->
      (dy = 0 -> dx <> 0 -> got = Err KeyError) /\
      ((dy = 0 -> dx = 0) -> exists ys ds m, got = Ok (sf ys, sf ds) /\ good_samples dx dy ys ds m /\
        cell (List.length (g_dx p)) (List.length (g_rfa p)) (p_data (s_dr s)) (i - o) (j - o) (List.length (g_rf p) - 1) = Some (XFin m)).
Proof.
  exact (fun HE Hnf Hn Sml V1 V2 V3 V4 V5 Hg Nx Ny Bx By H1x H1y =>
    @kept_diagnostics E HE nf n Hnf Hn mnx mxx nx mny mxy ny mxr nr g x0 x1 y0 y1 r1 Sml V1 V2 V3 V4 V5 Hg Nx Ny Bx By H1x H1y ll inter og l s).
Qed.
Print Assumptions C84_lookup.
(** so the lookup does not give the samples of the grid point asked for *)
Theorem C84_lookup_refuted : ~ (forall g og l s d i j dy dx r, reachable g ->
  new_shallot env_xr (EIs g) (PInt 100) (PInt 50) (PBool true) (PBool false) = (og, (l, Ok s)) -> s_diag s = Some d ->
  nth_error (g_dy (s_params s)) i = Some (XFin dy) -> nth_error (g_dx (s_params s)) j = Some (XFin dx) ->
  cell (List.length (g_dx (s_params s))) (List.length (g_rfa (s_params s))) (p_data (s_dr s)) i j 0 = Some (XFin r) ->
  exists ys ds m, get_diagnostic d (PInt (Z.of_nat i)) (PInt (Z.of_nat j)) = Ok (sf ys, sf ds) /\ good_samples dx dy ys ds m).
Proof. exact lookup_refuted. Qed.
Print Assumptions C84_lookup_refuted.
Example C84_ex : exists g og l s d, new_params (PInt 0) (PInt 1) (PInt 2) (PInt 0) (PInt 1) (PInt 2) (PInt 2) (PInt 2) = Ok g /\
  new_shallot env_xr (EIs g) (PInt 100) (PInt 50) (PBool true) (PBool false) = (og, (l, Ok s)) /\ s_diag s = Some d /\
  g_dy (s_params s) = [XFin (-1); XFin 0; XFin 1] /\ g_dx (s_params s) = [XFin (-1); XFin 0; XFin 1] /\
  (exists fx fy r i t, casts_eclipse (-1) (-1) fx fy r i t /\ nth_error (p_data (s_dr s)) 0 = Some (XFin r)) /\
  get_diagnostic d (PInt 0) (PInt 0) = Err KeyError /\
  (exists ys ds m, get_diagnostic d (PInt 1) (PInt 1) = Ok (sf ys, sf ds) /\ good_samples (-1) (-1) ys ds m) /\
  (exists ys ds m, get_diagnostic d (PInt 1) (PInt 2) = Ok (sf ys, sf ds) /\ good_samples 0 (-1) ys ds m) /\
  get_diagnostic d (PInt 2) (PInt 1) = Err KeyError.
Proof. exact dummy_diagnostics. Qed.
