(** C103: radii stored in grids and the mask of the Hill radius in binary64. *)
From Coq Require Import ZArith Reals.
From Flocq Require Import Core.
From Verif Require Import Num Py SpecNum GridParams SpecGrid GridProp SpecProp Geometry SpecGeom SpecF64 Names Build SpecBuild BuildP BuildGP Shallot ShallotOps EdgeExP HillF64P HillExP.
Import SpecF64.
Local Open Scope R_scope.

(** C103.  With elementary functions right up to [e], every radius stored in a grid built in binary64 is the largest
    distance of the ellipse from its centre up to a relative 22 e. *)
Theorem C103_radius (E : env f64) e nf (g : gparams f64) ll keep inter og l s : accurate (e_libm E) e -> bpow radix2 (-52) <= e <= / 1000000 -> reachable g ->
  new_shallot E (EIs g) nf ll keep inter = (og, (l, Ok s)) ->
  let p := s_params s in
  let at_ w i j k := cell (List.length (g_dx p)) (List.length (g_rfa p)) (p_data (cube_of w s)) i j k in
  forall i j k (dyv dxv fyv fxv : f64) dy dx fy fx sh,
  (i < List.length (g_dy p))%nat -> (j < List.length (g_dx p))%nat -> (k < List.length (g_rfa p))%nat ->
  List.nth_error (g_dy g) (if g_ext g then from_middle (List.length (g_dy g)) i else i) = Some dyv ->
  List.nth_error (g_dx g) (if g_ext g then from_middle (List.length (g_dx g)) j else j) = Some dxv ->
  f64_val dyv = XFin dy -> f64_val dxv = XFin dx -> f64_val (shear_at dxv dyv) = XFin sh -> loose dy -> Rabs dy <= bpow radix2 99 -> loose sh ->
  at_ WFy i j k = Some fyv -> f64_val fyv = XFin fy -> 0 < fy -> ordinary fy -> at_ WFx i j k = Some fxv -> f64_val fxv = XFin fx -> ordinary fx ->
  exists rv r c R, at_ WRadius i j k = Some rv /\ f64_val rv = XFin r /\ f64_val (circular_radius (e_libm E) dyv) = XFin c /\
    largest_distance fx fy sh c R /\ Rabs (r - R) <= 22 * e * R.
Proof. exact (fun Acc He Hr => @grid_radius E e Acc He nf g Hr ll keep inter og l s). Qed.
Print Assumptions C103_radius.
(** so the mask of the Hill radius is right for all ellipses but those within a relative 22 e of it *)
Theorem C103_hill (E : env f64) e nf (g : gparams f64) ll keep inter og l s h hr : accurate (e_libm E) e -> bpow radix2 (-52) <= e <= / 1000000 -> reachable g ->
  new_shallot E (EIs g) nf ll keep inter = (og, (l, Ok s)) ->
  small h -> numberlike h -> value h = XFin hr -> 0 <= hr ->
  exists s', generate_hill_radius_mask h s = (s', Ok tt) /\ p_data (s_dr s') = p_data (s_dr s) /\
  let p := s_params s in
  let at_ w i j k := cell (List.length (g_dx p)) (List.length (g_rfa p)) (p_data (cube_of w s)) i j k in
  forall i j k (dyv dxv fyv fxv : f64) dy dx fy fx sh,
  (i < List.length (g_dy p))%nat -> (j < List.length (g_dx p))%nat -> (k < List.length (g_rfa p))%nat ->
  List.nth_error (g_dy g) (if g_ext g then from_middle (List.length (g_dy g)) i else i) = Some dyv ->
  List.nth_error (g_dx g) (if g_ext g then from_middle (List.length (g_dx g)) j else j) = Some dxv ->
  f64_val dyv = XFin dy -> f64_val dxv = XFin dx -> f64_val (shear_at dxv dyv) = XFin sh -> loose dy -> Rabs dy <= bpow radix2 99 -> loose sh ->
  at_ WFy i j k = Some fyv -> f64_val fyv = XFin fy -> 0 < fy -> ordinary fy -> at_ WFx i j k = Some fxv -> f64_val fxv = XFin fx -> ordinary fx ->
  exists c R, f64_val (circular_radius (e_libm E) dyv) = XFin c /\ largest_distance fx fy sh c R /\
    let b := marked (p_mask (s_dr s')) ((i * List.length (g_dx p) + j) * List.length (g_rfa p) + k) in
    (R * (1 + 22 * e) <= hr -> b = false) /\ (hr < R * (1 - 22 * e) -> b = true).
Proof. exact (fun Acc He Hr => @grid_hill E e Acc He nf g Hr ll keep inter og l s h hr). Qed.
Print Assumptions C103_hill.
(** a cell of a mirrored grid of 3 x 3 x 2, masked by one Hill radius and not by another *)
Example C103_ex : exists g og l s, grid_m = Ok g /\ g_ext g = true /\
  new_shallot env_calc (EIs g) (PInt 2) (PInt 50) (PBool false) (PBool false) = (og, (l, Ok s)) /\
  hill_masks 4000000 2 0 0 s true /\ hill_masks 100000000 2 0 0 s false.
Proof. exact hill_example. Qed.
Print Assumptions C103_ex.
