(** The whole grid, built in exact arithmetic: what the numbers at every point describe. *)
From Coq Require Import ZArith List Bool String Reals Lra Lia.
From Verif Require Import Num NumP Py SpecNum Validate XLibm FS GridParams SpecGrid GridParamsXP GridProp SpecProp Names Geometry SpecGeom EdgeP Build SpecBuild InterpP Shallot
  BuildGP BuildCP BuildExP SaveExP ColumnP FamilyP WholeP WholeOP SpecError WholeEP WholeExP.
Import ListNotations.
Local Open Scope R_scope.

(** C74.  The disk of the stored radius, inclination and tilt has the stretched and sheared circle as
    its edge, for any scale factors, shear and radius. *)
Theorem C74_edge dx dy fx fy s c r i t : 0 < fx -> 0 < fy -> 0 < c ->
  disk_parameters Libm_xr (XFin fx) (XFin fy) (XFin s) (XFin c) = (XFin r, XFin i, XFin t) ->
  forall x y, on_ellipse dx dy fx fy s c x y <-> disk_edge dx dy r i t x y.
Proof. exact (@edge_is_ellipse dx dy fx fy s c r i t). Qed.
Print Assumptions C74_edge.
Theorem C74_grid (E : env xr) nf n mnx mxx nx mny mxy ny mxr nr g x0 x1 y0 y1 r1 ll keep inter og l s :
  e_libm E = Libm_xr -> brackets (e_search E) -> num_index nf = Ok n -> (2 <= n)%nat ->
  Forall small [mnx; mxx; nx; mny; mxy; ny; mxr; nr] ->
  value mnx = XFin x0 -> value mxx = XFin x1 -> value mny = XFin y0 -> value mxy = XFin y1 -> value mxr = XFin r1 ->
  new_params mnx mxx nx mny mxy ny mxr nr = Ok g -> (2 <= zof nx)%Z -> (2 <= zof ny)%Z -> (2 * zof nx <= 2 ^ 53)%Z -> (2 * zof ny <= 2 ^ 53)%Z ->
  1 <= x1 -> 1 <= y1 -> new_shallot E (EIs g) nf ll keep inter = (og, (l, Ok s)) ->
  let p := s_params s in
  let at_ w i j k := cell (List.length (g_dx p)) (List.length (g_rfa p)) (p_data (cube_of w s)) i j k in
  forall i j k dy dx, nth_error (g_dy p) i = Some (XFin dy) -> nth_error (g_dx p) j = Some (XFin dx) -> (k < List.length (g_rfa p))%nat ->
    (dy <> 0 -> exists fx fy r ic t, casts_eclipse dx dy fx fy r ic t /\
       at_ WFx i j k = Some (XFin fx) /\ at_ WFy i j k = Some (XFin fy) /\
       at_ WRadius i j k = Some (XFin r) /\ at_ WInclination i j k = Some (XFin ic) /\ at_ WTilt i j k = Some (XFin t)) /\
    (dy = 0 -> dx <> 0 -> forall w, at_ w i j k = Some XNaN).
Proof. exact (@grid_casts E nf n mnx mxx nx mny mxy ny mxr nr g x0 x1 y0 y1 r1 ll keep inter og l s). Qed.
Print Assumptions C74_grid.
(** the grid load starts from, mirrored to dx, dy = -1, 0, 1: its first point *)
Example C74_ex : exists og l s, dummy env_xr = (og, (l, Ok s)) /\
  exists fx fy r ic t, casts_eclipse (-1) (-1) fx fy r ic t /\
    nth_error (p_data (cube_of WRadius s)) 0 = Some (XFin r) /\ nth_error (p_data (cube_of WInclination s)) 0 = Some (XFin ic) /\
    nth_error (p_data (cube_of WTilt s)) 0 = Some (XFin t).
Proof. exact dummy_disk. Qed.

(** C75.  At dx = dy = 0: the middle of the rf axis holds the circle of radius 1/2 and the right half
    disks of radius rf/2, but the left half only disks of radius 1/2, and none from rf = b on.  [b] is
    the same for the whole axis. *)
Theorem C75_origin (E : env xr) nf n mnx mxx nx mny mxy ny mxr nr g x0 x1 y0 y1 r1 ll keep inter og l s :
  e_libm E = Libm_xr -> brackets (e_search E) -> num_index nf = Ok n -> (2 <= n)%nat ->
  Forall small [mnx; mxx; nx; mny; mxy; ny; mxr; nr] ->
  value mnx = XFin x0 -> value mxx = XFin x1 -> value mny = XFin y0 -> value mxy = XFin y1 -> value mxr = XFin r1 ->
  new_params mnx mxx nx mny mxy ny mxr nr = Ok g -> (2 <= zof nx)%Z -> (2 <= zof ny)%Z -> (2 * zof nx <= 2 ^ 53)%Z -> (2 * zof ny <= 2 ^ 53)%Z ->
  1 <= x1 -> 1 <= y1 -> 1 < r1 -> new_shallot E (EIs g) nf ll keep inter = (og, (l, Ok s)) ->
  let p := s_params s in
  let mid := (List.length (g_rf p) - 1)%nat in
  forall i j, nth_error (g_dy p) i = Some (XFin 0) -> nth_error (g_dx p) j = Some (XFin 0) ->
  let at_ w k := cell (List.length (g_dx p)) (List.length (g_rfa p)) (p_data (cube_of w s)) i j k in
  let disk k fy r := at_ WFx k = Some (XFin 1) /\ at_ WFy k = Some (XFin fy) /\ at_ WRadius k = Some (XFin r) /\
    exists ic t, at_ WInclination k = Some (XFin ic) /\ at_ WTilt k = Some (XFin t) /\ casts_eclipse 0 0 1 fy r ic t in
  disk mid 1 (/ 2) /\
  exists b, 1 < b /\ forall e q, (1 <= e)%nat -> nth_error (g_rf p) e = Some (XFin q) ->
    disk (mid + e)%nat q (q / 2) /\
    (q < b -> disk (mid - e)%nat ((b - q) / (b - 1)) (/ 2)) /\
    (b <= q -> at_ WFy (mid - e)%nat = Some (XFin 0) /\ forall w, w <> WFy -> at_ w (mid - e)%nat = Some XNaN).
Proof.
  exact (fun HE HS Hnf Hn Sml V1 V2 V3 V4 V5 Hg Nx Ny Bx By H1x H1y H1r =>
    @grid_origin E HE HS nf n Hnf Hn mnx mxx nx mny mxy ny mxr nr g x0 x1 y0 y1 r1 Sml V1 V2 V3 V4 V5 Hg Nx Ny Bx By ll keep inter og l s H1x H1y H1r).
Qed.
Print Assumptions C75_origin.
(** the expected radius, rf times that in the middle, is missed by more than any resolution explains *)
Theorem C75_refuted : ~ (forall og l s, dummy env_xr = (og, (l, Ok s)) -> forall i j e q r,
  nth_error (g_rf (s_params s)) e = Some (XFin q) -> cell 3 3 (p_data (cube_of WRadius s)) i j 1 = Some (XFin r) ->
  exists r', cell 3 3 (p_data (cube_of WRadius s)) i j (1 - e) = Some (XFin r') /\ Rabs (r' - q * r) < / 2).
Proof. exact origin_fraction_refuted. Qed.
Print Assumptions C75_refuted.
Example C75_ex : exists og l s, dummy env_xr = (og, (l, Ok s)) /\
  g_rf (s_params s) = [XFin 1; XFin 2] /\ nth_error (g_dy (s_params s)) 1 = Some (XFin 0) /\ nth_error (g_dx (s_params s)) 1 = Some (XFin 0) /\
  cell 3 3 (p_data (cube_of WRadius s)) 1 1 1 = Some (XFin (/ 2)) /\ cell 3 3 (p_data (cube_of WRadius s)) 1 1 2 = Some (XFin 1) /\
  (cell 3 3 (p_data (cube_of WRadius s)) 1 1 0 = Some (XFin (/ 2)) \/ cell 3 3 (p_data (cube_of WRadius s)) 1 1 0 = Some XNaN).
Proof. exact dummy_origin. Qed.

(** C76.  Off the row dy = 0 the radius rf places from the middle, on either side, is rf times that in the
    middle, to within twice the resolution; the resolution vanishes as nf grows.  The example C77_ex below meets the hypotheses of both. *)
Theorem C76_axis (E : env xr) nf n mnx mxx nx mny mxy ny mxr nr g x0 x1 y0 y1 r1 ll keep inter og l s :
  e_libm E = Libm_xr -> brackets (e_search E) -> num_index nf = Ok n -> (2 <= n)%nat ->
  Forall small [mnx; mxx; nx; mny; mxy; ny; mxr; nr] ->
  value mnx = XFin x0 -> value mxx = XFin x1 -> value mny = XFin y0 -> value mxy = XFin y1 -> value mxr = XFin r1 ->
  new_params mnx mxx nx mny mxy ny mxr nr = Ok g -> (2 <= zof nx)%Z -> (2 <= zof ny)%Z -> (2 * zof nx <= 2 ^ 53)%Z -> (2 * zof ny <= 2 ^ 53)%Z ->
  1 <= x1 -> 1 <= y1 -> new_shallot E (EIs g) nf ll keep inter = (og, (l, Ok s)) ->
  let p := s_params s in
  let mid := (List.length (g_rf p) - 1)%nat in
  forall i j dy dx, nth_error (g_dy p) i = Some (XFin dy) -> nth_error (g_dx p) j = Some (XFin dx) -> dy <> 0 ->
  let radius k := cell (List.length (g_dx p)) (List.length (g_rfa p)) (p_data (cube_of WRadius s)) i j k in
  exists m, radius mid = Some (XFin m) /\ forall e q k, nth_error (g_rf p) e = Some (XFin q) -> k = (mid + e)%nat \/ k = (mid - e)%nat ->
    exists r, radius k = Some (XFin r) /\ Rabs (r - q * m) <= 2 * resolution n x1 y1 dx dy.
Proof.
  exact (fun HE HS Hnf Hn Sml V1 V2 V3 V4 V5 Hg Nx Ny Bx By H1x H1y H i j dy dx Hi Hj Hd =>
    match @grid_error E HE HS nf n Hnf Hn mnx mxx nx mny mxy ny mxr nr g x0 x1 y0 y1 r1 Sml V1 V2 V3 V4 V5 Hg Nx Ny Bx By ll keep inter og l s H1x H1y H i j dy dx Hi Hj Hd with
    | ex_intro _ m (conj A (conj _ B)) => ex_intro _ m (conj A B) end).
Qed.
Print Assumptions C76_axis.
Theorem C76_vanishes x1 y1 dx dy : forall eps, 0 < eps -> exists N, forall n, (N <= n)%nat -> Rabs (resolution n x1 y1 dx dy) < eps.
Proof. exact (@resolution_vanishes x1 y1 dx dy). Qed.
Print Assumptions C76_vanishes.

(** C77.  The disks of a grid point are all those that cast the eclipse, and the radius in the middle of
    the rf axis is the smallest of all of theirs, to within the resolution. *)
Theorem C77_family dx dy r i t : dy <> 0 -> eclipsing_disk dx dy r i t ->
  exists fx fy, determine_fx (XFin fy) (XFin dy) = XFin fx /\ casts_eclipse dx dy fx fy r i t.
Proof. exact (@eclipsing_casts dx dy r i t). Qed.
Print Assumptions C77_family.
Theorem C77_smallest (E : env xr) nf n mnx mxx nx mny mxy ny mxr nr g x0 x1 y0 y1 r1 ll keep inter og l s :
  e_libm E = Libm_xr -> brackets (e_search E) -> num_index nf = Ok n -> (2 <= n)%nat ->
  Forall small [mnx; mxx; nx; mny; mxy; ny; mxr; nr] ->
  value mnx = XFin x0 -> value mxx = XFin x1 -> value mny = XFin y0 -> value mxy = XFin y1 -> value mxr = XFin r1 ->
  new_params mnx mxx nx mny mxy ny mxr nr = Ok g -> (2 <= zof nx)%Z -> (2 <= zof ny)%Z -> (2 * zof nx <= 2 ^ 53)%Z -> (2 * zof ny <= 2 ^ 53)%Z ->
  1 <= x1 -> 1 <= y1 -> new_shallot E (EIs g) nf ll keep inter = (og, (l, Ok s)) ->
  let p := s_params s in
  forall i j dy dx, nth_error (g_dy p) i = Some (XFin dy) -> nth_error (g_dx p) j = Some (XFin dx) -> dy <> 0 ->
  (exists e q, nth_error (g_rf p) e = Some (XFin q) /\ 1 < q) ->
  exists m, cell (List.length (g_dx p)) (List.length (g_rfa p)) (p_data (cube_of WRadius s)) i j (List.length (g_rf p) - 1) = Some (XFin m) /\
    forall r ic t, eclipsing_disk dx dy r ic t -> m <= r + resolution n x1 y1 dx dy.
Proof.
  exact (fun HE HS Hnf Hn Sml V1 V2 V3 V4 V5 Hg Nx Ny Bx By H1x H1y H i j dy dx Hi Hj Hd Q =>
    match @grid_error E HE HS nf n Hnf Hn mnx mxx nx mny mxy ny mxr nr g x0 x1 y0 y1 r1 Sml V1 V2 V3 V4 V5 Hg Nx Ny Bx By ll keep inter og l s H1x H1y H i j dy dx Hi Hj Hd with
    | ex_intro _ m (conj A (conj B _)) => ex_intro _ m (conj A (B Q)) end).
Qed.
Print Assumptions C77_smallest.
(** at the origin the middle radius 1/2 (C75) is the smallest exactly *)
Theorem C77_origin r i t : eclipsing_disk 0 0 r i t -> / 2 <= r.
Proof. exact (@eclipsing_origin r i t). Qed.
Print Assumptions C77_origin.
(** the grid load starts from, at dx = dy = -1: rf = 1 in the middle and 2 on both sides *)
Example C77_ex : exists og l s, dummy env_xr = (og, (l, Ok s)) /\ exists m r r',
  nth_error (p_data (cube_of WRadius s)) 0 = Some (XFin r) /\ nth_error (p_data (cube_of WRadius s)) 1 = Some (XFin m) /\ nth_error (p_data (cube_of WRadius s)) 2 = Some (XFin r') /\
  Rabs (r - 2 * m) <= 14 / 100 /\ Rabs (r' - 2 * m) <= 14 / 100 /\
  (exists ra ia ta, eclipsing_disk (-1) (-1) ra ia ta) /\ forall ra ia ta, eclipsing_disk (-1) (-1) ra ia ta -> m <= ra + 7 / 100.
Proof. exact dummy_error. Qed.
