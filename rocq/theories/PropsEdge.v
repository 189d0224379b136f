(** Property theorems for the edges of the disks computed in binary64 (C93). *)
From Coq Require Import ZArith Reals List.
From Flocq Require Import Core.
From Verif Require Import Num NumP Py SpecNum Validate XLibm FS GridParams SpecGrid SpecAxis Names GridProp Geometry SpecGeom SpecF64 SpecEdge
  GeomF64MoreP LibmF64P EdgeF64P EdgeContactP Build SpecBuild BuildP InterpP BuildGP Shallot EdgeGridP EdgeThinP EdgeExP.
Import ListNotations SpecF64.
Local Open Scope R_scope.

(** C93.  With elementary functions right up to [e], the edge of the disk computed in binary64 -- its radius, inclination
    and tilt taken together -- and the sheared ellipse are nowhere further than 525 e R^2 / m apart, R and m the
    largest and the smallest distance of the ellipse from its centre. *)
Theorem C93_edge (L : Libm f64) e (fxv fyv sv cv : f64) fx fy s c : accurate L e -> bpow radix2 (-52) <= e <= / 1000000 ->
  f64_val fxv = XFin fx -> f64_val fyv = XFin fy -> f64_val sv = XFin s -> f64_val cv = XFin c ->
  0 < fx -> 0 < fy -> 0 < c -> ordinary fx -> ordinary fy -> loose s -> ordinary c ->
  exists rv iv tv r i t R m, disk_parameters L fxv fyv sv cv = (rv, iv, tv) /\
    f64_val rv = XFin r /\ f64_val iv = XFin i /\ f64_val tv = XFin t /\
    largest_distance fx fy s c R /\ smallest_distance fx fy s c m /\ 0 < m <= R /\ Rabs (r - R) <= 22 * e * R /\ Rabs t <= 400 /\
    forall dx dy, edge_within (525 * e * (R * R) / m) dx dy fx fy s c r i t.
Proof. exact (@edge64 L e fxv fyv sv cv fx fy s c). Qed.
Print Assumptions C93_edge.
(** the disk of a grid point, its shear, fx and circular radius computed too: the edge passes the ends of the eclipse,
    (-1/2, 0) and (1/2, 0), within the same and a relative 2^-48 of the distance of the point *)
Theorem C93_contact (L : Libm f64) e (dxv dyv fyv : f64) dx dy fx fy s : accurate L e -> bpow radix2 (-52) <= e <= / 1000000 ->
  f64_val dxv = XFin dx -> f64_val dyv = XFin dy -> f64_val fyv = XFin fy -> loose dy -> Rabs dy <= bpow radix2 99 -> 0 < fy -> ordinary fy ->
  f64_val (shear_at dxv dyv) = XFin s -> loose s -> f64_val (determine_fx fyv dyv) = XFin fx -> ordinary fx ->
  exists rv iv tv r i t c R m, disk_parameters L (determine_fx fyv dyv) fyv (shear_at dxv dyv) (circular_radius L dyv) = (rv, iv, tv) /\
    f64_val rv = XFin r /\ f64_val iv = XFin i /\ f64_val tv = XFin t /\ f64_val (circular_radius L dyv) = XFin c /\
    largest_distance fx fy s c R /\ smallest_distance fx fy s c m /\ 0 < m <= R /\ Rabs (r - R) <= 22 * e * R /\ Rabs t <= 400 /\
    casts_within (528 * e * (R * R) / m + bpow radix2 (-48) * (1 + Rabs dx) * R) dx dy r i t.
Proof. exact (@casts64 L e dxv dyv fyv dx dy fx fy s). Qed.
Print Assumptions C93_contact.
(** the disks stored in a grid that is not mirrored *)
Theorem C93_grid (E : env f64) e nf (g : gparams f64) ll keep inter og l s : accurate (e_libm E) e -> bpow radix2 (-52) <= e <= / 1000000 -> reachable g ->
  new_shallot E (EIs g) nf ll keep inter = (og, (l, Ok s)) -> g_ext g = false ->
  s_params s = g /\
  let at_ w i j k := cell (List.length (g_dx g)) (List.length (g_rfa g)) (p_data (cube_of w s)) i j k in
  forall i j k (dyv dxv fyv fxv : f64) dy dx fy fx sh, nth_error (g_dy g) i = Some dyv -> nth_error (g_dx g) j = Some dxv -> (k < List.length (g_rfa g))%nat ->
  f64_val dyv = XFin dy -> f64_val dxv = XFin dx -> f64_val (shear_at dxv dyv) = XFin sh -> loose dy -> Rabs dy <= bpow radix2 99 -> loose sh ->
  at_ WFy i j k = Some fyv -> f64_val fyv = XFin fy -> 0 < fy -> ordinary fy -> at_ WFx i j k = Some fxv -> f64_val fxv = XFin fx -> ordinary fx ->
  exists rv iv tv r ic t c R m, at_ WRadius i j k = Some rv /\ at_ WInclination i j k = Some iv /\ at_ WTilt i j k = Some tv /\
    f64_val rv = XFin r /\ f64_val iv = XFin ic /\ f64_val tv = XFin t /\ f64_val (circular_radius (e_libm E) dyv) = XFin c /\
    largest_distance fx fy sh c R /\ smallest_distance fx fy sh c m /\
    casts_within (528 * e * (R * R) / m + bpow radix2 (-48) * (1 + Rabs dx) * R) dx dy r ic t.
Proof. exact (fun Acc He Hr => @grid_plain E e Acc He nf g Hr ll keep inter og l s). Qed.
Print Assumptions C93_grid.
(** the disks of a mirrored grid, around the points of its own axes; R and m are those of the mirror image in the first
    quadrant *)
Theorem C93_mirrored (E : env f64) e nf (g : gparams f64) (mnx mxx nx mny mxy ny mxr nr : pyval f64) x1 y1 ll keep inter og l s :
  accurate (e_libm E) e -> bpow radix2 (-52) <= e <= / 1000000 ->
  Forall small [mnx; mxx; nx; mny; mxy; ny; mxr; nr] -> new_params mnx mxx nx mny mxy ny mxr nr = Ok g ->
  value mnx = XFin 0 -> value mxx = XFin x1 -> value mny = XFin 0 -> value mxy = XFin y1 ->
  moderate x1 -> moderate y1 -> apart 0 x1 -> apart 0 y1 -> (2 <= zof nx <= 2 ^ 48)%Z -> (2 <= zof ny <= 2 ^ 48)%Z ->
  new_shallot E (EIs g) nf ll keep inter = (og, (l, Ok s)) ->
  let p := s_params s in
  let at_ w i j k := cell (List.length (g_dx p)) (List.length (g_rfa p)) (p_data (cube_of w s)) i j k in
  forall i j k (dyv dxv fyv fxv : f64) dy dx fy fx sh, (i < List.length (g_dy p))%nat -> (j < List.length (g_dx p))%nat -> (k < List.length (g_rfa p))%nat ->
  nth_error (g_dy g) (from_middle (List.length (g_dy g)) i) = Some dyv -> nth_error (g_dx g) (from_middle (List.length (g_dx g)) j) = Some dxv ->
  f64_val dyv = XFin dy -> f64_val dxv = XFin dx -> f64_val (shear_at dxv dyv) = XFin sh -> loose dy -> Rabs dy <= bpow radix2 99 -> loose sh ->
  at_ WFy i j k = Some fyv -> f64_val fyv = XFin fy -> 0 < fy -> ordinary fy -> at_ WFx i j k = Some fxv -> f64_val fxv = XFin fx -> ordinary fx ->
  exists dyv' dxv' dy' dx' rv iv tv r ic t c R m, nth_error (g_dy p) i = Some dyv' /\ nth_error (g_dx p) j = Some dxv' /\ f64_val dyv' = XFin dy' /\ f64_val dxv' = XFin dx' /\
    at_ WRadius i j k = Some rv /\ at_ WInclination i j k = Some iv /\ at_ WTilt i j k = Some tv /\
    f64_val rv = XFin r /\ f64_val iv = XFin ic /\ f64_val tv = XFin t /\ f64_val (circular_radius (e_libm E) dyv) = XFin c /\
    largest_distance fx fy sh c R /\ smallest_distance fx fy sh c m /\
    casts_within (552 * e * (R * R) / m + bpow radix2 (-48) * ((1 + Rabs dx) * R + x1 + y1)) dx' dy' r ic t.
Proof.
  exact (fun Acc He Sm Hg V1 V2 V3 V4 M1 M2 A1 A2 N1 N2 => @grid_mirrored E e Acc He nf g (rc_new mnx mxx nx mny mxy ny mxr nr Hg)
    mnx mxx nx mny mxy ny mxr nr x1 y1 Sm Hg V1 V2 V3 V4 M1 M2 A1 A2 N1 N2 ll keep inter og l s).
Qed.
Print Assumptions C93_mirrored.
(** the factor R / m cannot be left out: the disk of the flat ellipse of the width 2 and the height 2^-69 stands
    upright, as the tilt is read off the smaller axis *)
Theorem C93_flat_refuted : exists rv iv tv r i t R m, disk_parameters Libm_nearest (n_ofZ 1) thin (n_ofZ 0) (n_ofZ 1) = (rv, iv, tv) /\
  f64_val rv = XFin r /\ f64_val iv = XFin i /\ f64_val tv = XFin t /\
  largest_distance 1 (bpow radix2 (-70)) 0 1 R /\ smallest_distance 1 (bpow radix2 (-70)) 0 1 m /\ 1 <= R <= 1 + / 1000 /\
  Rabs (cos (degrees t)) <= / 1000 /\ ~ edge_within (R / 2) 0 0 1 (bpow radix2 (-70)) 0 1 r i t.
Proof. exact thin_disk. Qed.
Print Assumptions C93_flat_refuted.
(** an ellipse twice as wide as high; the disk of the point (1, 1) with fy = 2; a cell of a grid of 1 x 2 x 2 and one of
    a mirrored grid of 3 x 3 x 2 *)
Example C93_ex_edge : exists rv iv tv r i t, disk_parameters Libm_nearest (n_ofZ 2) (n_ofZ 1) (n_ofZ 0) (n_ofZ 1) = (rv, iv, tv) /\
  f64_val rv = XFin r /\ f64_val iv = XFin i /\ f64_val tv = XFin t /\ forall dx dy, edge_within (/ 1000000000000) dx dy 2 1 0 1 r i t.
Proof. exact wide_edge. Qed.
Print Assumptions C93_ex_edge.
Example C93_ex_contact : exists rv iv tv r i t,
  disk_parameters Libm_nearest (determine_fx (n_ofZ 2) (n_ofZ 1)) (n_ofZ 2) (shear_at (n_ofZ 1) (n_ofZ 1)) (circular_radius Libm_nearest (n_ofZ 1)) = (rv, iv, tv) /\
  f64_val rv = XFin r /\ f64_val iv = XFin i /\ f64_val tv = XFin t /\ casts_within (/ 10000000000) 1 1 r i t.
Proof. exact point_casts. Qed.
Print Assumptions C93_ex_contact.
Example C93_ex_grid : exists g og l s, grid_p = Ok g /\ g_ext g = false /\
  new_shallot env_calc (EIs g) (PInt 2) (PInt 50) (PBool false) (PBool false) = (og, (l, Ok s)) /\ example_disk 2 8388608 0 1 0 s.
Proof. exact plain_example. Qed.
Print Assumptions C93_ex_grid.
Example C93_ex_mirrored : exists g og l s, grid_m = Ok g /\ g_ext g = true /\
  new_shallot env_calc (EIs g) (PInt 2) (PInt 50) (PBool false) (PBool false) = (og, (l, Ok s)) /\ example_disk (-2) 8388608 2 0 0 s.
Proof. exact mirrored_example. Qed.
Print Assumptions C93_ex_mirrored.
