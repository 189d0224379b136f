(** Property theorems for the disk geometry of ShallotGrid (C35-C39). *)
From Coq Require Import ZArith Reals List Bool Lra.
From Verif Require Import Num Py XLibm Geometry SpecGeom GeomP GeomMoreP.
Local Open Scope R_scope.

(** C35.  The ellipse of a grid point passes through (1/2, 0) and (-1/2, 0), whichever scale factor
    the other one was computed from. *)
Theorem C35_contact_fx dx dy fx fy s :
  shear_at (XFin dx) (XFin dy) = XFin s -> determine_fx (XFin fy) (XFin dy) = XFin fx ->
  on_ellipse dx dy fx fy s (radius_of dy) (/ 2) 0 /\ on_ellipse dx dy fx fy s (radius_of dy) (- / 2) 0.
Proof. exact (@contact_fx dx dy fx fy s). Qed.
Print Assumptions C35_contact_fx.
Theorem C35_contact_fy dx dy fx fy s :
  shear_at (XFin dx) (XFin dy) = XFin s -> determine_fy (XFin fx) (XFin dy) = XFin fy ->
  on_ellipse dx dy fx fy s (radius_of dy) (/ 2) 0 /\ on_ellipse dx dy fx fy s (radius_of dy) (- / 2) 0.
Proof. exact (@contact_fy dx dy fx fy s). Qed.
Print Assumptions C35_contact_fy.
(** the radius used is the one the model computes *)
Theorem C35_radius dy : circular_radius Libm_xr (XFin dy) = XFin (radius_of dy) /\ radius_of dy = sqrt (/ 2 * / 2 + dy * dy).
Proof. exact (conj (radius_xr dy) eq_refl). Qed.
Print Assumptions C35_radius.
Theorem C35_inverse_fy fy dy fx : dy <> 0 -> 0 < fy ->
  determine_fx (XFin fy) (XFin dy) = XFin fx -> determine_fy (XFin fx) (XFin dy) = XFin fy.
Proof. exact (@fy_of_fx fy dy fx). Qed.
Print Assumptions C35_inverse_fy.
Theorem C35_inverse_fx fx dy fy : dy <> 0 -> 0 < fx ->
  determine_fy (XFin fx) (XFin dy) = XFin fy -> determine_fx (XFin fy) (XFin dy) = XFin fx.
Proof. exact (@fx_of_fy fx dy fy). Qed.
Print Assumptions C35_inverse_fx.

(** (dx, dy) = (3, 1/2): shear -6, and fy = 1 belongs to fx = 1 *)
Example C35_ex : shear_at (XFin 3) (XFin (1/2)) = XFin (-6) /\ determine_fx (XFin 1) (XFin (1/2)) = XFin 1.
Proof.
  split.
  - rewrite shear_xr. destruct (Req_EM_T _ _); [lra|]. f_equal. field.
  - rewrite fx_xr. cbv zeta. destruct (Rle_dec _ _); [lra|]. f_equal. replace (1 / _) with (1 * 1) by field. rewrite sqrt_square; lra.
Qed.

(** C36.  Disk radius, inclination and tilt are those of the ellipse. *)
Theorem C36_disk fx fy s c : 0 < fx -> 0 < fy -> 0 < c ->
  exists r i t, disk_parameters Libm_xr (XFin fx) (XFin fy) (XFin s) (XFin c) = (XFin r, XFin i, XFin t) /\
    largest_distance fx fy s c r /\ smallest_distance fx fy s c (cos (degrees i) * r) /\
    0 <= i < 90 /\ 0 < r /\
    on_ellipse 0 0 fx fy s c (r * cos (degrees t)) (r * sin (degrees t)).
Proof. exact (@disk_is_ellipse fx fy s c). Qed.
Print Assumptions C36_disk.

(** an unsheared ellipse twice as wide as high *)
Example C36_ex : largest_distance 2 1 0 1 2 /\ smallest_distance 2 1 0 1 1.
Proof. exact wide_ellipse. Qed.

(** C37.  At the mirrored grid points the formulas give the same radius and inclination and the
    mirrored tilt: exactly 180 - tilt off the axis dx = 0, and modulo 180 on it. *)
Theorem C37_mirror fx fy s c r i t : 0 < fx -> 0 < fy -> 0 < c ->
  disk_parameters Libm_xr (XFin fx) (XFin fy) (XFin s) (XFin c) = (XFin r, XFin i, XFin t) ->
  exists t', disk_parameters Libm_xr (XFin fx) (XFin fy) (XFin (- s)) (XFin c) = (XFin r, XFin i, XFin t') /\
    (s <> 0 -> t' = 180 - t) /\ exists k : Z, t' = 180 - t + 180 * IZR k.
Proof. exact (@disk_mirror fx fy s c r i t). Qed.
Print Assumptions C37_mirror.
Theorem C37_shear dx dy s : shear_at (XFin dx) (XFin dy) = XFin s ->
  shear_at (XFin (- dx)) (XFin dy) = XFin (- s) /\ shear_at (XFin dx) (XFin (- dy)) = XFin (- s) /\ shear_at (XFin (- dx)) (XFin (- dy)) = XFin s.
Proof. exact (@shear_mirror dx dy s). Qed.
Print Assumptions C37_shear.
Theorem C37_scale fy dy : determine_fx (XFin fy) (XFin (- dy)) = determine_fx (XFin fy) (XFin dy) /\
  circular_radius Libm_xr (XFin (- dy)) = circular_radius Libm_xr (XFin dy).
Proof. exact (conj (fx_mirror fy dy) (radius_mirror dy)). Qed.
Print Assumptions C37_scale.

Example C37_ex : exists r i t, disk_parameters Libm_xr (XFin 2) (XFin 1) (XFin 3) (XFin 1) = (XFin r, XFin i, XFin t) /\ (3 <> 0).
Proof. destruct (@disk_is_ellipse 2 1 3 1) as (r & i & t & H & _); try lra. exists r, i, t. split; [exact H|lra]. Qed.

(** C38.  The gradient is |sin| of the angle of the tangent to the concentric ellipse at (p, 0), and NaN
    where this tangent is vertical. *)
Theorem C38_tangent p dx dy s fx fy k th vx vy : fx <> 0 -> fy <> 0 -> k <> 0 ->
  dx + curve_x fx fy s k th = p -> dy + curve_y fy k th = 0 ->
  derivable_pt_lim (curve_x fx fy s k) th vx -> derivable_pt_lim (curve_y fy k) th vy ->
  (vx <> 0 -> gradient_at Libm_xr (XFin p) (XFin dx) (XFin dy) (XFin s) (XFin fx) (XFin fy) = XFin (Rabs vy / sqrt (vx * vx + vy * vy))) /\
  (vx = 0 -> gradient_at Libm_xr (XFin p) (XFin dx) (XFin dy) (XFin s) (XFin fx) (XFin fy) = XNaN).
Proof. exact (@gradient_tangent p dx dy s fx fy k th vx vy). Qed.
Print Assumptions C38_tangent.
(** such an ellipse goes through every point but the centre *)
Theorem C38_concentric p dx dy s fx fy : 0 < fx -> 0 < fy -> (p <> dx \/ dy <> 0) ->
  exists k th, 0 < k /\ dx + curve_x fx fy s k th = p /\ dy + curve_y fy k th = 0.
Proof. exact (@concentric p dx dy s fx fy). Qed.
Print Assumptions C38_concentric.
Theorem C38_range p dx dy s fx fy g : gradient_at Libm_xr (XFin p) (XFin dx) (XFin dy) (XFin s) (XFin fx) (XFin fy) = g ->
  g = XNaN \/ exists r, g = XFin r /\ 0 <= r < 1.
Proof. exact (@gradient_range p dx dy s fx fy g). Qed.
Print Assumptions C38_range.
Theorem C38_nan p dx dy s fx fy :
  gradient_at Libm_xr (XFin p) (XFin dx) (XFin dy) (XFin s) (XFin fx) (XFin fy) = XNaN <->
  (s * s * (fy * fy) + fx * fx) * - dy + s * (fy * fy) * (p - dx) = 0.
Proof. exact (gradient_nan p dx dy s fx fy). Qed.
Print Assumptions C38_nan.
(** the value at a vertical tangent should be 1 *)
Theorem C38_vertical_refuted : exists p dx dy fx fy k th vy,
  fx > 0 /\ fy > 0 /\ k > 0 /\ dx + curve_x fx fy 0 k th = p /\ dy + curve_y fy k th = 0 /\
  derivable_pt_lim (curve_x fx fy 0 k) th 0 /\ derivable_pt_lim (curve_y fy k) th vy /\ vy <> 0 /\
  gradient_at Libm_xr (XFin p) (XFin dx) (XFin dy) (XFin 0) (XFin fx) (XFin fy) = XNaN.
Proof. exact vertical_nan. Qed.
Print Assumptions C38_vertical_refuted.

(** at a grid point the slope is -fy^2 p / (s fy^2 p - fx^2 dy) *)
Theorem C38_formula p dx dy fx fy : dy <> 0 ->
  let s := - dx / dy in
  gradient_at Libm_xr (XFin p) (XFin dx) (XFin dy) (XFin s) (XFin fx) (XFin fy) =
  if Req_EM_T (s * (fy * fy) * p - fx * fx * dy) 0 then XNaN
  else XFin (Rabs (sin (atan (- (fy * fy) * p / (s * (fy * fy) * p - fx * fx * dy))))).
Proof. exact (@gradient_formula p dx dy fx fy). Qed.
Print Assumptions C38_formula.

(** C39.  The orbital scale. *)
Theorem C39_positive u v : 0 <= u <= 1 -> 0 < v -> exists r, orbital_scale_of Libm_xr (XFin u) (XFin v) = XFin r /\ 0 < r.
Proof. exact (@orbital_positive u v). Qed.
Print Assumptions C39_positive.
Theorem C39_velocity u v w r q : 0 <= u <= 1 -> 0 < v -> v < w ->
  orbital_scale_of Libm_xr (XFin u) (XFin v) = XFin r -> orbital_scale_of Libm_xr (XFin u) (XFin w) = XFin q -> q < r.
Proof. exact (@orbital_decreasing u v w r q). Qed.
Print Assumptions C39_velocity.
Theorem C39_limb u w v r q : 0 <= u -> u < w -> w <= 1 -> 0 < v ->
  orbital_scale_of Libm_xr (XFin u) (XFin v) = XFin r -> orbital_scale_of Libm_xr (XFin w) (XFin v) = XFin q -> q < r.
Proof. exact (@orbital_limb u w v r q). Qed.
Print Assumptions C39_limb.
(** uniform disk, velocity 2: a quarter of pi *)
Example C39_ex : orbital_scale_of Libm_xr (XFin 0) (XFin 2) = XFin (PI / 4).
Proof. rewrite orbital_xr by lra. f_equal. field. Qed.
