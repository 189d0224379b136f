(** Property theorems for the gradients computed in binary64 (C92). *)
From Coq Require Import ZArith Reals.
From Flocq Require Import Core.
From Verif Require Import Num Geometry XLibm GeomF64MoreP LibmF64P SpecF64 SpecGrad GradF64P GradF64ExP.
Local Open Scope R_scope.

(** C92.  With elementary functions right up to [e], the gradient computed in binary64 is the exact one up to
    5 e and a relative 2^-47 of the terms that cancel in the direction of the tangent.  It is NaN only where
    the tangent is upright up to a relative 2^-48 of these terms. *)
Theorem C92_gradient (L : Libm f64) e (pv dxv dyv fxv fyv : f64) p dx dy fx fy : accurate L e -> 0 <= e <= / 1000000 -> keeps_nan L ->
  f64_val pv = XFin p -> f64_val dxv = XFin dx -> f64_val dyv = XFin dy -> f64_val fxv = XFin fx -> f64_val fyv = XFin fy ->
  sized 50 p -> sized 50 dx -> sized 50 dy -> sized 50 fx -> sized 50 fy ->
  forall (sv : f64) s g0, f64_val sv = XFin s -> sized 101 s ->
  gradient_at Libm_xr (XFin p) (XFin dx) (XFin dy) (XFin s) (XFin fx) (XFin fy) = XFin g0 ->
  (exists g, f64_val (gradient_at L pv dxv dyv sv fxv fyv) = XFin g /\ 0 <= g /\ Rabs (g - g0) <= 5 * e + bpow radix2 (-47) * cancellation p dx dy s fx fy) \/
  (f64_val (gradient_at L pv dxv dyv sv fxv fyv) = XNaN /\ sqrt (1 - g0 * g0) <= bpow radix2 (-48) * cancellation p dx dy s fx fy).
Proof. exact (@gradient64 L e pv dxv dyv fxv fyv p dx dy fx fy). Qed.
Print Assumptions C92_gradient.
(** the same at a point of the grid, whose shear is computed too *)
Theorem C92_grid_point (L : Libm f64) e (pv dxv dyv fxv fyv : f64) p dx dy fx fy : accurate L e -> 0 <= e <= / 1000000 -> keeps_nan L ->
  f64_val pv = XFin p -> f64_val dxv = XFin dx -> f64_val dyv = XFin dy -> f64_val fxv = XFin fx -> f64_val fyv = XFin fy ->
  sized 50 p -> sized 50 dx -> sized 50 dy -> sized 50 fx -> sized 50 fy ->
  forall g0, dy <> 0 ->
  gradient_at Libm_xr (XFin p) (XFin dx) (XFin dy) (shear_at (XFin dx) (XFin dy)) (XFin fx) (XFin fy) = XFin g0 ->
  (exists g, f64_val (gradient_at L pv dxv dyv (shear_at dxv dyv) fxv fyv) = XFin g /\ 0 <= g /\ Rabs (g - g0) <= 5 * e + bpow radix2 (-47) * cancellation p dx dy (- dx / dy) fx fy) \/
  (f64_val (gradient_at L pv dxv dyv (shear_at dxv dyv) fxv fyv) = XNaN /\ sqrt (1 - g0 * g0) <= bpow radix2 (-48) * cancellation p dx dy (- dx / dy) fx fy).
Proof. exact (@gradient64_grid L e pv dxv dyv fxv fyv p dx dy fx fy). Qed.
Print Assumptions C92_grid_point.
(** an upright tangent, for which the exact gradient is NaN: NaN or nearly 1 *)
Theorem C92_upright (L : Libm f64) e (pv dxv dyv fxv fyv : f64) p dx dy fx fy : accurate L e -> 0 <= e <= / 1000000 -> keeps_nan L ->
  f64_val pv = XFin p -> f64_val dxv = XFin dx -> f64_val dyv = XFin dy -> f64_val fxv = XFin fx -> f64_val fyv = XFin fy ->
  sized 50 p -> sized 50 dx -> sized 50 dy -> sized 50 fx -> sized 50 fy ->
  forall (sv : f64) s, f64_val sv = XFin s -> sized 101 s ->
  gradient_at Libm_xr (XFin p) (XFin dx) (XFin dy) (XFin s) (XFin fx) (XFin fy) = XNaN -> rise p dx dy s fy <> 0 ->
  (exists g, f64_val (gradient_at L pv dxv dyv sv fxv fyv) = XFin g /\ 0 <= g /\ Rabs (g - 1) <= 5 * e + bpow radix2 (-47) * cancellation p dx dy s fx fy) \/
  f64_val (gradient_at L pv dxv dyv sv fxv fyv) = XNaN.
Proof. exact (@gradient64_vertical L e pv dxv dyv fxv fyv p dx dy fx fy). Qed.
Print Assumptions C92_upright.
(** on the vertical axis nothing cancels *)
Theorem C92_axis p dx dy fx fy : dx = 0 -> 0 < length2 (rise p dx dy 0 fy) (run p dx dy 0 fx fy) -> cancellation p dx dy 0 fx fy <= 2.
Proof. exact (@no_cancellation p dx dy fx fy). Qed.
Print Assumptions C92_axis.
(** an upright tangent does get a gradient in binary64 at (-1, 1), fx = 3 fy = 408944649, by a star at 9 *)
Theorem C92_upright_refuted : exists (pv dxv dyv fxv fyv : f64) p dx dy fx fy, f64_val pv = XFin p /\ f64_val dxv = XFin dx /\ f64_val dyv = XFin dy /\
  f64_val fxv = XFin fx /\ f64_val fyv = XFin fy /\
  gradient_at Libm_xr (XFin p) (XFin dx) (XFin dy) (shear_at (XFin dx) (XFin dy)) (XFin fx) (XFin fy) = XNaN /\
  forall L e, accurate L e -> 0 <= e <= / 1000000 -> exists g, f64_val (gradient_at L pv dxv dyv (shear_at dxv dyv) fxv fyv) = XFin g.
Proof. exact upright_refuted. Qed.
Print Assumptions C92_upright_refuted.
Theorem C92_functions : accurate Libm_nearest (bpow radix2 (-51)) /\ keeps_nan Libm_nearest.
Proof. exact (conj nearest_accurate nearest_keeps_nan). Qed.
Print Assumptions C92_functions.
(** at (1, 1) with fx = 1/2, fy = 2, at the moment the eclipse ends *)
Example C92_ex : exists g, f64_val (gradient_at Libm_nearest (dec 1 2) (n_ofZ 1) (n_ofZ 1) (shear_at (n_ofZ 1) (n_ofZ 1)) (dec 1 2) (n_ofZ 2)) = XFin g /\
  Rabs (g - 8 / sqrt 145) <= / 10000000000000.
Proof. exact egress. Qed.
