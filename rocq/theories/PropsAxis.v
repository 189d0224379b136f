(** Property theorems for the axes of a grid in binary64 (C91). *)
From Coq Require Import ZArith Reals List Bool Lia.
From Flocq Require Import Core.
From Verif Require Import Num Py SpecNum Validate Ring GridParams SpecGrid SpecAxis AxisF64P.
Import ListNotations.
Local Open Scope R_scope.

(** C91.  The axes computed in binary64 run in order from end to end, each point at its place up to a
    relative 2^-49 of the larger end. *)
Theorem C91_axes (mnx mxx nx mny mxy ny mxr nr : pyval f64) g x0 x1 y0 y1 r1 :
  Forall small [mnx; mxx; nx; mny; mxy; ny; mxr; nr] -> new_params mnx mxx nx mny mxy ny mxr nr = Ok g ->
  value mnx = XFin x0 -> value mxx = XFin x1 -> value mny = XFin y0 -> value mxy = XFin y1 -> value mxr = XFin r1 ->
  moderate x0 -> moderate x1 -> moderate y0 -> moderate y1 -> moderate r1 -> apart x0 x1 -> apart y0 y1 ->
  (zof nx <= 2 ^ 50)%Z -> (zof ny <= 2 ^ 50)%Z -> (zof nr <= 2 ^ 50)%Z ->
  even_axis (g_dx g) (Z.to_nat (zof nx)) x0 x1 /\ even_axis (g_dy g) (Z.to_nat (zof ny)) y0 y1 /\ even_axis (g_rf g) (Z.to_nat (zof nr)) 1 r1.
Proof. exact (@grid_axes mnx mxx nx mny mxy ny mxr nr g x0 x1 y0 y1 r1). Qed.
Print Assumptions C91_axes.
(** a grid starting at 0 can be extended; the axes are then their mirror images up to a relative 2^-48 *)
Theorem C91_extended (mnx mxx nx mny mxy ny mxr nr : pyval f64) g x1 y1 :
  Forall small [mnx; mxx; nx; mny; mxy; ny; mxr; nr] -> new_params mnx mxx nx mny mxy ny mxr nr = Ok g ->
  value mnx = XFin 0 -> value mxx = XFin x1 -> value mny = XFin 0 -> value mxy = XFin y1 ->
  moderate x1 -> moderate y1 -> apart 0 x1 -> apart 0 y1 -> (2 <= zof nx <= 2 ^ 48)%Z -> (2 <= zof ny <= 2 ^ 48)%Z ->
  exists g', extend_grid g = (g', Ok tt) /\ even_axis (g_dx g') (2 * Z.to_nat (zof nx) - 1) (- x1) x1 /\ even_axis (g_dy g') (2 * Z.to_nat (zof ny) - 1) (- y1) y1 /\
    mirrored_within (bpow radix2 (-48) * x1) (g_dx g) (g_dx g') /\ mirrored_within (bpow radix2 (-48) * y1) (g_dy g) (g_dy g') /\ g_rf g' = g_rf g /\ g_rfa g' = g_rfa g.
Proof. exact (@extended_axes mnx mxx nx mny mxy ny mxr nr g x1 y1). Qed.
Print Assumptions C91_extended.
(** neighbours may be equal; close to the smallest number an axis may fall; with ends of size 2^1023 its first point
    is NaN and the second infinite *)
Theorem C91_increasing_refuted : exists (g : gparams f64) p q, reachable g /\ nth_error (g_dx g) 0 = Some p /\ nth_error (g_dx g) 1 = Some q /\ n_eq p q = true.
Proof. exact equal_neighbours. Qed.
Print Assumptions C91_increasing_refuted.
Theorem C91_ordered_refuted : exists (g : gparams f64) p q, reachable g /\ nth_error (g_dx g) 6 = Some p /\ nth_error (g_dx g) 7 = Some q /\ n_lt q p = true.
Proof. exact falling. Qed.
Print Assumptions C91_ordered_refuted.
Theorem C91_number_refuted : exists (g : gparams f64) p q, reachable g /\ nth_error (g_dx g) 0 = Some p /\ nth_error (g_dx g) 1 = Some q /\ n_isnan p && n_eq q n_inf = true.
Proof. exact lost. Qed.
Print Assumptions C91_number_refuted.
(** 0..3 with 7 points, 0..1 with 4 points, rf to 5 *)
Example C91_ex : Forall (@small f64) [PInt 0; PInt 3; PInt 7; PInt 0; PInt 1; PInt 4; PInt 5; PInt 3] /\
  is_ok (new_params (T := f64) (PInt 0) (PInt 3) (PInt 7) (PInt 0) (PInt 1) (PInt 4) (PInt 5) (PInt 3)) = true /\
  moderate 3 /\ moderate 1 /\ moderate 5 /\ apart 0 3 /\ apart 0 1.
Proof. exact axes_ex. Qed.
