(** Property theorems for the disk geometry computed in binary64 (C88, C89). *)
From Coq Require Import ZArith Reals.
From Flocq Require Import Core.
From Verif Require Import Num Geometry SpecGeom SpecF64 GeomF64MoreP LibmF64P DiskF64ExP.
Local Open Scope R_scope.

(** C88.  The ellipse of a grid point, its scale factor and shear computed in binary64, passes through the
    contact points up to a relative 2^-49 (1 + |dx|) of its size. *)
Theorem C88_contact_fx (dxv dyv fyv : f64) dx dy fx fy s :
  f64_val dxv = XFin dx -> f64_val dyv = XFin dy -> f64_val fyv = XFin fy -> loose dy -> 0 < fy -> ordinary fy ->
  f64_val (shear_at dxv dyv) = XFin s -> f64_val (determine_fx fyv dyv) = XFin fx ->
  0 < fx /\ contact_within (bpow radix2 (-49) * (1 + Rabs dx)) dx dy fx fy s.
Proof. exact (@contact64_fx dxv dyv fyv dx dy fx fy s). Qed.
Print Assumptions C88_contact_fx.
Theorem C88_contact_fy (dxv dyv fxv : f64) dx dy fx fy s :
  f64_val dxv = XFin dx -> f64_val dyv = XFin dy -> f64_val fxv = XFin fx -> ordinary dy -> 0 < fx -> ordinary fx ->
  f64_val (shear_at dxv dyv) = XFin s -> f64_val (determine_fy fxv dyv) = XFin fy ->
  0 < fy /\ contact_within (bpow radix2 (-49) * (1 + Rabs dx)) dx dy fx fy s.
Proof. exact (@contact64_fy dxv dyv fxv dx dy fx fy s). Qed.
Print Assumptions C88_contact_fy.
(** the scale factor is a number where an ellipse through the contact points exists by a margin of a
    relative 2^-49, and NaN where it fails to exist by this margin *)
Theorem C88_fx_defined (fyv dyv : f64) fy dy : f64_val fyv = XFin fy -> f64_val dyv = XFin dy -> 0 < fy -> ordinary fy -> loose dy ->
  bpow radix2 (-49) * (fy * fy * (1 + 4 * (dy * dy))) < fy * fy * (1 + 4 * (dy * dy)) - 4 * (dy * dy) ->
  exists fx, f64_val (determine_fx fyv dyv) = XFin fx.
Proof. exact (@fx_defined fyv dyv fy dy). Qed.
Print Assumptions C88_fx_defined.
Theorem C88_fx_undefined (fyv dyv : f64) fy dy : f64_val fyv = XFin fy -> f64_val dyv = XFin dy -> 0 < fy -> ordinary fy -> loose dy ->
  bpow radix2 (-49) * (fy * fy * (1 + 4 * (dy * dy))) <= 4 * (dy * dy) - fy * fy * (1 + 4 * (dy * dy)) ->
  f64_val (determine_fx fyv dyv) = XNaN.
Proof. exact (@fx_undefined fyv dyv fy dy). Qed.
Print Assumptions C88_fx_undefined.
Theorem C88_fy_defined (fxv dyv : f64) fx dy : f64_val fxv = XFin fx -> f64_val dyv = XFin dy -> 0 < fx -> ordinary fx -> ordinary dy ->
  bpow radix2 (-49) * (fx * fx * (1 + 4 * (dy * dy))) < fx * fx * (1 + 4 * (dy * dy)) - 1 ->
  exists fy, f64_val (determine_fy fxv dyv) = XFin fy.
Proof. exact (@fy_defined fxv dyv fx dy). Qed.
Print Assumptions C88_fy_defined.
Theorem C88_fy_undefined (fxv dyv : f64) fx dy : f64_val fxv = XFin fx -> f64_val dyv = XFin dy -> 0 < fx -> ordinary fx -> ordinary dy ->
  bpow radix2 (-49) * (fx * fx * (1 + 4 * (dy * dy))) <= 1 - fx * fx * (1 + 4 * (dy * dy)) ->
  f64_val (determine_fy fxv dyv) = XNaN.
Proof. exact (@fy_undefined fxv dyv fx dy). Qed.
Print Assumptions C88_fy_undefined.
(** the circle, fx = fy = 1, fits every grid point; binary64 makes it smaller at dy = 0.7 and loses it at
    dy = 2^27 *)
Theorem C88_circle_refuted : exists (d : f64) dy, f64_val d = XFin dy /\ determine_fx (XFin 1) (XFin dy) = XFin 1 /\
  n_lt (determine_fx n_one d) n_one = true /\ n_lt (determine_fy n_one d) n_one = true.
Proof. exact circle_refuted. Qed.
Print Assumptions C88_circle_refuted.
Theorem C88_circle_lost_refuted : exists (d : f64) dy, f64_val d = XFin dy /\ determine_fx (XFin 1) (XFin dy) = XFin 1 /\
  f64_val (determine_fx n_one d) = XNaN.
Proof. exact circle_nan. Qed.
Print Assumptions C88_circle_lost_refuted.
(** at (1, 1) with fy = 2: fx = 1/2 and the shear is -1 *)
Example C88_ex : f64_val (shear_at (n_ofZ 1) (n_ofZ 1)) = XFin (-1) /\ f64_val (determine_fx (n_ofZ 2) (n_ofZ 1)) = XFin (/ 2).
Proof. exact point_exact. Qed.
Example C88_ex_contact : contact_within (bpow radix2 (-49) * (1 + Rabs 1)) 1 1 (/ 2) 2 (-1).
Proof. exact point_contact. Qed.

(** C89.  With elementary functions right up to [e], the radius of the disk computed in binary64 is the
    largest distance of the ellipse up to a relative 22 e, and the cosine of its inclination is the ratio of
    its smallest to its largest distance up to 50 e. *)
Theorem C89_disk (L : Libm f64) e (fxv fyv sv cv : f64) fx fy s c : accurate L e -> bpow radix2 (-52) <= e <= / 1000000 ->
  f64_val fxv = XFin fx -> f64_val fyv = XFin fy -> f64_val sv = XFin s -> f64_val cv = XFin c ->
  0 < fx -> 0 < fy -> 0 < c -> ordinary fx -> ordinary fy -> loose s -> ordinary c ->
  exists rv iv tv r i t R m, disk_parameters L fxv fyv sv cv = (rv, iv, tv) /\
    f64_val rv = XFin r /\ f64_val iv = XFin i /\ f64_val tv = XFin t /\
    largest_distance fx fy s c R /\ smallest_distance fx fy s c m /\
    Rabs (r - R) <= 22 * e * R /\ Rabs (cos (degrees i) - m / R) <= 50 * e.
Proof. exact (@disk_accurate L e fxv fyv sv cv fx fy s c). Qed.
Print Assumptions C89_disk.
Theorem C89_radius (L : Libm f64) e (dyv : f64) dy : accurate L e -> 0 < e <= / 1000000 -> f64_val dyv = XFin dy -> Rabs dy <= bpow radix2 99 ->
  exists c, f64_val (circular_radius L dyv) = XFin c /\ 0 < c /\ ordinary c /\
    Rabs (c - sqrt (/ 2 * / 2 + dy * dy)) <= 2 * e * sqrt (/ 2 * / 2 + dy * dy) + bpow radix2 (-1000).
Proof. exact (@radius_accurate L e dyv dy). Qed.
Print Assumptions C89_radius.
(** correctly rounded functions are right up to 2^-51 *)
Theorem C89_accurate : accurate Libm_nearest (bpow radix2 (-51)).
Proof. exact nearest_accurate. Qed.
Print Assumptions C89_accurate.
(** twice as wide as high: radius 2, inclination 60 degrees *)
Example C89_ex : exists rv iv tv r i t, disk_parameters Libm_nearest (n_ofZ 2) (n_ofZ 1) (n_ofZ 0) (n_ofZ 1) = (rv, iv, tv) /\
  f64_val rv = XFin r /\ f64_val iv = XFin i /\ f64_val tv = XFin t /\
  Rabs (r - 2) <= / 1000000000000 /\ Rabs (cos (degrees i) - / 2) <= / 1000000000000.
Proof. exact wide_disk. Qed.
