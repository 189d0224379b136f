(** Model of the disk geometry of /repo/Shallot.py, entry by entry: what numpy computes at one grid
    point from the numbers there.  [L] gives the elementary functions.  [x ** 2] on arrays is x * x;
    on numpy scalars (the shear of one point) numpy calls the C library's pow, which is taken to be x * x too. *)
From Coq Require Import ZArith List Bool.
From Verif Require Import Num Py.
Import ListNotations.
Set Implicit Arguments.

Section G.
Context {T : Type} {NT : Num T} (L : Libm T).
Local Open Scope num_scope.

Definition n_sq (x : T) : T := x * x.
Definition num2 (z : Z) : T := n_ofZ z.

(** Shallot.py:354-359 _determine_circular_radius *)
Definition circular_radius (dy : T) : T := m_hypot L n_half dy.

(** Shallot.py:362-390 _determine_shear: NaN, then -dx/dy where dy != 0 (NaN != 0 holds), then 0 at the origin *)
Definition shear_at (dx dy : T) : T :=
  if (dy =? n_zero) && (dx =? n_zero) then n_zero
  else if negb (dy =? n_zero) then (- dx) / dy else n_nan.

(** Shallot.py:425-455 _determine_fx; [denominator <= 0] gives NaN *)
Definition determine_fx (fy dy : T) : T :=
  let den := n_sq fy * (n_one + num2 4 * n_sq dy) - num2 4 * n_sq dy in
  (if den <=? n_zero then n_nan else n_sqrt (n_one / den)) * fy.

(** Shallot.py:458-491 _determine_fy *)
Definition determine_fy (fx dy : T) : T :=
  let num := num2 4 * n_sq fx * n_sq dy in
  let den := n_sq fx * (n_one + num2 4 * n_sq dy) - n_one in
  if (dy =? n_zero) && (fx =? n_one) then n_one
  else if den <=? n_zero then n_nan else n_sqrt (num / den).

(** Shallot.py:494-533 _calculate_vertex_and_covertex_angles *)
Definition vertex_angle (fx fy s : T) : T :=
  n_half * m_atan2 L (num2 2 * fx * fy * s) ((n_sq s + n_one) * n_sq fy - n_sq fx).
Definition covertex_angle (fx fy s : T) : T := vertex_angle fx fy s + m_pi L / num2 2.

(** Shallot.py:536-593 _calculate_xy_from_parameteric_angle *)
Definition xy_at (fx fy th s c : T) : T * T :=
  let xs := fx * (c * m_cos L th) in
  let ys := fy * (c * m_sin L th) in
  (xs - s * ys, ys).

(** np.maximum, np.minimum: NaN if one is *)
Definition np_max (a b : T) : T := if n_isnan a then a else if n_isnan b then b else if b <=? a then a else b.
Definition np_min (a b : T) : T := if n_isnan a then a else if n_isnan b then b else if a <=? b then a else b.
(** np.rad2deg *)
Definition to_deg (x : T) : T := x * (num2 180 / m_pi L).

(** Shallot.py:596-663 _determine_disk_parameters: (disk radius, inclination, tilt).  The validations of
    fx, fy, the shear and the radius are in Build.v. *)
Definition disk_parameters (fx fy s c : T) : T * T * T :=
  let th1 := vertex_angle fx fy s in
  let th2 := covertex_angle fx fy s in
  let '(x1, y1) := xy_at fx fy th1 s c in
  let '(x2, y2) := xy_at fx fy th2 s c in
  let d1 := m_hypot L x1 y1 in
  let d2 := m_hypot L x2 y2 in
  let major := np_max d1 d2 in
  let minor := np_min d1 d2 in
  let valid := negb (n_isnan (major * minor)) in
  let tilt := m_atan2 L y1 x1 in
  let tilt := if valid then tilt + (if d1 <? d2 then n_one else n_zero) * m_pi L / num2 2 else tilt in
  let incl := if valid then m_acos L (minor / major) else n_nan in
  (major, to_deg incl, to_deg tilt).

(** Shallot.py:1341-1360, one grid point of _determine_disk_gradients *)
Definition gradient_at (position dx dy s fx fy : T) : T :=
  let x := position - dx in
  let y := - dy in
  let num := (- s) * n_sq fy * y - n_sq fy * x in
  let den := (n_sq s * n_sq fy + n_sq fx) * y + s * n_sq fy * x in
  let tangent := if negb (den =? n_zero) then num / den else n_nan in
  n_abs (m_sin L (m_atan2 L tangent n_one)).

(** Shallot.py:1363-1382 _determine_orbital_scale on numbers *)
Definition orbital_scale_of (u v : T) : T :=
  (num2 6 - num2 2 * u) / (num2 12 - num2 12 * u + num2 3 * m_pi L * u) * (m_pi L / v).
End G.
