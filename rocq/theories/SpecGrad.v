(** What is expected of the gradients when they are computed in binary64, independent of the model. *)
From Coq Require Import ZArith Reals.
From Flocq Require Import Core.
From Verif Require Import Num.
Local Open Scope R_scope.

(** zero, or between 2^-k and 2^k in size *)
Definition sized (k : Z) (r : R) : Prop := r = 0 \/ bpow radix2 (- k) <= Rabs r <= bpow radix2 k.
(** the direction of the tangent, at the position [p] of the star on the x axis, of the ellipse around
    (dx, dy) that goes through it, and the sum of the sizes of the terms it is computed from *)
Definition rise (p dx dy s fy : R) : R := s * (fy * fy) * dy - fy * fy * (p - dx).
Definition run (p dx dy s fx fy : R) : R := - ((s * s * (fy * fy) + fx * fx) * dy) + s * (fy * fy) * (p - dx).
Definition terms (p dx dy s fx fy : R) : R :=
  Rabs (s * (fy * fy) * dy) + Rabs (fy * fy * (p - dx)) + (s * s * (fy * fy) + fx * fx) * Rabs dy + Rabs (s * (fy * fy) * (p - dx)).
Definition length2 (a b : R) : R := sqrt (a * a + b * b).
(** how much larger the terms are than the direction they add up to *)
Definition cancellation (p dx dy s fx fy : R) : R :=
  terms p dx dy s fx fy / length2 (rise p dx dy s fy) (run p dx dy s fx fy).
(** elementary functions that give NaN for NaN *)
Definition keeps_nan (L : Libm f64) : Prop :=
  (forall x, f64_val x = XNaN -> f64_val (m_sin L x) = XNaN) /\ (forall y x, f64_val y = XNaN -> f64_val (m_atan2 L y x) = XNaN).
