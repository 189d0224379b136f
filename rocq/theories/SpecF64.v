(** What is expected of the disk geometry when it is computed in binary64, independent of the model. *)
From Coq Require Import ZArith Reals.
From Flocq Require Import Core.
From Verif Require Import Num SpecGeom.
Local Open Scope R_scope.

(** neither tiny nor huge: between 2^-100 and 2^100 in size *)
Definition ordinary (r : R) : Prop := bpow radix2 (-100) <= Rabs r <= bpow radix2 100.
Definition loose (r : R) : Prop := r = 0 \/ ordinary r.

(** scaling the ellipse of the scale factors fx, fy and the shear s by some k, 1 up to [e], makes it
    pass through (1/2, 0), and another such k through (-1/2, 0) *)
Definition contact_within (e dx dy fx fy s : R) : Prop :=
  forall side, side = / 2 \/ side = - / 2 ->
  exists k, 0 <= k /\ Rabs (k - 1) <= e /\ on_ellipse dx dy fx fy s (k * sqrt (/ 2 * / 2 + dy * dy)) side 0.

(** elementary functions of binary64 that are right up to [e]; angles of points may be given on either
    side of the negative axis *)
Record accurate (L : Libm f64) (e : R) : Prop := {
  a_pi : exists p, f64_val (m_pi L) = XFin p /\ Rabs (p - PI) <= e;
  a_sin : forall x a, f64_val x = XFin a -> Rabs a <= 8 -> exists v, f64_val (m_sin L x) = XFin v /\ Rabs (v - sin a) <= e;
  a_cos : forall x a, f64_val x = XFin a -> Rabs a <= 8 -> exists v, f64_val (m_cos L x) = XFin v /\ Rabs (v - cos a) <= e;
  a_acos : forall x a, f64_val x = XFin a -> 0 <= a <= 1 -> exists v, f64_val (m_acos L x) = XFin v /\ Rabs (v - acos a) <= 2 * e;
  a_atan2 : forall y x b a, f64_val y = XFin b -> f64_val x = XFin a ->
    exists v al, f64_val (m_atan2 L y x) = XFin v /\ Rabs (v - al) <= 4 * e /\ Rabs al <= PI /\
      a = sqrt (a * a + b * b) * cos al /\ b = sqrt (a * a + b * b) * sin al;
  a_hypot : forall x y a b, f64_val x = XFin a -> f64_val y = XFin b -> sqrt (a * a + b * b) <= bpow radix2 1000 ->
    exists v, f64_val (m_hypot L x y) = XFin v /\ 0 <= v /\
      Rabs (v - sqrt (a * a + b * b)) <= e * sqrt (a * a + b * b) + bpow radix2 (-1000)
}.
Arguments a_pi {L e} _. Arguments a_sin {L e} _ {x a} _ _. Arguments a_cos {L e} _ {x a} _ _. Arguments a_acos {L e} _ {x a} _ _.
Arguments a_atan2 {L e} _ {y x b a} _ _. Arguments a_hypot {L e} _ {x y a b} _ _ _.
