(** What is expected of a tilt, independent of the model. *)
From Coq Require Import Reals.
From Verif Require Import SpecGeom.
Local Open Scope R_scope.

(** the distance of the point ([x], [y]) from the line through the centre in the direction of the tilt [t] *)
Definition off_line (t x y : R) : R := Rabs (x * sin (degrees t) - y * cos (degrees t)).
(** a point of the ellipse at the end of a longest axis *)
Definition far_end (fx fy s c R x y : R) : Prop := on_ellipse 0 0 fx fy s c x y /\ dist 0 0 x y = R.
(** the ends of the longest axes lie [d] R^4 / (m (R^2 - m^2)) from that line at most *)
Definition tilt_within (d fx fy s c R m t : R) : Prop :=
  forall x y, far_end fx fy s c R x y -> off_line t x y * (m * (R * R - m * m)) <= d * (R * R * (R * R)).
