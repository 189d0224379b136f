(** Specification of the disk geometry over the reals, independent of the model. *)
From Coq Require Import Reals.
Local Open Scope R_scope.

(** the ellipse: a circle of radius [c] stretched by (fx, fy), sheared by [s], centred on (dx, dy) *)
Definition on_ellipse (dx dy fx fy s c x y : R) : Prop :=
  exists u v, u * u + v * v = c * c /\ x = dx + (fx * u - s * (fy * v)) /\ y = dy + fy * v.

(** distance from the centre *)
Definition dist (dx dy x y : R) : R := sqrt ((x - dx) * (x - dx) + (y - dy) * (y - dy)).

(** [r] is the largest, [m] the smallest distance from the centre of a point of the ellipse *)
Definition largest_distance (fx fy s c r : R) : Prop :=
  (exists x y, on_ellipse 0 0 fx fy s c x y /\ dist 0 0 x y = r) /\
  forall x y, on_ellipse 0 0 fx fy s c x y -> dist 0 0 x y <= r.
Definition smallest_distance (fx fy s c m : R) : Prop :=
  (exists x y, on_ellipse 0 0 fx fy s c x y /\ dist 0 0 x y = m) /\
  forall x y, on_ellipse 0 0 fx fy s c x y -> m <= dist 0 0 x y.

Definition degrees (d : R) : R := d * (PI / 180).

(** the concentric ellipse scaled by [k], relative to the centre, and its derivative *)
Definition curve_x (fx fy s k th : R) : R := k * (fx * cos th - s * (fy * sin th)).
Definition curve_y (fy k th : R) : R := k * (fy * sin th).

(** the edge of a disk of radius [r], inclined by [i] and tilted by [t] degrees, centred on (dx, dy):
    an ellipse of semi-axes r and r cos i, the first at the angle t *)
Definition disk_edge (dx dy r i t x y : R) : Prop :=
  exists th, x = dx + (r * cos th * cos (degrees t) - r * cos (degrees i) * sin th * sin (degrees t)) /\
    y = dy + (r * cos th * sin (degrees t) + r * cos (degrees i) * sin th * cos (degrees t)).

(** the disk of radius [r], inclination [i] and tilt [t] centred on (dx, dy) casts an eclipse of unit
    duration: its edge passes through (-1/2, 0) and (1/2, 0); its edge is the circle around (dx, dy)
    through these points, stretched by (fx, fy) and sheared by -dx/dy *)
Definition casts_eclipse (dx dy fx fy r i t : R) : Prop :=
  0 < fx /\ 0 < fy /\ 0 < r /\ 0 <= i < 90 /\
  disk_edge dx dy r i t (- / 2) 0 /\ disk_edge dx dy r i t (/ 2) 0 /\
  forall x y, disk_edge dx dy r i t x y <-> on_ellipse dx dy fx fy (- dx / dy) (sqrt (/ 2 * / 2 + dy * dy)) x y.
