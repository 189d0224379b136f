(** Vocabulary for what is drawn of a ring system, independent of the model's helpers. *)
From Coq Require Import ZArith Reals List Bool String.
From Verif Require Import Num Py SpecNum Ring RingSystem.
Import ListNotations.
Set Implicit Arguments.

(** a ring with real attributes and radii 0 < inner < outer *)
Definition real_ring (r : ring xr) : Prop :=
  exists i o t inc tilt : R, r = mkRing (XFin i) (XFin o) (XFin t) (XFin inc) (XFin tilt) /\ (0 < i < o)%R.
(** the point of the unit circle at angle [th] *)
Definition on_circle (th : R) : xr * xr := (XFin (cos th), XFin (sin th)).
(** [x] lies between two limits *)
Definition shown (a b x : xr) : Prop := xle a x /\ xle x b.
