(** What is expected of outlines computed in binary64, independent of the model. *)
From Coq Require Import Reals.
From Verif Require Import Num.
Local Open Scope R_scope.

(** a point of binary64 numbers, finite and in both coordinates at most [d] away from [q] *)
Definition point_within (d : R) (p : f64 * f64) (q : R * R) : Prop :=
  exists x y, f64_val (fst p) = XFin x /\ f64_val (snd p) = XFin y /\ Rabs (x - fst q) <= d /\ Rabs (y - snd q) <= d.
