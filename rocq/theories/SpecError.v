(** The accuracy of the radii of a grid: what they are measured against. *)
From Coq Require Import Reals List.
From Verif Require Import SpecGeom.
Local Open Scope R_scope.

(** the radius of the sheared circles varies by at most this much between two neighbouring tried values
    of a scale factor, when [n] values divide each round of the ranges [x1] and [y1] *)
Definition resolution (n : nat) (x1 y1 dx dy : R) : R :=
  sqrt (/ 2 * / 2 + dy * dy) *
  Rmax (x1 / INR (n - 1) * (1 + (1 + Rabs (dx / dy)) / (4 * (dy * dy))))
       (y1 / INR (n - 1) * (4 * (dy * dy) + (1 + Rabs (dx / dy)))).

(** a disk centred on (dx, dy) whose edge passes through the two points (-1/2, 0) and (1/2, 0) *)
Definition eclipsing_disk (dx dy r i t : R) : Prop :=
  0 < r /\ 0 <= i < 90 /\ disk_edge dx dy r i t (- / 2) 0 /\ disk_edge dx dy r i t (/ 2) 0.

(** the samples [ys] of the scale factor and [ds] of the radius at (dx, dy): disks that cast the eclipse, of which
    the smallest has the radius [m] *)
Definition good_samples (dx dy : R) (ys ds : list R) (m : R) : Prop :=
  length ys = length ds /\ In m ds /\ (forall r, In r ds -> 0 < m <= r) /\
  (dy <> 0 -> Forall2 (fun fy r => exists fx i t, casts_eclipse dx dy fx fy r i t) ys ds).
