(** What is expected of the edge of a computed disk, independent of the model. *)
From Coq Require Import Reals.
From Verif Require Import SpecGeom.
Local Open Scope R_scope.

(** a point with a point of the disk's edge, or of the ellipse, at most [d] away *)
Definition near_edge (d dx dy r i t x y : R) : Prop := exists x' y', disk_edge dx dy r i t x' y' /\ dist x y x' y' <= d.
Definition near_ellipse (d dx dy fx fy s c x y : R) : Prop := exists x' y', on_ellipse dx dy fx fy s c x' y' /\ dist x y x' y' <= d.
(** the edge of the disk and the ellipse are nowhere further than [d] from one another *)
Definition edge_within (d dx dy fx fy s c r i t : R) : Prop :=
  (forall x y, disk_edge dx dy r i t x y -> near_ellipse d dx dy fx fy s c x y) /\
  (forall x y, on_ellipse dx dy fx fy s c x y -> near_edge d dx dy r i t x y).
(** the disk casts an eclipse from -1/2 to 1/2: its edge passes both ends within [d] *)
Definition casts_within (d dx dy r i t : R) : Prop := near_edge d dx dy r i t (- / 2) 0 /\ near_edge d dx dy r i t (/ 2) 0.
