(** What is expected of splitting and merging rings in binary64, independent of the model. *)
From Coq Require Import ZArith Reals List.
From Flocq Require Import Core.
From Verif Require Import Num Ring.
Local Open Scope R_scope.

(** half an ulp of 1 *)
Definition half_ulp1 : R := bpow radix2 (-53).
(** the pieces of [r] are wide compared with the rounding of its radii *)
Definition wide (r : ring f64) (d : Z) : Prop :=
  exists i o, f64_val (r_in r) = XFin i /\ f64_val (r_out r) = XFin o /\ o <= bpow radix2 1000 /\ 16 * half_ulp1 * o + bpow radix2 (-990) <= (o - i) / IZR d.
(** [l] are [d] rings next to one another, up to rounding, that together make up [r] *)
Definition even_pieces (r : ring f64) (d : Z) (l : list (ring f64)) : Prop :=
  exists i o, f64_val (r_in r) = XFin i /\ f64_val (r_out r) = XFin o /\ List.length l = Z.to_nat d /\
  forall k p, nth_error l k = Some p -> r_tr p = r_tr r /\
    exists a b, f64_val (r_in p) = XFin a /\ f64_val (r_out p) = XFin b /\ i <= a < b /\ (k = 0%nat -> a = i) /\
      Rabs (a - (i + INR k * ((o - i) / IZR d))) <= 5 * half_ulp1 * o + bpow radix2 (-1000) /\
      Rabs (b - (i + (INR k + 1) * ((o - i) / IZR d))) <= 8 * half_ulp1 * o + bpow radix2 (-1000).
(** [q] is [r] again, up to rounding of its outer radius *)
Definition restored (r q : ring f64) : Prop :=
  f64_val (r_in q) = f64_val (r_in r) /\ r_tr q = r_tr r /\
  exists o b, f64_val (r_out r) = XFin o /\ f64_val (r_out q) = XFin b /\ Rabs (b - o) <= 8 * half_ulp1 * o + bpow radix2 (-1000).
