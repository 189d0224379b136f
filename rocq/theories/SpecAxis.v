(** What is expected of the axes of a grid computed in binary64, independent of the model. *)
From Coq Require Import ZArith Reals List.
From Flocq Require Import Core.
From Verif Require Import Num.
Import ListNotations.
Local Open Scope R_scope.

(** [n] finite numbers in order from [x] to [y], each at its place up to a relative 2^-49 of the larger end;
    a single number is [x] *)
Definition even_axis (v : list f64) (n : nat) (x y : R) : Prop :=
  exists l, map f64_val v = map XFin l /\ List.length l = n /\
    nth_error l 0 = Some x /\ ((2 <= n)%nat -> nth_error l (n - 1) = Some y) /\
    (forall i j r s, (i <= j)%nat -> nth_error l i = Some r -> nth_error l j = Some s -> r <= s) /\
    (forall i r, nth_error l i = Some r ->
       x <= r <= y /\ Rabs (r - (x + INR i * ((y - x) / INR (n - 1)))) <= bpow radix2 (-49) * Rmax (Rabs x) (Rabs y)).
(** the mirror image of [v] about 0, up to [e] *)
Definition mirrored_within (e : R) (v w : list f64) : Prop :=
  List.length w = (2 * List.length v - 1)%nat /\
  forall i a, nth_error v i = Some a -> exists b c r p q,
    nth_error w (List.length v - 1 + i) = Some b /\ nth_error w (List.length v - 1 - i) = Some c /\
    f64_val a = XFin r /\ f64_val b = XFin p /\ f64_val c = XFin q /\ Rabs (p - r) <= e /\ Rabs (q + r) <= e.
(** an end of an axis that is not huge; ends that are not too close *)
Definition moderate (r : R) : Prop := Rabs r <= bpow radix2 1000.
Definition apart (x y : R) : Prop := bpow radix2 (-900) <= y - x.
