(** What is expected of scaled gradients and of the fit when they are computed in binary64, independent of the model. *)
From Coq Require Import ZArith Reals List.
From Flocq Require Import Core.
From Verif Require Import Num Py Ring GridProp SpecGrad.
Import ListNotations.
Local Open Scope R_scope.

(** equal up to [k] roundings of binary64 *)
Definition agrees (k : nat) (x y : R) : Prop :=
  (1 - bpow radix2 (-53)) ^ k * y <= x /\ (1 - bpow radix2 (-53)) ^ k * x <= y.

(** the scale of a light curve gradient for the limb darkening [u] and the transverse velocity [v], a gradient [m]
    scaled by [o] and the transmission change [t], and the squared misfit of the gradient [a], in units of the error [e] *)
Definition orbital (u v : R) : R := (6 - 2 * u) / (12 - 12 * u + 3 * PI * u) * (PI / v).
Definition scaled_by (m o t : R) : R := m * o / t.
Definition misfit (a m e : R) : R := (a - m) * (a - m) / (e * e).
Definition total (l : list R) : R := fold_right Rplus 0 l.

(** the gradient at point [i], the scaled gradient and the error of a measurement *)
Definition reading (weighted : bool) (i : nat) (g : ggrad f64) (x : R * R * R) : Prop :=
  exists v sc, nth_error (p_data (gg_prop g)) i = Some v /\ f64_val v = XFin (fst (fst x)) /\
    scaled_gradient g = Ok (Some sc) /\ f64_val sc = XFin (snd (fst x)) /\
    if weighted then exists e, gg_err g = Some e /\ f64_val (num_of e) = XFin (snd x) else snd x = 1.
(** neither tiny nor huge: the gradients are zero or between 2^-200 and 2^200 in size, the error is between 2^-100 and 2^100 *)
Definition fair (x : R * R * R) : Prop :=
  sized 200 (fst (fst x)) /\ sized 200 (snd (fst x)) /\ bpow radix2 (-100) <= snd x <= bpow radix2 100.
(** the fit at point [i] of a grid with the gradients [gs], as a real number *)
Definition true_fit (weighted : bool) (gs : list (ggrad f64)) (i : nat) (r : R) : Prop :=
  exists xs, Forall2 (reading weighted i) gs xs /\ Forall fair xs /\ r = total (map (fun x => misfit (fst (fst x)) (snd (fst x)) (snd x)) xs).
