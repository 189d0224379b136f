(** What is expected of the closest grid point when it is computed in binary64, independent of the model. *)
From Coq Require Import ZArith Reals List.
From Flocq Require Import Core.
From Verif Require Import Num Py GridParams GridProp Shallot SpecOps SpecGrad SpecAxis.
Import ListNotations.
Local Open Scope R_scope.

(** a disk radius, inclination, tilt and impact parameter, and the distance between two of them *)
Definition quad : Type := (R * R * R * R)%type.
Definition gap (a b : quad) : R :=
  let '(r, i, t, y) := a in let '(r', i', t', y') := b in
  sqrt ((r - r') * (r - r') + (i - i') * (i - i') + (t - t') * (t - t') + (y - y') * (y - y')).
(** the disk at the grid point (y, x, q): the numbers read there and the dy of its row, neither tiny nor huge *)
Definition disk_at (s : shallot f64) (masked : bool) (y x q : nat) (a : quad) : Prop :=
  let '(r, i, t, dy) := a in
  (y < List.length (g_dy (s_params s)))%nat /\ (x < List.length (g_dx (s_params s)))%nat /\ (q < List.length (g_rfa (s_params s)))%nat /\
  (exists u1 u2 u3 u4, seen s masked (s_dr s) (place s y x q) u1 /\ seen s masked (s_inc s) (place s y x q) u2 /\ seen s masked (s_tilt s) (place s y x q) u3 /\
     nth_error (g_dy (s_params s)) y = Some u4 /\ f64_val u1 = XFin r /\ f64_val u2 = XFin i /\ f64_val u3 = XFin t /\ f64_val u4 = XFin dy) /\
  sized 200 r /\ sized 200 i /\ sized 200 t.
(** the row at [dy] is clearly on the side of the star of the impact parameter [b]: at or below the star, or a step above *)
Definition on_side (step b dy : R) : Prop := (b < 0 -> dy <= 0) /\ (0 < b -> step <= dy).
(** the rows of the grid: [n] of them (at most 2^20), equally spaced in binary64 from [lo] to [hi], neither beyond a million,
    and not too fine for their size; the distance between two rows *)
Definition rows_ok (s : shallot f64) (n : nat) (lo hi : R) : Prop :=
  even_axis (g_dy (s_params s)) n lo hi /\ (2 <= n)%nat /\ INR n <= bpow radix2 20 /\ sized 100 lo /\ sized 100 hi /\
  Rabs lo <= 1000000 /\ Rabs hi <= 1000000 /\ bpow radix2 (-44) * (INR n * INR n) * Rmax (Rabs lo) (Rabs hi) <= hi - lo.
Definition row_step (n : nat) (lo hi : R) : R := (hi - lo) / INR (n - 1).
