(** Specification vocabulary for building grids. *)
From Coq Require Import ZArith Reals List Bool.
From Verif Require Import Num Py SpecNum.
Import ListNotations.
Set Implicit Arguments.

(** the entry (y, x, r) of C-order data whose last two axes have lengths [nx], [nr] *)
Definition cell {A} (nx nr : nat) (l : list A) (y x r : nat) : option A := nth_error l ((y * nx + x) * nr + r).
(** the entries (y, x, 0..nr-1) *)
Definition column_at {A} (nx nr : nat) (l : list A) (y x : nat) : list A := firstn nr (skipn ((y * nx + x) * nr) l).

(** distance of the index [i] from the middle [n - 1] of an axis of [2 n - 1] entries *)
Definition from_middle (n i : nat) : nat := if Nat.leb i (n - 1) then (n - 1 - i)%nat else (i - (n - 1))%nat.

(** what np.interp's search for [x] in [xp] must give, whatever the order of [xp]: an interval
    number [j], -1 before the first and n after the last point, whose left end is not above [x] and
    whose right end is not at or below it *)
Definition brackets {T} {NT : Num T} (search : T -> list T -> Z -> Z) : Prop :=
  forall x xp g, n_isnan x = false -> xp <> [] ->
    let n := Z.of_nat (List.length xp) in
    let j := search x xp g in
    (-1 <= j <= n)%Z /\
    (j < n -> forall i a, j = Z.of_nat i -> nth_error xp i = Some a -> n_lt x a = false)%Z /\
    (forall i a, (j + 1 = Z.of_nat i)%Z -> nth_error xp i = Some a -> n_le a x = false) /\
    (j = n -> forall a, nth_error xp (List.length xp - 1) = Some a -> n_lt a x = true)%Z.

(** [v] lies on the straight line through (a, f) and (b, g) at [x] *)
Definition on_chord (a f b g x v : R) : Prop := (a <= x < b /\ (v - f) * (b - a) = (g - f) * (x - a))%R.

(** [v] is the value at [x] of the broken line through the points (xs, ys), continued as a constant *)
Inductive broken_line (xs ys : list R) (x v : R) : Prop :=
  | bl_before a : nth_error xs 0 = Some a -> nth_error ys 0 = Some v -> (x < a)%R -> broken_line xs ys x v
  | bl_after a i : S i = List.length xs -> nth_error xs i = Some a -> nth_error ys i = Some v -> (a <= x)%R -> broken_line xs ys x v
  | bl_in i a b f g : nth_error xs i = Some a -> nth_error xs (S i) = Some b ->
      nth_error ys i = Some f -> nth_error ys (S i) = Some g -> on_chord a f b g x v -> broken_line xs ys x v.

(** the five cubes of a grid *)
Inductive which := WRadius | WInclination | WTilt | WFx | WFy.
