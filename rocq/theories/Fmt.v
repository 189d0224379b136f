(** Python's formatting "{:.kf}" of a float (used with k = 2, 4, 9 by every __str__ of /repo, in the names
    of the gradient directories, GridProperty.py:534, and in the titles, GridProperty.py:716): the exact
    value is rounded to k decimals, ties to even, as float.__format__ documents. *)
From Coq Require Import ZArith List Bool String Ascii.
From Flocq Require Import Core BinarySingleNaN.
From Verif Require Import Num.
Import ListNotations.
Set Implicit Arguments.
Local Open Scope string_scope.

(** the integer nearest to m 2^e 10^k, ties to even *)
Definition scaled_round (k : nat) (m : positive) (e : Z) : Z :=
  if (0 <=? e)%Z then (Zpos m * 2 ^ e * 10 ^ Z.of_nat k)%Z
  else
    let d := (2 ^ (- e))%Z in
    let n := (Zpos m * 10 ^ Z.of_nat k)%Z in
    let q := (n / d)%Z in
    match (2 * (n mod d) ?= d)%Z with
    | Lt => q
    | Gt => (q + 1)%Z
    | Eq => if Z.even q then q else (q + 1)%Z
    end.

Definition digit (d : Z) : ascii := ascii_of_N (48 + Z.to_N d).
(** the last [k] decimal digits of [n] *)
Fixpoint digits (k : nat) (n : Z) : string :=
  match k with 0 => "" | S k => digits k (n / 10) ++ String (digit (n mod 10)) "" end.
(** the number of decimal digits of [n] *)
Fixpoint width (fuel : nat) (n : Z) : nat :=
  match fuel with 0 => 1 | S f => if (n <? 10)%Z then 1 else S (width f (n / 10)) end.
Definition whole (n : Z) : string := digits (width (Z.to_nat (Z.log2 n)) n) n.
(** n / 10^k *)
Definition fixed_text (k : nat) (n : Z) : string := whole (n / 10 ^ Z.of_nat k) ++ "." ++ digits k n.

Definition fmt_fixed (k : nat) (x : f64) : string :=
  match x with
  | B754_nan => "nan"
  | B754_infinity s => if s then "-inf" else "inf"
  | B754_zero s => (if s then "-" else "") ++ fixed_text k 0
  | B754_finite s m e _ => (if s then "-" else "") ++ fixed_text k (scaled_round k m e)
  end.

(** Python's str of a nonnegative int *)
Definition str_nat (n : nat) : string := whole (Z.of_nat n).
(** str.rjust *)
Definition spaces (n : nat) : string := string_of_list_ascii (repeat " "%char n).
Definition rjust (n : nat) (s : string) : string := spaces (n - String.length s) ++ s.
