(** Numbers: the operations the Python code performs on floats, as a class with
    two instances: extended reals [xr] (exact arithmetic) and IEEE binary64 [f64].
    Models Python/numpy float64 arithmetic, not a piece of /repo. *)
From Coq Require Import ZArith Reals Lra Lia Bool List.
From Flocq Require Import Core BinarySingleNaN.
Import ListNotations.
Set Implicit Arguments.

(** Operations; comparisons are IEEE comparisons (false when an operand is NaN). *)
Class Num (T : Type) := mkNum {
  n_add : T -> T -> T;
  n_sub : T -> T -> T;
  n_mul : T -> T -> T;
  n_div : T -> T -> T;
  n_neg : T -> T;
  n_abs : T -> T;
  n_sqrt : T -> T;
  n_lt : T -> T -> bool;
  n_le : T -> T -> bool;
  n_eq : T -> T -> bool;
  n_isnan : T -> bool;
  n_nan : T;
  n_inf : T;
  n_ofZ : Z -> T
}.

Declare Scope num_scope.
Delimit Scope num_scope with num.
Notation "x + y" := (n_add x y) : num_scope.
Notation "x - y" := (n_sub x y) : num_scope.
Notation "x * y" := (n_mul x y) : num_scope.
Notation "x / y" := (n_div x y) : num_scope.
Notation "- x" := (n_neg x) : num_scope.
Notation "x <? y" := (n_lt x y) : num_scope.
Notation "x <=? y" := (n_le x y) : num_scope.
Notation "x =? y" := (n_eq x y) : num_scope.
Bind Scope num_scope with Num.

Section Derived.
Context {T : Type} {NT : Num T}.
Definition n_ninf : T := n_neg n_inf.
Definition n_zero : T := n_ofZ 0.
Definition n_one : T := n_ofZ 1.
Definition n_ofnat (k : nat) : T := n_ofZ (Z.of_nat k).
(** decimal literal 10^-k: the correctly rounded quotient, as Python's reader gives
    (10^k is exact in binary64 for k <= 22) *)
Definition n_pow10m (k : nat) : T := n_div n_one (n_ofZ (Z.pow 10 (Z.of_nat k))).
Definition n_gt (a b : T) : bool := n_lt b a.
Definition n_ge (a b : T) : bool := n_le b a.
Definition n_half : T := n_div n_one (n_ofZ 2).
End Derived.

(** ** Extended reals with NaN (one unsigned zero) *)
Inductive xr := XNaN | XPInf | XNInf | XFin (r : R).

Definition x_neg (a : xr) : xr :=
  match a with XNaN => XNaN | XPInf => XNInf | XNInf => XPInf | XFin r => XFin (- r) end.
Definition x_abs (a : xr) : xr :=
  match a with XNaN => XNaN | XPInf => XPInf | XNInf => XPInf | XFin r => XFin (Rabs r) end.
Definition x_add (a b : xr) : xr :=
  match a, b with
  | XNaN, _ | _, XNaN => XNaN
  | XPInf, XNInf | XNInf, XPInf => XNaN
  | XPInf, _ | _, XPInf => XPInf
  | XNInf, _ | _, XNInf => XNInf
  | XFin r, XFin s => XFin (r + s)
  end.
Definition x_sub (a b : xr) : xr :=
  match a, b with
  | XFin r, XFin s => XFin (r - s)
  | _, _ => x_add a (x_neg b)
  end.
(** sign of a non-NaN value as -1, 0, 1 *)
Definition x_sgn (a : xr) : Z :=
  match a with
  | XNaN => 0 | XPInf => 1 | XNInf => -1
  | XFin r => if Rlt_dec 0 r then 1 else if Rlt_dec r 0 then -1 else 0
  end%Z.
Definition x_infs (z : Z) : xr :=
  match z with Z0 => XNaN | Zpos _ => XPInf | Zneg _ => XNInf end.
Definition x_mul (a b : xr) : xr :=
  match a, b with
  | XNaN, _ | _, XNaN => XNaN
  | XFin r, XFin s => XFin (r * s)
  | _, _ => x_infs (x_sgn a * x_sgn b)
  end.
Definition x_div (a b : xr) : xr :=
  match a, b with
  | XNaN, _ | _, XNaN => XNaN
  | XFin r, XFin s => if Req_EM_T s 0 then x_infs (x_sgn a) else XFin (r / s)
  | XFin _, _ => XFin 0
  | _, XFin s => if Req_EM_T s 0 then a else x_infs (x_sgn a * x_sgn b)
  | _, _ => XNaN
  end.
Definition x_sqrt (a : xr) : xr :=
  match a with
  | XNaN => XNaN | XPInf => XPInf | XNInf => XNaN
  | XFin r => if Rlt_dec r 0 then XNaN else XFin (sqrt r)
  end.
Definition x_lt (a b : xr) : bool :=
  match a, b with
  | XNaN, _ | _, XNaN => false
  | XNInf, XNInf => false | XNInf, _ => true
  | XPInf, _ => false
  | XFin _, XPInf => true | XFin _, XNInf => false
  | XFin r, XFin s => if Rlt_dec r s then true else false
  end.
Definition x_eq (a b : xr) : bool :=
  match a, b with
  | XPInf, XPInf | XNInf, XNInf => true
  | XFin r, XFin s => if Req_EM_T r s then true else false
  | _, _ => false
  end.
Definition x_le (a b : xr) : bool := x_lt a b || x_eq a b.
Definition x_isnan (a : xr) : bool := match a with XNaN => true | _ => false end.

#[global] Instance Num_xr : Num xr :=
  {| n_add := x_add; n_sub := x_sub; n_mul := x_mul; n_div := x_div; n_neg := x_neg;
     n_abs := x_abs; n_sqrt := x_sqrt; n_lt := x_lt; n_le := x_le; n_eq := x_eq;
     n_isnan := x_isnan; n_nan := XNaN; n_inf := XPInf; n_ofZ := fun z => XFin (IZR z) |}.

(** ** IEEE binary64 *)
#[global] Instance prec53 : Prec_gt_0 53 := eq_refl.
#[global] Instance prec53_emax : Prec_lt_emax 53 1024 := eq_refl.
Definition f64 := binary_float 53 1024.

Definition f64_isnan (x : f64) : bool := match x with B754_nan => true | _ => false end.

#[global] Instance Num_f64 : Num f64 :=
  {| n_add := Bplus mode_NE; n_sub := Bminus mode_NE; n_mul := Bmult mode_NE;
     n_div := Bdiv mode_NE; n_neg := Bopp; n_abs := Babs; n_sqrt := Bsqrt mode_NE;
     n_lt := Bltb; n_le := Bleb; n_eq := Beqb; n_isnan := f64_isnan;
     n_nan := B754_nan; n_inf := B754_infinity false;
     n_ofZ := fun z => binary_normalize 53 1024 _ _ mode_NE z 0 false |}.

(** The extended real denoted by a binary64 number. *)
Definition f64_val (x : f64) : xr :=
  match x with
  | B754_zero _ => XFin 0
  | B754_infinity false => XPInf
  | B754_infinity true => XNInf
  | B754_nan => XNaN
  | B754_finite _ _ _ _ => XFin (B2R x)
  end.

(** ** Laws shared by both instances: comparisons, negation and absolute value are those
    of the denoted extended reals, small integers are exact. *)
Class NumLaws (T : Type) {NT : Num T} := {
  val : T -> xr;
  l_lt : forall a b, n_lt a b = x_lt (val a) (val b);
  l_le : forall a b, n_le a b = x_le (val a) (val b);
  l_eq : forall a b, n_eq a b = x_eq (val a) (val b);
  l_isnan : forall a, n_isnan a = x_isnan (val a);
  l_nan : val n_nan = XNaN;
  l_inf : val n_inf = XPInf;
  l_neg : forall a, val (n_neg a) = x_neg (val a);
  l_abs : forall a, val (n_abs a) = x_abs (val a);
  l_ofZ : forall z, (Z.abs z <= 2 ^ 53)%Z -> val (n_ofZ z) = XFin (IZR z);
  l_sub_self : forall a r, val a = XFin r -> val (n_sub a a) = XFin 0;
  l_tiny : exists r, val (n_pow10m 16) = XFin r /\ (0 < r < 1)%R
}.

Arguments NumLaws T {NT}.

(** ** Elementary functions: an argument of the models that need them *)
Record Libm (T : Type) := mkLibm {
  m_pi : T;
  m_sin : T -> T; m_cos : T -> T;
  m_asin : T -> T; m_acos : T -> T; m_atan : T -> T;
  m_atan2 : T -> T -> T;
  m_hypot : T -> T -> T
}.
