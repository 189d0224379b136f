(** Elementary functions over the extended reals (exact), the [Libm] used by the theorems
    about formulas.  Models numpy's sin, cos, arcsin, arccos, arctan, arctan2, hypot without
    rounding; values outside the domain are NaN as in numpy. *)
From Coq Require Import ZArith Reals Lra.
From Verif Require Import Num.
Set Implicit Arguments.
Local Open Scope R_scope.

Definition ratan2 (y x : R) : R :=
  if Rlt_dec 0 x then atan (y / x)
  else if Rlt_dec x 0 then (if Rle_dec 0 y then atan (y / x) + PI else atan (y / x) - PI)
  else if Rlt_dec 0 y then PI / 2 else if Rlt_dec y 0 then - (PI / 2) else 0.

Definition xmap (f : R -> R) (a : xr) : xr := match a with XFin r => XFin (f r) | _ => XNaN end.
Definition xdom (f : R -> R) (a : xr) : xr :=
  match a with
  | XFin r => if Rle_dec (-1) r then (if Rle_dec r 1 then XFin (f r) else XNaN) else XNaN
  | _ => XNaN
  end.
Definition x_atan (a : xr) : xr :=
  match a with XNaN => XNaN | XPInf => XFin (PI / 2) | XNInf => XFin (- (PI / 2)) | XFin r => XFin (atan r) end.
Definition x_atan2 (a b : xr) : xr :=
  match a, b with
  | XNaN, _ | _, XNaN => XNaN
  | XFin y, XFin x => XFin (ratan2 y x)
  | XFin _, XPInf => XFin 0
  | XFin y, XNInf => XFin (if Rle_dec 0 y then PI else - PI)
  | XPInf, XFin _ => XFin (PI / 2)
  | XNInf, XFin _ => XFin (- (PI / 2))
  | XPInf, XPInf => XFin (PI / 4)
  | XPInf, XNInf => XFin (3 * PI / 4)
  | XNInf, XPInf => XFin (- (PI / 4))
  | XNInf, XNInf => XFin (- (3 * PI / 4))
  end.
Definition x_hypot (a b : xr) : xr :=
  match a, b with
  | XPInf, _ | XNInf, _ | _, XPInf | _, XNInf => XPInf
  | XNaN, _ | _, XNaN => XNaN
  | XFin x, XFin y => XFin (sqrt (x * x + y * y))
  end.
Definition Libm_xr : Libm xr :=
  mkLibm (XFin PI) (xmap sin) (xmap cos) (xdom asin) (xdom acos) x_atan x_atan2 x_hypot.
