(** Specification vocabulary for numbers and Python values, independent of the models:
    order on extended reals as propositions, the exact value of a Python number. *)
From Coq Require Import ZArith Reals List Bool String.
From Verif Require Import Num Py.
Import ListNotations.
Set Implicit Arguments.
Local Open Scope list_scope.

(** order of the extended real line; nothing is related to NaN *)
Definition xlt (a b : xr) : Prop :=
  match a, b with
  | XFin r, XFin s => (r < s)%R
  | XNInf, XFin _ | XNInf, XPInf | XFin _, XPInf => True
  | _, _ => False
  end.
Definition xle (a b : xr) : Prop := xlt a b \/ (a = b /\ a <> XNaN).

(** number types that validation documents *)
Inductive int_like {T} : pyval T -> Prop :=
  | il_bool b : int_like (PBool b)
  | il_int z : int_like (PInt z)
  | il_np z : int_like (PNpInt z).
Inductive float_like {T} : pyval T -> Prop :=
  | fl_py x : float_like (PFloat x)
  | fl_np x : float_like (PNpFloat x).

Section Value.
Context {T : Type} {NT : Num T} {LT : NumLaws T}.
(** the mathematical value of a Python number (NaN if it is not a number) *)
Definition value (v : pyval T) : xr :=
  match v with
  | PBool b => XFin (if b then 1 else 0)
  | PInt z | PNpInt z => XFin (IZR z)
  | PFloat x | PNpFloat x => val x
  | _ => XNaN
  end.
Definition svalue (s : scal T) : xr :=
  match s with
  | SB b => XFin (if b then 1 else 0)
  | SI z => XFin (IZR z)
  | SF x => val x
  end.
(** integers that binary64 represents exactly *)
Definition small (v : pyval T) : Prop :=
  match v with PInt z | PNpInt z => (Z.abs z <= 2 ^ 53)%Z | _ => True end.
Definition ssmall (s : scal T) : Prop :=
  match s with SI z => (Z.abs z <= 2 ^ 53)%Z | _ => True end.
(** [v] respects the bounds: it is not found outside of them *)
Definition respects (exclusive : bool) (lo up v : xr) : Prop :=
  if exclusive then ~ xle v lo /\ ~ xle up v else ~ xlt v lo /\ ~ xlt up v.
(** [v] is inside the bounds *)
Definition inside (exclusive : bool) (lo up v : xr) : Prop :=
  if exclusive then xlt lo v /\ xlt v up else xle lo v /\ xle v up.
Definition numberlike (v : pyval T) := int_like v \/ float_like v.

(** the bounds an array is compared with: absent bounds are infinite *)
Definition eff_lo (lo : option (pyval T)) : xr := match lo with Some l => value l | None => XNInf end.
Definition eff_up (up : option (pyval T)) : xr := match up with Some u => value u | None => XPInf end.
Definition onum (b : option (pyval T)) : Prop := match b with Some l => numberlike l | None => True end.
Definition osmall (b : option (pyval T)) : Prop := match b with Some l => small l | None => True end.

(** no bound given, or the entries respect the bounds *)
Definition entries_ok (lo up : option (pyval T)) (ex : bool) (el : list (scal T)) : Prop :=
  (lo = None /\ up = None) \/
  (~ xlt (eff_up up) (eff_lo lo) /\ forall s, In s el -> respects ex (eff_lo lo) (eff_up up) (svalue s)).

(** dimension and dtype requirements of validate.array *)
Definition dims_ok (sh : list nat) (nd : option Z) : Prop := forall n, nd = Some n -> Z.of_nat (List.length sh) = n.
Definition type_ok (d : string) (dt : option string) : Prop := forall s, dt = Some s -> d = s.

(** requirements of validate.same_shape_arrays *)
Definition all_arrays (l : list (pyval T)) := forall v, In v l -> exists d s el, v = PArr d s el.
Definition equal_shapes (l : list (pyval T)) := exists sh, forall v, In v l -> shape_of v = Some sh.

End Value.
