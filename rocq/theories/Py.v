(** Python values, exceptions and results.  Not a piece of /repo: the part of the Python
    and numpy data model that /repo's validation code inspects. *)
From Coq Require Import ZArith List Bool String.
From Verif Require Import Num.
Import ListNotations.
Set Implicit Arguments.

(** Exceptions, without their messages. InvalidShape / InvalidDims / LoadErr are the classes
    of errors.py:7-71.  OutOfFuel is no exception: the model's loop has not ended yet (Build.v). *)
Inductive exn :=
  | TypeError | ValueError | AttributeError | IndexError | KeyError | RuntimeError
  | InvalidShape | InvalidDims | LoadErr | FileExists | FileNotFound | ZeroDivision
  | OutOfFuel.

Inductive res (A : Type) := Ok (a : A) | Err (e : exn).
Arguments Ok {A} _. Arguments Err {A} _.

Definition bind {A B} (x : res A) (f : A -> res B) : res B :=
  match x with Ok a => f a | Err e => Err e end.
Notation "'let*' x ':=' a 'in' b" := (bind a (fun x => b))
  (at level 200, x pattern, a at level 100, b at level 200).

Definition is_ok {A} (x : res A) : bool := match x with Ok _ => true | Err _ => false end.

Section Vals.
Variable T : Type.
Context {NT : Num T}.

(** Entries of an array / scalar numbers. *)
Inductive scal := SB (b : bool) | SI (z : Z) | SF (x : T).

(** Python objects as seen by validate.py.  [PNpInt] covers np.int8..int64, [PNpFloat]
    np.float16..float128 (all treated as binary64 values), [PNpOther] numpy scalars of
    other real types (np.uint8, np.bool_, ...), which validation does not accept as numbers, [PObj c l] an object of another class [c] with
    identity [l]. *)
Inductive pyval :=
  | PBool (b : bool) | PInt (z : Z) | PNpInt (z : Z) | PFloat (x : T) | PNpFloat (x : T)
  | PNpOther (s : scal) | PStr (s : string) | PNone
  | PArr (dtype : string) (shape : list nat) (elems : list scal)
  | PObj (cls : string) (loc : nat).

(** numeric value of a scalar as a float *)
Definition num_scal (s : scal) : T :=
  match s with SB b => n_ofZ (if b then 1 else 0)%Z | SI z => n_ofZ z | SF x => x end.

(** integer value of an integral scalar *)
Definition int_scal (s : scal) : option Z :=
  match s with SB b => Some (if b then 1 else 0)%Z | SI z => Some z | SF _ => None end.

(** Comparison of numbers: two integers are compared as integers, any other pair as
    floats (np.less / np.greater / Python's < on the values). *)
Definition s_cmp (ci : Z -> Z -> bool) (cf : T -> T -> bool) (a b : scal) : bool :=
  match int_scal a, int_scal b with
  | Some x, Some y => ci x y
  | _, _ => cf (num_scal a) (num_scal b)
  end.
Definition s_lt := s_cmp Z.ltb n_lt.
Definition s_le := s_cmp Z.leb n_le.
Definition s_gt (a b : scal) := s_lt b a.
Definition s_ge (a b : scal) := s_le b a.
Definition s_eq := s_cmp Z.eqb n_eq.

(** the number carried by a Python value that is a number (for validate's purposes) *)
Definition scal_of (v : pyval) : option scal :=
  match v with
  | PBool b => Some (SB b)
  | PInt z | PNpInt z => Some (SI z)
  | PFloat x | PNpFloat x => Some (SF x)
  | _ => None
  end.

(** The [shape] attribute, if the object has one (numpy scalars have shape ()). *)
Definition shape_of (v : pyval) : option (list nat) :=
  match v with
  | PArr _ sh _ => Some sh
  | PNpInt _ | PNpFloat _ | PNpOther _ => Some []
  | _ => None
  end.
End Vals.

Arguments SB {T} _. Arguments SI {T} _. Arguments SF {T} _.
Arguments PBool {T} _. Arguments PInt {T} _. Arguments PNpInt {T} _.
Arguments PFloat {T} _. Arguments PNpFloat {T} _. Arguments PNpOther {T} _.
Arguments PStr {T} _. Arguments PNone {T}.
Arguments PArr {T} _ _ _. Arguments PObj {T} _ _.
