(** Specification vocabulary for grid parameters and diagnostics. *)
From Coq Require Import ZArith Reals List Bool String.
From Verif Require Import Num Py SpecNum FS GridParams GridDiag.
Import ListNotations.
Set Implicit Arguments.

(** the integer a Python integer (or bool) stands for *)
Definition zof {T} (v : pyval T) : Z :=
  match v with PBool b => if b then 1 else 0 | PInt z | PNpInt z => z | _ => 0 end%Z.

Section S.
Context {T : Type} {NT : Num T} {LT : NumLaws T}.

(** a number of samples *)
Definition count (v : pyval T) : Prop := int_like v /\ (1 <= zof v)%Z.
(** a range min < max (a NaN limit also passes) with a number of samples *)
Definition axis_ok (mn mx num : pyval T) : Prop :=
  numberlike mn /\ numberlike mx /\ ~ xle (value mx) (value mn) /\ count num.
Definition rf_ok (mx num : pyval T) : Prop :=
  numberlike mx /\ ~ xlt (value mx) (XFin 1) /\ count num.

(** objects that the constructor and successful calls of extend_grid produce *)
Inductive reachable : gparams T -> Prop :=
  | rc_new a b c d e f g h p : new_params a b c d e f g h = Ok p -> reachable p
  | rc_ext p q : reachable p -> extend_grid p = (q, Ok tt) -> reachable q.
End S.

(** the [n] points from [lo] to [hi], equally spaced *)
Definition spaced (lo hi : R) (n i : nat) : R := (lo + INR i * ((hi - lo) / INR (n - 1)))%R.
Definition equally_spaced (l : list xr) (lo hi : R) (n : nat) : Prop :=
  List.length l = n /\ forall i, i < n -> nth_error l i = Some (XFin (spaced lo hi n i)).

(** [m] is the mirror image of [l] about its first entry *)
Definition mirrored (l m : list xr) : Prop :=
  List.length m = 2 * List.length l - 1 /\
  forall j r, nth_error l j = Some (XFin r) ->
    nth_error m (List.length l - 1 + j) = Some (XFin r) /\
    nth_error m (List.length l - 1 - j) = Some (XFin (- r)).

Definition ngood (T : Type) (mx num : pyval T) : Prop := small mx /\ small num.

(** *** Diagnostics *)
Section D.
Context {T : Type} {NT : Num T}.

(** index [v] of an axis of length [n] *)
Definition index_ok (n : Z) (v : pyval T) : Prop := int_like v /\ (0 <= zof v < n)%Z.
(** arrays that save_diagnostic documents: float64, 1-D, equal shapes *)
Definition arrays_ok (fy dr : pyval T) : Prop :=
  exists n a b, fy = PArr "float64" [n] a /\ dr = PArr "float64" [n] b.
(** the same index, printed the same way *)
Definition is_bool (v : pyval T) : bool := match v with PBool _ => true | _ => false end.
Definition same_index (v w : pyval T) : Prop := zof v = zof w /\ is_bool v = is_bool w.

(** calls on a diagnostics object *)
Inductive dop := DSave (y x fy dr : pyval T) | DExtend | DGet (y x : pyval T).
Definition do_dop (d : gdiag T) (o : dop) : gdiag T :=
  match o with
  | DSave y x fy dr => fst (save_diagnostic d y x fy dr)
  | DExtend => diag_extend d
  | DGet _ _ => d
  end.
Definition do_dops (d : gdiag T) (l : list dop) : gdiag T := fold_left do_dop l d.

(** [o] is a valid save for the point (y, x), of the arrays [a], [b] *)
Definition saves_at (ny nx : Z) (y x : pyval T) (o : dop) (a b : list (scal T)) : Prop :=
  exists y' x' n, o = DSave y' x' (PArr "float64" [n] a) (PArr "float64" [n] b) /\
    index_ok ny y' /\ index_ok nx x' /\ same_index y y' /\ same_index x x'.
(** the latest valid save for (y, x) in a history stored [a], [b] *)
Definition latest (ny nx : Z) (y x : pyval T) (l : list dop) (a b : list (scal T)) : Prop :=
  exists l1 o l2, l = l1 ++ o :: l2 /\ saves_at ny nx y x o a b /\
    forall o' a' b', In o' l2 -> ~ saves_at ny nx y x o' a' b'.
End D.
