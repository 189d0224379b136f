(** Model of /repo/validate.py, function by function.
    Simplifications: the texts of exceptions are in Message.v; the boolean options check_integer and
    exclusive are Coq booleans (all callers pass literals), so the checks of these options
    (validate.py:89, 140, 279) always pass; names are dropped. *)
From Coq Require Import ZArith List Bool String.
From Verif Require Import Num Py.
Import ListNotations.
Set Implicit Arguments.

Section Validate.
Context {T : Type} {NT : Num T}.
Notation pyval := (pyval T).

(** validate.py:434-463 _integer_type: isinstance of int (bool included: bool is a
    subclass of int), np.int0/8/16/32/64 *)
Definition integer_type (v : pyval) : res pyval :=
  match v with PBool _ | PInt _ | PNpInt _ => Ok v | _ => Err TypeError end.

(** validate.py:465-494 _float_type: isinstance of float, np.float16/32/64/128 *)
Definition float_type (v : pyval) : res pyval :=
  match v with PFloat _ | PNpFloat _ => Ok v | _ => Err TypeError end.

(** validate.py:71-110 _number_type *)
Definition number_type (check_integer : bool) (v : pyval) : res pyval :=
  if check_integer then integer_type v
  else
    let invalid1 := match integer_type v with Ok _ => false | Err _ => true end in
    let invalid2 := match float_type v with Ok _ => false | Err _ => invalid1 end in
    if invalid2 then Err TypeError else Ok v.

(** comparisons of numeric Python values; [false] on non-numbers, which cannot occur after
    the type checks *)
Definition v_cmp (c : scal T -> scal T -> bool) (a b : pyval) : bool :=
  match scal_of a, scal_of b with Some x, Some y => c x y | _, _ => false end.

(** validate.py:112-176 _number_bounds *)
Definition number_bounds (v lower upper : pyval) (exclusive : bool) : res pyval :=
  let* _ := number_type false lower in
  let* _ := number_type false upper in
  if v_cmp (@s_gt T _) lower upper then Err ValueError
  else
    let low := if exclusive then v_cmp (@s_le T _) v lower else v_cmp (@s_lt T _) v lower in
    let upp := if exclusive then v_cmp (@s_ge T _) v upper else v_cmp (@s_gt T _) v upper in
    if low || upp then Err ValueError else Ok v.

(** validate.py:39-69 number *)
Definition number (v : pyval) (check_integer : bool) (lower upper : pyval) (exclusive : bool)
  : res pyval :=
  let* v := number_type check_integer v in
  number_bounds v lower upper exclusive.

(** default bounds of validate.number, validate.py:43-44 *)
Definition m_inf : pyval := PFloat n_ninf.
Definition p_inf : pyval := PFloat n_inf.

(** validate.py:404-432 class_object for str (validate.py:25-37) *)
Definition string_v (v : pyval) : res string :=
  match v with PStr s => Ok s | _ => Err TypeError end.
(** validate.py:11-23 boolean: np.bool_ is not a bool *)
Definition boolean_v (v : pyval) : res bool :=
  match v with PBool b => Ok b | _ => Err TypeError end.
(** validate.py:404-432 class_object for a class of /repo, named [cls] *)
Definition class_object (cls : string) (v : pyval) : res nat :=
  match v with
  | PObj c l => if String.eqb c cls then Ok l else Err TypeError
  | _ => Err TypeError
  end.

(** validate.py:234-249 _array_like *)
Definition array_like (v : pyval) : res pyval :=
  match v with PArr _ _ _ => Ok v | _ => Err TypeError end.

(** validate.py:251-316 _array_bounds, on the entries of the array *)
Definition array_bounds (elems : list (scal T)) (lower upper : pyval) (exclusive : bool)
  : res unit :=
  let* _ := number_type false lower in
  let* _ := number_type false upper in
  if v_cmp (@s_gt T _) lower upper then Err ValueError
  else match scal_of lower, scal_of upper with
  | Some l, Some u =>
    let low := existsb (fun e => if exclusive then s_le e l else s_lt e l) elems in
    let upp := existsb (fun e => if exclusive then s_ge e u else s_gt e u) elems in
    if low || upp then Err ValueError else Ok tt
  | _, _ => Err TypeError
  end.

(** validate.py:318-344 _array_dimensions (num_dimensions an integer) *)
Definition array_dimensions (shape : list nat) (num_dimensions : Z) : res unit :=
  if Z.eqb (Z.of_nat (List.length shape)) num_dimensions then Ok tt else Err InvalidDims.

(** validate.py:346-368 _array_type *)
Definition array_type (dt : string) (dtype : string) : res unit :=
  if String.eqb dt dtype then Ok tt else Err TypeError.

(** validate.py:178-232 array; None options are [None] *)
Definition array (v : pyval) (lower upper : option pyval) (exclusive : bool)
    (dtype : option string) (num_dimensions : option Z) : res pyval :=
  match v with
  | PArr dt sh el =>
    let* _ :=
      match lower, upper with
      | None, None => Ok tt
      | _, _ =>
        array_bounds el (match lower with Some l => l | None => m_inf end)
                        (match upper with Some u => u | None => p_inf end) exclusive
      end in
    let* _ := match num_dimensions with Some n => array_dimensions sh n | None => Ok tt end in
    let* _ := match dtype with Some d => array_type dt d | None => Ok tt end in
    Ok v
  | _ => Err TypeError
  end.

Definition shape_eqb (a b : list nat) : bool := if list_eq_dec Nat.eq_dec a b then true else false.

(** validate.py:396-399: the loop of same_shape_arrays *)
Fixpoint same_shape_loop (shape : list nat) (l : list pyval) (error : bool) : res bool :=
  match l with
  | [] => Ok error
  | PArr _ sh _ :: l => same_shape_loop shape l (error || negb (shape_eqb sh shape))
  | _ :: _ => Err TypeError
  end.

(** validate.py:370-402 same_shape_arrays; only the number of names matters.
    An object without a [shape] attribute in first position raises AttributeError. *)
Definition same_shape_arrays (arrays : list pyval) (num_names : nat) : res unit :=
  if Nat.ltb (List.length arrays) 2 then Err AttributeError
  else if negb (Nat.eqb (List.length arrays) num_names) then Err AttributeError
  else match arrays with
  | [] => Err AttributeError
  | a :: _ =>
    match shape_of a with
    | None => Err AttributeError
    | Some shape =>
      let* error := same_shape_loop shape arrays false in
      if error then Err InvalidShape else Ok tt
    end
  end.
End Validate.
