(** Model of /repo/GridDiagnostics.py.
    Simplifications: arrays are stored by value (the code keeps the caller's array);
    __str__/__repr__ are in Text.v. *)
From Coq Require Import ZArith List Bool String.
From Verif Require Import Num Py Validate Ring RingSystem FS GridParams.
Import ListNotations.
Set Implicit Arguments.

Section GD.
Context {T : Type} {NT : Num T}.
Notation pyval := (pyval T).

Definition dict := list (dkey * list (scal T)).
(** GridDiagnostics.py:22-28; sizes as integers *)
Record gdiag := mkGD { d_my : Z; d_mx : Z; d_fy : dict; d_dr : dict; d_ext : bool }.

Definition kcomp_eqb (a b : kcomp) : bool :=
  match a, b with KInt x, KInt y => Z.eqb x y | KBool x, KBool y => Bool.eqb x y | _, _ => false end.
Definition dkey_eqb (a b : dkey) : bool := kcomp_eqb (fst a) (fst b) && kcomp_eqb (snd a) (snd b).
Fixpoint dget (d : dict) (k : dkey) : option (list (scal T)) :=
  match d with [] => None | (q, v) :: d => if dkey_eqb k q then Some v else dget d k end.
(** d[k] = v: replaces the value of a present key in place, else appends *)
Fixpoint dput (d : dict) (k : dkey) (v : list (scal T)) : dict :=
  match d with
  | [] => [(k, v)]
  | (q, w) :: d => if dkey_eqb k q then (q, v) :: d else (q, w) :: dput d k v
  end.

(** GridDiagnostics.py:18-28 constructor *)
Definition new_diag (g : gparams T) : gdiag :=
  let '(ny, nx, _) := g_shape g in mkGD (Z.of_nat ny) (Z.of_nat nx) [] [] false.

(** how an index prints inside of the key *)
Definition kcomp_of (v : pyval) : kcomp := match v with PBool b => KBool b | _ => KInt (int_of v) end.

(** GridDiagnostics.py:63-98 _generate_key *)
Definition gen_key (d : gdiag) (y x : pyval) : res dkey :=
  let uy := if d_ext d then (2 * (d_my d - 1))%Z else (d_my d - 1)%Z in
  let ux := if d_ext d then (2 * (d_mx d - 1))%Z else (d_mx d - 1)%Z in
  let* y := number y true (PInt 0) (PInt uy) false in
  let* x := number x true (PInt 0) (PInt ux) false in
  if d_ext d
  then Ok (KInt (Z.abs (int_of y - d_my d)), KInt (Z.abs (int_of x - d_mx d)))
  else Ok (kcomp_of y, kcomp_of x).

(** GridDiagnostics.py:101-129 get_diagnostic *)
Definition get_diagnostic (d : gdiag) (y x : pyval) : res (list (scal T) * list (scal T)) :=
  let* k := gen_key d y x in
  match dget (d_fy d) k, dget (d_dr d) k with
  | Some a, Some b => Ok (a, b)
  | _, _ => Err KeyError
  end.

Definition elems (v : pyval) : list (scal T) := match v with PArr _ _ el => el | _ => [] end.

(** GridDiagnostics.py:132-165 save_diagnostic *)
Definition save_diagnostic (d : gdiag) (y x fy dr : pyval) : gdiag * res unit :=
  if d_ext d then (d, Err RuntimeError)
  else
    match
      (let* fy := array fy None None false (Some "float64"%string) (Some 1%Z) in
       let* dr := array dr None None false (Some "float64"%string) (Some 1%Z) in
       let* _ := same_shape_arrays [fy; dr] 2 in
       let* k := gen_key d y x in
       Ok (k, elems fy, elems dr))
    with
    | Err e => (d, Err e)
    | Ok (k, a, b) => (mkGD (d_my d) (d_mx d) (dput (d_fy d) k a) (dput (d_dr d) k b) (d_ext d), Ok tt)
    end.

(** GridDiagnostics.py:168-172 extend *)
Definition diag_extend (d : gdiag) : gdiag := mkGD (d_my d) (d_mx d) (d_fy d) (d_dr d) true.

(** GridDiagnostics.py:175-193 save *)
Definition diag_save (g : gdiag) (d : string) : list (step T) :=
  [ SMkdirIf d;
    SWrite (under d "fy_dict.npy") (CDict (d_fy g));
    SWrite (under d "disk_radius_dict.npy") (CDict (d_dr g));
    SWrite (under d "max_yx.npy") (CNpy "int64" [2] [SI (d_my g); SI (d_mx g)]) ].

(** GridDiagnostics.py:196-230 load: the flag keeps the constructor's False *)
Definition diag_load (f : fs T) (d : string) : res gdiag :=
  match
   (let* a := np_load_dict f (under d "fy_dict.npy") in
    let* b := np_load_dict f (under d "disk_radius_dict.npy") in
    let* m := np_load f (under d "max_yx.npy") in
    match snd m with
    | [SI my; SI mx] => Ok (mkGD my mx a b false)
    | _ => Err ValueError
    end)
  with Ok g => Ok g | Err _ => Err LoadErr end.
End GD.
Arguments gdiag : clear implicits.
