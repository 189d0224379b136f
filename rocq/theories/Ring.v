(** Model of /repo/Ring.py.
    Simplifications: attributes are stored as numbers of T (a Python int is stored as the
    float of the same value); __str__ is in Text.v. *)
From Coq Require Import ZArith List Bool String.
From Verif Require Import Num Py Validate.
Import ListNotations.
Set Implicit Arguments.

Section Ring.
Context {T : Type} {NT : Num T}.
Notation pyval := (pyval T).

(** Ring.py:44-48: the five attributes *)
Record ring := mkRing { r_in : T; r_out : T; r_tr : T; r_inc : T; r_tilt : T }.

(** numeric value stored for an accepted number *)
Definition num_of (v : pyval) : T :=
  match scal_of v with Some s => num_scal s | None => n_nan end.

(** Ring.py:112 [bool(inner_radius == 0.)]: an array of one entry compares by its entry, a
    larger array has no truth value (ValueError), an empty one is false. *)
Definition eq_zero (v : pyval) : res bool :=
  match v with
  | PArr _ _ [] => Ok false
  | PArr _ _ [e] => Ok (s_eq e (SF n_zero))
  | PArr _ _ _ => Err ValueError
  | PNpOther e => Ok (s_eq e (SF n_zero))
  | _ => match scal_of v with Some e => Ok (s_eq e (SF n_zero)) | None => Ok false end
  end.

(** Ring.py:95-116 inner_radius setter; [upper] is the outer radius, or np.inf while the
    ring is under construction (Ring.py:106-109) *)
Definition check_inner (upper : T) (v : pyval) : res T :=
  let* z := eq_zero v in
  let v := if z then PFloat (n_pow10m 16) else v in
  let* w := number v false (PFloat n_zero) (PFloat upper) true in
  Ok (num_of w).

(** Ring.py:130-141 outer_radius setter *)
Definition check_outer (inner : T) (v : pyval) : res T :=
  let* w := number v false (PFloat inner) p_inf true in Ok (num_of w).

(** Ring.py:155-166 transmission setter *)
Definition check_tr (v : pyval) : res T :=
  let* w := number v false (PFloat n_zero) (PFloat n_one) false in Ok (num_of w).

(** Ring.py:180-191 inclination setter *)
Definition check_inc (v : pyval) : res T :=
  let* w := number v false (PInt 0) (PInt 90) false in Ok (num_of w).

(** Ring.py:205-216 tilt setter *)
Definition check_tilt (v : pyval) : res T :=
  let* w := number v false (PInt (-180)) (PInt 180) false in Ok (num_of w).

(** Ring.py:18-48 constructor: the setters in order *)
Definition new_ring (i o t inc tilt : pyval) : res ring :=
  let* i := check_inner n_inf i in
  let* o := check_outer i o in
  let* t := check_tr t in
  let* inc := check_inc inc in
  let* tilt := check_tilt tilt in
  Ok (mkRing i o t inc tilt).

(** attribute assignments *)
Inductive setter :=
  | SetInner (v : pyval) | SetOuter (v : pyval) | SetTr (v : pyval)
  | SetInc (v : pyval) | SetTilt (v : pyval).

Definition upd {A} (r : ring) (x : res A) (f : A -> ring) : ring * res unit :=
  match x with Ok a => (f a, Ok tt) | Err e => (r, Err e) end.

(** one assignment: the ring afterwards, and whether it raised *)
Definition set_ring (r : ring) (s : setter) : ring * res unit :=
  match s with
  | SetInner v => upd r (check_inner (r_out r) v)
      (fun x => mkRing x (r_out r) (r_tr r) (r_inc r) (r_tilt r))
  | SetOuter v => upd r (check_outer (r_in r) v)
      (fun x => mkRing (r_in r) x (r_tr r) (r_inc r) (r_tilt r))
  | SetTr v => upd r (check_tr v)
      (fun x => mkRing (r_in r) (r_out r) x (r_inc r) (r_tilt r))
  | SetInc v => upd r (check_inc v)
      (fun x => mkRing (r_in r) (r_out r) (r_tr r) x (r_tilt r))
  | SetTilt v => upd r (check_tilt v)
      (fun x => mkRing (r_in r) (r_out r) (r_tr r) (r_inc r) x)
  end.

Definition set_rings (r : ring) (l : list setter) : ring := fold_left (fun r s => fst (set_ring r s)) l r.

(** Ring.py:252-285 get_patch: transform of the vertices of the unit circle given by
    matplotlib.  np.deg2rad(x) is x * (pi / 180); np.dot of a row with a 2x2 matrix. *)
Variable L : Libm T.
Definition deg2rad (x : T) : T := (x * (m_pi L / n_ofZ 180))%num.

(** one vertex: [flip] is the factor of the x coordinate, 1 (outer) or -1 (inner),
    Ring.py:276-277 and 272-273, 280-281 *)
Definition patch_vertex (r : ring) (radius flip : T) (shift v : T * T) : T * T :=
  let phi := deg2rad (r_tilt r) in
  let inc := deg2rad (r_inc r) in
  let ax := (radius * fst v * flip)%num in
  let ay := (radius * snd v * m_cos L inc)%num in
  let px := (ax * m_cos L phi + ay * m_sin L phi)%num in
  let py := (ax * m_sin L phi + ay * - m_cos L phi)%num in
  ((fst shift + px)%num, (snd shift + py)%num).

(** Ring.py:276-284: all vertices, outer outline first *)
Definition patch_vertices (r : ring) (shift : T * T) (vs : list (T * T)) : list (T * T) :=
  map (patch_vertex r (r_out r) n_one shift) vs ++
  map (patch_vertex r (r_in r) (n_neg n_one) shift) vs.

(** Ring.py:255 *)
Definition patch_opacity (r : ring) : T := (n_one - r_tr r)%num.
End Ring.
Arguments ring : clear implicits.
