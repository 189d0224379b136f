(** Vocabulary for builds that are interrupted and resumed. *)
From Coq Require Import ZArith List Bool String.
From Verif Require Import Num Py SpecNum FS FSP GridParams SpecGrid GridDiag Names GridProp Geometry Build Shallot SpecOps SpecSave.
Import ListNotations.
Set Implicit Arguments.
Local Open Scope string_scope.

Section S.
Context {T : Type} {NT : Num T}.
Notation pyval := (pyval T).
Notation shallot := (shallot T).

(** an integer that is not a bool *)
Definition whole_number (v : pyval) : Prop := exists z, v = PInt z \/ v = PNpInt z.
(** the same grid with another num_fxfy *)
Definition with_nf (s : shallot) (v : pyval) : shallot :=
  mkSh (s_params s) v (s_diag s) (s_radius s) (s_shear s) (s_dr s) (s_inc s) (s_tilt s) (s_fx s) (s_fy s) (s_dmap s) (s_grads s) (s_fit s) (s_ecl s) (s_vel s) (s_limb s).
(** equal up to the colours of the cubes, and num_fxfy as read from its file *)
Definition same_grid (s s' : shallot) : Prop :=
  s_params s' = s_params s /\ s_nf s' = reread_nf (s_nf s) /\ s_diag s' = s_diag s /\ s_radius s' = s_radius s /\ s_shear s' = s_shear s /\
  (forall w, same_cube (the_cube w s) (the_cube w s')) /\ s_dmap s' = s_dmap s /\ s_grads s' = s_grads s /\ s_fit s' = s_fit s /\
  s_ecl s' = s_ecl s /\ s_vel s' = s_vel s /\ s_limb s' = s_limb s.
(** no temporary directory *)
Definition no_temp (f : fs T) : Prop := forall p, below TEMP p = true -> fs_get f p = None.
(** directory [d] of [f'] has the entries of the temporary directory of [f] *)
Definition copied (f f' : fs T) (d : string) : Prop := forall n, slashfree n = true -> fs_get f' (under d n) = fs_get f (under TEMP n).
End S.
