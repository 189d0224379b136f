(** Spec vocabulary for saving and loading a grid. *)
From Coq Require Import ZArith List Bool String Ascii.
From Verif Require Import Num Py SpecNum Ring RingSystem FS GridParams SpecGrid Names GridProp SpecProp Build SpecBuild Shallot SpecOps FSP GridPropFSP BuildGP BuildGridP.
Import ListNotations.
Set Implicit Arguments.
Local Open Scope string_scope.
Local Open Scope list_scope.

(** the data file and the mask file of a cube *)
Definition dfile (w : which) : string := data_file (name_of w) (unit_of w).
Definition mfile (w : which) : string := mask_file (name_of w) (unit_of w).

Section S.
Context {T : Type} {NT : Num T} (E : env T).
Notation shallot := (shallot T).

(** all files of the five cubes, the parameters and num_fxfy *)
Definition grid_file (s : shallot) (n : string) (c : content T) : Prop :=
  n = "num_fxfy.npy" /\ c = np_array [Some (s_nf s)] \/ In (n, c) (params_files (s_params s)) \/
  exists w, n = dfile w /\ c = float_arr (p_shape (cube_of w s)) (p_data (cube_of w s)) \/
    exists m, p_mask (cube_of w s) = Some m /\ n = mfile w /\ c = CNpy (ma_dtype m) (ma_shape m) (ma_elems m).
(** num_fxfy as it is read from its file *)
Definition reread_nf (v : pyval T) : pyval T := match v with PBool b => PNpOther (SB b) | _ => PNpInt (zof v) end.
(** a cube as load gives it back *)
Definition same_cube (p q : gprop T) : Prop :=
  p_name q = p_name p /\ p_unit q = p_unit p /\ p_params q = p_params p /\ p_shape q = p_shape p /\ p_data q = p_data p /\ p_mask q = p_mask p.
(** the directory is new *)
Definition unused (f : fs T) (d : string) : Prop :=
  d <> "" /\ d <> "." /\ parent_ok f d = true /\ forall p, below d p = true -> fs_get f p = None.

(** the name of a gradient's directory *)
Definition gname (g : ggrad T) : string := ("gradient_" ++ e_fmt E (num_of (gg_pos g)))%string.
(** the formatted position has no slash (it never has); it has a decimal point (unless it is nan or inf) *)
Definition printed (g : ggrad T) : Prop := slashfree (e_fmt E (num_of (gg_pos g))) = true.
Definition pointed (g : ggrad T) : bool := has_char "." (e_fmt E (num_of (gg_pos g))).
Definition grads (s : shallot) : list (ggrad T) := match s_grads s with None => [] | Some gs => gs end.
(** the directory of a gradient belongs to the last gradient of that name *)
Definition on_disk (f : fs T) d (l : list (ggrad T)) : Prop := forall l1 g l2, l = l1 ++ g :: l2 -> (forall g', In g' l2 -> gname g' <> gname g) ->
  fs_get f (under d (gname g)) = Some NDir /\ fs_get f (under (under d (gname g)) "position.npy") = Some (NFile (np_array [Some (gg_pos g)])).
End S.
