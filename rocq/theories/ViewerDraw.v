(** Model of what GridPropertyViewer draws besides the image: title, axis labels, extent and tick labels
    (/repo/GridProperty.py:649-656 and 711-797), and of the two methods of GridProperty that make a
    viewer (218-285).  [fmt] is the formatting "{:.4f}" of line 716.  The image is placed by matplotlib
    (imshow with extent): pixel i of n covers the i-th n-th of the extent. *)
From Coq Require Import ZArith List Bool String.
From Verif Require Import Num Py Validate Ring RingSystem FS GridParams Names GridProp Viewer.
Import ListNotations.
Set Implicit Arguments.
Local Open Scope string_scope.

Section D.
Context {T : Type} {NT : Num T}.
Notation pyval := (pyval T).

(** GridProperty.py:649 *)
Definition slice_name (axis : nat) : string := match axis with 0 => "$y$" | 1 => "$x$" | _ => "$R_f$" end.
(** GridProperty.py:652-654 *)
Definition title_prefix (p : gprop T) : string := get_name (p_name p) ++ " [" ++ get_unit (p_unit p) ++ "]".

(** GridProperty.py:711-726 update_title *)
Definition title (fmt : T -> string) (prefix : string) (v : viewer T) : string :=
  prefix ++ " - " ++ slice_name (v_axis v) ++ " = " ++ fmt (nth (Z.to_nat (v_index v)) (v_slices v) n_nan) ++
  if Nat.eqb (v_axis v) 2 then
    let m := (Z.of_nat (List.length (v_slices v)) / 2)%Z in
    if (v_index v <? m)%Z then " - horizontal" else if (m <? v_index v)%Z then " - vertical" else ""
  else "".

(** GridProperty.py:729-736 set_labels: (xlabel, ylabel) *)
Definition axis_labels (axis : nat) : string * string :=
  match axis with 0 => ("$R_f$", "$x$") | 1 => ("$R_f$", "$y$") | _ => ("$x$", "$y$") end.

Definition ends (l : list T) : res (T * T) :=
  match l with [] => Err IndexError | a :: _ => let* b := last_opt l in Ok (a, b) end.

(** GridProperty.py:739-770 determine_extent: (left, right, bottom, top) *)
Definition extent (g : gparams T) (axis : nat) : res (T * T * T * T) :=
  let* x := ends (g_dx g) in
  let* y := ends (g_dy g) in
  let* r := ends (g_rf g) in
  let rf := (n_zero, n_mul (n_ofZ 2) (n_sub (snd r) (fst r))) in
  let h := match axis with 0 | 1 => rf | _ => x end in
  let v := match axis with 0 => x | _ => y end in
  Ok (fst h, snd h, fst v, snd v).

(** GridProperty.py:786-791: the number written at the location [loc] of the horizontal axis
    (axis 0 and 1), before it is formatted with "%.2f" *)
Definition tick_label (g : gparams T) (loc : T) : res T :=
  let* r := ends (g_rf g) in
  Ok (n_add n_one (n_abs (n_sub loc (n_sub (snd r) (fst r))))).

(** GridProperty.py:218-243 plot_cube: the property and the viewer *)
Definition plot_cube (p : gprop T) (axis : pyval) (co : coords T) (masked : pyval) : option (gprop T) * res (viewer T) :=
  new_viewer (EIs tt) axis (EIs p) masked None (Some (PBool false)) co.

(** GridProperty.py:246-285 plot_slice *)
Definition plot_slice (p : gprop T) (axis : pyval) (index : option pyval) (ax : option (earg unit)) (masked : pyval) :
    option (gprop T) * res (viewer T) :=
  match class_arg (dflt (EIs tt) ax) with
  | Err e => (None, Err e)
  | Ok _ => new_viewer (dflt (EIs tt) ax) axis (EIs p) masked index (Some (PBool true)) CoNone
  end.
End D.
