(** Specification vocabulary for the texts of the exceptions of grid objects: the checks of each call, in order. *)
From Coq Require Import ZArith Reals List Bool String.
From Verif Require Import Num Py SpecNum Ring RingSystem FS GridParams GridDiag Names GridProp Message SpecMsg.
Import ListNotations.
Set Implicit Arguments.
Local Open Scope string_scope.

(** a check that is only made when [P] holds *)
Definition guarded (P : Prop) (c : check) : check := mkCheck (P -> passes c) (fun e s => P /\ complains c e s).

(** the outcome is an error exactly when a check fails, and then the error and the text of the first failing one *)
Definition reports {A} (x : mres A) (l : list check) : Prop :=
  (forall e o, x = MErr e o <-> exists s, o = Some s /\ first_error l e s) /\ ((exists a, x = MOk a) <-> Forall passes l).

Section G.
Context {T : Type} {NT : Num T} {LT : NumLaws T}.
Variable show : nat -> T -> string.
Variable int_text : Z -> string.
Variable tuple_text : list nat -> string.
Notation pyval := (pyval T).
Notation bound := (fun v : pyval => show 4 (num_of v)).
Notation num := (number_check bound).
Notation arr := (array_check bound int_text).
Notation minf := (PFloat n_ninf).
Notation inf := (PFloat n_inf).

(** split_rings: an integer, or an array with an integer for each ring *)
Definition division_checks (s : rsys T) (nd : pyval) : list check :=
  [guarded (int_like nd) (num "num_divisions" nd true (PInt 2) inf false);
   guarded (~ int_like nd) (arr "num_divisions" nd (Some (PInt 1)) None false (Some "int64") (Some 1%Z));
   guarded (~ int_like nd) (shapes_check tuple_text [nd; PArr "object" [List.length (s_rings s)] []] ["num_divisions"; "self.rings"])].

(** GridParameters: the two axes, then the rf axis *)
Definition axis_checks (x : string) (mn mx n : pyval) : list check :=
  [num ("min_" ++ x) mn false minf inf false;
   num ("max_" ++ x) mx false minf inf false;
   own_check (~ xle (value mx) (value mn)) ValueError ("max_" ++ x ++ " must be greater than min_" ++ x);
   num ("num_" ++ x) n true (PInt 1) inf false].
Definition params_checks (min_x max_x num_x min_y max_y num_y max_rf num_rf : pyval) : list check :=
  (axis_checks "x" min_x max_x num_x ++ axis_checks "y" min_y max_y num_y ++
  [num "max_rf" max_rf false (PInt 1) inf false; num "num_rf" num_rf true (PInt 1) inf false])%list.

(** GridProperty: an object of each class, then the array and its shape.  The name of the first class is misspelt. *)
Definition is_a {A} (e : earg A) : Prop := exists a, e = EIs a.
Definition given_shape (g : earg (gparams T)) : list nat :=
  match g with EIs g => let '(a, b, c) := g_shape g in [a; b; c] | EOther => [] end.
Definition property_checks (n : earg pname) (u : earg punit) (data : pyval) (g : earg (gparams T)) : list check :=
  [kind_check (is_a n) "name" "GridpropertyName";
   kind_check (is_a u) "unit" "GridPropertyUnit";
   kind_check (is_a g) "grid_parameters" "GridParameters";
   arr "data" data None None false (Some "float64") (Some 3%Z);
   shapes_check tuple_text [data; PArr "float64" (given_shape g) []] ["data"; "data_structure"]].
Definition gradient_checks (data : pyval) (g : earg (gparams T)) (position : pyval) : list check :=
  (property_checks (EIs GRADIENT) (EIs NONE) data g ++ [num "position" position false minf inf false])%list.
Definition mask_checks (p : gprop T) (mask : pyval) : list check :=
  [arr "mask" mask None None false (Some "bool") None;
   shapes_check tuple_text [mask; PArr "float64" (p_shape p) []] ["mask"; "data"]].

(** contrast: the limits are looked at only when there is a number in the data *)
Definition has_number (p : gprop T) : Prop := exists x, In x (p_data p) /\ val x <> XNaN.
Definition limit_check (p : gprop T) (name : string) (o : option pyval) : check :=
  guarded (has_number p /\ o <> None) (num name (match o with Some v => v | None => PNone end) false minf inf false).
Definition or_else {A} (d : A) (o : option A) : A := match o with Some a => a | None => d end.
Definition contrast_checks (p : gprop T) (vmin vmax color_map num_colors : option pyval) : list check :=
  [limit_check p "vmin" vmin; limit_check p "vmax" vmax;
   kind_check (exists s, or_else (PStr "viridis") color_map = PStr s) "color_map" "string";
   num "num_colors" (or_else (PInt 11) num_colors) true (PInt 2) inf false].

(** determine_mask: the four numbers, then the scaled gradient *)
Definition scaled_by (m o t : pyval) : T := n_mul (num_of m) (n_mul (num_of o) (n_div n_one (num_of t))).
Definition measure_checks (m o : pyval) (t e : option pyval) : list check :=
  [num "measured_gradient" m false (PInt 0) inf false;
   num "orbital_scale" o false (PInt 0) inf false;
   num "transmission_change" (or_else (PInt 1) t) false (PInt 0) (PInt 1) false;
   num "measured_error" (or_else (PInt 1) e) false (PFloat n_zero) inf false;
   own_check (~ xlt (XFin 1) (val (scaled_by m o (or_else (PInt 1) t)))) ValueError
     "scaled gradient is greater than one, check the measured gradient, orbital scale and transmission change"].

(** diagnostics *)
Definition index_checks (d : gdiag T) (y x : pyval) : list check :=
  [num "y" y true (PInt 0) (PInt (if d_ext d then 2 * (d_my d - 1) else d_my d - 1)) false;
   num "x" x true (PInt 0) (PInt (if d_ext d then 2 * (d_mx d - 1) else d_mx d - 1)) false].
Definition keep_checks (d : gdiag T) (y x fy dr : pyval) : list check :=
  (own_check (d_ext d = false) RuntimeError "diagnostics have been extended and can not be changed" ::
   [arr "fy" fy None None false (Some "float64") (Some 1%Z);
    arr "disk_radius" dr None None false (Some "float64") (Some 1%Z);
    shapes_check tuple_text [fy; dr] ["fy"; "disk_radius"]] ++ index_checks d y x)%list.
End G.
