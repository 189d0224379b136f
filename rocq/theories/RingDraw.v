(** Model of the drawing of rings and ring systems: Ring.py:218-295 get_patch and
    RingSystem.py:610-704 _get_patches, plot.
    Simplifications: matplotlib is not modelled, a patch is the data handed to it and an Axes
    object the patches, labels and limits handed to it; matplotlib takes any string as colour
    and any numbers as limits (it rejects unknown colours and limits that are NaN or infinite);
    the edge colour, line width, path codes and aspect, which are constants, are left out. *)
From Coq Require Import ZArith List Bool String.
From Verif Require Import Num Py Validate Ring RingSystem GridProp.
Import ListNotations.
Set Implicit Arguments.
Local Open Scope string_scope.

Section RingDraw.
Context {T : Type} {NT : Num T}.
Notation pyval := (pyval T).
Variable L : Libm T.
(** Ring.py:260-269: the vertices of matplotlib's unit circle *)
Variable circle : list (T * T).

(** a Circle (RingSystem.py:645-646) or the PathPatch of a ring (Ring.py:291-293) *)
Inductive patch :=
  | Disk (centre : T * T) (radius : T) (color : string)
  | Annulus (vertices : list (T * T)) (opacity : T) (color : string).

(** Ring.py:218-295 get_patch *)
Definition get_patch (r : ring T) (x_shift y_shift face_color : pyval) : res patch :=
  let* x := number x_shift false m_inf p_inf false in
  let* y := number y_shift false m_inf p_inf false in
  let* c := string_v face_color in
  Ok (Annulus (patch_vertices L r (num_of x, num_of y) circle) (patch_opacity r) c).

(** RingSystem.py:649-651: the patches of the rings, in order *)
Fixpoint ring_patches (l : list (ring T)) (x_shift y_shift face_color : pyval) : res (list patch) :=
  match l with
  | [] => Ok []
  | r :: l =>
    let* p := get_patch r x_shift y_shift face_color in
    let* ps := ring_patches l x_shift y_shift face_color in
    Ok (p :: ps)
  end.

(** RingSystem.py:610-653 _get_patches *)
Definition get_patches (h : list (ring T)) (s : rsys T) (x_shift y_shift face_color : pyval) : res (list patch) :=
  let* x := number x_shift false m_inf p_inf false in
  let* y := number y_shift false m_inf p_inf false in
  let* c := string_v face_color in
  let* ps := ring_patches (rings_of h s) x y (PStr c) in
  Ok (Disk (num_of x, num_of y) (s_planet s) c :: ps).

(** what plot hands to an Axes object *)
Record axes := mkAxes { a_patches : list patch; a_labels : option (string * string); a_limits : option (T * T * T * T) }.

(** RingSystem.py:655-704 plot: [current] is plt.gca(); the state the Axes object plotted on is
    left in (None: there is none), and the outcome *)
Definition plot (current : axes) (h : list (ring T)) (s : rsys T) (ax : option (earg axes))
    (x_shift y_shift face_color : pyval) : option axes * res unit :=
  match class_arg (match ax with None => EIs current | Some a => a end) with
  | Err e => (None, Err e)
  | Ok a =>
    match get_patches h s x_shift y_shift face_color with
    | Err e => (Some a, Err e)
    | Ok ps =>
      let a1 := mkAxes (a_patches a ++ ps) (Some ("$x [R_*]$", "$y [R_*]$")) (a_limits a) in
      match plot_limits h s (num_of x_shift) (num_of y_shift) with
      | Err e => (Some a1, Err e)
      | Ok lim => (Some (mkAxes (a_patches a1) (a_labels a1) (Some lim)), Ok tt)
      end
    end
  end.
End RingDraw.
Arguments patch : clear implicits.
Arguments axes : clear implicits.
