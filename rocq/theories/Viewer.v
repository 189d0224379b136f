(** Model of GridPropertyViewer, /repo/GridProperty.py:590-856, without the drawing itself: the image
    object and the canvas are not modelled; titles, labels, tick labels and extent (711-797) are in
    ViewerDraw.v.
    The viewer keeps the array of the property (line 635, shared); here it is a copy, so later reads of
    the property are not seen by it.  The assignment of line 856 is taken to empty the list of lines, as
    matplotlib does up to 3.6. *)
From Coq Require Import ZArith List Bool String.
From Verif Require Import Num Py Validate Ring RingSystem FS GridParams Names GridProp.
Import ListNotations.
Set Implicit Arguments.

Section V.
Context {T : Type} {NT : Num T}.
Notation pyval := (pyval T).

(** the argument coordinates: absent, a list of tuples, or another object *)
Inductive coords := CoNone | CoList (l : list (list T)) | CoOther.

(** attributes of GridProperty.py:633-674; [v_image] is the slice shown, [v_shown] the points
    plotted on the axes as (x, y), oldest first *)
Record viewer := mkV {
  v_axis : nat; v_shape : list nat; v_data : list T; v_slices : list T; v_index : Z;
  v_coords : option (list (list T)); v_tol : T; v_frozen : bool;
  v_image : list T; v_shown : list (T * T) }.

(** np.take(data, index, axis) on a 3-D array, in C order *)
Definition at3 (sh : list nat) (l : list T) (i j k : nat) : T :=
  match sh with [_; b; c] => nth ((i * b + j) * c + k) l n_nan | _ => n_nan end.
Definition take (axis : nat) (sh : list nat) (l : list T) (i : nat) : list T :=
  match sh with
  | [a; b; c] =>
    match axis with
    | 0 => List.concat (map (fun j => map (fun k => at3 sh l i j k) (seq 0 c)) (seq 0 b))
    | 1 => List.concat (map (fun j => map (fun k => at3 sh l j i k) (seq 0 c)) (seq 0 a))
    | _ => List.concat (map (fun j => map (fun k => at3 sh l j k i) (seq 0 b)) (seq 0 a))
    end
  | _ => []
  end.

(** GridParameters.py:237-256 get_vectors()[axis] *)
Definition vector_at (g : gparams T) (axis : nat) : list T :=
  match axis with 0 => g_dy g | 1 => g_dx g | _ => g_rfa g end.

(** np.delete(coordinate, axis) as (x, y), GridProperty.py:851-852: y, x = the other two *)
Definition point_of (axis : nat) (c : list T) : T * T :=
  match axis with
  | 0 => (nth 2 c n_nan, nth 1 c n_nan)
  | 1 => (nth 2 c n_nan, nth 0 c n_nan)
  | _ => (nth 1 c n_nan, nth 0 c n_nan)
  end.

(** GridProperty.py:845-853: the points near slice [i] *)
Definition near (axis : nat) (slices : list T) (tol : T) (i : Z) (c : list T) : bool :=
  n_gt tol (n_abs (n_sub (nth (Z.to_nat i) slices n_nan) (nth axis c n_nan))).
Definition points_at (v : viewer) (i : Z) : list (T * T) :=
  match v_coords v with
  | None => []
  | Some l => map (point_of (v_axis v)) (filter (near (v_axis v) (v_slices v) (v_tol v) i) l)
  end.

(** GridProperty.py:824-834 update, with plot_coordinates (837-856) *)
Definition update (v : viewer) : viewer :=
  let shown :=
    match v_coords v with
    | None => v_shown v
    | Some _ => match points_at v (v_index v) with [] => [] | l => v_shown v ++ l end
    end in
  mkV (v_axis v) (v_shape v) (v_data v) (v_slices v) (v_index v) (v_coords v) (v_tol v) (v_frozen v)
      (take (v_axis v) (v_shape v) (v_data v) (Z.to_nat (v_index v))) shown.

Definition with_index (v : viewer) (i : Z) : viewer :=
  mkV (v_axis v) (v_shape v) (v_data v) (v_slices v) i (v_coords v) (v_tol v) (v_frozen v) (v_image v) (v_shown v).
Definition with_frozen (v : viewer) (b : bool) : viewer :=
  mkV (v_axis v) (v_shape v) (v_data v) (v_slices v) (v_index v) (v_coords v) (v_tol v) b (v_image v) (v_shown v).

(** GridProperty.py:800-821 onscroll; [up]: event.button == "up" *)
Definition onscroll (v : viewer) (up : bool) : viewer :=
  if v_frozen v then v
  else
    let n := Z.of_nat (List.length (v_slices v)) in
    let i :=
      if up && (v_index v <? n - 1)%Z then (v_index v + 1)%Z
      else if negb up && (0 <? v_index v)%Z then (v_index v - 1)%Z
      else v_index v in
    update (with_index v i).

(** GridProperty.py:599-674 constructor.  It reads the property, which changes it (get_data).  A bool
    as axis or index passes the validation, but numpy refuses it: a bool index makes slice_values[index]
    an array that cannot be formatted (line 716), a bool axis is refused by np.take (line 663). *)
Definition new_viewer (ax : earg unit) (axis : pyval) (prop : earg (gprop T)) (masked : pyval)
    (index : option pyval) (frozen : option pyval) (co : coords) : option (gprop T) * res viewer :=
  match number axis true (PInt 0) (PInt 2) false with
  | Err e => (None, Err e)
  | Ok axis =>
    match class_arg ax with
    | Err e => (None, Err e)
    | Ok _ =>
      match class_arg prop with
      | Err e => (None, Err e)
      | Ok p =>
        let '(p, r) := get_data p masked in
        (Some p,
         let* d := r in
         let a := Z.to_nat (int_of axis) in
         let slices := vector_at (p_params p) a in
         let n := Z.of_nat (List.length slices) in
         let* index := number (dflt (PInt (n / 2)) index) true (PInt 0) (PInt (n - 1)) false in
         let* co :=
           match co with
           | CoNone => Ok None
           | CoOther => Err TypeError
           | CoList l => if forallb (fun c => Nat.eqb (List.length c) 3) l then Ok (Some l) else Err ValueError
           end in
         let* tol :=
           match slices with
           | a :: b :: _ => Ok (n_div (n_abs (n_sub b a)) (n_ofZ 3))
           | _ => Err IndexError
           end in
         if is_bool_v index || is_bool_v axis then Err TypeError
         else
           let v := mkV a (fst d) (snd d) slices (int_of index) co tol false [] [] in
           let v := update v in
           match frozen with
           | None => Ok v
           | Some b => let* b := boolean_v b in Ok (with_frozen v b)
           end)
      end
    end
  end.
End V.
Arguments viewer : clear implicits.
Arguments coords : clear implicits.
