(** Specification vocabulary for grid properties and gradients. *)
From Coq Require Import ZArith Reals List Bool String.
From Verif Require Import Num Py SpecNum FS GridParams GridProp Names SpecGrid.
Import ListNotations.
Set Implicit Arguments.

Section S.
Context {T : Type} {NT : Num T} {LT : NumLaws T}.

Definition is_SF (s : scal T) : Prop := match s with SF _ => True | _ => False end.
Definition is_SB (s : scal T) : Prop := match s with SB _ => True | _ => False end.
(** what numpy guarantees of an array object: as many entries as the shape says, of the dtype *)
Definition arr_wf (v : pyval T) : Prop :=
  match v with
  | PArr dt sh el => List.length el = volume sh /\
      (dt = "float64"%string -> Forall is_SF el) /\ (dt = "bool"%string -> Forall is_SB el)
  | _ => True
  end.

(** point [i] (in C order) is masked *)
Definition marked (m : option (marr T)) (i : nat) : bool :=
  match m with
  | Some m => match nth_error (ma_elems m) i with Some (SB b) => b | _ => false end
  | None => false
  end.

(** calls on a property *)
Inductive pop := PRead (masked : pyval T) | PSetMask (mask : pyval T) | PContrast (a b c d : option (pyval T)).
Definition do_pop (p : gprop T) (o : pop) : gprop T :=
  match o with
  | PRead v => fst (get_data p v)
  | PSetMask v => fst (set_mask p v)
  | PContrast a b c d => fst (set_contrast p a b c d)
  end.
Definition do_pops (p : gprop T) (l : list pop) : gprop T := fold_left do_pop l p.
Definition pop_wf (o : pop) : Prop := match o with PSetMask v => arr_wf v | _ => True end.

(** properties that the constructor and any calls produce *)
Inductive preach : gprop T -> Prop :=
  | pr_new n u v g p : arr_wf v -> new_gprop n u v g = Ok p -> preach p
  | pr_op p o : pop_wf o -> preach p -> preach (do_pop p o).

(** the call leaves point [i] unmasked: it does not set a mask with True at [i] *)
Definition spares (i : nat) (o : pop) : Prop :=
  match o with PSetMask (PArr _ _ el) => nth_error el i <> Some (SB true) | _ => True end.

(** calls on a gradient *)
Inductive gop := GProp (o : pop) | GDet (m s : pyval T) (t e : option (pyval T)).
Definition do_gop (g : ggrad T) (o : gop) : ggrad T :=
  match o with
  | GProp o => with_prop g (do_pop (gg_prop g) o)
  | GDet m s t e => fst (determine_mask g m s t e)
  end.
Definition do_gops (g : ggrad T) (l : list gop) : ggrad T := fold_left do_gop l g.

(** gradients measured by successful determine_mask calls only, read in any way *)
Inductive measured : ggrad T -> Prop :=
  | ms_new v p pos g : arr_wf v -> new_grad v p pos = Ok g -> measured g
  | ms_det g m s t e g' : measured g -> Forall (@small T) [m; s] -> osmall t -> osmall e ->
      determine_mask g m s t e = (g', Ok tt) -> measured g'
  | ms_read g v : measured g -> measured (with_prop g (fst (get_data (gg_prop g) v)))
  | ms_contrast g a b c d : measured g -> measured (with_prop g (fst (set_contrast (gg_prop g) a b c d))).

(** the same number, possibly as an object of another type *)
Definition same_number (a b : pyval T) : Prop := numberlike a /\ numberlike b /\ value a = value b.
Definition same_onumber (a b : option (pyval T)) : Prop :=
  match a, b with Some a, Some b => same_number a b | None, None => True | _, _ => False end.

(** limits that determine_mask documents *)
Definition measure_ok (m s : pyval T) (t e : option (pyval T)) : Prop :=
  numberlike m /\ ~ xlt (value m) (XFin 0) /\ numberlike s /\ ~ xlt (value s) (XFin 0) /\
  (forall v, t = Some v -> numberlike v /\ ~ xlt (value v) (XFin 0) /\ ~ xlt (XFin 1) (value v)) /\
  (forall v, e = Some v -> numberlike v /\ ~ xlt (value v) (XFin 0)).
(** zero objects by which Python refuses to divide *)
Definition py_zero (v : pyval T) : Prop :=
  match v with PBool _ | PInt _ | PFloat _ => value v = XFin 0 | _ => False end.
(** the transmission used *)
Definition transmission (t : option (pyval T)) : pyval T := match t with Some v => v | None => PInt 1 end.
(** drawn with the colour map [c], 11 colours and the extrema of the values as the limits; without a value
    that is not NaN there are no limits *)
Definition looks (p : gprop T) (c : string) : Prop :=
  p_cmap p = c /\ p_ncol p = PInt 11 /\
  ((forall x, In x (p_data p) -> val x = XNaN) -> p_vmin p = None /\ p_vmax p = None) /\
  ((exists x, In x (p_data p) /\ val x <> XNaN) ->
    exists a b, p_vmin p = Some (PNpFloat a) /\ p_vmax p = Some (PNpFloat b) /\ In a (p_data p) /\ In b (p_data p) /\
      forall x, In x (p_data p) -> val x <> XNaN -> xle (val a) (val x) /\ xle (val x) (val b)).
End S.
Arguments pop : clear implicits.
Arguments gop : clear implicits.
