(** Specification vocabulary for the printed texts. *)
From Coq Require Import ZArith List Bool String.
From Verif Require Import Num Py SpecNum FS GridParams GridProp Names SpecGrid SpecProp Shallot.
Import ListNotations.
Set Implicit Arguments.

Section S.
Context {T : Type} {NT : Num T} {LT : NumLaws T}.

Definition gop_wf (o : gop T) : Prop := match o with GProp o => pop_wf o | _ => True end.
(** gradients that the constructor and any calls, successful or not, produce *)
Inductive greach : ggrad T -> Prop :=
  | gr_new v p pos g : arr_wf v -> new_grad v p pos = Ok g -> greach g
  | gr_op g o : gop_wf o -> greach g -> greach (do_gop g o).

(** the contrast limits are there *)
Definition limited (p : gprop T) : Prop := p_vmin p <> None /\ p_vmax p <> None.
(** the four numbers of a measurement are there *)
Definition complete (g : ggrad T) : Prop := gg_meas g <> None /\ gg_err g <> None /\ gg_orb g <> None /\ gg_trans g <> None.
(** a gradient that can be printed *)
Definition presentable (g : ggrad T) : Prop := limited (gg_prop g) /\ (p_mask (gg_prop g) = None \/ complete g).
(** a grid that can be printed *)
Definition printable_grid (s : shallot T) : Prop :=
  limited (s_dr s) /\ limited (s_tilt s) /\ limited (s_inc s) /\ forall gs g, s_grads s = Some gs -> In g gs -> presentable g.
End S.

(** the word [w] is the number [x], correctly rounded to [k] decimals *)
From Coq Require Import Reals.
From Flocq Require Import Core BinarySingleNaN.
From Verif Require Import SpecFmt.
Definition writes (k : nat) (x : f64) (w : string) : Prop :=
  match x with
  | B754_nan => w = "nan"%string
  | B754_infinity s => w = (if s then "-inf" else "inf")%string
  | _ => exists n, read_number w = Some (Bsign x, n, k) /\ nearest_even (Rabs (B2R x) * IZR (10 ^ Z.of_nat k)) n
  end.
(** line [i] of the text: the label, the number [x] to [k] decimals, the unit *)
Definition shows (l : list string) (i : nat) (label : list string) (unit : string) (k : nat) (x : f64) : Prop :=
  exists line w, nth_error l i = Some line /\ words line = app label [w; unit] /\ writes k x w.
