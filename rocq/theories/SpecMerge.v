(** What is expected of the extent of merged rings, independent of the model. *)
From Coq Require Import Reals List.
From Verif Require Import Num Ring.
Import ListNotations.
Local Open Scope R_scope.

(** the widths of rings, taken together *)
Definition width {T} {NT : Num T} {LT : NumLaws T} (r : ring T) : R :=
  match val (r_in r), val (r_out r) with XFin i, XFin o => o - i | _, _ => 0 end.
Definition covered {T} {NT : Num T} {LT : NumLaws T} (l : list (ring T)) : R := fold_right Rplus 0 (map width l).
