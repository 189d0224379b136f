(** Specification vocabulary for the logs of grids. *)
From Coq Require Import ZArith Reals List Bool String.
From Verif Require Import Num Py SpecNum Ring RingSystem FS GridParams GridProp Geometry Build Shallot ShallotOps SpecOps SpecFmt Log.
Import ListNotations.
Set Implicit Arguments.
Local Open Scope string_scope.
Local Open Scope list_scope.

Definition CLEARED : record := mkRec 20 "_reset_gradient_fit" "gradient fit has been cleared".
Definition DROPPED : record := mkRec 20 "set_eclipse_parameters" "gradients set to None due to dependency on eclipse duration".
Definition MISSING : record := mkRec 20 "add_gradients" "eclipse parameters missing, use .set_eclipse_parameters()".
Definition NO_GRADIENTS : record := mkRec 20 "remove_gradients" "no gradients found".
Definition NOTHING_TO_FIT : record := mkRec 20 "determine_gradient_fit" "no gradients present".
Definition NO_FIT : record := mkRec 20 "get_gradient_fit" "no gradient fit found".
Definition NO_CHANGES : record := mkRec 20 "update_gradient_scaling" "no changes passed".
(** a record with a count *)
Definition ADDING (n : nat) (r : record) : Prop := exists a, read_count a = Some (Z.of_nat n) /\ r = mkRec 20 "add_gradients" ("adding " ++ a ++ " gradients").
Definition FITTING (n : nat) (r : record) : Prop := exists a, read_count a = Some (Z.of_nat n) /\ r = mkRec 20 "determine_gradient_fit" ("determining " ++ a ++ " gradient rms's").
Definition ROW (i n : nat) (r : record) : Prop :=
  exists a b, read_count a = Some (Z.of_nat i) /\ read_count b = Some (Z.of_nat n) /\ r = mkRec 20 "_build_grid" ("building y = " ++ a ++ "/" ++ b).

(** how often a text was logged, and how often a text with this start *)
Definition said (text : string) (l : log) : nat := List.length (filter (fun r => String.eqb (l_text r) text) l).
Definition begun (start : string) (l : log) : nat := List.length (filter (fun r => String.prefix start (l_text r)) l).

Section S.
Context {T : Type} {NT : Num T}.
Notation shallot := (shallot T).
(** the fit has gone; the gradients have gone *)
Definition fit_lost (s s' : shallot) : Prop := s_fit s <> None /\ s_fit s' = None.
Definition gradients_lost (s s' : shallot) : Prop := s_grads s <> None /\ s_grads s' = None.
Definition number_of_gradients (s : shallot) : nat := match s_grads s with Some gs => List.length gs | None => 0 end.
Definition has_fit (s : shallot) : nat := match s_fit s with Some _ => 1 | None => 0 end.
(** what is logged when a fit that may be there is cleared *)
Definition clearing (s : shallot) (l : log) : Prop := (s_fit s = None /\ l = []) \/ (s_fit s <> None /\ l = [CLEARED]).
(** all three eclipse parameters are set *)
Definition eclipse_known (s : shallot) : Prop := s_limb s <> None /\ s_ecl s <> None /\ s_vel s <> None.
(** [v] is the greatest absolute value among the numbers of [l], NaN when there is none *)
Definition greatest {LT : NumLaws T} (l : list T) (v : T) : Prop :=
  (v = n_nan /\ forall x, In x l -> val x = XNaN) \/
  (exists x, In x l /\ val x <> XNaN /\ v = n_abs x /\ forall y, In y l -> val y = XNaN \/ xle (val (n_abs y)) (val v)).
(** calls that only read, or set a mask *)
Definition silent (o : @op T) : bool :=
  match o with OHill _ | OMask _ _ | OMaskGrad _ _ | OGet _ _ _ | OGetDiag _ _ | OGrads _ _ | OPoint _ _ _ _ => true | _ => false end.
End S.
