(** Specification vocabulary for the logs of ring systems. *)
From Coq Require Import ZArith Reals List Bool String.
From Verif Require Import Num Py SpecNum Ring RingSystem SpecRing SpecFmt Text Log.
Import ListNotations.
Set Implicit Arguments.
Local Open Scope string_scope.
Local Open Scope list_scope.

Definition bar70 : string := "======================================================================".
(** [a] and [b] are the texts of a system (each begins with a line break) before and after the call *)
Definition story (call a b : string) : string :=
  String.concat newline ["" ; bar70; center 66 ("Before: " ++ call)] ++ a ++ String.concat newline [""; center 66 ("After: " ++ call)] ++ b.

(** the debug records of the log lead from the system with text [a] to the one with text [b], without a gap *)
Inductive tells : string -> log -> string -> Prop :=
  | tells_nil a : tells a [] a
  | tells_change a b c func l : tells b l c -> tells a (debug func (story (func ++ "()") a b) :: l) c
  | tells_info a b func text l : tells a l b -> tells a (info func text :: l) b.

Section S.
Context {T : Type} {NT : Num T} {LT : NumLaws T}.
Variable show : nat -> T -> string.

(** the two values compare equal *)
Definition same (x y : T) : Prop := val x <> XNaN /\ val x = val y.
(** a record about an attribute that is overridden *)
Definition overridden (name : string) (old new : T) (l : log) : Prop :=
  (same old new /\ l = []) \/
  (~ same old new /\ l = [info "_override_ring_geometry" ("ring " ++ name ++ " overridden from " ++ show 2 old ++ " to " ++ show 2 new)%string]).
(** every system of the world is one the constructor accepts, over live ring objects *)
Definition world_ok (w : world T) : Prop := forall k s, nth_error (snd w) k = Some s -> geo_ok s /\ sys_wf (fst w) s.
(** the ring objects handed over exist *)
Fixpoint objects_ok (w : world T) (l : list (nat * @op T)) : Prop :=
  match l with [] => True | ko :: l => op_valid_obj (fst w) (snd ko) /\ objects_ok (do_wop w ko) l end.
End S.
