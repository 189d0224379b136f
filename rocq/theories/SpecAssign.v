(** Histories in which the caller also assigns to the Ring objects a ring system holds, independent of the model's helpers. *)
From Coq Require Import ZArith List Bool String.
From Verif Require Import Num Py SpecNum Ring RingSystem SpecRing.
Import ListNotations.
Set Implicit Arguments.

Section S.
Context {T : Type} {NT : Num T} {LT : NumLaws T}.
(** a call on the system, or an assignment to an attribute of Ring object [l] *)
Inductive act := Call (o : op (T := T)) | Assign (l : nat) (a : setter (T := T)).
Definition do_act (st : list (ring T) * rsys T) (a : act) : list (ring T) * rsys T :=
  match a with
  | Call o => fst (do_op st o)
  | Assign l a => (replace_nth l (fst (set_ring (deref (fst st) l) a)) (fst st), snd st)
  end.
Definition do_acts (st : list (ring T) * rsys T) (l : list act) : list (ring T) * rsys T := fold_left do_act l st.
(** the objects named exist; new rings have no NaN; no split *)
Definition act_valid (h : list (ring T)) (a : act) : Prop :=
  match a with Call o => op_valid h o /\ no_split o | Assign l _ => l < List.length h end.
(** the objects named exist *)
Definition act_named (h : list (ring T)) (a : act) : Prop :=
  match a with Call o => op_valid_obj h o | Assign l _ => l < List.length h end.
(** an assignment leaves the ring inside its old radii *)
Definition inside (r r' : ring T) : Prop := xle (val (r_in r)) (val (r_in r')) /\ xle (val (r_out r')) (val (r_out r)).
Definition act_narrows (h : list (ring T)) (a : act) : Prop :=
  match a with Call _ => True | Assign l a => inside (deref h l) (fst (set_ring (deref h l) a)) end.
Fixpoint acts_ok (P : list (ring T) -> act -> Prop) (st : list (ring T) * rsys T) (l : list act) : Prop :=
  match l with [] => True | a :: l => P (fst st) a /\ acts_ok P (do_act st a) l end.
(** a ring without NaN has all attributes in their documented ranges *)
Definition nearly_valid (r : ring T) : Prop := ring_no_nan r -> ring_ranges r.
(** the rings have the inclination and tilt of the system *)
Definition one_plane (h : list (ring T)) (s : rsys T) : Prop :=
  forall l, In l (s_rings s) -> r_inc (deref h l) = s_inc s /\ r_tilt (deref h l) = s_tilt s.
End S.
