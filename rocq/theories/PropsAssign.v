(** C99: assignments to the Ring objects a ring system holds. *)
From Coq Require Import ZArith Reals List Bool String.
From Verif Require Import Num Py SpecNum Ring RingSystem SpecRing RingMoreP SpecAssign AssignP.
Import ListNotations.
Local Open Scope list_scope.
Local Open Scope nat_scope.

(** C99.  Ring objects stay valid in every history of calls and assignments. *)
Theorem C99_valid {T} {NT : Num T} {LT : NumLaws T} (st : list (ring T) * rsys T) (l : list act) :
  Forall (fun r => exists i o t inc tilt, new_ring i o t inc tilt = Ok r) (fst st) -> acts_ok act_named st l ->
  forall r, In r (fst (do_acts st l)) -> nearly_valid r.
Proof. exact (@rings_valid T NT LT l st). Qed.
Print Assumptions C99_valid.
(** histories whose assignments only narrow rings keep the rings ordered *)
Theorem C99_narrowing {T} {NT : Num T} {LT : NumLaws T} (st : list (ring T) * rsys T) (l : list act) :
  hist_inv st -> acts_ok (fun h a => act_valid h a /\ act_narrows h a) st l -> ordered (rings_of (fst (do_acts st l)) (snd (do_acts st l))).
Proof. exact (fun H V => proj2 (proj2 (proj2 (@order_kept T NT LT l st H V)))). Qed.
Print Assumptions C99_narrowing.
(** a single accepted assignment keeps the order exactly if the ring still fits between its neighbours *)
Theorem C99_fits {T} {NT : Num T} {LT : NumLaws T} (h : list (ring T)) (s : rsys T) k l a r' :
  ordered (rings_of h s) -> NoDup (s_rings s) -> nth_error (s_rings s) k = Some l -> l < List.length h -> set_ring (deref h l) a = (r', Ok tt) ->
  (ordered (rings_of (fst (do_act (h, s) (Assign l a))) s) <->
   (forall p, before k (rings_of h s) = Some p -> xle (val (r_out p)) (val (r_in r'))) /\ (forall q, nth_error (rings_of h s) (S k) = Some q -> xle (val (r_out r')) (val (r_in q)))).
Proof. exact (@assigned_order T NT LT h s k l a r'). Qed.
Print Assumptions C99_fits.
(** nothing checks that, so the order can be lost *)
Theorem C99_order_refuted : ~ (forall (st : list (ring f64) * rsys f64) l, hist_inv st -> acts_ok act_valid st l -> ordered (rings_of (fst (do_acts st l)) (snd (do_acts st l)))).
Proof. exact order_refuted. Qed.
Print Assumptions C99_order_refuted.
(** nor that a ring stays in the plane of its system *)
Theorem C99_plane_refuted : ~ (forall h (s : rsys f64) l a r', one_plane h s -> set_ring (deref h l) a = (r', Ok tt) -> one_plane (replace_nth l r' h) s).
Proof. exact plane_refuted. Qed.
Print Assumptions C99_plane_refuted.
(** splitting or merging brings all rings back into it *)
Theorem C99_split_plane {T} {NT : Num T} {LT : NumLaws T} h (s : rsys T) nd h' s' : split_rings h s nd = (h', s', Ok tt) -> one_plane h' s'.
Proof. exact (@split_plane T NT LT h s nd h' s'). Qed.
Print Assumptions C99_split_plane.
Theorem C99_merge_plane {T} {NT : Num T} {LT : NumLaws T} h (s : rsys T) tol h' s' : merge_rings h s tol = (h', s', Ok tt) -> one_plane h' s'.
Proof. exact (@merge_plane T NT LT h s tol h' s'). Qed.
Print Assumptions C99_merge_plane.
Example C99_ex : hist_inv (ex_heap, ex_sys) /\ acts_ok (fun h a => act_valid h a /\ act_narrows h a) (ex_heap, ex_sys) [Assign 1 (SetInner (PInt 3)); Call (OpRemove (PInt 2)); Assign 1 (SetTr (PInt 0))].
Proof. exact assign_ex. Qed.
Example C99_made_ex : exists r, new_ring (T := f64) (PInt 1) (PInt 2) (PInt 1) (PInt 0) (PInt 0) = Ok r /\
  acts_ok act_named ([r], mkSys (fz 1) (fz 10) (fz 20) [0]) [Assign 0 (SetOuter (PInt 5)); Assign 0 (SetInner (PInt 3)); Call (OpSplit (PInt 2))].
Proof. exact made_ex. Qed.
