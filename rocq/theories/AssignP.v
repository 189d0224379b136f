(** Assignments to the rings of a system: proofs. *)
From Coq Require Import ZArith Reals List Bool String Lia Lra.
From Verif Require Import Num NumP Py SpecNum Validate ValidateP Ring RingSystem SpecRing RingP RingSystemP RingOrderP RingMoreP SpecAssign.
Import ListNotations.
Set Implicit Arguments.
Local Open Scope list_scope.

Section P.
Context {T : Type} {NT : Num T} {LT : NumLaws T}.
Notation ring := (ring T).
Notation rsys := (rsys T).

(** *** every ring object comes from the constructor and assignments *)
Definition made (h : list ring) : Prop := forall r, In r h -> ring_inv r.
Lemma made_replace h l r : made h -> ring_inv r -> made (replace_nth l r h).
Proof. intros H R. revert l. unfold made in *. induction h as [|a h IH]; intros [|l] x; cbn; [tauto|tauto| |]; intros [<-|X]; auto; [now apply H; right|now apply H; left|]. apply (IH (fun y Y => H y (or_intror Y)) l x X). Qed.
Lemma dead_inv l h : made h -> l < List.length h -> ring_inv (deref h l).
Proof. intros H L. apply H. now apply deref_In. Qed.
Lemma make_rings_inv inc tilt x rs : make_rings inc tilt x = Ok rs -> Forall (fun r => ring_inv r /\ r_inc r = inc /\ r_tilt r = tilt) rs.
Proof.
  revert rs. induction x as [|[[i o] t] x IH]; intros rs H; cbn in H; [injection H as <-; constructor|].
  destruct (new_ring _ _ _ _ _) as [r|] eqn:E; cbn [bind] in H; [|discriminate]. destruct (make_rings inc tilt x) as [rs'|]; cbn [bind] in H; [|discriminate]. injection H as <-.
  constructor; [|now apply IH]. split; [eapply new_ring_inv; exact E|]. revert E. unfold new_ring. destruct (check_inner _ _); cbn [bind]; [|discriminate]. destruct (check_outer _ _); cbn [bind]; [|discriminate]. destruct (check_tr _); cbn [bind]; [|discriminate].
  unfold check_inc, check_tilt. destruct (number (PNpFloat inc) _ _ _ _) as [w|] eqn:E1; cbn [bind]; [|discriminate]. destruct (number (PNpFloat tilt) _ _ _ _) as [w'|] eqn:E2; cbn [bind]; [|discriminate]. intros [= <-]. cbn [r_inc r_tilt].
  apply number_ib in E1; try lia. apply number_ib in E2; try lia. destruct E1 as (-> & _). destruct E2 as (-> & _). split; reflexivity.
Qed.
Lemma made_app h rs : made h -> Forall ring_inv rs -> made (h ++ rs).
Proof. intros H F r Hr. apply in_app_iff in Hr as [Hr|Hr]; [auto|]. rewrite Forall_forall in F. auto. Qed.
Lemma override_inv h s l : made h -> l < List.length h -> made (fst (override h s l)) /\ List.length (fst (override h s l)) = List.length h.
Proof.
  intros H L. unfold override. destruct (set_ring (deref h l) (SetInc (PNpFloat (s_inc s)))) as [r1 [|]] eqn:E1; [|split; auto].
  destruct (set_ring r1 (SetTilt (PNpFloat (s_tilt s)))) as [r2 e2] eqn:E2. cbn [fst]. split; [|apply length_replace_nth].
  apply made_replace; auto. replace r2 with (fst (set_ring r1 (SetTilt (PNpFloat (s_tilt s))))) by now rewrite E2. apply set_ring_inv.
  replace r1 with (fst (set_ring (deref h l) (SetInc (PNpFloat (s_inc s))))) by now rewrite E1. apply set_ring_inv. now apply dead_inv.
Qed.
Lemma op_made st o : made (fst st) -> op_valid_obj (fst st) o -> made (fst (fst (do_op st o))).
Proof.
  destruct st as [h s]. cbn [fst]. intros H V. destruct o as [i o t inc tilt|index rg|index|index rg|nd|tol]; cbn [do_op].
  - destruct (new_ring i o t inc tilt) as [r|] eqn:E; cbn [fst]; auto. apply made_app; auto. constructor; [|constructor]. eapply new_ring_inv; exact E.
  - unfold add_ring. destruct (prevent_overlap h s index rg false) as [[i l]|] eqn:E; cbn [fst]; auto.
    assert (L : l < List.length h). { revert E V. unfold prevent_overlap. destruct (number _ _ _ _ _); cbn [bind]; [|discriminate]. destruct rg; try discriminate. cbn [class_object op_valid_obj]. destruct (String.eqb _ _); cbn [bind]; [|discriminate].
      destruct (if Z.eqb _ 0 then _ else _); cbn [bind]; [|discriminate]. destruct (n_lt _ _); [discriminate|]. destruct (if Z.eqb _ _ then _ else _); cbn [bind]; [|discriminate]. destruct (n_lt _ _); [discriminate|]. intros [= _ <-]. auto. }
    assert (X := proj1 (override_inv s H L)). destruct (override h s l) as [h' [|]]; exact X.
  - unfold remove_ring. destruct (number _ _ _ _ _); exact H.
  - unfold replace_ring. destruct (number index true _ _ _) as [w|]; cbn [fst]; auto. destruct (prevent_overlap h s index rg true) as [[i l]|] eqn:E; cbn [fst]; auto.
    assert (L : l < List.length h). { revert E V. unfold prevent_overlap. destruct (number _ _ _ _ _); cbn [bind]; [|discriminate]. destruct rg; try discriminate. cbn [class_object op_valid_obj]. destruct (String.eqb _ _); cbn [bind]; [|discriminate].
      destruct (if Z.eqb _ 0 then _ else _); cbn [bind]; [|discriminate]. destruct (n_lt _ _); [discriminate|]. destruct (if Z.eqb _ _ then _ else _); cbn [bind]; [|discriminate]. destruct (n_lt _ _); [discriminate|]. intros [= _ <-]. auto. }
    assert (X := proj1 (override_inv s H L)). destruct (override h s l) as [h' [|]]; exact X.
  - unfold split_rings. destruct (divisions s nd) as [ds|]; cbn [bind fst]; auto. destruct (make_rings _ _ _) as [rs|] eqn:E; cbn [fst alloc]; auto. apply made_app; auto. apply make_rings_inv in E. eapply Forall_impl; [|exact E]. cbn. tauto.
  - unfold merge_rings. destruct (rings_of h s) as [|r0 l]; cbn [fst]; auto. destruct (make_rings _ _ _) as [rs|] eqn:E; cbn [fst alloc]; auto. apply made_app; auto. apply make_rings_inv in E. eapply Forall_impl; [|exact E]. cbn. tauto.
Qed.
Theorem rings_valid l : forall st : list ring * rsys, Forall (fun r => exists i o t inc tilt, new_ring i o t inc tilt = Ok r) (fst st) -> acts_ok act_named st l ->
  forall r, In r (fst (do_acts st l)) -> nearly_valid r.
Proof.
  assert (G : forall l (st : list ring * rsys), made (fst st) -> acts_ok act_named st l -> made (fst (do_acts st l))).
  { clear l. induction l as [|a l IH]; intros st H V; [exact H|]. destruct V as [V1 V2]. cbn [do_acts fold_left]. apply IH; auto. destruct a as [o|m s]; cbn [do_act act_named] in *; [now apply op_made|]. cbn [fst]. apply made_replace; auto. apply set_ring_inv. now apply dead_inv. }
  intros st H V r Hr N. apply ring_inv_ranges; auto. apply (G l st); auto. intros q Hq. rewrite Forall_forall in H. destruct (H q Hq) as (i & o & t & inc & tilt & E). eapply new_ring_inv; exact E.
Qed.

(** *** the order of the rings *)
Lemma ordered_inside l l' : Forall2 inside l l' -> ordered l -> ordered l'.
Proof.
  intros F O. revert l' F. induction O as [|r|r s l H O IH]; intros l' F; inversion F; subst; [constructor|inversion H3; subst; constructor|].
  inversion H4; subst. constructor; [|now apply IH]. destruct H2 as [_ A]. destruct H3 as [B _]. eapply xle_trans; [exact A|]. eapply xle_trans; [exact H|exact B].
Qed.
Lemma deref_replace h l r m : l < List.length h -> deref (replace_nth l r h) m = if Nat.eqb l m then r else @deref T _ h m.
Proof. intros L. unfold deref. destruct (Nat.eqb_spec l m) as [<-|N]; [now apply nth_replace_nth_eq|now apply nth_replace_nth_ne]. Qed.
Lemma good_inside r a : good_ring r -> inside r (fst (set_ring r a)) -> good_ring (fst (set_ring r a)).
Proof.
  intros ((A & B & C) & D) (I & O).
  assert (X1 : xlt (XFin 0) (val (r_in (fst (set_ring r a))))) by (eapply xlt_le_trans; eauto).
  assert (X3 : xlt (val (r_out (fst (set_ring r a)))) XPInf) by (eapply xle_lt_trans; eauto).
  revert I O X1 X3. destruct a as [v|v|v|v|v]; cbn [set_ring upd fst];
    [destruct (check_inner (r_out r) v) as [x|] eqn:E|destruct (check_outer (r_in r) v) as [x|] eqn:E|destruct (check_tr v) as [x|] eqn:E|destruct (check_inc v) as [x|] eqn:E|destruct (check_tilt v) as [x|] eqn:E]; cbn [upd fst r_in r_out r_tr]; intros I O X1 X3;
    (split; [split; [exact X1|split; [|exact X3]]|]); cbn [r_in r_out r_tr]; try assumption.
  - apply check_inner_ok in E as [E|[_ [E|E]]]; [rewrite E in X1; destruct X1|rewrite E in C; destruct C|exact E].
  - apply check_outer_ok in E as [E|[[E|E] _]]; [rewrite E in X3; destruct X3|rewrite E in A; destruct A|exact E].
  - exact (check_tr_ok v E).
Qed.
Lemma In_replace A (r x : A) m h : In r (replace_nth m x h) -> r = x \/ In r h.
Proof. revert m. induction h as [|b h IH]; intros [|m] H; cbn in H; try tauto; destruct H as [H|H]; cbn; auto. destruct (IH m H); auto. Qed.
Lemma map_Forall2 A B (R : B -> B -> Prop) (f g : A -> B) l : (forall x, In x l -> R (f x) (g x)) -> Forall2 R (map f l) (map g l).
Proof. induction l as [|a l IH]; intros H; cbn; constructor; [apply H; now left|apply IH; intros x Hx; apply H; now right]. Qed.
Lemma inside_refl r : good_ring r -> inside r r.
Proof. intros ((A & B & C) & _). split; right; (split; [reflexivity|]); intros E; [rewrite E in A; destruct A|rewrite E in C; destruct C]. Qed.
Theorem order_kept l : forall st : list ring * rsys, hist_inv st -> acts_ok (fun h a => act_valid h a /\ act_narrows h a) st l -> hist_inv (do_acts st l).
Proof.
  induction l as [|a l IH]; intros st H V; [exact H|]. destruct V as [[V N] V2]. cbn [do_acts fold_left]. apply IH; auto. clear IH V2. destruct a as [o|m s]; cbn [do_act act_valid act_narrows] in *.
  - destruct V as [V NS]. exact (@history_ordered T NT LT [o] st H (conj V I) (Forall_cons _ NS (Forall_nil _))).
  - destruct st as [h sy]. destruct H as (G & W & R & O). cbn [fst snd] in *. split; [exact G|]. cbn [fst snd]. split; [intros q Hq; rewrite length_replace_nth; auto|]. split.
    + intros r Hr. apply In_replace in Hr as [->|Hr]; auto. apply good_inside; auto. now apply R, deref_In.
    + eapply ordered_inside; [|exact O]. apply map_Forall2. intros q Hq. rewrite deref_replace by exact V. destruct (Nat.eqb_spec m q) as [->|Nq]; [exact N|]. apply inside_refl, R, deref_In, W, Hq.
Qed.
Lemma ordered_replace r' : forall (L : list ring) k, ordered L -> k < List.length L ->
  (ordered (replace_nth k r' L) <-> (forall p, before k L = Some p -> xle (val (r_out p)) (val (r_in r'))) /\ (forall q, nth_error L (S k) = Some q -> xle (val (r_out r')) (val (r_in q)))).
Proof.
  induction L as [|a L IH]; intros k O Hk; [cbn in Hk; lia|]. destruct k as [|k]; cbn [replace_nth before nth_error].
  - destruct L as [|q L]; [split; [intros _; split; [discriminate|intros q Q; discriminate]|constructor]|]. assert (O' := ordered_tl O). split.
    + intros H. inversion H; subst. split; [discriminate|]. intros x [= <-]. assumption.
    + intros [_ H]. constructor; [now apply H|exact O'].
  - assert (O' := ordered_tl O). cbn in Hk. assert (Hk' : k < List.length L) by lia. specialize (IH k O' Hk'). destruct L as [|b L]; [cbn in Hk; lia|]. destruct k as [|k]; cbn [replace_nth before nth_error] in *.
    + split.
      * intros H. inversion H; subst. apply IH in H4 as [_ H4]. split; [intros p [= <-]; assumption|exact H4].
      * intros [H1 H2]. constructor; [now apply H1|]. apply IH. split; [discriminate|exact H2].
    + split.
      * intros H. inversion H; subst. apply IH in H4. exact H4.
      * intros H. apply IH in H. inversion O; subst. constructor; auto.
Qed.
Theorem assigned_order h (s : rsys) k l a r' : ordered (rings_of h s) -> NoDup (s_rings s) -> nth_error (s_rings s) k = Some l -> l < List.length h -> set_ring (deref h l) a = (r', Ok tt) ->
  (ordered (rings_of (fst (do_act (h, s) (Assign l a))) s) <->
   (forall p, before k (rings_of h s) = Some p -> xle (val (r_out p)) (val (r_in r'))) /\ (forall q, nth_error (rings_of h s) (S k) = Some q -> xle (val (r_out r')) (val (r_in q)))).
Proof.
  intros O ND Nk L E. cbn [do_act fst]. rewrite E. cbn [fst].
  assert (Q : rings_of (replace_nth l r' h) s = replace_nth k r' (rings_of h s)).
  { unfold rings_of. clear O. revert k Nk. induction (s_rings s) as [|m ls IH]; intros [|k] Nk; cbn in Nk; try discriminate; cbn [map replace_nth]; inversion ND; subst.
    - injection Nk as ->. f_equal; [rewrite deref_replace, Nat.eqb_refl by exact L; reflexivity|]. apply map_ext_in. intros q Hq. rewrite deref_replace by exact L. destruct (Nat.eqb_spec l q) as [->|]; [contradiction|reflexivity].
    - f_equal; [|now apply IH]. rewrite deref_replace by exact L. destruct (Nat.eqb_spec l m) as [->|]; [|reflexivity]. apply nth_error_In in Nk. contradiction. }
  rewrite Q. apply ordered_replace; auto. unfold rings_of. rewrite map_length. apply nth_error_Some. congruence.
Qed.

(** *** split and merge make new rings in the plane of the system *)
Lemma alloc_plane h rs (s : rsys) : Forall (fun r => ring_inv r /\ r_inc r = s_inc s /\ r_tilt r = s_tilt s) rs -> one_plane (h ++ rs) (with_rings s (seq (List.length h) (List.length rs))).
Proof.
  intros F l Hl. cbn [with_rings s_rings s_inc s_tilt] in *. apply in_seq in Hl. unfold deref. rewrite app_nth2 by lia. rewrite Forall_forall in F. destruct (F (nth (l - List.length h) rs (dead_ring (T := T)))) as (_ & H); [apply nth_In; lia|exact H].
Qed.
Theorem split_plane h (s : rsys) nd h' s' : split_rings h s nd = (h', s', Ok tt) -> one_plane h' s'.
Proof.
  unfold split_rings. destruct (divisions s nd) as [ds|]; cbn [bind]; [|discriminate]. destruct (make_rings _ _ _) as [rs|] eqn:E; [|discriminate]. cbn [alloc]. intros [= <- <-]. apply alloc_plane. exact (make_rings_inv _ _ _ E).
Qed.
Theorem merge_plane h (s : rsys) tol h' s' : merge_rings h s tol = (h', s', Ok tt) -> one_plane h' s'.
Proof.
  unfold merge_rings. destruct (rings_of h s) as [|r0 l]; [discriminate|]. destruct (make_rings _ _ _) as [rs|] eqn:E; [|discriminate]. cbn [alloc]. intros [= <- <-]. apply alloc_plane. exact (make_rings_inv _ _ _ E).
Qed.
End P.

(** *** witnesses *)
Lemma order_refuted : ~ (forall (st : list (ring f64) * rsys f64) l, hist_inv st -> acts_ok act_valid st l -> ordered (rings_of (fst (do_acts st l)) (snd (do_acts st l)))).
Proof.
  intros H. specialize (H (ex_heap, ex_sys) [Assign 0 (SetOuter (PInt 3))] ex_hist). assert (V : acts_ok act_valid (ex_heap, ex_sys) [Assign 0 (SetOuter (PInt 3))]) by (cbn; lia). specialize (H V).
  assert (X : forall l : list (ring f64), ordered l -> match l with a :: b :: _ => n_le (r_out a) (r_in b) | _ => true end = true) by (intros l O; destruct O; auto; now apply nle_iff).
  apply X in H. vm_compute in H. discriminate.
Qed.
Lemma plane_refuted : ~ (forall h (s : rsys f64) l a r', one_plane h s -> set_ring (deref h l) a = (r', Ok tt) -> one_plane (replace_nth l r' h) s).
Proof.
  intros H. pose (r := mkRing (fz 1) (fz 2) (fz 1) (fz 10) (fz 20)). pose (s := mkSys (fz 1) (fz 10) (fz 20) [0]).
  assert (P : one_plane [r] s) by (intros l [<-|[]]; split; reflexivity).
  destruct (set_ring r (SetInc (PInt 30))) as [r' e] eqn:E. assert (Ee : e = Ok tt) by (assert (X : snd (set_ring r (SetInc (PInt 30))) = Ok tt) by (vm_compute; reflexivity); rewrite E in X; exact X). subst e.
  destruct (H [r] s 0 (SetInc (PInt 30)) r' P E 0 (or_introl eq_refl)) as [Q _]. cbn [replace_nth deref nth s_inc] in Q.
  assert (X : n_eq (r_inc (fst (set_ring r (SetInc (PInt 30))))) (fz 10) = false) by (vm_compute; reflexivity). rewrite E in X. cbn [fst] in X. unfold deref in Q. cbn [nth] in Q. rewrite Q in X. revert X. vm_compute. discriminate.
Qed.
Lemma assign_ex : hist_inv (ex_heap, ex_sys) /\ acts_ok (fun h a => act_valid h a /\ act_narrows h a) (ex_heap, ex_sys) [Assign 1 (SetInner (PInt 3)); Call (OpRemove (PInt 2)); Assign 1 (SetTr (PInt 0))].
Proof.
  split; [exact ex_hist|]. split; [split; [cbn; lia|]|split; [split; [split; exact I|exact I]|split; [split; [cbn; lia|]|exact I]]].
  - split; apply nle_iff; vm_compute; reflexivity.
  - split; apply nle_iff; vm_compute; reflexivity.
Qed.
Lemma made_ex : exists r, new_ring (T := f64) (PInt 1) (PInt 2) (PInt 1) (PInt 0) (PInt 0) = Ok r /\
  acts_ok act_named ([r], mkSys (fz 1) (fz 10) (fz 20) [0]) [Assign 0 (SetOuter (PInt 5)); Assign 0 (SetInner (PInt 3)); Call (OpSplit (PInt 2))].
Proof.
  destruct (new_ring (T := f64) (PInt 1) (PInt 2) (PInt 1) (PInt 0) (PInt 0)) as [r|] eqn:E.
  - exists r. split; [reflexivity|]. cbn [acts_ok act_named op_valid_obj do_act fst replace_nth List.length]. auto.
  - assert (X : is_ok (new_ring (T := f64) (PInt 1) (PInt 2) (PInt 1) (PInt 0) (PInt 0)) = true) by (vm_compute; reflexivity). rewrite E in X. discriminate.
Qed.
