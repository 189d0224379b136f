(** Several ring systems over shared ring objects (RingSystem._override_ring_geometry stores
    and mutates the caller's object). *)
From Coq Require Import ZArith Reals List Bool String Lra Lia.
From Verif Require Import Num NumP Py Validate SpecNum ValidateP Ring RingSystem SpecRing RingP RingSystemP RingOrderP RingMergeP RingSplitP.
Import ListNotations.
Set Implicit Arguments.

Section P.
Context {T : Type} {NT : Num T} {LT : NumLaws T}.
Notation ring := (ring T).
Notation rsys := (rsys T).

(** what one operation on system [s] does, seen from the outside *)
Definition touches (h h' : list ring) (s s' : rsys) (given : nat -> Prop) : Prop :=
  List.length h <= List.length h' /\ s_inc s' = s_inc s /\ s_tilt s' = s_tilt s /\
  (forall l, l < List.length h -> deref h' l = deref h l \/ (given l /\ r_inc (deref h' l) = s_inc s /\ r_tilt (deref h' l) = s_tilt s)) /\
  (forall l, In l (s_rings s') -> l < List.length h' /\
     (In l (s_rings s) \/ ((given l \/ List.length h <= l) /\ r_inc (deref h' l) = s_inc s /\ r_tilt (deref h' l) = s_tilt s))).

Lemma touches_refl h s given : sys_wf h s -> touches h h s s given.
Proof. intros Hw. split; [lia|]. repeat split; auto. Qed.

Lemma touches_edit h s l (ls : list nat) : l < List.length h -> sys_wf h s ->
  (forall m, In m ls -> m = l \/ In m (s_rings s)) ->
  touches h (replace_nth l (regeo s (deref h l)) h) s (with_rings s ls) (fun m => m = l).
Proof.
  intros Hl Hw Hin. split; [rewrite length_replace_nth; lia|]. split; auto. split; auto. split.
  - intros m Hm. rewrite deref_override by assumption. destruct (Nat.eqb_spec m l); auto.
  - intros m Hm. cbn in Hm. rewrite length_replace_nth. destruct (Hin m Hm) as [->|Hm'].
    + split; auto. right. split; auto. rewrite deref_override by assumption. rewrite Nat.eqb_refl. auto.
    + split; auto.
Qed.

Lemma touches_alloc h s (rs : list ring) given : sys_wf h s ->
  (forall r, In r rs -> r_inc r = s_inc s /\ r_tilt r = s_tilt s) ->
  touches h (h ++ rs) s (with_rings s (seq (List.length h) (List.length rs))) given.
Proof.
  intros Hw Hr. split; [rewrite app_length; lia|]. split; auto. split; auto. split.
  - intros m Hm. left. now apply deref_app_old.
  - intros m Hm. cbn in Hm. apply in_seq in Hm. rewrite app_length. split; [lia|]. right.
    split; [right; lia|]. apply Hr. unfold deref. rewrite app_nth2 by lia. apply nth_In. lia.
Qed.

Lemma make_rings_geo inc tilt : range_or_nan 0 90 inc -> range_or_nan (-180) 180 tilt -> forall l rs,
  make_rings inc tilt l = Ok rs -> forall r, In r rs -> r_inc r = inc /\ r_tilt r = tilt.
Proof.
  intros Hi Ht. induction l as [|[[i o] t] l IH]; intros rs H r Hr; cbn [make_rings] in H.
  - inversion H; subst. destruct Hr.
  - destruct (new_ring _ _ _ _ _) as [r0|] eqn:E; cbn [bind] in H; [|discriminate].
    destruct (make_rings inc tilt l) as [rs0|] eqn:E2; cbn [bind] in H; [|discriminate]. inversion H; subst.
    destruct Hr as [<-|Hr]; [|eauto].
    unfold new_ring in E. destruct (check_inner _ _); cbn [bind] in E; [|discriminate].
    destruct (check_outer _ _); cbn [bind] in E; [|discriminate]. destruct (check_tr _); cbn [bind] in E; [|discriminate].
    rewrite check_inc_np in E by auto. cbn [bind] in E. rewrite check_tilt_np in E by auto. cbn [bind] in E.
    inversion E; subst. auto.
Qed.

Lemma op_touches (h : list ring) s o h' s' e : geo_ok s -> sys_wf h s -> op_valid_obj h o -> (forall a b c d f, o <> OpNew a b c d f) ->
  do_op (h, s) o = (h', s', e) -> touches h h' s s' (op_gives o).
Proof.
  intros Hg Hw Hv Hnew H. destruct o; cbn [do_op] in H.
  - exfalso; eapply Hnew; eauto.
  - destruct e as [[]|e].
    + apply add_ring_iff in H; auto. 2:{ intros c l ->; exact Hv. }
      destruct H as (l & -> & _ & _ & _ & -> & ->). cbn in Hv. eapply touches_edit; auto.
      intros m Hm. apply in_app_iff in Hm. destruct Hm as [Hm|[->|Hm]]; auto; right;
        rewrite <- (firstn_skipn (Z.to_nat (int_of index)) (s_rings s)), in_app_iff; auto.
    + apply add_ring_err in H; auto. 2:{ intros c l ->; exact Hv. } destruct H as [-> ->]. now apply touches_refl.
  - destruct e as [[]|e].
    + apply remove_ring_iff in H. destruct H as (_ & _ & -> & ->). split; [lia|]. split; auto. split; auto. split; auto.
      intros m Hm. cbn [s_rings with_rings] in Hm. apply firstn_skipn_In in Hm. auto.
    + apply remove_ring_err in H. destruct H as [-> ->]. now apply touches_refl.
  - destruct e as [[]|e].
    + apply replace_ring_iff in H; auto. 2:{ intros c l ->; exact Hv. }
      destruct H as (l & -> & _ & _ & _ & -> & ->). cbn in Hv. eapply touches_edit; auto.
      intros m Hm. apply in_app_iff in Hm. destruct Hm as [Hm|[->|Hm]]; auto; right;
        apply (firstn_skipn_In (Z.to_nat (int_of index))); rewrite in_app_iff; auto.
    + apply replace_ring_err in H; auto. 2:{ intros c l ->; exact Hv. } destruct H as [-> ->]. now apply touches_refl.
  - destruct e as [[]|e].
    + unfold split_rings in H. destruct (bind _ _) as [rs|] eqn:E; [|discriminate]. cbn [alloc] in H. inversion H; subst.
      apply touches_alloc; auto. destruct (divisions s nd); cbn [bind] in E; [|discriminate].
      destruct Hg. eapply make_rings_geo; eauto.
    + apply split_rings_err in H. destruct H as [-> ->]. now apply touches_refl.
  - destruct e as [[]|e].
    + unfold merge_rings in H. destruct (rings_of h s); [discriminate|]. destruct (make_rings _ _ _) as [rs|] eqn:E; [|discriminate].
      cbn [alloc] in H. inversion H; subst.
      apply touches_alloc; auto. destruct Hg. eapply make_rings_geo; eauto.
    + apply merge_rings_err in H. destruct H as [-> ->]. now apply touches_refl.
Qed.

Lemma nth_error_replace A k (x : A) l m : nth_error (replace_nth k x l) m =
  if Nat.eqb m k then (if Nat.ltb k (List.length l) then Some x else None) else nth_error l m.
Proof.
  revert k m. induction l as [|a l IH]; intros [|k] [|m]; cbn; auto. 
  - destruct (Nat.eqb m k); auto.
  - rewrite IH. destruct (Nat.eqb m k); auto.
Qed.

Lemma world_step owner w k o : geometry_inv owner w -> wop_valid owner w (k, o) -> geometry_inv owner (do_wop w (k, o)).
Proof.
  destruct w as [h ss]. intros HI Hv.
  assert (New : forall r, geometry_inv owner (h ++ [r], ss)).
  { intros r j s Hj. cbn [fst snd] in *. destruct (HI j s Hj) as (A & B & C). split; auto. split.
    - intros l Hl. cbn [fst] in *. rewrite app_length. specialize (B l Hl). cbn in B. lia.
    - intros l Hl. rewrite deref_app_old by (apply B; auto). apply C; auto. }
  unfold do_wop. cbn [fst snd] in *.
  destruct (nth_error ss k) as [s|] eqn:Ek; [|exact HI].
  destruct (HI k s Ek) as (Hg & Hw & Hr). cbn [fst snd] in *.
  destruct Hv as (Hvo & Hgv & Hal). cbn [fst snd] in Hal.
  destruct (do_op (h, s) o) as [[h' s'] e] eqn:E. cbn [fst snd].
  assert (HT : (exists r, h' = h ++ [r] /\ s' = s) \/ (h' = h /\ s' = s) \/ touches h h' s s' (op_gives o)).
  { destruct o; try (right; right; eapply op_touches; eauto; congruence).
    cbn in E. destruct (new_ring _ _ _ _ _); inversion E; subst; [left; eauto|right; left; auto]. }
  destruct HT as [(r & -> & ->)|[[-> ->]|HT]].
  - intros j q Hj. cbn [fst snd] in *. rewrite nth_error_replace in Hj. destruct (Nat.eqb_spec j k) as [->|].
    + destruct (Nat.ltb k _); inversion Hj; subst. apply (New r k q Ek).
    + apply (New r j q Hj).
  - intros j q Hj. cbn [fst snd] in *. rewrite nth_error_replace in Hj. destruct (Nat.eqb_spec j k) as [->|].
    + destruct (Nat.ltb k _); inversion Hj; subst. apply (HI k q Ek).
    + apply (HI j q Hj).
  - destruct HT as (T1 & T2 & T3 & T4 & T5).
    assert (Hown : forall l, op_gives o l -> owner l = k) by (intros l Hl; apply Hgv; exact Hl).
    intros j q Hj. cbn [fst snd] in *. rewrite nth_error_replace in Hj. destruct (Nat.eqb_spec j k) as [->|Hjk].
    + destruct (Nat.ltb k _); inversion Hj; subst q. split; [|split].
      * unfold geo_ok. rewrite T2, T3. exact Hg.
      * intros l Hl. apply (T5 l Hl).
      * intros l Hl. rewrite T2, T3. destruct (T5 l Hl) as [L1 [L2|[[G|G] L2]]].
        -- destruct (Hr l L2) as (R1 & R2 & R3). split; auto. destruct (T4 l (Hw l L2)) as [->|(_ & X1 & X2)]; auto.
        -- split; auto.
        -- split; auto. apply (Hal s Ek l); auto. rewrite E. cbn. auto.
    + destruct (HI j q Hj) as (A & B & C). cbn [fst] in *. split; auto. split.
      * intros l Hl. specialize (B l Hl). cbn in B. lia.
      * intros l Hl. destruct (C l Hl) as (C1 & C2 & C3). split; auto. destruct (T4 l (B l Hl)) as [->|(G & _)]; auto.
        exfalso. apply Hjk. rewrite <- C1. apply Hown, G.
Qed.

Theorem world_geometry owner ops : forall w, geometry_inv owner w -> wops_valid owner w ops ->
  geometry_inv owner (do_wops w ops).
Proof.
  induction ops as [|[k o] ops IH]; intros w HI Hv; cbn; auto. destruct Hv as [Hv1 Hv2]. apply IH; auto. now apply world_step.
Qed.
End P.
