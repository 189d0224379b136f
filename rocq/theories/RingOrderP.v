(** Proofs about RingSystem.py: ordering over histories, merge_rings. *)
From Coq Require Import ZArith Reals List Bool String Lra Lia.
From Verif Require Import Num NumP Py Validate SpecNum ValidateP Ring RingSystem SpecRing RingP RingSystemP.
Import ListNotations.
Set Implicit Arguments.

Section P.
Context {T : Type} {NT : Num T} {LT : NumLaws T}.
Notation pyval := (pyval T).
Notation ring := (ring T).
Notation rsys := (rsys T).

(** ** the ordering on radii only *)
Definition same_radii (a b : ring) : Prop := r_in a = r_in b /\ r_out a = r_out b.

Lemma ordered_ext l l' : Forall2 same_radii l l' -> ordered l -> ordered l'.
Proof.
  intros H; revert l' H. induction l as [|a l IH]; intros l' H Ho; inversion H; subst; [constructor|].
  destruct l as [|b l]; inversion H4; subst; [constructor|].
  inversion Ho; subst. constructor; auto. destruct H2 as [E1 E2], H3 as [E3 E4]. congruence.
Qed.

Lemma ordered_tl r l : ordered (r :: l) -> ordered l.
Proof. inversion 1; subst; auto; constructor. Qed.

Lemma ordered_app_inv l1 l2 : ordered (l1 ++ l2) -> ordered l1 /\ ordered l2.
Proof.
  induction l1 as [|a l1 IH]; cbn; intros H; [split; auto; constructor|].
  destruct l1 as [|b l1].
  - split; [constructor|]. now apply ordered_tl in H.
  - cbn in *. inversion H; subst. destruct (IH H4). split; auto. constructor; auto.
Qed.

(** joining ordered lists *)
Lemma ordered_app l1 l2 : ordered l1 -> ordered l2 ->
  (forall a b, nth_error l1 (pred (List.length l1)) = Some a -> nth_error l2 0 = Some b -> xle (val (r_out a)) (val (r_in b))) ->
  ordered (l1 ++ l2).
Proof.
  induction l1 as [|a l1 IH]; intros H1 H2 H; auto.
  destruct l1 as [|b l1].
  - destruct l2 as [|c l2]; cbn; [constructor|]. constructor; [apply H; reflexivity|auto].
  - cbn. inversion H1; subst. constructor; [auto|apply IH; auto].
Qed.

Lemma last_firstn A k (l : list A) : k <= List.length l ->
  nth_error (firstn k l) (pred (List.length (firstn k l))) = before k l.
Proof.
  intros H. rewrite firstn_length_le by assumption. destruct k as [|k]; cbn [before pred]; [destruct l; reflexivity|].
  revert l H. induction k as [|k IH]; intros [|a l] H; cbn in *; try lia; auto.
  specialize (IH l). destruct l as [|b l]; cbn in *; [lia|]. apply IH. lia.
Qed.
Lemma first_skipn A k (l : list A) : nth_error (skipn k l) 0 = nth_error l k.
Proof. revert l; induction k as [|k IH]; intros [|a l]; try reflexivity. exact (IH l). Qed.

Lemma before_remove A k (l m : list A) : k <= List.length l -> before k (firstn k l ++ m) = before k l.
Proof.
  destruct k as [|k]; cbn [before]; auto. revert l. induction k as [|k IH]; intros [|a l] H; cbn in *; try lia; auto.
  apply IH. lia.
Qed.

Lemma ordered_insert k r (l : list ring) : ordered l -> k <= List.length l ->
  (forall p, before k l = Some p -> xle (val (r_out p)) (val (r_in r))) ->
  (forall q, nth_error l k = Some q -> xle (val (r_out r)) (val (r_in q))) ->
  ordered (firstn k l ++ r :: skipn k l).
Proof.
  intros Ho Hk H1 H2. rewrite <- (firstn_skipn k l) in Ho. apply ordered_app_inv in Ho. destruct Ho as [Ha Hb].
  apply ordered_app; auto.
  - destruct (skipn k l) as [|q m] eqn:E; [constructor|]. constructor; auto. apply H2.
    rewrite <- first_skipn, E. reflexivity.
  - rewrite last_firstn by assumption. intros a b Hp Hb'. inversion Hb'; subst. auto.
Qed.

(** removal needs transitivity through the removed ring *)
Lemma ordered_skip r s l : xlt (val (r_in r)) (val (r_out r)) -> ordered (s :: r :: l) -> ordered (s :: l).
Proof.
  intros Hr H. inversion H; subst. destruct l as [|q l]; [constructor|].
  inversion H4; subst. constructor; auto. eapply xle_trans; [eauto|]. eapply xle_trans; [apply xlt_xle; eauto|auto].
Qed.

Lemma ordered_remove k (l : list ring) : ordered l -> (forall r, In r l -> xlt (val (r_in r)) (val (r_out r))) ->
  ordered (firstn k l ++ skipn (S k) l).
Proof.
  revert l. induction k as [|k IH]; intros [|a l] Ho Hg; cbn [firstn skipn app]; auto.
  - now apply ordered_tl in Ho.
  - assert (Hl : ordered (firstn k l ++ skipn (S k) l)).
    { apply IH; [now apply ordered_tl in Ho|]. intros; apply Hg; now right. }
    change (ordered (a :: (firstn k l ++ skipn (S k) l))).
    destruct k as [|k].
    + cbn. destruct l as [|b l]; [constructor|]. cbn. eapply ordered_skip; eauto. apply Hg. right; now left.
    + destruct l as [|b l]; cbn in *; [constructor|]. inversion Ho; subst. constructor; auto.
Qed.

Lemma firstn_skipn_In A k (l : list A) x : In x (firstn k l ++ skipn (S k) l) -> In x l.
Proof.
  rewrite in_app_iff. intros [H|H].
  - rewrite <- (firstn_skipn k l), in_app_iff; auto.
  - rewrite <- (firstn_skipn (S k) l), in_app_iff; auto.
Qed.

(** fits, for rings without NaN radii, is the order *)
Lemma fits_le prev next (r : ring) : good_radii r ->
  (forall p, prev = Some p -> good_radii p) -> (forall q, next = Some q -> good_radii q) -> fits prev next r ->
  (forall p, prev = Some p -> xle (val (r_out p)) (val (r_in r))) /\
  (forall q, next = Some q -> xle (val (r_out r)) (val (r_in q))).
Proof.
  intros (G1 & G2 & G3) Hp Hq [F1 F2]. destruct (xlt_nan G2). split.
  - intros p E. specialize (F1 p E). destruct (Hp p E) as (P1 & P2 & P3). destruct (xlt_nan P2). apply not_xlt; auto.
  - intros q E. specialize (F2 q E). destruct (Hq q E) as (P1 & P2 & P3). destruct (xlt_nan P2). apply not_xlt; auto.
Qed.

(** ** merge_rings *)
Definition tr_in (x : T * T * T) := fst (fst x).
Definition tr_out (x : T * T * T) := snd (fst x).

Lemma merge_loop_head tol rs i o t : exists o' l, merge_loop tol rs i o t = (i, o', t) :: l.
Proof.
  revert o. induction rs as [|r rs IH]; intros o; cbn; eauto.
  destruct (_ && _); eauto.
Qed.

Definition chain (o : T) (rs : list ring) : Prop :=
  ordered rs /\ (forall r, In r rs -> good_ring r) /\
  match rs with [] => True | r :: _ => xle (val o) (val (r_in r)) end.

Lemma chain_cons o r rs : chain o (r :: rs) -> xle (val o) (val (r_in r)) /\ good_ring r /\ chain (r_out r) rs.
Proof.
  intros (Ho & Hg & Hc). split; auto. split; [apply Hg; now left|]. split; [now apply ordered_tl in Ho|].
  split; [intros; apply Hg; now right|]. destruct rs; auto. inversion Ho; auto.
Qed.

Lemma merge_loop_good inc tilt tol rs : forall i o t, chain o rs -> good_ring (mkRing i o t inc tilt) ->
  (forall x, In x (merge_loop tol rs i o t) -> good_ring (triple_ring inc tilt x)) /\
  ordered (map (triple_ring inc tilt) (merge_loop tol rs i o t)).
Proof.
  induction rs as [|r rs IH]; intros i o t Hc Hg; cbn.
  - split; [|constructor]. intros x [<-|[]]. exact Hg.
  - apply chain_cons in Hc. destruct Hc as (Hle & Hr & Hc).
    destruct (n_lt _ _ && n_eq _ _).
    + apply IH; auto. destruct Hg as ((H0 & H1 & H2) & Ht). destruct Hr as ((R0 & R1 & R2) & _). cbn in *.
      split; [|auto]. split; [auto|]. split; [|exact R2]. cbn.
      eapply xlt_trans; [eapply xlt_le_trans; [exact H1|exact Hle]|exact R1].
    + destruct (IH (r_in r) (r_out r) (r_tr r) Hc) as [I1 I2]; [exact Hr|].
      split.
      * intros x [<-|Hx]; auto.
      * cbn. destruct (merge_loop_head tol rs (r_in r) (r_out r) (r_tr r)) as (o' & l & E).
        rewrite E in *. cbn in *. constructor; auto.
Qed.

(** first step of merge_rings on a good ring *)
Lemma merge_first tol (r : ring) rs : good_ring r ->
  xlt (XFin 0) (val tol) -> not_nan (r_tr r) ->
  merge_loop tol (r :: rs) (r_in r) (r_in r) (r_tr r) = merge_loop tol rs (r_in r) (r_out r) (r_tr r).
Proof.
  intros ((H0 & H1 & H2) & _) Ht Hn. cbn.
  assert (exists x, val (r_in r) = XFin x) as [x Hx].
  { assert (H3 := xlt_trans _ _ _ H1 H2). destruct (val (r_in r)); cbn in *; try tauto. eauto. }
  assert (n_lt (n_abs (r_in r - r_in r)%num) tol = true) as ->.
  { apply nlt_iff. rewrite l_abs, (l_sub_self _ Hx). cbn [x_abs]. rewrite Rabs_R0. exact Ht. }
  assert (n_eq (r_tr r) (r_tr r) = true) as ->.
  { apply neq_iff. split; auto. }
  reflexivity.
Qed.
Lemma merge_first_fail inc tilt tol (r : ring) rs : good_ring r ->
  ~ (xlt (XFin 0) (val tol) /\ not_nan (r_tr r)) ->
  make_rings inc tilt (merge_loop tol (r :: rs) (r_in r) (r_in r) (r_tr r)) = Err ValueError.
Proof.
  intros ((H0 & H1 & H2) & _) Hf. cbn [merge_loop].
  assert (n_lt (n_abs (r_in r - r_in r)%num) tol && n_eq (r_tr r) (r_tr r) = false) as ->.
  { destruct (n_lt _ _) eqn:E1; auto. destruct (n_eq _ _) eqn:E2; auto. exfalso. apply Hf.
    apply nlt_iff in E1. apply neq_iff in E2. split; [|apply E2].
    rewrite l_abs in E1. eapply xle_lt_trans; [|exact E1].
    destruct (val (n_sub _ _)); cbn in *; try tauto; try (left; exact I); try contradiction.
    destruct (Rle_lt_or_eq_dec 0 (Rabs r0) (Rabs_pos r0)) as [H|H]; [left; exact H|right; split; congruence]. }
  cbn [make_rings].
  assert (H3 := xlt_trans _ _ _ H1 H2).
  unfold new_ring. rewrite check_inner_np by assumption. cbn [bind].
  assert (check_outer (r_in r) (PNpFloat (r_in r)) = Err ValueError) as ->; [|reflexivity].
  unfold check_outer. unfold number. cbn [number_type integer_type float_type]. cbn [bind].
  unfold p_inf. rewrite number_bounds_eq by (right; constructor).
  change (v_cmp (s_lt (T:=T)) (PFloat n_inf) (PFloat (r_in r))) with (n_lt n_inf (r_in r)).
  destruct (n_lt n_inf (r_in r)); [reflexivity|].
  unfold rejected. rewrite v_cmp_le_f by (right; constructor).
  change (num_of (PNpFloat (r_in r))) with (r_in r).
  assert (n_le (r_in r) (r_in r) = true) as ->; [|reflexivity].
  apply nle_iff. apply xle_refl. apply (xlt_nan H1).
Qed.

Lemma good_sys_rings h s r : good_sys h s -> In r (rings_of h s) -> good_ring r.
Proof. intros (_ & _ & H) Hr. unfold rings_of in Hr. apply in_map_iff in Hr. destruct Hr as (l & <- & Hl). auto. Qed.

Lemma deref_app_old h l' l : l < List.length h -> @deref T _ (h ++ l') l = deref h l.
Proof. intros. unfold deref. now apply app_nth1. Qed.
Lemma map_deref_new (h rs : list ring) : map (deref (h ++ rs)) (seq (List.length h) (List.length rs)) = rs.
Proof.
  revert h. induction rs as [|r rs IH]; intros h; cbn; auto. f_equal.
  - unfold deref. rewrite app_nth2 by lia. rewrite Nat.sub_diag. reflexivity.
  - specialize (IH (h ++ [r])). rewrite <- app_assoc in IH. cbn in IH.
    rewrite app_length in IH. cbn in IH. rewrite Nat.add_1_r in IH. exact IH.
Qed.

(** merge_rings on a system of good, ordered rings *)
Theorem merge_success h s tol r0 rs : good_sys h s -> ordered (rings_of h s) -> rings_of h s = r0 :: rs ->
  xlt (XFin 0) (val tol) -> not_nan (r_tr r0) ->
  let out := map (triple_ring (s_inc s) (s_tilt s)) (merge_loop tol rs (r_in r0) (r_out r0) (r_tr r0)) in
  exists ls, merge_rings h s tol = (h ++ out, with_rings s ls, Ok tt) /\
    rings_of (h ++ out) (with_rings s ls) = out /\ ordered out /\ (forall r, In r out -> good_ring r) /\
    ls = seq (List.length h) (List.length out).
Proof.
  intros Hs Ho E Ht Hn out.
  assert (Hg : forall r, In r (rings_of h s) -> good_ring r) by (intros; eapply good_sys_rings; eauto).
  rewrite E in *.
  assert (Hr0 : good_ring r0) by (apply Hg; now left).
  assert (Hc : chain (r_out r0) rs).
  { split; [now apply ordered_tl in Ho|]. split; [intros; apply Hg; now right|]. destruct rs; auto. inversion Ho; auto. }
  destruct (@merge_loop_good (s_inc s) (s_tilt s) tol rs (r_in r0) (r_out r0) (r_tr r0) Hc) as [G1 G2].
  { destruct Hr0 as [? ?]. split; auto. }
  exists (seq (List.length h) (List.length out)). split; [|split; [|split; [|split]]]; auto.
  - unfold merge_rings. rewrite E. rewrite merge_first by assumption.
    destruct Hs as ([Hi Htl] & _ & _). rewrite make_rings_ok; auto. 
  - unfold rings_of. cbn. apply map_deref_new.
  - intros r Hr. apply in_map_iff in Hr. destruct Hr as (x & <- & Hx). auto.
Qed.

Theorem merge_bad_tolerance h s tol : good_sys h s -> ~ xlt (XFin 0) (val tol) ->
  merge_rings h s tol = (h, s, Err (match s_rings s with [] => IndexError | _ => ValueError end)).
Proof.
  intros Hs Ht. unfold merge_rings. destruct (rings_of h s) as [|r rs] eqn:E.
  - unfold rings_of in E. destruct (s_rings s); [reflexivity|discriminate].
  - rewrite merge_first_fail; [|eapply good_sys_rings; eauto; rewrite E; now left|tauto].
    unfold rings_of in E. destruct (s_rings s); [discriminate|reflexivity].
Qed.

(** every merge outcome on good ordered rings *)
Lemma merge_outcome h s tol h' s' : good_sys h s -> ordered (rings_of h s) ->
  merge_rings h s tol = (h', s', Ok tt) ->
  exists r0 rs out, rings_of h s = r0 :: rs /\ xlt (XFin 0) (val tol) /\ not_nan (r_tr r0) /\
   out = map (triple_ring (s_inc s) (s_tilt s)) (merge_loop tol rs (r_in r0) (r_out r0) (r_tr r0)) /\
   h' = h ++ out /\ s' = with_rings s (seq (List.length h) (List.length out)) /\
   rings_of h' s' = out /\ ordered out /\ (forall r, In r out -> good_ring r).
Proof.
  intros Hs Ho H. destruct (rings_of h s) as [|r0 rs] eqn:E.
  - unfold merge_rings in H. rewrite E in H. discriminate.
  - assert (Hr0 : good_ring r0) by (eapply good_sys_rings; eauto; rewrite E; now left).
    destruct (n_lt n_zero tol && negb (n_isnan (r_tr r0))) eqn:Ec.
    + apply andb_prop in Ec. destruct Ec as [E1 E2]. apply nlt_iff in E1. rewrite val_zero in E1.
      assert (N : not_nan (r_tr r0)). { unfold not_nan. rewrite l_isnan in E2. destruct (val (r_tr r0)); cbn in E2; congruence. }
      exists r0, rs. rewrite <- E in Ho.
      destruct (@merge_success h s tol r0 rs Hs Ho E E1 N) as (ls & M1 & M2 & M3 & M4 & M5).
      rewrite M1 in H. inversion H; subst. eexists. split; [reflexivity|]. split; [auto|]. split; [auto|].
      split; [reflexivity|]. split; auto.
    + exfalso. unfold merge_rings in H. rewrite E in H. rewrite merge_first_fail in H; auto; [discriminate|].
      intros [A B]. rewrite <- val_zero in A. apply nlt_iff in A. rewrite A in Ec. cbn in Ec.
      unfold not_nan in B. rewrite l_isnan in Ec. destruct (val (r_tr r0)); cbn in Ec; congruence.
Qed.

(** ** histories *)
Lemma deref_In h l : l < List.length h -> In (@deref T _ h l) h.
Proof. intros. unfold deref. now apply nth_In. Qed.

Lemma hist_good h s : hist_inv (h, s) -> good_sys h s.
Proof.
  intros (Hg & Hw & Hr & Ho). split; auto. split; auto. intros l Hl. apply Hr, deref_In, Hw, Hl.
Qed.

Lemma regeo_good s r : good_ring r -> good_ring (regeo s r).
Proof. intros [[? ?] ?]; split; cbn; auto. split; auto. Qed.

Lemma In_replace_nth A n (x : A) l y : In y (replace_nth n x l) -> y = x \/ In y l.
Proof. revert n; induction l as [|a l IH]; intros [|n]; cbn; intuition. destruct (IH _ H0); auto. Qed.

Lemma rings_regeo_radii h s0 (l : nat) (ls : list nat) : l < List.length h ->
  Forall2 same_radii (map (deref h) ls) (map (deref (replace_nth l (regeo s0 (deref h l)) h)) ls).
Proof.
  intros Hl. induction ls as [|m ls IH]; cbn; constructor; auto.
  rewrite deref_override by assumption. destruct (Nat.eqb_spec m l) as [->|]; split; reflexivity.
Qed.

Lemma firstn_map A B (f : A -> B) k l : firstn k (map f l) = map f (firstn k l).
Proof. revert l; induction k; intros [|a l]; cbn; auto. f_equal; auto. Qed.
Lemma skipn_map A B (f : A -> B) k l : skipn k (map f l) = map f (skipn k l).
Proof. revert l; induction k; intros [|a l]; cbn; auto. Qed.

Lemma before_In A k (l : list A) x : before k l = Some x -> In x l.
Proof. destruct k; cbn; [discriminate|]. apply nth_error_In. Qed.

Lemma hist_step_add st i r : hist_inv st -> op_valid (fst st) (OpAdd i r) -> hist_inv (fst (do_op st (OpAdd i r))).
Proof.
  destruct st as [h s]. intros HI Hv. pose proof HI as (Hg & Hw & Hr & Ho). cbn [fst snd] in *.
  assert (Hl : forall c l, r = PObj c l -> l < List.length h) by (intros c l ->; exact Hv).
  cbn [do_op]. destruct (add_ring h s i r) as [[h' s'] [[]|e]] eqn:E; cbn [fst].
  2:{ apply add_ring_err in E; auto. destruct E as [-> ->]. exact HI. }
  apply add_ring_iff in E; auto. destruct E as (l & -> & Hi & Hrg & Hf & -> & ->). set (k := Z.to_nat (int_of i)) in *.
  assert (Hll : l < List.length h) by (eapply Hl; eauto).
  assert (Hk : k <= List.length (s_rings s)) by (unfold num_rings in Hrg; lia).
  pose proof (hist_good HI) as HG.
  split; [exact Hg|]. cbn [fst snd]. split; [|split].
  - intros m Hm. cbn in Hm. rewrite length_replace_nth. apply in_app_iff in Hm. destruct Hm as [Hm|[->|Hm]]; auto;
     apply Hw; rewrite <- (firstn_skipn k (s_rings s)), in_app_iff; auto.
  - intros q Hq. apply In_replace_nth in Hq. destruct Hq as [->|Hq]; auto. apply regeo_good. apply Hr, deref_In; auto.
  - eapply ordered_ext; [apply rings_regeo_radii; auto|]. cbn. rewrite map_app. cbn [map].
    rewrite <- firstn_map, <- skipn_map.
    apply fits_le in Hf; try (intros p Hp; eapply good_sys_rings; eauto).
    + destruct Hf. apply ordered_insert; auto. rewrite map_length; auto.
    + apply Hr, deref_In; auto.
    + apply before_In in Hp; auto.
    + eapply nth_error_In; eauto.
Qed.

Lemma hist_step_remove st i : hist_inv st -> hist_inv (fst (do_op st (OpRemove i))).
Proof.
  destruct st as [h s]. intros HI. pose proof HI as (Hg & Hw & Hr & Ho). cbn [fst snd] in *.
  cbn [do_op]. destruct (remove_ring h s i) as [[h' s'] [[]|e]] eqn:E; cbn [fst].
  2:{ apply remove_ring_err in E. destruct E as [-> ->]. exact HI. }
  apply remove_ring_iff in E. destruct E as (Hi & Hrg & -> & ->). set (k := Z.to_nat (int_of i)) in *.
  split; [exact Hg|]. cbn [fst snd]. split; [|split]; auto.
  - intros m Hm. apply Hw. cbn in Hm. now apply firstn_skipn_In in Hm.
  - unfold rings_of. cbn. rewrite map_app, <- firstn_map. 
    change (match s_rings s with | [] => [] | _ :: l => skipn k l end) with (skipn (S k) (s_rings s)).
    rewrite <- skipn_map. apply ordered_remove; auto.
    intros q Hq. apply (good_sys_rings _ (hist_good HI) Hq).
Qed.

Lemma hist_step_replace st i r : hist_inv st -> op_valid (fst st) (OpReplace i r) -> hist_inv (fst (do_op st (OpReplace i r))).
Proof.
  destruct st as [h s]. intros HI Hv. pose proof HI as (Hg & Hw & Hr & Ho). cbn [fst snd] in *.
  assert (Hl : forall c l, r = PObj c l -> l < List.length h) by (intros c l ->; exact Hv).
  cbn [do_op]. destruct (replace_ring h s i r) as [[h' s'] [[]|e]] eqn:E; cbn [fst].
  2:{ apply replace_ring_err in E; auto. destruct E as [-> ->]. exact HI. }
  apply replace_ring_iff in E; auto. destruct E as (l & -> & Hi & Hrg & Hf & -> & ->). set (k := Z.to_nat (int_of i)) in *.
  assert (Hll : l < List.length h) by (eapply Hl; eauto).
  assert (Hk : k < List.length (s_rings s)) by (unfold num_rings in Hrg; lia).
  pose proof (hist_good HI) as HG.
  split; [exact Hg|]. cbn [fst snd]. split; [|split].
  - intros m Hm. cbn [s_rings with_rings] in Hm. rewrite length_replace_nth. apply in_app_iff in Hm. destruct Hm as [Hm|[->|Hm]]; auto;
     apply Hw; apply (firstn_skipn_In k); rewrite in_app_iff; auto.
  - intros q Hq. apply In_replace_nth in Hq. destruct Hq as [->|Hq]; auto. apply regeo_good. apply Hr, deref_In; auto.
  - eapply ordered_ext; [apply rings_regeo_radii; auto|]. cbn [s_rings with_rings]. rewrite map_app. cbn [map].
    rewrite <- firstn_map, <- skipn_map.
    apply fits_le in Hf; try (intros p Hp; eapply good_sys_rings; eauto).
    + destruct Hf as [F1 F2]. change (map (deref h) (s_rings s)) with (rings_of h s) in *.
      assert (Hk' : k < List.length (rings_of h s)) by (unfold rings_of; rewrite map_length; auto).
      assert (Q : firstn k (firstn k (rings_of h s) ++ skipn (S k) (rings_of h s)) = firstn k (rings_of h s)).
      { rewrite firstn_app, firstn_firstn, firstn_length_le by lia. rewrite Nat.min_id, Nat.sub_diag. cbn. now rewrite app_nil_r. }
      assert (Q2 : skipn k (firstn k (rings_of h s) ++ skipn (S k) (rings_of h s)) = skipn (S k) (rings_of h s)).
      { rewrite skipn_app, firstn_length_le by lia. rewrite Nat.sub_diag.
        rewrite (@skipn_all2 _ k (firstn k (rings_of h s))) by (rewrite firstn_length_le; lia). reflexivity. }
      rewrite <- Q at 1. rewrite <- Q2 at 2. apply ordered_insert.
      * apply ordered_remove; auto. intros q Hq. apply (good_sys_rings _ HG Hq).
      * rewrite app_length, firstn_length_le by lia. lia.
      * intros p Hp. apply F1. rewrite <- Hp. symmetry. apply before_remove. lia.
      * intros q Hq. apply F2. rewrite <- first_skipn, Q2, first_skipn in Hq. exact Hq.
    + apply Hr, deref_In; auto.
    + apply before_In in Hp; auto.
    + eapply nth_error_In; eauto.
Qed.

Lemma hist_step_merge st tol : hist_inv st -> hist_inv (fst (do_op st (OpMerge tol))).
Proof.
  destruct st as [h s]. intros HI. pose proof HI as (Hg & Hw & Hr & Ho). cbn [fst snd] in *.
  cbn [do_op]. destruct (merge_rings h s tol) as [[h' s'] [[]|e]] eqn:E; cbn [fst].
  2:{ apply merge_rings_err in E. destruct E as [-> ->]. exact HI. }
  apply merge_outcome in E; auto using hist_good.
  destruct E as (r0 & rs & out & E & Ht & Hn & -> & -> & -> & R & O & G).
  split; [exact Hg|]. cbn [fst snd]. split; [|split].
  - intros m Hm. cbn in Hm. apply in_seq in Hm. rewrite app_length. lia.
  - intros q Hq. apply in_app_iff in Hq. destruct Hq; auto.
  - rewrite R. exact O.
Qed.

Lemma hist_step_new st i o t inc tilt : hist_inv st -> op_valid (fst st) (OpNew i o t inc tilt) ->
  hist_inv (fst (do_op st (OpNew i o t inc tilt))).
Proof.
  destruct st as [h s]. intros HI Hv. pose proof HI as (Hg & Hw & Hr & Ho). cbn [fst snd] in *.
  cbn [do_op]. destruct (new_ring i o t inc tilt) as [r|e] eqn:E; cbn [fst]; auto.
  specialize (Hv r E).
  split; [exact Hg|]. cbn [fst snd]. split; [|split].
  - intros m Hm. rewrite app_length. specialize (Hw m Hm). lia.
  - intros q Hq. apply in_app_iff in Hq. destruct Hq as [|[<-|[]]]; auto.
    apply new_ring_inv in E. apply ring_inv_ranges in E; auto. destruct E as (A & B & C & D & F & _).
    split; [split; auto|]. right; auto.
  - unfold rings_of. erewrite map_ext_in; [exact Ho|]. intros m Hm. apply deref_app_old, Hw, Hm.
Qed.

Theorem history_ordered l : forall st, hist_inv st -> ops_valid st l -> Forall no_split l -> hist_inv (do_ops st l).
Proof.
  induction l as [|o l IH]; intros st HI Hv Hn; cbn; auto.
  destruct Hv as [Hv1 Hv2]. inversion Hn; subst. apply IH; auto.
  destruct o; cbn in H1; try tauto.
  - now apply hist_step_new.
  - now apply hist_step_add.
  - now apply hist_step_remove.
  - now apply hist_step_replace.
  - now apply hist_step_merge.
Qed.
End P.
