(** Proofs about RingSystem.py: merge_rings profile, split_rings, constructor, plot. *)
From Coq Require Import ZArith Reals List Bool String Lra Lia.
From Verif Require Import Num NumP Py Validate SpecNum ValidateP Ring RingSystem SpecRing RingP RingSystemP RingOrderP.
Import ListNotations.
Set Implicit Arguments.

Section P.
Context {T : Type} {NT : Num T} {LT : NumLaws T}.
Notation pyval := (pyval T).
Notation ring := (ring T).
Notation rsys := (rsys T).

Definition cov (x : T * T * T) (r : xr) : Prop := xle (val (fst (fst x))) r /\ xlt r (val (snd (fst x))).
Lemma cov_ring inc tilt x r : covers (triple_ring inc tilt x) r <-> cov x r.
Proof. reflexivity. Qed.

(** A. the running interval is covered by the first result *)
Lemma merge_cov_state tol rs : forall i o t x, chain o rs -> xlt (val i) (val o) ->
  xle (val i) x -> xlt x (val o) ->
  exists q, In q (merge_loop tol rs i o t) /\ cov q x /\ snd q = t.
Proof.
  induction rs as [|r rs IH]; intros i o t x Hc Hio H1 H2; cbn.
  - eexists; split; [now left|]. split; [split; auto|auto].
  - apply chain_cons in Hc. destruct Hc as (Hle & ((R0 & R1 & R2) & _) & Hc).
    destruct (_ && _).
    + apply IH; auto.
      * eapply xlt_trans; [eapply xlt_le_trans; eauto|auto].
      * eapply xlt_trans; [eapply xlt_le_trans; eauto|auto].
    + eexists; split; [now left|]. split; [split; auto|auto].
Qed.

(** B. every original radius keeps its transmission *)
Lemma merge_cov_keep tol rs : forall i o t x r, chain o rs -> xlt (val i) (val o) -> In r rs -> covers r x ->
  exists q, In q (merge_loop tol rs i o t) /\ cov q x /\ val (snd q) = val (r_tr r).
Proof.
  induction rs as [|r0 rs IH]; intros i o t x r Hc Hio Hin [C1 C2]; [destruct Hin|].
  apply chain_cons in Hc. destruct Hc as (Hle & ((R0 & R1 & R2) & _) & Hc). cbn.
  assert (Hio' : xlt (val i) (val (r_out r0))) by (eapply xlt_trans; [eapply xlt_le_trans; eauto|auto]).
  destruct (n_lt _ _ && n_eq _ _) eqn:E.
  - destruct Hin as [<-|Hin].
    + apply andb_prop in E. destruct E as [_ E]. apply neq_iff in E.
      destruct (@merge_cov_state tol rs i (r_out r0) t x) as (q & Q1 & Q2 & Q3); auto.
      { eapply xle_trans; [apply xlt_xle, Hio|]. eapply xle_trans; eauto. }
      exists q. split; auto. split; auto. rewrite Q3. symmetry; tauto.
    + apply (IH i (r_out r0) t x r); auto. split; auto.
  - destruct Hin as [<-|Hin].
    + destruct (@merge_cov_state tol rs (r_in r0) (r_out r0) (r_tr r0) x) as (q & Q1 & Q2 & Q3); auto.
      exists q. split; [now right|]. split; auto. now rewrite Q3.
    + destruct (IH (r_in r0) (r_out r0) (r_tr r0) x r) as (q & Q1 & Q2); auto; [split; auto|].
      exists q. split; [now right|]. auto.
Qed.

(** C. what a result ring covers *)
Lemma merge_cov_only tol rs : forall (p : ring) x q, chain (r_out p) rs -> xlt (val (r_in p)) (val (r_out p)) ->
  In q (merge_loop tol rs (r_in p) (r_out p) (r_tr p)) -> cov q x ->
  (exists r, In r (p :: rs) /\ covers r x /\ val (r_tr r) = val (snd q)) \/
  in_small_gap tol (p :: rs) x (val (snd q)).
Proof.
  induction rs as [|r rs IH]; intros p x q Hc Hio Hin [C1 C2]; cbn in Hin.
  - destruct Hin as [<-|[]]. left. exists p. split; [now left|]. split; [split; auto|auto].
  - apply chain_cons in Hc. destruct Hc as (Hle & ((R0 & R1 & R2) & _) & Hc).
    assert (Hio' : xlt (val (r_in p)) (val (r_out r))) by (eapply xlt_trans; [eapply xlt_le_trans; eauto|auto]).
    destruct (n_lt _ _ && n_eq _ _) eqn:E.
    + apply andb_prop in E. destruct E as [E1 E2]. apply neq_iff in E2. destruct E2 as [E2 _].
      set (p' := mkRing (r_in p) (r_out r) (r_tr p) (r_inc p) (r_tilt p)).
      destruct (IH p' x q) as [(r1 & I1 & [D1 D2] & D3)|G]; auto.
      * split; auto.
      * destruct I1 as [<-|I1].
        -- cbn in D1, D2, D3.
           assert (Nx : x <> XNaN) by (apply (xle_nan D1)).
           destruct (xlt_nan Hio) as [_ No]. destruct (xlt_nan R1) as [Ni _].
           destruct (xle_total No Nx) as [A|A].
           2:{ left. exists p. split; [now left|]. split; [split; auto|auto]. }
           destruct (xle_total Ni Nx) as [B|B].
           { left. exists r. split; [right; now left|]. split; [split; auto|congruence]. }
           right. exists [], p, r, rs. split; auto. split; auto. split; auto. split; auto. congruence.
        -- left. exists r1. split; [right; now right|]. split; [split; auto|auto].
      * right. destruct G as (l1 & a & b & l2 & El & G1 & G2 & G3 & G4). destruct l1 as [|a1 l1]; cbn in El; inversion El; subst.
        -- exists [p], r, b, l2. cbn in *. auto.
        -- exists (p :: r :: l1), a, b, l2. cbn. auto.
    + destruct Hin as [<-|Hin].
      * left. exists p. split; [now left|]. split; [split; auto|auto].
      * destruct (IH r x q) as [(r1 & I1 & D)|G]; auto.
        -- split; auto.
        -- left. exists r1. split; [now right|auto].
        -- right. destruct G as (l1 & a & b & l2 & El & G). exists (p :: l1), a, b, l2. rewrite El. auto.
Qed.

(** D. idempotence *)
Lemma merge_idem inc tilt tol rs : forall i o t, exists o' L, merge_loop tol rs i o t = (i, o', t) :: L /\
  merge_loop tol (map (triple_ring inc tilt) L) i o' t = (i, o', t) :: L.
Proof.
  induction rs as [|r rs IH]; intros i o t; cbn [merge_loop].
  - exists o, []. auto.
  - destruct (n_lt _ _ && n_eq _ _) eqn:E.
    + apply IH.
    + destruct (IH (r_in r) (r_out r) (r_tr r)) as (o'' & L & E1 & E2).
      exists o, ((r_in r, o'', r_tr r) :: L). rewrite E1. split; auto.
      cbn [map merge_loop]. unfold triple_ring at 1 2. cbn [fst snd r_in r_out r_tr].
      rewrite E. f_equal. cbn [triple_ring fst snd r_in r_out r_tr]. exact E2.
Qed.

(** E. end points *)
Definition last_out (rs : list ring) (o : T) : T := r_out (last rs (mkRing o o o o o)).
Lemma merge_ends tol rs : forall i o t, exists i' t' L, merge_loop tol rs i o t = L ++ [(i', last_out rs o, t')].
Proof.
  induction rs as [|r rs IH]; intros i o t; cbn [merge_loop].
  - exists i, t, []. reflexivity.
  - assert (LO : forall o, last_out (r :: rs) o = last_out rs (r_out r)) by (intros; unfold last_out; destruct rs as [|b rs]; auto; cbn; f_equal; clear; revert b; induction rs; cbn; auto).
    rewrite LO. destruct (_ && _); [apply IH|].
    destruct (IH (r_in r) (r_out r) (r_tr r)) as (i' & t' & L & ->).
    exists i', t', ((i, o, t) :: L). reflexivity.
Qed.

Lemma head_eq A (l : list A) d x m : l = x :: m -> hd d l = x.
Proof. now intros ->. Qed.

(** the statement about merge_rings *)
Theorem merge_profile h s tol : good_sys h s -> ordered (rings_of h s) -> s_rings s <> [] ->
  (forall r, In r (rings_of h s) -> not_nan (r_tr r)) -> xlt (XFin 0) (val tol) ->
  exists h' s', merge_rings h s tol = (h', s', Ok tt) /\ ordered (rings_of h' s') /\
   (forall r x, In r (rings_of h s) -> covers r x ->
      exists q, In q (rings_of h' s') /\ covers q x /\ val (r_tr q) = val (r_tr r)) /\
   (forall q x, In q (rings_of h' s') -> covers q x ->
      (exists r, In r (rings_of h s) /\ covers r x /\ val (r_tr r) = val (r_tr q)) \/
      in_small_gap tol (rings_of h s) x (val (r_tr q))) /\
   hd_error (get_inner_radii h' s') = hd_error (get_inner_radii h s) /\
   hd_error (rev (get_outer_radii h' s')) = hd_error (rev (get_outer_radii h s)) /\
   (exists h'' s'', merge_rings h' s' tol = (h'', s'', Ok tt) /\ rings_of h'' s'' = rings_of h' s').
Proof.
  intros Hs Ho Hne Hn Ht. destruct (rings_of h s) as [|r0 rs] eqn:E.
  { unfold rings_of in E. destruct (s_rings s); [congruence|discriminate]. }
  assert (Hr0 : In r0 (rings_of h s)) by (rewrite E; now left).
  rewrite <- E in Ho. 
  destruct (@merge_success _ _ _ h s tol r0 rs Hs Ho E Ht) as (ls & M & R & O & G & Els); [apply Hn; now left|].
  set (L := merge_loop tol rs (r_in r0) (r_out r0) (r_tr r0)) in *.
  set (out := map (triple_ring (s_inc s) (s_tilt s)) L) in *.
  exists (h ++ out), (with_rings s ls). rewrite R. split; [exact M|]. split; [exact O|].
  assert (Hg : forall r, In r (rings_of h s) -> good_ring r) by (intros; eapply good_sys_rings; eauto).
  assert (Hc : chain (r_out r0) rs).
  { rewrite E in Ho, Hg. split; [now apply ordered_tl in Ho|]. split; [intros; apply Hg; now right|]. destruct rs; auto. inversion Ho; auto. }
  destruct (Hg r0 Hr0) as ((B0 & B1 & B2) & _).
  assert (inmap : forall q, In q L -> In (triple_ring (s_inc s) (s_tilt s) q) out) by (intros; now apply in_map).
  split; [|split; [|split; [|split]]].
  - intros r x Hr Hx. destruct Hr as [<-|Hr].
    + destruct Hx as [X1 X2]. destruct (@merge_cov_state tol rs (r_in r0) (r_out r0) (r_tr r0) x) as (q & Q1 & Q2 & Q3); auto.
      eexists; split; [apply inmap, Q1|]. split; auto. cbn. now rewrite Q3.
    + destruct (@merge_cov_keep tol rs (r_in r0) (r_out r0) (r_tr r0) x r) as (q & Q1 & Q2 & Q3); auto.
      eexists; split; [apply inmap, Q1|]. split; auto.
  - intros q x Hq Hx. apply in_map_iff in Hq. destruct Hq as (t & <- & Hq).
    exact (@merge_cov_only tol rs r0 x t Hc B1 Hq Hx).
  - unfold get_inner_radii. rewrite R, E. unfold out, L.
    destruct (merge_loop_head tol rs (r_in r0) (r_out r0) (r_tr r0)) as (o' & l & ->). reflexivity.
  - unfold get_outer_radii. rewrite R, E.
    destruct (merge_ends tol rs (r_in r0) (r_out r0) (r_tr r0)) as (i' & t' & K & EK).
    unfold out, L. rewrite EK, !map_app, !rev_app_distr. cbn. f_equal.
    clear. unfold last_out. revert r0. induction rs as [|b rs IH]; intros r0; auto.
    specialize (IH b). cbn [map rev] in *.
    rewrite <- app_assoc. destruct (rev (map (r_out (T:=T)) rs)) as [|z zs] eqn:Ez; cbn.
    + destruct rs; [reflexivity|]. exfalso. apply (f_equal (@List.length _)) in Ez. rewrite rev_length in Ez. discriminate.
    + cbn in IH. inversion IH. destruct rs as [|c rs]; [discriminate|]. f_equal. cbn. f_equal.
      clear. revert c. induction rs; cbn; auto.
  - destruct (@merge_idem (s_inc s) (s_tilt s) tol rs (r_in r0) (r_out r0) (r_tr r0)) as (o' & L' & EL & EI).
    fold L in EL. destruct Hs as (Hgeo & Hw & Hd).
    assert (Hs' : good_sys (h ++ out) (with_rings s ls)).
    { split; [exact Hgeo|]. split.
      - intros m Hm. cbn in Hm. subst ls. apply in_seq in Hm. rewrite app_length. lia.
      - intros m Hm. assert (K : In (deref (h ++ out) m) (rings_of (h ++ out) (with_rings s ls))) by (unfold rings_of; now apply in_map). rewrite R in K. now apply G. }
    assert (R' : rings_of (h ++ out) (with_rings s ls) = triple_ring (s_inc s) (s_tilt s) (r_in r0, o', r_tr r0) :: map (triple_ring (s_inc s) (s_tilt s)) L').
    { rewrite R. unfold out. rewrite EL. reflexivity. }
    rewrite <- R in O.
    destruct (merge_success tol Hs' O R' Ht) as (ls2 & M2 & R2 & _); [apply (Hn r0); now left|].
    eexists _, _. split; [exact M2|]. rewrite R2.
    cbn [triple_ring fst snd r_in r_out r_tr s_inc s_tilt with_rings]. rewrite EI. rewrite <- EL. reflexivity.
Qed.

Theorem merge_empty h s tol : s_rings s = [] -> merge_rings h s tol = (h, s, Err IndexError).
Proof. intros E. unfold merge_rings, rings_of. now rewrite E. Qed.
Theorem merge_empty_iff h s tol h' s' : merge_rings h s tol = (h', s', Err IndexError) -> good_sys h s -> s_rings s = [].
Proof.
  intros H Hs. destruct (s_rings s) as [|l ls] eqn:E; auto. exfalso.
  unfold merge_rings in H. unfold rings_of in H. rewrite E in H. cbn [map] in H.
  assert (F : forall (L : list (T*T*T)) e, make_rings (s_inc s) (s_tilt s) L = Err e -> e = ValueError).
  { clear. induction L as [|[[i o] t] L IH]; intros e; cbn [make_rings]; [discriminate|].
    destruct (new_ring _ _ _ _ _) as [r|e'] eqn:E; cbn [bind].
    - destruct (make_rings _ _ L) eqn:E2; cbn [bind]; [discriminate|]. intros H; inversion H; subst; auto.
    - intros H; inversion H; subst. clear H.
      unfold new_ring in E.
      assert (N : forall ex (a b : pyval) (x:pyval) e, numberlike x -> numberlike a -> numberlike b -> number x false a b ex = Err e -> e = ValueError).
      { intros ex a b x e0 Hx Ha Hb. unfold number. rewrite ntype_false_ok by auto. cbn [bind].
        rewrite number_bounds_eq by auto. destruct (v_cmp _ _ _); [congruence|]. destruct (rejected _ _ _ _); congruence. }
      unfold check_inner in E. destruct (eq_zero (PNpFloat i)) as [z|] eqn:Ez; [|discriminate].
      cbn [bind] in E.
      destruct (number (if z then _ else _) _ _ _ _) as [v|] eqn:E1; cbn [bind] in E.
      2:{ inversion E; subst. destruct z; eapply N in E1; eauto; try (right; constructor); left; constructor. }
      unfold check_outer in E. destruct (number (PNpFloat o) _ _ _ _) as [v2|] eqn:E2; cbn [bind] in E.
      2:{ inversion E; subst. eapply N in E2; eauto; try (right; constructor); left; constructor. }
      unfold check_tr in E. destruct (number (PNpFloat t) _ _ _ _) as [v3|] eqn:E3; cbn [bind] in E.
      2:{ inversion E; subst. eapply N in E3; eauto; try (right; constructor); left; constructor. }
      unfold check_inc in E. destruct (number (PNpFloat (s_inc s)) _ _ _ _) as [v4|] eqn:E4; cbn [bind] in E.
      2:{ inversion E; subst. eapply N in E4; eauto; try (right; constructor); left; constructor. }
      unfold check_tilt in E. destruct (number (PNpFloat (s_tilt s)) _ _ _ _) as [v5|] eqn:E5; cbn [bind] in E; [discriminate|].
      inversion E; subst. eapply N in E5; eauto; try (right; constructor); left; constructor. }
  destruct (make_rings _ _ _) as [rs|e] eqn:Em; inversion H; subst. apply F in Em. discriminate.
Qed.
End P.
