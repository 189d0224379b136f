(** Merging rings in several steps. *)
From Coq Require Import ZArith Reals List Bool Lra Lia.
From Verif Require Import Num NumP Py Validate SpecNum ValidateP Ring RingSystem SpecRing RingP RingSystemP RingOrderP RingMergeP.
Import ListNotations.
Set Implicit Arguments.

Section P.
Context {T : Type} {NT : Num T} {LT : NumLaws T}.
Notation ring := (ring T).
Notation rsys := (rsys T).

Definition joins (tol outer tr : T) (r : ring) : bool := n_lt (n_abs (r_in r - outer)%num) tol && n_eq (r_tr r) tr.
Lemma joins_more t1 t2 outer tr tr' (r : ring) : xle (val t1) (val t2) -> val tr' = val tr -> joins t1 outer tr r = true -> joins t2 outer tr' r = true.
Proof.
  unfold joins. intros Ht E H. apply andb_prop in H. destruct H as [H1 H2]. apply andb_true_intro. split.
  - apply nlt_iff. apply nlt_iff in H1. eapply xlt_le_trans; eauto.
  - apply neq_iff. apply neq_iff in H2. rewrite E. exact H2.
Qed.
Lemma joins_same tol outer tr (r : ring) : joins tol outer tr r = true -> val tr = val (r_tr r).
Proof. unfold joins. intros H. apply andb_prop in H. destruct H as [_ H]. apply neq_iff in H. symmetry. apply H. Qed.

Lemma loop_steps inc tilt t1 t2 (Ht : xle (val t1) (val t2)) rs : forall i o t, exists o' L, merge_loop t1 rs i o t = (i, o', t) :: L /\
  forall i' t', val t' = val t -> merge_loop t2 (map (triple_ring inc tilt) L) i' o' t' = merge_loop t2 rs i' o t'.
Proof.
  induction rs as [|r rs IH]; intros i o t; cbn [merge_loop]; [exists o, []; auto|].
  fold (joins t1 o t r). destruct (joins t1 o t r) eqn:E.
  - destruct (IH i (r_out r) t) as (o' & L & E1 & E2). exists o', L. split; [exact E1|]. intros i' t' Et. fold (joins t2 o t' r). rewrite (@joins_more _ _ _ _ _ _ Ht Et E). now apply E2.
  - destruct (IH (r_in r) (r_out r) (r_tr r)) as (o'' & L & E1 & E2). exists o, ((r_in r, o'', r_tr r) :: L). rewrite E1. split; [reflexivity|]. intros i' t' Et.
    cbn [map merge_loop triple_ring fst snd r_in r_out r_tr]. fold (joins t2 o t' r). destruct (joins t2 o t' r) eqn:E'.
    + apply E2. exact (@joins_same _ _ _ _ E').
    + f_equal. now apply E2.
Qed.
Lemma loop_back inc tilt t1 t2 (Ht : xle (val t1) (val t2)) rs : forall i o t, exists o' L, merge_loop t2 rs i o t = (i, o', t) :: L /\
  merge_loop t1 (map (triple_ring inc tilt) L) i o' t = (i, o', t) :: L.
Proof.
  induction rs as [|r rs IH]; intros i o t; cbn [merge_loop]; [exists o, []; auto|].
  fold (joins t2 o t r). destruct (joins t2 o t r) eqn:E; [apply IH|].
  destruct (IH (r_in r) (r_out r) (r_tr r)) as (o'' & L & E1 & E2). exists o, ((r_in r, o'', r_tr r) :: L). rewrite E1. split; [reflexivity|].
  cbn [map merge_loop triple_ring fst snd r_in r_out r_tr]. fold (joins t1 o t r).
  destruct (joins t1 o t r) eqn:E'; [rewrite (@joins_more _ _ _ _ _ _ Ht (eq_refl (val t)) E') in E; discriminate|]. f_equal. exact E2.
Qed.
Lemma loop_apart tol rs : forall i o t l1 a b l2, merge_loop tol rs i o t = (l1 ++ a :: b :: l2)%list ->
  n_lt (n_abs (fst (fst b) - snd (fst a))%num) tol && n_eq (snd b) (snd a) = false.
Proof.
  induction rs as [|r rs IH]; intros i o t l1 a b l2 H; cbn [merge_loop] in H.
  - apply (f_equal (@List.length _)) in H. rewrite app_length in H. cbn in H. lia.
  - destruct (n_lt _ _ && n_eq _ _) eqn:E in H; [eapply IH; exact H|].
    destruct l1 as [|x l1]; cbn [app] in H; injection H as Hx H; [|eapply IH; exact H].
    destruct (merge_loop_head tol rs (r_in r) (r_out r) (r_tr r)) as (o' & l & E1). rewrite E1 in H. injection H as <- _. subst a. cbn [fst snd]. exact E.
Qed.
Lemma loop_length tol rs : forall i o t, List.length (merge_loop tol rs i o t) <= S (List.length rs).
Proof. induction rs as [|r rs IH]; intros i o t; cbn [merge_loop]; [cbn; lia|]. destruct (_ && _); cbn [List.length]; [specialize (IH i (r_out r) t)|specialize (IH (r_in r) (r_out r) (r_tr r))]; lia. Qed.

Section Sys.
Variables (h : list ring) (s : rsys) (t1 t2 : T).
Hypotheses (Hs : good_sys h s) (Ho : ordered (rings_of h s)) (Hne : s_rings s <> []) (Hn : forall r, In r (rings_of h s) -> not_nan (r_tr r)).
Hypotheses (H1 : xlt (XFin 0) (val t1)) (Ht : xle (val t1) (val t2)).
Let tri := triple_ring (s_inc s) (s_tilt s).
Lemma head_ring : exists r0 rs, rings_of h s = r0 :: rs.
Proof. unfold rings_of. destruct (s_rings s) as [|x l]; [congruence|]. cbn. eauto. Qed.
Lemma merged tol r0 rs : xlt (XFin 0) (val tol) -> rings_of h s = r0 :: rs -> exists h' s', merge_rings h s tol = (h', s', Ok tt) /\
  s_inc s' = s_inc s /\ s_tilt s' = s_tilt s /\ good_sys h' s' /\ ordered (rings_of h' s') /\ rings_of h' s' = map tri (merge_loop tol rs (r_in r0) (r_out r0) (r_tr r0)).
Proof.
  intros Hp E. destruct (@merge_success _ _ _ h s tol r0 rs Hs Ho E Hp) as (ls & M & R & O & G & Els); [apply Hn; rewrite E; now left|].
  eexists _, _. split; [exact M|]. split; [reflexivity|]. split; [reflexivity|]. split; [|split; [now rewrite R|exact R]].
  destruct Hs as (Hgeo & Hw & Hd). split; [exact Hgeo|]. split.
  - intros m Hm. cbn in Hm. rewrite Els in Hm. apply in_seq in Hm. rewrite app_length. lia.
  - intros m Hm. apply G. assert (K := in_map (deref (h ++ map tri (merge_loop tol rs (r_in r0) (r_out r0) (r_tr r0)))) _ _ Hm). unfold rings_of in R. unfold tri in K. rewrite R in K. exact K.
Qed.
End Sys.

Section Two.
Variables (h : list ring) (s : rsys) (t1 t2 : T).
Hypotheses (Hs : good_sys h s) (Ho : ordered (rings_of h s)) (Hne : s_rings s <> []) (Hn : forall r, In r (rings_of h s) -> not_nan (r_tr r)).
Hypotheses (H1 : xlt (XFin 0) (val t1)) (Ht : xle (val t1) (val t2)).
Lemma H2 : xlt (XFin 0) (val t2). Proof. eapply xlt_le_trans; eauto. Qed.

Lemma again ta tb r0 rs o' L : xlt (XFin 0) (val ta) -> xlt (XFin 0) (val tb) -> rings_of h s = r0 :: rs -> merge_loop ta rs (r_in r0) (r_out r0) (r_tr r0) = (r_in r0, o', r_tr r0) :: L ->
  exists h1 s1 h2 s2, merge_rings h s ta = (h1, s1, Ok tt) /\ rings_of h1 s1 = map (triple_ring (s_inc s) (s_tilt s)) ((r_in r0, o', r_tr r0) :: L) /\ merge_rings h1 s1 tb = (h2, s2, Ok tt) /\
    rings_of h2 s2 = map (triple_ring (s_inc s) (s_tilt s)) (merge_loop tb (map (triple_ring (s_inc s) (s_tilt s)) L) (r_in r0) o' (r_tr r0)).
Proof.
  intros Pa Pb E EL. destruct (merged Hs Ho Hn ta Pa E) as (h1 & s1 & M & Ei & Et & G & O & R). rewrite EL in R.
  assert (N0 : not_nan (r_tr r0)) by (apply Hn; rewrite E; now left).
  destruct (@merge_success _ _ _ h1 s1 tb _ _ G O R Pb N0) as (ls & M2 & R2 & _).
  exists h1, s1. eexists _, _. split; [exact M|]. split; [exact R|]. split; [exact M2|]. rewrite R2. rewrite Ei, Et. reflexivity.
Qed.
Theorem merge_steps : exists h1 s1 h2 s2 h3 s3, merge_rings h s t1 = (h1, s1, Ok tt) /\ merge_rings h1 s1 t2 = (h2, s2, Ok tt) /\
  merge_rings h s t2 = (h3, s3, Ok tt) /\ rings_of h2 s2 = rings_of h3 s3.
Proof.
  destruct (head_ring h s Hne) as (r0 & rs & E). destruct (loop_steps (s_inc s) (s_tilt s) t1 t2 Ht rs (r_in r0) (r_out r0) (r_tr r0)) as (o' & L & E1 & E2).
  destruct (@again t1 t2 r0 rs o' L H1 H2 E E1) as (h1 & s1 & h2 & s2 & M1 & _ & M2 & R2). destruct (merged Hs Ho Hn t2 H2 E) as (h3 & s3 & M3 & _ & _ & _ & _ & R3).
  exists h1, s1, h2, s2, h3, s3. split; [exact M1|]. split; [exact M2|]. split; [exact M3|]. rewrite R2, R3. rewrite E2 by reflexivity. reflexivity.
Qed.
Theorem merge_back : exists h1 s1 h2 s2, merge_rings h s t2 = (h1, s1, Ok tt) /\ merge_rings h1 s1 t1 = (h2, s2, Ok tt) /\ rings_of h2 s2 = rings_of h1 s1.
Proof.
  destruct (head_ring h s Hne) as (r0 & rs & E). destruct (loop_back (s_inc s) (s_tilt s) t1 t2 Ht rs (r_in r0) (r_out r0) (r_tr r0)) as (o' & L & E1 & E2).
  destruct (@again t2 t1 r0 rs o' L H2 H1 E E1) as (h1 & s1 & h2 & s2 & M1 & R1 & M2 & R2). exists h1, s1, h2, s2. split; [exact M1|]. split; [exact M2|]. rewrite R2, R1, E2. reflexivity.
Qed.
Theorem merge_fewer h1 s1 h2 s2 : merge_rings h s t1 = (h1, s1, Ok tt) -> merge_rings h s t2 = (h2, s2, Ok tt) ->
  List.length (s_rings s2) <= List.length (s_rings s1) <= List.length (s_rings s).
Proof.
  intros M1 M2. destruct (head_ring h s Hne) as (r0 & rs & E). destruct (loop_steps (s_inc s) (s_tilt s) t1 t2 Ht rs (r_in r0) (r_out r0) (r_tr r0)) as (o' & L & E1 & E2).
  destruct (merged Hs Ho Hn t1 H1 E) as (h1' & s1' & M1' & _ & _ & _ & _ & R1). rewrite M1 in M1'. injection M1' as <- <-.
  destruct (merged Hs Ho Hn t2 H2 E) as (h2' & s2' & M2' & _ & _ & _ & _ & R2). rewrite M2 in M2'. injection M2' as <- <-.
  apply (f_equal (@List.length _)) in R1, R2. assert (R0 := f_equal (@List.length _) E). unfold rings_of in R0, R1, R2. rewrite !map_length in R0, R1, R2. rewrite R1, R2, R0.
  rewrite <- (E2 (r_in r0) (r_tr r0) eq_refl), E1. assert (A := loop_length t1 rs (r_in r0) (r_out r0) (r_tr r0)). rewrite E1 in A.
  assert (C := loop_length t2 (map (triple_ring (s_inc s) (s_tilt s)) L) (r_in r0) o' (r_tr r0)). rewrite map_length in C. cbn [List.length] in *. rewrite !map_length. cbn [List.length]. lia.
Qed.
Theorem merge_apart h1 s1 l1 a b l2 : merge_rings h s t1 = (h1, s1, Ok tt) -> rings_of h1 s1 = (l1 ++ a :: b :: l2)%list ->
  ~ (xlt (val (n_abs (r_in b - r_out a)%num)) (val t1) /\ val (r_tr a) = val (r_tr b) /\ not_nan (r_tr a)).
Proof.
  intros M R (A & C & N). destruct (head_ring h s Hne) as (r0 & rs & E).
  destruct (merged Hs Ho Hn t1 H1 E) as (h1' & s1' & M1' & _ & _ & _ & _ & R1). rewrite M in M1'. injection M1' as <- <-. rewrite R in R1. symmetry in R1.
  apply map_eq_app in R1. destruct R1 as (m1 & m2 & EL & _ & R1). apply map_eq_cons in R1. destruct R1 as (x & m3 & -> & <- & R1). apply map_eq_cons in R1. destruct R1 as (y & m4 & -> & <- & _).
  apply loop_apart in EL. cbn [triple_ring r_in r_out r_tr] in *. apply nlt_iff in A. 
  assert (Q : n_eq (snd y) (snd x) = true) by (apply neq_iff; split; [symmetry; exact C|rewrite <- C; exact N]).
  destruct x as [[xi xo] xt], y as [[yi yo] yt]. cbn in *. rewrite A, Q in EL. discriminate.
Qed.
End Two.
End P.
