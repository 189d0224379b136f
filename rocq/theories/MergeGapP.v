(** How much merging rings adds to them. *)
From Coq Require Import ZArith Reals List Bool Lra Lia.
From Verif Require Import Num NumP Py Validate SpecNum ValidateP Ring RingSystem SpecRing RingP RingSystemP RingOrderP RingMergeP RingMoreP SpecMerge MergeStepP.
Import ListNotations.
Local Open Scope R_scope.

Definition finite_ring (r : ring xr) : Prop := exists i o, r_in r = XFin i /\ r_out r = XFin o.
Lemma good_finite (r : ring xr) : good_ring r -> finite_ring r.
Proof.
  intros ((A & C & D) & _). unfold finite_ring. change (val (T := xr)) with (fun x : xr => x) in *. cbv beta in *.
  destruct (r_in r), (r_out r); cbn in *; try contradiction; eauto.
Qed.
Lemma width_fin (r : ring xr) i o : r_in r = XFin i -> r_out r = XFin o -> width r = o - i.
Proof. intros A C. unfold width. rewrite A, C. reflexivity. Qed.
Lemma covered_cons (r : ring xr) l : covered (r :: l) = width r + covered l. Proof. reflexivity. Qed.

Lemma loop_closed inc tilt (t : R) : 0 <= t -> forall rs, Forall finite_ring rs -> forall i o tr,
  covered (map (triple_ring inc tilt) (merge_loop (T := xr) (XFin t) rs (XFin i) (XFin o) tr)) <= (o - i) + covered rs + INR (List.length rs) * t.
Proof.
  intros Ht. induction 1 as [|r rs (a & b & Ha & Hb) _ IH]; intros i o tr.
  - cbn. unfold covered, width. cbn. lra.
  - cbn [merge_loop]. rewrite covered_cons, (width_fin r a b Ha Hb). cbn [List.length]. rewrite S_INR, Ha, Hb. destruct (n_lt _ _ && n_eq _ _) eqn:E.
    + apply andb_prop in E. destruct E as [E _]. apply nlt_iff in E. cbn in E. specialize (IH i b tr). assert (N := Rle_abs (a - o)). cbn in *. unfold Rminus in *. lra.
    + specialize (IH a b (r_tr r)). cbn [map]. rewrite covered_cons. rewrite (width_fin (triple_ring inc tilt (XFin i, XFin o, tr)) i o eq_refl eq_refl). lra.
Qed.
Theorem merge_closed (h : list (ring xr)) s t h1 s1 : good_sys h s -> ordered (rings_of h s) -> s_rings s <> [] -> (forall r, In r (rings_of h s) -> not_nan (r_tr r)) ->
  0 < t -> merge_rings h s (XFin t) = (h1, s1, Ok tt) -> covered (rings_of h1 s1) <= covered (rings_of h s) + INR (List.length (s_rings s) - 1) * t.
Proof.
  intros Hs Ho Hne Hn Ht M. destruct (head_ring h s Hne) as (r0 & rs & E). assert (P : xlt (XFin 0) (val (XFin t : xr))) by exact Ht.
  destruct (merged Hs Ho Hn (XFin t) P E) as (h' & s' & M' & _ & _ & _ & _ & R). rewrite M in M'. injection M' as <- <-. rewrite R.
  assert (F : Forall finite_ring (r0 :: rs)). { rewrite <- E. apply Forall_forall. intros r Hr. apply good_finite. eapply good_sys_rings; eauto. }
  inversion F as [|? ? (a & b & Ha & Hb) F']; subst. rewrite E, covered_cons, (width_fin r0 a b Ha Hb), Ha, Hb.
  assert (L := f_equal (@List.length _) E). unfold rings_of in L. rewrite map_length in L. rewrite L. cbn [List.length]. rewrite Nat.sub_succ, Nat.sub_0_r. apply loop_closed; [lra|exact F'].
Qed.

(** three rings, two apart each *)
Definition gap_heap : list (ring f64) :=
  [mkRing (fz 1) (fz 2) (fz 1) (fz 0) (fz 0); mkRing (fz 4) (fz 5) (fz 1) (fz 0) (fz 0); mkRing (fz 7) (fz 8) (fz 1) (fz 0) (fz 0)].
Definition gap_sys : rsys f64 := mkSys (fz 1) (fz 10) (fz 20) [0; 1; 2]%nat.
Lemma gap_good : good_sys gap_heap gap_sys /\ ordered (rings_of gap_heap gap_sys) /\ (forall r, In r (rings_of gap_heap gap_sys) -> not_nan (r_tr r)).
Proof.
  split; [|split].
  - split; [exact ex_geo|]. split; [intros l Hl; cbn in Hl |- *; lia|]. intros l [<-|[<-|[<-|[]]]]; cbn [deref nth gap_heap]; apply fz_good; lia.
  - cbv [rings_of gap_sys s_rings map deref gap_heap nth].
    constructor; [cbn [r_in r_out]; fzs; left; cbn; lra|]. constructor; [cbn [r_in r_out]; fzs; left; cbn; lra|]. constructor.
  - intros r H. cbv [rings_of gap_sys s_rings map deref gap_heap nth In] in H. unfold not_nan. destruct H as [<-|[<-|[<-|[]]]]; cbn [r_tr]; fzs; discriminate.
Qed.
Lemma gap_join a o : n_lt (n_abs (fz a - fz o)%num) (fz 3) && n_eq (fz 1) (fz 1) = true -> forall rs i tl r, r_in r = fz a -> r_tr r = fz 1 -> r_out r = tl ->
  merge_loop (fz 3) (r :: rs) i (fz o) (fz 1) = merge_loop (fz 3) rs i tl (fz 1).
Proof. intros H rs i tl r A C D. cbn [merge_loop]. rewrite A, C, D, H. reflexivity. Qed.
Theorem gap_witness : exists (h : list (ring f64)) s tol t h1 s1, good_sys h s /\ ordered (rings_of h s) /\ (forall r, In r (rings_of h s) -> not_nan (r_tr r)) /\
  f64_val tol = XFin t /\ merge_rings h s tol = (h1, s1, Ok tt) /\ covered (rings_of h s) + t < covered (rings_of h1 s1).
Proof.
  destruct gap_good as (G & O & N). assert (P : xlt (XFin 0) (val (fz 3))) by (fzs; cbn; lra).
  destruct (merged G O N (fz 3) P (eq_refl : rings_of gap_heap gap_sys = _ :: _)) as (h1 & s1 & M & _ & _ & _ & _ & R).
  exists gap_heap, gap_sys, (fz 3), 3, h1, s1. split; [exact G|]. split; [exact O|]. split; [exact N|]. split; [apply (fz_val 3); cbn; lia|]. split; [exact M|]. rewrite R.
  change (map (deref gap_heap) [1; 2]%nat) with [mkRing (fz 4) (fz 5) (fz 1) (fz 0) (fz 0); mkRing (fz 7) (fz 8) (fz 1) (fz 0) (fz 0)].
  change (r_in (deref gap_heap 0)) with (fz 1). change (r_out (deref gap_heap 0)) with (fz 2). change (r_tr (deref gap_heap 0)) with (fz 1).
  rewrite (gap_join 4 2) with (tl := fz 5) by (reflexivity || (vm_compute; reflexivity)).
  rewrite (gap_join 7 5) with (tl := fz 8) by (reflexivity || (vm_compute; reflexivity)).
  cbv [covered rings_of gap_sys s_rings map deref gap_heap nth merge_loop triple_ring fst snd width r_in r_out fold_right]. fzs. lra.
Qed.

(** the same rings over the reals *)
Definition real_heap : list (ring xr) :=
  [mkRing (XFin 1) (XFin 2) (XFin 1) (XFin 0) (XFin 0); mkRing (XFin 4) (XFin 5) (XFin 1) (XFin 0) (XFin 0)].
Definition real_sys : rsys xr := mkSys (XFin 1) (XFin 10) (XFin 20) [0; 1]%nat.
Lemma real_ex : good_sys real_heap real_sys /\ ordered (rings_of real_heap real_sys) /\ s_rings real_sys <> [] /\
  (forall r, In r (rings_of real_heap real_sys) -> not_nan (r_tr r)) /\ 0 < 3 /\ (exists h1 s1, merge_rings real_heap real_sys (XFin 3) = (h1, s1, Ok tt)).
Proof.
  assert (G : good_sys real_heap real_sys).
  { split; [split; right; split; left; cbn; lra|]. split; [intros l Hl; cbn in Hl |- *; lia|].
    intros l [<-|[<-|[]]]; (split; [split; [|split]; cbn; auto; lra|]); right; (split; [left; cbn; lra|right; split; [reflexivity|discriminate]]). }
  assert (O : ordered (rings_of real_heap real_sys)). { constructor; [left; cbn; lra|constructor]. }
  assert (N : forall r, In r (rings_of real_heap real_sys) -> not_nan (r_tr r)) by (intros r [<-|[<-|[]]]; discriminate).
  split; [exact G|]. split; [exact O|]. split; [discriminate|]. split; [exact N|]. split; [lra|].
  assert (P : xlt (XFin 0) (val (XFin 3 : xr))) by (cbn; lra).
  destruct (merged G O N (XFin 3) P (eq_refl : rings_of real_heap real_sys = _ :: _)) as (h1 & s1 & M & _). eauto.
Qed.
