(** Splitting ring systems in binary64, and merging the pieces again. *)
From Coq Require Import ZArith Reals Lra Lia List Bool.
From Flocq Require Import Core BinarySingleNaN.
From Verif Require Import Num NumP BuildFP Py SpecNum Ring RingSystem SpecRing RingP RingSystemP RingOrderP RingMergeP RingSplitP SpecSplit Round64P GeomF64P DiskF64P EdgeErrP SplitF64P.
Import ListNotations.
Local Open Scope R_scope.
Set Implicit Arguments.
Local Notation B := (bpow radix2).

Lemma good_vals (r : ring f64) i o : good_ring r -> f64_val (r_in r) = XFin i -> f64_val (r_out r) = XFin o -> 0 < i < o.
Proof. intros ((A & C & _) & _) Vi Vo. change (val (T := f64)) with f64_val in *. rewrite Vi, Vo in *. cbn in A, C. lra. Qed.
Lemma wide_few (r : ring f64) d : good_ring r -> (1 <= d)%Z -> wide r d -> (d <= 2 ^ 53)%Z.
Proof.
  intros G Hd (i & o & Vi & Vo & Ho & W). destruct (good_vals G Vi Vo) as [Pi Po]. assert (D1 : 1 <= IZR d) by (apply IZR_le; lia).
  assert (E : (o - i) / IZR d * IZR d = o - i) by (field; lra). assert (T : 0 < B (-990)) by apply bpow_gt_0.
  assert (M : 16 * half_ulp1 * o * IZR d <= (o - i) / IZR d * IZR d) by (apply Rmult_le_compat_r; lra).
  assert (H : half_ulp1 * IZR d <= 1). { apply Rmult_le_reg_r with (16 * o); [lra|]. assert (0 < half_ulp1) by apply bpow_gt_0. nra. }
  apply le_IZR. change (IZR (2 ^ 53)) with (B 53). apply Rmult_le_reg_l with half_ulp1; [apply bpow_gt_0|]. apply Rle_trans with (1 := H). unfold half_ulp1. rewrite <- bpow_plus. cbn. lra.
Qed.
Lemma piece64 (r : ring f64) d k inc tilt : good_ring r -> (1 <= d)%Z -> wide r d -> (Z.of_nat k < d)%Z ->
  exists i o a b, f64_val (r_in r) = XFin i /\ f64_val (r_out r) = XFin o /\ let p := triple_ring inc tilt (ringlet r d k) in
  r_tr p = r_tr r /\ f64_val (r_in p) = XFin a /\ f64_val (r_out p) = XFin b /\ i <= a < b /\ (k = 0%nat -> a = i) /\
  Rabs (a - (i + INR k * ((o - i) / IZR d))) <= 5 * half_ulp1 * o + B (-1000) /\ Rabs (b - (i + (INR k + 1) * ((o - i) / IZR d))) <= 8 * half_ulp1 * o + B (-1000) /\ good_ring p.
Proof.
  intros G Hd W Hk. assert (F := wide_few G Hd W). destruct W as (i & o & Vi & Vo & Ho & W). destruct (good_vals G Vi Vo) as [Pi Po].
  destruct (@outer64 _ _ i o d k Vi Vo (conj Pi Po) Ho (conj Hd F) Hk) as (a & b & Va & Vb & La & Za & Da & Db).
  exists i, o, a, b. split; [exact Vi|]. split; [exact Vo|]. cbn zeta. set (p := triple_ring inc tilt (ringlet r d k)).
  assert (Tp : r_tr p = r_tr r) by reflexivity. change (f64_val (r_in p) = XFin a) in Va. change (f64_val (r_out p) = XFin b) in Vb. change ulp1 with half_ulp1 in *.
  assert (Tb : 4 * B (-1000) <= B (-990)). { replace (B (-990)) with (B 10 * B (-1000)) by now rewrite <- bpow_plus. apply Rmult_le_compat_r; [apply bpow_ge_0|]. change (B 10) with 1024. lra. }
  assert (T0 : 0 < B (-1000)) by apply bpow_gt_0. assert (PU : 0 < half_ulp1 * o) by (apply Rmult_lt_0_compat; [apply bpow_gt_0|lra]).
  assert (AB : a < b). { assert (A1 := Rabs_le_inv _ _ Da). assert (B1 := Rabs_le_inv _ _ Db). lra. }
  repeat (split; [solve [auto|lra]|]).
  split; [|exact (proj2 G)]. split; [|split]; change (val (T := f64)) with f64_val; rewrite ?Va, ?Vb; cbn; auto; lra.
Qed.

Definition pieces_of (inc tilt : f64) (rd : ring f64 * Z) : list (ring f64) := map (triple_ring inc tilt) (ringlets (fst rd) (snd rd)).
Lemma concat_pieces inc tilt (l : list (ring f64 * Z)) :
  map (triple_ring inc tilt) (flat_map (fun rd => ringlets (fst rd) (snd rd)) l) = List.concat (map (pieces_of inc tilt) l).
Proof. induction l as [|rd l IH]; cbn; auto. now rewrite map_app, IH. Qed.
Lemma pieces_nth inc tilt (r : ring f64) d k p : nth_error (pieces_of inc tilt (r, d)) k = Some p -> (Z.of_nat k < d)%Z /\ p = triple_ring inc tilt (ringlet r d k).
Proof.
  unfold pieces_of, ringlets. cbn [fst snd]. rewrite map_map. intros H. assert (L : (k < Z.to_nat d)%nat). { rewrite <- (seq_length (Z.to_nat d) 0), <- (map_length (fun x => triple_ring inc tilt (ringlet r d x))). apply nth_error_Some. now rewrite H. }
  split; [lia|]. rewrite nth_error_map in H. rewrite nth_error_nth' with (d := 0%nat) in H by now rewrite seq_length. rewrite seq_nth in H by exact L. cbn in H. now injection H as <-.
Qed.

(** rings that merge_rings joins to the ring before them *)
Fixpoint linked (tol tr outer : f64) (l : list (ring f64)) : Prop :=
  match l with
  | [] => True
  | r :: l => n_lt (n_abs (n_sub (r_in r) outer)) tol = true /\ n_eq (r_tr r) tr = true /\ linked tol tr (r_out r) l
  end.
Lemma last_step (r : ring f64) l o : last_out (r :: l) o = last_out l (r_out r).
Proof. unfold last_out. destruct l as [|q l]; [reflexivity|]. cbn [last]. f_equal. revert q. induction l as [|q' l IH]; intros q; [reflexivity|]. apply (IH q'). Qed.
Lemma loop_linked tol tr rest inner l : forall outer, linked tol tr outer l -> merge_loop tol (l ++ rest) inner outer tr = merge_loop tol rest inner (last_out l outer) tr.
Proof.
  induction l as [|r l IH]; intros outer H; [reflexivity|]. destruct H as (H1 & H2 & H3). cbn [app merge_loop]. rewrite H1, H2. cbn [andb]. rewrite (IH _ H3), last_step. reflexivity.
Qed.
Lemma last_seq (f : nat -> ring f64) n : forall k, last_out (map f (seq (S k) n)) (r_out (f k)) = r_out (f (k + n)%nat).
Proof. induction n as [|n IH]; intros k; [now rewrite Nat.add_0_r|]. cbn [seq map]. rewrite last_step, IH. do 2 f_equal. lia. Qed.

Section Merge.
Variables (inc tilt tol : f64) (t : R).
Hypothesis Vt : f64_val tol = XFin t.
Definition above (r : ring f64) : Prop := forall o, f64_val (r_out r) = XFin o -> 14 * half_ulp1 * o + B (-990) < t.
Definition fit (rd : ring f64 * Z) : Prop := good_ring (fst rd) /\ (1 <= snd rd)%Z /\ wide (fst rd) (snd rd) /\ above (fst rd) /\ not_nan (r_tr (fst rd)).
Section One.
Variables (r : ring f64) (d : Z).
Hypothesis F : fit (r, d).
Let f k := triple_ring inc tilt (ringlet r d k).
Lemma link k : (Z.of_nat (S k) < d)%Z -> n_lt (n_abs (n_sub (r_in (f (S k))) (r_out (f k)))) tol = true.
Proof.
  intros Hk. destruct F as (G & D & W & A & _). cbn [fst snd] in *.
  destruct (@piece64 r d k inc tilt G D W ltac:(lia)) as (i & o & a & b & Vi & Vo & P). destruct (@piece64 r d (S k) inc tilt G D W Hk) as (i' & o' & a' & b' & Vi' & Vo' & P').
  rewrite Vi in Vi'. rewrite Vo in Vo'. injection Vi' as <-. injection Vo' as <-. cbn zeta in P, P'. destruct P as (_ & _ & Vb & _ & _ & _ & Db & _). destruct P' as (_ & Va & _ & _ & _ & Da & _).
  fold (f k) in Vb. fold (f (S k)) in Va. rewrite S_INR in Da. specialize (A _ Vo). destruct (good_vals G Vi Vo) as [Pi Po]. destruct W as (i'' & o'' & _ & Vo'' & Ho & _). rewrite Vo in Vo''. injection Vo'' as <-.
  set (m := i + (INR k + 1) * ((o - i) / IZR d)) in *. assert (PU : 0 < half_ulp1 * o) by (apply Rmult_lt_0_compat; [apply bpow_gt_0|lra]).
  assert (Tb : 8 * B (-1000) <= B (-990)). { replace (B (-990)) with (B 10 * B (-1000)) by now rewrite <- bpow_plus. apply Rmult_le_compat_r; [apply bpow_ge_0|]. change (B 10) with 1024. lra. }
  assert (T0 : 0 < B (-1000)) by apply bpow_gt_0. assert (Gp : Rabs (a' - b) <= 13 * (half_ulp1 * o) + 2 * B (-1000)).
  { replace (a' - b) with ((a' - m) + - (b - m)) by ring. rewrite <- (Rabs_Ropp (b - m)) in Db. assert (N := abs_sum Da Db). lra. }
  assert (U := ulp1_pos). change ulp1 with half_ulp1 in U. assert (Uo : half_ulp1 * o <= / 1000 * o) by (apply Rmult_le_compat_r; lra).
  assert (T1 : B (-1000) <= 1) by (change 1 with (B 0); apply bpow_le; lia). assert (B0 : 1 <= B 1000) by (change 1 with (B 0); apply bpow_le; lia).
  assert (B1 : 8 * B 1000 <= B 1023) by (change 8 with (B 3); rewrite <- bpow_plus; apply bpow_le; lia).
  destruct (@sub64 _ _ _ _ Va Vb ltac:(lra)) as (e & De & Vs). apply nlt_iff. rewrite l_abs. change (val (T := f64)) with f64_val. rewrite Vs, Vt. cbn [x_abs xlt].
  change ulp1 with half_ulp1 in De. assert (E1 : Rabs (1 + e) <= 1 + / 1000) by (apply Rabs_le_inv in De; apply Rabs_le; lra). assert (N := abs_mul_le Gp E1). lra.
Qed.
Lemma links n : forall k, (Z.of_nat (k + n) < d)%Z -> linked tol (r_tr r) (r_out (f k)) (map f (seq (S k) n)).
Proof.
  induction n as [|n IH]; intros k H; [exact I|]. cbn [seq map linked]. split; [apply link; lia|]. split; [|apply IH; lia].
  apply neq_iff. destruct F as (_ & _ & _ & _ & N). split; [reflexivity|exact N].
Qed.
Let n := (Z.to_nat d - 1)%nat.
Lemma pieces_shape : pieces_of inc tilt (r, d) = f 0%nat :: map f (seq 1 n).
Proof. destruct F as (_ & D & _). cbn [snd] in D. unfold pieces_of, ringlets. cbn [fst snd]. rewrite map_map. replace (Z.to_nat d) with (S n) by (unfold n; lia). reflexivity. Qed.
Definition joined : f64 * f64 * f64 := (r_in (f 0%nat), r_out (f n), r_tr r).
Lemma run_pieces rest : merge_loop tol (map f (seq 1 n) ++ rest) (r_in (f 0%nat)) (r_out (f 0%nat)) (r_tr r) = merge_loop tol rest (r_in (f 0%nat)) (r_out (f n)) (r_tr r).
Proof. destruct F as (_ & D & _). cbn [snd] in D. rewrite loop_linked by (apply links; unfold n; lia). rewrite last_seq. reflexivity. Qed.
Lemma joined_ring : good_ring (triple_ring inc tilt joined) /\ restored r (triple_ring inc tilt joined).
Proof.
  destruct F as (G & D & W & _ & _). cbn [fst snd] in *.
  destruct (@piece64 r d 0 inc tilt G D W ltac:(lia)) as (i & o & a & b & Vi & Vo & P). destruct (@piece64 r d n inc tilt G D W ltac:(unfold n; lia)) as (i' & o' & a' & b' & Vi' & Vo' & P').
  rewrite Vi in Vi'. rewrite Vo in Vo'. injection Vi' as <-. injection Vo' as <-. cbn zeta in P, P'. destruct P as (_ & Va & _ & _ & Z & _). destruct P' as (_ & _ & Vb & Hab & _ & _ & Db & _).
  fold (f 0%nat) in Va. fold (f n) in Vb. specialize (Z eq_refl). subst a. destruct (good_vals G Vi Vo) as [Pi Po].
  unfold joined, triple_ring at 1 2. cbn [fst snd]. split.
  - split; [|exact (proj2 G)]. split; [|split]; change (val (T := f64)) with f64_val; cbn [r_in r_out]; rewrite ?Va, ?Vb; cbn; auto; lra.
  - split; cbn [r_in r_out r_tr]; [now rewrite Va, Vi|]. split; [reflexivity|]. exists o, b'. split; [exact Vo|]. split; [exact Vb|].
    replace (i + (INR n + 1) * ((o - i) / IZR d)) with o in Db; [exact Db|]. assert (E : INR n + 1 = IZR d). { rewrite <- S_INR, INR_IZR_INZ. f_equal. unfold n. lia. }
    rewrite E. field. assert (1 <= IZR d) by (apply IZR_le; lia). lra.
Qed.
End One.
Fixpoint differs (tr : f64) (l : list (ring f64 * Z)) : Prop :=
  match l with [] => True | rd :: l => f64_val (r_tr (fst rd)) <> f64_val tr /\ differs (r_tr (fst rd)) l end.
Lemma run_parts l : Forall fit l -> forall inner outer tr, differs tr l ->
  merge_loop tol (List.concat (map (pieces_of inc tilt) l)) inner outer tr = (inner, outer, tr) :: map (fun rd => joined (fst rd) (snd rd)) l.
Proof.
  induction 1 as [|[r d] l F _ IH]; intros inner outer tr H; [reflexivity|]. destruct H as [H1 H2]. cbn [fst snd] in *. cbn [map List.concat]. rewrite (pieces_shape F). cbn [app merge_loop].
  assert (E : n_eq (r_tr (triple_ring inc tilt (ringlet r d 0))) tr = false). { apply not_true_iff_false. intros E. apply neq_iff in E. apply H1. apply E. }
  rewrite E, andb_false_r. f_equal. change (r_tr (triple_ring inc tilt (ringlet r d 0))) with (r_tr r). rewrite (run_pieces F). apply IH. exact H2.
Qed.
End Merge.

Section Sys.
Variables (h : list (ring f64)) (s : rsys f64) (nd : pyval f64) (ds : list Z).
Hypotheses (Hs : good_sys h s) (Hd : valid_divisions (List.length (s_rings s)) nd ds).
Hypothesis Hw : forall r d, In (r, d) (List.combine (rings_of h s) ds) -> wide r d.
Let parts := map (pieces_of (s_inc s) (s_tilt s)) (List.combine (rings_of h s) ds).
Let h1 := (h ++ List.concat parts)%list.
Let s1 := with_rings s (seq (List.length h) (List.length (List.concat parts))).
Lemma entry r d : In (r, d) (List.combine (rings_of h s) ds) -> good_ring r /\ (1 <= d)%Z /\ wide r d.
Proof.
  intros H. destruct (valid_divisions_shape Hd) as [_ Hf]. split; [eapply good_sys_rings; [exact Hs|]; eapply in_combine_l; exact H|]. split; [|now apply Hw].
  rewrite Forall_forall in Hf. apply Hf. eapply in_combine_r; exact H.
Qed.
Lemma split_runs : split_rings h s nd = (h1, s1, Ok tt) /\ rings_of h1 s1 = List.concat parts.
Proof.
  destruct Hs as ([Gi Gt] & _). split.
  - unfold split_rings. rewrite (divisions_ok s Hd). cbn [bind]. rewrite make_rings_ok; auto.
    + rewrite concat_pieces. reflexivity.
    + intros x Hx. apply in_flat_map in Hx. destruct Hx as ([r d] & H1 & H2). destruct (entry _ _ H1) as (G & D & W). unfold ringlets in H2. apply in_map_iff in H2. destruct H2 as (k & <- & Hk). apply in_seq in Hk. cbn [fst snd] in *.
      destruct (@piece64 r d k (s_inc s) (s_tilt s) G D W ltac:(lia)) as (i & o & a & b & _ & _ & P). apply P.
  - unfold rings_of, s1, h1. cbn [s_rings with_rings]. apply map_deref_new.
Qed.
Lemma split_even : Forall2 (fun rd l => even_pieces (fst rd) (snd rd) l) (List.combine (rings_of h s) ds) parts.
Proof.
  unfold parts. assert (E := entry). revert E. clear. induction (List.combine (rings_of h s) ds) as [|[r d] l IH]; intros E; cbn [map]; constructor.
  - destruct (E r d) as (G & D & W); [now left|]. cbn [fst snd]. assert (W' := W). destruct W' as (i & o & Vi & Vo & _). exists i, o. split; [exact Vi|]. split; [exact Vo|].
    split; [unfold pieces_of, ringlets; now rewrite !map_length, seq_length|]. intros k p H. destruct (pieces_nth _ _ _ _ _ H) as [Hk ->].
    destruct (@piece64 r d k (s_inc s) (s_tilt s) G D W Hk) as (i' & o' & a & b & Vi' & Vo' & P). rewrite Vi in Vi'. rewrite Vo in Vo'. injection Vi' as <-. injection Vo' as <-.
    cbn zeta in P. destruct P as (P1 & P2 & P3 & P4 & P5 & P6 & P7 & _). split; [exact P1|]. exists a, b. auto 10.
  - apply IH. intros r' d' H. apply E. now right.
Qed.
Theorem split64 : exists h' s', split_rings h s nd = (h', s', Ok tt) /\ exists parts, rings_of h' s' = List.concat parts /\
  Forall2 (fun rd l => even_pieces (fst rd) (snd rd) l) (List.combine (rings_of h s) ds) parts.
Proof. exists h1, s1. destruct split_runs as [A C]. split; [exact A|]. exists parts. split; [exact C|exact split_even]. Qed.

Theorem merge64 tol t : f64_val tol = XFin t -> s_rings s <> [] ->
  (forall r o, In r (rings_of h s) -> f64_val (r_out r) = XFin o -> 14 * half_ulp1 * o + B (-990) < t) ->
  (forall r, In r (rings_of h s) -> not_nan (r_tr r)) ->
  (forall l1 a b l2, rings_of h s = (l1 ++ a :: b :: l2)%list -> f64_val (r_tr b) <> f64_val (r_tr a)) ->
  exists h' s' h2 s2, split_rings h s nd = (h', s', Ok tt) /\ merge_rings h' s' tol = (h2, s2, Ok tt) /\ Forall2 restored (rings_of h s) (rings_of h2 s2).
Proof.
  intros Vt Hne Ht Hn Hd'. destruct split_runs as [A C]. destruct (valid_divisions_shape Hd) as [Hl _].
  assert (Ef : Forall (fit t) (List.combine (rings_of h s) ds)).
  { apply Forall_forall. intros [r d] H. destruct (entry _ _ H) as (G & D & W). assert (I := in_combine_l _ _ _ _ H). split; [exact G|]. split; [exact D|]. split; [exact W|]. split; [|apply Hn, I]. intros o Vo. exact (Ht r o I Vo). }
  assert (Em : map fst (List.combine (rings_of h s) ds) = rings_of h s).
  { assert (L : List.length (rings_of h s) = List.length ds) by (unfold rings_of; now rewrite map_length, Hl). revert L. clear. generalize ds. induction (rings_of h s) as [|r l IH]; intros [|d ds'] L; cbn in *; try discriminate; [reflexivity|]. f_equal. apply IH. lia. }
  destruct (List.combine (rings_of h s) ds) as [|[r0 d0] l] eqn:El.
  { exfalso. apply Hne. cbn in Em. unfold rings_of in Em. now destruct (s_rings s). }
  inversion Ef as [|? ? F0 Fl]; subst.
  assert (Df : differs (r_tr r0) l).
  { cbn [map fst] in Em. revert Em Hd'. clear. generalize (rings_of h s). intros L E H. subst L. revert r0 H. induction l as [|[r d] l IH]; intros r0 H; [exact I|]. split; [exact (H [] r0 r (map fst l) eq_refl)|]. apply IH. intros l1 a b l2 E. apply (H (r0 :: l1) a b l2). cbn [map fst app]. f_equal. exact E. }
  set (js := map (fun rd => joined (s_inc s) (s_tilt s) (fst rd) (snd rd)) ((r0, d0) :: l)).
  assert (J : forall rd, In rd ((r0, d0) :: l) -> good_ring (triple_ring (s_inc s) (s_tilt s) (joined (s_inc s) (s_tilt s) (fst rd) (snd rd))) /\ restored (fst rd) (triple_ring (s_inc s) (s_tilt s) (joined (s_inc s) (s_tilt s) (fst rd) (snd rd)))).
  { intros [r d] H. rewrite Forall_forall in Ef. exact (joined_ring (s_inc s) (s_tilt s) (Ef _ H)). }
  set (out := map (triple_ring (s_inc s) (s_tilt s)) js).
  exists h1, s1, (h1 ++ out)%list, (with_rings s1 (seq (List.length h1) (List.length out))). split; [exact A|]. split.
  - unfold merge_rings. rewrite C. unfold parts. rewrite ?El. cbn [map List.concat]. rewrite (pieces_shape (s_inc s) (s_tilt s) F0). cbn [app].
    assert (T0 : xlt (XFin 0) (val tol)). { change (val (T := f64)) with f64_val. rewrite Vt. cbn. destruct F0 as (G & _ & (i & o & Vi & Vo & _) & Ab & _). cbn [fst] in *. specialize (Ab _ Vo). destruct (good_vals G Vi Vo). assert (0 < B (-990)) by apply bpow_gt_0. assert (0 < half_ulp1 * o) by (apply Rmult_lt_0_compat; [apply bpow_gt_0|lra]). lra. }
    assert (G0 : good_ring (triple_ring (s_inc s) (s_tilt s) (ringlet r0 d0 0))). { destruct F0 as (G & D & W & _). cbn [fst snd] in *. destruct (@piece64 r0 d0 0 (s_inc s) (s_tilt s) G D W ltac:(lia)) as (? & ? & ? & ? & _ & _ & P). apply P. }
    assert (N0 : not_nan (r_tr (triple_ring (s_inc s) (s_tilt s) (ringlet r0 d0 0)))) by (destruct F0 as (_ & _ & _ & _ & N); exact N).
    rewrite merge_first by assumption. change (r_tr (triple_ring (s_inc s) (s_tilt s) (ringlet r0 d0 0))) with (r_tr r0).
    rewrite (run_pieces (s_inc s) (s_tilt s) tol Vt F0), (run_parts (s_inc s) (s_tilt s) tol Vt Fl) by exact Df.
    change (s_inc s1) with (s_inc s). change (s_tilt s1) with (s_tilt s). destruct Hs as ([Gi Gt] & _). change ((_, _, r_tr r0) :: _) with js. rewrite make_rings_ok; auto.
    intros x Hx. unfold js in Hx. apply in_map_iff in Hx. destruct Hx as (rd & <- & H). now apply J.
  - assert (R : rings_of (h1 ++ out) (with_rings s1 (seq (List.length h1) (List.length out))) = out) by (unfold rings_of; cbn [s_rings with_rings]; apply map_deref_new). rewrite R, <- Em. unfold out, js. rewrite map_map.
    revert J. clear. generalize ((r0, d0) :: l). intros L J. induction L as [|rd L IH]; cbn [map]; constructor; [apply J; now left|]. apply IH. intros; apply J; now right.
Qed.
End Sys.
