(** The closest grid point in binary64: an example and a refutation on a concrete grid. *)
From Coq Require Import ZArith Reals List Bool Lia Lra.
From Flocq Require Import Core BinarySingleNaN.
From Verif Require Import Num NumP Py SpecNum Validate Ring RingSystem FS GridParams SpecGrid RingP GridProp SpecProp Geometry Build SpecBuild Shallot AddLaws ShallotOps SpecOps
  OpsP OpsReadP OpsEditP OpsGradP OpsFitP OpsPointP OpsExtractP OpsWrapP OpsExP Round64P GeomF64P SpecGrad SpecAxis SpecFit FitGridP SpecClosest ClosestF64P.
Import ListNotations.
Local Open Scope R_scope.
Local Open Scope list_scope.
Set Implicit Arguments.

(** a test for a number of ordinary size *)
Definition ordinary_b (x : f64) : bool :=
  match x with B754_zero _ => true | B754_finite _ m e _ => Z.leb (-200) e && Z.leb e 100 && Z.leb (Zpos m) (2 ^ 60) | _ => false end.
Lemma ordinary_sized x : ordinary_b x = true -> exists r, f64_val x = XFin r /\ sized 200 r.
Proof.
  destruct x as [b|[|]| |b m e p]; cbn [ordinary_b]; intros H; try discriminate; [exists 0; split; [reflexivity|now left]|].
  apply andb_prop in H as [H H3]. apply andb_prop in H as [H1 H2]. apply Z.leb_le in H1, H2, H3.
  eexists. split; [reflexivity|right]. unfold B2R. rewrite <- F2R_Zabs, abs_cond_Zopp. cbn [Z.abs]. unfold F2R. cbn [Fnum Fexp].
  assert (P := bpow_gt_0 radix2 e). assert (M1 : 1 <= IZR (Zpos m)) by (apply IZR_le; lia). assert (M2 : IZR (Zpos m) <= bpow radix2 60) by (change (bpow radix2 60) with (IZR (2 ^ 60)); now apply IZR_le).
  split.
  - apply Rle_trans with (bpow radix2 e); [apply bpow_le; exact H1|]. rewrite <- (Rmult_1_l (bpow radix2 e)) at 1. apply Rmult_le_compat_r; lra.
  - apply Rle_trans with (bpow radix2 60 * bpow radix2 e); [apply Rmult_le_compat_r; lra|]. rewrite <- bpow_plus. apply bpow_le. lia.
Qed.
(** a test for a grid point whose numbers are of ordinary size *)
Definition disk_b (s : shallot f64) (y x q : nat) : bool :=
  let k := place s y x q in
  let ok (p : gprop f64) := negb (marked (p_mask p) k) && match nth_error (p_data p) k with Some u => ordinary_b u | None => false end in
  Nat.ltb y (List.length (g_dy (s_params s))) && Nat.ltb x (List.length (g_dx (s_params s))) && Nat.ltb q (List.length (g_rfa (s_params s))) && ok (s_dr s) && ok (s_inc s) && ok (s_tilt s).
Lemma disk_b_at s y x q u4 dy : disk_b s y x q = true -> nth_error (g_dy (s_params s)) y = Some u4 -> f64_val u4 = XFin dy ->
  exists u1 u2 u3 r i t, nth_error (p_data (s_dr s)) (place s y x q) = Some u1 /\ nth_error (p_data (s_inc s)) (place s y x q) = Some u2 /\ nth_error (p_data (s_tilt s)) (place s y x q) = Some u3 /\
    f64_val u1 = XFin r /\ f64_val u2 = XFin i /\ f64_val u3 = XFin t /\ disk_at s false y x q (r, i, t, dy).
Proof.
  unfold disk_b. intros H N4 V4. repeat (apply andb_prop in H as [H ?]). repeat match goal with h : Nat.ltb _ _ = true |- _ => apply Nat.ltb_lt in h end.
  assert (K : forall p : gprop f64, negb (marked (p_mask p) (place s y x q)) && match nth_error (p_data p) (place s y x q) with Some u => ordinary_b u | None => false end = true ->
    exists u r, nth_error (p_data p) (place s y x q) = Some u /\ seen s false p (place s y x q) u /\ f64_val u = XFin r /\ sized 200 r).
  { intros p Hp. apply andb_prop in Hp as [M Hp]. apply negb_true_iff in M. destruct (nth_error (p_data p) (place s y x q)) as [u|] eqn:Eu; [|discriminate]. destruct (ordinary_sized u Hp) as (r & V & Z). exists u, r. split; [reflexivity|]. split; [right; split; [exact M|split; [intros [? _]; discriminate|exact Eu]]|auto]. }
  repeat match goal with h : negb _ && _ = true |- _ => apply K in h end.
  destruct H2 as (u1 & r & N1 & S1 & V1 & Z1). destruct H1 as (u2 & i & N2 & S2 & V2 & Z2). destruct H0 as (u3 & t & N3 & S3 & V3 & Z3).
  exists u1, u2, u3, r, i, t. refine (conj N1 (conj N2 (conj N3 (conj V1 (conj V2 (conj V3 _)))))).
  split; [assumption|]. split; [assumption|]. split; [assumption|]. split; [exists u1, u2, u3, u4; repeat (split; [assumption|]); assumption|]. auto.
Qed.
(** the rows of the grid *)
Definition rows_b (s : shallot f64) : bool := match g_dy (s_params s) with [a; b; c] => n_eq a (n_ofZ (-1)) && n_eq b (n_ofZ 0) && n_eq c (n_ofZ 1) | _ => false end.
Lemma rows_at s : rows_b s = true -> exists a b c, g_dy (s_params s) = [a; b; c] /\ f64_val a = XFin (-1) /\ f64_val b = XFin 0 /\ f64_val c = XFin 1.
Proof.
  unfold rows_b. destruct (g_dy (s_params s)) as [|a [|b [|c [|]]]]; try discriminate. intros H. apply andb_prop in H as [H C]. apply andb_prop in H as [A B]. exists a, b, c. split; [reflexivity|].
  apply neq_iff in A as [A _], B as [B _], C as [C _]. change (f64_val a = f64_val (n_ofZ (-1))) in A. change (f64_val b = f64_val (n_ofZ 0)) in B. change (f64_val c = f64_val (n_ofZ 1)) in C. rewrite of_Z in A, B, C by (vm_compute; discriminate). auto.
Qed.
Lemma rows_fine s : rows_b s = true -> rows_ok s 3 (-1) 1.
Proof.
  intros H. destruct (rows_at s H) as (a & b & c & E & A & B & C). assert (R1 : Rabs (-1) = 1) by (rewrite Rabs_left; lra).
  assert (S1 : bpow radix2 (-100) <= 1 <= bpow radix2 100) by (change 1 with (bpow radix2 0); split; apply bpow_le; lia).
  split; [|repeat split].
  - exists [-1; 0; 1]. rewrite E. cbn [map]. rewrite A, B, C. split; [reflexivity|]. split; [reflexivity|]. split; [reflexivity|]. split; [reflexivity|].
    assert (K : forall i r, nth_error [-1; 0; 1] i = Some r -> (i < 3)%nat /\ r = INR i - 1).
    { intros i r Hi. destruct i as [|[|[|i]]]; cbn in Hi; [| | |destruct i; discriminate]; injection Hi as <-; (split; [lia|cbn; lra]). }
    split.
    + intros i j r t L Hi Hj. apply K in Hi as [_ ->]. apply K in Hj as [_ ->]. apply le_INR in L. lra.
    + intros i r Hi. apply K in Hi as [L ->]. assert (X := pos_INR i). assert (Y : INR i <= 2) by (change 2 with (INR 2); apply le_INR; lia). split; [lra|].
      replace (INR i - 1 - _) with 0 by (cbn; field). rewrite Rabs_R0. apply Rmult_le_pos; [apply bpow_ge_0|]. apply Rle_trans with (1 := Rabs_pos (-1)), Rmax_l.
  - lia.
  - apply Rle_trans with (bpow radix2 2); [cbn; lra|apply bpow_le; lia].
  - right. rewrite R1. exact S1.
  - right. rewrite Rabs_R1. exact S1.
  - rewrite R1. lra.
  - rewrite Rabs_R1. lra.
  - rewrite R1, Rabs_R1, Rmax_left by lra. assert (bpow radix2 (-44) <= bpow radix2 (-4)) by (apply bpow_le; lia). change (bpow radix2 (-4)) with (/ 16) in H0. cbn [INR]. lra.
Qed.
Lemma Bern k : 1 - INR k * ulp1 <= (1 - ulp1) ^ k.
Proof.
  assert (U := ulp1_pos). induction k as [|k IH]; [cbn; lra|]. rewrite S_INR. cbn [pow].
  assert (ulp1 * (1 - ulp1) ^ k <= ulp1 * 1); [|lra]. apply Rmult_le_compat_l; [lra|]. apply Rle_trans with (1 ^ k); [apply pow_incr; lra|rewrite pow1; lra].
Qed.
Lemma step3 : row_step 3 (-1) 1 = 1. Proof. unfold row_step. cbn. field. Qed.

(** an example: the point returned and another *)
Definition test1 (s : shallot f64) : bool := rows_b s && disk_b s 2 2 2 && disk_b s 2 2 1 &&
  match snd (determine_closest (PInt 5) (PInt 30) (PInt 80) (PInt 1) (PBool false) s) with Ok (_, (y, x, q), _) => Nat.eqb y 2 && Nat.eqb x 2 && Nat.eqb q 2 | Err _ => false end.
Lemma test1_holds : holds [] test1. Proof. vm_compute. exact eq_refl. Qed.
Lemma closest_ex : exists s s' c d a a', sreach env2 s /\ rows_ok s 3 (-1) 1 /\ determine_closest (PInt 5) (PInt 30) (PInt 80) (PInt 1) (PBool false) s = (s', Ok (c, (2%nat, 2%nat, 2%nat), d)) /\
  Forall (sized 200) [5; 30; 80; 1] /\ disk_at s false 2 2 2 a /\ disk_at s false 2 2 1 a' /\ on_side (row_step 3 (-1) 1) 1 (snd a').
Proof.
  destruct (holds_in [] test1) as (s & Hs & Ht); [constructor|exact test1_holds|]. unfold test1 in Ht. apply andb_prop in Ht as [Ht Hc]. apply andb_prop in Ht as [Ht D']. apply andb_prop in Ht as [Ro D].
  destruct (determine_closest _ _ _ _ _ s) as [s' [[[c [[y x] q]] d]|]] eqn:Ec; cbn [snd] in Hc; [|discriminate].
  apply andb_prop in Hc as [Hc Q]. apply andb_prop in Hc as [Y X]. apply Nat.eqb_eq in Y, X, Q. subst.
  destruct (rows_at s Ro) as (a1 & a2 & a3 & Er & _ & _ & V3). assert (N : nth_error (g_dy (s_params s)) 2 = Some a3) by (rewrite Er; reflexivity).
  destruct (@disk_b_at s 2 2 2 a3 _ D N V3) as (u1 & u2 & u3 & r & i & t & _ & _ & _ & _ & _ & _ & Da). destruct (@disk_b_at s 2 2 1 a3 _ D' N V3) as (w1 & w2 & w3 & r' & i' & t' & _ & _ & _ & _ & _ & _ & Da').
  exists s, s', c, d. do 2 eexists. split; [exact Hs|]. split; [now apply rows_fine|]. split; [exact Ec|]. split; [|split; [exact Da|split; [exact Da'|cbn [snd]; rewrite step3; split; intros; lra]]].
  assert (K : forall z : R, 1 <= z <= 128 -> sized 200 z). { intros z Hz. right. rewrite Rabs_pos_eq by lra. split; [apply Rle_trans with (bpow radix2 0); [apply bpow_le; lia|cbn; lra]|apply Rle_trans with (bpow radix2 7); [cbn; lra|apply bpow_le; lia]]. }
  repeat (apply Forall_cons; [apply K; lra|]). apply Forall_nil.
Qed.

(** a row on the axis is not found for a positive impact parameter, however close *)
Definition tenth : f64 := n_div (n_ofZ 1) (n_ofZ 10).
Definition at38 (p : gprop f64) : f64 := num_at (p_data p) 38.
Definition test2 (s : shallot f64) : bool := rows_b s && disk_b s 1 2 3 && Nat.eqb (place s 1 2 3) 38 && ordinary_b tenth && n_lt n_zero tenth && n_lt tenth n_one &&
  match snd (determine_closest (PFloat (at38 (s_dr s))) (PFloat (at38 (s_inc s))) (PFloat (at38 (s_tilt s))) (PFloat tenth) (PBool false) s) with
  | Ok (_, (y, x, q), d) => Nat.eqb y 2 && disk_b s 2 x q && n_lt (n_ofZ 6) d | Err _ => false end.
Lemma test2_holds : holds [] test2. Proof. vm_compute. exact eq_refl. Qed.
Lemma axis_refuted : ~ (forall (E : env f64) s s' n lo hi v1 v2 v3 v4 m c y x q d r i t b a y' x' q' a', sreach E s -> rows_ok s n lo hi ->
  determine_closest v1 v2 v3 v4 (PBool m) s = (s', Ok (c, (y, x, q), d)) ->
  f64_val (num_of v1) = XFin r -> f64_val (num_of v2) = XFin i -> f64_val (num_of v3) = XFin t -> f64_val (num_of v4) = XFin b -> Forall (sized 200) [r; i; t; b] ->
  disk_at s m y x q a -> disk_at s m y' x' q' a' -> 0 <= b * snd a' ->
  (1 - bpow radix2 (-53)) ^ 8 * gap a (r, i, t, b) <= gap a' (r, i, t, b) + 2 * row_step n lo hi).
Proof.
  intros H. destruct (holds_in [] test2) as (s & Hs & Ht); [constructor|exact test2_holds|]. unfold test2 in Ht. apply andb_prop in Ht as [Ht Hc]. apply andb_prop in Ht as [Ht L1]. apply andb_prop in Ht as [Ht L0]. apply andb_prop in Ht as [Ht To]. apply andb_prop in Ht as [Ht P38]. apply andb_prop in Ht as [Ro D'].
  apply Nat.eqb_eq in P38. destruct (determine_closest _ _ _ _ _ s) as [s' [[[c [[y x] q]] d]|]] eqn:Ec; cbn [snd] in Hc; [|discriminate].
  apply andb_prop in Hc as [Hc L6]. apply andb_prop in Hc as [Y D]. apply Nat.eqb_eq in Y. subst y.
  destruct (rows_at s Ro) as (a1 & a2 & a3 & Er & _ & V2 & V3). assert (N2 : nth_error (g_dy (s_params s)) 1 = Some a2) by (rewrite Er; reflexivity). assert (N3 : nth_error (g_dy (s_params s)) 2 = Some a3) by (rewrite Er; reflexivity).
  destruct (@disk_b_at s 2 x q a3 _ D N3 V3) as (u1 & u2 & u3 & r & i & t & _ & _ & _ & _ & _ & _ & Da). destruct (@disk_b_at s 1 2 3 a2 _ D' N2 V2) as (w1 & w2 & w3 & r' & i' & t' & W1 & W2 & W3 & U1 & U2 & U3 & Da').
  rewrite P38 in W1, W2, W3. assert (A1 : f64_val (at38 (s_dr s)) = XFin r') by (unfold at38, num_at; rewrite (nth_error_nth _ _ _ W1); exact U1). assert (A2 : f64_val (at38 (s_inc s)) = XFin i') by (unfold at38, num_at; rewrite (nth_error_nth _ _ _ W2); exact U2). assert (A3 : f64_val (at38 (s_tilt s)) = XFin t') by (unfold at38, num_at; rewrite (nth_error_nth _ _ _ W3); exact U3).
  destruct (ordinary_sized tenth To) as (b & Vb & Zb).
  assert (B0 : 0 < b). { apply nlt_iff in L0. change (xlt (f64_val n_zero) (f64_val tenth)) in L0. rewrite Vb in L0. exact L0. }
  assert (B1 : b < 1). { apply nlt_iff in L1. change (xlt (f64_val tenth) (f64_val n_one)) in L1. rewrite Vb in L1. change (f64_val n_one) with (f64_val (n_ofZ 1)) in L1. rewrite of_Z in L1 by (vm_compute; discriminate). exact L1. }
  assert (F : Forall (sized 200) [r'; i'; t'; b]). { destruct Da' as (_ & _ & _ & _ & Z1 & Z2 & Z3). repeat (apply Forall_cons; [assumption|]). apply Forall_nil. }
  assert (Rk := rows_fine s Ro).
  assert (Q := H env2 s s' 3%nat (-1) 1 _ _ _ _ false c 2%nat x q d r' i' t' b (r, i, t, 1) 1%nat 2%nat 3%nat (r', i', t', 0) Hs Rk Ec A1 A2 A3 Vb F Da Da'). cbn [snd] in Q. specialize (Q ltac:(lra)). rewrite step3 in Q.
  destruct (@reported64 env2 s s' 3%nat (-1) 1 _ _ _ _ false c 2%nat x q d r' i' t' b (r, i, t, 1) Hs Rk Ec A1 A2 A3 Vb F Da) as (e & g & Ve & Ag & _ & G). cbn [snd] in G. rewrite step3 in G.
  specialize (G ltac:(split; intros; lra)). apply Rabs_le_inv in G.
  apply nlt_iff in L6. change (xlt (f64_val (n_ofZ 6)) (f64_val d)) in L6. rewrite Ve, of_Z in L6 by (vm_compute; discriminate). cbn in L6.
  assert (Gs : gap (r', i', t', 0) (r', i', t', b) = b). { unfold gap. replace (_ + _) with (Rsqr b) by (unfold Rsqr; ring). apply sqrt_Rsqr. lra. } rewrite Gs in Q.
  destruct Ag as [_ Ag]. fold ulp1 in *. assert (U := ulp1_pos).
  assert (S9 : 99 / 100 <= (1 - ulp1) ^ 8). { assert (Y := Bern 8). cbn [INR] in Y. lra. }
  assert (S4 : (1 - ulp1) ^ 8 <= (1 - ulp1) ^ 4). { change 8%nat with (4 + 4)%nat. rewrite pow_add. assert (P := shrink_pos 4). assert ((1 - ulp1) ^ 4 <= 1) by (rewrite <- (pow1 4); apply pow_incr; lra). rewrite <- (Rmult_1_l ((1 - ulp1) ^ 4)) at 3. apply Rmult_le_compat_r; lra. }
  set (z := (1 - ulp1) ^ 8) in *. assert (z * 6 <= (1 - ulp1) ^ 4 * e) by (apply Rmult_le_compat; lra).
  (* z gap <= b + 2 < 3, gap >= g - 1 >= 6 z - 1 *)
  assert (z * (6 * z - 1) <= z * gap (r, i, t, 1) (r', i', t', b)) by (apply Rmult_le_compat_l; lra). nra.
Qed.
