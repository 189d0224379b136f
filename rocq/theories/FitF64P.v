(** Scaled gradients and the fit in binary64: proofs. *)
From Coq Require Import ZArith Reals List Bool Lia Lra.
From Flocq Require Import Core BinarySingleNaN Relative.
From Verif Require Import Num NumP Py XLibm Geometry GeomP GeomMoreP BuildFP Round64P GeomF64P DiskF64P SpecF64 SpecGrad GradF64P GridProp SpecFit.
Import ListNotations.
Local Open Scope R_scope.
Set Implicit Arguments.

Lemma agrees_near k x y : 0 <= y -> agrees k x y <-> near k x y.
Proof. unfold agrees, near. fold ulp1. tauto. Qed.
Lemma near_agrees k x y : near k x y -> agrees k x y.
Proof. intros H. apply agrees_near; [apply H|exact H]. Qed.

Lemma shrink_up k : (k <= 1000)%nat -> (1 - ulp1) ^ k <= 1 - INR k * ulp1 + INR k * INR k * ulp1 * ulp1.
Proof.
  assert (U := ulp1_pos). induction k as [|k I]; intros K; [cbn; lra|]. specialize (I ltac:(lia)). rewrite S_INR. cbn [pow].
  assert (P := pos_INR k). apply Rle_trans with ((1 - ulp1) * (1 - INR k * ulp1 + INR k * INR k * ulp1 * ulp1)); [apply Rmult_le_compat_l; lra|].
  assert (0 <= INR k * INR k * ulp1 * ulp1 * ulp1) by (repeat apply Rmult_le_pos; lra).
  assert (0 <= INR k * ulp1 * ulp1) by (repeat apply Rmult_le_pos; lra). assert (0 <= ulp1 * ulp1) by nra. nra.
Qed.
(** a value known up to an absolute error *)
Lemma near_abs k c x y : 0 <= y -> (k <= 1000)%nat -> 0 <= c <= INR k - 1 -> Rabs (x - y) <= c * ulp1 * y -> near k x y.
Proof.
  intros Y K C H. assert (U := ulp1_pos). assert (S := shrink_up K). assert (P := shrink_pos k).
  assert (K' : 1 <= INR k <= 1000). { split; [lra|]. replace 1000 with (INR 1000) by (rewrite INR_IZR_INZ; reflexivity). now apply le_INR. }
  assert (S' : (1 - ulp1) ^ k <= 1 - c * ulp1).
  { apply Rle_trans with (1 := S). assert (INR k * INR k * ulp1 <= 1) by nra. assert (INR k * INR k * ulp1 * ulp1 <= 1 * ulp1) by (apply Rmult_le_compat_r; lra). nra. }
  apply Rabs_le_inv in H. assert (CU : 0 <= c * ulp1 <= / 2) by nra. split; [exact Y|]. split.
  - apply Rle_trans with ((1 - c * ulp1) * y); [apply Rmult_le_compat_r; lra|]. lra.
  - apply Rle_trans with ((1 - c * ulp1) * ((1 + c * ulp1) * y)); [|nra]. apply Rmult_le_compat; try lra. assert (0 <= (1 - c * ulp1) * y) by (apply Rmult_le_pos; lra). lra.
Qed.

(** one operation, also where it underflows *)
Lemma tiny_abs a : Rabs (rnd a - a) <= ulp1 * (Rabs a + 1).
Proof.
  destruct (rnd_abs a) as (d & e & D & E & ->). replace (a * (1 + d) + e - a) with (a * d + e) by ring. apply Rle_trans with (1 := Rabs_triang _ _). rewrite Rabs_mult.
  assert (Rabs a * Rabs d <= Rabs a * ulp1) by (apply Rmult_le_compat_l; auto using Rabs_pos). assert (B (-1075) <= ulp1) by (apply bpow_le; lia). lra.
Qed.
Lemma mul_a (x y : f64) a b : f64_val x = XFin a -> f64_val y = XFin b -> Rabs (a * b) <= B 1023 ->
  exists r, f64_val (n_mul x y) = XFin r /\ Rabs (r - a * b) <= ulp1 * (Rabs (a * b) + 1).
Proof. intros X Y H. eexists. split; [exact (mul_correct _ _ X Y H)|apply tiny_abs]. Qed.
Lemma add_a (x y : f64) a b : f64_val x = XFin a -> f64_val y = XFin b -> Rabs (a + b) <= B 1023 ->
  exists r, f64_val (n_add x y) = XFin r /\ Rabs (r - (a + b)) <= ulp1 * (Rabs (a + b) + 1).
Proof. intros X Y H. eexists. split; [exact (add_correct _ _ X Y H)|apply tiny_abs]. Qed.
Lemma sub_a (x y : f64) a b : f64_val x = XFin a -> f64_val y = XFin b -> Rabs (a - b) <= B 1023 ->
  exists r, f64_val (n_sub x y) = XFin r /\ Rabs (r - (a - b)) <= ulp1 * (Rabs (a - b) + 1).
Proof. intros X Y H. eexists. split; [exact (sub_correct _ _ X Y H)|apply tiny_abs]. Qed.

Lemma small_big r : Rabs r <= 100 -> Rabs r <= B 1023.
Proof. intros H. apply Rle_trans with (1 := H). apply Rle_trans with (B 7); [|apply bpow_le; lia]. change (B 7) with 128. lra. Qed.
Lemma PI_3 : 3 < PI. Proof. assert (H := PI2_3_2). lra. Qed.

Section Orbital.
Variables (L : Libm f64) (uv vv : f64) (u v : R).
Hypotheses (HL : accurate L (bpow radix2 (-51))) (Hu : f64_val uv = XFin u) (Hv : f64_val vv = XFin v) (U01 : 0 <= u <= 1).
Lemma pi_near : exists p, f64_val (m_pi L) = XFin p /\ Rabs (p - PI) <= 4 * ulp1.
Proof.
  destruct (a_pi HL) as (p & P & E). exists p. split; auto. apply Rle_trans with (1 := E). unfold ulp1. change 4 with (B 2). rewrite <- bpow_plus. apply bpow_le. lia.
Qed.
Lemma denominator : tracks 11 (n_add (n_sub (num2 12) (n_mul (num2 12) uv)) (n_mul (n_mul (num2 3) (m_pi L)) uv)) (12 - 12 * u + 3 * PI * u).
Proof.
  assert (U := ulp1_pos). assert (P3 := PI_3). assert (P4 := PI_4).
  assert (C12 : f64_val (num2 12 : f64) = XFin 12) by (apply (of_Z 12); vm_compute; discriminate).
  assert (C3 : f64_val (num2 3 : f64) = XFin 3) by (apply (of_Z 3); vm_compute; discriminate).
  destruct pi_near as (p & Hp & Ep). apply Rabs_le_inv in Ep.
  destruct (mul_a _ _ C12 Hu) as (a1 & V1 & E1); [apply small_big, Rabs_le; lra|]. rewrite (Rabs_pos_eq (12 * u)) in E1 by lra. apply Rabs_le_inv in E1.
  assert (B1 : - (13 * ulp1) <= a1 - 12 * u <= 13 * ulp1) by nra.
  destruct (sub_a _ _ C12 V1) as (a2 & V2 & E2); [apply small_big, Rabs_le; lra|].
  assert (X2 : Rabs (12 - a1) <= 12 + 13 * ulp1) by (apply Rabs_le; lra). apply Rabs_le_inv in E2.
  assert (B2 : - (27 * ulp1) <= a2 - (12 - 12 * u) <= 27 * ulp1) by nra.
  destruct (mul_a _ _ C3 Hp) as (a3 & V3 & E3); [apply small_big, Rabs_le; lra|]. rewrite (Rabs_pos_eq (3 * p)) in E3 by lra. apply Rabs_le_inv in E3.
  assert (B3 : - (26 * ulp1) <= a3 - 3 * PI <= 26 * ulp1) by nra.
  assert (W : 0 <= a3 * u <= 12 + 26 * ulp1) by nra.
  destruct (mul_a _ _ V3 Hu) as (a4 & V4 & E4); [apply small_big, Rabs_le; lra|]. rewrite (Rabs_pos_eq (a3 * u)) in E4 by lra. apply Rabs_le_inv in E4.
  assert (B4 : - (40 * ulp1) <= a4 - 3 * PI * u <= 40 * ulp1) by nra.
  set (den := 12 - 12 * u + 3 * PI * u). assert (D : 9 <= den <= 12) by (unfold den; nra).
  assert (W5 : Rabs (a2 + a4) <= 12 + 67 * ulp1) by (apply Rabs_le; unfold den in D; lra).
  destruct (add_a _ _ V2 V4) as (a5 & V5 & E5); [apply small_big; lra|]. apply Rabs_le_inv in E5.
  assert (X5 : ulp1 * (Rabs (a2 + a4) + 1) <= ulp1 * 14) by (apply Rmult_le_compat_l; lra). assert (B5 : - (81 * ulp1) <= a5 - den <= 81 * ulp1) by (unfold den; lra).
  exists a5. split; [exact V5|]. apply near_abs with 9; [lra|lia|rewrite INR_IZR_INZ; cbn; lra|]. assert (9 * ulp1 * 9 <= 9 * ulp1 * den) by (apply Rmult_le_compat_l; lra). apply Rabs_le. lra.
Qed.
Lemma numerator : tracks 4 (n_sub (num2 6) (n_mul (num2 2) uv)) (6 - 2 * u).
Proof.
  assert (U := ulp1_pos).
  assert (C6 : f64_val (num2 6 : f64) = XFin 6) by (apply (of_Z 6); vm_compute; discriminate).
  destruct (mul_a _ _ of_two Hu) as (a1 & V1 & E1); [apply small_big, Rabs_le; lra|]. rewrite (Rabs_pos_eq (2 * u)) in E1 by lra. apply Rabs_le_inv in E1.
  assert (X1 : ulp1 * (2 * u + 1) <= ulp1 * 3) by (apply Rmult_le_compat_l; lra).
  destruct (sub_a _ _ C6 V1) as (a2 & V2 & E2); [apply small_big, Rabs_le; lra|]. rewrite (Rabs_pos_eq (6 - a1)) in E2 by lra. apply Rabs_le_inv in E2.
  assert (X2 : ulp1 * (6 - a1 + 1) <= ulp1 * 8) by (apply Rmult_le_compat_l; lra). assert (3 * ulp1 * 4 <= 3 * ulp1 * (6 - 2 * u)) by (apply Rmult_le_compat_l; lra).
  exists a2. split; [exact V2|]. apply near_abs with 3; [lra|lia|rewrite INR_IZR_INZ; cbn; lra|]. apply Rabs_le. lra.
Qed.
Lemma tracks_div j k (x y : f64) a b : tracks j x a -> tracks k y b -> 0 < b -> (j + k <= 900)%nat -> middling (a / b) -> tracks (S (j + k)) (n_div x y) (a / b).
Proof.
  intros (w & W & N) (z & Z & M) Pb K R. assert (P := near_div N M Pb). assert (Pz := near_pos M Pb).
  destruct (div64 _ _ W Z) as (d & D & E); [lra|apply (range_of P); auto; lia|]. exists (w / z * (1 + d)). split; auto. now apply near_round.
Qed.
Lemma limb_range : / 3 <= (6 - 2 * u) / (12 - 12 * u + 3 * PI * u) <= 1.
Proof.
  assert (P3 := PI_3). assert (P4 := PI_4). assert (D : 9 <= 12 - 12 * u + 3 * PI * u <= 12) by nra.
  set (d := 12 - 12 * u + 3 * PI * u) in *. assert (I : / 12 <= / d <= / 9) by (split; apply Rinv_le; lra). unfold Rdiv. nra.
Qed.
Lemma orbital64 : bpow radix2 (-500) <= v <= bpow radix2 500 -> tracks 21 (orbital_scale_of L uv vv) (orbital u v) /\ bpow radix2 (-501) <= orbital u v <= bpow radix2 502.
Proof.
  intros Rv. assert (P3 := PI_3). assert (P4 := PI_4). assert (U := ulp1_pos). assert (LR := limb_range). assert (V0 : 0 < v) by (apply Rlt_le_trans with (2 := proj1 Rv), bpow_gt_0).
  assert (D : 9 <= 12 - 12 * u + 3 * PI * u <= 12) by nra.
  assert (I1 : bpow radix2 (-500) <= / v <= bpow radix2 500).
  { split; [change (-500)%Z with (- (500))%Z|change 500%Z with (- (-500))%Z]; rewrite bpow_opp; apply Rinv_le; try apply bpow_gt_0; try lra. }
  assert (I2 : bpow radix2 (-499) <= PI / v <= bpow radix2 502).
  { unfold Rdiv. change (-499)%Z with (1 + -500)%Z. change 502%Z with (2 + 500)%Z. rewrite !bpow_plus. change (B 1) with 2. change (B 2) with 4. assert (X := bpow_gt_0 radix2 (-500)). split; apply Rmult_le_compat; lra. }
  assert (I3 : bpow radix2 (-501) <= orbital u v <= bpow radix2 502).
  { unfold orbital. change (-501)%Z with (-2 + -499)%Z. rewrite bpow_plus. change (B (-2)) with (/ 4). rewrite <- (Rmult_1_l (B 502)). assert (X := bpow_gt_0 radix2 (-499)). split; apply Rmult_le_compat; lra. }
  split; [|exact I3]. unfold orbital_scale_of, orbital.
  assert (T1 : tracks 16 (n_div (n_sub (num2 6) (n_mul (num2 2) uv)) (n_add (n_sub (num2 12) (n_mul (num2 12) uv)) (n_mul (n_mul (num2 3) (m_pi L)) uv))) ((6 - 2 * u) / (12 - 12 * u + 3 * PI * u))).
  { apply (tracks_div numerator denominator); [lra|lia|]. right. split; [apply Rle_trans with (/ 4); [|lra]; change (/ 4) with (B (-2)); apply bpow_le; lia|apply Rle_trans with 1; [lra|]; change 1 with (B 0); apply bpow_le; lia]. }
  destruct pi_near as (p & Hp & Ep).
  assert (T0 : tracks 3 (m_pi L) PI).
  { exists p. split; auto. apply near_abs with (4 / 3); [lra|lia|rewrite INR_IZR_INZ; cbn; lra|]. apply Rle_trans with (1 := Ep). nra. }
  assert (T2 : tracks 4 (n_div (m_pi L) vv) (PI / v)).
  { apply (tracks_div T0 (tracks_exact _ Hv (Rlt_le _ _ V0))); [lra|lia|]. right. split; [apply Rle_trans with (2 := proj1 I2)|apply Rle_trans with (1 := proj2 I2)]; apply bpow_le; lia. }
  apply (tracks_mul T1 T2); [lia|]. right. fold (orbital u v). split; [apply Rle_trans with (2 := proj1 I3)|apply Rle_trans with (1 := proj2 I3)]; apply bpow_le; lia.
Qed.
End Orbital.

(** *** scaled gradients *)
Definition modest (r : R) : Prop := bpow radix2 (-200) <= r <= bpow radix2 200.
Lemma modest_pos r : modest r -> 0 < r. Proof. intros [H _]. apply Rlt_le_trans with (2 := H), bpow_gt_0. Qed.
Lemma product64 (mv ov tv : f64) m o t k o' : f64_val mv = XFin m -> tracks k ov o -> f64_val tv = XFin t -> (k <= 100)%nat -> o' = o ->
  m = 0 \/ modest m -> bpow radix2 (-501) <= o <= bpow radix2 502 -> modest t ->
  tracks (k + 3) (n_mul mv (n_mul ov (n_div n_one tv))) (scaled_by m o t).
Proof.
  intros Hm To Ht K _ Rm Ro Rt. assert (Pt := modest_pos Rt). assert (Po : 0 < o) by (apply Rlt_le_trans with (2 := proj1 Ro), bpow_gt_0).
  assert (It : bpow radix2 (-200) <= / t <= bpow radix2 200).
  { destruct Rt. split; [change (-200)%Z with (- (200))%Z|change 200%Z with (- (-200))%Z]; rewrite bpow_opp; apply Rinv_le; try apply bpow_gt_0; try lra. }
  assert (Pit : 0 < / t) by now apply Rinv_0_lt_compat.
  assert (T1 : tracks 1 (n_div n_one tv) (1 / t)).
  { apply (tracks_div (tracks_exact _ of_one Rle_0_1) (tracks_exact _ Ht (Rlt_le _ _ Pt))); [lra|lia|]. right. unfold Rdiv. rewrite Rmult_1_l.
    split; [apply Rle_trans with (2 := proj1 It)|apply Rle_trans with (1 := proj2 It)]; apply bpow_le; lia. }
  assert (I2 : bpow radix2 (-701) <= o * (1 / t) <= bpow radix2 702).
  { unfold Rdiv. rewrite Rmult_1_l. change (-701)%Z with (-501 + -200)%Z. change 702%Z with (502 + 200)%Z. rewrite !bpow_plus. split; apply Rmult_le_compat; try apply bpow_ge_0; lra. }
  assert (T2 : tracks (S (k + 1)) (n_mul ov (n_div n_one tv)) (o * (1 / t))).
  { apply (tracks_mul To T1); [lia|]. right. split; [apply Rle_trans with (2 := proj1 I2)|apply Rle_trans with (1 := proj2 I2)]; apply bpow_le; lia. }
  assert (Nm : 0 <= m) by (destruct Rm as [->|Rm]; [lra|apply Rlt_le, modest_pos, Rm]).
  replace (scaled_by m o t) with (m * (o * (1 / t))) by (unfold scaled_by; field; lra).
  replace (k + 3)%nat with (S (0 + S (k + 1))) by lia. apply (tracks_mul (tracks_exact _ Hm Nm) T2); [lia|].
  destruct Rm as [->|[M1 M2]]; [left; ring|right].
  split.
  - apply Rle_trans with (B (-200 + -701)); [apply bpow_le; lia|]. rewrite bpow_plus. apply Rmult_le_compat; try apply bpow_ge_0; lra.
  - apply Rle_trans with (B (200 + 702)); [|apply bpow_le; lia]. rewrite bpow_plus. apply Rmult_le_compat; try lra. apply Rle_trans with (2 := proj1 I2), bpow_ge_0.
Qed.

(** *** the terms of the fit *)
Lemma term64 (av sv wv : f64) a m w : f64_val av = XFin a -> f64_val sv = XFin m -> sized 200 a -> sized 200 m -> tracks 1 wv w -> bpow radix2 (-200) <= w <= bpow radix2 200 ->
  tracks 5 (n_div (n_sq (n_sub av sv)) wv) ((a - m) * (a - m) / w) /\ (a - m) * (a - m) / w <= bpow radix2 602.
Proof.
  intros Ha Hm Ra Rm Tw Rw. assert (Pw : 0 < w) by (apply Rlt_le_trans with (2 := proj1 Rw), bpow_gt_0).
  assert (Sq : 0 <= (a - m) * (a - m)) by exact (Rle_0_sqr (a - m)).
  destruct (@sub_r av sv a m (-200) 200) as (r & d & V & Rr & D & E); auto; try lia.
  assert (Rd : ranged (-253) 201 (a - m)).
  { change (ranged (-200 - 53) (200 + 1) (a + - m)). apply ranged_sum; [exact (f64_format _ Ha)|apply generic_format_opp; exact (f64_format _ Hm)|exact Ra|now apply ranged_opp]. }
  assert (N2 : near 2 (r * r) ((a - m) * (a - m))).
  { subst r. replace ((a - m) * (1 + d) * ((a - m) * (1 + d))) with ((a - m) * (a - m) * (1 + d) * (1 + d)) by ring. apply near_round; auto. apply near_step; auto. }
  assert (Iw : bpow radix2 (-200) <= / w <= bpow radix2 200).
  { destruct Rw. split; [change (-200)%Z with (- (200))%Z|change 200%Z with (- (-200))%Z]; rewrite bpow_opp; apply Rinv_le; try apply bpow_gt_0; try lra. }
  assert (Piw : 0 < / w) by now apply Rinv_0_lt_compat.
  assert (S2 : (a - m) * (a - m) = 0 \/ bpow radix2 (-506) <= (a - m) * (a - m) <= bpow radix2 402).
  { assert (X := ranged_mul Rd Rd). destruct X as [X|[X Y]]; [now left|right]. rewrite Rabs_pos_eq in X, Y by exact Sq. split; [exact X|exact Y]. }
  assert (T2 : tracks 3 (n_sq (n_sub av sv)) ((a - m) * (a - m))).
  { destruct (mul64 _ _ V V) as (f & F & G); [apply (range_of N2); [lia|]; destruct S2 as [S2|S2]; [now left|right; split; [apply Rle_trans with (2 := proj1 S2)|apply Rle_trans with (1 := proj2 S2)]; apply bpow_le; lia]|].
    exists (r * r * (1 + f)). split; [exact G|]. now apply near_round. }
  split.
  - apply (tracks_div T2 Tw); [auto|lia|]. destruct S2 as [S2|S2]; [left; rewrite S2; unfold Rdiv; ring|right]. unfold Rdiv. split.
    + apply Rle_trans with (B (-506 + -200)); [apply bpow_le; lia|]. rewrite bpow_plus. apply Rmult_le_compat; try apply bpow_ge_0; lra.
    + apply Rle_trans with (B (402 + 200)); [|apply bpow_le; lia]. rewrite bpow_plus. apply Rmult_le_compat; try lra.
  - destruct S2 as [S2|S2]; [rewrite S2; unfold Rdiv; rewrite Rmult_0_l; apply bpow_ge_0|]. unfold Rdiv. change 602%Z with (402 + 200)%Z. rewrite bpow_plus. apply Rmult_le_compat; try lra.
Qed.
(** the sum *)
Lemma sum64 : forall (ts : list f64) (rs : list R), Forall2 (fun t r => tracks 5 t r /\ r <= bpow radix2 602) ts rs ->
  forall k (z : f64) x y, f64_val z = XFin x -> near (5 + k) x y -> 0 <= x <= INR k * bpow radix2 604 -> INR (k + length ts) <= bpow radix2 50 ->
  exists v, f64_val (fold_left n_add ts z) = XFin v /\ near (5 + (k + length ts)) v (y + total rs).
Proof.
  induction 1 as [|t r ts rs [(b & Hb & Nb) Hr] _ IH]; intros k z x y Hz N Bx K.
  - exists x. cbn [fold_left length total fold_right]. rewrite Nat.add_0_r, Rplus_0_r. auto.
  - cbn [fold_left length]. assert (U := ulp1_pos). cbn [length] in K.
    assert (B0 : 0 <= b <= bpow radix2 603). { split; [exact (near_nonneg Nb)|]. assert (X := bpow_gt_0 radix2 602). destruct (near_bound Nb) as [Z _]; [lia|]. destruct Nb as (P & _). rewrite INR_IZR_INZ in Z. cbn in Z. apply Rabs_le_inv in Z. change 603%Z with (1 + 602)%Z. rewrite bpow_plus. change (B 1) with 2. nra. }
    assert (Ik : 0 <= INR k) by apply pos_INR. assert (Ik2 : INR k <= bpow radix2 50). { apply Rle_trans with (2 := K). apply le_INR. lia. }
    assert (Q : 0 < bpow radix2 604) by apply bpow_gt_0.
    assert (E603 : bpow radix2 603 = / 2 * bpow radix2 604). { change 603%Z with (-1 + 604)%Z. rewrite bpow_plus. reflexivity. }
    assert (W : x + b <= INR k * bpow radix2 604 + / 2 * bpow radix2 604) by lra.
    destruct (add64 _ _ Hz Hb) as (d & D & E).
    { rewrite Rabs_pos_eq by lra. apply Rle_trans with (1 := W). apply Rle_trans with (B 51 * B 604); [|rewrite <- bpow_plus; apply bpow_le; lia]. change 51%Z with (1 + 50)%Z. rewrite (bpow_plus radix2 1 50). change (B 1) with 2. assert (1 <= B 50) by (change 1 with (B 0); apply bpow_le; lia). nra. }
    assert (D' := D). apply Rabs_le_inv in D'.
    assert (Bn : 0 <= (x + b) * (1 + d) <= INR (S k) * bpow radix2 604).
    { rewrite S_INR. split; [apply Rmult_le_pos; lra|].
      apply Rle_trans with ((x + b) * (1 + ulp1)); [apply Rmult_le_compat_l; lra|].
      apply Rle_trans with ((INR k * bpow radix2 604 + / 2 * bpow radix2 604) * (1 + ulp1)); [apply Rmult_le_compat_r; lra|].
      assert (X : INR k * ulp1 <= / 4). { apply Rle_trans with (B 50 * ulp1); [apply Rmult_le_compat_r; lra|]. unfold ulp1. rewrite <- bpow_plus. change (B (50 + -53)) with (/ 8). lra. }
      replace ((INR k * B 604 + / 2 * B 604) * (1 + ulp1)) with ((INR k + / 2 + INR k * ulp1 + / 2 * ulp1) * B 604) by ring. apply Rmult_le_compat_r; lra. }
    destruct (IH (S k) (n_add z t) _ (y + r) E) as (v & V & M); auto.
    + change (5 + S k)%nat with (S (5 + k)). apply near_round; auto. apply near_add; auto. apply near_weaken with 5%nat; auto. lia.
    + replace (S k + length ts)%nat with (k + S (length ts))%nat by lia. exact K.
    + exists v. split; auto. replace (k + S (length ts))%nat with (S k + length ts)%nat by lia. cbn [total fold_right]. fold (total rs). rewrite <- Rplus_assoc. exact M.
Qed.
