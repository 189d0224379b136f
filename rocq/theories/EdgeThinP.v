(** A thin disk in binary64: its tilt is read from the end of the short axis, which drowns in the rounding of pi. *)
From Coq Require Import ZArith Reals Lra Lia Bool Machin Ratan.
From Flocq Require Import Core BinarySingleNaN.
From Verif Require Import Num NumP XLibm Geometry SpecGeom SpecF64 SpecEdge Round64P GeomP GeomMoreP EdgeP DiskErrP GeomF64P GeomF64MoreP DiskF64P DiskF64ExP LibmF64P EdgeErrP EdgeF64P.
Local Open Scope R_scope.
Set Implicit Arguments.

(** pi to 18 digits, by a series of arctangents *)
Lemma PI_digits : 3141592653589793238 / 1000000000000000000 < PI < 3141592653589793239 / 1000000000000000000.
Proof.
  assert (H := PI_2_3_7_ineq 9). cbn [Nat.mul Nat.add] in H.
  unfold tg_alt, PI_2_3_7_tg, Ratan_seq in H. cbn [sum_f_R0] in H. cbn [Nat.mul Nat.add] in H. rewrite !INR_IZR_INZ in H. cbn [Z.of_nat Pos.of_succ_nat Pos.succ pow] in H. lra.
Qed.
Lemma PI_far (n : Z) : / 4 <= Rabs (PI * B 51 - IZR n).
Proof.
  assert (P := PI_digits). change (B 51) with 2251799813685248.
  assert (Q : 7074237752028440 + / 4 <= PI * 2251799813685248 <= 7074237752028441 - / 4) by lra.
  destruct (Z_le_gt_dec n 7074237752028440) as [H|H].
  - apply IZR_le in H. rewrite Rabs_pos_eq by lra. lra.
  - assert (H' : (7074237752028441 <= n)%Z) by lia. apply IZR_le in H'. rewrite Rabs_left1 by lra. lra.
Qed.
#[local] Instance vexp : Valid_exp (SpecFloat.fexp 53 1024). Proof. apply fexp_correct. reflexivity. Qed.
#[local] Instance vrnd : Valid_rnd (round_mode mode_NE). Proof. apply valid_rnd_round_mode. Qed.
Lemma rnd_grid a : 1 <= a < 2 -> exists n, rnd a = IZR n * B (-52).
Proof.
  intros H. eexists. unfold round, F2R. cbn [Fnum Fexp].
  replace (cexp radix2 (SpecFloat.fexp 53 1024) a) with (-52)%Z; [reflexivity|].
  unfold cexp. replace (mag_val radix2 a (mag radix2 a)) with 1%Z; [reflexivity|]. symmetry. apply mag_unique_pos. change (B (1 - 1)) with 1. change (B 1) with 2. exact H.
Qed.
Lemma rnd_id (x : f64) a : f64_val x = XFin a -> rnd a = a.
Proof. intros V. apply round_generic; [exact vrnd|exact (f64_format _ V)]. Qed.
Lemma sin_half x : 0 <= x <= 1 -> x / 2 <= sin x.
Proof.
  intros H. destruct (pre_sin_bound x 0) as [L _]; [lra|lra|]. apply Rle_trans with (2 := L). unfold sin_approx. cbn [Nat.mul Nat.add sum_f_R0]. unfold sin_term. cbn [Nat.mul Nat.add pow].
  replace (INR (fact 1)) with 1 by (cbn; ring). replace (INR (fact 3)) with 6 by (cbn; ring).
  assert (x * (x * x) <= x) by nra. lra.
Qed.

(** an ellipse 2^70 times as wide as it is high *)
Definition thin : f64 := @B754_finite 53 1024 false 4503599627370496 (-122) eq_refl.
Lemma thin_val : f64_val thin = XFin (B (-70)).
Proof.
  rewrite f64_val_finite by reflexivity. f_equal. unfold thin, B2R, F2R. cbn [Fnum Fexp cond_Zopp]. change (IZR 4503599627370496) with (B 52). rewrite <- bpow_plus. reflexivity.
Qed.
Lemma thin_direction : f64_val (n_mul (n_mul (n_mul (num2 2) (n_ofZ 1)) thin) (n_ofZ 0) : f64) = XFin 0 /\
  f64_val (n_sub (n_mul (n_add (n_sq (n_ofZ 0)) n_one) (n_sq thin)) (n_sq (n_ofZ 1)) : f64) = XFin (-1).
Proof.
  split.
  - apply (@same_val _ (n_ofZ 0)); [vm_compute; exact eq_refl|]. apply (of_Z 0). vm_compute. discriminate.
  - apply (@same_val _ (n_ofZ (-1))); [vm_compute; exact eq_refl|]. apply (of_Z (-1)). vm_compute. discriminate.
Qed.
Lemma thin_angle : exists a, f64_val (vertex_angle Libm_nearest (n_ofZ 1) thin (n_ofZ 0)) = XFin a /\ B (-54) <= Rabs (PI / 2 - a) <= B (-50).
Proof.
  destruct thin_direction as [N D]. assert (PB := PI_bounds). assert (U := ulp1_pos). assert (T := tiny_1075).
  assert (At : f64_val (m_atan2 Libm_nearest (n_mul (n_mul (n_mul (num2 2) (n_ofZ 1)) thin) (n_ofZ 0)) (n_sub (n_mul (n_add (n_sq (n_ofZ 0)) n_one) (n_sq thin)) (n_sq (n_ofZ 1)))) = XFin (rnd PI)).
  { cbn [m_atan2 Libm_nearest]. unfold lift2. rewrite N, D. replace (ratan2 0 (-1)) with PI.
    - apply nearest64_val. rewrite Rabs_pos_eq by lra. apply Rle_trans with (B 2); [change (B 2) with 4; lra|apply bpow_le; lia].
    - unfold ratan2. destruct (Rlt_dec 0 (-1)); [lra|]. destruct (Rlt_dec (-1) 0); [|lra]. destruct (Rle_dec 0 0); [|lra]. replace (0 / -1) with 0 by field. rewrite atan_0. ring. }
  assert (Ep : Rabs (rnd PI - PI) <= B (-51)). { destruct (@nearest_near PI) as (v & V & E); [apply Rabs_le; lra|]. rewrite nearest64_val in V; [|rewrite Rabs_pos_eq by lra; apply Rle_trans with (B 2); [change (B 2) with 4; lra|apply bpow_le; lia]]. injection V as <-. exact E. }
  assert (B51 : B (-51) = 4 * ulp1) by (unfold ulp1; change 4 with (B 2); rewrite <- bpow_plus; reflexivity).
  assert (B50 : B (-50) = 8 * ulp1) by (unfold ulp1; change 8 with (B 3); rewrite <- bpow_plus; reflexivity).
  assert (B52 : B (-52) = 2 * ulp1) by (unfold ulp1; change 2 with (B 1); rewrite <- bpow_plus; reflexivity).
  assert (B54 : B (-54) = ulp1 / 2) by (unfold ulp1; change (B (-54)) with (B (-53 + -1)); rewrite bpow_plus; reflexivity).
  apply Rabs_le_inv in Ep. set (p := rnd PI) in *.
  assert (Va : f64_val (vertex_angle Libm_nearest (n_ofZ 1) thin (n_ofZ 0)) = XFin (rnd (/ 2 * p))).
  { unfold vertex_angle. apply (mul_correct _ _ of_half At). apply Rle_trans with (B 1); [change (B 1) with 2; apply Rabs_le; lra|apply bpow_le; lia]. }
  exists (rnd (/ 2 * p)). split; [exact Va|]. split.
  - destruct (@rnd_grid (/ 2 * p)) as (n & ->); [lra|]. assert (F := PI_far n).
    replace (PI / 2 - IZR n * B (-52)) with ((PI * B 51 - IZR n) * B (-52)).
    + rewrite Rabs_mult, (Rabs_pos_eq (B (-52))) by (apply bpow_ge_0). rewrite B52, B54. nra.
    + rewrite Rmult_minus_distr_r. f_equal. rewrite Rmult_assoc, <- bpow_plus. reflexivity.
  - destruct (rnd_abs (/ 2 * p)) as (d & t & Hd & Ht & ->). apply Rabs_le_inv in Hd. apply Rabs_le_inv in Ht.
    assert (K : Rabs (/ 2 * p * d) <= 2 * ulp1) by (apply abs_mul_le; apply Rabs_le; lra). apply Rabs_le_inv in K.
    replace (PI / 2 - (/ 2 * p * (1 + d) + t)) with ((PI - p) / 2 - / 2 * p * d - t) by field. apply Rabs_le. lra.
Qed.
Lemma thin_vertex : exists x y, f64_val (fst (xy_at Libm_nearest (n_ofZ 1) thin (vertex_angle Libm_nearest (n_ofZ 1) thin (n_ofZ 0)) (n_ofZ 0) (n_ofZ 1))) = XFin x /\
  f64_val (snd (xy_at Libm_nearest (n_ofZ 1) thin (vertex_angle Libm_nearest (n_ofZ 1) thin (n_ofZ 0)) (n_ofZ 0) (n_ofZ 1))) = XFin y /\ B (-56) <= Rabs x /\ Rabs y <= B (-70).
Proof.
  destruct thin_angle as (a & Va & Ha). set (thv := vertex_angle Libm_nearest (n_ofZ 1) thin (n_ofZ 0)) in *.
  assert (Small : forall r, Rabs r <= 1024 -> Rabs r <= B 1023). { intros r H. apply Rle_trans with (B 10); [change (B 10) with 1024; exact H|apply bpow_le; lia]. }
  assert (Z0 : f64_val (n_ofZ 0 : f64) = XFin 0) by (apply (of_Z 0); vm_compute; discriminate).
  assert (Z1 : f64_val (n_ofZ 1 : f64) = XFin 1) by (apply (of_Z 1); vm_compute; discriminate).
  assert (CB := COS_bound a). assert (SB := SIN_bound a). assert (U := ulp1_pos). assert (T := tiny_1075).
  assert (Vc : f64_val (m_cos Libm_nearest thv) = XFin (rnd (cos a))). { cbn [m_cos Libm_nearest]. unfold lift1. rewrite Va. apply nearest64_val. apply Small, Rabs_le. lra. }
  assert (Vs : f64_val (m_sin Libm_nearest thv) = XFin (rnd (sin a))). { cbn [m_sin Libm_nearest]. unfold lift1. rewrite Va. apply nearest64_val. apply Small, Rabs_le. lra. }
  assert (One : forall r, Rabs r <= 1 -> Rabs (rnd r) <= 1). { intros r H. change 1 with (B 0) in *. apply abs_round_le_generic; [exact vexp|exact vrnd| |exact H]. apply generic_format_bpow. unfold SpecFloat.fexp, SpecFloat.emin. lia. }
  assert (Cs : Rabs (rnd (cos a)) <= 1) by (apply One, Rabs_le; lra). assert (Ss : Rabs (rnd (sin a)) <= 1) by (apply One, Rabs_le; lra).
  assert (Mul1 : forall x r, f64_val x = XFin r -> Rabs r <= 1 -> f64_val (n_mul (n_ofZ 1) x) = XFin r).
  { intros x r V H. rewrite (mul_correct _ _ Z1 V); rewrite Rmult_1_l; [f_equal; exact (rnd_id _ V)|]. apply Small. lra. }
  assert (Vc1 := Mul1 _ _ Vc Cs). assert (Vc2 := Mul1 _ _ Vc1 Cs). assert (Vs1 := Mul1 _ _ Vs Ss).
  assert (P70 := bpow_gt_0 radix2 (-70)). assert (L70 : B (-70) <= 1) by (change 1 with (B 0); apply bpow_le; lia).
  assert (Hys : Rabs (B (-70) * rnd (sin a)) <= B (-70)) by (rewrite Rabs_mult, (Rabs_pos_eq (B (-70))) by lra; nra).
  assert (Vy : f64_val (n_mul thin (n_mul (n_ofZ 1) (m_sin Libm_nearest thv))) = XFin (rnd (B (-70) * rnd (sin a)))) by (apply (mul_correct _ _ thin_val Vs1), Small; lra).
  assert (By : Rabs (rnd (B (-70) * rnd (sin a))) <= B (-70)). { apply abs_round_le_generic; [exact vexp|exact vrnd| |exact Hys]. apply generic_format_bpow. unfold SpecFloat.fexp, SpecFloat.emin. lia. }
  set (y := rnd (B (-70) * rnd (sin a))) in *.
  assert (V0 : f64_val (n_mul (n_ofZ 0) (n_mul thin (n_mul (n_ofZ 1) (m_sin Libm_nearest thv)))) = XFin 0).
  { rewrite (mul_correct _ _ Z0 Vy); rewrite Rmult_0_l; [f_equal; apply round_0, vrnd|]. rewrite Rabs_R0. apply bpow_ge_0. }
  assert (Vx : f64_val (n_sub (n_mul (n_ofZ 1) (n_mul (n_ofZ 1) (m_cos Libm_nearest thv))) (n_mul (n_ofZ 0) (n_mul thin (n_mul (n_ofZ 1) (m_sin Libm_nearest thv))))) = XFin (rnd (cos a))).
  { rewrite (sub_correct _ _ Vc2 V0); rewrite Rminus_0_r; [f_equal; exact (rnd_id _ Vc)|]. apply Small. lra. }
  exists (rnd (cos a)), y. split; [exact Vx|]. split; [exact Vy|]. split; [|exact By].
  assert (P55 : B (-55) <= Rabs (cos a)).
  { replace (cos a) with (sin (PI / 2 - a)) by (rewrite sin_shift; reflexivity). set (d := PI / 2 - a) in *.
    assert (B50 : B (-50) <= 1) by (change 1 with (B 0); apply bpow_le; lia).
    assert (B54 : B (-54) = 2 * B (-55)) by (change 2 with (B 1); rewrite <- bpow_plus; reflexivity).
    destruct (Rle_dec 0 d).
    - rewrite Rabs_pos_eq in Ha by lra. assert (S := @sin_half d). rewrite Rabs_pos_eq; lra.
    - rewrite Rabs_left in Ha by lra. rewrite <- Rabs_Ropp, <- sin_neg. assert (S := @sin_half (- d)). rewrite Rabs_pos_eq; lra. }
  destruct (@rnd_rel (cos a)) as (d & Hd & ->). { apply Rle_trans with (2 := P55). apply bpow_le. lia. }
  rewrite Rabs_mult. apply Rabs_le_inv in Hd. rewrite (Rabs_pos_eq (1 + d)) by lra.
  assert (B55 : B (-55) = 2 * B (-56)) by (change 2 with (B 1); rewrite <- bpow_plus; reflexivity). assert (P56 := bpow_gt_0 radix2 (-56)). nra.
Qed.
Theorem thin_disk : exists rv iv tv r i t R m, disk_parameters Libm_nearest (n_ofZ 1) thin (n_ofZ 0) (n_ofZ 1) = (rv, iv, tv) /\
  f64_val rv = XFin r /\ f64_val iv = XFin i /\ f64_val tv = XFin t /\
  largest_distance 1 (B (-70)) 0 1 R /\ smallest_distance 1 (B (-70)) 0 1 m /\ 1 <= R <= 1 + / 1000 /\
  Rabs (cos (degrees t)) <= / 1000 /\ ~ edge_within (R / 2) 0 0 1 (B (-70)) 0 1 r i t.
Proof.
  assert (Z0 : f64_val (n_ofZ 0 : f64) = XFin 0) by (apply (of_Z 0); vm_compute; discriminate).
  assert (Z1 : f64_val (n_ofZ 1 : f64) = XFin 1) by (apply (of_Z 1); vm_compute; discriminate).
  assert (Q : B (-51) = 4 * ulp1) by (unfold ulp1; change 4 with (B 2); rewrite <- bpow_plus; reflexivity). assert (U := ulp1_pos).
  assert (E1 : 2 * ulp1 <= B (-51)) by lra. assert (E2 : B (-51) <= / 1000000) by lra.
  assert (P70 := bpow_gt_0 radix2 (-70)). assert (L70 : B (-70) <= / 1000000) by (apply Rle_trans with (2 := E2); apply bpow_le; lia).
  assert (O70 : ordinary (B (-70))) by (unfold ordinary; rewrite Rabs_pos_eq by lra; split; apply bpow_le; lia).
  assert (O1 : ordinary 1) by (apply ordinary_between; lra).
  destruct (@disk64_vertex Libm_nearest (B (-51)) nearest_accurate E1 E2 (n_ofZ 1) thin (n_ofZ 0) (n_ofZ 1) 1 (B (-70)) 0 1 Z1 thin_val Z0 Z1)
    as (rv & iv & tv & r & i & t & G & G1 & G2 & G3 & G4 & G5 & al & hh & Dh & Nh & t1 & x1 & y1 & be & _ & _ & _ & _ & _ & _ & D1 & D2 & Hbe & HT & X1 & Y1); auto; try lra; [left; reflexivity|].
  destruct thin_vertex as (x & y & X & Y & Hx & Hy). rewrite X1 in X. injection X as <-. rewrite Y1 in Y. injection Y as <-.
  assert (R1 := ellipse_size 0 Rlt_0_1 P70 Rlt_0_1 0). destruct R1 as [R1 _]. unfold px in R1. rewrite cos_0, sin_0 in R1. replace (1 * (1 * 1) - 0 * (B (-70) * (1 * 0))) with 1 in R1 by ring. rewrite Rabs_R1 in R1.
  assert (AA := axes_area 0 Rlt_0_1 P70 Rlt_0_1). assert (PM := m_pos 0 Rlt_0_1 P70 Rlt_0_1).
  assert (RS := R_sq 1 0 P70 Rlt_0_1). assert (AG := A_gt 0 Rlt_0_1 P70).
  exists rv, iv, tv, r, i, t, (d_major 1 (B (-70)) 0 1), (d_minor 1 (B (-70)) 0 1).
  split; [exact G|]. split; [exact G1|]. split; [exact G2|]. split; [exact G3|]. split; [apply major_largest; lra|]. split; [apply minor_smallest; lra|].
  set (R := d_major 1 (B (-70)) 0 1) in *. set (m := d_minor 1 (B (-70)) 0 1) in *.
  assert (R2 : R <= 1 + / 1000). { apply Rnot_lt_le. intros F. set (h := sqrt _) in *. nra. }
  split; [lra|].
  assert (m1 : m <= / 1000000) by nra.
  assert (HT' : Rabs (degrees t - (be + PI / 2)) <= 20 * B (-51)). { destruct HT as [HT|[_ HT]]; [exact HT|]. exfalso. nra. }
  assert (Sb : Rabs (sin be) <= / 10000).
  { set (g := sqrt (x1 * x1 + y1 * y1)) in *. assert (Hg : Rabs x1 <= g). { unfold g. rewrite <- (sqrt_square (Rabs x1)) by apply Rabs_pos. apply sqrt_le_1_alt. rewrite <- Rabs_mult, Rabs_pos_eq by nra. nra. }
    assert (B56 := bpow_gt_0 radix2 (-56)). assert (K : Rabs y1 = g * Rabs (sin be)) by (rewrite D2 at 1; rewrite Rabs_mult, (Rabs_pos_eq g) by lra; reflexivity).
    assert (E70 : B (-70) = B (-56) * / 16384) by (change (/ 16384) with (B (-14)); rewrite <- bpow_plus; reflexivity).
    assert (P := Rabs_pos (sin be)). apply Rnot_lt_le. intros F. nra. }
  assert (Ct : Rabs (cos (degrees t)) <= / 1000).
  { assert (K := cos_lip (degrees t) (be + PI / 2)). rewrite cos_plus, cos_PI2, sin_PI2 in K. apply Rabs_le_inv in Sb. assert (K2 := Rle_trans _ _ _ K HT'). apply Rabs_le_inv in K2. apply Rabs_le. lra. }
  split; [exact Ct|]. intros [_ H].
  assert (On : on_ellipse 0 0 1 (B (-70)) 0 1 1 0).
  { apply ellipse_angle; try lra. exists 0. unfold px, py. rewrite cos_0, sin_0. split; ring. }
  destruct (H 1 0 On) as (x' & y' & (th & E & _) & Hd).
  assert (Ci : Rabs (cos (degrees i)) <= / 1000). { assert (K : 0 <= m / R <= / 1000000). { split; [apply Rmult_le_pos; [lra|apply Rlt_le, Rinv_0_lt_compat; lra]|]. apply Rmult_le_reg_r with R; [lra|]. unfold Rdiv. rewrite Rmult_assoc, Rinv_l by lra. nra. } apply Rabs_le_inv in G5. apply Rabs_le. lra. }
  assert (Hr : Rabs r <= 2) by (apply Rabs_le_inv in G4; apply Rabs_le; nra).
  assert (Xs : Rabs x' <= 4 / 1000).
  { rewrite E. assert (A1 : Rabs (r * cos th * cos (degrees t)) <= 2 * 1 * / 1000) by (repeat apply abs_mul_le; auto; apply Rabs_le, COS_bound).
    assert (A2 : Rabs (r * cos (degrees i) * sin th * sin (degrees t)) <= 2 * / 1000 * 1 * 1) by (repeat apply abs_mul_le; auto; apply Rabs_le, SIN_bound).
    apply Rabs_le_inv in A1. apply Rabs_le_inv in A2. apply Rabs_le. lra. }
  apply Rabs_le_inv in Xs. assert (F : 99 / 100 <= dist 1 0 x' y').
  { unfold dist. rewrite <- (sqrt_square (99 / 100)) by lra. apply sqrt_le_1_alt. assert (S := Rle_0_sqr (0 - y')). unfold Rsqr in S. nra. }
  lra.
Qed.
