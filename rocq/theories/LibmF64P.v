(** Elementary functions of binary64 that are rounded correctly; they are [accurate]. *)
From Coq Require Import ZArith Reals Lra Lia.
From Flocq Require Import Core BinarySingleNaN.
From Verif Require Import Num NumP XLibm GeomP Round64P SpecF64.
Local Open Scope R_scope.
Set Implicit Arguments.

#[local] Instance vexp64 : Valid_exp (SpecFloat.fexp 53 1024). Proof. apply fexp_correct. reflexivity. Qed.
Notation fx64 := (SpecFloat.fexp 53 1024).
(** the binary64 number nearest to [r] *)
Definition nearest64 (r : R) : f64 :=
  binary_normalize 53 1024 eq_refl eq_refl mode_NE (ZnearestE (scaled_mantissa radix2 fx64 r)) (cexp radix2 fx64 r) false.

Lemma nearest64_val r : Rabs r <= B 1023 -> f64_val (nearest64 r) = XFin (rnd r).
Proof.
  intros H. unfold nearest64.
  assert (C := binary_normalize_correct 53 1024 eq_refl eq_refl mode_NE (ZnearestE (scaled_mantissa radix2 fx64 r)) (cexp radix2 fx64 r) false).
  cbv zeta in C. set (b := binary_normalize 53 1024 eq_refl eq_refl mode_NE _ _ false) in *.
  assert (G : round radix2 fx64 (round_mode mode_NE) (F2R (Float radix2 (ZnearestE (scaled_mantissa radix2 fx64 r)) (cexp radix2 fx64 r))) = rnd r).
  { apply round_generic; [apply valid_rnd_round_mode|]. apply (generic_format_round radix2 fx64 (round_mode mode_NE) r). }
  rewrite G in C. rewrite Rlt_bool_true in C by (now apply rnd_small). destruct C as (C & F & _). rewrite f64_val_finite by exact F. now f_equal.
Qed.

Definition lift1 (g : R -> R) (x : f64) : f64 := match f64_val x with XFin a => nearest64 (g a) | _ => B754_nan end.
Definition lift2 (g : R -> R -> R) (x y : f64) : f64 := match f64_val x, f64_val y with XFin a, XFin b => nearest64 (g a b) | _, _ => B754_nan end.
Definition Libm_nearest : Libm f64 :=
  {| m_pi := nearest64 PI; m_sin := lift1 sin; m_cos := lift1 cos; m_asin := lift1 asin; m_acos := lift1 acos;
     m_atan := lift1 atan; m_atan2 := lift2 ratan2; m_hypot := lift2 (fun a b => sqrt (a * a + b * b)) |}.

Lemma nearest_near r : Rabs r <= 4 -> exists v, f64_val (nearest64 r) = XFin v /\ Rabs (v - r) <= B (-51).
Proof.
  intros H. exists (rnd r). split.
  - apply nearest64_val. apply Rle_trans with (B 2); [change (B 2) with 4; exact H|apply bpow_le; lia].
  - destruct (rnd_abs r) as (d & t & D & T & E). rewrite E.
    assert (E1 : round radix2 fx64 (round_mode mode_NE) r - r = (rnd r - r)) by reflexivity.
    assert (G : Rabs (rnd r - r) <= / 2 * B (-50)).
    { destruct (Req_dec r 0) as [->|N0]. { rewrite round_0 by apply valid_rnd_round_mode. rewrite Rminus_0_r, Rabs_R0. assert (Hb := bpow_ge_0 radix2 (-50)). lra. }
      apply Rle_trans with (/ 2 * ulp radix2 fx64 r); [apply error_le_half_ulp; apply fexp_correct; reflexivity|]. apply Rmult_le_compat_l; [lra|].
      apply Rle_trans with (ulp radix2 fx64 (B 2)).
      - apply ulp_le; [apply fexp_correct; reflexivity| |rewrite (Rabs_pos_eq (B 2)) by apply bpow_ge_0; exact H]. apply (@fexp_monotone 53 1024).
      - rewrite ulp_bpow. apply bpow_le. unfold SpecFloat.fexp, SpecFloat.emin. lia. }
    rewrite <- E. apply Rle_trans with (1 := G). change (/ 2) with (B (-1)). rewrite <- bpow_plus. apply bpow_le. lia.
Qed.
Lemma PI_4 : PI <= 4. Proof. exact PI_4. Qed.

Lemma ratan2_bound y x : Rabs (ratan2 y x) <= PI.
Proof.
  assert (P := PI_RGT_0). unfold ratan2.
  destruct (Rlt_dec 0 x). { assert (A := atan_bound (y / x)). apply Rabs_le. lra. }
  destruct (Rlt_dec x 0) as [Hx|].
  - assert (A := atan_bound (y / x)). assert (I : / x < 0) by now apply Rinv_lt_0_compat.
    destruct (Rle_dec 0 y) as [Hy|Hy].
    + assert (y / x <= 0) by (unfold Rdiv; nra). assert (atan (y / x) <= 0).
      { destruct H as [H|H]; [rewrite <- atan_0; apply Rlt_le, atan_increasing; auto|rewrite H, atan_0; lra]. }
      apply Rabs_le. lra.
    + assert (0 < y / x) by (unfold Rdiv; nra). assert (0 < atan (y / x)) by (rewrite <- atan_0; apply atan_increasing; auto). apply Rabs_le. lra.
  - destruct (Rlt_dec 0 y); [apply Rabs_le; lra|]. destruct (Rlt_dec y 0); [apply Rabs_le; lra|]. rewrite Rabs_R0. lra.
Qed.

Theorem nearest_accurate : accurate Libm_nearest (B (-51)).
Proof.
  assert (Bp := bpow_gt_0 radix2 (-51)). assert (P4 := PI_4). assert (P0 := PI_RGT_0).
  constructor; cbn [m_pi m_sin m_cos m_acos m_atan2 m_hypot Libm_nearest].
  - apply nearest_near. apply Rabs_le. lra.
  - intros x a X _. unfold lift1. rewrite X. apply nearest_near. assert (S := SIN_bound a). apply Rabs_le. lra.
  - intros x a X _. unfold lift1. rewrite X. apply nearest_near. assert (S := COS_bound a). apply Rabs_le. lra.
  - intros x a X _. unfold lift1. rewrite X. destruct (@nearest_near (acos a)) as (v & V & E). { assert (S := acos_bound a). apply Rabs_le. lra. }
    exists v. split; [exact V|lra].
  - intros y x b a Y X. unfold lift2. rewrite Y, X. assert (R := ratan2_bound b a). destruct (@nearest_near (ratan2 b a)) as (v & V & E); [lra|].
    exists v, (ratan2 b a). split; [exact V|]. split; [lra|]. split; [exact R|]. exact (polar a b).
  - intros x y a b X Y H. unfold lift2. rewrite X, Y. assert (S := sqrt_pos (a * a + b * b)). set (h := sqrt (a * a + b * b)) in *.
    exists (rnd h). split; [|split].
    + apply nearest64_val. rewrite Rabs_pos_eq by exact S. apply Rle_trans with (1 := H). apply bpow_le. lia.
    + rewrite <- (round_0 radix2 fx64 (round_mode mode_NE)). apply round_le; [apply fexp_correct; reflexivity|apply valid_rnd_round_mode|exact S].
    + destruct (rnd_abs h) as (d & t & D & T & E). rewrite E. replace (h * (1 + d) + t - h) with (h * d + t) by ring.
      apply Rle_trans with (1 := Rabs_triang _ _). rewrite Rabs_mult, (Rabs_pos_eq h) by exact S. apply Rplus_le_compat.
      * rewrite Rmult_comm. apply Rmult_le_compat_r; [exact S|]. apply Rle_trans with (1 := D). apply bpow_le. lia.
      * apply Rle_trans with (1 := T). apply bpow_le. lia.
Qed.
