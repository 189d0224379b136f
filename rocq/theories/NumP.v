(** Laws of the two number instances. *)
From Coq Require Import ZArith Reals Lra Lia Bool List.
From Flocq Require Import Core BinarySingleNaN.
From Verif Require Import Num.
Import ListNotations.
Set Implicit Arguments.

#[global] Instance Laws_xr : NumLaws xr.
Proof.
  refine {| val := fun x => x |}; try reflexivity.
  { intros a r ->. cbn. f_equal. ring. }
  exists (1 / IZR (10 ^ 16))%R. unfold n_pow10m. cbn -[IZR Z.pow].
  change (Z.pow 10 16) with 10000000000000000%Z.
  unfold x_div; cbn -[IZR]. destruct (Req_EM_T (IZR 10000000000000000) 0) as [H|H].
  - exfalso; revert H; apply not_0_IZR; discriminate.
  - split; [reflexivity|]. split.
    + apply Rdiv_lt_0_compat; [lra | apply IZR_lt; reflexivity].
    + apply Rmult_lt_reg_r with (IZR 10000000000000000); [apply IZR_lt; reflexivity|].
      unfold Rdiv. rewrite Rmult_assoc, Rinv_l by assumption.
      assert (1 < IZR 10000000000000000)%R by (apply IZR_lt; reflexivity). lra.
Defined.

Lemma f64_val_finite : forall x : f64, is_finite x = true -> f64_val x = XFin (B2R x).
Proof. intros [s|[|]| |s m e H]; try discriminate; reflexivity. Qed.

Lemma f64_cmp : forall x y : f64, is_finite x = true -> is_finite y = true ->
  Bcompare x y = Some (Rcompare (B2R x) (B2R y)).
Proof. intros. now apply Bcompare_correct. Qed.

Lemma Rcompare_lt_dec : forall a b,
  (match Rcompare a b with Lt => true | _ => false end) = (if Rlt_dec a b then true else false).
Proof. intros a b. destruct (Rcompare_spec a b); destruct (Rlt_dec a b); try reflexivity; lra. Qed.
Lemma Rcompare_eq_dec : forall a b,
  (match Rcompare a b with Eq => true | _ => false end) = (if Req_EM_T a b then true else false).
Proof. intros a b. destruct (Rcompare_spec a b); destruct (Req_EM_T a b); try reflexivity; lra. Qed.

Lemma f64_lt : forall a b : f64, Bltb a b = x_lt (f64_val a) (f64_val b).
Proof.
  intros a b.
  destruct (is_finite a) eqn:Ha; destruct (is_finite b) eqn:Hb.
  - rewrite !f64_val_finite by assumption. cbn [x_lt].
    rewrite <- Rcompare_lt_dec. rewrite (@Bltb_correct 53 1024) by assumption.
    unfold Rlt_bool. reflexivity.
  - destruct a as [s|[|]| |s m e H], b as [s'|[|]| |s' m' e' H']; try discriminate; try reflexivity;
    destruct s; reflexivity.
  - destruct a as [s|[|]| |s m e H], b as [s'|[|]| |s' m' e' H']; try discriminate; try reflexivity;
    destruct s'; reflexivity.
  - destruct a as [s|[|]| |s m e H], b as [s'|[|]| |s' m' e' H']; try discriminate; try reflexivity.
Qed.

Lemma f64_eq : forall a b : f64, Beqb a b = x_eq (f64_val a) (f64_val b).
Proof.
  intros a b.
  destruct (is_finite a) eqn:Ha; destruct (is_finite b) eqn:Hb.
  - rewrite !f64_val_finite by assumption. cbn [x_eq].
    rewrite <- Rcompare_eq_dec. rewrite (@Beqb_correct 53 1024) by assumption.
    unfold Req_bool. reflexivity.
  - destruct a as [s|[|]| |s m e H], b as [s'|[|]| |s' m' e' H']; try discriminate; try reflexivity;
    destruct s; reflexivity.
  - destruct a as [s|[|]| |s m e H], b as [s'|[|]| |s' m' e' H']; try discriminate; try reflexivity;
    destruct s'; reflexivity.
  - destruct a as [s|[|]| |s m e H], b as [s'|[|]| |s' m' e' H']; try discriminate; try reflexivity.
Qed.

Lemma f64_le : forall a b : f64, Bleb a b = x_le (f64_val a) (f64_val b).
Proof.
  intros a b.
  destruct (is_finite a) eqn:Ha; destruct (is_finite b) eqn:Hb.
  - rewrite !f64_val_finite by assumption. unfold x_le. cbn [x_lt x_eq].
    rewrite (@Bleb_correct 53 1024) by assumption.
    destruct (Rle_bool_spec (B2R a) (B2R b)); destruct (Rlt_dec (B2R a) (B2R b));
    destruct (Req_EM_T (B2R a) (B2R b)); try reflexivity; lra.
  - destruct a as [s|[|]| |s m e H], b as [s'|[|]| |s' m' e' H']; try discriminate; try reflexivity;
    destruct s; reflexivity.
  - destruct a as [s|[|]| |s m e H], b as [s'|[|]| |s' m' e' H']; try discriminate; try reflexivity;
    destruct s'; reflexivity.
  - destruct a as [s|[|]| |s m e H], b as [s'|[|]| |s' m' e' H']; try discriminate; try reflexivity.
Qed.

Lemma f64_neg : forall a : f64, f64_val (Bopp a) = x_neg (f64_val a).
Proof.
  intros a. destruct (is_finite a) eqn:Ha.
  - rewrite !f64_val_finite; [|assumption| now rewrite is_finite_Bopp].
    cbn. now rewrite B2R_Bopp.
  - destruct a as [s|[|]| |s m e H]; try discriminate; reflexivity.
Qed.

Lemma f64_abs : forall a : f64, f64_val (Babs a) = x_abs (f64_val a).
Proof.
  intros a. destruct (is_finite a) eqn:Ha.
  - rewrite !f64_val_finite; [|assumption| now rewrite is_finite_Babs].
    cbn. now rewrite B2R_Babs.
  - destruct a as [s|[|]| |s m e H]; try discriminate; reflexivity.
Qed.

Notation rnd64 := (round radix2 (SpecFloat.fexp 53 1024) (round_mode mode_NE)).

Lemma f64_ofZ_fmt : forall z, (Z.abs z <= 2 ^ 53)%Z ->
  generic_format radix2 (SpecFloat.fexp 53 1024) (IZR z).
Proof.
  intros z Hz.
  apply generic_format_FLT.
  destruct (Z.eq_dec (Z.abs z) (2 ^ 53)) as [E|E].
  - exists (Float radix2 (Z.sgn z) 53).
    + unfold F2R; cbn [Fnum Fexp]. rewrite <- (IZR_Zpower radix2) by lia.
      rewrite <- mult_IZR. f_equal. change (Zpower radix2 53) with (2^53)%Z. nia.
    + cbn [Fnum]. change (Zpower radix2 53) with (2^53)%Z. lia.
    + cbn [Fexp]. unfold SpecFloat.emin. lia.
  - exists (Float radix2 z 0).
    + unfold F2R; cbn [Fnum Fexp]. rewrite Rmult_1_r. reflexivity.
    + cbn [Fnum]. change (Zpower radix2 53) with (2^53)%Z. lia.
    + cbn [Fexp]. unfold SpecFloat.emin. lia.
Qed.

Lemma f64_ofZ : forall z, (Z.abs z <= 2 ^ 53)%Z ->
  is_finite (n_ofZ z : f64) = true /\ B2R (n_ofZ z : f64) = IZR z.
Proof.
  intros z Hz.
  assert (Hfmt := f64_ofZ_fmt z Hz).
  cbn [n_ofZ Num_f64].
  generalize (binary_normalize_correct 53 1024 _ _ mode_NE z 0 false).
  replace (F2R {| Fnum := z; Fexp := 0 |}) with (IZR z) by (unfold F2R; cbn; ring).
  cbv zeta. rewrite (round_generic radix2 _ _ _ Hfmt).
  rewrite Rlt_bool_true.
  - intros (A & B & _). split; assumption.
  - rewrite <- (IZR_Zpower radix2) by lia. rewrite <- abs_IZR. apply IZR_lt.
    change (Zpower radix2 1024) with (2^1024)%Z.
    apply Z.le_lt_trans with (1 := Hz). reflexivity.
Qed.

Lemma f64_tiny : exists r, f64_val (n_pow10m 16) = XFin r /\ (0 < r < 1)%R.
Proof.
  assert (Hf : is_finite (n_pow10m 16 : f64) = true) by (vm_compute; reflexivity).
  exists (B2R (n_pow10m 16 : f64)). split; [now apply f64_val_finite|].
  assert (H0 : Bltb (n_ofZ 0) (n_pow10m 16 : f64) = true) by (vm_compute; reflexivity).
  assert (H1 : Bltb (n_pow10m 16 : f64) (n_ofZ 1) = true) by (vm_compute; reflexivity).
  destruct (f64_ofZ 0) as [F0 V0]; [lia|]. destruct (f64_ofZ 1) as [F1 V1]; [lia|].
  pose proof (@Bltb_correct 53 1024 (n_ofZ 0 : f64) (n_pow10m 16 : f64) F0 Hf) as C0.
  pose proof (@Bltb_correct 53 1024 (n_pow10m 16 : f64) (n_ofZ 1 : f64) Hf F1) as C1.
  rewrite V0 in C0. rewrite V1 in C1.
  assert (E0 : Rlt_bool 0 (B2R (n_pow10m 16 : f64)) = true) by (rewrite <- C0; exact H0).
  assert (E1 : Rlt_bool (B2R (n_pow10m 16 : f64)) 1 = true) by (rewrite <- C1; exact H1).
  split.
  - destruct (Rlt_bool_spec 0 (B2R (n_pow10m 16 : f64))); [assumption|discriminate].
  - destruct (Rlt_bool_spec (B2R (n_pow10m 16 : f64)) 1); [assumption|discriminate].
Qed.

Lemma f64_sub_self : forall (a : f64) r, f64_val a = XFin r -> f64_val (Bminus mode_NE a a) = XFin 0.
Proof.
  intros a r H.
  assert (F : is_finite a = true) by (destruct a as [s|[|]| |s m e B]; try discriminate; reflexivity).
  generalize (Bminus_correct 53 1024 _ _ mode_NE a a F F).
  replace (B2R a - B2R a)%R with 0%R by ring.
  rewrite round_0 by (apply valid_rnd_round_mode).
  rewrite Rabs_R0, Rlt_bool_true by (apply bpow_gt_0).
  intros (V & FF & _). rewrite f64_val_finite by exact FF. now rewrite V.
Qed.

#[global] Instance Laws_f64 : NumLaws f64.
Proof.
  refine {| val := f64_val |}.
  - exact f64_lt.
  - exact f64_le.
  - exact f64_eq.
  - intros [s|[|]| |s m e H]; reflexivity.
  - reflexivity.
  - reflexivity.
  - exact f64_neg.
  - exact f64_abs.
  - intros z Hz. destruct (f64_ofZ z Hz) as [F V].
    change (f64_val (n_ofZ z) = XFin (IZR z)). rewrite f64_val_finite by exact F. now rewrite V.
  - exact f64_sub_self.
  - exact f64_tiny.
Defined.
