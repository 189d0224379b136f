(** Facts on sums, squares and quotients that hold in exact arithmetic and in binary64. *)
From Coq Require Import ZArith List Bool Lia Reals Lra.
From Flocq Require Import Core BinarySingleNaN.
From Verif Require Import Num NumP SpecNum ValidateP.
Set Implicit Arguments.
Local Open Scope R_scope.

Definition nonneg (v : xr) : Prop := xle (XFin 0) v.
Lemma nonneg_iff v : nonneg v <-> v = XPInf \/ exists r, v = XFin r /\ 0 <= r.
Proof.
  unfold nonneg, xle. destruct v; cbn; split; intros H.
  - destruct H as [H|[H _]]; [tauto|discriminate].
  - destruct H as [H|[r [H _]]]; discriminate.
  - auto.
  - auto.
  - destruct H as [H|[H _]]; [tauto|discriminate].
  - destruct H as [H|[r [H _]]]; discriminate.
  - right. exists r. split; auto. destruct H as [H|[H _]]; [lra|]. injection H as H. lra.
  - destruct H as [H|(q & H & Hq)]; [discriminate|]. injection H as <-. destruct (Rle_lt_or_eq_dec 0 r Hq); [left; auto|right; subst; split; congruence].
Qed.

Class AddLaws (T : Type) {NT : Num T} {LT : NumLaws T} : Prop := mkAL {
  a_nan : forall x y : T, val x = XNaN \/ val y = XNaN -> val (n_add x y) = XNaN;
  a_zero : forall x y : T, val x = XFin 0 -> val (n_add x y) = val y;
  a_zero_r : forall x y : T, val y = XFin 0 -> val (n_add x y) = val x;
  a_up : forall x y : T, nonneg (val x) -> nonneg (val y) -> xle (val x) (val (n_add x y)) /\ xle (val y) (val (n_add x y));
  a_sq : forall x : T, (val x = XNaN /\ val (n_mul x x) = XNaN) \/ (val x <> XNaN /\ nonneg (val (n_mul x x)));
  a_div_sq : forall x y : T, nonneg (val x) -> val (n_div x (n_mul y y)) = XNaN \/ nonneg (val (n_div x (n_mul y y)));
  a_div_one : forall x : T, val (n_div x n_one) = val x;
  a_sub_nan : forall x y : T, val x = XNaN \/ val y = XNaN -> val (n_sub x y) = XNaN;
  a_div_nan : forall x y : T, val x = XNaN \/ val y = XNaN -> val (n_div x y) = XNaN;
  a_zero_mul : forall x y : T, val x = XFin 0 \/ val x = XNaN -> val (n_mul x y) = XFin 0 \/ val (n_mul x y) = XNaN;
  a_zero_div : forall x y : T, val x = XFin 0 -> val (n_div x y) = XFin 0 \/ val (n_div x y) = XNaN
}.
Arguments AddLaws T {NT LT}.

#[global] Instance Add_xr : AddLaws xr.
Proof.
  constructor; cbn [val Laws_xr n_add n_mul n_div Num_xr n_sub].
  - intros [] [] [H|H]; try discriminate; reflexivity.
  - intros x y ->. destruct y; cbn; auto. f_equal. ring.
  - intros x y ->. destruct x; cbn; auto. f_equal. ring.
  - intros x y Hx Hy. apply nonneg_iff in Hx, Hy. destruct Hx as [-> |(r & -> & Hr)], Hy as [-> |(q & -> & Hq)]; cbn [x_add];
      split; unfold xle; cbn; try (right; split; [reflexivity|discriminate]); auto.
    + destruct (Req_dec q 0) as [-> |]; [right; split; [f_equal; ring|discriminate]|left; lra].
    + destruct (Req_dec r 0) as [-> |]; [right; split; [f_equal; ring|discriminate]|left; lra].
  - intros [| | |r]; [left; auto|right|right|right]; (split; [discriminate|]); apply nonneg_iff; cbn; auto. right. eexists. split; [reflexivity|nra].
  - intros x y Hx. apply nonneg_iff in Hx. destruct Hx as [-> |(r & -> & Hr)]; destruct y as [| | |y]; cbn; auto.
    + right. destruct (Req_EM_T (y * y) 0); [apply nonneg_iff; auto|]. destruct (Rlt_dec 0 (y * y)); [apply nonneg_iff; auto|]. exfalso. assert (H := Rle_0_sqr y). unfold Rsqr in H. lra.
    + right. apply nonneg_iff. right. exists 0. split; auto. lra.
    + right. apply nonneg_iff. right. exists 0. split; auto. lra.
    + destruct (Req_EM_T (y * y) 0).
      * destruct (Rlt_dec 0 r); [right; apply nonneg_iff; auto|]. destruct (Rlt_dec r 0); [lra|auto].
      * right. apply nonneg_iff. right. eexists. split; [reflexivity|]. assert (H := Rle_0_sqr y). unfold Rsqr in H. apply Rmult_le_pos; auto. left. apply Rinv_0_lt_compat. lra.
  - intros [| | |r]; cbn; auto; destruct (Req_EM_T 1 0); try lra; auto.
    + destruct (Rlt_dec 0 1); [reflexivity|lra].
    + destruct (Rlt_dec 0 1); [reflexivity|lra].
    + f_equal. field.
  - intros [] [] [H|H]; try discriminate; reflexivity.
  - intros [] [] [H|H]; try discriminate; reflexivity.
  - assert (S0 : x_sgn (XFin 0) = 0%Z) by (cbn; destruct (Rlt_dec 0 0); [lra|reflexivity]).
    intros x y [-> | ->]; [|right; reflexivity]. destruct y; cbn [x_mul]; auto; try (right; rewrite S0; reflexivity). left. f_equal. lra.
  - intros x y ->. destruct y as [| | |y]; cbn; auto. destruct (Req_EM_T y 0); [destruct (Rlt_dec 0 0); [lra|auto]|]. left. f_equal. unfold Rdiv. ring.
Qed.

(** binary64 *)
Lemma f64_cases (x : f64) : (x = B754_nan /\ f64_val x = XNaN) \/ (exists s, x = B754_infinity s /\ f64_val x = if s then XNInf else XPInf) \/
  (is_finite x = true /\ f64_val x = XFin (B2R x)).
Proof.
  destruct x as [s|s| |s m e B].
  - right; right; auto.
  - right; left. exists s. destruct s; auto.
  - auto.
  - right; right; auto.
Qed.
Lemma f64_sign_le (x : f64) : is_finite x = true -> Bsign x = true -> B2R x <= 0.
Proof.
  destruct x as [s|s| |s m e B]; cbn; intros H1 H2; try discriminate; try lra. subst s. cbn. unfold F2R. cbn. assert (0 < bpow radix2 e) by apply bpow_gt_0.
  assert (H' : IZR (Z.neg m) < 0) by (apply IZR_lt; lia). nra.
Qed.
Lemma f64_sign_ge (x : f64) : is_finite x = true -> Bsign x = false -> 0 <= B2R x.
Proof.
  destruct x as [s|s| |s m e B]; cbn; intros H1 H2; try discriminate; try lra. subst s. cbn. unfold F2R. cbn. assert (0 < bpow radix2 e) by apply bpow_gt_0.
  assert (H' : 0 < IZR (Z.pos m)) by (apply IZR_lt; lia). nra.
Qed.
Notation rnd := (round radix2 (SpecFloat.fexp 53 1024) (round_mode mode_NE)).
#[local] Instance vexp : Valid_exp (SpecFloat.fexp 53 1024). Proof. apply fexp_correct. reflexivity. Qed.
#[local] Instance vrnd : Valid_rnd (round_mode mode_NE). Proof. apply valid_rnd_round_mode. Qed.
Lemma rnd_B2R (x : f64) : rnd (B2R x) = B2R x.
Proof. apply round_generic; [exact vrnd|]. apply generic_format_B2R. Qed.
Lemma rnd_pos r : 0 <= r -> 0 <= rnd r.
Proof. intros H. rewrite <- (round_0 radix2 (SpecFloat.fexp 53 1024) (round_mode mode_NE)). apply round_le; [exact vexp|exact vrnd|auto]. Qed.
Lemma overflow_inf s (z : f64) : B2SF z = binary_overflow 53 1024 mode_NE s -> z = B754_infinity s.
Proof. unfold binary_overflow. cbn. destruct z as [s0|s0| |s0 m e B]; cbn; intros H; try discriminate. now injection H as <-. Qed.

Lemma f64_add_up (x y : f64) : is_finite x = true -> is_finite y = true -> 0 <= B2R x -> 0 <= B2R y ->
  Bplus mode_NE x y = B754_infinity false \/ (is_finite (Bplus mode_NE x y) = true /\ B2R x <= B2R (Bplus mode_NE x y) /\ B2R y <= B2R (Bplus mode_NE x y)).
Proof.
  intros Fx Fy Hx Hy. assert (C := Bplus_correct 53 1024 _ _ mode_NE x y Fx Fy). destruct (Rlt_bool_spec (Rabs (rnd (B2R x + B2R y))) (bpow radix2 1024)) as [Hr|Hr].
  - destruct C as (C & Fc & _). right. split; auto. rewrite C. rewrite <- (rnd_B2R x) at 1. rewrite <- (rnd_B2R y) at 2.
    split; apply round_le; try exact vexp; try exact vrnd; lra.
  - destruct C as (C & Hs). left. destruct (Bsign x) eqn:Sx; [|now apply overflow_inf].
    exfalso. assert (X := f64_sign_le x Fx Sx). symmetry in Hs. assert (Y := f64_sign_le y Fy Hs).
    replace (B2R x + B2R y) with 0 in Hr by lra. rewrite round_0, Rabs_R0 in Hr by exact vrnd. assert (0 < bpow radix2 1024) by apply bpow_gt_0. lra.
Qed.
Lemma f64_plus_zero (x y : f64) : f64_val x = XFin 0 -> f64_val (Bplus mode_NE x y) = f64_val y /\ f64_val (Bplus mode_NE y x) = f64_val y.
Proof.
  intros H. destruct (f64_cases x) as [[-> H']|[(s & -> & H')|(Fx & H')]]; [rewrite H' in H; discriminate|rewrite H' in H; destruct s; discriminate|].
  assert (Bx : B2R x = 0) by congruence.
  destruct (f64_cases y) as [[-> Hy]|[(s & -> & Hy)|(Fy & Hy)]].
  - destruct x; split; reflexivity.
  - destruct x as [[]| | |]; try discriminate; split; reflexivity.
  - rewrite Hy. split.
    + assert (C := Bplus_correct 53 1024 _ _ mode_NE x y Fx Fy). rewrite Bx, Rplus_0_l, rnd_B2R in C. rewrite Rlt_bool_true in C by apply abs_B2R_lt_emax.
      destruct C as (C & Fc & _). rewrite f64_val_finite by auto. f_equal. exact C.
    + assert (C := Bplus_correct 53 1024 _ _ mode_NE y x Fy Fx). rewrite Bx, Rplus_0_r, rnd_B2R in C. rewrite Rlt_bool_true in C by apply abs_B2R_lt_emax.
      destruct C as (C & Fc & _). rewrite f64_val_finite by auto. f_equal. exact C.
Qed.
Lemma f64_nonneg (x : f64) : nonneg (f64_val x) -> x = B754_infinity false \/ (is_finite x = true /\ 0 <= B2R x).
Proof.
  intros H. apply nonneg_iff in H. destruct (f64_cases x) as [[-> Hx]|[(s & -> & Hx)|(Fx & Hx)]]; rewrite Hx in H.
  - destruct H as [H|(r & H & _)]; discriminate.
  - destruct s; auto. destruct H as [H|(r & H & _)]; discriminate.
  - right. split; auto. destruct H as [H|(r & H & Hr)]; [discriminate|]. now injection H as ->.
Qed.
Lemma nonneg_f64 (x : f64) : is_finite x = true -> 0 <= B2R x -> nonneg (f64_val x).
Proof. intros F H. apply nonneg_iff. right. exists (B2R x). split; auto. now apply f64_val_finite. Qed.
Lemma nonneg_inf : nonneg (f64_val (B754_infinity false)).
Proof. apply nonneg_iff. now left. Qed.
Lemma f64_sq_form (x : f64) : (f64_val x = XNaN /\ Bmult mode_NE x x = B754_nan) \/
  (f64_val x <> XNaN /\ (Bmult mode_NE x x = B754_infinity false \/ (is_finite (Bmult mode_NE x x) = true /\ 0 <= B2R (Bmult mode_NE x x) /\ Bsign (Bmult mode_NE x x) = false))).
Proof.
  destruct (f64_cases x) as [[-> Hx]|[(s & -> & Hx)|(Fx & Hx)]].
  - left. auto.
  - right. split; [rewrite Hx; destruct s; discriminate|]. left. destruct s; reflexivity.
  - right. split; [congruence|]. assert (C := Bmult_correct 53 1024 _ _ mode_NE x x). rewrite xorb_nilpotent in C. destruct (Rlt_bool _ _).
    + destruct C as (C & Fc & Sc). rewrite Fx in Fc. cbn in Fc. right. split; auto.
      assert (Hn : is_nan (Bmult mode_NE x x) = false) by (destruct (Bmult mode_NE x x); auto; discriminate). specialize (Sc Hn). split; [now apply f64_sign_ge|auto].
    + left. now apply overflow_inf.
Qed.

#[global] Instance Add_f64 : AddLaws f64.
Proof.
  constructor; change (@val f64 _ _) with f64_val; cbn [n_add n_mul n_div n_sub Num_f64].
  - intros x y [H|H].
    + destruct x as [|[]| |]; cbn in H; try discriminate. destruct y; reflexivity.
    + destruct y as [|[]| |]; cbn in H; try discriminate. destruct x; reflexivity.
  - intros x y H. exact (proj1 (f64_plus_zero x y H)).
  - intros x y H. exact (proj2 (f64_plus_zero y x H)).
  - intros x y Hx Hy. apply f64_nonneg in Hx, Hy.
    assert (L : forall v, v <> XNaN -> v <> XNInf \/ True -> xle v (f64_val (B754_infinity false))).
    { intros v H _. unfold xle. destruct v; cbn; try congruence; auto; right; split; congruence. }
    destruct Hx as [-> |[Fx Hx]], Hy as [-> |[Fy Hy]].
    + change (Bplus mode_NE (B754_infinity false) (B754_infinity false)) with (B754_infinity false : f64). split; apply L; auto; discriminate.
    + replace (Bplus mode_NE (B754_infinity false) y) with (B754_infinity false : f64) by (destruct y; try discriminate; reflexivity). split; apply L; auto; [discriminate|]. rewrite f64_val_finite by auto; discriminate.
    + replace (Bplus mode_NE x (B754_infinity false)) with (B754_infinity false : f64) by (destruct x; try discriminate; reflexivity). split; apply L; auto; [|discriminate]. rewrite f64_val_finite by auto; discriminate.
    + assert (Le : forall a b, a <= b -> xle (XFin a) (XFin b)).
      { intros a b H. unfold xle. cbn. destruct (Rle_lt_or_eq_dec a b H); [auto|right; subst; split; congruence]. }
      destruct (f64_add_up x y Fx Fy Hx Hy) as [-> |(Fz & A & B)].
      * split; apply L; auto; rewrite f64_val_finite by auto; discriminate.
      * rewrite !f64_val_finite by auto. auto.
  - intros x. destruct (f64_sq_form x) as [[H ->]|[H [-> |(F & P & _)]]]; [left; auto|right|right]; (split; [auto|]); [apply nonneg_inf|now apply nonneg_f64].
  - intros x y Hx. apply f64_nonneg in Hx. destruct (f64_sq_form y) as [[_ ->]|[_ H]]; [left; destruct x; reflexivity|]. set (q := Bmult mode_NE y y) in *. clearbody q.
    destruct H as [-> |(Fq & Pq & Sq)].
    + destruct Hx as [-> |[Fx Hx]]; [left; reflexivity|]. right. destruct x; try discriminate; apply nonneg_iff; right; exists 0; (split; [reflexivity|lra]).
    + destruct Hx as [-> |[Fx Hx]].
      * right. destruct q as [s| | |s m e B]; try discriminate; cbn in Sq; subst s; apply nonneg_inf.
      * destruct (Req_dec (B2R q) 0) as [Z|Z].
        -- destruct q as [s| | |s m e B]; try discriminate.
           ++ cbn in Sq. subst s. destruct x as [s| | |s m e B]; try discriminate; [left; reflexivity|]. right. destruct s; [|apply nonneg_inf].
              exfalso. revert Hx. cbn. unfold F2R. cbn. assert (0 < bpow radix2 e) by apply bpow_gt_0. assert (IZR (Z.neg m) < 0) by (apply IZR_lt; lia). nra.
           ++ exfalso. revert Z. cbn. intros Z. apply eq_0_F2R in Z. destruct s; discriminate.
        -- assert (C := Bdiv_correct 53 1024 _ _ mode_NE x q Z). right.
           assert (Hd : 0 <= B2R x / B2R q) by (apply Rmult_le_pos; auto; left; apply Rinv_0_lt_compat; lra).
           destruct (Rlt_bool_spec (Rabs (rnd (B2R x / B2R q))) (bpow radix2 1024)) as [Hr|Hr].
           ++ destruct C as (C & Fc & _). rewrite Fx in Fc. apply nonneg_f64; auto. rewrite C. now apply rnd_pos.
           ++ rewrite Sq, xorb_false_r in C. apply overflow_inf in C. rewrite C. destruct (Bsign x) eqn:Sx; [|apply nonneg_inf].
              exfalso. assert (X := f64_sign_le x Fx Sx). replace (B2R x) with 0 in Hr by lra. unfold Rdiv in Hr. rewrite Rmult_0_l, round_0, Rabs_R0 in Hr by exact vrnd.
              assert (0 < bpow radix2 1024) by apply bpow_gt_0. lra.
  - intros x. unfold n_one. destruct (f64_ofZ 1) as [F1 B1]; [lia|]. set (one := n_ofZ 1 : f64) in *. 
    destruct (f64_cases x) as [[-> Hx]|[(s & -> & Hx)|(Fx & Hx)]].
    + clearbody one. destruct one; reflexivity.
    + destruct s; vm_compute; reflexivity.
    + clearbody one. assert (C := Bdiv_correct 53 1024 _ _ mode_NE x one). rewrite B1 in C. specialize (C R1_neq_R0).
      replace (B2R x / 1) with (B2R x) in C by field. rewrite rnd_B2R in C. rewrite Rlt_bool_true in C by apply abs_B2R_lt_emax.
      destruct C as (C & Fc & _). rewrite f64_val_finite by congruence. rewrite Hx. f_equal. exact C.
  - intros x y [H|H].
    + destruct x as [|[]| |]; cbn in H; try discriminate. destruct y; reflexivity.
    + destruct y as [|[]| |]; cbn in H; try discriminate. destruct x; reflexivity.
  - intros x y [H|H].
    + destruct x as [|[]| |]; cbn in H; try discriminate. destruct y; reflexivity.
    + destruct y as [|[]| |]; cbn in H; try discriminate. destruct x; reflexivity.
  - intros x y [H|H]; [|destruct x as [|[]| |]; cbn in H; try discriminate; right; destruct y; reflexivity]. destruct x as [s|[]| |s m e B]; cbn in H; try discriminate; [destruct y as [|[]| |]; cbn; auto|]. exfalso. injection H as H. apply eq_0_F2R in H. destruct s; discriminate.
  - intros x y H. destruct x as [s|[]| |s m e B]; cbn in H; try discriminate; [destruct y as [|[]| |]; cbn; auto|]. exfalso. injection H as H. apply eq_0_F2R in H. destruct s; discriminate.
Qed.
