(** Rounding of binary64 operations: the standard model of relative errors, with its side conditions. *)
From Coq Require Import ZArith Reals Lra Lia Bool.
From Flocq Require Import Core Plus_error Relative BinarySingleNaN.
From Verif Require Import Num NumP Geometry BuildFP.
Local Open Scope R_scope.
Set Implicit Arguments.

Notation B k := (bpow radix2 k).
(** the unit of rounding *)
Definition ulp1 : R := bpow radix2 (-53).

Notation rnd := (round radix2 (SpecFloat.fexp 53 1024) (round_mode mode_NE)).
#[local] Instance vexp : Valid_exp (SpecFloat.fexp 53 1024). Proof. apply fexp_correct. reflexivity. Qed.
#[local] Instance vrnd : Valid_rnd (round_mode mode_NE). Proof. apply valid_rnd_round_mode. Qed.

Lemma ulp1_eq : ulp1 = / 9007199254740992.
Proof. unfold ulp1. rewrite bpow_powerRZ. simpl powerRZ. cbn [radix2 radix_val]. f_equal. lra. Qed.
Lemma ulp1_pos : 0 < ulp1 <= / 1000000000000000.
Proof. rewrite ulp1_eq. lra. Qed.

Lemma half_ulp : / 2 * B (-53 + 1) = ulp1.
Proof. unfold ulp1. change (/ 2) with (B (-1)). now rewrite <- bpow_plus. Qed.

Lemma rnd_rel a : B (-1022) <= Rabs a -> exists d, Rabs d <= ulp1 /\ rnd a = a * (1 + d).
Proof.
  intros H. destruct (@relative_error_N_FLT_ex radix2 (-1074) 53 eq_refl (fun x => negb (Z.even x)) a) as (d & D & E).
  - replace (-1074 + 53 - 1)%Z with (-1022)%Z by lia. exact H.
  - exists d. split; [now rewrite <- half_ulp|exact E].
Qed.
Lemma rnd_abs a : exists d e, Rabs d <= ulp1 /\ Rabs e <= B (-1075) /\ rnd a = a * (1 + d) + e.
Proof.
  destruct (@error_N_FLT radix2 (-1074) 53 eq_refl (fun x => negb (Z.even x)) a) as (d & e & D & E & _ & R).
  exists d, e. repeat split; [now rewrite <- half_ulp| |exact R].
  replace (B (-1075)) with (/ 2 * B (-1074)); [exact E|]. change (/ 2) with (B (-1)). now rewrite <- bpow_plus.
Qed.
Lemma rnd_small a : Rabs a <= B 1023 -> Rabs (rnd a) < B 1024.
Proof.
  intros H. apply Rle_lt_trans with (B 1023); [|apply bpow_lt; lia].
  apply abs_round_le_generic; [exact vexp|exact vrnd| |exact H]. apply generic_format_bpow. unfold SpecFloat.fexp, SpecFloat.emin. lia.
Qed.

Lemma add_correct (x y : f64) a b : f64_val x = XFin a -> f64_val y = XFin b -> Rabs (a + b) <= B 1023 ->
  f64_val (n_add x y) = XFin (rnd (a + b)).
Proof.
  intros X Y H. apply f64_val_fin in X as [Fx <-]. apply f64_val_fin in Y as [Fy <-].
  assert (C := Bplus_correct 53 1024 _ _ mode_NE x y Fx Fy). rewrite Rlt_bool_true in C by now apply rnd_small.
  destruct C as (C & F & _). cbn [n_add Num_f64]. rewrite f64_val_finite by exact F. now f_equal.
Qed.
Lemma sub_correct (x y : f64) a b : f64_val x = XFin a -> f64_val y = XFin b -> Rabs (a - b) <= B 1023 ->
  f64_val (n_sub x y) = XFin (rnd (a - b)).
Proof.
  intros X Y H. apply f64_val_fin in X as [Fx <-]. apply f64_val_fin in Y as [Fy <-].
  assert (C := Bminus_correct 53 1024 _ _ mode_NE x y Fx Fy). rewrite Rlt_bool_true in C by now apply rnd_small.
  destruct C as (C & F & _). cbn [n_sub Num_f64]. rewrite f64_val_finite by exact F. now f_equal.
Qed.
Lemma mul_correct (x y : f64) a b : f64_val x = XFin a -> f64_val y = XFin b -> Rabs (a * b) <= B 1023 ->
  f64_val (n_mul x y) = XFin (rnd (a * b)).
Proof.
  intros X Y H. apply f64_val_fin in X as [Fx <-]. apply f64_val_fin in Y as [Fy <-].
  assert (C := Bmult_correct 53 1024 _ _ mode_NE x y). rewrite Rlt_bool_true in C by now apply rnd_small.
  destruct C as (C & F & _). rewrite Fx, Fy in F. cbn [n_mul Num_f64]. rewrite f64_val_finite by exact F. now f_equal.
Qed.
Lemma div_correct (x y : f64) a b : f64_val x = XFin a -> f64_val y = XFin b -> b <> 0 -> Rabs (a / b) <= B 1023 ->
  f64_val (n_div x y) = XFin (rnd (a / b)).
Proof.
  intros X Y Nb H. apply f64_val_fin in X as [Fx <-]. apply f64_val_fin in Y as [Fy <-].
  assert (C := Bdiv_correct 53 1024 _ _ mode_NE x y Nb). rewrite Rlt_bool_true in C by now apply rnd_small.
  destruct C as (C & F & _). rewrite Fx in F. cbn [n_div Num_f64]. rewrite f64_val_finite by exact F. now f_equal.
Qed.
Lemma sqrt_correct (x : f64) a : f64_val x = XFin a -> 0 <= a -> f64_val (n_sqrt x) = XFin (rnd (sqrt a)).
Proof.
  intros X H. apply f64_val_fin in X as [Fx <-].
  destruct (Bsqrt_correct 53 1024 _ _ mode_NE x) as (C & F & _). cbn [n_sqrt Num_f64]. rewrite f64_val_finite; [now f_equal|].
  rewrite F. destruct x as [s|s| |s m e P]; try discriminate Fx; [reflexivity|]. destruct s; [|reflexivity]. exfalso.
  apply (Rlt_irrefl 0). apply Rle_lt_trans with (1 := H). cbn [B2R]. apply F2R_lt_0. cbn. lia.
Qed.

(** sums need no condition against underflow *)
Lemma f64_format (x : f64) a : f64_val x = XFin a -> generic_format radix2 (SpecFloat.fexp 53 1024) a.
Proof. intros X. apply f64_val_fin in X as [_ <-]. apply generic_format_B2R. Qed.
Lemma ro_small : u_ro radix2 53 / (1 + u_ro radix2 53) <= ulp1.
Proof.
  unfold u_ro. change (B (- (53) + 1)) with (B (-53 + 1)). rewrite half_ulp. assert (U := ulp1_pos). apply Rmult_le_reg_r with (1 + ulp1); [lra|].
  unfold Rdiv. rewrite Rmult_assoc, Rinv_l by lra. nra.
Qed.
Lemma add64 (x y : f64) a b : f64_val x = XFin a -> f64_val y = XFin b -> Rabs (a + b) <= B 1023 ->
  exists d, Rabs d <= ulp1 /\ f64_val (n_add x y) = XFin ((a + b) * (1 + d)).
Proof.
  intros X Y H. rewrite (add_correct _ _ X Y H).
  destruct (@FLT_plus_error_N_ex radix2 (-1074) 53 eq_refl (fun x => negb (Z.even x)) a b (f64_format _ X) (f64_format _ Y)) as (d & D & E).
  exists d. split; [apply Rle_trans with (1 := D), ro_small|]. f_equal. exact E.
Qed.
Lemma sub64 (x y : f64) a b : f64_val x = XFin a -> f64_val y = XFin b -> Rabs (a - b) <= B 1023 ->
  exists d, Rabs d <= ulp1 /\ f64_val (n_sub x y) = XFin ((a - b) * (1 + d)).
Proof.
  intros X Y H. rewrite (sub_correct _ _ X Y H).
  destruct (@FLT_plus_error_N_ex radix2 (-1074) 53 eq_refl (fun x => negb (Z.even x)) a (- b) (f64_format _ X)) as (d & D & E).
  - apply generic_format_opp, (f64_format _ Y).
  - exists d. split; [apply Rle_trans with (1 := D), ro_small|]. f_equal. exact E.
Qed.
(** products and quotients within range, or zero *)
Definition in_range (r : R) : Prop := r = 0 \/ B (-1022) <= Rabs r <= B 1023.
Lemma in_range_le r : in_range r -> Rabs r <= B 1023.
Proof. intros [->|H]; [rewrite Rabs_R0; apply bpow_ge_0|apply H]. Qed.
Lemma rnd_range r : in_range r -> exists d, Rabs d <= ulp1 /\ rnd r = r * (1 + d).
Proof.
  intros [->|H]; [|now apply rnd_rel]. exists 0. assert (U := ulp1_pos). rewrite Rabs_R0, round_0 by exact vrnd. split; lra.
Qed.
Lemma mul64 (x y : f64) a b : f64_val x = XFin a -> f64_val y = XFin b -> in_range (a * b) ->
  exists d, Rabs d <= ulp1 /\ f64_val (n_mul x y) = XFin (a * b * (1 + d)).
Proof.
  intros X Y H. rewrite (mul_correct _ _ X Y (in_range_le H)). destruct (rnd_range H) as (d & D & ->). eauto.
Qed.
Lemma div64 (x y : f64) a b : f64_val x = XFin a -> f64_val y = XFin b -> b <> 0 -> in_range (a / b) ->
  exists d, Rabs d <= ulp1 /\ f64_val (n_div x y) = XFin (a / b * (1 + d)).
Proof.
  intros X Y Nb H. rewrite (div_correct _ _ X Y Nb (in_range_le H)). destruct (rnd_range H) as (d & D & ->). eauto.
Qed.
(** roots of binary64 numbers are far from underflow *)
Lemma sqrt64 (x : f64) a : f64_val x = XFin a -> 0 <= a ->
  exists d, Rabs d <= ulp1 /\ f64_val (n_sqrt x) = XFin (sqrt a * (1 + d)).
Proof.
  intros X H. rewrite (sqrt_correct _ X H).
  assert (I : in_range (sqrt a)).
  { destruct H as [H|<-]; [|left; apply sqrt_0]. right. rewrite Rabs_pos_eq by apply sqrt_pos. split.
    - apply Rle_trans with (B (-537)); [apply bpow_le; lia|]. rewrite <- (sqrt_bpow radix2 (-537)). apply sqrt_le_1_alt.
      apply f64_val_fin in X as [Fx <-]. apply Rle_trans with (B (-1074)); [apply bpow_le; lia|].
      rewrite <- (Rabs_pos_eq (B2R x)) by lra. apply (abs_B2R_ge_emin 53 1024 x). destruct x; try discriminate Fx; auto. cbn in H. lra.
    - apply Rle_trans with (B 512); [|apply bpow_le; lia]. rewrite <- (sqrt_bpow radix2 512). apply sqrt_le_1_alt.
      apply f64_val_fin in X as [Fx <-]. apply Rlt_le. rewrite <- (Rabs_pos_eq (B2R x)) by lra. apply (abs_B2R_lt_emax 53 1024 x). }
  destruct (rnd_range I) as (d & D & ->). eauto.
Qed.

(** *** Quantities that differ by [k] roundings *)
Definition near (k : nat) (x y : R) : Prop := 0 <= y /\ (1 - ulp1) ^ k * y <= x /\ (1 - ulp1) ^ k * x <= y.

Lemma shrink_pos k : 0 < (1 - ulp1) ^ k.
Proof. apply pow_lt. assert (U := ulp1_pos). lra. Qed.
Lemma shrink_le k : (1 - ulp1) ^ k <= 1.
Proof. assert (U := ulp1_pos). apply Rle_trans with (1 ^ k); [apply pow_incr; lra|rewrite pow1; lra]. Qed.
Lemma shrink_add j k : (1 - ulp1) ^ (j + k) = (1 - ulp1) ^ j * (1 - ulp1) ^ k.
Proof. apply pow_add. Qed.
Lemma shrink_bern k : 1 - INR k * ulp1 <= (1 - ulp1) ^ k.
Proof.
  assert (U := ulp1_pos). induction k as [|k I]; [cbn; lra|]. rewrite S_INR. cbn [pow].
  assert (0 <= INR k) by apply pos_INR. apply Rle_trans with ((1 - ulp1) * (1 - INR k * ulp1)); [nra|]. apply Rmult_le_compat_l; lra.
Qed.
Lemma near_nonneg k x y : near k x y -> 0 <= x.
Proof. intros (H & L & _). assert (P := shrink_pos k). apply Rle_trans with (2 := L). nra. Qed.
Lemma near_refl x : 0 <= x -> near 0 x x.
Proof. intros H. repeat split; cbn; lra. Qed.
Lemma near_sym k x y : near k x y -> near k y x.
Proof. intros H. assert (N := near_nonneg H). destruct H as (H & L & M). repeat split; auto. Qed.
Lemma near_weaken j k x y : (j <= k)%nat -> near j x y -> near k x y.
Proof.
  intros J H. assert (N := near_nonneg H). destruct H as (H & L & M). replace k with ((k - j) + j)%nat by lia. rewrite <- (Rmult_1_l x), <- (Rmult_1_l y).
  unfold near. rewrite shrink_add, !Rmult_1_l. assert (P := shrink_pos (k - j)). assert (Q := shrink_le (k - j)). assert (P' := shrink_pos j).
  repeat split; auto; rewrite Rmult_assoc.
  - apply Rle_trans with ((1 - ulp1) ^ j * y); auto. rewrite <- (Rmult_1_l ((1 - ulp1) ^ j * y)) at 2. apply Rmult_le_compat_r; auto. nra.
  - apply Rle_trans with ((1 - ulp1) ^ j * x); auto. rewrite <- (Rmult_1_l ((1 - ulp1) ^ j * x)) at 2. apply Rmult_le_compat_r; auto. nra.
Qed.
Lemma near_trans j k x y z : near j x y -> near k y z -> near (j + k) x z.
Proof.
  intros H I. destruct H as (H & L & M), I as (I & L' & M'). unfold near. rewrite shrink_add. assert (P := shrink_pos j). assert (Q := shrink_pos k).
  repeat split; auto.
  - rewrite Rmult_assoc. apply Rle_trans with (2 := L). now apply Rmult_le_compat_l; [lra|].
  - rewrite (Rmult_comm ((1 - ulp1) ^ j)), Rmult_assoc. apply Rle_trans with (2 := M'). now apply Rmult_le_compat_l; [lra|].
Qed.
Lemma near_step x d : 0 <= x -> Rabs d <= ulp1 -> near 1 (x * (1 + d)) x.
Proof.
  intros H D. assert (U := ulp1_pos). apply Rabs_le_inv in D. repeat split; auto; rewrite pow_1.
  - rewrite (Rmult_comm x). apply Rmult_le_compat_r; lra.
  - replace ((1 - ulp1) * (x * (1 + d))) with ((1 - ulp1) * (1 + d) * x) by ring. rewrite <- (Rmult_1_l x) at 2. apply Rmult_le_compat_r; auto. nra.
Qed.
Lemma near_round k x y d : near k x y -> Rabs d <= ulp1 -> near (S k) (x * (1 + d)) y.
Proof. intros H D. change (S k) with (1 + k)%nat. apply near_trans with x; auto. apply near_step; auto. now apply near_nonneg in H. Qed.
Lemma near_mul j k x y x' y' : near j x y -> near k x' y' -> near (j + k) (x * x') (y * y').
Proof.
  intros H I. assert (N := near_nonneg H). assert (N' := near_nonneg I). destruct H as (H & L & M), I as (I & L' & M').
  unfold near. rewrite shrink_add. assert (P := shrink_pos j). assert (Q := shrink_pos k). repeat split.
  - now apply Rmult_le_pos.
  - replace (_ * _ * (y * y')) with ((1 - ulp1) ^ j * y * ((1 - ulp1) ^ k * y')) by ring. apply Rmult_le_compat; auto; apply Rmult_le_pos; lra.
  - replace (_ * _ * (x * x')) with ((1 - ulp1) ^ j * x * ((1 - ulp1) ^ k * x')) by ring. apply Rmult_le_compat; auto; apply Rmult_le_pos; lra.
Qed.
Lemma near_pos k x y : near k x y -> 0 < y -> 0 < x.
Proof. intros (H & L & _) Y. apply Rlt_le_trans with (2 := L). apply Rmult_lt_0_compat; auto. apply shrink_pos. Qed.
Lemma near_inv k x y : near k x y -> 0 < y -> near k (/ x) (/ y).
Proof.
  intros H Y. assert (X := near_pos H Y). destruct H as (H & L & M). assert (P := shrink_pos k). repeat split.
  - apply Rlt_le, Rinv_0_lt_compat; auto.
  - apply Rmult_le_reg_r with (x * y); [now apply Rmult_lt_0_compat|]. replace (/ x * (x * y)) with y by (field; lra).
    replace (_ * / y * (x * y)) with ((1 - ulp1) ^ k * x) by (field; lra). auto.
  - apply Rmult_le_reg_r with (x * y); [now apply Rmult_lt_0_compat|]. replace (/ y * (x * y)) with x by (field; lra).
    replace (_ * / x * (x * y)) with ((1 - ulp1) ^ k * y) by (field; lra). auto.
Qed.
Lemma near_div j k x y x' y' : near j x y -> near k x' y' -> 0 < y' -> near (j + k) (x / x') (y / y').
Proof. intros H I Y. apply near_mul; auto. now apply near_inv. Qed.
Lemma near_add k x y x' y' : near k x y -> near k x' y' -> near k (x + x') (y + y').
Proof. intros (H & L & M) (I & L' & M'). repeat split; lra. Qed.
(** back to inequalities *)
Lemma near_bound k x y : near k x y -> (k <= 1000)%nat -> Rabs (x - y) <= (INR k + 1) * ulp1 * y /\ Rabs (x - y) <= INR k * ulp1 * Rmax x y.
Proof.
  intros H K. assert (N := near_nonneg H). destruct H as (H & L & M). assert (P := shrink_bern k). assert (U := ulp1_pos).
  assert (K' : 0 <= INR k <= 1000). { split; [apply pos_INR|]. replace 1000 with (INR 1000) by (rewrite INR_IZR_INZ; reflexivity). now apply le_INR. }
  assert (Hx : x <= (1 + (INR k + 1) * ulp1) * y).
  { assert (Hk : 0 <= INR k * ulp1 <= / 1000000000). { split; nra. }
    set (w := INR k * ulp1) in *. replace ((INR k + 1) * ulp1) with (w + ulp1) by (unfold w; ring).
    assert (A : (1 - w) * x <= y). { apply Rle_trans with (2 := M). apply Rmult_le_compat_r; auto. }
    assert (W2 : w * w <= ulp1 / 2).
    { unfold w. replace (INR k * ulp1 * (INR k * ulp1)) with (INR k * INR k * ulp1 * ulp1) by ring. assert (INR k * INR k * ulp1 <= / 2) by nra. nra. }
    apply Rmult_le_reg_l with (1 - w); [lra|]. apply Rle_trans with (1 := A).
    rewrite <- Rmult_assoc. rewrite <- (Rmult_1_l y) at 1. apply Rmult_le_compat_r; auto. nra. }
  assert (Ly : y - INR k * ulp1 * y <= x) by nra. assert (Lx : x - INR k * ulp1 * x <= y) by nra.
  split.
  - apply Rabs_le. nra.
  - apply Rabs_le. assert (x <= Rmax x y) by apply Rmax_l. assert (y <= Rmax x y) by apply Rmax_r. assert (0 <= INR k * ulp1) by nra. split; nra.
Qed.
