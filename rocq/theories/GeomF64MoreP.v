(** Where the scale factors computed in binary64 are defined, and the contact points. *)
From Coq Require Import ZArith Reals Lra Lia Bool.
From Flocq Require Import Core BinarySingleNaN.
From Verif Require Import Num NumP Geometry XLibm GeomP BuildFP SpecGeom SpecF64 Round64P GeomF64P.
Local Open Scope R_scope.
Set Implicit Arguments.

Lemma side_sign side : side = / 2 \/ side = - / 2 -> exists sg, (sg = 1 \/ sg = -1) /\ side = sg * / 2.
Proof. intros [->| ->]; [exists 1|exists (-1)]; split; auto; lra. Qed.
Theorem contact64_fx (dxv dyv fyv : f64) dx dy fx fy s : f64_val dxv = XFin dx -> f64_val dyv = XFin dy -> f64_val fyv = XFin fy ->
  loose dy -> 0 < fy -> ordinary fy ->
  f64_val (shear_at dxv dyv) = XFin s -> f64_val (determine_fx fyv dyv) = XFin fx ->
  0 < fx /\ contact_within (bpow radix2 (-49) * (1 + Rabs dx)) dx dy fx fy s.
Proof.
  intros X Y F Ly Pf Of S V. destruct (fx_residual _ _ F Y Pf Of Ly V) as [Px N]. split; auto.
  intros side Sd. destruct (side_sign Sd) as (sg & Sg & ->). apply (@contact_of_residual 11); auto with arith. now apply (shear_error dxv dyv).
Qed.
Theorem contact64_fy (dxv dyv fxv : f64) dx dy fx fy s : f64_val dxv = XFin dx -> f64_val dyv = XFin dy -> f64_val fxv = XFin fx ->
  ordinary dy -> 0 < fx -> ordinary fx ->
  f64_val (shear_at dxv dyv) = XFin s -> f64_val (determine_fy fxv dyv) = XFin fy ->
  0 < fy /\ contact_within (bpow radix2 (-49) * (1 + Rabs dx)) dx dy fx fy s.
Proof.
  intros X Y F Oy Pf Of S V. destruct (fy_residual _ _ F Y Pf Of Oy V) as [Py N]. split; auto.
  intros side Sd. destruct (side_sign Sd) as (sg & Sg & ->). apply (@contact_of_residual 13); auto. apply (shear_error dxv dyv); auto. now right.
Qed.

(** signs of computed differences *)
Lemma sub_sign (x y z : f64) v w hi : f64_val x = XFin v -> f64_val y = XFin w -> f64_val z = XFin 0 -> 0 <= v <= B hi -> 0 <= w <= B hi -> (hi <= 1000)%Z ->
  n_le (n_sub x y) z = if Rlt_dec w v then false else true.
Proof.
  intros X Y Z0 V W H. assert (HB : B hi <= B 1023) by (apply bpow_le; lia).
  destruct (sub64 _ _ X Y) as (e & E & S); [apply Rabs_le; lra|].
  cbn [n_le Num_f64]. rewrite f64_le. change (Bminus mode_NE x y) with (n_sub x y : f64). rewrite S, Z0. unfold x_le, x_lt, x_eq.
  apply Rabs_le_inv in E. assert (U := ulp1_pos). assert (0 < 1 + e) by lra.
  destruct (Rlt_dec w v) as [L|L].
  - destruct (Rlt_dec _ 0); [nra|]. destruct (Req_EM_T _ 0); [nra|]. reflexivity.
  - destruct (Rlt_dec _ 0); [reflexivity|]. destruct (Req_EM_T _ 0); [reflexivity|nra].
Qed.

Section Sign.
Variables (j k : nat) (pw P ah a : R).
Hypotheses (J : (j <= 5)%nat) (K : (k <= 5)%nat) (Np : near j pw P) (Na : near k ah a).
Lemma keep_above : bpow radix2 (-49) * P < P - a -> ulp1 * P <= pw - ah /\ 0 < P.
Proof.
  intros H. assert (E49 : B (-49) = 16 * ulp1). { unfold ulp1. change 16 with (B 4). now rewrite <- bpow_plus. } rewrite E49 in H.
  assert (U := ulp1_pos). destruct (near_bound (near_weaken J Np)) as [E _]; [lia|]. destruct (near_bound (near_weaken K Na)) as [F _]; [lia|].
  replace (INR 5) with 5 in * by (rewrite INR_IZR_INZ; reflexivity). apply Rabs_le_inv in E. apply Rabs_le_inv in F.
  destruct Np as (Pp & _). destruct Na as (Pa & _). assert (a <= P) by nra. split; [nra|]. nra.
Qed.
Lemma keep_below : bpow radix2 (-49) * P <= a - P -> 0 < P -> pw < ah.
Proof.
  intros H. assert (E49 : B (-49) = 16 * ulp1). { unfold ulp1. change 16 with (B 4). now rewrite <- bpow_plus. } rewrite E49 in H.
  assert (U := ulp1_pos). destruct (near_bound (near_weaken J Np)) as [E _]; [lia|]. destruct (near_bound (near_weaken K Na)) as [F _]; [lia|].
  replace (INR 5) with 5 in * by (rewrite INR_IZR_INZ; reflexivity). apply Rabs_le_inv in E. apply Rabs_le_inv in F.
  destruct Np as (Pp & _). destruct Na as (Pa & _). intros P0. nra.
Qed.
End Sign.

(** the scale factor exists where the exact condition holds by a margin, and is NaN where it fails by one *)
Theorem fx_defined (fyv dyv : f64) fy dy : f64_val fyv = XFin fy -> f64_val dyv = XFin dy -> 0 < fy -> ordinary fy -> loose dy ->
  bpow radix2 (-49) * (fy * fy * (1 + 4 * (dy * dy))) < fy * fy * (1 + 4 * (dy * dy)) - 4 * (dy * dy) -> exists fx, f64_val (determine_fx fyv dyv) = XFin fx.
Proof.
  intros F D Py Oy Od H. unfold determine_fx. cbv zeta.
  destruct (track_product _ _ F D Oy Od) as (pw & Vp & Np). destruct (track_four _ D Od) as (ah & Va & Na).
  assert (Bp := product_between Oy Od). assert (Bf := four_between Od).
  set (X := n_mul (n_sq fyv) (n_add n_one (n_mul (num2 4) (n_sq dyv)))) in *. set (Y := n_mul (num2 4) (n_sq dyv)) in *. clearbody X Y.
  assert (Ip : B (-201) <= pw <= B 404). { apply (near_scale (-200) 403 Np); [lia|exact Bp]. }
  assert (Ia : 0 <= ah <= B 404).
  { split; [exact (near_nonneg Na)|]. destruct (near_bound Na) as [E _]; [lia|]. apply Rabs_le_inv in E. assert (U := ulp1_pos). change (INR 2) with 2 in E.
    apply Rle_trans with (2 * B 202); [nra|]. change 2 with (B 1). rewrite <- bpow_plus. apply bpow_le. lia. }
  assert (Pp : 0 < pw) by (apply Rlt_le_trans with (2 := proj1 Ip), bpow_gt_0).
  destruct (@keep_above 5 2 pw _ ah _ ltac:(lia) ltac:(lia) Np Na H) as [G P0].
  assert (Gd : B (-253) <= pw - ah). { apply Rle_trans with (2 := G). change (-253)%Z with (-53 + -200)%Z. rewrite bpow_plus. apply Rmult_le_compat_l; [apply bpow_ge_0|apply Bp]. }
  assert (Pd : 0 < pw - ah) by (apply Rlt_le_trans with (2 := Gd), bpow_gt_0).
  assert (L : n_le (n_sub X Y) n_zero = false).
  { rewrite (@sub_sign X Y n_zero pw ah 404 Vp Va of_zero) by (auto; try lra; lia). destruct (Rlt_dec ah pw); [reflexivity|lra]. }
  rewrite L. destruct (@track_difference X Y n_zero pw ah 404 Vp Va of_zero) as (De & Vd & Nd & _); auto; [lra|lia|].
  assert (Bd := near_scale (-253) 404 Nd ltac:(lia) ltac:(split; lra)).
  assert (Pde : 0 < De) by exact (near_pos Nd Pd).
  assert (R1 : near 0 (1 / De) (1 / De)). { apply near_refl. apply Rlt_le, Rdiv_lt_0_compat; lra. }
  assert (I1 : B (-405) <= 1 / De <= B 254).
  { split; [apply (@div_le_bpow 1 De 0 405); [apply Rle_refl|]; change 405%Z with (404 + 1)%Z; lra|].
    unfold Rdiv. rewrite Rmult_1_l. change 254%Z with (- (-253 - 1))%Z. rewrite bpow_opp. apply Rinv_le_contravar; [apply bpow_gt_0|lra]. }
  destruct (div64 _ _ of_one Vd) as (d & Dd & Vr); [lra| |].
  { apply (range_of R1); [lia|]. apply (@middle _ (-405) 254); try lia. exact I1. }
  assert (N1 := near_step d (proj1 R1) Dd). assert (I2 := near_scale (-405) 254 N1 ltac:(lia) I1).
  destruct (sqrt64 _ Vr) as (d' & Dd' & Vs); [exact (near_nonneg N1)|].
  set (r := 1 / De * (1 + d)) in *. assert (N2 := near_step d' (sqrt_pos r) Dd').
  assert (I3 : B (-203) <= sqrt r <= B 128).
  { split; [rewrite <- (sqrt_bpow radix2 (-203))|rewrite <- (sqrt_bpow radix2 128)]; apply sqrt_le_1_alt; [apply Rle_trans with (2 := proj1 I2)|apply Rle_trans with (1 := proj2 I2)]; apply bpow_le; lia. }
  assert (I4 := near_scale (-203) 128 N2 ltac:(lia) I3).
  assert (Of : B (-100) <= fy <= B 100). { destruct Oy as [L' H']. rewrite Rabs_pos_eq in L', H' by lra. lra. }
  assert (I5 := bpow_mul_between (-203 - 1) (128 + 1) (-100) 100 I4 Of).
  destruct (mul64 _ _ Vs F) as (d'' & _ & V); [|exists (sqrt r * (1 + d') * fy * (1 + d'')); exact V].
  right. rewrite Rabs_pos_eq; [|apply Rle_trans with (2 := proj1 I5), bpow_ge_0].
  split; [apply Rle_trans with (2 := proj1 I5)|apply Rle_trans with (1 := proj2 I5)]; apply bpow_le; lia.
Qed.
Theorem fx_undefined (fyv dyv : f64) fy dy : f64_val fyv = XFin fy -> f64_val dyv = XFin dy -> 0 < fy -> ordinary fy -> loose dy ->
  bpow radix2 (-49) * (fy * fy * (1 + 4 * (dy * dy))) <= 4 * (dy * dy) - fy * fy * (1 + 4 * (dy * dy)) -> f64_val (determine_fx fyv dyv) = XNaN.
Proof.
  intros F D Py Oy Od H. unfold determine_fx. cbv zeta.
  destruct (track_product _ _ F D Oy Od) as (pw & Vp & Np). destruct (track_four _ D Od) as (ah & Va & Na).
  assert (Bp := product_between Oy Od). assert (Bf := four_between Od).
  set (X := n_mul (n_sq fyv) (n_add n_one (n_mul (num2 4) (n_sq dyv)))) in *. set (Y := n_mul (num2 4) (n_sq dyv)) in *. clearbody X Y.
  assert (Ip : B (-201) <= pw <= B 404). { apply (near_scale (-200) 403 Np); [lia|exact Bp]. }
  assert (Ia : 0 <= ah <= B 404).
  { split; [exact (near_nonneg Na)|]. destruct (near_bound Na) as [E _]; [lia|]. apply Rabs_le_inv in E. assert (U := ulp1_pos). change (INR 2) with 2 in E.
    apply Rle_trans with (2 * B 202); [nra|]. change 2 with (B 1). rewrite <- bpow_plus. apply bpow_le. lia. }
  assert (Pp : 0 < pw) by (apply Rlt_le_trans with (2 := proj1 Ip), bpow_gt_0).
  assert (G := @keep_below 5 2 pw _ ah _ ltac:(lia) ltac:(lia) Np Na H ltac:(apply Rlt_le_trans with (2 := proj1 Bp); apply bpow_gt_0)).
  rewrite (@sub_sign X Y n_zero pw ah 404 Vp Va of_zero) by (auto; try lra; lia). destruct (Rlt_dec ah pw); [lra|].
  cbn [n_mul Num_f64 n_nan]. destruct fyv; reflexivity.
Qed.

Theorem fy_defined (fxv dyv : f64) fx dy : f64_val fxv = XFin fx -> f64_val dyv = XFin dy -> 0 < fx -> ordinary fx -> ordinary dy ->
  bpow radix2 (-49) * (fx * fx * (1 + 4 * (dy * dy))) < fx * fx * (1 + 4 * (dy * dy)) - 1 -> exists fy, f64_val (determine_fy fxv dyv) = XFin fy.
Proof.
  intros F D Px Ox Od H. unfold determine_fy. cbv zeta. assert (Ld : loose dy) by now right.
  assert (Nz : dy <> 0). { intros ->. destruct Od as [Od _]. rewrite Rabs_R0 in Od. assert (P := bpow_gt_0 radix2 (-100)). lra. }
  assert (Z0 : n_eq dyv n_zero = false).
  { cbn [n_eq Num_f64]. rewrite f64_eq, D, of_zero. cbn. destruct (Req_EM_T dy 0); [contradiction|reflexivity]. }
  rewrite Z0. cbn [andb].
  destruct (track_product _ _ F D Ox Ld) as (pw & Vp & Np). assert (Bp := product_between Ox Ld).
  assert (Sx := ordinary_sq Ox). assert (Sd := ordinary_sq Od).
  assert (Bm : B (-398) <= 4 * (fx * fx) * (dy * dy) <= B 402).
  { apply (@bpow_mul_between _ _ (2 + -200) (2 + 200) (-200) 200); auto. change 4 with (B 2). apply bpow_mul_between; auto. split; apply Rle_refl. }
  assert (Tn : tracks 4 (n_mul (n_mul (num2 4) (n_sq fxv)) (n_sq dyv)) (4 * (fx * fx) * (dy * dy))).
  { apply (@tracks_mul 2 1); [apply (@tracks_mul 0 1)|apply track_sq; auto|lia|].
    - apply tracks_exact; [apply of_four|lra]. - apply track_sq; auto. now right. - lia.
    - apply (@middle _ (2 + -200) (2 + 200)); try lia. change 4 with (B 2). apply bpow_mul_between; auto. split; apply Rle_refl.
    - apply (@middle _ (-398) 402); try lia. exact Bm. }
  destruct Tn as (nu & Vn & Nn).
  set (X := n_mul (n_sq fxv) (n_add n_one (n_mul (num2 4) (n_sq dyv)))) in *. set (Y := n_mul (n_mul (num2 4) (n_sq fxv)) (n_sq dyv)) in *. clearbody X Y.
  assert (Ip : B (-201) <= pw <= B 404). { apply (near_scale (-200) 403 Np); [lia|exact Bp]. }
  assert (Pp : 0 < pw) by (apply Rlt_le_trans with (2 := proj1 Ip), bpow_gt_0).
  assert (I1 : 0 <= 1 <= B 404). { split; [lra|]. apply (bpow_le radix2 0 404). lia. }
  destruct (@keep_above 5 0 pw _ 1 _ ltac:(lia) ltac:(lia) Np (@near_refl 1 ltac:(lra)) H) as [G P0].
  assert (Gd : B (-253) <= pw - 1). { apply Rle_trans with (2 := G). change (-253)%Z with (-53 + -200)%Z. rewrite bpow_plus. apply Rmult_le_compat_l; [apply bpow_ge_0|apply Bp]. }
  assert (Pd : 0 < pw - 1) by (apply Rlt_le_trans with (2 := Gd), bpow_gt_0).
  assert (L : n_le (n_sub X n_one) n_zero = false).
  { rewrite (@sub_sign X n_one n_zero pw 1 404 Vp of_one of_zero) by (auto; try lra; lia). destruct (Rlt_dec 1 pw); [reflexivity|lra]. }
  rewrite L. destruct (@track_difference X n_one n_zero pw 1 404 Vp of_one of_zero) as (De & Vd & Nd & _); auto; [lra|lia|].
  assert (Bd := near_scale (-253) 404 Nd ltac:(lia) ltac:(split; lra)).
  assert (Pde : 0 < De) by exact (near_pos Nd Pd).
  assert (In := near_scale (-398) 402 Nn ltac:(lia) Bm).
  assert (Pn : 0 < nu) by (apply Rlt_le_trans with (2 := proj1 In), bpow_gt_0).
  assert (I2 : B (-804) <= nu / De <= B 657).
  { split; [apply (@div_le_bpow nu De (-399) 405); [apply In|change 405%Z with (404 + 1)%Z; lra]|].
    change 657%Z with (402 + 1 + - (-253 - 1))%Z. rewrite bpow_plus, bpow_opp. apply Rmult_le_compat; [lra|apply Rlt_le, Rinv_0_lt_compat; auto|apply In|].
    apply Rinv_le_contravar; [apply bpow_gt_0|apply Bd]. }
  destruct (div64 _ _ Vn Vd) as (d & Dd & Vr); [lra| |].
  { right. rewrite Rabs_pos_eq by (apply Rle_trans with (2 := proj1 I2), bpow_ge_0).
    split; [apply Rle_trans with (2 := proj1 I2)|apply Rle_trans with (1 := proj2 I2)]; apply bpow_le; lia. }
  assert (N1 : near 1 (nu / De * (1 + d)) (nu / De)). { apply near_step; auto. apply Rle_trans with (2 := proj1 I2), bpow_ge_0. }
  destruct (sqrt64 _ Vr) as (d' & Dd' & Vs); [exact (near_nonneg N1)|]. eauto.
Qed.
Theorem fy_undefined (fxv dyv : f64) fx dy : f64_val fxv = XFin fx -> f64_val dyv = XFin dy -> 0 < fx -> ordinary fx -> ordinary dy ->
  bpow radix2 (-49) * (fx * fx * (1 + 4 * (dy * dy))) <= 1 - fx * fx * (1 + 4 * (dy * dy)) -> f64_val (determine_fy fxv dyv) = XNaN.
Proof.
  intros F D Px Ox Od H. unfold determine_fy. cbv zeta. assert (Ld : loose dy) by now right.
  assert (Nz : dy <> 0). { intros ->. destruct Od as [Od _]. rewrite Rabs_R0 in Od. assert (P := bpow_gt_0 radix2 (-100)). lra. }
  assert (Z0 : n_eq dyv n_zero = false).
  { cbn [n_eq Num_f64]. rewrite f64_eq, D, of_zero. cbn. destruct (Req_EM_T dy 0); [contradiction|reflexivity]. }
  rewrite Z0. cbn [andb].
  destruct (track_product _ _ F D Ox Ld) as (pw & Vp & Np). assert (Bp := product_between Ox Ld).
  set (X := n_mul (n_sq fxv) (n_add n_one (n_mul (num2 4) (n_sq dyv)))) in *. clearbody X.
  assert (Ip : B (-201) <= pw <= B 404). { apply (near_scale (-200) 403 Np); [lia|exact Bp]. }
  assert (Pp : 0 < pw) by (apply Rlt_le_trans with (2 := proj1 Ip), bpow_gt_0).
  assert (I1 : 0 <= 1 <= B 404). { split; [lra|]. apply (bpow_le radix2 0 404). lia. }
  assert (G := @keep_below 5 0 pw _ 1 _ ltac:(lia) ltac:(lia) Np (@near_refl 1 ltac:(lra)) H ltac:(apply Rlt_le_trans with (2 := proj1 Bp); apply bpow_gt_0)).
  rewrite (@sub_sign X n_one n_zero pw 1 404 Vp of_one of_zero) by (auto; try lra; lia). destruct (Rlt_dec 1 pw); [lra|]. reflexivity.
Qed.


(** the circle, fx = fy = 1 *)
Definition dec (m e : Z) : f64 := n_div (n_ofZ m) (n_ofZ e).
Lemma circle_exact dy : determine_fx (XFin 1) (XFin dy) = XFin 1.
Proof.
  rewrite fx_xr. cbv zeta. replace (1 * 1 * (1 + 4 * (dy * dy)) - 4 * (dy * dy)) with 1 by ring. destruct (Rle_dec 1 0); [lra|]. f_equal.
  replace (1 / 1) with 1 by field. rewrite sqrt_1. lra.
Qed.
Theorem circle_refuted : exists (d : f64) dy, f64_val d = XFin dy /\ determine_fx (XFin 1) (XFin dy) = XFin 1 /\
  n_lt (determine_fx n_one d) n_one = true /\ n_lt (determine_fy n_one d) n_one = true.
Proof.
  exists (dec 7 10), (B2R (dec 7 10)). split; [apply f64_val_finite; vm_compute; exact eq_refl|]. split; [apply circle_exact|].
  split; vm_compute; exact eq_refl.
Qed.
Theorem circle_nan : exists (d : f64) dy, f64_val d = XFin dy /\ determine_fx (XFin 1) (XFin dy) = XFin 1 /\ f64_val (determine_fx n_one d) = XNaN.
Proof.
  exists (n_ofZ (2 ^ 27)), (IZR (2 ^ 27)). split; [apply of_Z; vm_compute; discriminate|]. split; [apply circle_exact|]. vm_compute. exact eq_refl.
Qed.
