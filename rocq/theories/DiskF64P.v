(** Disk radius and inclination computed in binary64. *)
From Coq Require Import ZArith Reals Lra Lia Bool.
From Flocq Require Import Core BinarySingleNaN.
From Verif Require Import Num NumP XLibm Geometry BuildFP SpecGeom SpecF64 Round64P GeomF64P GeomP DiskErrP.
Local Open Scope R_scope.
Set Implicit Arguments.

Lemma mul_any (x y : f64) a b : f64_val x = XFin a -> f64_val y = XFin b -> Rabs (a * b) <= B 1023 ->
  exists d t, Rabs d <= ulp1 /\ Rabs t <= B (-1075) /\ f64_val (n_mul x y) = XFin (a * b * (1 + d) + t).
Proof. intros X Y H. rewrite (mul_correct _ _ X Y H). destruct (rnd_abs (a * b)) as (d & t & D & T & ->). eauto. Qed.
Lemma div_any (x y : f64) a b : f64_val x = XFin a -> f64_val y = XFin b -> b <> 0 -> Rabs (a / b) <= B 1023 ->
  exists d t, Rabs d <= ulp1 /\ Rabs t <= B (-1075) /\ f64_val (n_div x y) = XFin (a / b * (1 + d) + t).
Proof. intros X Y N H. rewrite (div_correct _ _ X Y N H). destruct (rnd_abs (a / b)) as (d & t & D & T & ->). eauto. Qed.

Lemma of_half : f64_val (n_half : f64) = XFin (/ 2).
Proof.
  unfold n_half. rewrite (div_correct n_one (n_ofZ 2) of_one of_two); [|lra|].
  - f_equal. replace (1 / 2) with (B (-1)) by (change (B (-1)) with (/ 2); lra). rewrite round_generic; [reflexivity|apply valid_rnd_round_mode|]. apply generic_format_bpow. unfold SpecFloat.fexp, SpecFloat.emin. lia.
  - rewrite Rabs_pos_eq by lra. apply Rle_trans with (B 0); [change (B 0) with 1; lra|apply bpow_le; lia].
Qed.
Lemma tiny_1075 : 0 < B (-1075) <= ulp1 / 1000.
Proof. split; [apply bpow_gt_0|]. apply Rle_trans with (2 := tiny_975). apply bpow_le. lia. Qed.
Lemma sq_le_abs x y : 0 <= y -> Rabs x <= y -> x * x <= y * y.
Proof. intros Y X. apply Rabs_le_inv in X. nra. Qed.
Lemma cos_lip x y : Rabs (cos x - cos y) <= Rabs (x - y).
Proof.
  rewrite form2. rewrite !Rabs_mult. assert (S := abs_sin_le ((x - y) / 2)). assert (T : Rabs (sin ((x + y) / 2)) <= 1) by (apply Rabs_le; apply SIN_bound).
  assert (E : Rabs ((x - y) / 2) = Rabs (x - y) / 2) by (unfold Rdiv; rewrite Rabs_mult, (Rabs_pos_eq (/ 2)) by lra; reflexivity). rewrite E in S.
  replace (Rabs (-2)) with 2 by (unfold Rabs; destruct (Rcase_abs (-2)); lra). assert (P := Rabs_pos (sin ((x - y) / 2))). assert (P2 := Rabs_pos (sin ((x + y) / 2))). nra.
Qed.
Lemma np_max_val (x y : f64) a b : f64_val x = XFin a -> f64_val y = XFin b -> f64_val (np_max x y) = XFin (Rmax a b).
Proof.
  intros X Y. unfold np_max. assert (Nx : n_isnan x = false) by (destruct x; try reflexivity; discriminate X). assert (Ny : n_isnan y = false) by (destruct y; try reflexivity; discriminate Y).
  rewrite Nx, Ny. cbn [n_le Num_f64]. rewrite f64_le, X, Y. unfold x_le, x_lt, x_eq, Rmax.
  destruct (Rlt_dec b a), (Req_EM_T b a), (Rle_dec a b); cbn [orb]; rewrite ?X, ?Y; f_equal; lra.
Qed.
Lemma np_min_val (x y : f64) a b : f64_val x = XFin a -> f64_val y = XFin b -> f64_val (np_min x y) = XFin (Rmin a b).
Proof.
  intros X Y. unfold np_min. assert (Nx : n_isnan x = false) by (destruct x; try reflexivity; discriminate X). assert (Ny : n_isnan y = false) by (destruct y; try reflexivity; discriminate Y).
  rewrite Nx, Ny. cbn [n_le Num_f64]. rewrite f64_le, X, Y. unfold x_le, x_lt, x_eq, Rmin.
  destruct (Rlt_dec a b), (Req_EM_T a b), (Rle_dec a b); cbn [orb]; rewrite ?X, ?Y; f_equal; lra.
Qed.
Lemma PI_bounds : 3 < PI < 4 - / 2.
Proof.
  split; [generalize PI2_3_2; lra|]. destruct (PI_ineq 1) as [_ H]. unfold tg_alt, PI_tg in H. cbn in H. lra.
Qed.

Section Disk.
Variables (L : Libm f64) (e : R).
Hypotheses (Acc : accurate L e) (Elo : 2 * ulp1 <= e) (Ehi : e <= / 1000000).
Variables (fxv fyv sv cv : f64) (fx fy s c : R).
Hypotheses (Vx : f64_val fxv = XFin fx) (Vy : f64_val fyv = XFin fy) (Vs : f64_val sv = XFin s) (Vc : f64_val cv = XFin c).
Hypotheses (Px : 0 < fx) (Py : 0 < fy) (Pc : 0 < c) (Ox : ordinary fx) (Oy : ordinary fy) (Os : loose s) (Oc : ordinary c).
Let A := fx * fx + (s * s + 1) * (fy * fy).
Let D := (s * s + 1) * (fy * fy) - fx * fx.
Let N := 2 * fx * fy * s.

Lemma ord_pos r : 0 < r -> ordinary r -> B (-100) <= r <= B 100.
Proof. intros P [L' H']. rewrite Rabs_pos_eq in L', H' by lra. lra. Qed.
Lemma A_big : B (-200) <= A <= B 403.
Proof.
  unfold A. assert (Sx := ordinary_sq Ox). assert (Sy := ordinary_sq Oy). assert (Ss := loose_le Os). assert (S0 := sq_ge s). split.
  - assert (0 <= (s * s + 1) * (fy * fy)) by (apply Rmult_le_pos; nra). lra.
  - change 403%Z with (203 + 200)%Z. rewrite bpow_plus. assert (P := bpow_gt_0 radix2 200). assert (B 200 <= B 201) by (apply bpow_le; lia).
    assert (E : B 203 = 8 * B 200) by (change 203%Z with (3 + 200)%Z; rewrite bpow_plus; reflexivity). assert (1 <= B 200) by (apply (bpow_le radix2 0 200); lia).
    rewrite E. apply Rle_trans with (B 200 + 2 * B 200 * B 200); [apply Rplus_le_compat; [lra|]; apply Rmult_le_compat; nra|nra].
Qed.
Lemma dir_D : exists v, f64_val (n_sub (n_mul (n_add (n_sq sv) n_one) (n_sq fyv)) (n_sq fxv)) = XFin v /\ Rabs (v - D) <= 7 * ulp1 * A.
Proof.
  assert (U := ulp1_pos). assert (HA := A_big). assert (Sy := ordinary_sq Oy). assert (Ss := loose_le Os). assert (S0 := sq_ge s).
  assert (W : B 0 <= s * s + 1 <= B 201). { change (B 0) with 1. change 201%Z with (1 + 200)%Z. rewrite bpow_plus. change (B 1) with 2. assert (1 <= B 200) by (apply (bpow_le radix2 0 200); lia). lra. }
  assert (T1 : tracks 4 (n_mul (n_add (n_sq sv) n_one) (n_sq fyv)) ((s * s + 1) * (fy * fy))).
  { apply (@tracks_mul 2 1).
    - apply tracks_add; [now apply track_sq|apply tracks_weaken with 0%nat; [lia|]; apply tracks_exact; [apply of_one|lra]|lia|].
      apply Rle_trans with (1 := proj2 W), bpow_le. lia.
    - apply track_sq; auto. now right.
    - lia.
    - apply (@middle _ (0 + -200) (201 + 200)); try lia. now apply bpow_mul_between. }
  destruct T1 as (p & Vp & Np). destruct (track_sq _ Vx (or_intror Ox)) as (q & Vq & Nq).
  destruct (near_bound Np) as [Ep _]; [lia|]. destruct (near_bound Nq) as [Eq _]; [lia|]. assert (Qp := near_nonneg Np). assert (Qq := near_nonneg Nq).
  replace (INR 4) with 4 in Ep by (rewrite INR_IZR_INZ; reflexivity). change (INR 1) with 1 in Eq. apply Rabs_le_inv in Ep. apply Rabs_le_inv in Eq.
  assert (P1 := proj1 Np). assert (P2 := proj1 Nq).
  destruct (sub64 _ _ Vp Vq) as (d & Dd & V).
  { apply Rabs_le. unfold A in HA. assert (B 403 <= B 1022) by (apply bpow_le; lia). change 1023%Z with (1 + 1022)%Z. rewrite bpow_plus. change (B 1) with 2. nra. }
  exists ((p - q) * (1 + d)). split; auto. apply Rabs_le_inv in Dd. unfold D, A.
  set (a := (s * s + 1) * (fy * fy)) in *. set (b := fx * fx) in *.
  assert (Rabs ((p - q) * d) <= 11 / 10 * ulp1 * (a + b)).
  { rewrite Rabs_mult. assert (Rabs (p - q) <= 11 / 10 * (a + b)) by (apply Rabs_le; nra). assert (Rabs d <= ulp1) by (apply Rabs_le; lra).
    apply Rle_trans with (11 / 10 * (a + b) * ulp1); [|lra]. apply Rmult_le_compat; auto using Rabs_pos. }
  apply Rabs_le_inv in H. apply Rabs_le. nra.
Qed.
Lemma N_le : Rabs N <= A.
Proof.
  unfold N, A. apply Rabs_le. assert (S1 := sq_ge (fx - s * fy)). assert (S2 := sq_ge (fx + s * fy)). assert (S3 := sq_ge fy). nra.
Qed.
Lemma dir_N : exists v, f64_val (n_mul (n_mul (n_mul (num2 2) fxv) fyv) sv) = XFin v /\ Rabs (v - N) <= 5 * ulp1 * A.
Proof.
  assert (U := ulp1_pos). assert (HA := A_big). assert (HN := N_le). assert (Bx := ord_pos Px Ox). assert (By := ord_pos Py Oy).
  assert (I2 : B 1 <= 2 <= B 1) by (split; apply Rle_refl).
  assert (I3 := bpow_mul_between 1 1 (-100) 100 I2 Bx). assert (I4 := bpow_mul_between (1 + -100) (1 + 100) (-100) 100 I3 By).
  assert (T : tracks 2 (n_mul (n_mul (num2 2) fxv) fyv) (2 * fx * fy)).
  { apply (@tracks_mul 1 0); [apply (@tracks_mul 0 0)|apply tracks_exact; auto; lra|lia|]; try lia; try (apply tracks_exact; [apply of_two || auto|lra]).
    - apply (@middle _ (1 + -100) (1 + 100)); auto; lia.
    - apply (@middle _ (1 + -100 + -100) (1 + 100 + 100)); auto; lia. }
  destruct T as (p & Vp & Np). destruct (near_bound Np) as [Ep _]; [lia|]. change (INR 2) with 2 in Ep.
  assert (P1 := proj1 Np).
  assert (Er : Rabs (p * s - N) <= 3 * ulp1 * Rabs N).
  { unfold N. replace (p * s - 2 * fx * fy * s) with ((p - 2 * fx * fy) * s) by ring. rewrite !(Rabs_mult _ s), (Rabs_pos_eq (2 * fx * fy)) by exact P1.
    apply Rle_trans with ((2 + 1) * ulp1 * (2 * fx * fy) * Rabs s); [apply Rmult_le_compat_r; [apply Rabs_pos|exact Ep]|lra]. }
  destruct (mul64 _ _ Vp Vs) as (d & Dd & V).
  { destruct Os as [->|Oss]; [left; ring|]. right. assert (Ip := near_scale _ _ Np ltac:(lia) I4). rewrite Rabs_mult, (Rabs_pos_eq p) by exact (near_nonneg Np).
    assert (I5 := bpow_mul_between _ _ _ _ Ip Oss). split; [apply Rle_trans with (2 := proj1 I5)|apply Rle_trans with (1 := proj2 I5)]; apply bpow_le; lia. }
  exists (p * s * (1 + d)). split; auto. replace (p * s * (1 + d) - N) with ((p * s - N) + p * s * d) by ring.
  apply Rle_trans with (1 := Rabs_triang _ _). rewrite (Rabs_mult (p * s) d).
  assert (Ps : Rabs (p * s) <= 11 / 10 * Rabs N). { replace (p * s) with (N + (p * s - N)) by ring. apply Rle_trans with (1 := Rabs_triang _ _). assert (G := Rabs_pos N). nra. }
  assert (Rabs (p * s) * Rabs d <= 11 / 10 * Rabs N * ulp1) by (apply Rmult_le_compat; auto using Rabs_pos).
  assert (G := Rabs_pos N). nra.
Qed.
Let e_pos : 0 < e. Proof. generalize ulp1_pos. lra. Qed.

(** the direction of the computed vertex *)
Lemma directed : exists al hh Dh Nh, 0 <= hh /\ Dh = hh * cos al /\ Nh = hh * sin al /\ Rabs al <= PI /\
  (Dh - D) * (Dh - D) + (Nh - N) * (Nh - N) <= 5 * e * A * (5 * e * A) /\
  exists t1 t2, f64_val (vertex_angle L fxv fyv sv) = XFin t1 /\ f64_val (covertex_angle L fxv fyv sv) = XFin t2 /\
    Rabs (t1 - al / 2) <= 3 * e /\ Rabs (t2 - (al / 2 + PI / 2)) <= 7 * e.
Proof.
  assert (U := ulp1_pos). assert (E0 := e_pos). assert (T := tiny_1075). assert (PB := PI_bounds).
  destruct dir_D as (Dh & VD & ED). destruct dir_N as (Nh & VN & EN).
  destruct (a_atan2 Acc VN VD) as (v & al & Va & Ea & Al & P1 & P2). assert (HA := A_big). assert (PA : 0 < A) by (apply Rlt_le_trans with (2 := proj1 HA), bpow_gt_0).
  exists al, (sqrt (Dh * Dh + Nh * Nh)), Dh, Nh. split; [apply sqrt_pos|]. split; [exact P1|]. split; [exact P2|]. split; [exact Al|]. split.
  { apply Rabs_le_inv in ED. apply Rabs_le_inv in EN. assert (G : ulp1 * A <= e / 2 * A) by (apply Rmult_le_compat_r; lra).
    assert ((Dh - D) * (Dh - D) <= 7 / 2 * e * A * (7 / 2 * e * A)) by (apply sq_le_abs; [nra|apply Rabs_le; nra]).
    assert ((Nh - N) * (Nh - N) <= 5 / 2 * e * A * (5 / 2 * e * A)) by (apply sq_le_abs; [nra|apply Rabs_le; nra]).
    assert (0 <= e * A * (e * A)) by apply sq_ge. nra. }
  apply Rabs_le_inv in Ea. assert (Al' := Al). apply Rabs_le_inv in Al'.
  destruct (mul_any _ _ of_half Va) as (d & t & Dd & Dt & V1).
  { apply Rle_trans with (B 3); [|apply bpow_le; lia]. change (B 3) with 8. apply Rabs_le. lra. }
  apply Rabs_le_inv in Dd. apply Rabs_le_inv in Dt.
  set (t1 := / 2 * v * (1 + d) + t) in *.
  assert (Hd : Rabs (v * d) <= 18 / 5 * ulp1). { rewrite Rabs_mult. apply Rmult_le_compat; auto using Rabs_pos; apply Rabs_le; lra. }
  apply Rabs_le_inv in Hd.
  assert (E1 : - (3 * e) <= t1 - al / 2 <= 3 * e) by (unfold t1; lra).
  destruct (a_pi Acc) as (p & Vp & Ep). apply Rabs_le_inv in Ep.
  destruct (div_any _ _ Vp of_two) as (d2 & t2 & Dd2 & Dt2 & V2); [lra| |].
  { apply Rle_trans with (B 3); [|apply bpow_le; lia]. change (B 3) with 8. apply Rabs_le. lra. }
  apply Rabs_le_inv in Dd2. apply Rabs_le_inv in Dt2. set (hp := p / 2 * (1 + d2) + t2) in *.
  assert (Hd2 : Rabs (p / 2 * d2) <= 2 * ulp1). { rewrite Rabs_mult. apply Rmult_le_compat; auto using Rabs_pos; apply Rabs_le; lra. }
  apply Rabs_le_inv in Hd2. assert (Eh : - (3 / 2 * e + e / 10) <= hp - PI / 2 <= 3 / 2 * e + e / 10) by (unfold hp; lra).
  assert (V1' : f64_val (vertex_angle L fxv fyv sv) = XFin t1) by exact V1.
  destruct (add64 _ _ V1' V2) as (d3 & Dd3 & V3).
  { apply Rle_trans with (B 3); [|apply bpow_le; lia]. change (B 3) with 8. apply Rabs_le. lra. }
  exists t1, ((t1 + hp) * (1 + d3)). split; [exact V1'|]. split; [exact V3|]. split; [apply Rabs_le; exact E1|].
  apply Rabs_le_inv in Dd3. assert (Hd3 : Rabs ((t1 + hp) * d3) <= 4 * ulp1). { rewrite Rabs_mult. apply Rmult_le_compat; auto using Rabs_pos; apply Rabs_le; lra. }
  apply Rabs_le_inv in Hd3. apply Rabs_le. lra.
Qed.

(** a point of the computed ellipse *)
Lemma tiny_scale f : 0 < f -> ordinary f -> B (-1075) <= / 1000 * (e * (c * f)) /\ B (-1075) <= / 1000 * (e * c).
Proof.
  intros Pf Of. assert (Bf := ord_pos Pf Of). assert (Bc := ord_pos Pc Oc). assert (I := bpow_mul_between _ _ _ _ Bc Bf).
  assert (Be : B (-52) <= e). { apply Rle_trans with (2 := Elo). unfold ulp1. change 2 with (B 1). rewrite <- bpow_plus. apply Rle_refl. }
  assert (P0 := bpow_ge_0 radix2 (-52)). assert (Z : B (-10) <= / 1000) by (change (B (-10)) with (/ 1024); lra). assert (P10 := bpow_ge_0 radix2 (-10)).
  split.
  - apply Rle_trans with (B (-10 + (-52 + (-100 + -100)))); [apply bpow_le; lia|]. rewrite bpow_plus. apply Rmult_le_compat; auto; [apply bpow_ge_0|].
    rewrite bpow_plus. apply Rmult_le_compat; auto; [apply bpow_ge_0|apply I].
  - apply Rle_trans with (B (-10 + (-52 + -100))); [apply bpow_le; lia|]. rewrite bpow_plus. apply Rmult_le_compat; auto; [apply bpow_ge_0|].
    rewrite bpow_plus. apply Rmult_le_compat; auto; [apply bpow_ge_0|apply Bc].
Qed.
Lemma trig_scaled f fv v g gv : 0 < f -> ordinary f -> f64_val fv = XFin f -> f64_val gv = XFin v -> Rabs (v - g) <= e -> Rabs g <= 1 ->
  exists r, f64_val (n_mul fv (n_mul cv gv)) = XFin r /\ Rabs (r - f * (c * g)) <= 9 / 4 * (e * (c * f)).
Proof.
  intros Pf Of Vf Vg Eg Hg. assert (U := ulp1_pos). assert (E0 := e_pos). destruct (tiny_scale Pf Of) as [T1 T2]. assert (P0 := bpow_ge_0 radix2 (-1075)).
  assert (Bf := ord_pos Pf Of). assert (Bc := ord_pos Pc Oc). apply Rabs_le_inv in Eg. apply Rabs_le_inv in Hg.
  assert (B101 : 2 * B 100 <= B 101) by (change 101%Z with (1 + 100)%Z; rewrite bpow_plus; change (B 1) with 2; lra).
  destruct (mul_any _ _ Vc Vg) as (d & t & Dd & Dt & V1).
  { apply Rle_trans with (B 101); [|apply bpow_le; lia]. rewrite Rabs_mult, (Rabs_pos_eq c) by lra. assert (Rabs v <= 2) by (apply Rabs_le; lra). assert (A0 := Rabs_pos v). nra. }
  set (w := c * v * (1 + d) + t) in *.
  assert (Ew : Rabs (w - c * g) <= 8 / 5 * (e * c)).
  { unfold w. replace (c * v * (1 + d) + t - c * g) with (c * (v - g) + (c * (v * d) + t)) by ring.
    assert (Rabs (v * d) <= 101 / 100 * ulp1) by (rewrite Rabs_mult; apply Rmult_le_compat; auto using Rabs_pos; apply Rabs_le; lra).
    apply Rabs_le_inv in H. apply Rabs_le_inv in Dt. assert (ulp1 * c <= e / 2 * c) by (apply Rmult_le_compat_r; lra). apply Rabs_le. nra. }
  apply Rabs_le_inv in Ew. assert (W2 : Rabs w <= 101 / 100 * c) by (apply Rabs_le; nra).
  destruct (mul_any _ _ Vf V1) as (d' & t' & Dd' & Dt' & V2).
  { apply Rle_trans with (B (100 + 101)); [|apply bpow_le; lia]. rewrite bpow_plus, Rabs_mult, (Rabs_pos_eq f) by lra. apply Rmult_le_compat; auto using Rabs_pos; lra. }
  exists (f * w * (1 + d') + t'). split; [exact V2|].
  replace (f * w * (1 + d') + t' - f * (c * g)) with (f * (w - c * g) + (f * (w * d') + t')) by ring.
  assert (Hd : Rabs (w * d') <= 101 / 100 * c * ulp1) by (rewrite Rabs_mult; apply Rmult_le_compat; auto using Rabs_pos).
  apply Rabs_le_inv in Hd. apply Rabs_le_inv in Dt'.
  assert (F1 : - (f * (8 / 5 * (e * c))) <= f * (w - c * g) <= f * (8 / 5 * (e * c))) by (split; [rewrite <- Ropp_mult_distr_r_reverse|]; apply Rmult_le_compat_l; lra).
  assert (F2 : - (f * (101 / 100 * c * ulp1)) <= f * (w * d') <= f * (101 / 100 * c * ulp1)) by (split; [rewrite <- Ropp_mult_distr_r_reverse|]; apply Rmult_le_compat_l; lra).
  assert (F3 : f * (101 / 100 * c * ulp1) <= 51 / 100 * (e * (c * f))).
  { replace (f * (101 / 100 * c * ulp1)) with (101 / 100 * ulp1 * (c * f)) by ring. assert (0 < c * f) by (apply Rmult_lt_0_compat; lra). nra. }
  apply Rabs_le. lra.
Qed.
Lemma pointed th thv : f64_val thv = XFin th -> Rabs th <= 8 ->
  exists x y, f64_val (fst (xy_at L fxv fyv thv sv cv)) = XFin x /\ f64_val (snd (xy_at L fxv fyv thv sv cv)) = XFin y /\
    Rabs (x - px fx fy s c th) + Rabs (y - py fy c th) <= 7 / 2 * e * (c * (fx + Rabs s * fy + fy)).
Proof.
  intros Vt Ht. assert (U := ulp1_pos). assert (E0 := e_pos).
  destruct (a_cos Acc Vt Ht) as (vc & Vcos & Ec). destruct (a_sin Acc Vt Ht) as (vs & Vsin & Es).
  assert (Cb : Rabs (cos th) <= 1) by (apply Rabs_le; apply COS_bound). assert (Sb : Rabs (sin th) <= 1) by (apply Rabs_le; apply SIN_bound).
  destruct (@trig_scaled fx fxv _ _ _ Px Ox Vx Vcos Ec Cb) as (xs & Vxs & Exs). destruct (@trig_scaled fy fyv _ _ _ Py Oy Vy Vsin Es Sb) as (ys & Vys & Eys).
  destruct (tiny_scale Py Oy) as [T1 _]. assert (P0 := bpow_ge_0 radix2 (-1075)). assert (As := Rabs_pos s).
  assert (Bc := ord_pos Pc Oc). assert (By := ord_pos Py Oy). assert (Bx := ord_pos Px Ox).
  assert (Pcy : 0 < c * fy) by (apply Rmult_lt_0_compat; lra). assert (Pcx : 0 < c * fx) by (apply Rmult_lt_0_compat; lra).
  assert (Hs : Rabs s <= B 100). { destruct Os as [->|[_ H]]; [rewrite Rabs_R0; apply bpow_ge_0|exact H]. }
  assert (Fy : Rabs (fy * (c * sin th)) <= c * fy). { rewrite Rabs_mult, (Rabs_mult c), !(Rabs_pos_eq fy), !(Rabs_pos_eq c) by lra. nra. }
  assert (Fx : Rabs (fx * (c * cos th)) <= c * fx). { rewrite Rabs_mult, (Rabs_mult c), !(Rabs_pos_eq fx), !(Rabs_pos_eq c) by lra. nra. }
  assert (Gy : Rabs ys <= 101 / 100 * (c * fy)). { replace ys with (fy * (c * sin th) + (ys - fy * (c * sin th))) by ring. apply Rle_trans with (1 := Rabs_triang _ _). nra. }
  assert (Gx : Rabs xs <= 101 / 100 * (c * fx)). { replace xs with (fx * (c * cos th) + (xs - fx * (c * cos th))) by ring. apply Rle_trans with (1 := Rabs_triang _ _). nra. }
  assert (I1 := bpow_mul_between _ _ _ _ Bc By). assert (I2 := bpow_mul_between _ _ _ _ Bc Bx).
  assert (Dbl : forall k, 2 * B k = B (1 + k)) by (intros; rewrite bpow_plus; reflexivity).
  destruct (mul_any _ _ Vs Vys) as (d & t & Dd & Dt & V1).
  { apply Rle_trans with (B (100 + (1 + (100 + 100)))); [|apply bpow_le; lia]. rewrite bpow_plus, Rabs_mult. apply Rmult_le_compat; auto using Rabs_pos. rewrite <- Dbl. lra. }
  set (z := s * ys * (1 + d) + t) in *. set (Q := Rabs s * (c * fy)). assert (HQ : 0 <= Q) by (apply Rmult_le_pos; lra).
  assert (Ez : Rabs (z - s * (fy * (c * sin th))) <= 14 / 5 * (e * Q) + / 1000 * (e * (c * fy))).
  { unfold z. replace (s * ys * (1 + d) + t - s * (fy * (c * sin th))) with (s * (ys - fy * (c * sin th)) + (s * (ys * d) + t)) by ring.
    apply Rle_trans with (1 := Rabs_triang _ _). rewrite Rabs_mult.
    assert (Z1 : Rabs s * Rabs (ys - fy * (c * sin th)) <= Rabs s * (9 / 4 * (e * (c * fy)))) by (apply Rmult_le_compat_l; auto).
    assert (Z2 : Rabs (s * (ys * d) + t) <= Rabs s * (101 / 100 * (c * fy) * ulp1) + B (-1075)).
    { apply Rle_trans with (1 := Rabs_triang _ _). apply Rplus_le_compat; auto. rewrite Rabs_mult. apply Rmult_le_compat_l; auto. rewrite Rabs_mult. apply Rmult_le_compat; auto using Rabs_pos. }
    assert (Z3 : Rabs s * (101 / 100 * (c * fy) * ulp1) <= 51 / 100 * (e * Q)).
    { unfold Q. replace (Rabs s * (101 / 100 * (c * fy) * ulp1)) with (101 / 100 * ulp1 * (Rabs s * (c * fy))) by ring. fold Q. nra. }
    assert (Z4 : Rabs s * (9 / 4 * (e * (c * fy))) = 9 / 4 * (e * Q)) by (unfold Q; ring). assert (0 <= e * Q) by (apply Rmult_le_pos; lra). lra. }
  assert (Gz : Rabs z <= 11 / 10 * Q + / 1000 * (e * (c * fy))).
  { replace z with (s * (fy * (c * sin th)) + (z - s * (fy * (c * sin th)))) by ring. apply Rle_trans with (1 := Rabs_triang _ _).
    assert (Rabs (s * (fy * (c * sin th))) <= Q) by (rewrite Rabs_mult; unfold Q; apply Rmult_le_compat_l; auto).
    assert (e * Q <= / 1000000 * Q) by (apply Rmult_le_compat_r; lra). lra. }
  destruct (sub64 _ _ Vxs V1) as (d' & Dd' & V2).
  { apply Rle_trans with (B 303); [|apply bpow_le; lia]. replace (xs - z) with (xs + - z) by ring. apply Rle_trans with (1 := Rabs_triang _ _). rewrite Rabs_Ropp.
    assert (Q <= B 300) by (unfold Q; change 300%Z with (100 + 200)%Z; rewrite bpow_plus; apply Rmult_le_compat; try lra; apply I1).
    assert (B (100 + 100) <= B 300) by (apply bpow_le; lia). change 303%Z with (3 + 300)%Z. rewrite bpow_plus. change (B 3) with 8.
    assert (e * (c * fy) <= / 1000000 * (c * fy)) by (apply Rmult_le_compat_r; lra). lra. }
  exists ((xs - z) * (1 + d')), ys. split; [exact V2|]. split; [exact Vys|].
  unfold px, py. replace ((xs - z) * (1 + d') - (fx * (c * cos th) - s * (fy * (c * sin th)))) with ((xs - fx * (c * cos th)) + (- (z - s * (fy * (c * sin th))) + (xs + - z) * d')) by ring.
  assert (K : Rabs ((xs + - z) * d') <= (101 / 100 * (c * fx) + (11 / 10 * Q + / 1000 * (e * (c * fy)))) * ulp1).
  { rewrite Rabs_mult. apply Rmult_le_compat; auto using Rabs_pos. apply Rle_trans with (1 := Rabs_triang _ _). rewrite Rabs_Ropp. lra. }
  assert (K2 : (101 / 100 * (c * fx) + (11 / 10 * Q + / 1000 * (e * (c * fy)))) * ulp1 <= (101 / 100 * (c * fx) + (11 / 10 * Q + / 1000 * (e * (c * fy)))) * (e / 2)) by (apply Rmult_le_compat_l; [nra|lra]).
  assert (M := Rabs_triang (xs - fx * (c * cos th)) (- (z - s * (fy * (c * sin th))) + (xs + - z) * d')).
  assert (M2 := Rabs_triang (- (z - s * (fy * (c * sin th)))) ((xs + - z) * d')). rewrite Rabs_Ropp in M2.
  replace (7 / 2 * e * (c * (fx + Rabs s * fy + fy))) with (7 / 2 * (e * (c * fx)) + 7 / 2 * (e * Q) + 7 / 2 * (e * (c * fy))) by (unfold Q; ring).
  assert (0 <= e * (c * fx)) by nra. assert (0 <= e * Q) by nra. assert (0 <= e * (c * fy)) by nra. assert (e * (e * (c * fy)) <= / 1000000 * (e * (c * fy))) by (apply Rmult_le_compat_r; lra). lra.
Qed.

Let Rm := d_major fx fy s c.
Let m := d_minor fx fy s c.
Lemma Rm_bounds : B (-201) <= Rm <= B 302 /\ 0 < m <= Rm.
Proof.
  assert (RS := R_sq fx s Py Pc). assert (Hb := h_below s Px Py). fold A D N in RS, Hb. fold Rm in RS.
  assert (PR : 0 < Rm) by exact (R_pos s Px Py Pc). assert (HA := A_big). assert (H0 : 0 <= sqrt (D * D + N * N)) by apply sqrt_pos.
  set (h := sqrt (D * D + N * N)) in *. assert (C := ordinary_sq Oc).
  assert (P2 := bpow_gt_0 radix2 (-200)). assert (Pcc : 0 < c * c) by lra.
  assert (I := bpow_mul_between _ _ _ _ C HA).
  assert (Lo : B (-402) <= Rm * Rm). { rewrite RS. apply Rle_trans with (c * c * A / 2); [|nra]. apply Rle_trans with (B (-1 + (-200 + -200))); [apply bpow_le; lia|]. rewrite bpow_plus. change (B (-1)) with (/ 2). lra. }
  assert (Hi : Rm * Rm <= B 604). { rewrite RS. apply Rle_trans with (c * c * A); [nra|]. apply Rle_trans with (1 := proj2 I). apply bpow_le. lia. }
  split; [split|split].
  - rewrite <- (sqrt_square Rm) by lra. rewrite <- (sqrt_bpow radix2 (-201)). apply sqrt_le_1_alt. exact Lo.
  - rewrite <- (sqrt_square Rm) by lra. rewrite <- (sqrt_bpow radix2 302). apply sqrt_le_1_alt. exact Hi.
  - exact (m_pos s Px Py Pc).
  - exact (minor_le fx fy s Pc).
Qed.
Lemma tiny_R : B (-1000) <= / 1000 * (e * Rm).
Proof.
  destruct Rm_bounds as [[L' _] _]. assert (Be : B (-52) <= e). { apply Rle_trans with (2 := Elo). unfold ulp1. change 2 with (B 1). rewrite <- bpow_plus. apply Rle_refl. }
  apply Rle_trans with (B (-10 + (-52 + -201))); [apply bpow_le; lia|]. rewrite bpow_plus. apply Rmult_le_compat; [apply bpow_ge_0|apply bpow_ge_0|change (B (-10)) with (/ 1024); lra|].
  rewrite bpow_plus. apply Rmult_le_compat; auto; apply bpow_ge_0.
Qed.
Lemma distanced th thv : f64_val thv = XFin th -> Rabs th <= 8 ->
  exists x y d, f64_val (fst (xy_at L fxv fyv thv sv cv)) = XFin x /\ f64_val (snd (xy_at L fxv fyv thv sv cv)) = XFin y /\
    f64_val (m_hypot L (fst (xy_at L fxv fyv thv sv cv)) (snd (xy_at L fxv fyv thv sv cv))) = XFin d /\ 0 <= d /\
    Rabs (d - sqrt (r2 fx fy s c th)) <= 11 * e * Rm /\
    Rabs (x - px fx fy s c th) + Rabs (y - py fy c th) <= 7 / 2 * e * (c * (fx + Rabs s * fy + fy)).
Proof.
  intros Vt Ht. destruct (pointed _ Vt Ht) as (x & y & X & Y & E). assert (E0 := e_pos).
  assert (V := @vector_near fx fy s c Px Py Pc e (conj e_pos Ehi) th x y E). fold Rm in V. apply Rabs_le_inv in V.
  destruct Rm_bounds as [[Rl Rh] _]. assert (PR : 0 < Rm) by (apply Rlt_le_trans with (2 := Rl), bpow_gt_0).
  assert (Q : sqrt (r2 fx fy s c th) <= Rm) by (apply sqrt_le_1_alt; apply (r2_bounds fx fy s Pc)). assert (eR : e * Rm <= / 1000000 * Rm) by (apply Rmult_le_compat_r; lra).
  assert (Z := sqrt_pos (x * x + y * y)).
  destruct (a_hypot Acc X Y) as (d & Vd & Pd & Ed).
  { apply Rle_trans with (2 * B 302); [lra|]. change 2 with (B 1). rewrite <- bpow_plus. apply bpow_le. lia. }
  exists x, y, d. split; [exact X|]. split; [exact Y|]. split; [exact Vd|]. split; [exact Pd|]. split; [|exact E]. apply Rabs_le_inv in Ed. assert (T := tiny_R).
  assert (e * sqrt (x * x + y * y) <= e * (11 / 10 * Rm)) by (apply Rmult_le_compat_l; lra). apply Rabs_le. lra.
Qed.

Lemma degreed (x : f64) a : f64_val x = XFin a -> Rabs a <= 8 -> exists v, f64_val (to_deg L x) = XFin v /\ Rabs (degrees v - a) <= 3 / 2 * e * Rabs a + / 100 * e.
Proof.
  intros X Ha. assert (U := ulp1_pos). assert (E0 := e_pos). assert (T := tiny_1075). assert (PB := PI_bounds).
  destruct (a_pi Acc) as (p & Vp & Ep). apply Rabs_le_inv in Ep. unfold to_deg.
  assert (V180 : f64_val (num2 180 : f64) = XFin 180) by (apply (of_Z 180); vm_compute; discriminate).
  assert (Pp : 29 / 10 < p) by lra. assert (Qi : 0 < / p) by (apply Rinv_0_lt_compat; lra). assert (Qi2 : / p < 10 / 29) by (replace (10 / 29) with (/ (29 / 10)) by field; apply Rinv_lt_contravar; [nra|lra]).
  assert (Small : forall r, Rabs r <= 1024 -> Rabs r <= B 1023). { intros r H. apply Rle_trans with (B 10); [change (B 10) with 1024; exact H|apply bpow_le; lia]. }
  destruct (div_any _ _ V180 Vp) as (d & t & Dd & Dt & V1); [lra| |].
  { apply Small. unfold Rdiv. rewrite Rabs_mult, !Rabs_pos_eq by lra. lra. }
  set (q := 180 / p * (1 + d) + t) in *. apply Rabs_le_inv in Dd. apply Rabs_le_inv in Dt.
  (* q in degrees of a radian *)
  assert (Eq : Rabs (degrees q - 1) <= 9 / 10 * e).
  { unfold degrees, q. replace ((180 / p * (1 + d) + t) * (PI / 180) - 1) with ((PI - p) * / p + (PI * / p * d + t * (PI / 180))) by (field; lra).
    assert (G1 : Rabs ((PI - p) * / p) <= e * (10 / 29)). { rewrite Rabs_mult. apply Rmult_le_compat; auto using Rabs_pos; [apply Rabs_le; lra|rewrite Rabs_pos_eq; lra]. }
    assert (G2 : Rabs (PI * / p * d) <= 101 / 100 * ulp1).
    { rewrite Rabs_mult. apply Rmult_le_compat; auto using Rabs_pos; [|apply Rabs_le; lra]. assert (PI * / p = 1 + (PI - p) * / p) by (field; lra). rewrite H. apply Rabs_le_inv in G1. apply Rabs_le. lra. }
    assert (G3 : Rabs (t * (PI / 180)) <= ulp1 / 1000 * 1). { rewrite Rabs_mult. apply Rmult_le_compat; auto using Rabs_pos; [apply Rabs_le; lra|rewrite Rabs_pos_eq; lra]. }
    apply Rabs_le_inv in G1. apply Rabs_le_inv in G2. apply Rabs_le_inv in G3. apply Rabs_le. lra. }
  apply Rabs_le_inv in Eq.
  assert (Hq : Rabs q <= 100). { assert (q = degrees q * (180 / PI)) by (unfold degrees; field; lra). rewrite H, Rabs_mult.
    assert (Rabs (degrees q) <= 11 / 10) by (apply Rabs_le; lra). assert (Rabs (180 / PI) <= 60). { rewrite Rabs_pos_eq. - apply Rmult_le_reg_r with PI; [lra|]. unfold Rdiv. rewrite Rmult_assoc, Rinv_l by lra. lra. - apply Rlt_le, Rdiv_lt_0_compat; lra. }
    apply Rle_trans with (11 / 10 * 60); [apply Rmult_le_compat; auto using Rabs_pos|lra]. }
  destruct (mul_any _ _ X V1) as (d' & t' & Dd' & Dt' & V2).
  { apply Small. rewrite Rabs_mult. apply Rle_trans with (8 * 100); [apply Rmult_le_compat; auto using Rabs_pos|lra]. }
  exists (a * q * (1 + d') + t'). split; [exact V2|].
  assert (De : degrees (a * q * (1 + d') + t') - a = a * (degrees q - 1) + (a * (degrees q * d') + t' * (PI / 180))) by (unfold degrees; field).
  rewrite De. apply Rle_trans with (1 := Rabs_triang _ _). assert (G2 := Rabs_triang (a * (degrees q * d')) (t' * (PI / 180))). rewrite !(Rabs_mult a) in *.
  assert (Pa := Rabs_pos a). assert (G4 : Rabs (degrees q * d') <= 11 / 10 * ulp1). { rewrite Rabs_mult. apply Rmult_le_compat; auto using Rabs_pos. apply Rabs_le. lra. }
  assert (G3 : Rabs (t' * (PI / 180)) <= ulp1 / 1000 * 1). { rewrite Rabs_mult. apply Rmult_le_compat; auto using Rabs_pos; [lra|rewrite Rabs_pos_eq; lra]. }
  assert (G5 : Rabs a * Rabs (degrees q - 1) <= Rabs a * (9 / 10 * e)) by (apply Rmult_le_compat_l; auto; apply Rabs_le; lra).
  assert (G6 : Rabs a * Rabs (degrees q * d') <= Rabs a * (11 / 20 * e)) by (apply Rmult_le_compat_l; auto; lra).
  assert (0 <= Rabs a * e) by (apply Rmult_le_pos; lra). lra.
Qed.

(** the disk, with the vertex its tilt is read from: the computed vertex x1, y1 is close to the point of the
    ellipse at the angle t1 and lies in the direction be; the tilt is be, or be + PI/2 *)
Theorem disk64_vertex : exists rv iv tv r i t, disk_parameters L fxv fyv sv cv = (rv, iv, tv) /\
  f64_val rv = XFin r /\ f64_val iv = XFin i /\ f64_val tv = XFin t /\
  Rabs (r - Rm) <= 22 * e * Rm /\ Rabs (cos (degrees i) - m / Rm) <= 50 * e /\
  exists al hh Dh Nh t1 x1 y1 be, 0 <= hh /\ Dh = hh * cos al /\ Nh = hh * sin al /\
    (Dh - D) * (Dh - D) + (Nh - N) * (Nh - N) <= 5 * e * A * (5 * e * A) /\ Rabs (t1 - al / 2) <= 3 * e /\
    Rabs (x1 - px fx fy s c t1) + Rabs (y1 - py fy c t1) <= 7 / 2 * e * (c * (fx + Rabs s * fy + fy)) /\
    x1 = sqrt (x1 * x1 + y1 * y1) * cos be /\ y1 = sqrt (x1 * x1 + y1 * y1) * sin be /\ Rabs be <= PI /\
    (Rabs (degrees t - (be + PI / 2)) <= 20 * e \/ Rabs (degrees t - be) <= 20 * e /\ Rm - m <= 44 * e * Rm) /\
    f64_val (fst (xy_at L fxv fyv (vertex_angle L fxv fyv sv) sv cv)) = XFin x1 /\ f64_val (snd (xy_at L fxv fyv (vertex_angle L fxv fyv sv) sv cv)) = XFin y1.
Proof.
  assert (U := ulp1_pos). assert (E0 := e_pos). assert (PB := PI_bounds). assert (T := tiny_1075). destruct Rm_bounds as [[Rl Rh] [Pm mR]].
  assert (PR : 0 < Rm) by lra. assert (eR : 0 < e * Rm <= / 1000000 * Rm) by (split; [apply Rmult_lt_0_compat; auto|apply Rmult_le_compat_r; lra]).
  destruct directed as (al & hh & Dh & Nh & Phh & P1 & P2 & Hal & HE & t1 & t2 & V1 & V2 & E1 & E2).
  apply Rabs_le_inv in Hal. apply Rabs_le_inv in E1. apply Rabs_le_inv in E2.
  destruct (distanced (vertex_angle L fxv fyv sv) V1) as (x1 & y1 & d1 & X1 & Y1 & W1 & Q1 & F1 & Z1); [apply Rabs_le; lra|].
  destruct (distanced (covertex_angle L fxv fyv sv) V2) as (x2 & y2 & d2 & X2 & Y2 & W2 & Q2 & F2 & _); [apply Rabs_le; lra|].
  assert (N1 := @minor_near fx fy s c Px Py Pc Dh Nh hh al e (conj e_pos Ehi) Phh P1 P2 HE t1 (2 * t1 - al) ltac:(ring) ltac:(apply Rabs_le; lra)).
  assert (N2 := @major_near fx fy s c Px Py Pc Dh Nh hh al e (conj e_pos Ehi) Phh P1 P2 HE t2 (2 * t2 - al - PI) ltac:(ring) ltac:(apply Rabs_le; lra)).
  fold Rm m in N1, N2. apply Rabs_le_inv in F1. apply Rabs_le_inv in F2.
  assert (S1 : sqrt (r2 fx fy s c t1) <= Rm) by (apply sqrt_le_1_alt; apply (r2_bounds fx fy s Pc)).
  unfold disk_parameters. destruct (xy_at L fxv fyv (vertex_angle L fxv fyv sv) sv cv) as [xv1 yv1]. destruct (xy_at L fxv fyv (covertex_angle L fxv fyv sv) sv cv) as [xv2 yv2].
  cbn [fst snd] in *. cbv zeta.
  set (h1 := m_hypot L xv1 yv1) in *. set (h2 := m_hypot L xv2 yv2) in *.
  assert (VM := np_max_val _ _ W1 W2). assert (Vm := np_min_val _ _ W1 W2).
  set (ma := Rmax d1 d2) in *. set (mi := Rmin d1 d2) in *.
  assert (Ema : - (22 * (e * Rm)) <= ma - Rm <= 22 * (e * Rm)) by (unfold ma, Rmax; destruct (Rle_dec d1 d2); lra).
  assert (Emi : - (22 * (e * Rm)) <= mi - m <= 22 * (e * Rm)) by (unfold mi, Rmin; destruct (Rle_dec d1 d2); lra).
  assert (Hmi : 0 <= mi <= ma) by (unfold mi, ma, Rmin, Rmax; destruct (Rle_dec d1 d2); lra).
  assert (Pma : 0 < ma) by lra.
  assert (Valid : negb (n_isnan (n_mul (np_max h1 h2) (np_min h1 h2))) = true).
  { destruct (mul_any _ _ VM Vm) as (d & t & _ & _ & V).
    - rewrite Rabs_mult, !Rabs_pos_eq by lra. apply Rle_trans with (B (303 + 303)); [|apply bpow_le; lia]. rewrite bpow_plus.
      assert (B 303 = 2 * B 302) by (change 303%Z with (1 + 302)%Z; rewrite bpow_plus; reflexivity). apply Rmult_le_compat; lra.
    - destruct (n_mul (np_max h1 h2) (np_min h1 h2)); try reflexivity. discriminate V. }
  rewrite Valid.
  (* the inclination *)
  assert (Iq : 0 <= mi / ma <= 1).
  { split; [apply Rmult_le_pos; [lra|]; apply Rlt_le, Rinv_0_lt_compat; auto|]. apply Rmult_le_reg_r with ma; auto. unfold Rdiv. rewrite Rmult_assoc, Rinv_l by lra. lra. }
  assert (Hq : Rabs (mi / ma) <= B 1023). { rewrite Rabs_pos_eq by lra. apply Rle_trans with (B 0); [change (B 0) with 1; lra|apply bpow_le; lia]. }
  assert (Vq := div_correct _ _ Vm VM (Rgt_not_eq _ _ Pma) Hq). destruct (rnd_abs (mi / ma)) as (d & t & Dd & Dt & Rq).
  set (q := round radix2 (SpecFloat.fexp 53 1024) (round_mode mode_NE) (mi / ma)) in *.
  assert (Vexp : Valid_exp (SpecFloat.fexp 53 1024)) by (apply fexp_correct; reflexivity).
  assert (Qr : 0 <= q <= 1).
  { unfold q. split.
    - rewrite <- (round_0 radix2 (SpecFloat.fexp 53 1024) (round_mode mode_NE)). apply round_le; [exact Vexp|apply valid_rnd_round_mode|lra].
    - apply round_le_generic; [exact Vexp|apply valid_rnd_round_mode| |lra]. change 1 with (B 0). apply generic_format_bpow. unfold SpecFloat.fexp, SpecFloat.emin. lia. }
  destruct (a_acos Acc Vq Qr) as (ac & Vac & Eac). apply Rabs_le_inv in Eac.
  assert (Ar : 0 <= acos q <= PI). { split; [apply (acos_bound q)|apply (acos_bound q)]. }
  assert (Ar2 : acos q <= PI / 2). { destruct (Rle_lt_dec (acos q) (PI / 2)) as [|G]; auto. exfalso. assert (C := cos_acos q ltac:(lra)). assert (cos (acos q) < 0) by (apply cos_lt_0; lra). lra. }
  destruct (@degreed (m_acos L (n_div (np_min h1 h2) (np_max h1 h2))) ac Vac) as (i & Vi & Ei); [apply Rabs_le; lra|].
  (* the tilt is a number *)
  destruct (a_atan2 Acc Y1 X1) as (ti & be & Vti & Eti & Hbe & Dir1 & Dir2). apply Rabs_le_inv in Eti. apply Rabs_le_inv in Hbe.
  assert (Small : forall r, Rabs r <= 1024 -> Rabs r <= B 1023). { intros r H. apply Rle_trans with (B 10); [change (B 10) with 1024; exact H|apply bpow_le; lia]. }
  destruct (a_pi Acc) as (p & Vp & Ep). apply Rabs_le_inv in Ep.
  assert (Vb : exists b, f64_val (if n_lt h1 h2 then n_one else n_zero : f64) = XFin b /\ (b = 1 \/ b = 0 /\ Rm - m <= 44 * e * Rm)).
  { cbn [n_lt Num_f64]. rewrite f64_lt, W1, W2. cbn [x_lt]. destruct (Rlt_dec d1 d2).
    - exists 1. split; [exact of_one|left; reflexivity].
    - exists 0. split; [exact of_zero|right]. split; [reflexivity|]. lra. }
  destruct Vb as (b & Vb & Cb). assert (Hb : 0 <= b <= 1) by (destruct Cb as [->|[-> _]]; lra).
  destruct (mul_any _ _ Vb Vp) as (db & tb & Ddb & Dtb & Vbp). { apply Small. rewrite Rabs_mult, !Rabs_pos_eq by lra. apply Rle_trans with (1 * 4); [apply Rmult_le_compat; lra|lra]. }
  set (bp := b * p * (1 + db) + tb) in *. apply Rabs_le_inv in Ddb. apply Rabs_le_inv in Dtb.
  assert (Hbp : Rabs bp <= 5). { unfold bp. assert (G0 : 0 <= b * p <= 1 * 4) by (split; [apply Rmult_le_pos; lra|apply Rmult_le_compat; lra]).
    assert (G1 : Rabs (b * p * db) <= 4 * ulp1) by (rewrite Rabs_mult; apply Rmult_le_compat; auto using Rabs_pos; [rewrite Rabs_pos_eq; lra|apply Rabs_le; lra]). apply Rabs_le_inv in G1.
    replace (b * p * (1 + db) + tb) with (b * p + b * p * db + tb) by ring. apply Rabs_le. lra. }
  destruct (div_any _ _ Vbp of_two) as (dh & th & Ddh & Dth & Vh); [lra| |].
  { apply Small. apply Rabs_le_inv in Hbp. apply Rabs_le. lra. }
  set (hp := bp / 2 * (1 + dh) + th) in *. apply Rabs_le_inv in Ddh. apply Rabs_le_inv in Dth. apply Rabs_le_inv in Hbp.
  assert (Hhp : Rabs hp <= 3). { unfold hp. assert (G1 : Rabs (bp / 2 * dh) <= 5 / 2 * ulp1) by (rewrite Rabs_mult; apply Rmult_le_compat; auto using Rabs_pos; apply Rabs_le; lra). apply Rabs_le_inv in G1.
    replace (bp / 2 * (1 + dh) + th) with (bp / 2 + bp / 2 * dh + th) by field. apply Rabs_le. lra. } apply Rabs_le_inv in Hhp.
  destruct (add64 _ _ Vti Vh) as (da & Dda & Va). { apply Small. apply Rabs_le. lra. }
  assert (Ehp : Rabs (hp - b * (PI / 2)) <= 3 * e).
  { assert (G1 : Rabs (bp / 2 * dh) <= 5 / 2 * ulp1) by (rewrite Rabs_mult; apply Rmult_le_compat; auto using Rabs_pos; apply Rabs_le; lra). apply Rabs_le_inv in G1.
    assert (G2 : Rabs (b * p * db) <= 4 * ulp1). { rewrite Rabs_mult. apply Rmult_le_compat; auto using Rabs_pos; [|apply Rabs_le; lra]. destruct Cb as [->|[-> _]]; [rewrite Rmult_1_l; apply Rabs_le; lra|rewrite Rmult_0_l, Rabs_R0; lra]. }
    apply Rabs_le_inv in G2. unfold hp. replace (bp / 2 * (1 + dh) + th - b * (PI / 2)) with (bp / 2 - b * (PI / 2) + bp / 2 * dh + th) by field. unfold bp at 1.
    replace ((b * p * (1 + db) + tb) / 2 - b * (PI / 2)) with (b * ((p - PI) / 2) + b * p * db / 2 + tb / 2) by field.
    assert (G3 : Rabs (b * ((p - PI) / 2)) <= e / 2) by (destruct Cb as [->|[-> _]]; [rewrite Rmult_1_l; apply Rabs_le; lra|rewrite Rmult_0_l, Rabs_R0; lra]).
    apply Rabs_le_inv in G3. apply Rabs_le. lra. }
  assert (Ga : Rabs ((ti + hp) * da) <= 8 * ulp1) by (rewrite Rabs_mult; apply Rmult_le_compat; auto using Rabs_pos; apply Rabs_le; lra). apply Rabs_le_inv in Ga.
  destruct (@degreed _ _ Va) as (t' & Vt' & Et). { assert (G1 : Rabs ((ti + hp) * da) <= 8 * ulp1) by (rewrite Rabs_mult; apply Rmult_le_compat; auto using Rabs_pos; apply Rabs_le; lra). apply Rabs_le_inv in G1.
    replace ((ti + hp) * (1 + da)) with (ti + hp + (ti + hp) * da) by ring. apply Rabs_le. lra. }
  eexists _, _, _, ma, i, t'. split; [reflexivity|]. split; [exact VM|]. split; [exact Vi|]. split; [exact Vt'|].
  split; [apply Rabs_le; lra|]. split.
  2: { exists al, hh, Dh, Nh, t1, x1, y1, be. split; [exact Phh|]. split; [exact P1|]. split; [exact P2|]. split; [exact HE|]. split; [apply Rabs_le; lra|]. split; [exact Z1|]. split; [exact Dir1|]. split; [exact Dir2|]. split; [apply Rabs_le; exact Hbe|]. split; [|split; [exact X1|exact Y1]].
    apply Rabs_le_inv in Ehp. assert (Hz : Rabs ((ti + hp) * (1 + da)) <= 11 / 2).
    { assert (Hb2 : 0 <= b * (PI / 2) <= PI / 2) by (destruct Cb as [->|[-> _]]; lra). replace ((ti + hp) * (1 + da)) with (ti + hp + (ti + hp) * da) by ring. apply Rabs_le. lra. }
    assert (Ht : Rabs (degrees t' - (be + b * (PI / 2))) <= 20 * e).
    { assert (Gt : e * Rabs ((ti + hp) * (1 + da)) <= e * (11 / 2)) by (apply Rmult_le_compat_l; lra).
      apply Rabs_le_inv in Et. replace (degrees t' - (be + b * (PI / 2))) with ((degrees t' - (ti + hp) * (1 + da)) + ((ti - be) + (hp - b * (PI / 2)) + (ti + hp) * da)) by ring. apply Rabs_le. lra. }
    destruct Cb as [->|[-> Hm]]; [left|right; split; [|exact Hm]].
    - replace (be + PI / 2) with (be + 1 * (PI / 2)) by ring. exact Ht.
    - replace be with (be + 0 * (PI / 2)) by ring. exact Ht. }
  assert (C1 := cos_lip (degrees i) ac). assert (C2 := cos_lip ac (acos q)). rewrite cos_acos in C2 by lra.
  assert (C3 : Rabs (q - m / Rm) <= 45 * e).
  { rewrite Rq. replace (mi / ma * (1 + d) + t - m / Rm) with ((mi / ma - m / Rm) + (mi / ma * d + t)) by ring.
    assert (K1 : Rabs (mi / ma - m / Rm) <= 441 / 10 * e).
    { replace (mi / ma - m / Rm) with (((mi - m) * Rm - m * (ma - Rm)) * / (ma * Rm)) by (field; lra).
      assert (PmR : 0 < ma * Rm) by (apply Rmult_lt_0_compat; lra).
      rewrite Rabs_mult, (Rabs_pos_eq (/ (ma * Rm))) by (apply Rlt_le, Rinv_0_lt_compat; auto).
      apply Rmult_le_reg_r with (ma * Rm); auto. rewrite Rmult_assoc, Rinv_l, Rmult_1_r by lra.
      assert (K2 : Rabs ((mi - m) * Rm - m * (ma - Rm)) <= 44 * (e * Rm) * Rm).
      { unfold Rminus at 1. apply Rle_trans with (1 := Rabs_triang _ _). rewrite Rabs_Ropp, !Rabs_mult, (Rabs_pos_eq Rm), (Rabs_pos_eq m) by lra.
        assert (Rabs (mi - m) <= 22 * (e * Rm)) by (apply Rabs_le; lra). assert (Rabs (ma - Rm) <= 22 * (e * Rm)) by (apply Rabs_le; lra).
        assert (Rabs (mi - m) * Rm <= 22 * (e * Rm) * Rm) by (apply Rmult_le_compat_r; lra). assert (m * Rabs (ma - Rm) <= Rm * (22 * (e * Rm))) by (apply Rmult_le_compat; auto using Rabs_pos; lra). lra. }
      apply Rle_trans with (1 := K2). assert (Rm <= 441 / 440 * ma) by lra.
      replace (44 * (e * Rm) * Rm) with (44 * e * Rm * Rm) by ring. replace (441 / 10 * e * (ma * Rm)) with (44 * e * (441 / 440 * ma) * Rm) by field.
      apply Rmult_le_compat_r; [lra|]. apply Rmult_le_compat_l; lra. }
    assert (K3 : Rabs (mi / ma * d) <= 1 * ulp1) by (rewrite Rabs_mult; apply Rmult_le_compat; auto using Rabs_pos; rewrite Rabs_pos_eq; lra).
    apply Rabs_le_inv in K1. apply Rabs_le_inv in K3. apply Rabs_le_inv in Dt. apply Rabs_le. lra. }
  assert (Hac : Rabs ac <= 9 / 5) by (apply Rabs_le; lra).
  assert (C4 : Rabs (degrees i - ac) <= 29 / 10 * e). { apply Rle_trans with (1 := Ei). assert (e * Rabs ac <= e * (9 / 5)) by (apply Rmult_le_compat_l; lra). lra. }
  assert (C5 : Rabs (ac - acos q) <= 2 * e) by (apply Rabs_le; lra).
  replace (cos (degrees i) - m / Rm) with ((cos (degrees i) - cos ac) + ((cos ac - q) + (q - m / Rm))) by ring.
  apply Rle_trans with (1 := Rabs_triang _ _). assert (C6 := Rabs_triang (cos ac - q) (q - m / Rm)). lra.
Qed.
Theorem disk64 : exists rv iv tv r i t, disk_parameters L fxv fyv sv cv = (rv, iv, tv) /\
  f64_val rv = XFin r /\ f64_val iv = XFin i /\ f64_val tv = XFin t /\
  Rabs (r - Rm) <= 22 * e * Rm /\ Rabs (cos (degrees i) - m / Rm) <= 50 * e.
Proof.
  destruct disk64_vertex as (rv & iv & tv & r & i & t & G & G1 & G2 & G3 & G4 & G5 & _). exists rv, iv, tv, r, i, t.
  exact (conj G (conj G1 (conj G2 (conj G3 (conj G4 G5))))).
Qed.
End Disk.
