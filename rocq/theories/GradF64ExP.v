(** Examples of gradients in binary64. *)
From Coq Require Import ZArith Reals Bool Lia Lra.
From Flocq Require Import Core BinarySingleNaN.
From Verif Require Import Num NumP XLibm Geometry GeomP GeomMoreP Round64P GeomF64P LibmF64P SpecF64 SpecGrad GeomF64MoreP GradF64P DiskF64ExP.
Set Implicit Arguments.
Local Open Scope R_scope.

Theorem nearest_keeps_nan : keeps_nan Libm_nearest.
Proof.
  split; intros.
  - cbn [m_sin Libm_nearest]. unfold lift1. rewrite H. reflexivity.
  - cbn [m_atan2 Libm_nearest]. unfold lift2. rewrite H. reflexivity.
Qed.
Lemma sized_between r : / 1000000000 <= Rabs r <= 1000000000 -> sized 50 r.
Proof.
  intros [H1 H2]. right. assert (E : B 50 = 1125899906842624) by (rewrite <- IZR_Zpower by lia; reflexivity). rewrite bpow_opp, E. split; lra.
Qed.
(** a number wherever the computed tangent is one *)
Lemma number_when L e (pv dxv dyv sv fxv fyv : f64) : accurate L e -> 0 <= e <= / 1000000 ->
  let nv := n_sub (n_mul (n_mul (n_neg sv) (n_sq fyv)) (n_neg dyv)) (n_mul (n_sq fyv) (n_sub pv dxv)) in
  let dv := n_add (n_mul (n_add (n_mul (n_sq sv) (n_sq fyv)) (n_sq fxv)) (n_neg dyv)) (n_mul (n_mul sv (n_sq fyv)) (n_sub pv dxv)) in
  n_eq dv n_zero = false -> is_finite (n_div nv dv) = true -> exists g, f64_val (gradient_at L pv dxv dyv sv fxv fyv) = XFin g.
Proof.
  intros A E nv dv D F. rewrite gradient_is. fold nv dv. unfold gradient_of. rewrite D. cbn [negb].
  assert (V := f64_val_finite _ F). assert (Z1 : f64_val (n_one : f64) = XFin 1) by exact (of_Z 1 ltac:(lia)).
  destruct (a_atan2 A V Z1) as (v & al & Va & E1 & B1 & _).
  assert (Bv : Rabs v <= 8). { assert (T := Rabs_triang (v - al) al). replace (v - al + al) with v in T by ring. assert (PI4 := PI_4). lra. }
  destruct (a_sin A Va Bv) as (w & Vw & _). exists (Rabs w). cbn [n_abs Num_f64]. rewrite f64_abs, Vw. reflexivity.
Qed.
(** an upright tangent that has a gradient in binary64 *)
Theorem upright_refuted : exists (pv dxv dyv fxv fyv : f64) p dx dy fx fy, f64_val pv = XFin p /\ f64_val dxv = XFin dx /\ f64_val dyv = XFin dy /\
  f64_val fxv = XFin fx /\ f64_val fyv = XFin fy /\
  gradient_at Libm_xr (XFin p) (XFin dx) (XFin dy) (shear_at (XFin dx) (XFin dy)) (XFin fx) (XFin fy) = XNaN /\
  forall L e, accurate L e -> 0 <= e <= / 1000000 -> exists g, f64_val (gradient_at L pv dxv dyv (shear_at dxv dyv) fxv fyv) = XFin g.
Proof.
  exists (n_ofZ 9), (n_ofZ (-1)), (n_ofZ 1), (n_ofZ 408944649), (n_ofZ 136314883), 9, (-1), 1, 408944649, 136314883.
  repeat split; try (apply of_Z; vm_compute; discriminate).
  - assert (Sx : shear_at (XFin (-1)) (XFin 1) = XFin 1).
    { unfold shear_at, n_zero. cbn [n_eq Num_xr x_eq n_ofZ n_neg x_neg n_div]. destruct (Req_EM_T 1 0); [lra|]. cbn [andb negb]. rewrite xdiv by lra. f_equal. field. }
    rewrite Sx, exact_gradient. destruct (Req_EM_T _ 0) as [|N]; [reflexivity|]. exfalso. apply N. unfold run. ring.
  - intros L e A E. apply (number_when _ _ _ _ _ _ A E); vm_compute; exact eq_refl.
Qed.
(** at (1, 1) with fx = 1/2, fy = 2, at the moment the eclipse ends *)
Theorem egress : exists g, f64_val (gradient_at Libm_nearest (dec 1 2) (n_ofZ 1) (n_ofZ 1) (shear_at (n_ofZ 1) (n_ofZ 1)) (dec 1 2) (n_ofZ 2)) = XFin g /\
  Rabs (g - 8 / sqrt 145) <= / 10000000000000.
Proof.
  assert (V1 : f64_val (n_ofZ 1) = XFin 1) by (apply (of_Z 1); vm_compute; discriminate).
  assert (V2 : f64_val (n_ofZ 2) = XFin 2) by (apply (of_Z 2); vm_compute; discriminate).
  destruct point_exact as [S _]. assert (U := ulp1_pos).
  assert (Q : B (-51) = 4 * ulp1). { unfold ulp1. change 4 with (B 2). rewrite <- bpow_plus. reflexivity. }
  assert (Rs : sized 101 (-1)).
  { apply (ranged_weaken (lo := -50) (hi := 50)); [lia|lia|]. apply sized_between. rewrite Rabs_left; lra. }
  assert (Er : rise (/ 2) 1 1 (-1) 2 = -2) by (unfold rise; field). assert (Eu : run (/ 2) 1 1 (-1) (/ 2) 2 = -9 / 4) by (unfold run; field).
  assert (K : 0 < sqrt 145) by (apply sqrt_lt_R0; lra). assert (KK : sqrt 145 * sqrt 145 = 145) by (apply sqrt_sqrt; lra).
  assert (K12 : 12 < sqrt 145) by nra.
  assert (El : length2 (-2) (-9 / 4) = sqrt 145 / 4).
  { unfold length2. apply sqrt_lem_1; [lra|lra|]. replace (sqrt 145 / 4 * (sqrt 145 / 4)) with (sqrt 145 * sqrt 145 / 16) by field. rewrite KK. field. }
  assert (G : gradient_at Libm_xr (XFin (/ 2)) (XFin 1) (XFin 1) (XFin (-1)) (XFin (/ 2)) (XFin 2) = XFin (8 / sqrt 145)).
  { rewrite exact_gradient, Er, Eu, El. destruct (Req_EM_T _ 0); [lra|]. f_equal. rewrite Rabs_left by lra. field. lra. }
  assert (C : cancellation (/ 2) 1 1 (-1) (/ 2) 2 <= 5).
  { unfold cancellation. rewrite Er, Eu, El. unfold terms. rewrite (Rabs_left (-1 * _ * 1)), (Rabs_left (2 * 2 * _)), (Rabs_pos_eq 1), (Rabs_pos_eq (-1 * _ * _)) by lra.
    apply Rmult_le_reg_r with (sqrt 145 / 4); [lra|]. unfold Rdiv at 1. rewrite Rmult_assoc, Rinv_l by lra. lra. }
  destruct (@gradient64 Libm_nearest (B (-51)) (dec 1 2) (n_ofZ 1) (n_ofZ 1) (dec 1 2) (n_ofZ 2) (/ 2) 1 1 (/ 2) 2 nearest_accurate ltac:(lra) nearest_keeps_nan
    half_dec V1 V1 half_dec V2) with (sv := shear_at (n_ofZ 1 : f64) (n_ofZ 1)) (s := -1) (g0 := 8 / sqrt 145) as [(g & V & _ & D)|[V N]];
    try exact S; try exact Rs; try exact G; try (apply sized_between; rewrite Rabs_pos_eq; lra).
  - exists g. split; [exact V|]. apply Rle_trans with (1 := D). rewrite <- b47, Q. assert (64 * ulp1 * cancellation (/ 2) 1 1 (-1) (/ 2) 2 <= 64 * ulp1 * 5) by (apply Rmult_le_compat_l; lra).
    rewrite ulp1_eq in *. lra.
  - exfalso. revert N. apply Rlt_not_le. apply Rle_lt_trans with (64 * ulp1 * 5).
    + rewrite <- b48. assert (32 * ulp1 * cancellation (/ 2) 1 1 (-1) (/ 2) 2 <= 32 * ulp1 * 5) by (apply Rmult_le_compat_l; lra). lra.
    + apply Rlt_le_trans with (/ 2); [lra|]. rewrite <- (sqrt_square (/ 2)) by lra. apply sqrt_le_1_alt.
      replace (8 / sqrt 145 * (8 / sqrt 145)) with (64 / (sqrt 145 * sqrt 145)) by (field; lra). rewrite KK. lra.
Qed.
