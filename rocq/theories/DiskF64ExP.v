(** The disk computed in binary64: the theorem with its distances, the radius of the circle, examples. *)
From Coq Require Import ZArith Reals Lra Lia Bool.
From Flocq Require Import Core BinarySingleNaN.
From Verif Require Import Num NumP Geometry XLibm GeomP GeomMoreP BuildFP SpecGeom SpecF64 Round64P GeomF64P GeomF64MoreP DiskErrP DiskF64P LibmF64P.
Local Open Scope R_scope.
Set Implicit Arguments.

Lemma two_ulp : 2 * ulp1 = bpow radix2 (-52).
Proof. unfold ulp1. change 2 with (B 1). rewrite <- bpow_plus. reflexivity. Qed.
Theorem disk_accurate (L : Libm f64) e (fxv fyv sv cv : f64) fx fy s c : accurate L e -> bpow radix2 (-52) <= e <= / 1000000 ->
  f64_val fxv = XFin fx -> f64_val fyv = XFin fy -> f64_val sv = XFin s -> f64_val cv = XFin c ->
  0 < fx -> 0 < fy -> 0 < c -> ordinary fx -> ordinary fy -> loose s -> ordinary c ->
  exists rv iv tv r i t R m, disk_parameters L fxv fyv sv cv = (rv, iv, tv) /\
    f64_val rv = XFin r /\ f64_val iv = XFin i /\ f64_val tv = XFin t /\
    largest_distance fx fy s c R /\ smallest_distance fx fy s c m /\
    Rabs (r - R) <= 22 * e * R /\ Rabs (cos (degrees i) - m / R) <= 50 * e.
Proof.
  intros Acc [E1 E2] Vx Vy Vs Vc Px Py Pc Ox Oy Os Oc. rewrite <- two_ulp in E1.
  destruct (@disk64 L e Acc E1 E2 fxv fyv sv cv fx fy s c Vx Vy Vs Vc Px Py Pc Ox Oy Os Oc) as (rv & iv & tv & r & i & t & G & G1 & G2 & G3 & G4 & G5).
  exists rv, iv, tv, r, i, t, (d_major fx fy s c), (d_minor fx fy s c). split; [exact G|].
  split; [exact G1|]. split; [exact G2|]. split; [exact G3|]. split; [exact (@major_largest fx fy s c Pc)|]. split; [exact (@minor_smallest fx fy s c Pc)|]. exact (conj G4 G5).
Qed.

Theorem radius_accurate (L : Libm f64) e (dyv : f64) dy : accurate L e -> 0 < e <= / 1000000 -> f64_val dyv = XFin dy -> Rabs dy <= bpow radix2 99 ->
  exists c, f64_val (circular_radius L dyv) = XFin c /\ 0 < c /\ ordinary c /\
    Rabs (c - sqrt (/ 2 * / 2 + dy * dy)) <= 2 * e * sqrt (/ 2 * / 2 + dy * dy) + bpow radix2 (-1000).
Proof.
  intros Acc He V H. assert (Hh : / 2 <= sqrt (/ 2 * / 2 + dy * dy)).
  { rewrite <- (sqrt_square (/ 2)) at 1 by lra. apply sqrt_le_1_alt. nra. }
  assert (Hu : sqrt (/ 2 * / 2 + dy * dy) <= 3 / 2 * B 99).
  { apply Rle_trans with (sqrt ((/ 2 + Rabs dy) * (/ 2 + Rabs dy))). - apply sqrt_le_1_alt. assert (dy * dy = Rabs dy * Rabs dy) by (rewrite <- Rabs_mult, Rabs_pos_eq; [reflexivity|nra]). assert (A := Rabs_pos dy). nra.
    - rewrite sqrt_square by (assert (A := Rabs_pos dy); lra). assert (1 <= B 99) by (apply (bpow_le radix2 0 99); lia). lra. }
  assert (B2 : B 100 = 2 * B 99) by (change 100%Z with (1 + 99)%Z; rewrite bpow_plus; reflexivity).
  assert (B5 := bpow_gt_0 radix2 99). assert (B10 : B (-1000) <= / 1024) by (apply (bpow_le radix2 (-1000) (-10)); lia).
  assert (P10 := bpow_gt_0 radix2 (-1000)). assert (P99 : 1 <= B 99) by (apply (bpow_le radix2 0 99); lia).
  destruct (@a_hypot L e Acc n_half dyv (/ 2) dy of_half V) as (c & Vc & Pc & Ec).
  { apply Rle_trans with (1 := Hu). apply Rle_trans with (B 100); [lra|apply bpow_le; lia]. }
  set (h := sqrt (/ 2 * / 2 + dy * dy)) in *.
  assert (eh : 0 < e * h <= / 1000000 * h) by (split; [apply Rmult_lt_0_compat; lra|apply Rmult_le_compat_r; lra]).
  apply Rabs_le_inv in Ec. exists c. split; [exact Vc|]. split; [lra|]. split.
  - unfold ordinary. rewrite Rabs_pos_eq by lra. split; [|lra]. apply Rle_trans with (/ 4); [apply (bpow_le radix2 (-100) (-2)); lia|lra].
  - apply Rabs_le. lra.
Qed.

Lemma largest_unique fx fy s c r q : largest_distance fx fy s c r -> largest_distance fx fy s c q -> r = q.
Proof. intros [(x & y & E & <-) H] [(u & v & E' & <-) H']. apply Rle_antisym; auto. Qed.
Lemma smallest_unique fx fy s c r q : smallest_distance fx fy s c r -> smallest_distance fx fy s c q -> r = q.
Proof. intros [(x & y & E & <-) H] [(u & v & E' & <-) H']. apply Rle_antisym; auto. Qed.
Lemma ordinary_between r : / 1024 <= r <= 1024 -> ordinary r.
Proof.
  intros H. unfold ordinary. rewrite Rabs_pos_eq by lra. split.
  - apply Rle_trans with (/ 1024); [apply (bpow_le radix2 (-100) (-10)); lia|lra].
  - apply Rle_trans with 1024; [lra|apply (bpow_le radix2 10 100); lia].
Qed.
Lemma same_val (x y : f64) r : n_eq x y = true -> f64_val y = XFin r -> f64_val x = XFin r.
Proof.
  cbn [n_eq Num_f64]. rewrite f64_eq. intros E Y. rewrite Y in E. destruct (f64_val x) as [| | |a]; cbn in E; try discriminate E.
  destruct (Req_EM_T a r) as [->|]; [reflexivity|discriminate E].
Qed.
Lemma half_dec : f64_val (dec 1 2) = XFin (/ 2).
Proof. apply (@same_val (dec 1 2) n_half); [vm_compute; exact eq_refl|exact of_half]. Qed.
Lemma point_exact : f64_val (shear_at (n_ofZ 1) (n_ofZ 1)) = XFin (-1) /\ f64_val (determine_fx (n_ofZ 2) (n_ofZ 1)) = XFin (/ 2).
Proof.
  split.
  - apply (@same_val _ (n_ofZ (-1))); [vm_compute; exact eq_refl|]. apply (of_Z (-1)). vm_compute. discriminate.
  - apply (@same_val _ (dec 1 2)); [vm_compute; exact eq_refl|]. exact half_dec.
Qed.
(** the point (1, 1) and the scale factor fy = 2 *)
Lemma point_contact : contact_within (bpow radix2 (-49) * (1 + Rabs 1)) 1 1 (/ 2) 2 (-1).
Proof.
  destruct point_exact as [S F].
  assert (V1 : f64_val (n_ofZ 1) = XFin 1) by (apply (of_Z 1); vm_compute; discriminate).
  assert (V2 : f64_val (n_ofZ 2) = XFin 2) by (apply (of_Z 2); vm_compute; discriminate).
  refine (proj2 (@contact64_fx (n_ofZ 1) (n_ofZ 1) (n_ofZ 2) 1 1 (/ 2) 2 (-1) V1 V1 V2 _ _ _ S F)); [right|lra|]; apply ordinary_between; lra.
Qed.
(** an ellipse twice as wide as high *)
Lemma wide_disk : exists rv iv tv r i t, disk_parameters Libm_nearest (n_ofZ 2) (n_ofZ 1) (n_ofZ 0) (n_ofZ 1) = (rv, iv, tv) /\
  f64_val rv = XFin r /\ f64_val iv = XFin i /\ f64_val tv = XFin t /\ Rabs (r - 2) <= / 1000000000000 /\ Rabs (cos (degrees i) - / 2) <= / 1000000000000.
Proof.
  assert (V0 : f64_val (n_ofZ 0) = XFin 0) by (apply (of_Z 0); vm_compute; discriminate).
  assert (V1 : f64_val (n_ofZ 1) = XFin 1) by (apply (of_Z 1); vm_compute; discriminate).
  assert (V2 : f64_val (n_ofZ 2) = XFin 2) by (apply (of_Z 2); vm_compute; discriminate).
  assert (Q : B (-51) = 4 * ulp1). { unfold ulp1. change 4 with (B 2). rewrite <- bpow_plus. reflexivity. }
  assert (U := ulp1_pos).
  assert (E : 2 * ulp1 <= B (-51)) by lra. assert (E' : B (-51) <= / 1000000) by lra.
  destruct (@disk64 Libm_nearest (B (-51)) nearest_accurate E E' (n_ofZ 2) (n_ofZ 1) (n_ofZ 0) (n_ofZ 1) 2 1 0 1 V2 V1 V0 V1)
    as (rv & iv & tv & r & i & t & G & G1 & G2 & G3 & G4 & G5); try lra; try (apply ordinary_between; lra); [left; reflexivity|].
  exists rv, iv, tv, r, i, t. repeat (split; [assumption|]).
  assert (X1 : d_major 2 1 0 1 = 2) by (apply (largest_unique (major_largest 2 1 0 Rlt_0_1)); apply wide_ellipse).
  assert (X2 : d_minor 2 1 0 1 = 1) by (apply (smallest_unique (minor_smallest 2 1 0 Rlt_0_1)); apply wide_ellipse).
  rewrite X1 in *. rewrite X2 in *. split; [lra|]. replace (/ 2) with (1 / 2) by field. lra.
Qed.
