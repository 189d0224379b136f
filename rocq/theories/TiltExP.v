(** Examples for the tilt in binary64. *)
From Coq Require Import ZArith Reals Lra Lia Bool List String.
From Flocq Require Import Core BinarySingleNaN.
From Verif Require Import Num NumP Py SpecNum Validate XLibm FS GridParams SpecGrid SpecAxis GridParamsP AxisF64P Names GridProp Geometry SpecGeom SpecF64 SpecEdge SpecTilt
  BuildFP Round64P GeomP GeomMoreP EdgeP GeomF64P GeomF64MoreP DiskErrP DiskF64P DiskF64ExP LibmF64P EdgeErrP EdgeF64P EdgeContactP Build SpecBuild BuildP InterpP BuildGP Shallot EdgeGridP EdgeThinP
  EdgeExP InclF64P InclExP TiltF64P TiltGridP.
Import ListNotations SpecF64.
Set Implicit Arguments.
Local Open Scope R_scope.

Lemma e_51 : B (-51) = / 2251799813685248. Proof. reflexivity. Qed.
Lemma e_51_range : B (-52) <= B (-51) <= / 1000000.
Proof. assert (Q := e_51). split; [apply bpow_le; lia|lra]. Qed.

(** the tilt of the flat ellipse is off by a right angle *)
Theorem flat_tilted : ~ (forall (L : Libm f64) e (fxv fyv sv cv : f64) fx fy s c rv iv tv t R m x y, accurate L e -> bpow radix2 (-52) <= e <= / 1000000 ->
  f64_val fxv = XFin fx -> f64_val fyv = XFin fy -> f64_val sv = XFin s -> f64_val cv = XFin c ->
  0 < fx -> 0 < fy -> 0 < c -> ordinary fx -> ordinary fy -> loose s -> ordinary c ->
  disk_parameters L fxv fyv sv cv = (rv, iv, tv) -> f64_val tv = XFin t -> largest_distance fx fy s c R -> smallest_distance fx fy s c m ->
  far_end fx fy s c R x y -> off_line t x y * (R * R - m * m) <= 1000000 * e * (R * R * R)).
Proof.
  intros H. destruct thin_disk as (rv & iv & tv & r & i & t & R & m & G & _ & _ & Vt & LR & SM & HR & Ct & _).
  assert (V0 : f64_val (n_ofZ 0) = XFin 0) by (apply (of_Z 0); vm_compute; discriminate).
  assert (V1 : f64_val (n_ofZ 1) = XFin 1) by (apply (of_Z 1); vm_compute; discriminate).
  assert (O1 : ordinary 1) by (apply ordinary_between; lra). assert (P70 := bpow_gt_0 radix2 (-70)).
  assert (O70 : ordinary (B (-70))) by (unfold ordinary; rewrite Rabs_pos_eq by lra; split; apply bpow_le; lia).
  assert (Q := e_51). assert (L70 : B (-70) <= / 1000000) by (apply Rle_trans with (B (-51)); [apply bpow_le; lia|lra]).
  assert (LR' := LR). destruct LR' as [(x & y & O & D) _].
  specialize (H Libm_nearest (B (-51)) (n_ofZ 1) thin (n_ofZ 0) (n_ofZ 1) 1 (B (-70)) 0 1 rv iv tv t R m x y nearest_accurate e_51_range V1 thin_val V0 V1 Rlt_0_1 P70 Rlt_0_1 O1 O70 (or_introl eq_refl) O1 G Vt LR SM (conj O D)).
  assert (Sq := @far_end_square _ _ _ _ _ _ _ (conj O D)).
  assert (Hy : Rabs y <= / 1000000).
  { destruct O as (u & v & E & _ & ->). rewrite Rplus_0_l. assert (Rabs v <= 1) by (assert (S1 := sq_ge u); apply Rabs_le; split; apply Rnot_lt_le; intros F; nra).
    replace (/ 1000000) with (/ 1000000 * 1) by ring. apply abs_mul_le; [rewrite Rabs_pos_eq; lra|assumption]. }
  assert (m1 : 0 <= m <= / 1000000).
  { destruct SM as [(a & b & _ & <-) M]. split; [apply sqrt_pos|]. apply Rle_trans with (dist 0 0 0 (B (-70))).
    - apply M. exists 0, 1. repeat split; ring.
    - unfold dist. replace ((0 - 0) * (0 - 0) + (B (-70) - 0) * (B (-70) - 0)) with (B (-70) * B (-70)) by ring. rewrite sqrt_square by lra. exact L70. }
  set (T := degrees t) in *. assert (S := sin2_cos2 T). unfold Rsqr in S.
  assert (Cc : cos T * cos T <= / 1000 * / 1000) by (apply sq_le_abs; [lra|exact Ct]).
  assert (yy : y * y <= / 1000000 * / 1000000) by (apply sq_le_abs; [lra|exact Hy]).
  assert (RR : 1 * 1 <= R * R) by (apply Rmult_le_compat; lra).
  assert (Xl : 99 / 100 <= Rabs x). { apply Rnot_lt_le. intros F. assert (Xx : x * x <= 99 / 100 * (99 / 100)) by (apply sq_le_abs; lra). lra. }
  assert (Sl : 99 / 100 <= Rabs (sin T)). { apply Rnot_lt_le. intros F. assert (Xx : sin T * sin T <= 99 / 100 * (99 / 100)) by (apply sq_le_abs; lra). lra. }
  assert (Of : 9 / 10 <= off_line t x y).
  { unfold off_line. fold T. assert (A1 : 99 / 100 * (99 / 100) <= Rabs (x * sin T)) by (rewrite Rabs_mult; apply Rmult_le_compat; lra).
    assert (A2 := abs_mul_le Hy Ct). assert (A3 := Rabs_triang_inv (x * sin T) (y * cos T)). lra. }
  assert (mm : m * m <= / 1000000 * / 1000000) by (apply Rmult_le_compat; lra).
  assert (K1 : 9 / 10 * (99 / 100) <= off_line t x y * (R * R - m * m)) by (apply Rmult_le_compat; lra).
  assert (K2 : R * R * R <= 11 / 10 * (11 / 10) * (11 / 10)) by (repeat apply Rmult_le_compat; nra).
  assert (K3 : 1000000 * B (-51) * (R * R * R) <= / 100 * 2).
  { apply Rmult_le_compat; try lra. apply Rmult_le_pos; lra. }
  lra.
Qed.
(** the tilt of a circle is anything *)
Theorem round_tilted : ~ (forall (L : Libm f64) e (fxv fyv sv cv : f64) fx fy s c rv iv tv t R m x y, accurate L e -> bpow radix2 (-52) <= e <= / 1000000 ->
  f64_val fxv = XFin fx -> f64_val fyv = XFin fy -> f64_val sv = XFin s -> f64_val cv = XFin c ->
  0 < fx -> 0 < fy -> 0 < c -> ordinary fx -> ordinary fy -> loose s -> ordinary c ->
  disk_parameters L fxv fyv sv cv = (rv, iv, tv) -> f64_val tv = XFin t -> largest_distance fx fy s c R -> smallest_distance fx fy s c m ->
  far_end fx fy s c R x y -> off_line t x y * m <= 1000000 * e * (R * R)).
Proof.
  intros H.
  assert (V0 : f64_val (n_ofZ 0) = XFin 0) by (apply (of_Z 0); vm_compute; discriminate).
  assert (V1 : f64_val (n_ofZ 1) = XFin 1) by (apply (of_Z 1); vm_compute; discriminate).
  assert (O1 : ordinary 1) by (apply ordinary_between; lra). assert (Q := e_51).
  destruct (@tilt64 Libm_nearest (B (-51)) (n_ofZ 1) (n_ofZ 1) (n_ofZ 0) (n_ofZ 1) 1 1 0 1 nearest_accurate e_51_range V1 V1 V0 V1 Rlt_0_1 Rlt_0_1 Rlt_0_1 O1 O1 (or_introl eq_refl) O1)
    as (rv & iv & tv & t & R & m & G & Vt & LR & SM & _).
  assert (X1 : R = 1) by (apply (largest_unique LR); apply round_ellipse). assert (X2 : m = 1) by (apply (smallest_unique SM); apply round_ellipse). subst R m.
  set (T := degrees t). assert (S := sin2_cos2 T). unfold Rsqr in S.
  assert (Lg : far_end 1 1 0 1 1 (sin T) (- cos T)).
  { split; [exists (sin T), (- cos T); repeat split; lra|]. unfold dist. rewrite <- sqrt_1. f_equal. lra. }
  specialize (H Libm_nearest (B (-51)) (n_ofZ 1) (n_ofZ 1) (n_ofZ 0) (n_ofZ 1) 1 1 0 1 rv iv tv t 1 1 _ _ nearest_accurate e_51_range V1 V1 V0 V1 Rlt_0_1 Rlt_0_1 Rlt_0_1 O1 O1 (or_introl eq_refl) O1 G Vt LR SM Lg).
  unfold off_line in H. fold T in H. replace (sin T * sin T - - cos T * cos T) with 1 in H by lra. rewrite Rabs_R1 in H. lra.
Qed.
(** an ellipse twice as wide as high lies flat *)
Theorem wide_tilted : exists rv iv tv t, disk_parameters Libm_nearest (n_ofZ 2) (n_ofZ 1) (n_ofZ 0) (n_ofZ 1) = (rv, iv, tv) /\
  f64_val tv = XFin t /\ Rabs (sin (degrees t)) <= / 1000000000000.
Proof.
  assert (V0 : f64_val (n_ofZ 0) = XFin 0) by (apply (of_Z 0); vm_compute; discriminate).
  assert (V1 : f64_val (n_ofZ 1) = XFin 1) by (apply (of_Z 1); vm_compute; discriminate).
  assert (V2 : f64_val (n_ofZ 2) = XFin 2) by (apply (of_Z 2); vm_compute; discriminate).
  assert (O1 : ordinary 1) by (apply ordinary_between; lra). assert (O2 : ordinary 2) by (apply ordinary_between; lra). assert (Q := e_51).
  destruct (@tilt64 Libm_nearest (B (-51)) (n_ofZ 2) (n_ofZ 1) (n_ofZ 0) (n_ofZ 1) 2 1 0 1 nearest_accurate e_51_range V2 V1 V0 V1 Rlt_0_2 Rlt_0_1 Rlt_0_1 O2 O1 (or_introl eq_refl) O1)
    as (rv & iv & tv & t & R & m & G & Vt & LR & SM & W).
  assert (X1 : R = 2) by (apply (largest_unique LR); apply wide_ellipse). assert (X2 : m = 1) by (apply (smallest_unique SM); apply wide_ellipse). subst R m.
  assert (Lg : far_end 2 1 0 1 2 2 0).
  { split; [exists 1, 0; repeat split; ring|]. unfold dist. transitivity (sqrt (2 * 2)); [f_equal; ring|apply sqrt_square; lra]. }
  specialize (W _ _ Lg). unfold off_line in W. replace (2 * sin (degrees t) - 0 * cos (degrees t)) with (2 * sin (degrees t)) in W by ring.
  rewrite Rabs_mult, (Rabs_pos_eq 2) in W by lra. exists rv, iv, tv, t. split; [exact G|]. split; [exact Vt|]. lra.
Qed.
(** a cell of a mirrored grid in a turned quadrant *)
Definition example_tilt (i j k : nat) (s : shallot f64) : Prop :=
  let p := s_params s in
  exists tv t fx fy c R m, cell (List.length (g_dx p)) (List.length (g_rfa p)) (p_data (cube_of WTilt s)) i j k = Some tv /\ f64_val tv = XFin t /\
    largest_distance fx fy (- / 4194304) c R /\ smallest_distance fx fy (- / 4194304) c m /\ 8000000 < R /\ tilt_within (142 / 1000000) fx fy (/ 4194304) c R m t.
Lemma tilted_example : exists g og l s, grid_m = Ok g /\ g_ext g = true /\ new_shallot env_calc (EIs g) (PInt 2) (PInt 50) (PBool false) (PBool false) = (og, (l, Ok s)) /\ example_tilt 2 0 0 s.
Proof.
  destruct (holds_in _ _ m_test) as (g & og & l & s & G & N & H).
  apply (@placed_in _ _ _ (-2) 8388608) in H; [|apply (of_Z (-2)); vm_compute; discriminate|apply (of_Z (2 ^ 23)); vm_compute; discriminate].
  destruct H as (Ex & Bi & Bj & Bk & dyv & dxv & dyv' & dxv' & fyv & fxv & fy & fx & c & Ny & Nx & Ny' & Nx' & Cy & Cx & Vy & Vx & Vy' & Vx' & Vfy & Vfx & Vs & Vc & By & Bx & Bc).
  exists g, og, l, s. split; [exact G|]. split; [exact Ex|]. split; [exact N|].
  destruct (m_lengths G) as [Ly Lx].
  assert (K := @grid_tilted env_calc _ calc_accurate e_range (PInt 2) g (rc_new _ _ _ _ _ _ _ _ G) _ _ _ _ _ _ N). cbv zeta in K. rewrite Ex, Ly, Lx in K.
  destruct (K 2%nat 0%nat 0%nat dyv dxv fyv fxv 8388608 2 fy fx (- / 4194304)) as (tv & t & c' & R & m & Z); auto; try (apply ex_loose_y || exact ex_loose || lra); try (apply ordinary_between; lra).
  destruct Z as (Z1 & Z2 & Z7 & Z8 & Z9 & Z10). cbn [e_libm env_calc] in Z7. rewrite Vc in Z7. injection Z7 as <-.
  destruct (@ex_size fx fy c R m By Bx Bc Z8 Z9) as (S1 & S2 & S3). cbn [Nat.ltb Nat.leb xorb andb] in Z10. rewrite Ropp_involutive in Z10.
  exists tv, t, fx, fy, c, R, m. repeat (split; [assumption|]). split; [lra|]. exact Z10.
Qed.
