(** Examples for the inclination in binary64. *)
From Coq Require Import ZArith Reals Lra Lia Bool.
From Flocq Require Import Core BinarySingleNaN.
From Verif Require Import Num NumP XLibm Geometry BuildFP SpecGeom SpecF64 Round64P GeomF64P GeomP GeomMoreP DiskErrP DiskF64P DiskF64ExP LibmF64P EdgeExP InclF64P.
Local Open Scope R_scope.
Set Implicit Arguments.

(** elementary functions right up to a millionth, with the cosine of 0 too small by 2^-21 *)
Definition low_l : f64 := lit (9007199254740992 - 4294967296) (-53) eq_refl.
Definition low_cos (x : f64) : f64 := if n_eq x n_zero then low_l else c_cos x.
Definition Libm_low : Libm f64 :=
  {| m_pi := pi_l; m_sin := c_sin; m_cos := low_cos; m_asin := m_asin Libm_nearest; m_acos := c_acos; m_atan := m_atan Libm_nearest;
     m_atan2 := c_atan2; m_hypot := c_hypot |}.
Lemma low_val : f64_val low_l = XFin (1 - / 2097152).
Proof.
  unfold low_l. rewrite lit_val. f_equal. change (B (-53)) with (/ 9007199254740992).
  change (9007199254740992 - 4294967296)%positive with 9007194959773696%positive. lra.
Qed.
Theorem low_accurate : accurate Libm_low (/ 1000000).
Proof.
  destruct calc_accurate as [A1 A2 A3 A4 A5 A6].
  constructor; [exact A1|exact A2| |exact A4|exact A5|exact A6].
  intros x a X Ha. cbn [m_cos Libm_low]. unfold low_cos. destruct (n_eq x n_zero) eqn:E; [|exact (A3 x a X Ha)].
  assert (Z : a = 0) by exact (@eq_val x n_zero a 0 X of_zero E). subst a.
  exists (1 - / 2097152). split; [exact low_val|]. rewrite cos_0. apply Rabs_le. lra.
Qed.

Lemma round_ellipse : largest_distance 1 1 0 1 1 /\ smallest_distance 1 1 0 1 1.
Proof.
  unfold largest_distance, smallest_distance, on_ellipse, dist. repeat setoid_rewrite Rminus_0_r.
  assert (S1 : sqrt (1 * 1) = 1) by (apply sqrt_square; lra).
  assert (Q : forall u v, u * u + v * v = 1 * 1 -> sqrt ((0 + (1 * u - 0 * (1 * v))) * (0 + (1 * u - 0 * (1 * v))) + (0 + 1 * v) * (0 + 1 * v)) = 1).
  { intros u v E. transitivity (sqrt (u * u + v * v)); [f_equal; ring|rewrite E; exact S1]. }
  split; split.
  - exists 1, 0. split; [exists 1, 0; repeat split; ring|]. transitivity (sqrt (1 * 1)); [f_equal; ring|exact S1].
  - intros x y (u & v & E & -> & ->). rewrite (Q u v E). lra.
  - exists 1, 0. split; [exists 1, 0; repeat split; ring|]. transitivity (sqrt (1 * 1)); [f_equal; ring|exact S1].
  - intros x y (u & v & E & -> & ->). rewrite (Q u v E). lra.
Qed.
Definition low_test : bool := n_le (n_div (n_ofZ 1) (n_ofZ 20)) (snd (fst (disk_parameters Libm_low (n_ofZ 1) (n_ofZ 1) (n_ofZ 0) (n_ofZ 1)))).
Lemma low_computed : low_test = true.
Proof. vm_compute. exact eq_refl. Qed.

(** a circle gets an inclination of more than 0.04 degrees: the bound 420 e without the factor is wrong *)
Theorem circle_tilted : ~ (forall (L : Libm f64) e (fxv fyv sv cv : f64) fx fy s c rv iv tv i R m, accurate L e -> bpow radix2 (-52) <= e <= / 1000000 ->
  f64_val fxv = XFin fx -> f64_val fyv = XFin fy -> f64_val sv = XFin s -> f64_val cv = XFin c ->
  0 < fx -> 0 < fy -> 0 < c -> ordinary fx -> ordinary fy -> loose s -> ordinary c ->
  disk_parameters L fxv fyv sv cv = (rv, iv, tv) -> f64_val iv = XFin i -> largest_distance fx fy s c R -> smallest_distance fx fy s c m ->
  Rabs (degrees i - acos (m / R)) <= 600 * e).
Proof.
  intros H.
  assert (V0 : f64_val (n_ofZ 0) = XFin 0) by (apply (of_Z 0); vm_compute; discriminate).
  assert (V1 : f64_val (n_ofZ 1) = XFin 1) by (apply (of_Z 1); vm_compute; discriminate).
  assert (V20 : f64_val (n_ofZ 20) = XFin 20) by (apply (of_Z 20); vm_compute; discriminate).
  assert (O1 : ordinary 1) by (apply ordinary_between; lra).
  destruct (@incl_accurate Libm_low (/ 1000000) (n_ofZ 1) (n_ofZ 1) (n_ofZ 0) (n_ofZ 1) 1 1 0 1 low_accurate e_range V1 V1 V0 V1 Rlt_0_1 Rlt_0_1 Rlt_0_1 O1 O1 (or_introl eq_refl) O1)
    as (rv & iv & tv & i & R & m & G & Gi & LR & SM & _).
  specialize (H Libm_low (/ 1000000) (n_ofZ 1) (n_ofZ 1) (n_ofZ 0) (n_ofZ 1) 1 1 0 1 rv iv tv i R m low_accurate e_range V1 V1 V0 V1 Rlt_0_1 Rlt_0_1 Rlt_0_1 O1 O1 (or_introl eq_refl) O1 G Gi LR SM).
  assert (X1 : R = 1) by (apply (largest_unique LR); apply round_ellipse). assert (X2 : m = 1) by (apply (smallest_unique SM); apply round_ellipse). subst R m.
  replace (1 / 1) with 1 in H by field. rewrite acos_1 in H.
  assert (T := low_computed). unfold low_test in T. rewrite G in T. cbn [fst snd] in T.
  destruct (@div_any (n_ofZ 1) (n_ofZ 20) 1 20 V1 V20) as (d & t & D1 & D2 & Vd); [lra|apply small_1024; apply Rabs_le; lra|].
  assert (K := le_val _ _ Vd Gi T). assert (U := ulp1_pos). assert (T2 := tiny_1075). assert (PB := PI_bounds).
  apply Rabs_le_inv in D1. apply Rabs_le_inv in D2. apply Rabs_le_inv in H. unfold degrees in H.
  assert (Hi : / 25 <= i) by lra.
  assert (/ 25 * (3 / 180) <= i * (PI / 180)) by (apply Rmult_le_compat; lra). lra.
Qed.
(** an ellipse twice as wide as high is inclined by 60 degrees *)
Theorem wide_inclined : exists rv iv tv i, disk_parameters Libm_nearest (n_ofZ 2) (n_ofZ 1) (n_ofZ 0) (n_ofZ 1) = (rv, iv, tv) /\
  f64_val iv = XFin i /\ Rabs (i - 60) <= / 10000000000.
Proof.
  assert (V0 : f64_val (n_ofZ 0) = XFin 0) by (apply (of_Z 0); vm_compute; discriminate).
  assert (V1 : f64_val (n_ofZ 1) = XFin 1) by (apply (of_Z 1); vm_compute; discriminate).
  assert (V2 : f64_val (n_ofZ 2) = XFin 2) by (apply (of_Z 2); vm_compute; discriminate).
  assert (O1 : ordinary 1) by (apply ordinary_between; lra). assert (O2 : ordinary 2) by (apply ordinary_between; lra).
  assert (Q : B (-51) = / 2251799813685248) by reflexivity.
  assert (E : B (-52) <= B (-51) <= / 1000000) by (split; [apply bpow_le; lia|lra]).
  destruct (@incl_accurate Libm_nearest (B (-51)) (n_ofZ 2) (n_ofZ 1) (n_ofZ 0) (n_ofZ 1) 2 1 0 1 nearest_accurate E V2 V1 V0 V1 Rlt_0_2 Rlt_0_1 Rlt_0_1 O2 O1 (or_introl eq_refl) O1)
    as (rv & iv & tv & i & R & m & G & Gi & LR & SM & _ & _ & K).
  assert (X1 : R = 2) by (apply (largest_unique LR); apply wide_ellipse). assert (X2 : m = 1) by (apply (smallest_unique SM); apply wide_ellipse). subst R m.
  assert (PB := PI_bounds). rewrite <- cos_PI3, acos_cos in K by lra.
  exists rv, iv, tv, i. split; [exact G|]. split; [exact Gi|].
  assert (F : degrees i - PI / 3 = (i - 60) * (PI / 180)) by (unfold degrees; field). rewrite F, Rabs_mult, (Rabs_pos_eq (PI / 180)) in K by lra.
  assert (W : Rabs (i - 60) * (3 / 180) * (3 / 3) <= Rabs (i - 60) * (PI / 180) * (PI / 3)).
  { assert (Z := Rabs_pos (i - 60)). apply Rmult_le_compat; [apply Rmult_le_pos; lra|lra|apply Rmult_le_compat_l; lra|lra]. }
  rewrite Q in K. lra.
Qed.
