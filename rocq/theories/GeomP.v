(** Lemmas about the disk geometry. *)
From Coq Require Import ZArith Reals List Bool Lra Lia Psatz.
From Verif Require Import Num NumP Py XLibm Geometry SpecGeom.
Import ListNotations.
Set Implicit Arguments.
Local Open Scope R_scope.

(** *** ratan2 *)
Lemma polar (x y : R) : let h := sqrt (x * x + y * y) in x = h * cos (ratan2 y x) /\ y = h * sin (ratan2 y x).
Proof.
  cbn zeta. unfold ratan2.
  assert (Hx : forall t, x <> 0 -> t = y / x -> x * x + y * y = (x * x) * (1 + t * t)) by (intros t Hx ->; field; auto).
  assert (K : forall t, 0 < 1 + t * t) by (intros; nra).
  destruct (Rlt_dec 0 x) as [P|P]; [|destruct (Rlt_dec x 0) as [N|N]].
  - set (t := y / x). rewrite (Hx t) by (auto; lra). rewrite sqrt_mult by nra. rewrite sqrt_square by lra.
    assert (S := sqrt_lt_R0 _ (K t)). assert (C : cos (atan t) = 1 / sqrt (1 + t * t)) by (rewrite cos_atan; reflexivity).
    assert (Sn : sin (atan t) = t / sqrt (1 + t * t)) by (rewrite sin_atan; reflexivity).
    assert (Y : y = t * x) by (unfold t; field; lra). rewrite C, Sn, Y. split; field; lra.
  - set (t := y / x). rewrite (Hx t) by (auto; lra). rewrite sqrt_mult by nra. replace (sqrt (x * x)) with (- x) by (replace (x * x) with ((- x) * (- x)) by ring; rewrite sqrt_square; lra).
    assert (S := sqrt_lt_R0 _ (K t)).
    assert (C : cos (atan t) = 1 / sqrt (1 + t * t)) by (rewrite cos_atan; reflexivity).
    assert (Sn : sin (atan t) = t / sqrt (1 + t * t)) by (rewrite sin_atan; reflexivity).
    assert (Y : y = t * x) by (unfold t; field; lra).
    assert (CP : cos (atan t + PI) = - cos (atan t)) by apply neg_cos. assert (SP : sin (atan t + PI) = - sin (atan t)) by apply neg_sin.
    assert (CM : cos (atan t - PI) = - cos (atan t)).
    { rewrite <- neg_cos. rewrite <- (cos_period (atan t - PI) 1). f_equal. cbn. ring. }
    assert (SM : sin (atan t - PI) = - sin (atan t)).
    { rewrite <- neg_sin. rewrite <- (sin_period (atan t - PI) 1). f_equal. cbn. ring. }
    destruct (Rle_dec 0 y); rewrite ?CP, ?SP, ?CM, ?SM, C, Sn, Y; split; field; lra.
  - assert (x = 0) by lra. subst x. rewrite Rmult_0_l, Rplus_0_l. destruct (Rlt_dec 0 y); [|destruct (Rlt_dec y 0)].
    + rewrite cos_PI2, sin_PI2, sqrt_square; lra.
    + rewrite cos_neg, sin_neg, cos_PI2, sin_PI2. replace (y * y) with ((- y) * (- y)) by ring. rewrite sqrt_square; lra.
    + assert (y = 0) by lra. subst y. rewrite Rmult_0_l, sqrt_0, cos_0, sin_0. lra.
Qed.

Lemma on_circle (c u v : R) : 0 <= c -> u * u + v * v = c * c -> exists th, u = c * cos th /\ v = c * sin th.
Proof.
  intros Hc E. exists (ratan2 v u). destruct (polar u v) as [A B]. rewrite E in A, B. rewrite sqrt_square in A, B by auto. auto.
Qed.

(** *** the distance from the centre as a function of the parametric angle *)
Section E.
Variables fx fy s c : R.
Hypothesis Hx : 0 < fx.
Hypothesis Hy : 0 < fy.
Hypothesis Hc : 0 < c.
Let A := fx * fx + (s * s + 1) * (fy * fy).
Let D := (s * s + 1) * (fy * fy) - fx * fx.
Let N := 2 * fx * fy * s.
Let h := sqrt (D * D + N * N).
Let th1 := / 2 * ratan2 N D.
Let th2 := th1 + PI / 2.
Definition px (th : R) : R := fx * (c * cos th) - s * (fy * (c * sin th)).
Definition py (th : R) : R := fy * (c * sin th).
Definition r2 (th : R) : R := px th * px th + py th * py th.

Lemma r2_eq th : r2 th = c * c / 2 * (A - D * cos (2 * th) - N * sin (2 * th)).
Proof.
  unfold r2, px, py, A, D, N. rewrite cos_2a_cos, sin_2a. assert (E := sin2_cos2 th). unfold Rsqr in E.
  assert (Ec : sin th * sin th = 1 - cos th * cos th) by lra.
  transitivity (c * c * (fx * fx * (cos th * cos th) - 2 * s * fx * fy * (sin th * cos th) + (s * s + 1) * (fy * fy) * (sin th * sin th))); [ring|].
  rewrite Ec. field.
Qed.
Lemma h_ge : 0 <= h. Proof. apply sqrt_pos. Qed.
Lemma h_sq : h * h = D * D + N * N. Proof. apply sqrt_sqrt. nra. Qed.
Lemma two_th1 : D = h * cos (2 * th1) /\ N = h * sin (2 * th1).
Proof. unfold th1. replace (2 * (/ 2 * ratan2 N D)) with (ratan2 N D) by field. apply polar. Qed.
(** A > h *)
Lemma A_gt : h < A.
Proof.
  assert (E : A * A - (D * D + N * N) = 4 * (fx * fy) * (fx * fy)) by (unfold A, D, N; ring). assert (H := h_sq). assert (G := h_ge).
  assert (0 < fx * fy) by (apply Rmult_lt_0_compat; auto). assert (0 < A) by (unfold A; nra). nra.
Qed.
Lemma combo th : D * cos (2 * th) + N * sin (2 * th) = h * cos (2 * th1 - 2 * th).
Proof. destruct two_th1 as [E1 E2]. rewrite E1 at 1. rewrite E2 at 1. rewrite cos_minus. ring. Qed.
Lemma r2_th1 : r2 th1 = c * c / 2 * (A - h).
Proof. rewrite r2_eq. assert (E := combo th1). rewrite Rminus_diag_eq in E by reflexivity. rewrite cos_0 in E. replace (A - D * cos (2 * th1) - N * sin (2 * th1)) with (A - h) by lra. reflexivity. Qed.
Lemma r2_th2 : r2 th2 = c * c / 2 * (A + h).
Proof.
  rewrite r2_eq. assert (E := combo th2). replace (2 * th1 - 2 * th2) with (- PI) in E by (unfold th2; field). rewrite cos_neg, cos_PI in E.
  replace (A - D * cos (2 * th2) - N * sin (2 * th2)) with (A + h) by lra. reflexivity.
Qed.
Lemma r2_bounds th : r2 th1 <= r2 th <= r2 th2.
Proof.
  rewrite r2_th1, r2_th2, r2_eq. assert (E := combo th). assert (B := COS_bound (2 * th1 - 2 * th)). assert (G := h_ge).
  assert (0 < c * c / 2) by nra. assert (- h <= h * cos (2 * th1 - 2 * th) <= h) by nra.
  split; apply Rmult_le_compat_l; lra.
Qed.
Lemma r2_pos th : 0 < r2 th1 <= r2 th.
Proof. split; [|apply r2_bounds]. rewrite r2_th1. assert (G := A_gt). assert (0 < c * c / 2) by nra. apply Rmult_lt_0_compat; lra. Qed.

Definition d_minor := sqrt (r2 th1).
Definition d_major := sqrt (r2 th2).
Lemma minor_pos : 0 < d_minor. Proof. apply sqrt_lt_R0. apply (r2_pos th1). Qed.
Lemma minor_le : d_minor <= d_major. Proof. apply sqrt_le_1_alt. apply r2_bounds. Qed.

Lemma ell_angle x y : on_ellipse 0 0 fx fy s c x y <-> exists th, x = px th /\ y = py th.
Proof.
  unfold on_ellipse, px, py. split.
  - intros (u & v & E & -> & ->). destruct (@on_circle c u v) as (th & -> & ->); auto; [lra|]. exists th. split; ring.
  - intros (th & -> & ->). exists (c * cos th), (c * sin th). assert (E := sin2_cos2 th). unfold Rsqr in E. split; [|split; ring]. nra.
Qed.
Lemma dist_r2 th : dist 0 0 (px th) (py th) = sqrt (r2 th).
Proof. unfold dist, r2. rewrite !Rminus_0_r. reflexivity. Qed.
Lemma major_largest : largest_distance fx fy s c d_major.
Proof.
  split.
  - exists (px th2), (py th2). split; [apply ell_angle; eauto|apply dist_r2].
  - intros x y H. apply ell_angle in H. destruct H as (th & -> & ->). rewrite dist_r2. apply sqrt_le_1_alt, r2_bounds.
Qed.
Lemma minor_smallest : smallest_distance fx fy s c d_minor.
Proof.
  split.
  - exists (px th1), (py th1). split; [apply ell_angle; eauto|apply dist_r2].
  - intros x y H. apply ell_angle in H. destruct H as (th & -> & ->). rewrite dist_r2. apply sqrt_le_1_alt, r2_bounds.
Qed.

(** the two vertices are perpendicular, the second to the left of the first *)
Lemma perpendicular : px th1 * px th2 + py th1 * py th2 = 0.
Proof.
  destruct two_th1 as [E1 E2]. unfold px, py, th2. rewrite cos_plus, sin_plus, cos_PI2, sin_PI2.
  transitivity (c * c / 2 * (D * sin (2 * th1) - N * cos (2 * th1))).
  - rewrite sin_2a, cos_2a. unfold D, N. field.
  - rewrite E1, E2 at 1. ring.
Qed.
Lemma cross : px th1 * py th2 - py th1 * px th2 = c * c * (fx * fy).
Proof.
  unfold px, py, th2. rewrite cos_plus, sin_plus, cos_PI2, sin_PI2. assert (E := sin2_cos2 th1). unfold Rsqr in E.
  transitivity (c * c * (fx * fy) * (sin th1 * sin th1 + cos th1 * cos th1)); [ring|]. rewrite E. ring.
Qed.
Definition phi := ratan2 (py th1) (px th1).
Lemma vertex1_polar : px th1 = d_minor * cos phi /\ py th1 = d_minor * sin phi.
Proof. unfold d_minor, r2, phi. apply polar. Qed.
Lemma vertex2_polar : px th2 = d_major * cos (phi + PI / 2) /\ py th2 = d_major * sin (phi + PI / 2).
Proof.
  destruct vertex1_polar as [E1 E2]. assert (P := perpendicular). assert (Q := cross). rewrite E1, E2 in P, Q.
  assert (M := minor_pos). assert (F := sin2_cos2 phi). unfold Rsqr in F.
  rewrite cos_plus, sin_plus, cos_PI2, sin_PI2.
  assert (P' : cos phi * px th2 + sin phi * py th2 = 0) by nra.
  set (k := cos phi * py th2 - sin phi * px th2).
  assert (K : 0 < k). { assert (d_minor * k = c * c * (fx * fy)) by (unfold k; lra). assert (0 < c * c * (fx * fy)) by (repeat apply Rmult_lt_0_compat; auto). nra. }
  assert (X : px th2 = - k * sin phi).
  { transitivity (px th2 * (sin phi * sin phi + cos phi * cos phi) - cos phi * (cos phi * px th2 + sin phi * py th2)); [rewrite F, P'; ring|unfold k; ring]. }
  assert (Y : py th2 = k * cos phi).
  { transitivity (py th2 * (sin phi * sin phi + cos phi * cos phi) - sin phi * (cos phi * px th2 + sin phi * py th2)); [rewrite F, P'; ring|unfold k; ring]. }
  assert (Dk : d_major = k). { unfold d_major, r2. rewrite X, Y. replace (_ + _) with (k * k * (sin phi * sin phi + cos phi * cos phi)) by ring. rewrite F, Rmult_1_r. apply sqrt_square. lra. }
  rewrite Dk, X, Y. split; ring.
Qed.
End E.

(** *** the model over the extended reals *)
Lemma xdiv (a b : R) : b <> 0 -> x_div (XFin a) (XFin b) = XFin (a / b).
Proof. intros H. cbn. destruct (Req_EM_T b 0); [contradiction|reflexivity]. Qed.
Lemma x_half : n_half = XFin (/ 2).
Proof. unfold n_half, n_one. cbn [n_div n_ofZ Num_xr]. rewrite xdiv by lra. f_equal. field. Qed.
Definition th_of (fx fy s : R) : R := / 2 * ratan2 (2 * fx * fy * s) ((s * s + 1) * (fy * fy) - fx * fx).
Lemma vertex_xr fx fy s : vertex_angle Libm_xr (XFin fx) (XFin fy) (XFin s) = XFin (th_of fx fy s).
Proof. unfold vertex_angle. rewrite x_half. reflexivity. Qed.
Lemma covertex_xr fx fy s : covertex_angle Libm_xr (XFin fx) (XFin fy) (XFin s) = XFin (th_of fx fy s + PI / 2).
Proof. unfold covertex_angle. rewrite vertex_xr. unfold num2. cbn [n_div n_ofZ n_add Num_xr m_pi Libm_xr]. rewrite xdiv by lra. reflexivity. Qed.
Lemma xy_xr fx fy th s c : xy_at Libm_xr (XFin fx) (XFin fy) (XFin th) (XFin s) (XFin c) = (XFin (px fx fy s c th), XFin (py fy c th)).
Proof. reflexivity. Qed.
Lemma to_deg_xr r : to_deg Libm_xr (XFin r) = XFin (r * (180 / PI)).
Proof. unfold to_deg, num2. cbn [n_div n_ofZ n_mul Num_xr m_pi Libm_xr]. rewrite xdiv by (apply PI_neq0). reflexivity. Qed.

Definition quarter (fx fy s c : R) : R := if Rlt_dec (d_minor fx fy s c) (d_major fx fy s c) then PI / 2 else 0.
Theorem disk_xr fx fy s c : 0 < fx -> 0 < fy -> 0 < c ->
  disk_parameters Libm_xr (XFin fx) (XFin fy) (XFin s) (XFin c) =
  (XFin (d_major fx fy s c), XFin (acos (d_minor fx fy s c / d_major fx fy s c) * (180 / PI)),
   XFin ((phi fx fy s c + quarter fx fy s c) * (180 / PI))).
Proof.
  intros Hx Hy Hc. unfold disk_parameters. rewrite vertex_xr, covertex_xr, !xy_xr. cbn [m_hypot Libm_xr x_hypot].
  change (sqrt (px fx fy s c (th_of fx fy s) * px fx fy s c (th_of fx fy s) + py fy c (th_of fx fy s) * py fy c (th_of fx fy s))) with (d_minor fx fy s c).
  change (sqrt (px fx fy s c (th_of fx fy s + PI / 2) * px fx fy s c (th_of fx fy s + PI / 2) + py fy c (th_of fx fy s + PI / 2) * py fy c (th_of fx fy s + PI / 2))) with (d_major fx fy s c).
  assert (M := @minor_pos fx fy s c Hx Hy Hc). assert (L := @minor_le fx fy s c Hc).
  assert (Mx : np_max (XFin (d_minor fx fy s c)) (XFin (d_major fx fy s c)) = XFin (d_major fx fy s c)).
  { unfold np_max. cbn [n_isnan n_le Num_xr x_isnan]. unfold x_le. cbn [x_lt x_eq]. destruct (Rlt_dec _ _); [lra|]. cbn [orb]. destruct (Req_EM_T _ _) as [E|]; [rewrite E|]; reflexivity. }
  assert (Mn : np_min (XFin (d_minor fx fy s c)) (XFin (d_major fx fy s c)) = XFin (d_minor fx fy s c)).
  { unfold np_min. cbn [n_isnan n_le Num_xr x_isnan]. unfold x_le. cbn [x_lt x_eq]. destruct (Rlt_dec _ _); [reflexivity|]. cbn [orb]. destruct (Req_EM_T _ _) as [E|E]; [reflexivity|]. lra. }
  rewrite Mx, Mn. cbn [n_mul n_isnan Num_xr x_mul x_isnan negb m_atan2 m_acos Libm_xr x_atan2 n_div].
  rewrite xdiv by lra. unfold xdom.
  assert (Q : 0 <= d_minor fx fy s c / d_major fx fy s c <= 1).
  { split; [apply Rmult_le_pos; [lra|left; apply Rinv_0_lt_compat; lra]|]. apply (Rmult_le_reg_r (d_major fx fy s c)); [lra|]. unfold Rdiv. rewrite Rmult_assoc, Rinv_l by lra. lra. }
  destruct (Rle_dec (-1) _); [|lra]. destruct (Rle_dec _ 1); [|lra]. rewrite to_deg_xr. f_equal. fold (phi fx fy s c). unfold quarter.
  unfold num2, n_one, n_zero. cbn [n_lt Num_xr x_lt n_ofZ n_add]. change (ratan2 (py fy c (th_of fx fy s)) (px fx fy s c (th_of fx fy s))) with (phi fx fy s c).
  destruct (Rlt_dec (d_minor fx fy s c) (d_major fx fy s c)); cbn [x_mul n_mul n_div m_pi Libm_xr Num_xr]; rewrite xdiv by lra; cbn [x_add]; rewrite to_deg_xr; f_equal; f_equal; lra.
Qed.

Lemma acos_range q : 0 < q <= 1 -> 0 <= acos q < PI / 2 /\ cos (acos q) = q.
Proof.
  intros H. split; [|apply cos_acos; lra]. split; [apply acos_bound|].
  destruct (Rlt_dec (acos q) (PI / 2)) as [|G]; auto. exfalso. assert (C : cos (acos q) = q) by (apply cos_acos; lra).
  assert (B := acos_bound q). assert (cos (acos q) <= cos (PI / 2)) by (apply cos_decr_1; lra). rewrite cos_PI2 in H0. lra.
Qed.
Lemma deg_rad r : degrees (r * (180 / PI)) = r.
Proof. unfold degrees. field. apply PI_neq0. Qed.

(** C36 *)
Theorem disk_is_ellipse fx fy s c : 0 < fx -> 0 < fy -> 0 < c ->
  exists r i t, disk_parameters Libm_xr (XFin fx) (XFin fy) (XFin s) (XFin c) = (XFin r, XFin i, XFin t) /\
    largest_distance fx fy s c r /\ smallest_distance fx fy s c (cos (degrees i) * r) /\
    0 <= i < 90 /\ 0 < r /\
    on_ellipse 0 0 fx fy s c (r * cos (degrees t)) (r * sin (degrees t)).
Proof.
  intros Hx Hy Hc. rewrite disk_xr by auto. do 3 eexists. split; [reflexivity|].
  assert (M := @minor_pos fx fy s c Hx Hy Hc). assert (L := @minor_le fx fy s c Hc).
  assert (Q : 0 < d_minor fx fy s c / d_major fx fy s c <= 1).
  { split; [apply Rmult_lt_0_compat; [lra|apply Rinv_0_lt_compat; lra]|]. apply (Rmult_le_reg_r (d_major fx fy s c)); [lra|]. unfold Rdiv. rewrite Rmult_assoc, Rinv_l by lra. lra. }
  destruct (acos_range Q) as [R1 R2]. assert (Pp := PI_RGT_0).
  split; [apply major_largest; auto|]. split.
  - rewrite deg_rad, R2. replace (_ / _ * _) with (d_minor fx fy s c) by (field; lra). apply minor_smallest; auto.
  - split; [|split; [lra|]].
    + split; [apply Rmult_le_pos; [lra|]; left; apply Rdiv_lt_0_compat; lra|].
      apply (Rmult_lt_reg_r (PI / 180)); [lra|]. replace (acos (d_minor fx fy s c / d_major fx fy s c) * (180 / PI) * (PI / 180)) with (acos (d_minor fx fy s c / d_major fx fy s c)) by (field; lra). lra.
    + rewrite deg_rad. unfold quarter. destruct (Rlt_dec _ _) as [G|G].
      * destruct (@vertex2_polar fx fy s c Hx Hy Hc) as [<- <-]. apply ell_angle; eauto.
      * rewrite Rplus_0_r. replace (d_major fx fy s c) with (d_minor fx fy s c) by lra. destruct (@vertex1_polar fx fy s c) as [<- <-]. apply ell_angle; eauto.
Qed.

(** *** C35: the contact points *)
Definition radius_of (dy : R) : R := sqrt (/ 2 * / 2 + dy * dy).
Lemma radius_xr dy : circular_radius Libm_xr (XFin dy) = XFin (radius_of dy).
Proof. unfold circular_radius. rewrite x_half. reflexivity. Qed.
Lemma radius_sq dy : radius_of dy * radius_of dy = (1 + 4 * (dy * dy)) / 4.
Proof. unfold radius_of. rewrite sqrt_sqrt by nra. field. Qed.
Lemma radius_pos dy : 0 < radius_of dy. Proof. apply sqrt_lt_R0. nra. Qed.

Lemma shear_xr dx dy : shear_at (XFin dx) (XFin dy) =
  if Req_EM_T dy 0 then (if Req_EM_T dx 0 then XFin 0 else XNaN) else XFin (- dx / dy).
Proof.
  unfold shear_at, n_zero. cbn [n_eq Num_xr x_eq n_ofZ n_neg x_neg n_div n_nan]. destruct (Req_EM_T dy 0) as [E|E]; cbn [andb negb].
  - destruct (Req_EM_T dx 0); reflexivity.
  - rewrite xdiv by auto. reflexivity.
Qed.
Lemma fx_xr fy dy : determine_fx (XFin fy) (XFin dy) =
  let den := fy * fy * (1 + 4 * (dy * dy)) - 4 * (dy * dy) in
  if Rle_dec den 0 then XNaN else XFin (sqrt (1 / den) * fy).
Proof.
  cbn zeta. unfold determine_fx, n_sq, num2, n_one, n_zero. cbn [n_eq Num_xr x_eq n_ofZ n_mul x_mul n_add x_add n_sub x_sub n_le n_nan n_div n_sqrt].
  set (den := fy * fy * (1 + 4 * (dy * dy)) - 4 * (dy * dy)). unfold x_le. cbn [x_lt x_eq].
  destruct (Rle_dec den 0) as [L|L].
  - destruct (Rlt_dec den 0); cbn [orb x_mul]; auto. destruct (Req_EM_T den 0); [reflexivity|lra].
  - destruct (Rlt_dec den 0); [lra|]. destruct (Req_EM_T den 0); [lra|]. cbn [orb]. rewrite xdiv by lra. cbn [x_sqrt].
    destruct (Rlt_dec (1 / den) 0) as [B|B]; [exfalso|reflexivity]. assert (0 < 1 / den) by (apply Rdiv_lt_0_compat; lra). lra.
Qed.
Lemma fy_xr fx dy : determine_fy (XFin fx) (XFin dy) =
  let den := fx * fx * (1 + 4 * (dy * dy)) - 1 in
  if Req_EM_T dy 0 then (if Req_EM_T fx 1 then XFin 1 else if Rle_dec den 0 then XNaN else XFin 0)
  else if Rle_dec den 0 then XNaN else XFin (sqrt (4 * (fx * fx) * (dy * dy) / den)).
Proof.
  cbn zeta. unfold determine_fy, n_sq, num2, n_one, n_zero. cbn [n_eq Num_xr x_eq n_ofZ n_mul x_mul n_add x_add n_sub x_sub n_le n_nan n_div n_sqrt].
  set (den := fx * fx * (1 + 4 * (dy * dy)) - 1). set (num := 4 * (fx * fx) * (dy * dy)).
  assert (N0 : 0 <= num) by (unfold num; nra).
  assert (G : (if x_le (XFin den) (XFin 0) then XNaN else x_sqrt (x_div (XFin num) (XFin den))) = if Rle_dec den 0 then XNaN else XFin (sqrt (num / den))).
  { unfold x_le. cbn [x_lt x_eq]. destruct (Rle_dec den 0) as [L|L].
    - destruct (Rlt_dec den 0); cbn [orb]; auto. destruct (Req_EM_T den 0); [reflexivity|lra].
    - destruct (Rlt_dec den 0); [lra|]. destruct (Req_EM_T den 0); [lra|]. cbn [orb]. rewrite xdiv by lra. cbn [x_sqrt].
      destruct (Rlt_dec (num / den) 0) as [B|B]; [exfalso|reflexivity]. assert (0 <= num / den) by (apply Rmult_le_pos; [lra|left; apply Rinv_0_lt_compat; lra]). lra. }
  destruct (Req_EM_T dy 0) as [E|E]; [destruct (Req_EM_T fx 1)|]; cbn [andb]; auto. rewrite G.
  destruct (Rle_dec den 0); auto. f_equal. unfold num. rewrite E. replace (4 * (fx * fx) * (0 * 0) / den) with 0 by (field; lra). apply sqrt_0.
Qed.

Lemma sq_div_one (a : R) : 0 < a -> sqrt (1 / a) * sqrt (1 / a) = 1 / a.
Proof. intros. apply sqrt_sqrt. left. apply Rdiv_lt_0_compat; lra. Qed.

(** the defining relation of the scale factors *)
Lemma fx_relation fy dy fx : determine_fx (XFin fy) (XFin dy) = XFin fx ->
  fx * fx * (fy * fy * (1 + 4 * (dy * dy)) - 4 * (dy * dy)) = fy * fy /\ 0 < fy * fy * (1 + 4 * (dy * dy)) - 4 * (dy * dy) /\ (0 < fy -> 0 < fx) /\ fy <> 0.
Proof.
  rewrite fx_xr. cbn zeta. set (den := fy * fy * (1 + 4 * (dy * dy)) - 4 * (dy * dy)). destruct (Rle_dec den 0); [discriminate|]. intros E. inversion E; subst fx. clear E.
  assert (P : 0 < den) by lra. assert (S := sq_div_one P). split; [|split; [auto|split]].
  - transitivity (sqrt (1 / den) * sqrt (1 / den) * den * (fy * fy)); [ring|]. rewrite S. field. lra.
  - intros. apply Rmult_lt_0_compat; auto. apply sqrt_lt_R0, Rdiv_lt_0_compat; lra.
  - intros ->. unfold den in P. nra.
Qed.
Lemma fy_relation fx dy fy : determine_fy (XFin fx) (XFin dy) = XFin fy ->
  fy * fy * (fx * fx * (1 + 4 * (dy * dy)) - 1) = 4 * (fx * fx) * (dy * dy) /\ fx <> 0 /\
  (0 < fx * fx * (1 + 4 * (dy * dy)) - 1 \/ dy = 0 /\ fx = 1) /\ 0 <= fy /\ (dy <> 0 -> 0 < fy).
Proof.
  rewrite fy_xr. cbn zeta. set (den := fx * fx * (1 + 4 * (dy * dy)) - 1).
  destruct (Req_EM_T dy 0) as [E|E]; [destruct (Req_EM_T fx 1)|].
  - intros H; inversion H; subst. unfold den. repeat split; try lra.
  - destruct (Rle_dec den 0); [discriminate|]. intros H; inversion H; subst. unfold den in *. repeat split; try lra; try nra; try (intros ->; lra).
  - destruct (Rle_dec den 0); [discriminate|]. intros H; inversion H; subst. assert (P : 0 < den) by lra.
    assert (F : fx <> 0) by (intros ->; unfold den in P; lra).
    assert (Q : 0 < 4 * (fx * fx) * (dy * dy) / den) by (apply Rdiv_lt_0_compat; auto; assert (0 < fx * fx) by nra; assert (0 < dy * dy) by nra; nra).
    split; [rewrite sqrt_sqrt by lra; field; lra|]. split; auto. split; auto. split; [apply sqrt_pos|]. intros. apply sqrt_lt_R0; auto.
Qed.

Lemma contact dx dy fx fy s : shear_at (XFin dx) (XFin dy) = XFin s -> fx <> 0 ->
  (fy <> 0 -> 1 / (fx * fx) + 4 * (dy * dy) / (fy * fy) = 1 + 4 * (dy * dy)) -> (fy = 0 -> dy = 0 /\ 1 <= fx * fx) ->
  on_ellipse dx dy fx fy s (radius_of dy) (/ 2) 0 /\ on_ellipse dx dy fx fy s (radius_of dy) (- / 2) 0.
Proof.
  rewrite shear_xr. intros Hs Fx Fy F0.
  assert (K : forall v, dy + fy * v = 0 -> dx + - s * (fy * v) = 0).
  { intros v Hv. replace (fy * v) with (- dy) by lra. destruct (Req_EM_T dy 0) as [E|E].
    - destruct (Req_EM_T dx 0); [|discriminate]. inversion Hs; subst. lra.
    - inversion Hs; subst. field. auto. }
  assert (V : exists v, / 2 / fx * (/ 2 / fx) + v * v = radius_of dy * radius_of dy /\ dy + fy * v = 0).
  { rewrite radius_sq. destruct (Req_EM_T fy 0) as [E|E].
    - destruct (F0 E) as [Dy F1]. subst dy fy. exists (sqrt ((1 - 1 / (fx * fx)) / 4)).
      assert (0 <= (1 - 1 / (fx * fx)) / 4). { assert (1 / (fx * fx) <= 1); [|lra]. apply (Rmult_le_reg_r (fx * fx)); [nra|]. unfold Rdiv. rewrite Rmult_assoc, Rinv_l by nra. lra. }
      rewrite sqrt_sqrt by auto. split; [field; auto|ring].
    - exists (- dy / fy). specialize (Fy E). split; [|field; auto].
      transitivity ((1 / (fx * fx) + 4 * (dy * dy) / (fy * fy)) / 4); [field; auto|]. rewrite Fy. reflexivity. }
  destruct V as (v & V1 & V2). assert (K' := K v V2). split.
  - exists (/ 2 / fx), v. split; [exact V1|]. split; [|lra]. replace (fx * (/ 2 / fx)) with (/ 2) by (field; auto). lra.
  - exists (- (/ 2 / fx)), v. split; [rewrite <- V1; ring|]. split; [|lra]. replace (fx * - (/ 2 / fx)) with (- / 2) by (field; auto). lra.
Qed.
Theorem contact_fx dx dy fx fy s : shear_at (XFin dx) (XFin dy) = XFin s -> determine_fx (XFin fy) (XFin dy) = XFin fx ->
  on_ellipse dx dy fx fy s (radius_of dy) (/ 2) 0 /\ on_ellipse dx dy fx fy s (radius_of dy) (- / 2) 0.
Proof.
  intros Hs H. destruct (fx_relation _ _ H) as (R1 & R2 & _ & R3).
  assert (fx <> 0) by (intros ->; assert (0 < fy * fy) by nra; lra). apply contact; auto; [|contradiction].
  intros _. apply (Rmult_eq_reg_r (fx * fx * (fy * fy))); [|nra]. field_simplify; auto. lra.
Qed.
Theorem contact_fy dx dy fx fy s : shear_at (XFin dx) (XFin dy) = XFin s -> determine_fy (XFin fx) (XFin dy) = XFin fy ->
  on_ellipse dx dy fx fy s (radius_of dy) (/ 2) 0 /\ on_ellipse dx dy fx fy s (radius_of dy) (- / 2) 0.
Proof.
  intros Hs H. destruct (fy_relation _ _ H) as (R1 & R2 & R3 & R4 & R5). apply contact; auto.
  - intros E. apply (Rmult_eq_reg_r (fx * fx * (fy * fy))); [|nra]. field_simplify; auto. lra.
  - intros ->. assert (D : dy = 0) by (destruct (Req_EM_T dy 0); auto; exfalso; apply Rlt_irrefl with 0; auto). split; auto. subst. destruct R3 as [R3|[_ ->]]; lra.
Qed.
(** the two functions are inverse to each other *)
Theorem fy_of_fx fy dy fx : dy <> 0 -> 0 < fy -> determine_fx (XFin fy) (XFin dy) = XFin fx -> determine_fy (XFin fx) (XFin dy) = XFin fy.
Proof.
  intros Hd Hf H. destruct (fx_relation _ _ H) as (R1 & R2 & R3 & _). specialize (R3 Hf). rewrite fy_xr. cbn zeta.
  destruct (Req_EM_T dy 0); [contradiction|].
  assert (Df : 0 < fx * fx * (1 + 4 * (dy * dy)) - 1).
  { assert (E : (fx * fx * (1 + 4 * (dy * dy)) - 1) * (fy * fy) = fx * fx * (4 * (dy * dy))) by lra. assert (0 < fx * fx * (4 * (dy * dy))) by (assert (0 < dy * dy) by nra; assert (0 < fx * fx) by nra; nra). assert (0 < fy * fy) by nra. nra. }
  destruct (Rle_dec _ 0); [lra|]. f_equal.
  replace (4 * (fx * fx) * (dy * dy) / (fx * fx * (1 + 4 * (dy * dy)) - 1)) with (fy * fy); [apply sqrt_square; lra|].
  apply (Rmult_eq_reg_r (fx * fx * (1 + 4 * (dy * dy)) - 1)); [|lra]. field_simplify; lra.
Qed.
Theorem fx_of_fy fx dy fy : dy <> 0 -> 0 < fx -> determine_fy (XFin fx) (XFin dy) = XFin fy -> determine_fx (XFin fy) (XFin dy) = XFin fx.
Proof.
  intros Hd Hf H. destruct (fy_relation _ _ H) as (R1 & R2 & R3 & _ & R5). specialize (R5 Hd). destruct R3 as [R3|[? _]]; [|contradiction]. rewrite fx_xr. cbn zeta.
  assert (Df : 0 < fy * fy * (1 + 4 * (dy * dy)) - 4 * (dy * dy)).
  { assert (E : (fy * fy * (1 + 4 * (dy * dy)) - 4 * (dy * dy)) * (fx * fx) = fy * fy) by lra. assert (0 < fy * fy) by nra. assert (0 < fx * fx) by nra. nra. }
  set (den := fy * fy * (1 + 4 * (dy * dy)) - 4 * (dy * dy)) in *. destruct (Rle_dec den 0); [lra|]. f_equal.
  assert (E : 1 / den = (fx / fy) * (fx / fy)). { apply (Rmult_eq_reg_r (den * (fy * fy))); [|assert (0 < fy * fy) by nra; nra].
    transitivity (fy * fy); [field; lra|]. transitivity (fx * fx * den); [unfold den; lra|field; lra]. }
  rewrite E, sqrt_square; [field; lra|]. left. apply Rdiv_lt_0_compat; auto.
Qed.
