(** Mirror images, gradients and the orbital scale. *)
From Coq Require Import ZArith Reals List Bool Lra Lia Psatz.
From Verif Require Import Num NumP Py XLibm Geometry SpecGeom GeomP.
Import ListNotations.
Set Implicit Arguments.
Local Open Scope R_scope.

(** *** negated shear *)
Lemma ratan2_neg y x : y <> 0 -> ratan2 (- y) x = - ratan2 y x.
Proof.
  intros Hy. unfold ratan2. assert (E : forall z, z <> 0 -> - y / z = - (y / z)) by (intros; field; auto).
  destruct (Rlt_dec 0 x); [rewrite E, atan_opp by lra; reflexivity|].
  destruct (Rlt_dec x 0); [rewrite E, atan_opp by lra; destruct (Rle_dec 0 (- y)), (Rle_dec 0 y); lra|].
  destruct (Rlt_dec 0 (- y)), (Rlt_dec 0 y); try lra; destruct (Rlt_dec y 0), (Rlt_dec (- y) 0); lra.
Qed.
Lemma shear_neq fx fy s : 0 < fx -> 0 < fy -> s <> 0 -> 2 * fx * fy * s <> 0.
Proof. intros A B C E. apply Rmult_integral in E. destruct E as [E|E]; [|contradiction]. assert (0 < fx * fy) by (apply Rmult_lt_0_compat; auto). lra. Qed.
Lemma sum_sq a b : a <> 0 \/ b <> 0 -> 0 < a * a + b * b.
Proof. intros [H|H]; nra. Qed.
Section M.
Variables fx fy s c : R.
Hypothesis Hx : 0 < fx.
Hypothesis Hy : 0 < fy.
Hypothesis Hc : 0 < c.
Lemma minor_neg : d_minor fx fy (- s) c = d_minor fx fy s c.
Proof.
  unfold d_minor. rewrite !r2_th1. replace (- s * - s) with (s * s) by ring. replace (2 * fx * fy * - s * (2 * fx * fy * - s)) with (2 * fx * fy * s * (2 * fx * fy * s)) by ring. reflexivity.
Qed.
Lemma major_neg : d_major fx fy (- s) c = d_major fx fy s c.
Proof.
  unfold d_major. rewrite !r2_th2. replace (- s * - s) with (s * s) by ring. replace (2 * fx * fy * - s * (2 * fx * fy * - s)) with (2 * fx * fy * s * (2 * fx * fy * s)) by ring. reflexivity.
Qed.
Lemma h_pos : s <> 0 \/ fx <> fy -> 0 < sqrt (((s * s + 1) * (fy * fy) - fx * fx) * ((s * s + 1) * (fy * fy) - fx * fx) + 2 * fx * fy * s * (2 * fx * fy * s)).
Proof.
  intros H. apply sqrt_lt_R0. destruct (Req_EM_T s 0) as [E|E].
  - destruct H as [H|H]; [contradiction|]. subst s. apply sum_sq. left. intros E. assert (E' : (fy - fx) * (fy + fx) = 0) by lra. apply Rmult_integral in E'. destruct E'; lra.
  - apply sum_sq. right. apply shear_neq; auto.
Qed.
Lemma strict : s <> 0 \/ fx <> fy -> d_minor fx fy s c < d_major fx fy s c.
Proof.
  intros H. assert (G := h_pos H). unfold d_minor, d_major. rewrite r2_th1, r2_th2. assert (Q := @A_gt fx fy s Hx Hy). assert (0 < c * c / 2) by nra.
  apply sqrt_lt_1_alt. split; [apply Rmult_le_pos; lra|]. apply Rmult_lt_compat_l; lra.
Qed.
Lemma phi_neg : s <> 0 -> phi fx fy (- s) c = - phi fx fy s c.
Proof.
  intros Hs. unfold phi.
  assert (N0 : 2 * fx * fy * s <> 0) by (apply shear_neq; auto).
  assert (Th : / 2 * ratan2 (2 * fx * fy * - s) ((- s * - s + 1) * (fy * fy) - fx * fx) = - (/ 2 * ratan2 (2 * fx * fy * s) ((s * s + 1) * (fy * fy) - fx * fx))).
  { replace (2 * fx * fy * - s) with (- (2 * fx * fy * s)) by ring. replace (- s * - s) with (s * s) by ring. rewrite ratan2_neg by auto. ring. }
  rewrite Th. set (th := / 2 * ratan2 (2 * fx * fy * s) ((s * s + 1) * (fy * fy) - fx * fx)) in *.
  assert (P1 : px fx fy (- s) c (- th) = px fx fy s c th) by (unfold px; rewrite cos_neg, sin_neg; ring).
  assert (P2 : py fy c (- th) = - py fy c th) by (unfold py; rewrite sin_neg; ring).
  rewrite P1, P2. apply ratan2_neg. intros E.
  destruct (two_th1 fx fy s) as [_ T2]. fold th in T2. rewrite sin_2a in T2.
  assert (S0 : sin th = 0). { unfold py in E. assert (fy * c <> 0) by nra. apply (Rmult_eq_reg_l (fy * c)); auto. lra. }
  rewrite S0 in T2. lra.
Qed.
End M.

Theorem disk_mirror fx fy s c r i t : 0 < fx -> 0 < fy -> 0 < c ->
  disk_parameters Libm_xr (XFin fx) (XFin fy) (XFin s) (XFin c) = (XFin r, XFin i, XFin t) ->
  exists t', disk_parameters Libm_xr (XFin fx) (XFin fy) (XFin (- s)) (XFin c) = (XFin r, XFin i, XFin t') /\
    (s <> 0 -> t' = 180 - t) /\ exists k : Z, t' = 180 - t + 180 * IZR k.
Proof.
  intros Hx Hy Hc. rewrite !disk_xr by auto. rewrite minor_neg, major_neg. intros H. inversion H; subst r i t. clear H. eexists. split; [reflexivity|].
  assert (Pp := PI_RGT_0). destruct (Req_EM_T s 0) as [E|E].
  - split; [contradiction|]. subst s. replace (- 0) with 0 by ring.
    assert (Q : phi fx fy 0 c + quarter fx fy 0 c = 0 \/ phi fx fy 0 c + quarter fx fy 0 c = PI / 2 \/ phi fx fy 0 c + quarter fx fy 0 c = PI).
    { destruct (Rlt_dec fy fx) as [F|F].
      - right; right. assert (Q : quarter fx fy 0 c = PI / 2). { unfold quarter. destruct (Rlt_dec _ _) as [|G]; auto. exfalso. apply G. apply strict; auto. right. lra. }
        assert (A0 : ratan2 (2 * fx * fy * 0) ((0 * 0 + 1) * (fy * fy) - fx * fx) = PI).
        { unfold ratan2. replace (2 * fx * fy * 0) with 0 by ring. destruct (Rlt_dec 0 _); [nra|]. destruct (Rlt_dec _ 0); [|nra]. destruct (Rle_dec 0 0); [|lra]. unfold Rdiv. rewrite Rmult_0_l, atan_0. ring. }
        rewrite Q. unfold phi. rewrite A0. unfold px, py. replace (/ 2 * PI) with (PI / 2) by field. rewrite cos_PI2, sin_PI2.
        unfold ratan2. destruct (Rlt_dec 0 (fx * (c * 0) - 0 * (fy * (c * 1)))); [lra|]. destruct (Rlt_dec (fx * (c * 0) - 0 * (fy * (c * 1))) 0); [lra|]. destruct (Rlt_dec 0 (fy * (c * 1))); [lra|nra].
      - assert (A0 : ratan2 (2 * fx * fy * 0) ((0 * 0 + 1) * (fy * fy) - fx * fx) = 0).
        { unfold ratan2. replace (2 * fx * fy * 0) with 0 by ring. destruct (Rlt_dec 0 _); [unfold Rdiv; rewrite Rmult_0_l; apply atan_0|]. destruct (Rlt_dec _ 0); [nra|]. destruct (Rlt_dec 0 0); [lra|]. reflexivity. }
        assert (P0 : phi fx fy 0 c = 0).
        { unfold phi. rewrite A0. unfold px, py. rewrite Rmult_0_r, cos_0, sin_0. unfold ratan2. assert (0 < fx * c) by nra. destruct (Rlt_dec 0 _) as [|G]; [|exfalso; apply G; lra].
          replace (fy * (c * 0)) with 0 by ring. unfold Rdiv. rewrite Rmult_0_l. apply atan_0. }
        rewrite P0. unfold quarter. destruct (Rlt_dec _ _); lra. }
    destruct Q as [Q|[Q|Q]]; rewrite Q; [exists (-1)%Z|exists 0%Z|exists 1%Z]; field; lra.
  - rewrite phi_neg by auto. assert (G := @strict fx fy s c Hx Hy Hc (or_introl E)).
    assert (Q1 : quarter fx fy s c = PI / 2) by (unfold quarter; destruct (Rlt_dec _ _); [reflexivity|contradiction]).
    assert (Q2 : quarter fx fy (- s) c = PI / 2) by (unfold quarter; rewrite minor_neg, major_neg; destruct (Rlt_dec _ _); [reflexivity|contradiction]).
    rewrite Q1, Q2. assert (X : (- phi fx fy s c + PI / 2) * (180 / PI) = 180 - (phi fx fy s c + PI / 2) * (180 / PI)) by (field; lra).
    split; [intros _; exact X|]. exists 0%Z. rewrite X. ring.
Qed.
(** the shear and the scale factors of mirrored grid points *)
Lemma shear_mirror dx dy s : shear_at (XFin dx) (XFin dy) = XFin s ->
  shear_at (XFin (- dx)) (XFin dy) = XFin (- s) /\ shear_at (XFin dx) (XFin (- dy)) = XFin (- s) /\ shear_at (XFin (- dx)) (XFin (- dy)) = XFin s.
Proof.
  rewrite !shear_xr. destruct (Req_EM_T dy 0) as [->|E].
  - destruct (Req_EM_T dx 0) as [->|]; [|discriminate]. intros H; inversion H; subst s. rewrite Ropp_0.
    destruct (Req_EM_T 0 0); [auto|contradiction].
  - intros H; inversion H; subst s. destruct (Req_EM_T (- dy) 0); [lra|]. split; [f_equal; field; auto|]. split; f_equal; field; auto.
Qed.
Lemma fx_mirror fy dy : determine_fx (XFin fy) (XFin (- dy)) = determine_fx (XFin fy) (XFin dy).
Proof. rewrite !fx_xr. replace (- dy * - dy) with (dy * dy) by ring. reflexivity. Qed.
Lemma radius_mirror dy : circular_radius Libm_xr (XFin (- dy)) = circular_radius Libm_xr (XFin dy).
Proof. rewrite !radius_xr. unfold radius_of. replace (- dy * - dy) with (dy * dy) by ring. reflexivity. Qed.

(** *** C38 *)
Lemma sin_atan_abs t : Rabs (sin (atan t)) = Rabs t / sqrt (1 + t * t) /\ 0 <= Rabs (sin (atan t)) < 1.
Proof.
  assert (E : sin (atan t) = t / sqrt (1 + t * t)) by (rewrite sin_atan; reflexivity). assert (K : 0 < 1 + t * t) by nra.
  assert (S := sqrt_lt_R0 _ K). assert (SS := sqrt_sqrt _ (Rlt_le _ _ K)).
  assert (A : Rabs (sin (atan t)) = Rabs t / sqrt (1 + t * t)).
  { rewrite E. unfold Rdiv. rewrite Rabs_mult. f_equal. apply Rabs_right. left. apply Rinv_0_lt_compat; auto. }
  split; auto. split; [apply Rabs_pos|]. rewrite A. apply (Rmult_lt_reg_r (sqrt (1 + t * t))); auto. unfold Rdiv. rewrite Rmult_assoc, Rinv_l by lra.
  rewrite Rmult_1_l, Rmult_1_r. assert (Rabs t * Rabs t = t * t) by (rewrite <- Rabs_mult; apply Rabs_right; nra). assert (0 <= Rabs t) by apply Rabs_pos. nra.
Qed.
Lemma gradient_xr p dx dy s fx fy : gradient_at Libm_xr (XFin p) (XFin dx) (XFin dy) (XFin s) (XFin fx) (XFin fy) =
  let x := p - dx in let y := - dy in
  let den := (s * s * (fy * fy) + fx * fx) * y + s * (fy * fy) * x in
  let num := - s * (fy * fy) * y - fy * fy * x in
  if Req_EM_T den 0 then XNaN else XFin (Rabs (sin (atan (num / den)))).
Proof.
  cbn zeta. unfold gradient_at, n_sq, n_zero, n_one. cbn [n_sub n_neg n_mul n_add n_eq n_ofZ Num_xr x_sub x_neg x_mul x_add x_eq n_div n_nan].
  destruct (Req_EM_T _ 0) as [E|E]; cbn [negb]; [reflexivity|]. rewrite xdiv by auto. cbn [m_atan2 Libm_xr x_atan2 m_sin xmap n_abs Num_xr x_abs].
  f_equal. f_equal. f_equal. unfold ratan2. destruct (Rlt_dec 0 1); [|lra]. f_equal. unfold Rdiv at 1. rewrite Rinv_1, Rmult_1_r. reflexivity.
Qed.
(** the derivative of the concentric ellipse *)
Lemma curve_derivative fx fy s k th :
  derivable_pt_lim (curve_x fx fy s k) th (k * (- fx * sin th - s * (fy * cos th))) /\
  derivable_pt_lim (curve_y fy k) th (k * (fy * cos th)).
Proof.
  assert (C := derivable_pt_lim_cos th). assert (S := derivable_pt_lim_sin th). split.
  - apply derivable_pt_lim_scal. replace (- fx * sin th - s * (fy * cos th)) with (fx * - sin th - s * (fy * cos th)) by ring.
    apply (derivable_pt_lim_minus (fun th => fx * cos th) (fun th => s * (fy * sin th))).
    + apply (derivable_pt_lim_scal cos); auto.
    + apply (derivable_pt_lim_scal (fun th => fy * sin th)). apply (derivable_pt_lim_scal sin); auto.
  - apply derivable_pt_lim_scal. apply (derivable_pt_lim_scal sin); auto.
Qed.
(** the gradient at (p, 0): the sine of the angle of the tangent (vx, vy) *)
Theorem gradient_tangent p dx dy s fx fy k th vx vy : fx <> 0 -> fy <> 0 -> k <> 0 ->
  dx + curve_x fx fy s k th = p -> dy + curve_y fy k th = 0 ->
  derivable_pt_lim (curve_x fx fy s k) th vx -> derivable_pt_lim (curve_y fy k) th vy ->
  (vx <> 0 -> gradient_at Libm_xr (XFin p) (XFin dx) (XFin dy) (XFin s) (XFin fx) (XFin fy) = XFin (Rabs vy / sqrt (vx * vx + vy * vy))) /\
  (vx = 0 -> gradient_at Libm_xr (XFin p) (XFin dx) (XFin dy) (XFin s) (XFin fx) (XFin fy) = XNaN).
Proof.
  intros Fx Fy Fk Hp Hd Dx Dy. destruct (curve_derivative fx fy s k th) as [Cx Cy].
  assert (Ex := uniqueness_limite _ _ _ _ Dx Cx). assert (Ey := uniqueness_limite _ _ _ _ Dy Cy).
  rewrite gradient_xr. cbn zeta. unfold curve_x, curve_y in *.
  assert (X : p - dx = k * (fx * cos th - s * (fy * sin th))) by lra. assert (Y : - dy = k * (fy * sin th)) by lra. rewrite X, Y.
  set (den := (s * s * (fy * fy) + fx * fx) * (k * (fy * sin th)) + s * (fy * fy) * (k * (fx * cos th - s * (fy * sin th)))).
  set (num := - s * (fy * fy) * (k * (fy * sin th)) - fy * fy * (k * (fx * cos th - s * (fy * sin th)))).
  assert (Dn : den = - (fx * fy) * vx) by (rewrite Ex; unfold den; ring). assert (Nm : num = - (fx * fy) * vy) by (rewrite Ey; unfold num; ring).
  assert (Q : - (fx * fy) <> 0) by (apply Ropp_neq_0_compat, Rmult_integral_contrapositive; auto).
  split; intros Hv.
  - destruct (Req_EM_T den 0) as [E|E]; [exfalso; rewrite Dn in E; apply Rmult_integral in E; tauto|]. f_equal.
    destruct (sin_atan_abs (num / den)) as [-> _]. assert (T : num / den = vy / vx) by (rewrite Dn, Nm; field; auto). rewrite T.
    assert (V : 0 < vx * vx) by nra.
    replace (vx * vx + vy * vy) with ((vx * vx) * (1 + vy / vx * (vy / vx))) by (field; auto). rewrite sqrt_mult by nra.
    assert (S : 0 < sqrt (1 + vy / vx * (vy / vx))) by (apply sqrt_lt_R0; nra).
    replace (sqrt (vx * vx)) with (Rabs vx) by (symmetry; apply sqrt_Rsqr_abs). assert (Ra : Rabs (vy / vx) = Rabs vy / Rabs vx) by (unfold Rdiv; rewrite Rabs_mult, Rabs_inv; reflexivity). rewrite Ra. assert (Rabs vx <> 0) by (apply Rabs_no_R0; auto). field. split; lra.
  - destruct (Req_EM_T den 0) as [E|E]; [reflexivity|]. exfalso. apply E. rewrite Dn, Hv. ring.
Qed.
(** such a concentric ellipse exists: every point (p, 0) other than the centre lies on one *)
Lemma concentric p dx dy s fx fy : 0 < fx -> 0 < fy -> (p <> dx \/ dy <> 0) ->
  exists k th, 0 < k /\ dx + curve_x fx fy s k th = p /\ dy + curve_y fy k th = 0.
Proof.
  intros Fx Fy H. set (v := - dy / fy). set (u := (p - dx + s * (fy * v)) / fx). set (k := sqrt (u * u + v * v)).
  destruct (polar u v) as [P Q]. fold k in P, Q. exists k, (ratan2 v u). split; [|split].
  - apply sqrt_lt_R0. destruct (Req_EM_T v 0) as [E|E]; [|nra]. assert (D : dy = 0) by (replace dy with (- (v * fy)) by (unfold v; field; lra); rewrite E; ring).
    assert (u <> 0); [|nra]. unfold u. rewrite E. intros U. assert (p - dx + s * (fy * 0) = 0); [|lra]. apply (Rmult_eq_reg_r (/ fx)); [rewrite Rmult_0_l; exact U|apply Rinv_neq_0_compat; lra].
  - unfold curve_x. replace (k * (fx * cos (ratan2 v u) - s * (fy * sin (ratan2 v u)))) with (fx * (k * cos (ratan2 v u)) - s * (fy * (k * sin (ratan2 v u)))) by ring. rewrite <- P, <- Q. unfold u. field. lra.
  - unfold curve_y. replace (k * (fy * sin (ratan2 v u))) with (fy * (k * sin (ratan2 v u))) by ring. rewrite <- Q. unfold v. field. lra.
Qed.
(** for all inputs, finite or not: a number in [0, 1), or NaN, or (infinite tangent) 1 *)
Theorem gradient_range (p dx dy s fx fy : R) g : gradient_at Libm_xr (XFin p) (XFin dx) (XFin dy) (XFin s) (XFin fx) (XFin fy) = g ->
  g = XNaN \/ exists r, g = XFin r /\ 0 <= r < 1.
Proof. intros <-. rewrite gradient_xr. cbn zeta. destruct (Req_EM_T _ 0); auto. right. eexists. split; [reflexivity|]. apply sin_atan_abs. Qed.
Theorem gradient_nan (p dx dy s fx fy : R) :
  gradient_at Libm_xr (XFin p) (XFin dx) (XFin dy) (XFin s) (XFin fx) (XFin fy) = XNaN <->
  (s * s * (fy * fy) + fx * fx) * - dy + s * (fy * fy) * (p - dx) = 0.
Proof. rewrite gradient_xr. cbn zeta. destruct (Req_EM_T _ 0) as [E|E]; split; auto; [discriminate|contradiction]. Qed.

(** with the shear of the grid point the tangent simplifies *)
Theorem gradient_formula (p dx dy fx fy : R) : dy <> 0 ->
  let s := - dx / dy in
  gradient_at Libm_xr (XFin p) (XFin dx) (XFin dy) (XFin s) (XFin fx) (XFin fy) =
  if Req_EM_T (s * (fy * fy) * p - fx * fx * dy) 0 then XNaN
  else XFin (Rabs (sin (atan (- (fy * fy) * p / (s * (fy * fy) * p - fx * fx * dy))))).
Proof.
  intros Hd. cbn zeta. rewrite gradient_xr. cbn zeta.
  replace ((- dx / dy * (- dx / dy) * (fy * fy) + fx * fx) * - dy + - dx / dy * (fy * fy) * (p - dx)) with (- dx / dy * (fy * fy) * p - fx * fx * dy) by (field; auto).
  replace (- (- dx / dy) * (fy * fy) * - dy - fy * fy * (p - dx)) with (- (fy * fy) * p) by (field; auto). reflexivity.
Qed.

(** *** C39 *)
Lemma orbital_xr u v : 0 <= u <= 1 -> v <> 0 ->
  orbital_scale_of Libm_xr (XFin u) (XFin v) = XFin ((6 - 2 * u) / (12 - 12 * u + 3 * PI * u) * (PI / v)).
Proof.
  intros Hu Hv. unfold orbital_scale_of, num2. cbn [n_sub n_mul n_add n_div n_ofZ Num_xr x_sub x_mul x_add m_pi Libm_xr].
  assert (Pp := PI_RGT_0). assert (12 - 12 * u + 3 * PI * u <> 0) by nra. rewrite !xdiv by auto. reflexivity.
Qed.
Theorem orbital_positive u v : 0 <= u <= 1 -> 0 < v -> exists r, orbital_scale_of Libm_xr (XFin u) (XFin v) = XFin r /\ 0 < r.
Proof.
  intros Hu Hv. rewrite orbital_xr by lra. eexists. split; [reflexivity|]. assert (Pp := PI_RGT_0).
  apply Rmult_lt_0_compat; apply Rdiv_lt_0_compat; nra.
Qed.
Theorem orbital_decreasing u v w r q : 0 <= u <= 1 -> 0 < v -> v < w ->
  orbital_scale_of Libm_xr (XFin u) (XFin v) = XFin r -> orbital_scale_of Libm_xr (XFin u) (XFin w) = XFin q -> q < r.
Proof.
  intros Hu Hv Hw. rewrite !orbital_xr by lra. intros E1 E2. inversion E1; inversion E2; subst. assert (Pp := PI_RGT_0).
  apply Rmult_lt_compat_l; [apply Rdiv_lt_0_compat; nra|]. apply Rmult_lt_compat_l; auto. apply Rinv_lt_contravar; nra.
Qed.
(** it decreases with the limb darkening *)
Theorem orbital_limb u w v r q : 0 <= u -> u < w -> w <= 1 -> 0 < v ->
  orbital_scale_of Libm_xr (XFin u) (XFin v) = XFin r -> orbital_scale_of Libm_xr (XFin w) (XFin v) = XFin q -> q < r.
Proof.
  intros H0 Hw H1 Hv. rewrite !orbital_xr by lra. intros E1 E2. inversion E1; inversion E2; subst. assert (Pp := PI_RGT_0). assert (P4 := PI_4).
  apply Rmult_lt_compat_r; [apply Rdiv_lt_0_compat; lra|].
  assert (A : 0 < 12 - 12 * u + 3 * PI * u) by nra. assert (B : 0 < 12 - 12 * w + 3 * PI * w) by nra.
  apply (Rmult_lt_reg_r ((12 - 12 * u + 3 * PI * u) * (12 - 12 * w + 3 * PI * w))); [nra|].
  replace ((6 - 2 * u) / (12 - 12 * u + 3 * PI * u) * ((12 - 12 * u + 3 * PI * u) * (12 - 12 * w + 3 * PI * w))) with ((6 - 2 * u) * (12 - 12 * w + 3 * PI * w)) by (field; lra).
  replace ((6 - 2 * w) / (12 - 12 * w + 3 * PI * w) * ((12 - 12 * u + 3 * PI * u) * (12 - 12 * w + 3 * PI * w))) with ((6 - 2 * w) * (12 - 12 * u + 3 * PI * u)) by (field; lra).
  assert (E : (6 - 2 * w) * (12 - 12 * u + 3 * PI * u) - (6 - 2 * u) * (12 - 12 * w + 3 * PI * w) = (w - u) * (48 - 18 * PI)) by ring.
  assert (P3 := PI2_3_2). assert ((w - u) * (48 - 18 * PI) < 0) by nra. lra.
Qed.

(** *** witnesses *)
Lemma wide_ellipse : largest_distance 2 1 0 1 2 /\ smallest_distance 2 1 0 1 1.
Proof.
  unfold largest_distance, smallest_distance, on_ellipse, dist. repeat setoid_rewrite Rminus_0_r.
  assert (S2 : sqrt (2 * 2) = 2) by (apply sqrt_square; lra). assert (S1 : sqrt (1 * 1) = 1) by (apply sqrt_square; lra).
  split; split.
  - exists 2, 0. split; [exists 1, 0; repeat split; ring|]. transitivity (sqrt (2 * 2)); [f_equal; ring|exact S2].
  - intros x y (u & v & E & -> & ->). apply Rle_trans with (sqrt (2 * 2)); [apply sqrt_le_1_alt; nra|lra].
  - exists 0, 1. split; [exists 0, 1; repeat split; ring|]. transitivity (sqrt (1 * 1)); [f_equal; ring|exact S1].
  - intros x y (u & v & E & -> & ->). apply Rle_trans with (sqrt (1 * 1)); [lra|apply sqrt_le_1_alt; nra].
Qed.
(** the circle of radius 1 about (-1, 0) touches the vertical through (0, 0) *)
Lemma vertical_nan : exists p dx dy fx fy k th vy,
  fx > 0 /\ fy > 0 /\ k > 0 /\ dx + curve_x fx fy 0 k th = p /\ dy + curve_y fy k th = 0 /\
  derivable_pt_lim (curve_x fx fy 0 k) th 0 /\ derivable_pt_lim (curve_y fy k) th vy /\ vy <> 0 /\
  gradient_at Libm_xr (XFin p) (XFin dx) (XFin dy) (XFin 0) (XFin fx) (XFin fy) = XNaN.
Proof.
  exists 0, (-1), 0, 1, 1, 1, 0, 1. destruct (curve_derivative 1 1 0 1 0) as [A B]. rewrite sin_0, cos_0 in A. rewrite cos_0 in B.
  replace (1 * (- (1) * 0 - 0 * (1 * 1))) with 0 in A by ring. replace (1 * (1 * 1)) with 1 in B by ring.
  split; [lra|]. split; [lra|]. split; [lra|]. split; [unfold curve_x; rewrite cos_0, sin_0; ring|]. split; [unfold curve_y; rewrite sin_0; ring|].
  split; [exact A|]. split; [exact B|]. split; [lra|]. apply gradient_nan. ring.
Qed.
