(** The edge of a disk computed in binary64 follows the ellipse. *)
From Coq Require Import ZArith Reals Lra Lia Bool.
From Flocq Require Import Core BinarySingleNaN.
From Verif Require Import Num NumP XLibm Geometry SpecGeom SpecF64 SpecEdge Round64P GeomP GeomMoreP EdgeP DiskErrP DiskF64P DiskF64ExP EdgeErrP.
Local Open Scope R_scope.
Set Implicit Arguments.

Section Identities.
Variables fx fy s c : R.
Hypotheses (Hx : 0 < fx) (Hy : 0 < fy) (Hc : 0 < c).
Let A := fx * fx + (s * s + 1) * (fy * fy).
Let D := (s * s + 1) * (fy * fy) - fx * fx.
Let N := 2 * fx * fy * s.
Lemma quarter_x th : px fx fy s c (th + PI / 2) = - (fx * (c * sin th)) - s * (fy * (c * cos th)).
Proof. unfold px. rewrite cos_plus, sin_plus, cos_PI2, sin_PI2. ring. Qed.
Lemma quarter_y th : py fy c (th + PI / 2) = fy * (c * cos th).
Proof. unfold py. rewrite sin_plus, cos_PI2, sin_PI2. ring. Qed.
Lemma conjugate th : px fx fy s c th * px fx fy s c (th + PI / 2) + py fy c th * py fy c (th + PI / 2) = c * c / 2 * (D * sin (2 * th) - N * cos (2 * th)).
Proof.
  rewrite quarter_x, quarter_y, sin_2a, cos_2a. unfold px, py, D, N. field.
Qed.
Lemma area th : px fx fy s c th * py fy c (th + PI / 2) - py fy c th * px fx fy s c (th + PI / 2) = c * c * (fx * fy).
Proof.
  rewrite quarter_x, quarter_y. unfold px, py. assert (S := sin2_cos2 th). unfold Rsqr in S.
  transitivity (c * c * (fx * fy) * (sin th * sin th + cos th * cos th)); [ring|rewrite S; ring].
Qed.
Lemma axes_area : d_major fx fy s c * d_minor fx fy s c = c * c * (fx * fy).
Proof.
  assert (RS := R_sq fx s Hy Hc). assert (MS := m_sq s Hx Hy Hc). assert (HS := h_sq fx fy s). assert (PR := R_pos s Hx Hy Hc). assert (PM := m_pos s Hx Hy Hc).
  apply Rsqr_inj; [nra|apply Rmult_le_pos; [nra|nra]|]. unfold Rsqr.
  replace (d_major fx fy s c * d_minor fx fy s c * (d_major fx fy s c * d_minor fx fy s c)) with (d_major fx fy s c * d_major fx fy s c * (d_minor fx fy s c * d_minor fx fy s c)) by ring.
  rewrite RS, MS. set (h := sqrt _) in *.
  transitivity (c * c * (c * c) / 4 * ((fx * fx + (s * s + 1) * (fy * fy)) * (fx * fx + (s * s + 1) * (fy * fy)) - h * h)); [field|]. rewrite HS. field.
Qed.
Lemma turn_x a u : px fx fy s c (a + u) = cos u * px fx fy s c a + sin u * px fx fy s c (a + PI / 2).
Proof. rewrite quarter_x. unfold px. rewrite cos_plus, sin_plus. ring. Qed.
Lemma turn_y a u : py fy c (a + u) = cos u * py fy c a + sin u * py fy c (a + PI / 2).
Proof. rewrite quarter_y. unfold py. rewrite sin_plus. ring. Qed.
Lemma back_x a u : px fx fy s c (a + PI / 2 + u) = cos u * px fx fy s c (a + PI / 2) - sin u * px fx fy s c a.
Proof. rewrite turn_x, (quarter_x (a + PI / 2)). unfold px. rewrite !cos_plus, !sin_plus, cos_PI2, sin_PI2. ring. Qed.
Lemma back_y a u : py fy c (a + PI / 2 + u) = cos u * py fy c (a + PI / 2) - sin u * py fy c a.
Proof. rewrite turn_y, (quarter_y (a + PI / 2)). unfold py. rewrite !cos_plus, !sin_plus, cos_PI2, sin_PI2. ring. Qed.
Lemma ellipse_angle dx dy x y : on_ellipse dx dy fx fy s c x y <-> exists th, x = dx + px fx fy s c th /\ y = dy + py fy c th.
Proof. rewrite on_ellipse_shift, ell_angle by auto. split; intros (th & E & F); exists th; split; lra. Qed.
Lemma ellipse_size th : Rabs (px fx fy s c th) <= d_major fx fy s c /\ Rabs (py fy c th) <= d_major fx fy s c.
Proof.
  assert (Q : r2 fx fy s c th <= d_major fx fy s c * d_major fx fy s c).
  { unfold d_major. rewrite sqrt_sqrt; [apply (r2_bounds fx fy s Hc)|]. apply Rlt_le. rewrite r2_th2. assert (A1 := A_gt s Hx Hy). assert (A2 := sqrt_pos (((s * s + 1) * (fy * fy) - fx * fx) * ((s * s + 1) * (fy * fy) - fx * fx) + 2 * fx * fy * s * (2 * fx * fy * s))). apply Rmult_lt_0_compat; [nra|]. lra. }
  unfold r2 in Q. assert (PR := R_pos s Hx Hy Hc). assert (S1 := sq_ge (px fx fy s c th)). assert (S2 := sq_ge (py fy c th)).
  split; apply Rabs_le; (split; apply Rnot_lt_le; intros L; nra).
Qed.
Lemma conjugate_small Dh Nh hh al e th : 0 < e <= / 1000000 -> 0 <= hh -> Dh = hh * cos al -> Nh = hh * sin al ->
  (Dh - D) * (Dh - D) + (Nh - N) * (Nh - N) <= 5 * e * A * (5 * e * A) -> Rabs (th - al / 2) <= 3 * e ->
  Rabs (px fx fy s c th * px fx fy s c (th + PI / 2) + py fy c th * py fy c (th + PI / 2)) <= 12 * e * (d_major fx fy s c * d_major fx fy s c).
Proof.
  intros He Hhh P1 P2 HE Ht. rewrite conjugate. assert (PA : 0 < A) by exact (A_pos fx s Hy). assert (HA : 0 <= 5 * e * A) by nra.
  assert (LN := @length_near D N Dh Nh (sqrt (D * D + N * N)) hh al (5 * e * A) (sqrt_pos _) Hhh HA (h_sq fx fy s) P1 P2 HE).
  assert (Hb : sqrt (D * D + N * N) < A) by exact (A_gt s Hx Hy).
  assert (RS := R_sq fx s Hy Hc). fold A D N in RS. assert (H0 := sqrt_pos (D * D + N * N)). set (h := sqrt (D * D + N * N)) in *.
  set (x := 2 * th). set (de := x - al). assert (Hde : Rabs de <= 6 * e) by (unfold de, x; apply Rabs_le_inv in Ht; apply Rabs_le; lra).
  assert (E : D * sin x - N * cos x = hh * sin de + ((D - Dh) * sin x - (N - Nh) * cos x)).
  { assert (Dh * sin x - Nh * cos x = hh * sin de) by (rewrite P1, P2; unfold de; rewrite sin_minus; ring). lra. }
  assert (B1 : Rabs (hh * sin de) <= 61 / 10 * (e * A)).
  { assert (Hs := Rle_trans _ _ _ (abs_sin_le de) Hde). assert (Hh : Rabs hh <= 101 / 100 * A) by (rewrite Rabs_pos_eq by auto; nra).
    apply Rle_trans with (1 := abs_mul_le Hh Hs). nra. }
  assert (U := unit_le x).
  assert (B2 : Rabs ((D - Dh) * sin x - (N - Nh) * cos x) <= 5 * e * A).
  { assert (I1 := @inner_le (D - Dh) (N - Nh) (sin x) (- cos x) (5 * e * A) 1 HA ltac:(lra) ltac:(lra) ltac:(lra)).
    assert (I2 := @inner_le (D - Dh) (N - Nh) (- sin x) (cos x) (5 * e * A) 1 HA ltac:(lra) ltac:(lra) ltac:(lra)). apply Rabs_le. lra. }
  assert (B3 := abs_sum B1 B2). rewrite <- E in B3. rewrite RS. rewrite Rabs_mult, (Rabs_pos_eq (c * c / 2)) by nra.
  apply Rle_trans with (c * c / 2 * (12 * (e * A))); [apply Rmult_le_compat_l; [nra|]; assert (0 < e * A) by nra; lra|].
  replace (12 * e * (c * c / 2 * (A + h))) with (c * c / 2 * (12 * (e * (A + h)))) by field. apply Rmult_le_compat_l; [nra|]. nra.
Qed.
End Identities.

Lemma edge_size r i t R th : Rabs r <= 101 / 100 * R ->
  Rabs (r * cos th * cos (degrees t) - r * cos (degrees i) * sin th * sin (degrees t)) <= 203 / 100 * R /\
  Rabs (r * cos th * sin (degrees t) + r * cos (degrees i) * sin th * cos (degrees t)) <= 203 / 100 * R.
Proof.
  intros H. destruct (unit_abs th) as [Ct St]. destruct (unit_abs (degrees t)) as [CT ST]. destruct (unit_abs (degrees i)) as [Ci _].
  assert (P := Rabs_pos r). split.
  - assert (M1 := abs_mul_le (abs_mul_le H Ct) CT). assert (M2 := abs_mul_le (abs_mul_le (abs_mul_le H Ci) St) ST). rewrite <- Rabs_Ropp in M2. apply Rle_trans with (1 := abs_sum M1 M2). lra.
  - assert (M1 := abs_mul_le (abs_mul_le H Ct) ST). assert (M2 := abs_mul_le (abs_mul_le (abs_mul_le H Ci) St) CT). apply Rle_trans with (1 := abs_sum M1 M2). lra.
Qed.

(** matching a point of the edge with one of the ellipse, and back *)
Lemma matched fx fy s c r i t k dx dy (shift : R) : 0 < c ->
  (forall th, Rabs (r * cos th * cos (degrees t) - r * cos (degrees i) * sin th * sin (degrees t) - px fx fy s c (shift + th)) <= k /\
              Rabs (r * cos th * sin (degrees t) + r * cos (degrees i) * sin th * cos (degrees t) - py fy c (shift + th)) <= k) ->
  edge_within (3 / 2 * k) dx dy fx fy s c r i t.
Proof.
  intros Hc H. split.
  - intros x y (th & -> & ->). destruct (H th) as [X Y]. exists (dx + px fx fy s c (shift + th)), (dy + py fy c (shift + th)). split.
    + apply ellipse_angle; auto. eauto.
    + apply dist_le; [rewrite Rabs_minus_sym in X; eapply Rle_trans; [|exact X]; right; f_equal; ring|rewrite Rabs_minus_sym in Y; eapply Rle_trans; [|exact Y]; right; f_equal; ring].
  - intros x y E. apply ellipse_angle in E; auto. destruct E as (a & -> & ->). destruct (H (a - shift)) as [X Y]. replace (shift + (a - shift)) with a in X, Y by ring.
    eexists _, _. split; [exists (a - shift); split; reflexivity|].
    apply dist_le; [eapply Rle_trans; [|exact X]|eapply Rle_trans; [|exact Y]]; right; f_equal; ring.
Qed.

Theorem edge64 (L : Libm f64) e (fxv fyv sv cv : f64) fx fy s c : accurate L e -> bpow radix2 (-52) <= e <= / 1000000 ->
  f64_val fxv = XFin fx -> f64_val fyv = XFin fy -> f64_val sv = XFin s -> f64_val cv = XFin c ->
  0 < fx -> 0 < fy -> 0 < c -> ordinary fx -> ordinary fy -> loose s -> ordinary c ->
  exists rv iv tv r i t R m, disk_parameters L fxv fyv sv cv = (rv, iv, tv) /\
    f64_val rv = XFin r /\ f64_val iv = XFin i /\ f64_val tv = XFin t /\
    largest_distance fx fy s c R /\ smallest_distance fx fy s c m /\ 0 < m <= R /\ Rabs (r - R) <= 22 * e * R /\ Rabs t <= 400 /\
    forall dx dy, edge_within (525 * e * (R * R) / m) dx dy fx fy s c r i t.
Proof.
  intros Acc [E1 E2] Vx Vy Vs Vc Px Py Pc Ox Oy Os Oc. rewrite <- two_ulp in E1. assert (U := ulp1_pos).
  destruct (@disk64_vertex L e Acc E1 E2 fxv fyv sv cv fx fy s c Vx Vy Vs Vc Px Py Pc Ox Oy Os Oc)
    as (rv & iv & tv & r & i & t & G & G1 & G2 & G3 & G4 & G5 & al & hh & Dh & Nh & t1 & x1 & y1 & be & Phh & P1 & P2 & HE & Ht1 & HZ & D1 & D2 & Hbe & HT & _).
  assert (He : 0 < e <= / 1000000) by lra.
  assert (PM := m_pos s Px Py Pc). assert (ML := minor_le fx fy s Pc). assert (PR := R_pos s Px Py Pc).
  assert (AA := axes_area s Px Py Pc).
  assert (CS := @conjugate_small fx fy s c Px Py Pc Dh Nh hh al e t1 He Phh P1 P2 HE Ht1).
  assert (VS := vector_size s Px Py Pc).
  assert (VN := @vector_near fx fy s c Px Py Pc e He t1 x1 y1 HZ).
  assert (Ht1' := Rabs_le_inv _ _ Ht1).
  assert (N1 := @minor_near fx fy s c Px Py Pc Dh Nh hh al e He Phh P1 P2 HE t1 (2 * t1 - al) ltac:(ring) ltac:(apply Rabs_le; lra)).
  assert (N2 := @major_near fx fy s c Px Py Pc Dh Nh hh al e He Phh P1 P2 HE (t1 + PI / 2) (2 * t1 - al) ltac:(field) ltac:(apply Rabs_le; lra)).
  exists rv, iv, tv, r, i, t, (d_major fx fy s c), (d_minor fx fy s c).
  split; [exact G|]. split; [exact G1|]. split; [exact G2|]. split; [exact G3|]. split; [exact (@major_largest fx fy s c Pc)|]. split; [exact (@minor_smallest fx fy s c Pc)|]. split; [lra|]. split; [exact G4|].
  set (R := d_major fx fy s c) in *. set (m := d_minor fx fy s c) in *.
  split.
  { assert (PB := PI_bounds). apply Rabs_le_inv in Hbe. assert (T6 : Rabs (degrees t) <= 6) by (destruct HT as [HT|[HT _]]; apply Rabs_le_inv in HT; apply Rabs_le; lra).
    replace t with (degrees t * (180 / PI)) by (unfold degrees; field; lra).
    assert (T7 : Rabs (180 / PI) <= 60). { rewrite Rabs_pos_eq; [|apply Rlt_le, Rdiv_lt_0_compat; lra]. apply Rmult_le_reg_r with PI; [lra|]. unfold Rdiv. rewrite Rmult_assoc, Rinv_l by lra. lra. }
    apply Rle_trans with (1 := abs_mul_le T6 T7). lra. }
  intros dx dy.
  assert (Rr : Rabs r <= 101 / 100 * R). { assert (0 < e * R <= / 1000000 * R) by (split; [apply Rmult_lt_0_compat; lra|apply Rmult_le_compat_r; lra]). apply Rabs_le_inv in G4. apply Rabs_le. lra. }
  replace (525 * e * (R * R) / m) with (3 / 2 * (350 * (e * (R * R) / m))) by (field; lra).
  destruct (Rle_lt_dec (40 * e * R) m) as [Sm|Bg].
  - set (g := sqrt (x1 * x1 + y1 * y1)) in *. apply Rabs_le_inv in VN.
    assert (Hg : Rabs (g - m) <= 20 * e * R) by (apply Rabs_le; lra).
    assert (Hp : Rabs (px fx fy s c t1 - g * cos be) + Rabs (py fy c t1 - g * sin be) <= 9 * e * R).
    { rewrite <- D1, <- D2. rewrite (Rabs_minus_sym _ x1), (Rabs_minus_sym _ y1). apply Rle_trans with (1 := HZ). nra. }
    assert (Hd := area fx fy s c t1). rewrite <- AA in Hd.
    destruct N2 as [Q1 Q2]. unfold r2 in Q1, Q2.
    destruct HT as [HT|[HT HR]].
    + apply (@matched fx fy s c r i t _ dx dy (t1 + PI / 2)); auto. intros th. rewrite back_x, back_y.
      assert (F := @turned_edge _ _ _ _ be g r (cos (degrees i)) (degrees t) R m e He (conj PM ML) Sm CS Hg Hp Hd Q1 Q2 G4 G5 HT th).
      assert (P0 : 0 <= e * (R * R) / m) by (apply Rmult_le_pos; [nra|apply Rlt_le, Rinv_0_lt_compat; lra]).
      split; [apply Rle_trans with (1 := proj1 F)|apply Rle_trans with (1 := proj2 F)]; lra.
    + apply (@matched fx fy s c r i t _ dx dy t1); auto. intros th. rewrite turn_x, turn_y.
      exact (@straight_edge _ _ _ _ be g r (cos (degrees i)) (degrees t) R m e He (conj PM ML) Sm CS Hg Hp Hd Q1 Q2 G4 G5 HT HR th).
  - apply (@matched fx fy s c r i t _ dx dy 0); auto. intros th. destruct (@edge_size r i t R th Rr) as [X Y]. destruct (@ellipse_size fx fy s c Px Py Pc (0 + th)) as [X' Y']. fold R in X', Y'.
    assert (K : 4 * R <= 350 * (e * (R * R) / m)).
    { apply Rmult_le_reg_r with m; [lra|]. replace (350 * (e * (R * R) / m) * m) with (350 * (e * R) * R) by (field; lra). nra. }
    rewrite <- Rabs_Ropp in X', Y'. split; [apply Rle_trans with (1 := abs_sum X X')|apply Rle_trans with (1 := abs_sum Y Y')]; lra.
Qed.
