(** The distances of the ellipse at angles near those of its vertices. *)
From Coq Require Import Reals Lra Lia.
From Flocq Require Import Core.
From Verif Require Import XLibm GeomP.
Local Open Scope R_scope.
Set Implicit Arguments.

Lemma sq_ge (x : R) : 0 <= x * x.
Proof. exact (Rle_0_sqr x). Qed.
Lemma abs_sin_le x : Rabs (sin x) <= Rabs x.
Proof.
  assert (P : forall y, 0 <= y -> - y <= sin y <= y).
  { intros y Y. split.
    - destruct (Rle_lt_dec y PI) as [H|H]; [assert (S := sin_ge_0 y Y H); lra|]. assert (S := SIN_bound y). assert (Q := PI2_1). lra.
    - destruct Y as [Y|<-]; [apply Rlt_le, sin_lt_x; auto|rewrite sin_0; lra]. }
  destruct (Rle_lt_dec 0 x) as [H|H].
  - rewrite (Rabs_pos_eq x) by auto. apply Rabs_le. now apply P.
  - assert (Q := P (- x) ltac:(lra)). rewrite sin_neg in Q. rewrite (Rabs_left x) by auto. apply Rabs_le. lra.
Qed.
Lemma one_minus_cos x : 1 - cos x = 2 * (sin (x / 2) * sin (x / 2)).
Proof. replace (cos x) with (cos (2 * (x / 2))) by (f_equal; field). rewrite cos_2a_sin. ring. Qed.
Lemma cos_near x : 1 - x * x / 2 <= cos x.
Proof.
  assert (E := one_minus_cos x). assert (S := abs_sin_le (x / 2)). assert (Q : sin (x / 2) * sin (x / 2) <= x / 2 * (x / 2)); [|nra].
  assert (P := Rabs_pos (sin (x / 2))). assert (M : Rabs (sin (x / 2)) * Rabs (sin (x / 2)) <= Rabs (x / 2) * Rabs (x / 2)) by (apply Rmult_le_compat; auto).
  rewrite <- !Rabs_mult in M. rewrite !Rabs_pos_eq in M; nra.
Qed.
Lemma cos_add_near x y : 1 - cos (x + y) <= 2 * (1 - cos x) + 2 * (1 - cos y).
Proof.
  rewrite !one_minus_cos. replace ((x + y) / 2) with (x / 2 + y / 2) by field. rewrite sin_plus.
  set (a := sin (x / 2)). set (b := sin (y / 2)). set (p := cos (x / 2)). set (q := cos (y / 2)).
  assert (Hp : a * a + p * p = 1) by (exact (sin2_cos2 (x / 2))). assert (Hq : b * b + q * q = 1) by (exact (sin2_cos2 (y / 2))).
  assert (Q1 : q * q <= 1) by nra. assert (P1 : p * p <= 1) by nra.
  assert (A1 : a * a * (q * q) <= a * a * 1) by (apply Rmult_le_compat_l; nra).
  assert (B1 : b * b * (p * p) <= b * b * 1) by (apply Rmult_le_compat_l; nra).
  assert (S : 0 <= (a * q - p * b) * (a * q - p * b)) by (generalize (Rle_0_sqr (a * q - p * b)); unfold Rsqr; auto).
  lra.
Qed.
(** a direction known up to an error *)
Section Direction.
Variables D N Dh Nh h hh al E : R.
Hypotheses (Hh : 0 <= h) (Hhh : 0 <= hh) (HE : 0 <= E) (H1 : h * h = D * D + N * N).
Hypotheses (P1 : Dh = hh * cos al) (P2 : Nh = hh * sin al) (He : (Dh - D) * (Dh - D) + (Nh - N) * (Nh - N) <= E * E).
Lemma inner_le x y z w r t : 0 <= r -> 0 <= t -> x * x + y * y <= r * r -> z * z + w * w <= t * t -> x * z + y * w <= r * t.
Proof.
  intros R T X Z. assert (C : (x * z + y * w) * (x * z + y * w) <= r * t * (r * t)).
  { apply Rle_trans with ((x * x + y * y) * (z * z + w * w)).
    - assert (S := sq_ge (x * w - y * z)). lra.
    - replace (r * t * (r * t)) with (r * r * (t * t)) by ring. assert (S1 := sq_ge x). assert (S2 := sq_ge y). assert (S3 := sq_ge z). assert (S4 := sq_ge w). apply Rmult_le_compat; lra. }
  destruct (Rle_lt_dec (x * z + y * w) (r * t)) as [|G]; auto. assert (0 <= r * t) by nra. nra.
Qed.
Lemma unit_le x : cos x * cos x + sin x * sin x <= 1 * 1.
Proof. assert (S := sin2_cos2 x). unfold Rsqr in S. lra. Qed.
Lemma hh_sq : hh * hh = Dh * Dh + Nh * Nh.
Proof. rewrite P1, P2. assert (S := sin2_cos2 al). unfold Rsqr in S. replace (hh * cos al * (hh * cos al) + hh * sin al * (hh * sin al)) with (hh * hh * (sin al * sin al + cos al * cos al)) by ring. rewrite S. ring. Qed.
Lemma length_near : h - E <= hh <= h + E.
Proof.
  assert (S := hh_sq). assert (I := @inner_le D N (D - Dh) (N - Nh) h E Hh HE ltac:(lra) ltac:(lra)).
  assert (J := @inner_le (Dh) (Nh) (Dh - D) (Nh - N) hh E Hhh HE ltac:(lra) ltac:(lra)).
  split.
  - destruct (Rle_lt_dec (h - E) hh); auto. exfalso. assert (hh * hh < (h - E) * (h - E)) by nra.
    assert ((Dh - D) * (Dh - D) + (Nh - N) * (Nh - N) = h * h + hh * hh - 2 * (D * Dh + N * Nh)) by nra.
    assert (K := @inner_le D N Dh Nh h hh Hh Hhh ltac:(lra) ltac:(lra)). nra.
  - destruct (Rle_lt_dec hh (h + E)); auto. exfalso.
    assert ((Dh - D) * (Dh - D) + (Nh - N) * (Nh - N) = h * h + hh * hh - 2 * (D * Dh + N * Nh)) by nra.
    assert (K := @inner_le D N Dh Nh h hh Hh Hhh ltac:(lra) ltac:(lra)). nra.
Qed.
Let W de := D * cos (al + de) + N * sin (al + de).
Lemma direction_first de : h - W de <= 2 * E + (h + E) * (de * de / 2).
Proof.
  assert (L := length_near). assert (C := cos_near de). assert (U := unit_le (al + de)).
  assert (I := @inner_le (Dh - D) (Nh - N) (cos (al + de)) (sin (al + de)) E 1 HE ltac:(lra) He U).
  assert (Eq : Dh * cos (al + de) + Nh * sin (al + de) = hh * cos de).
  { rewrite P1, P2. replace (cos de) with (cos (al + de - al)) by (f_equal; ring). rewrite (cos_minus (al + de) al). ring. }
  unfold W. assert (hh * (1 - de * de / 2) <= hh * cos de) by (apply Rmult_le_compat_l; lra). nra.
Qed.
Lemma direction_second de : 0 < hh -> h - W de <= E * E / hh + h * (de * de).
Proof.
  intros Q. destruct (polar D N) as [B1 B2]. cbv zeta in B1, B2.
  assert (Eh : sqrt (D * D + N * N) = h) by (rewrite <- H1; now apply sqrt_square). rewrite Eh in *. set (be := ratan2 N D) in *.
  assert (EW : forall x, D * cos x + N * sin x = h * cos (be - x)).
  { intros x. rewrite B1, B2 at 1. rewrite cos_minus. ring. }
  unfold W. rewrite EW. replace (be - (al + de)) with (be - al + - de) by ring.
  assert (C := cos_add_near (be - al) (- de)). rewrite cos_neg in C.
  assert (F : h * (1 - cos (be - al)) <= E * E / (2 * hh)).
  { apply Rmult_le_reg_r with (2 * hh); [lra|]. replace (E * E / (2 * hh) * (2 * hh)) with (E * E) by (field; lra).
    assert (K : D * Dh + N * Nh = h * hh * cos (be - al)). { rewrite P1, P2. replace (D * (hh * cos al) + N * (hh * sin al)) with (hh * (D * cos al + N * sin al)) by ring. rewrite EW. ring. }
    assert (S := hh_sq). assert (S3 := sq_ge (h - hh)). nra. }
  assert (G : h * (1 - cos de) <= h * (de * de / 2)) by (apply Rmult_le_compat_l; [auto|generalize (cos_near de); lra]).
  replace (E * E / hh) with (2 * (E * E / (2 * hh))) by (field; lra). nra.
Qed.
Lemma direction_most de : W de <= h.
Proof. unfold W. rewrite <- (Rmult_1_r h). apply inner_le; try lra. apply unit_le. Qed.
End Direction.

Lemma hyp_triangle a b a' b' : sqrt (a * a + b * b) <= sqrt (a' * a' + b' * b') + (Rabs (a - a') + Rabs (b - b')).
Proof.
  assert (H' := sqrt_pos (a' * a' + b' * b')). assert (S' : sqrt (a' * a' + b' * b') * sqrt (a' * a' + b' * b') = a' * a' + b' * b') by (apply sqrt_sqrt; nra).
  set (h' := sqrt (a' * a' + b' * b')) in *. set (p := Rabs (a - a')). set (q := Rabs (b - b')).
  assert (Hp : 0 <= p) by apply Rabs_pos. assert (Hq : 0 <= q) by apply Rabs_pos.
  assert (Pa : - p <= a - a' <= p) by (apply Rabs_le_inv; apply Rle_refl). assert (Pb : - q <= b - b' <= q) by (apply Rabs_le_inv; apply Rle_refl).
  assert (Ia := @inner_le a' b' (a - a') 0 h' p H' Hp ltac:(lra) ltac:(nra)).
  assert (Ib := @inner_le a' b' 0 (b - b') h' q H' Hq ltac:(lra) ltac:(nra)).
  rewrite <- (sqrt_square (h' + (p + q))) by lra. apply sqrt_le_1_alt.
  assert (Sa : (a - a') * (a - a') <= p * p) by nra. assert (Sb : (b - b') * (b - b') <= q * q) by nra.
  assert (0 <= p * q) by now apply Rmult_le_pos. nra.
Qed.
Lemma hyp_near a b a' b' : Rabs (sqrt (a * a + b * b) - sqrt (a' * a' + b' * b')) <= Rabs (a - a') + Rabs (b - b').
Proof.
  assert (X := hyp_triangle a b a' b'). assert (Y := hyp_triangle a' b' a b). rewrite (Rabs_minus_sym a' a), (Rabs_minus_sym b' b) in Y.
  apply Rabs_le. lra.
Qed.

Section Vertices.
Variables fx fy s c : R.
Hypotheses (Hx : 0 < fx) (Hy : 0 < fy) (Hc : 0 < c).
Let A := fx * fx + (s * s + 1) * (fy * fy).
Let D := (s * s + 1) * (fy * fy) - fx * fx.
Let N := 2 * fx * fy * s.
Let h := sqrt (D * D + N * N).
Variables Dh Nh hh al e : R.
Hypotheses (He : 0 < e <= / 1000000) (Hhh : 0 <= hh) (P1 : Dh = hh * cos al) (P2 : Nh = hh * sin al).
Hypothesis HE : (Dh - D) * (Dh - D) + (Nh - N) * (Nh - N) <= 5 * e * A * (5 * e * A).
Let R := d_major fx fy s c.
Let m := d_minor fx fy s c.

Lemma A_pos : 0 < A. Proof. unfold A. assert (S := sq_ge s). nra. Qed.
Lemma h_pos : 0 <= h. Proof. apply sqrt_pos. Qed.
Lemma h_below : h < A. Proof. exact (A_gt s Hx Hy). Qed.
Lemma h_square : h * h = D * D + N * N. Proof. exact (h_sq fx fy s). Qed.
Lemma E_pos : 0 <= 5 * e * A. Proof. assert (P := A_pos). nra. Qed.
Lemma R_sq : R * R = c * c / 2 * (A + h).
Proof. unfold R, d_major. rewrite sqrt_sqrt; [exact (r2_th2 fx fy s c)|]. rewrite (r2_th2 fx fy s c). fold D N h A. assert (P := A_pos). assert (Q := h_pos). assert (0 < c * c / 2) by nra. nra. Qed.
Lemma m_sq : m * m = c * c / 2 * (A - h).
Proof. unfold m, d_minor. rewrite sqrt_sqrt; [exact (r2_th1 fx fy s c)|]. rewrite (r2_th1 fx fy s c). fold D N h A. assert (P := h_below). assert (0 < c * c / 2) by nra. nra. Qed.
Lemma R_pos : 0 < R. Proof. apply Rlt_le_trans with (2 := minor_le fx fy s Hc). apply (minor_pos s Hx Hy Hc). Qed.
Lemma m_pos : 0 < m. Proof. apply (minor_pos s Hx Hy Hc). Qed.
Lemma r2_W th : r2 fx fy s c th = c * c / 2 * (A - (D * cos (2 * th) + N * sin (2 * th))).
Proof. rewrite r2_eq. fold A D N. ring. Qed.

Lemma major_near th de : 2 * th = al + de + PI -> Rabs de <= 14 * e -> (1 - 11 * e) * R <= sqrt (r2 fx fy s c th) <= R.
Proof.
  intros T Dd. assert (HA := A_pos). assert (Hh := h_pos). assert (Hb := h_below). assert (HR := R_pos).
  assert (F := @direction_first D N _ _ _ _ _ _ h_pos Hhh E_pos h_square P1 P2 HE de).
  assert (M := @direction_most D N h al h_pos h_square de).
  set (W := D * cos (al + de) + N * sin (al + de)) in *.
  assert (EW : r2 fx fy s c th = c * c / 2 * (A + W)).
  { rewrite r2_W, T, neg_cos, neg_sin. unfold W. ring. }
  assert (D2 : de * de <= 196 * (e * e)).
  { apply Rabs_le_inv in Dd. nra. }
  assert (G : h - W <= 11 * e * A).
  { apply Rle_trans with (1 := F). assert ((h + 5 * e * A) * (de * de / 2) <= 2 * A * (98 * (e * e))); [|nra].
    apply Rmult_le_compat; nra. }
  assert (HC : 0 < c * c / 2) by nra. assert (RS := R_sq).
  split.
  - destruct (Rle_lt_dec (1 - 11 * e) 0) as [L|L]; [apply Rle_trans with 0; [nra|apply sqrt_pos]|].
    rewrite <- (sqrt_square ((1 - 11 * e) * R)) by nra. apply sqrt_le_1_alt. rewrite EW.
    replace ((1 - 11 * e) * R * ((1 - 11 * e) * R)) with ((1 - 11 * e) * (1 - 11 * e) * (R * R)) by ring. rewrite RS.
    replace ((1 - 11 * e) * (1 - 11 * e) * (c * c / 2 * (A + h))) with (c * c / 2 * ((1 - 11 * e) * (1 - 11 * e) * (A + h))) by ring.
    apply Rmult_le_compat_l; [lra|]. apply Rle_trans with ((1 - 11 * e) * (A + h)); [|nra].
    apply Rmult_le_compat_r; nra.
  - rewrite <- (sqrt_square R) by lra. apply sqrt_le_1_alt. rewrite EW, RS. apply Rmult_le_compat_l; lra.
Qed.
Lemma minor_near th de : 2 * th = al + de -> Rabs de <= 6 * e -> m <= sqrt (r2 fx fy s c th) <= m + 11 * e * R.
Proof.
  intros T Dd. assert (HA := A_pos). assert (Hh := h_pos). assert (Hb := h_below). assert (HR := R_pos). assert (Hm := m_pos).
  assert (F := @direction_first D N _ _ _ _ _ _ h_pos Hhh E_pos h_square P1 P2 HE de).
  assert (M := @direction_most D N h al h_pos h_square de).
  assert (LN := @length_near D N _ _ _ _ _ _ h_pos Hhh E_pos h_square P1 P2 HE).
  assert (SW := @direction_second D N _ _ _ _ _ _ h_pos h_square P1 P2 HE de).
  set (W := D * cos (al + de) + N * sin (al + de)) in *.
  assert (EW : r2 fx fy s c th = c * c / 2 * (A - W)).
  { rewrite r2_W, T. unfold W. ring. }
  assert (D2 : de * de <= 36 * (e * e)). { apply Rabs_le_inv in Dd. nra. }
  assert (HC : 0 < c * c / 2) by nra. assert (RS := R_sq). assert (MS := m_sq).
  split.
  - rewrite <- (sqrt_square m) by lra. apply sqrt_le_1_alt. rewrite EW, MS. apply Rmult_le_compat_l; lra.
  - rewrite <- (sqrt_square (m + 11 * e * R)) by nra. apply sqrt_le_1_alt. rewrite EW.
    assert (Y : c * c / 2 * (A - W) = m * m + c * c / 2 * (h - W)) by (rewrite MS; ring). rewrite Y.
    assert (mR : m <= R) by exact (minor_le fx fy s Hc).
    destruct (Rle_lt_dec (A / 2) h) as [L|L].
    + assert (Hhh' : A / 3 <= hh) by nra.
      assert (G : h - W <= 121 * (e * e) * A).
      { apply Rle_trans with (1 := SW ltac:(lra)). assert (Q : 5 * e * A * (5 * e * A) / hh <= 75 * (e * e) * A).
        { apply Rmult_le_reg_r with hh; [lra|]. unfold Rdiv. rewrite Rmult_assoc, Rinv_l, Rmult_1_r by lra.
          replace (5 * e * A * (5 * e * A)) with (75 * (e * e) * A * (A / 3)) by field. apply Rmult_le_compat_l; [|lra]. assert (0 < e * e) by nra. nra. }
        assert (h * (de * de) <= A * (36 * (e * e))) by (apply Rmult_le_compat; nra). nra. }
      assert (c * c / 2 * (h - W) <= 121 * (e * e) * (R * R)).
      { rewrite RS. replace (121 * (e * e) * (c * c / 2 * (A + h))) with (c * c / 2 * (121 * (e * e) * (A + h))) by ring. apply Rmult_le_compat_l; [lra|]. assert (0 < e * e) by nra. nra. }
      assert (0 <= m * (11 * e * R)) by (apply Rmult_le_pos; nra). nra.
    + assert (G : h - W <= 11 * e * A).
      { apply Rle_trans with (1 := F). assert ((h + 5 * e * A) * (de * de / 2) <= 2 * A * (98 * (e * e))); [|nra].
        apply Rmult_le_compat; nra. }
      assert (c * c / 2 * (h - W) <= 22 * e * (m * m)).
      { rewrite MS. replace (22 * e * (c * c / 2 * (A - h))) with (c * c / 2 * (22 * e * (A - h))) by ring. apply Rmult_le_compat_l; [lra|]. nra. }
      assert (m * m <= m * R) by nra. nra.
Qed.
Lemma vector_size : c * (fx + Rabs s * fy + fy) <= 5 / 2 * R.
Proof.
  assert (HA := A_pos). assert (Hh := h_pos). assert (HR := R_pos). assert (As := Rabs_pos s).
  assert (G : 0 <= fx + Rabs s * fy + fy) by nra.
  assert (S2 : Rabs s * Rabs s = s * s) by (rewrite <- Rabs_mult; apply Rabs_pos_eq, sq_ge).
  assert (V : (fx + Rabs s * fy + fy) * (fx + Rabs s * fy + fy) <= 3 * A).
  { unfold A. set (b := Rabs s * fy) in *. assert (b * b = s * s * (fy * fy)) by (unfold b; replace (Rabs s * fy * (Rabs s * fy)) with (Rabs s * Rabs s * (fy * fy)) by ring; rewrite S2; ring).
    assert (T1 := sq_ge (fx - b)). assert (T2 := sq_ge (fx - fy)). assert (T3 := sq_ge (b - fy)). nra. }
  destruct (Rle_lt_dec (c * (fx + Rabs s * fy + fy)) (5 / 2 * R)) as [|L]; auto. exfalso.
  assert (RS := R_sq). assert (c * c * A <= 2 * (R * R)) by (rewrite RS; assert (0 < c * c) by nra; nra).
  assert (Z : c * c * ((fx + Rabs s * fy + fy) * (fx + Rabs s * fy + fy)) <= 6 * (R * R)).
  { apply Rle_trans with (c * c * (3 * A)); [apply Rmult_le_compat_l; nra|nra]. }
  set (v := fx + Rabs s * fy + fy) in *. assert (5 / 2 * R * (5 / 2 * R) < c * v * (c * v)) by (apply Rmult_le_0_lt_compat; lra). nra.
Qed.
(** a point with coordinates known up to an error *)
Lemma vector_near th x y : Rabs (x - px fx fy s c th) + Rabs (y - py fy c th) <= 7 / 2 * e * (c * (fx + Rabs s * fy + fy)) ->
  Rabs (sqrt (x * x + y * y) - sqrt (r2 fx fy s c th)) <= 9 * e * R.
Proof.
  intros H. apply Rle_trans with (1 := hyp_near _ _ _ _). apply Rle_trans with (1 := H).
  assert (HA := A_pos). assert (Hh := h_pos). assert (HR := R_pos). assert (As := Rabs_pos s).
  assert (Q := vector_size).
  nra.
Qed.
End Vertices.
