(** The tilt of a disk computed in binary64. *)
From Coq Require Import ZArith Reals Lra Lia Bool.
From Flocq Require Import Core BinarySingleNaN.
From Verif Require Import Num NumP XLibm Geometry SpecGeom SpecF64 SpecEdge SpecTilt Round64P GeomP GeomMoreP EdgeP DiskErrP DiskF64P DiskF64ExP EdgeErrP EdgeF64P.
Local Open Scope R_scope.
Set Implicit Arguments.

Lemma dot_le a b th n : 0 <= n -> a * a + b * b <= n * n -> Rabs (a * cos th + b * sin th) <= n.
Proof.
  intros Hn H. assert (U := unit_le th).
  assert (I1 := @inner_le a b (cos th) (sin th) n 1 Hn ltac:(lra) H U).
  assert (I2 := @inner_le a b (- cos th) (- sin th) n 1 Hn ltac:(lra) H ltac:(lra)). apply Rabs_le. lra.
Qed.
(** vectors p, q, nearly at right angles, p nearly in the direction be and nearly of the length m, q of the length R at
    most: a combination of the length R is nearly q *)
Section Longest.
Variables p1 p2 q1 q2 u be g T R m e : R.
Hypotheses (He : 0 < e <= / 1000000) (Hm : 0 < m <= R) (Small : 40 * e * R <= m) (Big : 90 * e * (R * R) <= R * R - m * m).
Hypotheses (Hpq : Rabs (p1 * q1 + p2 * q2) <= 12 * e * (R * R)) (Hg : Rabs (g - m) <= 20 * e * R).
Hypotheses (Hp : Rabs (p1 - g * cos be) + Rabs (p2 - g * sin be) <= 9 * e * R).
Hypotheses (P2 : sqrt (p1 * p1 + p2 * p2) <= m + 11 * e * R) (Q1 : (1 - 11 * e) * R <= sqrt (q1 * q1 + q2 * q2)) (Q2 : sqrt (q1 * q1 + q2 * q2) <= R).
Let x := cos u * p1 + sin u * q1.
Let y := cos u * p2 + sin u * q2.
Hypotheses (HR : x * x + y * y = R * R) (HT : Rabs (T - (be + PI / 2)) <= 20 * e).
Let K := R * R - m * m.
Lemma eR_small : 0 < e * R <= / 1000000 * R.
Proof. split; [apply Rmult_lt_0_compat; lra|apply Rmult_le_compat_r; lra]. Qed.
Lemma p_sq : p1 * p1 + p2 * p2 <= (m + 11 * e * R) * (m + 11 * e * R).
Proof.
  assert (N1 := sq_ge p1). assert (N2 := sq_ge p2). assert (S := sqrt_sqrt (p1 * p1 + p2 * p2) ltac:(lra)). rewrite <- S.
  assert (P := sqrt_pos (p1 * p1 + p2 * p2)). apply Rmult_le_compat; auto.
Qed.
Lemma q_sq : q1 * q1 + q2 * q2 <= R * R.
Proof.
  assert (N1 := sq_ge q1). assert (N2 := sq_ge q2). assert (S := sqrt_sqrt (q1 * q1 + q2 * q2) ltac:(lra)). rewrite <- S.
  assert (P := sqrt_pos (q1 * q1 + q2 * q2)). apply Rmult_le_compat; auto.
Qed.
Lemma p_short : 2 / 3 * K <= R * R - (p1 * p1 + p2 * p2).
Proof.
  assert (P := p_sq). assert (E := eR_small). assert (PR : 0 < R) by lra.
  assert (A1 : 22 * (e * R) * m <= 22 * (e * R) * R) by (apply Rmult_le_compat_l; lra).
  assert (A2 : 121 * (e * R) * (e * R) <= (e * R) * R). { replace (121 * (e * R) * (e * R)) with (e * R * (121 * (e * R))) by ring. apply Rmult_le_compat_l; lra. }
  assert (0 < e * R * R) by (apply Rmult_lt_0_compat; lra). unfold K. lra.
Qed.
Lemma cos_small : Rabs (cos u) * K <= 36 * e * (R * R).
Proof.
  assert (Sh := p_short). assert (Q := q_sq). assert (S := sin2_cos2 u). unfold Rsqr in S. assert (PR : 0 < R) by lra. assert (E := eR_small).
  set (C := cos u) in *. set (s := sin u) in *. set (pq := p1 * q1 + p2 * q2) in *. set (pp := p1 * p1 + p2 * p2) in *. set (qq := q1 * q1 + q2 * q2) in *.
  assert (Eq : C * C * pp + s * s * qq + 2 * (C * s * pq) = R * R) by (rewrite <- HR; unfold x, y, pp, qq, pq; ring).
  assert (Ss : Rabs s <= 1) by (apply Rabs_le, SIN_bound).
  assert (M : Rabs (C * (s * pq)) <= Rabs C * (12 * e * (R * R))).
  { rewrite Rabs_mult. apply Rmult_le_compat_l; [apply Rabs_pos|]. replace (12 * e * (R * R)) with (1 * (12 * e * (R * R))) by ring. apply abs_mul_le; auto. }
  assert (G : C * C * (R * R - pp) <= 2 * (C * (s * pq))).
  { assert (0 <= s * s * (R * R - qq)) by (apply Rmult_le_pos; [apply sq_ge|lra]).
    assert (C * C * (R * R) + s * s * (R * R) = R * R) by (transitivity ((s * s + C * C) * (R * R)); [ring|rewrite S; ring]). lra. }
  assert (F : Rabs C * Rabs C * (2 / 3 * K) <= Rabs C * (24 * e * (R * R))).
  { apply Rabs_le_inv in M. assert (CC : Rabs C * Rabs C = C * C) by (rewrite <- Rabs_mult; apply Rabs_pos_eq, sq_ge). rewrite CC.
    apply Rle_trans with (C * C * (R * R - pp)); [apply Rmult_le_compat_l; [apply sq_ge|exact Sh]|lra]. }
  assert (eRR : 0 < e * R * R) by (apply Rmult_lt_0_compat; lra).
  destruct (Rabs_pos C) as [PC|<-]; [|rewrite Rmult_0_l; lra].
  assert (Rabs C * (2 / 3 * K) <= 24 * e * (R * R)); [|lra]. apply Rmult_le_reg_l with (Rabs C); auto. lra.
Qed.
Lemma across_small : Rabs (x * cos be + y * sin be) * (m * K) <= 89 * e * (R * R * (R * R)).
Proof.
  assert (E := eR_small). assert (PR : 0 < R) by lra. assert (eRR : 0 < e * R * R) by (apply Rmult_lt_0_compat; lra). assert (PK : 0 < K) by (unfold K; lra).
  assert (X := @side_small p1 p2 q1 q2 be g R m e Hm Small Hpq Hg Hp Q2). assert (Cs := cos_small).
  assert (Pb : Rabs (p1 * cos be + p2 * sin be) <= 13 / 10 * m).
  { apply Rle_trans with (m + 11 * e * R); [apply dot_le; [lra|exact p_sq]|lra]. }
  assert (Ss : Rabs (sin u) <= 1) by (apply Rabs_le, SIN_bound).
  replace (x * cos be + y * sin be) with (cos u * (p1 * cos be + p2 * sin be) + sin u * (q1 * cos be + q2 * sin be)) by (unfold x, y; ring).
  assert (M1 : Rabs (cos u * (p1 * cos be + p2 * sin be)) <= Rabs (cos u) * (13 / 10 * m)) by (rewrite Rabs_mult; apply Rmult_le_compat_l; [apply Rabs_pos|exact Pb]).
  assert (M := abs_sum M1 (abs_mul_le Ss X)).
  apply Rle_trans with ((Rabs (cos u) * (13 / 10 * m) + 1 * (42 * (e * (R * R) / m))) * (m * K)).
  { apply Rmult_le_compat_r; [apply Rmult_le_pos; lra|exact M]. }
  replace ((Rabs (cos u) * (13 / 10 * m) + 1 * (42 * (e * (R * R) / m))) * (m * K)) with (13 / 10 * (m * m) * (Rabs (cos u) * K) + 42 * (e * (R * R)) * K) by (field; lra).
  assert (mm : m * m <= R * R) by (apply Rmult_le_compat; lra).
  assert (B1 : 13 / 10 * (m * m) * (Rabs (cos u) * K) <= 13 / 10 * (R * R) * (36 * e * (R * R))).
  { apply Rmult_le_compat; [assert (0 <= m * m) by apply sq_ge; lra|apply Rmult_le_pos; [apply Rabs_pos|lra]|lra|exact Cs]. }
  assert (B2 : 42 * (e * (R * R)) * K <= 42 * (e * (R * R)) * (R * R)) by (apply Rmult_le_compat_l; [lra|unfold K; assert (0 <= m * m) by apply sq_ge; lra]).
  assert (0 < e * R * R * (R * R)) by (apply Rmult_lt_0_compat; nra). lra.
Qed.
Lemma xy_le : Rabs x <= R /\ Rabs y <= R.
Proof. assert (S1 := sq_ge x). assert (S2 := sq_ge y). assert (0 < R) by lra. split; apply Rabs_le; split; apply Rnot_lt_le; intros L; nra. Qed.
Lemma along : Rabs (x * sin T - y * cos T) * (m * K) <= 130 * e * (R * R * (R * R)).
Proof.
  assert (A := across_small). destruct xy_le as [X Y]. assert (E := eR_small). assert (PR : 0 < R) by lra. assert (PK : 0 <= K) by (unfold K; assert (0 < e * R * R) by (apply Rmult_lt_0_compat; lra); lra).
  assert (C := Rle_trans _ _ _ (cos_lip T (be + PI / 2)) HT). assert (S := Rle_trans _ _ _ (sin_lip T (be + PI / 2)) HT).
  rewrite cos_plus, cos_PI2, sin_PI2 in C. rewrite sin_plus, cos_PI2, sin_PI2 in S.
  replace (cos T - (cos be * 0 - sin be * 1)) with (cos T + sin be) in C by ring. replace (sin T - (sin be * 0 + cos be * 1)) with (sin T - cos be) in S by ring.
  assert (M : Rabs (x * sin T - y * cos T) <= Rabs (x * cos be + y * sin be) + 40 * (e * R)).
  { replace (x * sin T - y * cos T) with (x * cos be + y * sin be + (x * (sin T - cos be) + - (y * (cos T + sin be)))) by ring.
    assert (M2 := abs_mul_le Y C). rewrite <- Rabs_Ropp in M2. apply Rle_trans with (1 := Rabs_triang _ _). apply Rplus_le_compat_l. apply Rle_trans with (1 := abs_sum (abs_mul_le X S) M2). lra. }
  apply Rle_trans with ((Rabs (x * cos be + y * sin be) + 40 * (e * R)) * (m * K)); [apply Rmult_le_compat_r; [apply Rmult_le_pos; lra|exact M]|].
  assert (mK : m * K <= R * (R * R)) by (apply Rmult_le_compat; try lra; unfold K; assert (0 <= m * m) by apply sq_ge; lra).
  assert (B2 : 40 * (e * R) * (m * K) <= 40 * (e * R) * (R * (R * R))) by (apply Rmult_le_compat_l; lra).
  assert (0 < e * R * (R * (R * R))) by (repeat apply Rmult_lt_0_compat; lra). lra.
Qed.
End Longest.

(** bounds that say nothing *)
Lemma off_line_le t x y R : 0 <= R -> x * x + y * y = R * R -> off_line t x y <= R.
Proof.
  intros HR H. unfold off_line. assert (U := unit_le (degrees t)).
  assert (I1 := @inner_le x y (sin (degrees t)) (- cos (degrees t)) R 1 HR ltac:(lra) ltac:(lra) ltac:(lra)).
  assert (I2 := @inner_le x y (- sin (degrees t)) (cos (degrees t)) R 1 HR ltac:(lra) ltac:(lra) ltac:(lra)). apply Rabs_le. lra.
Qed.
Lemma no_bound v R m e : 0 < e -> 0 < m <= R -> 0 <= v <= R -> m <= 40 * e * R \/ R * R - m * m <= 90 * e * (R * R) -> v * (m * (R * R - m * m)) <= 130 * e * (R * R * (R * R)).
Proof.
  intros He Hm Hv H. assert (PR : 0 < R) by lra. assert (mm : 0 <= m * m <= R * R) by (split; [apply sq_ge|apply Rmult_le_compat; lra]).
  assert (E : 0 < e * R) by (apply Rmult_lt_0_compat; lra). assert (E2 : 0 < e * R * (R * (R * R))) by (repeat apply Rmult_lt_0_compat; lra).
  assert (F : m * (R * R - m * m) <= 90 * e * R * (R * R)).
  { destruct H as [H|H].
    - apply Rle_trans with (40 * e * R * (R * R)); [apply Rmult_le_compat; lra|]. assert (0 < e * R * (R * R)) by (repeat apply Rmult_lt_0_compat; lra). lra.
    - apply Rle_trans with (R * (90 * e * (R * R))); [apply Rmult_le_compat; lra|lra]. }
  apply Rle_trans with (R * (90 * e * R * (R * R))); [|lra]. apply Rmult_le_compat; try lra. apply Rmult_le_pos; lra.
Qed.

Theorem tilt64 (L : Libm f64) e (fxv fyv sv cv : f64) fx fy s c : accurate L e -> bpow radix2 (-52) <= e <= / 1000000 ->
  f64_val fxv = XFin fx -> f64_val fyv = XFin fy -> f64_val sv = XFin s -> f64_val cv = XFin c ->
  0 < fx -> 0 < fy -> 0 < c -> ordinary fx -> ordinary fy -> loose s -> ordinary c ->
  exists rv iv tv t R m, disk_parameters L fxv fyv sv cv = (rv, iv, tv) /\ f64_val tv = XFin t /\
    largest_distance fx fy s c R /\ smallest_distance fx fy s c m /\ tilt_within (130 * e) fx fy s c R m t.
Proof.
  intros Acc [E1 E2] Vx Vy Vs Vc Px Py Pc Ox Oy Os Oc. rewrite <- two_ulp in E1. assert (U := ulp1_pos).
  destruct (@disk64_vertex L e Acc E1 E2 fxv fyv sv cv fx fy s c Vx Vy Vs Vc Px Py Pc Ox Oy Os Oc)
    as (rv & iv & tv & r & i & t & G & G1 & G2 & G3 & G4 & G5 & al & hh & Dh & Nh & t1 & x1 & y1 & be & Phh & P1 & P2 & HE & Ht1 & HZ & D1 & D2 & Hbe & HT & _).
  assert (He : 0 < e <= / 1000000) by lra.
  assert (PM := m_pos s Px Py Pc). assert (ML := minor_le fx fy s Pc). assert (PR := R_pos s Px Py Pc).
  assert (CS := @conjugate_small fx fy s c Px Py Pc Dh Nh hh al e t1 He Phh P1 P2 HE Ht1).
  assert (VS := vector_size s Px Py Pc).
  assert (VN := @vector_near fx fy s c Px Py Pc e He t1 x1 y1 HZ).
  assert (Ht1' := Rabs_le_inv _ _ Ht1).
  assert (N1 := @minor_near fx fy s c Px Py Pc Dh Nh hh al e He Phh P1 P2 HE t1 (2 * t1 - al) ltac:(ring) ltac:(apply Rabs_le; lra)).
  assert (N2 := @major_near fx fy s c Px Py Pc Dh Nh hh al e He Phh P1 P2 HE (t1 + PI / 2) (2 * t1 - al) ltac:(field) ltac:(apply Rabs_le; lra)).
  exists rv, iv, tv, t, (d_major fx fy s c), (d_minor fx fy s c).
  split; [exact G|]. split; [exact G3|]. split; [exact (@major_largest fx fy s c Pc)|]. split; [exact (@minor_smallest fx fy s c Pc)|].
  set (R := d_major fx fy s c) in *. set (m := d_minor fx fy s c) in *.
  intros x y [O Dxy]. assert (Sq : x * x + y * y = R * R).
  { unfold dist in Dxy. rewrite !Rminus_0_r in Dxy. rewrite <- Dxy. symmetry. apply sqrt_sqrt. assert (A1 := sq_ge x). assert (A2 := sq_ge y). lra. }
  assert (Ov := @off_line_le t x y R ltac:(lra) Sq). assert (Op : 0 <= off_line t x y) by apply Rabs_pos.
  destruct (Rle_lt_dec m (40 * e * R)) as [Sm|Sm]; [apply no_bound; auto; lra|].
  destruct (Rle_lt_dec (R * R - m * m) (90 * e * (R * R))) as [Bg|Bg]; [apply no_bound; auto; lra|].
  destruct HT as [HT|[_ HR]].
  2:{ apply no_bound; auto; try lra. right. assert ((R - m) * (R + m) <= 44 * e * R * (2 * R)) by (apply Rmult_le_compat; lra). assert (0 < e * R * R) by (repeat apply Rmult_lt_0_compat; lra). lra. }
  apply ellipse_angle in O; auto. destruct O as (a & Hx & Hy). replace a with (t1 + (a - t1)) in Hx, Hy by ring. rewrite turn_x in Hx. rewrite turn_y in Hy. rewrite Rplus_0_l in Hx, Hy.
  set (g := sqrt (x1 * x1 + y1 * y1)) in *. apply Rabs_le_inv in VN.
  assert (Hg : Rabs (g - m) <= 20 * e * R) by (apply Rabs_le; lra).
  assert (Hp : Rabs (px fx fy s c t1 - g * cos be) + Rabs (py fy c t1 - g * sin be) <= 9 * e * R).
  { rewrite <- D1, <- D2. rewrite (Rabs_minus_sym _ x1), (Rabs_minus_sym _ y1). apply Rle_trans with (1 := HZ). apply Rle_trans with (7 / 2 * e * (5 / 2 * R)); [apply Rmult_le_compat_l; lra|]. assert (0 < e * R) by (apply Rmult_lt_0_compat; lra). lra. }
  destruct N2 as [Q1 Q2]. destruct N1 as [_ P3]. unfold r2 in Q1, Q2, P3.
  unfold off_line. rewrite Hx, Hy in Sq |- *.
  exact (@along _ _ _ _ (a - t1) be g (degrees t) R m e He (conj PM ML) ltac:(lra) ltac:(lra) CS Hg Hp P3 Q1 Q2 Sq HT).
Qed.
