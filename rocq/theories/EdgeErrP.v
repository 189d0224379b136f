(** The edge of a disk whose tilt is read from a vertex that is known up to an error. *)
From Coq Require Import Reals Lra Lia.
From Flocq Require Import Core.
From Verif Require Import XLibm SpecGeom SpecEdge GeomP EdgeP DiskErrP DiskF64P.
Local Open Scope R_scope.
Set Implicit Arguments.

Lemma abs_mul_le a b k l : Rabs a <= k -> Rabs b <= l -> Rabs (a * b) <= k * l.
Proof. intros. rewrite Rabs_mult. apply Rmult_le_compat; auto using Rabs_pos. Qed.
Lemma unit_abs x : Rabs (cos x) <= 1 /\ Rabs (sin x) <= 1.
Proof. split; apply Rabs_le; [apply COS_bound|apply SIN_bound]. Qed.
Lemma sin_lip x y : Rabs (sin x - sin y) <= Rabs (x - y).
Proof. rewrite <- (cos_shift x), <- (cos_shift y). apply Rle_trans with (1 := cos_lip _ _). replace (PI / 2 - x - (PI / 2 - y)) with (- (x - y)) by ring. rewrite Rabs_Ropp. lra. Qed.
Lemma abs_sum a b k l : Rabs a <= k -> Rabs b <= l -> Rabs (a + b) <= k + l.
Proof. intros. apply Rle_trans with (1 := Rabs_triang _ _). lra. Qed.
Arguments abs_mul_le {a b k l} _ _. Arguments abs_sum {a b k l} _ _.
Lemma dist_le x y x' y' k : Rabs (x' - x) <= k -> Rabs (y' - y) <= k -> dist x y x' y' <= 3 / 2 * k.
Proof.
  intros X Y. unfold dist. assert (K : 0 <= k) by (apply Rle_trans with (2 := X), Rabs_pos). rewrite <- (sqrt_square (3 / 2 * k)) by lra. apply sqrt_le_1_alt.
  assert (A := sq_le_abs _ K X). assert (B := sq_le_abs _ K Y). nra.
Qed.

(** vectors p, q, nearly at right angles, p nearly in the direction be *)
Section Frame.
Variables p1 p2 q1 q2 be g r ci T R m e : R.
Hypotheses (He : 0 < e <= / 1000000) (Hm : 0 < m <= R) (Small : 40 * e * R <= m).
Hypotheses (Hpq : Rabs (p1 * q1 + p2 * q2) <= 12 * e * (R * R)) (Hg : Rabs (g - m) <= 20 * e * R).
Hypotheses (Hp : Rabs (p1 - g * cos be) + Rabs (p2 - g * sin be) <= 9 * e * R) (Hd : p1 * q2 - p2 * q1 = R * m).
Hypotheses (Q1 : (1 - 11 * e) * R <= sqrt (q1 * q1 + q2 * q2)) (Q2 : sqrt (q1 * q1 + q2 * q2) <= R).
Let x := q1 * cos be + q2 * sin be.
Let y := q2 * cos be - q1 * sin be.
Let Z := e * (R * R) / m.
Lemma Z_ge : e * R <= Z.
Proof. unfold Z. apply Rmult_le_reg_r with m; [lra|]. replace (e * (R * R) / m * m) with (e * (R * R)) by (field; lra). assert (0 < e * R) by (apply Rmult_lt_0_compat; lra). nra. Qed.
Lemma g_big : m / 2 <= g.
Proof. apply Rabs_le_inv in Hg. lra. Qed.
Lemma q_le : Rabs q1 <= R /\ Rabs q2 <= R.
Proof.
  assert (S := sqrt_sqrt (q1 * q1 + q2 * q2)). assert (N1 := sq_ge q1). assert (N2 := sq_ge q2). specialize (S ltac:(lra)).
  set (n := sqrt (q1 * q1 + q2 * q2)) in *. assert (0 <= n) by apply sqrt_pos.
  split; apply Rabs_le; (split; apply Rnot_lt_le; intros L; nra).
Qed.
Lemma side_small : Rabs x <= 42 * Z.
Proof.
  destruct q_le as [A1 A2]. assert (G := g_big). assert (PR : 0 < R) by lra.
  assert (E : x * g = (p1 * q1 + p2 * q2) - ((p1 - g * cos be) * q1 + (p2 - g * sin be) * q2)) by (unfold x; ring).
  assert (F : Rabs ((p1 - g * cos be) * q1 + (p2 - g * sin be) * q2) <= 9 * e * R * R).
  { apply Rle_trans with (1 := Rabs_triang _ _). rewrite !Rabs_mult. assert (B1 := Rabs_pos (p1 - g * cos be)). assert (B2 := Rabs_pos (p2 - g * sin be)). assert (B3 := Rabs_pos q1). assert (B4 := Rabs_pos q2). nra. }
  assert (H : Rabs x * g <= 21 * e * (R * R)).
  { rewrite <- (Rabs_pos_eq g) at 1 by lra. rewrite <- Rabs_mult, E. apply Rabs_le_inv in Hpq. apply Rabs_le_inv in F. apply Rabs_le. lra. }
  unfold Z. apply Rmult_le_reg_r with (m / 2); [lra|]. replace (42 * (e * (R * R) / m) * (m / 2)) with (21 * e * (R * R)) by (field; lra).
  apply Rle_trans with (2 := H). apply Rmult_le_compat_l; [apply Rabs_pos|exact G].
Qed.
Lemma across_pos : 0 <= y.
Proof.
  destruct q_le as [A1 A2]. assert (G := g_big). assert (PR : 0 < R) by lra.
  assert (E : y * g = R * m - ((p1 - g * cos be) * q2 - (p2 - g * sin be) * q1)) by (unfold y; rewrite <- Hd; ring).
  assert (F : Rabs ((p1 - g * cos be) * q2 - (p2 - g * sin be) * q1) <= 9 * e * R * R).
  { unfold Rminus at 1. apply Rle_trans with (1 := Rabs_triang _ _). rewrite Rabs_Ropp, !Rabs_mult. assert (B1 := Rabs_pos (p1 - g * cos be)). assert (B2 := Rabs_pos (p2 - g * sin be)). assert (B3 := Rabs_pos q1). assert (B4 := Rabs_pos q2). nra. }
  apply Rabs_le_inv in F. assert (9 * e * R * R <= R * m) by nra. apply Rnot_lt_le. intros L. nra.
Qed.
Lemma unit1 : cos be * cos be + sin be * sin be = 1.
Proof. assert (S := sin2_cos2 be). unfold Rsqr in S. lra. Qed.
Lemma across_near : Rabs (y - R) <= 11 * (e * R) + 42 * Z.
Proof.
  assert (X := side_small). assert (Y := across_pos). assert (N1 := sq_ge q1). assert (N2 := sq_ge q2).
  assert (S := sqrt_sqrt (q1 * q1 + q2 * q2) ltac:(lra)). set (n := sqrt (q1 * q1 + q2 * q2)) in *. assert (P : 0 <= n) by apply sqrt_pos.
  assert (E : n * n = x * x + y * y).
  { rewrite S. unfold x, y. transitivity ((q1 * q1 + q2 * q2) * (cos be * cos be + sin be * sin be)); [rewrite unit1; ring|ring]. }
  assert (Sx : x * x = Rabs x * Rabs x) by (rewrite <- Rabs_mult, Rabs_pos_eq; [reflexivity|apply sq_ge]). assert (Px := Rabs_pos x).
  assert (L1 : y <= n) by (apply Rnot_lt_le; intros L; nra). assert (L2 : n <= y + Rabs x) by (apply Rnot_lt_le; intros L; nra).
  apply Rabs_le. lra.
Qed.
Lemma frame : Rabs (q1 + R * sin be) <= 95 * Z /\ Rabs (q2 - R * cos be) <= 95 * Z.
Proof.
  assert (X := side_small). assert (Y := across_near). assert (H := Z_ge). destruct (unit_abs be) as [C S].
  assert (E1 : q1 + R * sin be = x * cos be + - ((y - R) * sin be)) by (unfold x, y; transitivity (q1 * (cos be * cos be + sin be * sin be) + R * sin be); [rewrite unit1; ring|ring]).
  assert (E2 : q2 - R * cos be = x * sin be + (y - R) * cos be) by (unfold x, y; transitivity (q2 * (cos be * cos be + sin be * sin be) - R * cos be); [rewrite unit1; ring|ring]).
  assert (M1 := abs_mul_le X C). assert (M2 := abs_mul_le X S). assert (M3 := abs_mul_le Y S). assert (M4 := abs_mul_le Y C).
  rewrite <- (Rabs_Ropp ((y - R) * sin be)) in M3. rewrite E1, E2.
  split; [apply Rle_trans with (1 := abs_sum M1 M3)|apply Rle_trans with (1 := abs_sum M2 M4)]; lra.
Qed.

(** the edge, point by point *)
Hypotheses (Hr : Rabs (r - R) <= 22 * e * R) (Hci : Rabs (ci - m / R) <= 50 * e).
Lemma minor_axis : Rabs (r * ci - m) <= 73 * (e * R) /\ Rabs (r * ci) <= 101 / 100 * R /\ Rabs r <= 101 / 100 * R.
Proof.
  assert (PR : 0 < R) by lra. assert (eR : 0 < e * R <= / 1000000 * R) by (split; [apply Rmult_lt_0_compat; lra|apply Rmult_le_compat_r; lra]).
  assert (E : r * ci - m = r * (ci - m / R) + (r - R) * (m / R)) by (field; lra).
  assert (Rr : Rabs r <= 101 / 100 * R) by (apply Rabs_le_inv in Hr; apply Rabs_le; lra).
  assert (M1 := abs_mul_le Rr Hci).
  assert (Hq : Rabs (m / R) <= 1). { rewrite Rabs_pos_eq; [apply Rmult_le_reg_r with R; auto; unfold Rdiv; rewrite Rmult_assoc, Rinv_l by lra; lra|apply Rmult_le_pos; [lra|apply Rlt_le, Rinv_0_lt_compat; auto]]. }
  assert (M2 := abs_mul_le Hr Hq). assert (M : Rabs (r * ci - m) <= 73 * (e * R)) by (rewrite E; apply Rle_trans with (1 := abs_sum M1 M2); lra).
  split; [exact M|]. split; [|exact Rr]. replace (r * ci) with ((r * ci - m) + m) by ring. apply Rabs_le_inv in M. apply Rabs_le. lra.
Qed.
Lemma turned_edge : Rabs (T - (be + PI / 2)) <= 20 * e -> forall th,
  Rabs (r * cos th * cos T - r * ci * sin th * sin T - (cos th * q1 - sin th * p1)) <= 261 * Z /\
  Rabs (r * cos th * sin T + r * ci * sin th * cos T - (cos th * q2 - sin th * p2)) <= 261 * Z.
Proof.
  intros HT th. destruct minor_axis as (M1 & M2 & M3). destruct frame as [F1 F2]. assert (H := Z_ge). assert (PR : 0 < R) by lra.
  destruct (unit_abs th) as [Ct St]. destruct (unit_abs be) as [Cb Sb].
  assert (C := Rle_trans _ _ _ (cos_lip T (be + PI / 2)) HT). assert (S := Rle_trans _ _ _ (sin_lip T (be + PI / 2)) HT).
  rewrite cos_plus, cos_PI2, sin_PI2 in C. rewrite sin_plus, cos_PI2, sin_PI2 in S.
  replace (cos T - (cos be * 0 - sin be * 1)) with (cos T + sin be) in C by ring. replace (sin T - (sin be * 0 + cos be * 1)) with (sin T - cos be) in S by ring.
  assert (B1 := Rabs_pos (p1 - g * cos be)). assert (B2 := Rabs_pos (p2 - g * sin be)).
  assert (G : Rabs (g - r * ci) <= 93 * (e * R)). { apply Rabs_le_inv in Hg. apply Rabs_le_inv in M1. apply Rabs_le. lra. }
  assert (N1 : Rabs (p1 - g * cos be) <= 9 * e * R) by lra. assert (N2 : Rabs (p2 - g * sin be) <= 9 * e * R) by lra.
  assert (eR : 0 < e * R) by (apply Rmult_lt_0_compat; lra).
  assert (W1 : Rabs (r * cos T - q1) <= 138 * Z).
  { replace (r * cos T - q1) with (r * (cos T + sin be) + ((R - r) * sin be + - (q1 + R * sin be))) by ring.
    apply Rle_trans with (1 := abs_sum (abs_mul_le M3 C) (abs_sum (abs_mul_le (eq_ind_r (fun z => z <= _) Hr (Rabs_minus_sym R r)) Sb) (eq_ind_r (fun z => z <= _) F1 (Rabs_Ropp _)))). lra. }
  assert (W2 : Rabs (r * sin T - q2) <= 138 * Z).
  { replace (r * sin T - q2) with (r * (sin T - cos be) + ((r - R) * cos be + - (q2 - R * cos be))) by ring.
    apply Rle_trans with (1 := abs_sum (abs_mul_le M3 S) (abs_sum (abs_mul_le Hr Cb) (eq_ind_r (fun z => z <= _) F2 (Rabs_Ropp _)))). lra. }
  assert (V1 : Rabs (p1 - r * ci * sin T) <= 122 * Z + / 2 * Z).
  { replace (p1 - r * ci * sin T) with ((p1 - g * cos be) + ((g - r * ci) * cos be + - (r * ci * (sin T - cos be)))) by ring.
    apply Rle_trans with (1 := abs_sum N1 (abs_sum (abs_mul_le G Cb) (eq_ind_r (fun z => z <= _) (abs_mul_le M2 S) (Rabs_Ropp _)))). lra. }
  assert (V2 : Rabs (r * ci * cos T + p2) <= 122 * Z + / 2 * Z).
  { replace (r * ci * cos T + p2) with (r * ci * (cos T + sin be) + ((p2 - g * sin be) + (g - r * ci) * sin be)) by ring.
    apply Rle_trans with (1 := abs_sum (abs_mul_le M2 C) (abs_sum N2 (abs_mul_le G Sb))). lra. }
  split.
  - replace (r * cos th * cos T - r * ci * sin th * sin T - (cos th * q1 - sin th * p1)) with (cos th * (r * cos T - q1) + sin th * (p1 - r * ci * sin T)) by ring.
    apply Rle_trans with (1 := abs_sum (abs_mul_le Ct W1) (abs_mul_le St V1)). lra.
  - replace (r * cos th * sin T + r * ci * sin th * cos T - (cos th * q2 - sin th * p2)) with (cos th * (r * sin T - q2) + sin th * (r * ci * cos T + p2)) by ring.
    apply Rle_trans with (1 := abs_sum (abs_mul_le Ct W2) (abs_mul_le St V2)). lra.
Qed.
Lemma straight_edge : Rabs (T - be) <= 20 * e -> R - m <= 44 * e * R -> forall th,
  Rabs (r * cos th * cos T - r * ci * sin th * sin T - (cos th * p1 + sin th * q1)) <= 350 * Z /\
  Rabs (r * cos th * sin T + r * ci * sin th * cos T - (cos th * p2 + sin th * q2)) <= 350 * Z.
Proof.
  intros HT HR th. destruct minor_axis as (M1 & M2 & M3). destruct frame as [F1 F2]. assert (H := Z_ge). assert (PR : 0 < R) by lra.
  destruct (unit_abs th) as [Ct St]. destruct (unit_abs be) as [Cb Sb].
  assert (C := Rle_trans _ _ _ (cos_lip T be) HT). assert (S := Rle_trans _ _ _ (sin_lip T be) HT).
  assert (B1 := Rabs_pos (p1 - g * cos be)). assert (B2 := Rabs_pos (p2 - g * sin be)).
  assert (N1 : Rabs (p1 - g * cos be) <= 9 * e * R) by lra. assert (N2 : Rabs (p2 - g * sin be) <= 9 * e * R) by lra.
  assert (eR : 0 < e * R) by (apply Rmult_lt_0_compat; lra). assert (Hr' := Rabs_le_inv _ _ Hr). assert (Hg' := Rabs_le_inv _ _ Hg). assert (M1' := Rabs_le_inv _ _ M1).
  assert (G : Rabs (r - g) <= 86 * (e * R)) by (apply Rabs_le; lra). assert (K : Rabs (r * ci - R) <= 117 * (e * R)) by (apply Rabs_le; lra).
  assert (W1 : Rabs (r * cos T - p1) <= 116 * Z).
  { replace (r * cos T - p1) with (r * (cos T - cos be) + ((r - g) * cos be + - (p1 - g * cos be))) by ring.
    apply Rle_trans with (1 := abs_sum (abs_mul_le M3 C) (abs_sum (abs_mul_le G Cb) (eq_ind_r (fun z => z <= _) N1 (Rabs_Ropp _)))). lra. }
  assert (W2 : Rabs (r * sin T - p2) <= 116 * Z).
  { replace (r * sin T - p2) with (r * (sin T - sin be) + ((r - g) * sin be + - (p2 - g * sin be))) by ring.
    apply Rle_trans with (1 := abs_sum (abs_mul_le M3 S) (abs_sum (abs_mul_le G Sb) (eq_ind_r (fun z => z <= _) N2 (Rabs_Ropp _)))). lra. }
  assert (V1 : Rabs (r * ci * sin T + q1) <= 233 * Z).
  { replace (r * ci * sin T + q1) with (r * ci * (sin T - sin be) + ((r * ci - R) * sin be + (q1 + R * sin be))) by ring.
    apply Rle_trans with (1 := abs_sum (abs_mul_le M2 S) (abs_sum (abs_mul_le K Sb) F1)). lra. }
  assert (V2 : Rabs (r * ci * cos T - q2) <= 233 * Z).
  { replace (r * ci * cos T - q2) with (r * ci * (cos T - cos be) + ((r * ci - R) * cos be + - (q2 - R * cos be))) by ring.
    apply Rle_trans with (1 := abs_sum (abs_mul_le M2 C) (abs_sum (abs_mul_le K Cb) (eq_ind_r (fun z => z <= _) F2 (Rabs_Ropp _)))). lra. }
  split.
  - replace (r * cos th * cos T - r * ci * sin th * sin T - (cos th * p1 + sin th * q1)) with (cos th * (r * cos T - p1) + - (sin th * (r * ci * sin T + q1))) by ring.
    apply Rle_trans with (1 := abs_sum (abs_mul_le Ct W1) (eq_ind_r (fun z => z <= _) (abs_mul_le St V1) (Rabs_Ropp _))). lra.
  - replace (r * cos th * sin T + r * ci * sin th * cos T - (cos th * p2 + sin th * q2)) with (cos th * (r * sin T - p2) + sin th * (r * ci * cos T - q2)) by ring.
    apply Rle_trans with (1 := abs_sum (abs_mul_le Ct W2) (abs_mul_le St V2)). lra.
Qed.
End Frame.
