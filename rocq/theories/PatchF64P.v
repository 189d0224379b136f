(** Outlines of rings computed in binary64. *)
From Coq Require Import ZArith Reals Lra Lia List.
From Flocq Require Import Core BinarySingleNaN.
From Verif Require Import Num NumP Py Ring XLibm RingPatchP SpecPatch SpecGeom SpecF64 Round64P GeomF64P DiskErrP DiskF64P EdgeErrP GradF64P.
Import ListNotations SpecF64.
Local Open Scope R_scope.
Set Implicit Arguments.
Local Notation B := (bpow radix2).

Section P.
Variables (L : Libm f64) (e : R).
Hypotheses (Acc : accurate L e) (He : B (-52) <= e <= / 1000000).
Let eta := B (-1075).
Lemma eta_pos : 0 < eta.
Proof. apply bpow_gt_0. Qed.
Lemma eta_small : eta <= e / 1000000.
Proof.
  apply Rle_trans with (B (-72)); [apply bpow_le; lia|]. replace (B (-72)) with (B (-52) * B (-20)) by now rewrite <- bpow_plus.
  assert (B (-20) <= / 1000000) by (rewrite bpow_powerRZ; simpl powerRZ; cbn [radix2 radix_val]; lra). assert (0 < B (-52)) by apply bpow_gt_0. nra.
Qed.
Lemma ulp_e : 0 < ulp1 <= e / 2.
Proof. split; [apply ulp1_pos|]. apply Rle_trans with (B (-52) / 2); [|lra]. unfold ulp1. change (-53 + 1)%Z with (-52)%Z. replace (B (-53)) with (B (-52) * B (-1)) by now rewrite <- bpow_plus. change (B (-1)) with (/ 2). lra. Qed.

(** one multiplication by a number of size at most 1 *)
Lemma mul_scaled (x y : f64) a b a0 b0 R k l n : f64_val x = XFin a -> f64_val y = XFin b -> 0 <= R <= B 200 -> 0 <= k <= 20 -> 0 <= l <= 20 -> 0 <= n <= 20 ->
  Rabs a0 <= R -> Rabs (a - a0) <= k * (e * R) + n * eta -> Rabs b0 <= 1 -> Rabs (b - b0) <= l * e ->
  exists v, f64_val (n_mul x y) = XFin v /\ Rabs (v - a0 * b0) <= (k + l + 6 / 10) * (e * R) + (11 / 10 * n + 1) * eta.
Proof.
  intros X Y HR Hk Hl Hn Ha Da Hb Db. assert (U := ulp_e). assert (T := eta_pos). assert (T' := eta_small). assert (E : 0 < e) by lra.
  assert (ER : 0 <= e * R) by (apply Rmult_le_pos; lra). assert (KR : 0 <= k * (e * R)) by (apply Rmult_le_pos; lra). assert (NT : 0 <= n * eta) by (apply Rmult_le_pos; lra).
  assert (Le : 0 <= l * e <= 20 / 1000000) by (split; [apply Rmult_le_pos; lra|]; apply Rle_trans with (20 * / 1000000); [apply Rmult_le_compat; lra|lra]).
  assert (Hb' : Rabs b <= 1 + l * e). { replace b with (b0 + (b - b0)) by ring. now apply abs_sum. }
  assert (Ha' : Rabs a <= R + (k * (e * R) + n * eta)). { replace a with (a0 + (a - a0)) by ring. now apply abs_sum. }
  assert (M : Rabs (a * b) <= (R + (k * (e * R) + n * eta)) * (1 + l * e)) by now apply abs_mul_le.
  assert (KR' : k * (e * R) <= 20 / 1000000 * R). { replace (k * (e * R)) with (k * e * R) by ring. apply Rmult_le_compat_r; [lra|]. apply Rle_trans with (20 * / 1000000); [apply Rmult_le_compat; lra|lra]. }
  assert (M2 : Rabs (a * b) <= 11 / 10 * R + 11 / 10 * (n * eta)).
  { apply Rle_trans with (1 := M). apply Rle_trans with ((R + (k * (e * R) + n * eta)) * (1 + 20 / 1000000)); [apply Rmult_le_compat_l; lra|]. lra. }
  assert (NT' : n * eta <= 20) . { apply Rle_trans with (20 * 1); [apply Rmult_le_compat; lra|lra]. }
  assert (BB : Rabs (a * b) <= B 1023).
  { apply Rle_trans with (1 := M2). apply Rle_trans with (B 210); [|apply bpow_le; lia]. replace (B 210) with (B 200 * B 10) by now rewrite <- bpow_plus.
    assert (100 <= B 10) by (rewrite bpow_powerRZ; simpl powerRZ; cbn [radix2 radix_val]; lra). assert (1 <= B 200) by (change 1 with (B 0); apply bpow_le; lia). nra. }
  rewrite (mul_correct _ _ X Y BB). destruct (rnd_abs (a * b)) as (d & t & Dd & Dt & ->). eexists. split; [reflexivity|].
  replace (a * b * (1 + d) + t - a0 * b0) with ((a - a0) * b + a0 * (b - b0) + a * b * d + t) by ring.
  assert (P1 : Rabs ((a - a0) * b) <= (k * (e * R) + n * eta) * (1 + l * e)) by now apply abs_mul_le.
  assert (P2 : Rabs (a0 * (b - b0)) <= R * (l * e)) by now apply abs_mul_le.
  assert (P3 : Rabs (a * b * d) <= (R + (k * (e * R) + n * eta)) * (1 + l * e) * ulp1) by now apply abs_mul_le.
  assert (S := abs_sum (abs_sum (abs_sum P1 P2) P3) Dt). apply Rle_trans with (1 := S). fold eta.
  assert (Q1 : k * (e * R) * (l * e) <= 1 / 1000 * (e * R)).
  { apply Rle_trans with (20 * (e * R) * (20 / 1000000)); [apply Rmult_le_compat; try lra; apply Rmult_le_compat_r; lra|]. lra. }
  assert (Q2 : n * eta * (l * e) <= 20 / 1000000 * (n * eta)) by (rewrite Rmult_comm; apply Rmult_le_compat_r; lra).
  assert (Q3 : (R + (k * (e * R) + n * eta)) * (1 + l * e) * ulp1 <= 55 / 100 * (e * R) + 1 / 1000 * (n * eta)).
  { apply Rle_trans with ((R + (k * (e * R) + n * eta)) * (1 + 20 / 1000000) * (e / 2)).
    - apply Rmult_le_compat; try lra. + apply Rmult_le_pos; lra. + apply Rmult_le_compat_l; lra.
    - assert (k * (e * R) * e <= 20 / 1000000 * (e * R)). { replace (k * (e * R) * e) with (k * (e * R) * e) by ring. apply Rle_trans with (20 * (e * R) * / 1000000); [apply Rmult_le_compat; try lra; apply Rmult_le_compat_r; lra|lra]. }
      assert (n * eta * e <= / 1000000 * (n * eta)) by (rewrite Rmult_comm; apply Rmult_le_compat_r; lra).
      replace ((R + (k * (e * R) + n * eta)) * (1 + 20 / 1000000) * (e / 2)) with ((1 + 20 / 1000000) / 2 * (e * R + k * (e * R) * e + n * eta * e)) by field. lra. }
  replace (R * (l * e)) with (l * (e * R)) by ring. lra.
Qed.

Lemma rad_degrees d : rad d = degrees d.
Proof. unfold rad, degrees. field. Qed.
(** an angle in degrees of at most half a turn *)
Lemma rad64 (x : f64) a : f64_val x = XFin a -> Rabs a <= 180 -> exists v, f64_val (deg2rad L x) = XFin v /\ Rabs (v - rad a) <= 11 / 2 * e /\ Rabs v <= 8.
Proof.
  intros X Ha. destruct (a_pi Acc) as (p & Vp & Dp). assert (U := ulp_e). assert (T := eta_pos). assert (T' := eta_small). assert (PIb := PI_bounds).
  assert (V180 : f64_val (n_ofZ 180 : f64) = XFin 180) by (apply (of_Z 180); vm_compute; discriminate).
  apply Rabs_le_inv in Dp. assert (Hp : Rabs (p / 180) <= / 40) by (apply Rabs_le; lra).
  assert (B0 : 1000 <= B 1023) by (apply Rle_trans with (B 10); [rewrite bpow_powerRZ; simpl powerRZ; cbn [radix2 radix_val]; lra|apply bpow_le; lia]).
  assert (V1 := @div_correct _ _ _ _ Vp V180 ltac:(lra) ltac:(lra)).
  destruct (rnd_abs (p / 180)) as (d & t & Dd & Dt & E1). rewrite E1 in V1. fold eta in Dt. apply Rabs_le_inv in Dd. apply Rabs_le_inv in Dt.
  set (q := p / 180 * (1 + d) + t) in *.
  assert (Dq : Rabs (q - PI / 180) <= / 180 * (31 / 10 * e)).
  { unfold q. replace (p / 180 * (1 + d) + t - PI / 180) with ((p - PI) * / 180 + (p * / 180 * d + t)) by field.
    assert (G1 : Rabs (p - PI) <= e) by (apply Rabs_le; lra). assert (G2 : Rabs (/ 180) <= / 180) by (rewrite Rabs_pos_eq; lra).
    assert (G3 : Rabs (p * / 180) <= 4001 / 1000 * / 180) by (rewrite Rabs_pos_eq; lra). assert (G4 : Rabs d <= e / 2) by (apply Rabs_le; lra).
    assert (G5 : Rabs t <= eta) by (apply Rabs_le; lra).
    assert (S := abs_sum (abs_mul_le G1 G2) (abs_sum (abs_mul_le G3 G4) G5)). apply Rle_trans with (1 := S).
    assert (eta <= / 180 * (/ 20 * e)); [|lra]. apply Rle_trans with (1 := T'). lra. }
  assert (Hq : Rabs q <= / 40) by (apply Rabs_le_inv in Dq; apply Rabs_le; lra).
  assert (M := abs_mul_le Ha Hq).
  assert (V2 := @mul_correct _ _ _ _ X V1 ltac:(lra)). destruct (rnd_abs (a * q)) as (d' & t' & Dd' & Dt' & E2). rewrite E2 in V2.
  exists (a * q * (1 + d') + t'). split; [exact V2|]. fold eta in Dt'.
  assert (Hd : Rabs (a * q * (1 + d') + t' - rad a) <= 11 / 2 * e).
  { unfold rad. replace (a * q * (1 + d') + t' - a * PI / 180) with (a * (q - PI / 180) + (a * q * d' + t')) by field.
    assert (S := abs_sum (abs_mul_le Ha Dq) (abs_sum (abs_mul_le M Dd') Dt')). apply Rle_trans with (1 := S). lra. }
  split; [exact Hd|]. assert (Rabs (rad a) <= 4).
  { unfold rad, Rdiv. rewrite Rmult_assoc. assert (Rabs (PI * / 180) <= 4 * / 180) by (rewrite Rabs_pos_eq; lra). assert (N := abs_mul_le Ha H). lra. }
  apply Rabs_le_inv in Hd. apply Rabs_le_inv in H. apply Rabs_le. lra.
Qed.
Lemma trig64 (x : f64) a : f64_val x = XFin a -> Rabs a <= 180 -> exists c s, f64_val (m_cos L (deg2rad L x)) = XFin c /\ Rabs (c - cos (rad a)) <= 13 / 2 * e /\
  f64_val (m_sin L (deg2rad L x)) = XFin s /\ Rabs (s - sin (rad a)) <= 13 / 2 * e.
Proof.
  intros X Ha. destruct (rad64 _ X Ha) as (v & V & D & N). destruct (a_cos Acc V N) as (c & C & Dc). destruct (a_sin Acc V N) as (s & S & Ds).
  exists c, s. assert (K1 := cos_lip v (rad a)). assert (K2 := sin_lip v (rad a)). repeat split; auto.
  - replace (c - cos (rad a)) with ((c - cos v) + (cos v - cos (rad a))) by ring. apply Rle_trans with (1 := Rabs_triang _ _). lra.
  - replace (s - sin (rad a)) with ((s - sin v) + (sin v - sin (rad a))) by ring. apply Rle_trans with (1 := Rabs_triang _ _). lra.
Qed.

(** adding the two products and the shift *)
Lemma add_scaled (x y sh : f64) a b a0 b0 xs R : f64_val x = XFin a -> f64_val y = XFin b -> f64_val sh = XFin xs -> 0 <= R <= B 200 -> Rabs xs <= B 200 -> Rabs a0 <= R -> Rabs b0 <= R ->
  Rabs (a - a0) <= 10 * (e * R) + 4 * eta -> Rabs (b - b0) <= 16 * (e * R) + 4 * eta ->
  exists v, f64_val (n_add sh (n_add x y)) = XFin v /\ Rabs (v - (xs + (a0 + b0))) <= 29 * (e * (R + Rabs xs)) + B (-1000).
Proof.
  intros X Y S HR Hs Ha Hb Da Db. assert (U := ulp_e). assert (T := eta_pos). assert (T' := eta_small). assert (E : 0 < e) by lra. assert (Ps := Rabs_pos xs).
  assert (ER : 0 <= e * R) by (apply Rmult_le_pos; lra). assert (ES : 0 <= e * Rabs xs) by (apply Rmult_le_pos; lra).
  assert (ER' : e * R <= / 1000000 * R) by (apply Rmult_le_compat_r; lra).
  assert (B2 : 1 <= B 200) by (change 1 with (B 0); apply bpow_le; lia).
  assert (BB : 100 * B 200 <= B 1023). { apply Rle_trans with (B 210); [|apply bpow_le; lia]. replace (B 210) with (B 200 * B 10) by now rewrite <- bpow_plus. assert (100 <= B 10) by (rewrite bpow_powerRZ; simpl powerRZ; cbn [radix2 radix_val]; lra). nra. }
  assert (Hsum : Rabs (a + b - (a0 + b0)) <= 26 * (e * R) + 8 * eta) by (replace (a + b - (a0 + b0)) with ((a - a0) + (b - b0)) by ring; apply Rle_trans with (1 := Rabs_triang _ _); lra).
  assert (Hab : Rabs (a + b) <= 201 / 100 * R + 8 * eta). { replace (a + b) with (a0 + b0 + (a + b - (a0 + b0))) by ring. apply Rle_trans with (1 := Rabs_triang _ _). assert (N := abs_sum Ha Hb). lra. }
  destruct (@add64 _ _ _ _ X Y ltac:(lra)) as (d & Dd & V1). set (w := (a + b) * (1 + d)) in *.
  assert (Dw : Rabs (w - (a0 + b0)) <= 27 * (e * R) + 1 / 10 * (e * R) + 9 * eta).
  { unfold w. replace ((a + b) * (1 + d) - (a0 + b0)) with ((a + b - (a0 + b0)) + (a + b) * d) by ring. assert (M := abs_mul_le Hab Dd).
    assert (N : (201 / 100 * R + 8 * eta) * ulp1 <= (201 / 100 * R + 8 * eta) * (e / 2)) by (apply Rmult_le_compat_l; lra).
    assert (N' : 8 * eta * (e / 2) <= eta) by nra. assert (Z := abs_sum Hsum M). apply Rle_trans with (1 := Z). lra. }
  assert (Hw : Rabs w <= 21 / 10 * R + 9 * eta). { replace w with (a0 + b0 + (w - (a0 + b0))) by ring. apply Rle_trans with (1 := Rabs_triang _ _). assert (N := abs_sum Ha Hb). lra. }
  assert (Hx := abs_sum (Rle_refl (Rabs xs)) Hw).
  destruct (@add64 _ _ _ _ S V1 ltac:(lra)) as (d' & Dd' & V2). eexists. split; [exact V2|].
  replace ((xs + w) * (1 + d') - (xs + (a0 + b0))) with ((w - (a0 + b0)) + (xs + w) * d') by ring.
  assert (M := abs_mul_le Hx Dd').
  assert (N : (Rabs xs + (21 / 10 * R + 9 * eta)) * ulp1 <= (Rabs xs + (21 / 10 * R + 9 * eta)) * (e / 2)) by (apply Rmult_le_compat_l; lra).
  assert (N' : 9 * eta * (e / 2) <= eta) by nra.
  assert (Z := abs_sum Dw M). apply Rle_trans with (1 := Z).
  assert (Bt : 10 * eta <= B (-1000)). { unfold eta. replace (B (-1000)) with (B 75 * B (-1075)) by now rewrite <- bpow_plus. apply Rmult_le_compat_r; [apply bpow_ge_0|]. apply Rle_trans with (B 10); [rewrite bpow_powerRZ; simpl powerRZ; cbn [radix2 radix_val]; lra|apply bpow_le; lia]. }
  lra.
Qed.

Lemma unit_sum a0 R : 0 <= R -> Rabs a0 <= 1 -> Rabs (R * a0) <= R.
Proof. intros H A. assert (N := abs_mul_le (Rle_refl (Rabs R)) A). rewrite (Rabs_pos_eq R) in N by auto. lra. Qed.
(** one vertex *)
Lemma vertex64 (r : ring f64) inc tilt radius flip (sx sy vx vy : f64) R f xs ys a b : f64_val (r_inc r) = XFin inc -> f64_val (r_tilt r) = XFin tilt -> Rabs inc <= 180 -> Rabs tilt <= 180 ->
  f64_val radius = XFin R -> 0 <= R <= B 200 -> f64_val flip = XFin f -> Rabs f <= 1 -> f64_val sx = XFin xs -> f64_val sy = XFin ys -> Rabs xs <= B 200 -> Rabs ys <= B 200 ->
  Rabs a <= 1 -> Rabs b <= 1 -> (exists va vb, f64_val vx = XFin va /\ f64_val vy = XFin vb /\ Rabs (va - a) <= e /\ Rabs (vb - b) <= e) ->
  exists x y, f64_val (fst (patch_vertex L r radius flip (sx, sy) (vx, vy))) = XFin x /\ f64_val (snd (patch_vertex L r radius flip (sx, sy) (vx, vy))) = XFin y /\
    Rabs (x - (xs + (R * a * f * cos (rad tilt) + R * b * cos (rad inc) * sin (rad tilt)))) <= 29 * (e * (R + Rabs xs)) + B (-1000) /\
    Rabs (y - (ys + (R * a * f * sin (rad tilt) + R * b * cos (rad inc) * - cos (rad tilt)))) <= 29 * (e * (R + Rabs ys)) + B (-1000).
Proof.
  intros Vi Vt Hi Ht Vr HR Vf Hf Vsx Vsy Hsx Hsy Ha Hb (va & vb & Va & Vb & Da & Db).
  destruct (trig64 _ Vi Hi) as (ci & _ & Ci & Dci & _). destruct (trig64 _ Vt Ht) as (ct & st & Ct & Dct & St & Dst).
  destruct (unit_abs (rad inc)) as [Uci _]. destruct (unit_abs (rad tilt)) as [Uct Ust].
  assert (Z : Rabs (R - R) <= 0 * (e * R) + 0 * eta) by (rewrite Rminus_diag_eq, Rabs_R0 by reflexivity; lra).
  assert (Zf : Rabs (f - f) <= 0 * e) by (rewrite Rminus_diag_eq, Rabs_R0 by reflexivity; lra).
  assert (AR : Rabs R <= R) by (rewrite Rabs_pos_eq; lra). assert (R0 : 0 <= R) by lra.
  assert (S1 := unit_sum a R0 Ha). assert (S2 := unit_sum b R0 Hb).
  assert (S3 : Rabs (R * a * f) <= R) by (assert (N := abs_mul_le S1 Hf); lra). assert (S4 : Rabs (R * b * cos (rad inc)) <= R) by (assert (N := abs_mul_le S2 Uci); lra).
  assert (Da1 : Rabs (va - a) <= 1 * e) by lra. assert (Db1 : Rabs (vb - b) <= 1 * e) by lra.
  destruct (@mul_scaled _ _ _ _ R a R 0 1 0 Vr Va HR ltac:(lra) ltac:(lra) ltac:(lra) AR Z Ha Da1) as (m1 & V1 & D1).
  destruct (@mul_scaled _ _ _ _ (R * a) f R (0 + 1 + 6 / 10) 0 (11 / 10 * 0 + 1) V1 Vf HR ltac:(lra) ltac:(lra) ltac:(lra) S1 D1 Hf Zf) as (ax & V2 & D2).
  destruct (@mul_scaled _ _ _ _ R b R 0 1 0 Vr Vb HR ltac:(lra) ltac:(lra) ltac:(lra) AR Z Hb Db1) as (m2 & V3 & D3).
  destruct (@mul_scaled _ _ _ _ (R * b) (cos (rad inc)) R (0 + 1 + 6 / 10) (13 / 2) (11 / 10 * 0 + 1) V3 Ci HR ltac:(lra) ltac:(lra) ltac:(lra) S2 D3 Uci Dci) as (ay & V4 & D4).
  destruct (@mul_scaled _ _ _ _ (R * a * f) (cos (rad tilt)) R ((0 + 1 + 6 / 10) + 0 + 6 / 10) (13 / 2) (11 / 10 * (11 / 10 * 0 + 1) + 1) V2 Ct HR ltac:(lra) ltac:(lra) ltac:(lra) S3 D2 Uct Dct) as (p1 & V5 & D5).
  destruct (@mul_scaled _ _ _ _ (R * b * cos (rad inc)) (sin (rad tilt)) R ((0 + 1 + 6 / 10) + 13 / 2 + 6 / 10) (13 / 2) (11 / 10 * (11 / 10 * 0 + 1) + 1) V4 St HR ltac:(lra) ltac:(lra) ltac:(lra) S4 D4 Ust Dst) as (p2 & V6 & D6).
  destruct (@mul_scaled _ _ _ _ (R * a * f) (sin (rad tilt)) R ((0 + 1 + 6 / 10) + 0 + 6 / 10) (13 / 2) (11 / 10 * (11 / 10 * 0 + 1) + 1) V2 St HR ltac:(lra) ltac:(lra) ltac:(lra) S3 D2 Ust Dst) as (p3 & V7 & D7).
  assert (Vn := neg_val _ Ct). assert (Un : Rabs (- cos (rad tilt)) <= 1) by now rewrite Rabs_Ropp.
  assert (Dn : Rabs (- ct - - cos (rad tilt)) <= 13 / 2 * e) by (replace (- ct - - cos (rad tilt)) with (- (ct - cos (rad tilt))) by ring; now rewrite Rabs_Ropp).
  destruct (@mul_scaled _ _ _ _ (R * b * cos (rad inc)) (- cos (rad tilt)) R ((0 + 1 + 6 / 10) + 13 / 2 + 6 / 10) (13 / 2) (11 / 10 * (11 / 10 * 0 + 1) + 1) V4 Vn HR ltac:(lra) ltac:(lra) ltac:(lra) S4 D4 Un Dn) as (p4 & V8 & D8).
  assert (N1 := eta_pos). assert (N2 : 0 <= e * R) by (apply Rmult_le_pos; [assert (0 < B (-52)) by apply bpow_gt_0|]; lra).
  assert (W : forall x y k, Rabs x <= R -> Rabs y <= k -> k = 1 -> Rabs (x * y) <= R) by (intros x y k H1 H2 ->; assert (N := abs_mul_le H1 H2); lra).
  destruct (@add_scaled _ _ _ _ _ (R * a * f * cos (rad tilt)) (R * b * cos (rad inc) * sin (rad tilt)) _ R V5 V6 Vsx HR Hsx (W _ _ _ S3 Uct eq_refl) (W _ _ _ S4 Ust eq_refl) ltac:(lra) ltac:(lra)) as (x & Vx & Dx).
  destruct (@add_scaled _ _ _ _ _ (R * a * f * sin (rad tilt)) (R * b * cos (rad inc) * - cos (rad tilt)) _ R V7 V8 Vsy HR Hsy (W _ _ _ S3 Ust eq_refl) (W _ _ _ S4 Un eq_refl) ltac:(lra) ltac:(lra)) as (y & Vy & Dy).
  exists x, y. cbn [fst snd patch_vertex]. auto.
Qed.

(** all vertices of both outlines *)
Lemma outlines64 (r : ring f64) i o inc tilt sx sy xs ys (vs : list (f64 * f64)) (ths : list R) :
  f64_val (r_in r) = XFin i -> f64_val (r_out r) = XFin o -> f64_val (r_inc r) = XFin inc -> f64_val (r_tilt r) = XFin tilt -> 0 <= i <= o -> o <= B 200 -> Rabs inc <= 180 -> Rabs tilt <= 180 ->
  f64_val sx = XFin xs -> f64_val sy = XFin ys -> Rabs xs <= B 200 -> Rabs ys <= B 200 ->
  Forall2 (fun v th => point_within e v (cos th, sin th)) vs ths ->
  Forall2 (point_within (29 * (e * (o + Rabs xs + Rabs ys)) + B (-1000))) (patch_vertices L r (sx, sy) vs)
    (map (fun th => ellipse_point xs ys o (o * cos (rad inc)) (rad tilt) (- th)) ths ++ map (fun th => ellipse_point xs ys i (i * cos (rad inc)) (rad tilt) (th + PI)) ths).
Proof.
  intros Vin Vout Vi Vt Hio Ho Hi Ht Vsx Vsy Hsx Hsy F. unfold patch_vertices.
  assert (E0 : 0 < e) by (assert (0 < B (-52)) by apply bpow_gt_0; lra). assert (Px := Rabs_pos xs). assert (Py := Rabs_pos ys).
  assert (V1 := of_one). assert (Vn := neg_val _ of_one). assert (H1 : Rabs 1 <= 1) by (rewrite Rabs_R1; lra). assert (Hn : Rabs (Ropp 1) <= 1) by (rewrite Rabs_Ropp, Rabs_R1; lra).
  assert (K : forall R f radius flip, f64_val radius = XFin R -> 0 <= R <= o -> f64_val flip = XFin f -> Rabs f <= 1 -> forall q, 
    (forall th, q th = (xs + (R * cos th * f * cos (rad tilt) + R * sin th * cos (rad inc) * sin (rad tilt)), ys + (R * cos th * f * sin (rad tilt) + R * sin th * cos (rad inc) * - cos (rad tilt)))) ->
    Forall2 (point_within (29 * (e * (o + Rabs xs + Rabs ys)) + B (-1000))) (map (patch_vertex L r radius flip (sx, sy)) vs) (map q ths)).
  { intros R f radius flip Vr HR Vf Hf q Q. clear Vin Vout. induction F as [|[vx vy] th vs' ths' P F I]; [constructor|]. cbn [map]. constructor; [|exact I].
    destruct P as (va & vb & Va & Vb & Da & Db). cbn [fst snd] in *. destruct (unit_abs th) as [Uc Us].
    destruct (@vertex64 r inc tilt radius flip sx sy vx vy R f xs ys (cos th) (sin th) Vi Vt Hi Ht Vr ltac:(lra) Vf Hf Vsx Vsy Hsx Hsy Uc Us) as (x & y & X & Y & Dx & Dy).
    { exists va, vb. auto. }
    assert (M1 : e * (R + Rabs xs) <= e * (o + Rabs xs + Rabs ys)) by (apply Rmult_le_compat_l; lra). assert (M2 : e * (R + Rabs ys) <= e * (o + Rabs xs + Rabs ys)) by (apply Rmult_le_compat_l; lra).
    rewrite Q. exists x, y. cbn [fst snd]. repeat split; auto; lra. }
  apply Forall2_app.
  - apply (K o 1 (r_out r) n_one); auto; [lra|]. intros th. unfold ellipse_point. rewrite cos_neg, sin_neg. f_equal; ring.
  - apply (K i (Ropp 1) (r_in r) (n_neg n_one)); auto. intros th. unfold ellipse_point. rewrite neg_cos, neg_sin. f_equal; ring.
Qed.
End P.
