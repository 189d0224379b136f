(** The disk computed in binary64 at a grid point passes the ends of the eclipse. *)
From Coq Require Import ZArith Reals Lra Lia Bool.
From Flocq Require Import Core BinarySingleNaN.
From Verif Require Import Num NumP XLibm Geometry SpecGeom SpecF64 SpecEdge Round64P GeomP GeomMoreP EdgeP GeomF64MoreP DiskErrP DiskF64P DiskF64ExP EdgeErrP EdgeF64P.
Local Open Scope R_scope.
Set Implicit Arguments.

Lemma norm_triangle a b a' b' : sqrt ((a + a') * (a + a') + (b + b') * (b + b')) <= sqrt (a * a + b * b) + sqrt (a' * a' + b' * b').
Proof.
  assert (P1 := sqrt_pos (a * a + b * b)). assert (P2 := sqrt_pos (a' * a' + b' * b')).
  assert (Q1 := sqrt_sqrt (a * a + b * b) ltac:(assert (X := sq_ge a); assert (Y := sq_ge b); lra)). assert (Q2 := sqrt_sqrt (a' * a' + b' * b') ltac:(assert (X := sq_ge a'); assert (Y := sq_ge b'); lra)).
  set (h := sqrt (a * a + b * b)) in *. set (h' := sqrt (a' * a' + b' * b')) in *.
  assert (I := @inner_le a b a' b' h h' P1 P2 ltac:(lra) ltac:(lra)).
  rewrite <- (sqrt_square (h + h')) by lra. apply sqrt_le_1_alt. nra.
Qed.
Lemma dist_triangle x y x' y' x'' y'' : dist x y x'' y'' <= dist x y x' y' + dist x' y' x'' y''.
Proof.
  unfold dist. replace (x'' - x) with ((x' - x) + (x'' - x')) by ring. replace (y'' - y) with ((y' - y) + (y'' - y')) by ring. apply norm_triangle.
Qed.
Lemma dist_sum x y x' y' : dist x y x' y' <= Rabs (x' - x) + Rabs (y' - y).
Proof.
  unfold dist. assert (A := Rabs_pos (x' - x)). assert (B := Rabs_pos (y' - y)). rewrite <- (sqrt_square (Rabs (x' - x) + Rabs (y' - y))) by lra. apply sqrt_le_1_alt.
  assert (E1 : (x' - x) * (x' - x) = Rabs (x' - x) * Rabs (x' - x)) by (rewrite <- Rabs_mult, Rabs_pos_eq; [reflexivity|apply sq_ge]).
  assert (E2 : (y' - y) * (y' - y) = Rabs (y' - y) * Rabs (y' - y)) by (rewrite <- Rabs_mult, Rabs_pos_eq; [reflexivity|apply sq_ge]). nra.
Qed.
(** an ellipse of another radius is close *)
Lemma scaled_near dx dy fx fy s c l x y R : 0 < c -> 0 <= l -> largest_distance fx fy s c R -> on_ellipse dx dy fx fy s l x y ->
  near_ellipse (Rabs (l / c - 1) * R) dx dy fx fy s c x y.
Proof.
  intros Hc Hl [_ HR] (u & v & E & -> & ->).
  assert (K : exists u' v', u' * u' + v' * v' = c * c /\ u = l / c * u' /\ v = l / c * v').
  { destruct Hl as [Hl|<-].
    - exists (c / l * u), (c / l * v). split; [|split; field; lra]. transitivity (c / l * (c / l) * (u * u + v * v)); [ring|]. rewrite E. field. lra.
    - exists c, 0. assert (S1 := sq_ge u). assert (S2 := sq_ge v). assert (u = 0) by nra. assert (v = 0) by nra. subst. repeat split; field; lra. }
  destruct K as (u' & v' & E' & -> & ->). set (q := l / c) in *.
  exists (dx + (fx * u' - s * (fy * v'))), (dy + fy * v'). split; [exists u', v'; auto|].
  assert (H := HR (0 + (fx * u' - s * (fy * v'))) (0 + fy * v') (ex_intro _ u' (ex_intro _ v' (conj E' (conj eq_refl eq_refl))))).
  unfold dist in *. set (X := fx * u' - s * (fy * v')) in *. set (Y := fy * v') in *.
  replace (dx + X - (dx + (fx * (q * u') - s * (fy * (q * v'))))) with ((1 - q) * X) by (unfold X, Y; ring).
  replace (dy + Y - (dy + fy * (q * v'))) with ((1 - q) * Y) by (unfold Y; ring).
  replace ((1 - q) * X * ((1 - q) * X) + (1 - q) * Y * ((1 - q) * Y)) with ((1 - q) * (1 - q) * ((0 + X - 0) * (0 + X - 0) + (0 + Y - 0) * (0 + Y - 0))) by ring.
  rewrite sqrt_mult_alt by apply sq_ge. replace (sqrt ((1 - q) * (1 - q))) with (Rabs (q - 1)).
  - apply Rmult_le_compat_l; [apply Rabs_pos|exact H].
  - rewrite Rabs_minus_sym. symmetry. exact (sqrt_Rsqr_abs (1 - q)).
Qed.
Lemma within_near d d' dx dy fx fy s c r i t x y : near_ellipse d dx dy fx fy s c x y -> edge_within d' dx dy fx fy s c r i t -> near_edge (d + d') dx dy r i t x y.
Proof.
  intros (x' & y' & O & H) [_ W]. destruct (W _ _ O) as (x'' & y'' & O' & H'). exists x'', y''. split; auto. apply Rle_trans with (1 := dist_triangle x y x' y' x'' y''). lra.
Qed.
Lemma near_edge_le d d' dx dy r i t x y : d <= d' -> near_edge d dx dy r i t x y -> near_edge d' dx dy r i t x y.
Proof. intros H (x' & y' & E & K). exists x', y'. split; auto. lra. Qed.

Theorem casts64 (L : Libm f64) e (dxv dyv fyv : f64) dx dy fx fy s : accurate L e -> bpow radix2 (-52) <= e <= / 1000000 ->
  f64_val dxv = XFin dx -> f64_val dyv = XFin dy -> f64_val fyv = XFin fy -> loose dy -> Rabs dy <= bpow radix2 99 -> 0 < fy -> ordinary fy ->
  f64_val (shear_at dxv dyv) = XFin s -> loose s -> f64_val (determine_fx fyv dyv) = XFin fx -> ordinary fx ->
  exists rv iv tv r i t c R m, disk_parameters L (determine_fx fyv dyv) fyv (shear_at dxv dyv) (circular_radius L dyv) = (rv, iv, tv) /\
    f64_val rv = XFin r /\ f64_val iv = XFin i /\ f64_val tv = XFin t /\ f64_val (circular_radius L dyv) = XFin c /\
    largest_distance fx fy s c R /\ smallest_distance fx fy s c m /\ 0 < m <= R /\ Rabs (r - R) <= 22 * e * R /\ Rabs t <= 400 /\
    casts_within (528 * e * (R * R) / m + bpow radix2 (-48) * (1 + Rabs dx) * R) dx dy r i t.
Proof.
  intros Acc He Vdx Vdy Vfy Ldy Bdy Pfy Ofy Vs Ls Vfx Ofx. assert (B0 := bpow_gt_0 radix2 (-52)).
  destruct (@contact64_fx dxv dyv fyv dx dy fx fy s Vdx Vdy Vfy Ldy Pfy Ofy Vs Vfx) as [Pfx C].
  destruct (@radius_accurate L e dyv dy Acc ltac:(lra) Vdy Bdy) as (c & Vc & Pc & Oc & Ec).
  destruct (@edge64 L e _ _ _ _ fx fy s c Acc He Vfx Vfy Vs Vc Pfx Pfy Pc Ofx Ofy Ls Oc) as (rv & iv & tv & r & i & t & R & m & G & G1 & G2 & G3 & LR & Sm & Hm & Hr & Ht & W).
  exists rv, iv, tv, r, i, t, c, R, m. split; [exact G|]. split; [exact G1|]. split; [exact G2|]. split; [exact G3|]. split; [exact Vc|]. split; [exact LR|]. split; [exact Sm|]. split; [exact Hm|]. split; [exact Hr|]. split; [exact Ht|].
  assert (Hh : / 2 <= sqrt (/ 2 * / 2 + dy * dy)). { rewrite <- (sqrt_square (/ 2)) at 1 by lra. apply sqrt_le_1_alt. assert (S := sq_ge dy). lra. }
  set (c0 := sqrt (/ 2 * / 2 + dy * dy)) in *.
  assert (T : bpow radix2 (-1000) <= / 1000 * e). { apply Rle_trans with (bpow radix2 (-10 + -52)); [apply bpow_le; lia|]. rewrite bpow_plus. apply Rmult_le_compat; try apply bpow_ge_0; [change (bpow radix2 (-10)) with (/ 1024); lra|lra]. }
  assert (eH : 0 < e * c0 <= / 1000000 * c0) by (split; [apply Rmult_lt_0_compat; lra|apply Rmult_le_compat_r; lra]).
  assert (eH2 : e * (/ 2) <= e * c0) by (apply Rmult_le_compat_l; lra).
  assert (Ec' : Rabs (c0 - c) <= 21 / 10 * (e * c0)) by (apply Rabs_le_inv in Ec; apply Rabs_le; lra).
  assert (Hc0 : c0 <= 101 / 100 * c) by (apply Rabs_le_inv in Ec'; lra).
  assert (Ic : 0 < / c) by now apply Rinv_0_lt_compat.
  assert (Q1 : Rabs ((c0 - c) / c) <= 3 * e).
  { unfold Rdiv. rewrite Rabs_mult, (Rabs_pos_eq (/ c)) by lra. apply Rmult_le_reg_r with c; auto. rewrite Rmult_assoc, Rinv_l, Rmult_1_r by lra. apply Rle_trans with (1 := Ec'). nra. }
  assert (Q2 : Rabs (c0 / c) <= 101 / 100).
  { rewrite Rabs_pos_eq by (apply Rmult_le_pos; lra). apply Rmult_le_reg_r with c; auto. unfold Rdiv. rewrite Rmult_assoc, Rinv_l, Rmult_1_r by lra. exact Hc0. }
  assert (Key : forall side, side = / 2 \/ side = - / 2 -> near_edge (528 * e * (R * R) / m + bpow radix2 (-48) * (1 + Rabs dx) * R) dx dy r i t side 0).
  { intros side Hs. destruct (C side Hs) as (k & Pk & Ek & O).
    assert (Hl : 0 <= k * c0) by (apply Rmult_le_pos; lra).
    assert (N := @scaled_near dx dy fx fy s c (k * c0) side 0 R Pc Hl LR O).
    apply near_edge_le with (2 := within_near N (W dx dy)).
    assert (Kk : Rabs (k * c0 / c - 1) <= bpow radix2 (-48) * (1 + Rabs dx) + 3 * e).
    { replace (k * c0 / c - 1) with ((k - 1) * (c0 / c) + (c0 - c) / c) by (field; lra). apply Rle_trans with (1 := abs_sum (abs_mul_le Ek Q2) Q1).
      assert (E2 : bpow radix2 (-48) = 2 * bpow radix2 (-49)) by (change (-48)%Z with (1 + -49)%Z; rewrite bpow_plus; reflexivity). rewrite E2. assert (P49 := bpow_gt_0 radix2 (-49)). assert (PX := Rabs_pos dx). nra. }
    assert (Z : e * R <= e * (R * R) / m). { apply Rmult_le_reg_r with m; [lra|]. replace (e * (R * R) / m * m) with (e * (R * R)) by (field; lra). assert (0 < e * R) by (apply Rmult_lt_0_compat; lra). nra. }
    assert (KR : Rabs (k * c0 / c - 1) * R <= (bpow radix2 (-48) * (1 + Rabs dx) + 3 * e) * R) by (apply Rmult_le_compat_r; lra).
    replace (528 * e * (R * R) / m) with (525 * e * (R * R) / m + 3 * (e * (R * R) / m)) by (field; lra). lra. }
  split; apply Key; auto.
Qed.
