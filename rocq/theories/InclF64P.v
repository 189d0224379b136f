(** The inclination computed in binary64. *)
From Coq Require Import ZArith Reals Lra Lia Bool.
From Flocq Require Import Core BinarySingleNaN.
From Verif Require Import Num NumP XLibm Geometry BuildFP SpecGeom SpecF64 Round64P GeomF64P GeomP GeomMoreP DiskErrP DiskF64P DiskF64ExP LibmF64P EdgeExP.
Local Open Scope R_scope.
Set Implicit Arguments.

Section Incl.
Variables (L : Libm f64) (e : R).
Hypotheses (Acc : accurate L e) (Elo : 2 * ulp1 <= e) (Ehi : e <= / 1000000).
Variables (fxv fyv sv cv : f64) (fx fy s c : R).
Hypotheses (Vx : f64_val fxv = XFin fx) (Vy : f64_val fyv = XFin fy) (Vs : f64_val sv = XFin s) (Vc : f64_val cv = XFin c).
Hypotheses (Px : 0 < fx) (Py : 0 < fy) (Pc : 0 < c) (Ox : ordinary fx) (Oy : ordinary fy) (Os : loose s) (Oc : ordinary c).

(** it lies between 0 and 90 degrees up to 5 e *)
Lemma incl_range rv iv tv r i : disk_parameters L fxv fyv sv cv = (rv, iv, tv) -> f64_val rv = XFin r -> 0 < r -> f64_val iv = XFin i ->
  - (5 * e) <= degrees i <= PI / 2 + 5 * e.
Proof.
  intros G Vr Pr Vi. assert (U := ulp1_pos). assert (E0 : 0 < e) by lra. assert (PB := PI_bounds).
  destruct (@directed L e Acc Elo Ehi fxv fyv sv fx fy s Vx Vy Vs Px Py Ox Oy Os) as (al & hh & Dh & Nh & _ & _ & _ & Hal & _ & t1 & t2 & V1 & V2 & E1 & E2).
  apply Rabs_le_inv in Hal. apply Rabs_le_inv in E1. apply Rabs_le_inv in E2.
  destruct (@distanced L e Acc Elo Ehi fxv fyv sv cv fx fy s c Vx Vy Vs Vc Px Py Pc Ox Oy Os Oc t1 _ V1) as (x1 & y1 & d1 & _ & _ & W1 & Q1 & _); [apply Rabs_le; lra|].
  destruct (@distanced L e Acc Elo Ehi fxv fyv sv cv fx fy s c Vx Vy Vs Vc Px Py Pc Ox Oy Os Oc t2 _ V2) as (x2 & y2 & d2 & _ & _ & W2 & Q2 & _); [apply Rabs_le; lra|].
  revert G. unfold disk_parameters. destruct (xy_at L fxv fyv (vertex_angle L fxv fyv sv) sv cv) as [xv1 yv1]. destruct (xy_at L fxv fyv (covertex_angle L fxv fyv sv) sv cv) as [xv2 yv2].
  cbn [fst snd] in *. cbv zeta. set (h1 := m_hypot L xv1 yv1) in *. set (h2 := m_hypot L xv2 yv2) in *.
  intros G. assert (G1 := f_equal (fun p => fst (fst p)) G). assert (G2 := f_equal (fun p => snd (fst p)) G). cbn [fst snd] in G1, G2. clear G. subst rv iv.
  assert (VM := np_max_val _ _ W1 W2). assert (Vm := np_min_val _ _ W1 W2).
  set (ma := Rmax d1 d2) in *. set (mi := Rmin d1 d2) in *.
  assert (Hmi : 0 <= mi <= ma) by (unfold mi, ma, Rmin, Rmax; destruct (Rle_dec d1 d2); lra).
  assert (Pma : 0 < ma) by (rewrite VM in Vr; injection Vr as ->; exact Pr).
  destruct (negb (n_isnan (n_mul (np_max h1 h2) (np_min h1 h2)))); [|exfalso; revert Vi; unfold to_deg; generalize (n_div (num2 180) (m_pi L)); intros z; destruct z; intros X; discriminate X].
  assert (Iq : 0 <= mi / ma <= 1).
  { split; [apply Rmult_le_pos; [lra|]; apply Rlt_le, Rinv_0_lt_compat; auto|]. apply Rmult_le_reg_r with ma; auto. unfold Rdiv. rewrite Rmult_assoc, Rinv_l by lra. lra. }
  assert (Hq : Rabs (mi / ma) <= B 1023). { rewrite Rabs_pos_eq by lra. apply Rle_trans with (B 0); [change (B 0) with 1; lra|apply bpow_le; lia]. }
  assert (Vq := div_correct _ _ Vm VM (Rgt_not_eq _ _ Pma) Hq).
  set (q := round radix2 (SpecFloat.fexp 53 1024) (round_mode mode_NE) (mi / ma)) in *.
  assert (Vexp : Valid_exp (SpecFloat.fexp 53 1024)) by (apply fexp_correct; reflexivity).
  assert (Qr : 0 <= q <= 1).
  { unfold q. split.
    - rewrite <- (round_0 radix2 (SpecFloat.fexp 53 1024) (round_mode mode_NE)). apply round_le; [exact Vexp|apply valid_rnd_round_mode|lra].
    - apply round_le_generic; [exact Vexp|apply valid_rnd_round_mode| |lra]. change 1 with (B 0). apply generic_format_bpow. unfold SpecFloat.fexp, SpecFloat.emin. lia. }
  destruct (a_acos Acc Vq Qr) as (ac & Vac & Eac). apply Rabs_le_inv in Eac.
  destruct (acos_range Qr) as [Ar _].
  destruct (@degreed L e Acc Elo Ehi _ ac Vac) as (i' & Vi' & Ei); [apply Rabs_le; lra|].
  rewrite Vi' in Vi. injection Vi as ->.
  assert (Ha : Rabs ac <= 9 / 5) by (apply Rabs_le; lra).
  assert (Gt : e * Rabs ac <= e * (9 / 5)) by (apply Rmult_le_compat_l; lra). apply Rabs_le_inv in Ei. lra.
Qed.
End Incl.

(** angles from their cosines *)
Lemma angle_gap a b k : 0 <= a <= 9 / 5 -> 0 <= b <= 9 / 5 -> Rabs (cos a - cos b) <= 2 * (k * k) -> 0 <= k ->
  Rabs (a - b) <= 4 * k /\ Rabs (a - b) * b <= 16 * (k * k).
Proof.
  intros Ha Hb H Hk. assert (PB := PI_bounds). rewrite form2 in H. rewrite !Rabs_mult in H.
  replace (Rabs (-2)) with 2 in H by (unfold Rabs; destruct (Rcase_abs (-2)); lra).
  set (v := (a + b) / 2) in *. set (u := Rabs (a - b) / 2).
  assert (Hu0 : 0 <= u) by (unfold u; assert (P := Rabs_pos (a - b)); lra).
  assert (Hu : u <= v /\ u + v <= 9 / 5 /\ u <= 1) by (unfold u, v, Rabs; destruct (Rcase_abs (a - b)); lra).
  assert (Es : Rabs (sin ((a - b) / 2)) = sin u).
  { assert (Z : 0 <= sin u) by (apply sin_ge_0; lra). destruct (Rle_or_lt 0 (a - b)) as [G|G].
    - assert (Q : (a - b) / 2 = u) by (unfold u; rewrite Rabs_pos_eq by lra; reflexivity). rewrite Q. apply Rabs_pos_eq. exact Z.
    - assert (Q : (a - b) / 2 = - u) by (unfold u; rewrite Rabs_left by lra; lra). rewrite Q, sin_neg, Rabs_Ropp. apply Rabs_pos_eq. exact Z. }
  rewrite Es in H. assert (Ev : Rabs (sin v) = sin v) by (apply Rabs_pos_eq, sin_ge_0; lra). rewrite Ev in H.
  assert (Mono : forall w, 0 <= w <= PI / 2 -> w <= v -> w + v <= PI -> sin w <= sin v).
  { intros w Hw Hwv Hs. destruct (Rle_dec v (PI / 2)).
    - apply sin_incr_1; lra.
    - rewrite <- (sin_PI_x v). apply sin_incr_1; lra. }
  assert (Uv : sin u <= sin v) by (apply Mono; lra).
  assert (Bv : sin (b / 2) <= sin v) by (apply Mono; unfold v; lra).
  assert (Uu := @sin_inv u). rewrite !Rabs_pos_eq in Uu by (try apply sin_ge_0; lra). specialize (Uu ltac:(lra)).
  assert (Bb := @sin_inv (b / 2)). rewrite !Rabs_pos_eq in Bb by (try apply sin_ge_0; lra). specialize (Bb ltac:(lra)).
  assert (S0 : 0 <= sin u) by (apply sin_ge_0; lra).
  assert (K : sin u <= k).
  { destruct (Rle_or_lt (sin u) k) as [|G]; auto. exfalso. assert (k * k < sin u * sin u) by (apply Rmult_le_0_lt_compat; lra).
    assert (sin u * sin u <= sin v * sin u) by (apply Rmult_le_compat_r; lra).
    replace (2 * sin u * sin v) with (2 * (sin v * sin u)) in H by ring. lra. }
  assert (Eu : Rabs (a - b) = 2 * u) by (unfold u; lra). rewrite Eu. split; [lra|].
  assert (W : sin u * sin (b / 2) <= sin u * sin v) by (apply Rmult_le_compat_l; lra).
  assert (W2 : u * (b / 2) <= (2 * sin u) * (2 * sin (b / 2))) by (apply Rmult_le_compat; lra).
  replace (2 * u * b) with (4 * (u * (b / 2))) by field.
  replace (2 * sin u * (2 * sin (b / 2))) with (4 * (sin u * sin (b / 2))) in W2 by ring.
  replace (2 * sin u * sin v) with (2 * (sin u * sin v)) in H by ring. lra.
Qed.

Theorem incl_accurate (L : Libm f64) e (fxv fyv sv cv : f64) fx fy s c : accurate L e -> bpow radix2 (-52) <= e <= / 1000000 ->
  f64_val fxv = XFin fx -> f64_val fyv = XFin fy -> f64_val sv = XFin s -> f64_val cv = XFin c ->
  0 < fx -> 0 < fy -> 0 < c -> ordinary fx -> ordinary fy -> loose s -> ordinary c ->
  exists rv iv tv i R m, disk_parameters L fxv fyv sv cv = (rv, iv, tv) /\ f64_val iv = XFin i /\
    largest_distance fx fy s c R /\ smallest_distance fx fy s c m /\
    - (5 * e) <= degrees i <= PI / 2 + 5 * e /\
    Rabs (degrees i - acos (m / R)) <= 21 * sqrt e /\ Rabs (degrees i - acos (m / R)) * acos (m / R) <= 420 * e.
Proof.
  intros Acc [E1 E2] Vx Vy Vs Vc Px Py Pc Ox Oy Os Oc. assert (Elo := E1). rewrite <- two_ulp in Elo.
  destruct (@disk64 L e Acc Elo E2 fxv fyv sv cv fx fy s c Vx Vy Vs Vc Px Py Pc Ox Oy Os Oc) as (rv & iv & tv & r & i & t & G & G1 & G2 & G3 & G4 & G5).
  destruct (@Rm_bounds fx fy s c Px Py Pc Ox Oy Os Oc) as [[Rl Rh] [Pm mR]].
  assert (LR := @major_largest fx fy s c Pc). assert (SM := @minor_smallest fx fy s c Pc).
  set (R := d_major fx fy s c) in *. set (m := d_minor fx fy s c) in *.
  assert (U := ulp1_pos). assert (E0 : 0 < e) by lra. assert (PB := PI_bounds).
  assert (PR : 0 < R) by lra. apply Rabs_le_inv in G4.
  assert (eR : 0 < e * R <= / 1000000 * R) by (split; [apply Rmult_lt_0_compat; auto|apply Rmult_le_compat_r; lra]).
  assert (Pr : 0 < r) by lra.
  assert (RG := @incl_range L e Acc Elo E2 fxv fyv sv cv fx fy s c Vx Vy Vs Vc Px Py Pc Ox Oy Os Oc rv iv tv r i G G1 Pr G2).
  exists rv, iv, tv, i, R, m. split; [exact G|]. split; [exact G2|]. split; [exact LR|]. split; [exact SM|]. split; [exact RG|].
  assert (Q : 0 <= m / R <= 1).
  { split; [apply Rmult_le_pos; [lra|]; apply Rlt_le, Rinv_0_lt_compat; auto|]. apply Rmult_le_reg_r with R; auto. unfold Rdiv. rewrite Rmult_assoc, Rinv_l by lra. lra. }
  destruct (acos_range Q) as [Br Cb]. set (b := acos (m / R)) in *. rewrite <- Cb in G5.
  set (a := degrees i) in *.
  assert (S2 : sqrt e * sqrt e = e) by (apply sqrt_sqrt; lra). assert (S0 : 0 < sqrt e) by (apply sqrt_lt_R0; lra).
  assert (S1 : sqrt e <= / 1000).
  { rewrite <- (sqrt_square (/ 1000)) by lra. apply sqrt_le_1_alt. lra. }
  assert (S3 : e <= / 1000 * sqrt e) by (rewrite <- S2 at 1; apply Rmult_le_compat_r; lra).
  assert (Ca : cos (Rabs a) = cos a) by (unfold Rabs; destruct (Rcase_abs a); [apply cos_neg|reflexivity]).
  assert (Ra : 0 <= Rabs a <= 9 / 5) by (split; [apply Rabs_pos|apply Rabs_le; lra]).
  destruct (@angle_gap (Rabs a) b (5 * sqrt e)) as [A1 A2]; [exact Ra|lra| |lra|].
  { rewrite Ca. replace (2 * (5 * sqrt e * (5 * sqrt e))) with (50 * (sqrt e * sqrt e)) by ring. rewrite S2. exact G5. }
  replace (16 * (5 * sqrt e * (5 * sqrt e))) with (400 * (sqrt e * sqrt e)) in A2 by ring. rewrite S2 in A2.
  assert (D : Rabs (a - b) <= Rabs (Rabs a - b) + 10 * e).
  { replace (a - b) with ((Rabs a - b) + (a - Rabs a)) by ring. apply Rle_trans with (1 := Rabs_triang _ _). apply Rplus_le_compat_l.
    unfold Rabs at 2. destruct (Rcase_abs a); apply Rabs_le; lra. }
  split; [lra|]. apply Rle_trans with ((Rabs (Rabs a - b) + 10 * e) * b); [apply Rmult_le_compat_r; lra|].
  rewrite Rmult_plus_distr_r. assert (10 * e * b <= 10 * e * 2) by (apply Rmult_le_compat_l; lra). lra.
Qed.
