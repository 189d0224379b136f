(** Gradients in binary64. *)
From Coq Require Import ZArith Reals List Bool Lia Lra.
From Flocq Require Import Core BinarySingleNaN Relative.
From Verif Require Import Num NumP Py XLibm Geometry GeomP GeomMoreP BuildFP Round64P GeomF64P DiskF64P LibmF64P SpecF64 SpecGrad.
Set Implicit Arguments.
Local Open Scope R_scope.
#[local] Instance vexp : Valid_exp (SpecFloat.fexp 53 1024). Proof. apply fexp_correct. reflexivity. Qed.
#[local] Instance vrnd : Valid_rnd (round_mode mode_NE). Proof. apply valid_rnd_round_mode. Qed.

(** *** sizes *)
Definition ranged (lo hi : Z) (r : R) : Prop := r = 0 \/ B lo <= Rabs r <= B hi.
Lemma ranged_weaken lo hi lo' hi' r : (lo' <= lo)%Z -> (hi <= hi')%Z -> ranged lo hi r -> ranged lo' hi' r.
Proof. intros A C [->|[P Q]]; [now left|]. right. split; [apply Rle_trans with (2 := P)|apply Rle_trans with (1 := Q)]; now apply bpow_le. Qed.
Lemma bpow_format k : (-1074 <= k)%Z -> generic_format radix2 (SpecFloat.fexp 53 1024) (B k).
Proof. intros H. apply generic_format_bpow. unfold SpecFloat.fexp, SpecFloat.emin. lia. Qed.
Lemma ranged_round lo hi r : (-1074 <= lo <= hi)%Z -> ranged lo hi r -> ranged lo hi (rnd r).
Proof.
  intros H [->|[P Q]]; [left; apply round_0; exact vrnd|]. right. split.
  - apply abs_round_ge_generic; [exact vexp|exact vrnd|apply bpow_format; lia|exact P].
  - apply abs_round_le_generic; [exact vexp|exact vrnd|apply bpow_format; lia|exact Q].
Qed.
Lemma ranged_mul lo hi lo' hi' a b : ranged lo hi a -> ranged lo' hi' b -> ranged (lo + lo') (hi + hi') (a * b).
Proof.
  intros [->|[P Q]]; [left; ring|]. intros [->|[P' Q']]; [left; ring|]. right. rewrite Rabs_mult, !bpow_plus.
  split; apply Rmult_le_compat; auto using bpow_ge_0, Rabs_pos.
Qed.
Lemma ranged_opp lo hi r : ranged lo hi r -> ranged lo hi (- r).
Proof. intros [->|H]; [left; ring|right; now rewrite Rabs_Ropp]. Qed.
Lemma ranged_in lo hi r : (-1022 <= lo)%Z -> (hi <= 1023)%Z -> ranged lo hi r -> in_range r.
Proof. intros A C H. exact (ranged_weaken A C H). Qed.
(** a sum of two numbers of this kind is zero or not small *)
Lemma multiple lo r : generic_format radix2 (SpecFloat.fexp 53 1024) r -> B lo <= Rabs r -> exists m : Z, r = IZR m * B (lo - 53).
Proof.
  intros F H. assert (N : r <> 0). { intros ->. rewrite Rabs_R0 in H. assert (X := bpow_gt_0 radix2 lo). lra. }
  assert (M : (lo < mag radix2 r)%Z) by now apply mag_gt_bpow.
  rewrite F. unfold F2R. cbn [Fnum Fexp]. set (k := cexp radix2 (SpecFloat.fexp 53 1024) r).
  assert (K : (lo - 53 <= k)%Z) by (unfold k, cexp, SpecFloat.fexp, SpecFloat.emin; lia).
  exists (Ztrunc (scaled_mantissa radix2 (SpecFloat.fexp 53 1024) r) * 2 ^ (k - (lo - 53)))%Z.
  rewrite mult_IZR, Rmult_assoc. f_equal.
  replace (IZR (2 ^ (k - (lo - 53)))) with (B (k - (lo - 53))) by (symmetry; apply (IZR_Zpower radix2); lia).
  rewrite <- bpow_plus. f_equal. ring.
Qed.
Lemma ranged_multiple lo hi r : generic_format radix2 (SpecFloat.fexp 53 1024) r -> ranged lo hi r -> exists m : Z, r = IZR m * B (lo - 53).
Proof. intros F [->|[P Q]]; [exists 0%Z; ring|now apply multiple]. Qed.
Lemma ranged_sum lo hi a b : generic_format radix2 (SpecFloat.fexp 53 1024) a -> generic_format radix2 (SpecFloat.fexp 53 1024) b ->
  ranged lo hi a -> ranged lo hi b -> ranged (lo - 53) (hi + 1) (a + b).
Proof.
  intros Fa Fb Ra Rb. destruct (ranged_multiple Fa Ra) as [m Ea], (ranged_multiple Fb Rb) as [n Eb].
  destruct (Z.eq_dec (m + n) 0) as [Z|Z].
  - left. rewrite Ea, Eb, <- Rmult_plus_distr_r, <- plus_IZR, Z. ring.
  - right. split.
    + rewrite Ea, Eb, <- Rmult_plus_distr_r, <- plus_IZR, Rabs_mult, (Rabs_pos_eq (B _)) by apply bpow_ge_0.
      rewrite <- abs_IZR. assert (X := bpow_gt_0 radix2 (lo - 53)). assert (Y : 1 <= IZR (Z.abs (m + n))) by (apply IZR_le; lia).
      apply Rle_trans with (1 * B (lo - 53)); [lra|]. apply Rmult_le_compat_r; lra.
    + rewrite bpow_plus. change (B 1) with 2. assert (X := bpow_gt_0 radix2 hi). assert (T := Rabs_triang a b).
      assert (Rabs a <= B hi) by (destruct Ra as [->|]; [rewrite Rabs_R0; lra|tauto]).
      assert (Rabs b <= B hi) by (destruct Rb as [->|]; [rewrite Rabs_R0; lra|tauto]). lra.
Qed.

(** *** one operation: its value, its error and its size *)
Lemma mul_r (x y : f64) a b lo hi lo' hi' : f64_val x = XFin a -> f64_val y = XFin b -> ranged lo hi a -> ranged lo' hi' b ->
  (-1022 <= lo + lo')%Z -> (hi + hi' <= 1023)%Z -> (lo + lo' <= hi + hi')%Z ->
  exists r d, f64_val (n_mul x y) = XFin r /\ ranged (lo + lo') (hi + hi') r /\ Rabs d <= ulp1 /\ r = a * b * (1 + d).
Proof.
  intros X Y Ra Rb L H LH. assert (R := ranged_mul Ra Rb). assert (I := ranged_in L H R). destruct (rnd_range I) as (d & D & E).
  exists (rnd (a * b)), d. repeat split; auto.
  - exact (mul_correct _ _ X Y (in_range_le I)).
  - apply ranged_round; auto. lia.
Qed.
Lemma add_r (x y : f64) a b lo hi : f64_val x = XFin a -> f64_val y = XFin b -> ranged lo hi a -> ranged lo hi b ->
  (-900 <= lo)%Z -> (hi <= 1022)%Z -> (lo <= hi)%Z ->
  exists r d, f64_val (n_add x y) = XFin r /\ ranged (lo - 53) (hi + 1) r /\ Rabs d <= ulp1 /\ r = (a + b) * (1 + d).
Proof.
  intros X Y Ra Rb L H LH. assert (R := ranged_sum (f64_format _ X) (f64_format _ Y) Ra Rb).
  assert (I : in_range (a + b)) by (apply ranged_in with (3 := R); lia). destruct (rnd_range I) as (d & D & E).
  exists (rnd (a + b)), d. repeat split; auto.
  - exact (add_correct _ _ X Y (in_range_le I)).
  - apply ranged_round; auto. lia.
Qed.
Lemma sub_r (x y : f64) a b lo hi : f64_val x = XFin a -> f64_val y = XFin b -> ranged lo hi a -> ranged lo hi b ->
  (-900 <= lo)%Z -> (hi <= 1022)%Z -> (lo <= hi)%Z ->
  exists r d, f64_val (n_sub x y) = XFin r /\ ranged (lo - 53) (hi + 1) r /\ Rabs d <= ulp1 /\ r = (a - b) * (1 + d).
Proof.
  intros X Y Ra Rb L H LH. assert (R : ranged (lo - 53) (hi + 1) (a - b)).
  { apply ranged_sum; auto; [now apply f64_format in X|apply generic_format_opp; now apply f64_format in Y|now apply ranged_opp]. }
  assert (I : in_range (a - b)) by (apply ranged_in with (3 := R); lia). destruct (rnd_range I) as (d & D & E).
  exists (rnd (a - b)), d. repeat split; auto.
  - exact (sub_correct _ _ X Y (in_range_le I)).
  - apply ranged_round; auto. lia.
Qed.

(** *** relative errors of any sign *)
Definition rel (k x y : R) : Prop := exists d, Rabs d <= k * ulp1 /\ x = y * (1 + d).
Lemma rel_refl x : rel 0 x x.
Proof. exists 0. rewrite Rabs_R0. split; ring_simplify; lra. Qed.
Lemma rel_weaken j k x y : j <= k -> rel j x y -> rel k x y.
Proof. intros J (d & D & E). exists d. split; auto. assert (U := ulp1_pos). nra. Qed.
Lemma rel_round k x y d r : 0 <= k <= 1000 -> rel k x y -> Rabs d <= ulp1 -> r = x * (1 + d) -> rel (k + 2) r y.
Proof.
  intros K (f & F & ->) D ->. exists (f + d + f * d). split; [|ring]. assert (U := ulp1_pos).
  assert (T := Rabs_triang (f + d) (f * d)). assert (T' := Rabs_triang f d). rewrite Rabs_mult in T.
  assert (Rabs f * Rabs d <= (k * ulp1) * ulp1) by (apply Rmult_le_compat; auto using Rabs_pos).
  assert (k * ulp1 <= 1) by nra. assert (k * ulp1 * ulp1 <= 1 * ulp1) by (apply Rmult_le_compat_r; lra). lra.
Qed.
Lemma rel_mul j k x y x' y' : 0 <= j <= 1000 -> 0 <= k <= 1000 -> rel j x y -> rel k x' y' -> rel (j + k + 1) (x * x') (y * y').
Proof.
  intros J K (f & F & ->) (d & D & ->). exists (f + d + f * d). split; [|ring]. assert (U := ulp1_pos).
  assert (T := Rabs_triang (f + d) (f * d)). assert (T' := Rabs_triang f d). rewrite Rabs_mult in T.
  assert (Rabs f * Rabs d <= (j * ulp1) * (k * ulp1)) by (apply Rmult_le_compat; auto using Rabs_pos).
  assert (j * ulp1 * k <= 1). { apply Rle_trans with (1000 * ulp1 * 1000); [apply Rmult_le_compat; nra|lra]. }
  assert (j * ulp1 * k * ulp1 <= 1 * ulp1) by (apply Rmult_le_compat_r; lra). lra.
Qed.
Lemma rel_abs k x y : rel k x y -> Rabs (x - y) <= k * ulp1 * Rabs y.
Proof. intros (d & D & ->). replace (y * (1 + d) - y) with (d * y) by ring. rewrite Rabs_mult. apply Rmult_le_compat_r; auto using Rabs_pos. Qed.
Lemma abs_rel k x y : 0 < y -> Rabs (x - y) <= k * ulp1 * y -> rel k x y.
Proof.
  intros Y H. exists ((x - y) / y). split; [|field; lra]. unfold Rdiv. rewrite Rabs_mult, (Rabs_pos_eq (/ y)) by now apply Rlt_le, Rinv_0_lt_compat.
  apply Rmult_le_reg_r with y; auto. rewrite Rmult_assoc, Rinv_l; lra.
Qed.
Lemma rel_add_pos k x y x' y' : 0 <= k -> 0 <= y -> 0 <= y' -> rel k x y -> rel k x' y' -> rel k (x + x') (y + y').
Proof.
  intros K Y Y' H H'. assert (U := ulp1_pos). destruct (Req_dec (y + y') 0) as [Z|Z].
  - assert (y = 0) as -> by lra. assert (y' = 0) as -> by lra. destruct H as (d & _ & ->), H' as (d' & _ & ->). exists 0. rewrite Rabs_R0. split; nra.
  - apply abs_rel; [lra|]. apply rel_abs in H. apply rel_abs in H'. rewrite (Rabs_pos_eq y) in H by auto. rewrite (Rabs_pos_eq y') in H' by auto.
    assert (T := Rabs_triang (x - y) (x' - y')). replace (x - y + (x' - y')) with (x + x' - (y + y')) in T by ring. lra.
Qed.
(** a sum with cancellation *)
Lemma rel_sum k x y x' y' d r : 0 <= k <= 1000 -> rel k x y -> rel k x' y' -> Rabs d <= ulp1 -> r = (x + x') * (1 + d) ->
  Rabs (r - (y + y')) <= (k + 2) * ulp1 * (Rabs y + Rabs y').
Proof.
  intros K H H' D ->. assert (U := ulp1_pos). destruct (rel_round K H D eq_refl) as (f & F & E), (rel_round K H' D eq_refl) as (f' & F' & E').
  rewrite Rmult_plus_distr_r, E, E'. replace (y * (1 + f) + y' * (1 + f') - (y + y')) with (f * y + f' * y') by ring.
  assert (T := Rabs_triang (f * y) (f' * y')). rewrite !Rabs_mult in T.
  assert (Rabs f * Rabs y <= (k + 2) * ulp1 * Rabs y) by (apply Rmult_le_compat_r; auto using Rabs_pos).
  assert (Rabs f' * Rabs y' <= (k + 2) * ulp1 * Rabs y') by (apply Rmult_le_compat_r; auto using Rabs_pos). lra.
Qed.

(** *** directions *)
Lemma length2_nonneg a b : 0 <= length2 a b. Proof. apply sqrt_pos. Qed.
Lemma length2_ge a b : Rabs a <= length2 a b /\ Rabs b <= length2 a b.
Proof. unfold length2. split; rewrite <- sqrt_Rsqr_abs; apply sqrt_le_1_alt; unfold Rsqr; nra. Qed.
Lemma length2_pos a b : (a <> 0 \/ b <> 0) -> 0 < length2 a b.
Proof. intros H. apply sqrt_lt_R0. destruct H; nra. Qed.
Lemma length2_close a b a' b' : length2 a b <= length2 a' b' + Rabs (a' - a) + Rabs (b' - b).
Proof.
  destruct (length2_ge a' b') as [P Q]. assert (N := length2_nonneg a' b'). assert (X := Rabs_pos (a' - a)). assert (Y := Rabs_pos (b' - b)).
  unfold length2 at 1. rewrite <- (sqrt_square (length2 a' b' + _ + _)) by lra. apply sqrt_le_1_alt.
  assert (E : length2 a' b' * length2 a' b' = a' * a' + b' * b') by (unfold length2; apply sqrt_sqrt; nra).
  set (h := length2 a' b') in *. set (u := Rabs (a' - a)) in *. set (v := Rabs (b' - b)) in *.
  assert (A : a * a <= a' * a' + 2 * h * u + u * u).
  { assert (U : u * u = (a' - a) * (a' - a)) by (unfold u; rewrite <- Rabs_mult; apply Rabs_pos_eq; apply Rle_0_sqr).
    assert (M : - (a' * (a' - a)) <= h * u). { apply Rle_trans with (1 := Rle_abs _). rewrite Rabs_Ropp, Rabs_mult. apply Rmult_le_compat_r; auto. }
    replace (a * a) with (a' * a' - 2 * (a' * (a' - a)) + (a' - a) * (a' - a)) by ring. lra. }
  assert (B' : b * b <= b' * b' + 2 * h * v + v * v).
  { assert (U : v * v = (b' - b) * (b' - b)) by (unfold v; rewrite <- Rabs_mult; apply Rabs_pos_eq; apply Rle_0_sqr).
    assert (M : - (b' * (b' - b)) <= h * v). { apply Rle_trans with (1 := Rle_abs _). rewrite Rabs_Ropp, Rabs_mult. apply Rmult_le_compat_r; auto. }
    replace (b * b) with (b' * b' - 2 * (b' * (b' - b)) + (b' - b) * (b' - b)) by ring. lra. }
  assert (0 <= u * v) by now apply Rmult_le_pos.
  replace ((h + u + v) * (h + u + v)) with (h * h + 2 * h * u + u * u + 2 * h * v + v * v + 2 * (u * v)) by ring. lra.
Qed.
Lemma direction_close a b a' b' : 0 < length2 a b -> 0 < length2 a' b' ->
  Rabs (Rabs a' / length2 a' b' - Rabs a / length2 a b) <= 2 * (Rabs (a' - a) + Rabs (b' - b)) / length2 a b.
Proof.
  intros H H'. set (h := length2 a b) in *. set (h' := length2 a' b') in *. apply Rmult_le_reg_r with h; auto.
  replace (2 * (Rabs (a' - a) + Rabs (b' - b)) / h * h) with (2 * (Rabs (a' - a) + Rabs (b' - b))) by (field; lra).
  rewrite <- (Rabs_pos_eq h) at 2 by lra. rewrite <- Rabs_mult.
  replace ((Rabs a' / h' - Rabs a / h) * h) with (Rabs a' / h' * (h - h') + (Rabs a' - Rabs a)) by (field; lra).
  apply Rle_trans with (1 := Rabs_triang _ _). rewrite Rabs_mult.
  assert (Q : Rabs (Rabs a' / h') <= 1).
  { unfold Rdiv. rewrite Rabs_mult, Rabs_Rabsolu, (Rabs_pos_eq (/ h')) by now apply Rlt_le, Rinv_0_lt_compat.
    apply Rmult_le_reg_r with h'; auto. rewrite Rmult_assoc, Rinv_l by lra. destruct (length2_ge a' b'). unfold h'. lra. }
  assert (D : Rabs (h - h') <= Rabs (a' - a) + Rabs (b' - b)).
  { apply Rabs_le. assert (X := length2_close a b a' b'). assert (Y := length2_close a' b' a b). rewrite (Rabs_minus_sym a), (Rabs_minus_sym b) in Y.
    unfold h, h'. lra. }
  assert (M := Rabs_triang_inv2 a' a).
  assert (P := Rabs_pos (h - h')). assert (Rabs (Rabs a' / h') * Rabs (h - h') <= 1 * Rabs (h - h')) by (apply Rmult_le_compat_r; auto).
  assert (Z := Rabs_pos (b' - b)). lra.
Qed.

(** *** the numerator and the denominator of the tangent *)
Lemma neg_val (x : f64) a : f64_val x = XFin a -> f64_val (n_neg x) = XFin (- a).
Proof. intros X. cbn [n_neg Num_f64]. rewrite f64_neg, X. reflexivity. Qed.
Lemma sized_ranged k r : sized k r -> ranged (- k) k r. Proof. exact (fun H => H). Qed.
Ltac lia0 := cbn; lia.
Lemma mul_k j k (x y : f64) a b a0 b0 lo hi lo' hi' : 0 <= j <= 100 -> 0 <= k <= 100 ->
  f64_val x = XFin a -> f64_val y = XFin b -> ranged lo hi a -> ranged lo' hi' b -> rel j a a0 -> rel k b b0 ->
  (-1022 <= lo + lo')%Z -> (hi + hi' <= 1023)%Z -> (lo + lo' <= hi + hi')%Z ->
  exists r, f64_val (n_mul x y) = XFin r /\ ranged (lo + lo') (hi + hi') r /\ rel (j + k + 3) r (a0 * b0).
Proof.
  intros J K X Y Ra Rb Ea Eb L H LH. destruct (mul_r _ _ X Y Ra Rb L H LH) as (r & d & V & R & D & E). exists r. repeat split; auto.
  replace (j + k + 3) with (j + k + 1 + 2) by ring. assert (M : rel (j + k + 1) (a * b) (a0 * b0)) by (apply rel_mul; auto; lra).
  exact (rel_round (k := j + k + 1) ltac:(lra) M D E).
Qed.
Section Slope.
Variables (pv dxv dyv sv fxv fyv : f64) (p dx dy s fx fy : R).
Hypothesis P : f64_val pv = XFin p.
Hypothesis X : f64_val dxv = XFin dx.
Hypothesis Y : f64_val dyv = XFin dy.
Hypothesis S : f64_val sv = XFin s.
Hypothesis FX : f64_val fxv = XFin fx.
Hypothesis FY : f64_val fyv = XFin fy.
Hypothesis Rp : sized 50 p.
Hypothesis Rx : sized 50 dx.
Hypothesis Ry : sized 50 dy.
Hypothesis Rs : sized 101 s.
Hypothesis Rfx : sized 50 fx.
Hypothesis Rfy : sized 50 fy.
Let numv := n_sub (n_mul (n_mul (n_neg sv) (n_sq fyv)) (n_neg dyv)) (n_mul (n_sq fyv) (n_sub pv dxv)).
Let denv := n_add (n_mul (n_add (n_mul (n_sq sv) (n_sq fyv)) (n_sq fxv)) (n_neg dyv)) (n_mul (n_mul sv (n_sq fyv)) (n_sub pv dxv)).

Lemma slope : exists n d, f64_val numv = XFin n /\ f64_val denv = XFin d /\ ranged (-304) 252 n /\ ranged (-458) 354 d /\
  Rabs (n - rise p dx dy s fy) + Rabs (d - run p dx dy s fx fy) <= 16 * ulp1 * terms p dx dy s fx fy.
Proof.
  assert (U := ulp1_pos).
  assert (Q : forall (v : f64) r k, f64_val v = XFin r -> sized k r -> (0 <= k <= 200)%Z ->
     exists q, f64_val (n_sq v) = XFin q /\ ranged (- k + - k) (k + k) q /\ rel 3 q (r * r)).
  { intros v r k V R K. apply sized_ranged in R. destruct (mul_k (j := 0) (k := 0) _ _ ltac:(lra) ltac:(lra) V V R R (rel_refl r) (rel_refl r)) as (q & A & C & D); try lia.
    exists q. repeat split; auto. apply rel_weaken with (2 := D). lra. }
  destruct (Q _ _ _ FY Rfy ltac:(lia)) as (F & VF & RF & EF). destruct (Q _ _ _ FX Rfx ltac:(lia)) as (G & VG & RG & EG).
  destruct (Q _ _ _ S Rs ltac:(lia)) as (SS & VS & RS & ES). clear Q.
  assert (Ny := neg_val _ Y). assert (Ns := neg_val _ S). assert (Ry' := ranged_opp (sized_ranged Ry)). assert (Rs' := ranged_opp (sized_ranged Rs)).
  destruct (sub_r _ _ P X (sized_ranged Rp) (sized_ranged Rx)) as (x & d1 & Vx & Rx' & D1 & E1); try lia.
  assert (Ex : rel 1 x (p - dx)) by (exists d1; split; [lra|exact E1]).
  destruct (mul_k (j := 0) (k := 3) _ _ ltac:(lra) ltac:(lra) Ns VF Rs' RF (rel_refl _) EF) as (a1 & Va1 & Ra1 & Ea1); try lia.
  destruct (mul_k (j := 0 + 3 + 3) (k := 0) _ _ ltac:(lra) ltac:(lra) Va1 Ny Ra1 Ry' Ea1 (rel_refl _)) as (a & Va & Ra & Ea); try lia.
  destruct (mul_k (j := 3) (k := 1) _ _ ltac:(lra) ltac:(lra) VF Vx RF Rx' EF Ex) as (b & Vb & Rb & Eb); try lia.
  cbn in Ra, Rb. destruct (sub_r (lo := -251) (hi := 251) _ _ Va Vb) as (n & d2 & Vn & Rn & D2 & E2); try lia;
    [apply ranged_weaken with (3 := Ra); lia|apply ranged_weaken with (3 := Rb); lia|].
  destruct (mul_k (j := 3) (k := 3) _ _ ltac:(lra) ltac:(lra) VS VF RS RF ES EF) as (c & Vc & Rc & Ec); try lia.
  cbn in Rc, RG. destruct (add_r (lo := -302) (hi := 302) _ _ Vc VG) as (q & d3 & Vq & Rq & D3 & E3); try lia;
    [apply ranged_weaken with (3 := Rc); lia|apply ranged_weaken with (3 := RG); lia|].
  assert (Eq : rel 11 q (s * s * (fy * fy) + fx * fx)).
  { apply rel_weaken with (3 + 3 + 3 + 2); [lra|]. apply rel_round with (3 := D3) (4 := E3); [lra|].
    apply rel_add_pos; [lra| |apply Rle_0_sqr|exact Ec|apply rel_weaken with (2 := EG); lra].
    apply Rmult_le_pos; apply Rle_0_sqr. }
  destruct (mul_k (j := 11) (k := 0) _ _ ltac:(lra) ltac:(lra) Vq Ny Rq Ry' Eq (rel_refl _)) as (g & Vg & Rg & Eg); try lia.
  destruct (mul_k (j := 0) (k := 3) _ _ ltac:(lra) ltac:(lra) S VF (sized_ranged Rs) RF (rel_refl _) EF) as (h1 & Vh1 & Rh1 & Eh1); try lia.
  destruct (mul_k (j := 0 + 3 + 3) (k := 1) _ _ ltac:(lra) ltac:(lra) Vh1 Vx Rh1 Rx' Eh1 Ex) as (h & Vh & Rh & Eh); try lia.
  cbn in Rg, Rh. destruct (add_r (lo := -405) (hi := 353) _ _ Vg Vh) as (d & d4 & Vd & Rd & D4 & E4); try lia;
    [apply ranged_weaken with (3 := Rg); lia|apply ranged_weaken with (3 := Rh); lia|].
  exists n, d. split; [exact Vn|]. split; [exact Vd|]. split; [exact Rn|]. split; [exact Rd|].
  (* the errors *)
  assert (Nb : rel (3 + 1 + 3) (- b) (- (fy * fy * (p - dx)))) by (destruct Eb as (w & W & ->); exists w; split; [auto|ring]).
  apply (rel_weaken (k := 14)) in Ea; [|lra]. apply (rel_weaken (k := 14)) in Nb; [|lra].
  assert (H1 := rel_sum (k := 14) (x := a) (x' := - b) (d := d2) (r := n) ltac:(lra) Ea Nb D2 E2).
  apply (rel_weaken (k := 14)) in Eg; [|lra]. apply (rel_weaken (k := 14)) in Eh; [|lra].
  assert (H2 := rel_sum (k := 14) (x := g) (x' := h) (d := d4) (r := d) ltac:(lra) Eg Eh D4 E4).
  replace (- s * (fy * fy) * - dy + - (fy * fy * (p - dx))) with (rise p dx dy s fy) in H1 by (unfold rise; ring).
  replace ((s * s * (fy * fy) + fx * fx) * - dy + s * (fy * fy) * (p - dx)) with (run p dx dy s fx fy) in H2 by (unfold run; ring).
  replace (- s * (fy * fy) * - dy) with (s * (fy * fy) * dy) in H1 by ring. rewrite Rabs_Ropp in H1.
  rewrite (Rabs_mult _ (- dy)), Rabs_Ropp, (Rabs_pos_eq (s * s * (fy * fy) + fx * fx)) in H2
    by (apply Rplus_le_le_0_compat; [apply Rmult_le_pos|]; apply Rle_0_sqr).
  unfold terms. lra.
Qed.
End Slope.

(** *** from the slope to the gradient *)
Lemma sine_of_slope n d al : d <> 0 -> 1 = sqrt (1 * 1 + n / d * (n / d)) * cos al -> n / d = sqrt (1 * 1 + n / d * (n / d)) * sin al ->
  Rabs (sin al) = Rabs n / length2 n d.
Proof.
  intros D C S. set (t := n / d) in *. assert (K : 0 < 1 * 1 + t * t) by (assert (X := Rle_0_sqr t); unfold Rsqr in X; lra).
  assert (Q := sqrt_lt_R0 _ K). set (q := sqrt (1 * 1 + t * t)) in *.
  assert (E : length2 n d = Rabs d * q).
  { unfold length2. replace (n * n + d * d) with (d * d * (1 * 1 + t * t)) by (unfold t; field; auto).
    rewrite sqrt_mult_alt by apply Rle_0_sqr. fold q. f_equal. apply sqrt_Rsqr_abs. }
  assert (Pd : 0 < Rabs d) by now apply Rabs_pos_lt.
  rewrite E. assert (N : Rabs n = Rabs t * Rabs d) by (rewrite <- Rabs_mult; f_equal; unfold t; field; auto). rewrite N.
  assert (Z : Rabs t = q * Rabs (sin al)) by (rewrite S at 1; rewrite Rabs_mult, (Rabs_pos_eq q) by lra; reflexivity). rewrite Z. field. lra.
Qed.

Lemma sin_lip x y : Rabs (sin x - sin y) <= Rabs (x - y).
Proof. rewrite <- !cos_shift. apply Rle_trans with (1 := cos_lip _ _). right. rewrite <- Rabs_Ropp. f_equal. ring. Qed.
Definition gradient_of (L : Libm f64) (nv dv : f64) : f64 :=
  n_abs (m_sin L (m_atan2 L (if negb (n_eq dv n_zero) then n_div nv dv else n_nan) n_one)).
Lemma from_slope L e (nv dv : f64) n d a b W : accurate L e -> 0 <= e <= / 1000000 -> keeps_nan L ->
  f64_val nv = XFin n -> f64_val dv = XFin d -> ranged (-304) 252 n -> ranged (-458) 354 d ->
  Rabs (n - a) + Rabs (d - b) <= 20 * ulp1 * W -> Rabs a <= W -> 0 < length2 a b ->
  (exists g, f64_val (gradient_of L nv dv) = XFin g /\ 0 <= g /\ Rabs (g - Rabs a / length2 a b) <= 5 * e + 64 * ulp1 * (W / length2 a b)) \/
  (f64_val (gradient_of L nv dv) = XNaN /\ Rabs b <= 32 * ulp1 * W).
Proof.
  intros A E0 [Ks Ka] Vn Vd Rn Rd H Ha Hh. assert (U := ulp1_pos). unfold gradient_of.
  assert (Z0 : f64_val (n_zero : f64) = XFin 0) by exact (of_Z 0 ltac:(lia)).
  assert (Z1 : f64_val (n_one : f64) = XFin 1) by exact (of_Z 1 ltac:(lia)).
  assert (W0 : 0 <= W) by (apply Rle_trans with (2 := Ha); apply Rabs_pos).
  assert (Q : n_eq dv n_zero = if Req_EM_T d 0 then true else false).
  { cbn [n_eq Num_f64]. rewrite f64_eq, Vd. change (@n_zero f64 Num_f64) with (n_zero : f64). rewrite Z0. cbn [x_eq]. destruct (Req_EM_T d 0); reflexivity. }
  rewrite Q. destruct (Req_EM_T d 0) as [D0|D0].
  - right. cbn [negb]. split.
    + cbn [n_abs Num_f64]. rewrite f64_abs, Ks; [reflexivity|]. apply Ka. reflexivity.
    + rewrite D0 in H. rewrite Rminus_0_l, Rabs_Ropp in H. assert (X := Rabs_pos (n - a)). assert (0 <= ulp1 * W) by (apply Rmult_le_pos; lra). lra.
  - left. cbn [negb].
    assert (Rt : in_range (n / d)).
    { assert (Ri : ranged (-354) 458 (/ d)).
      { destruct Rd as [|[P1 P2]]; [contradiction|]. right. rewrite Rabs_inv. split.
        - change (-354)%Z with (- (354))%Z. rewrite bpow_opp. apply Rinv_le; [now apply Rabs_pos_lt|exact P2].
        - change 458%Z with (- -458)%Z. rewrite bpow_opp. apply Rinv_le; [apply bpow_gt_0|exact P1]. }
      apply ranged_in with (3 := ranged_mul Rn Ri); lia. }
    destruct (div64 _ _ Vn Vd D0 Rt) as (f & F & Vt). set (t := n_div nv dv) in *.
    set (n' := n * (1 + f)). assert (Et : n / d * (1 + f) = n' / d) by (unfold n'; field; auto). rewrite Et in Vt.
    destruct (a_atan2 A Vt Z1) as (v & al & Va & E1 & B1 & C1 & C2).
    assert (Bv : Rabs v <= 8). { assert (T := Rabs_triang (v - al) al). replace (v - al + al) with v in T by ring. assert (PI4 := PI_4). lra. }
    destruct (a_sin A Va Bv) as (w & Vw & Ew).
    assert (S : Rabs (sin al) = Rabs n' / length2 n' d) by (apply sine_of_slope; auto).
    exists (Rabs w). split; [cbn [n_abs Num_f64]; rewrite f64_abs, Vw; reflexivity|]. split; [apply Rabs_pos|].
    assert (S1 : Rabs (Rabs w - Rabs (sin al)) <= 5 * e).
    { apply Rle_trans with (1 := Rabs_triang_inv2 _ _). replace (w - sin al) with (w - sin v + (sin v - sin al)) by ring.
      apply Rle_trans with (1 := Rabs_triang _ _). assert (X := sin_lip v al). lra. }
    assert (Hp : 0 < length2 n' d) by (apply length2_pos; auto).
    assert (Dc := direction_close _ _ _ _ Hh Hp). rewrite <- S in Dc.
    assert (Hn : Rabs (n' - a) <= Rabs (n - a) + ulp1 * (W + Rabs (n - a))).
    { unfold n'. replace (n * (1 + f) - a) with (n - a + f * n) by ring. apply Rle_trans with (1 := Rabs_triang _ _). apply Rplus_le_compat_l.
      rewrite Rabs_mult. apply Rmult_le_compat; auto using Rabs_pos. assert (T := Rabs_triang (n - a) a). replace (n - a + a) with n in T by ring. lra. }
    assert (T : Rabs (n' - a) + Rabs (d - b) <= 32 * ulp1 * W).
    { assert (Y := Rabs_pos (d - b)). assert (0 <= ulp1 * W) by (apply Rmult_le_pos; lra).
      assert (ulp1 * Rabs (n - a) <= ulp1 * W). { apply Rmult_le_compat_l; [lra|]. apply Rle_trans with (20 * ulp1 * W); [lra|]. rewrite <- (Rmult_1_l W) at 2. apply Rmult_le_compat_r; lra. }
      lra. }
    assert (Dd : Rabs (Rabs (sin al) - Rabs a / length2 a b) <= 64 * ulp1 * (W / length2 a b)).
    { apply Rle_trans with (1 := Dc). unfold Rdiv. rewrite <- Rmult_assoc. apply Rmult_le_compat_r; [apply Rlt_le, Rinv_0_lt_compat; auto|]. lra. }
    replace (Rabs w - Rabs a / length2 a b) with (Rabs w - Rabs (sin al) + (Rabs (sin al) - Rabs a / length2 a b)) by ring.
    apply Rle_trans with (1 := Rabs_triang _ _). lra.
Qed.

(** *** the theorems *)
Lemma gradient_is L (pv dxv dyv sv fxv fyv : f64) : gradient_at L pv dxv dyv sv fxv fyv =
  gradient_of L (n_sub (n_mul (n_mul (n_neg sv) (n_sq fyv)) (n_neg dyv)) (n_mul (n_sq fyv) (n_sub pv dxv)))
    (n_add (n_mul (n_add (n_mul (n_sq sv) (n_sq fyv)) (n_sq fxv)) (n_neg dyv)) (n_mul (n_mul sv (n_sq fyv)) (n_sub pv dxv))).
Proof. exact eq_refl. Qed.
Lemma exact_gradient p dx dy s fx fy : gradient_at Libm_xr (XFin p) (XFin dx) (XFin dy) (XFin s) (XFin fx) (XFin fy) =
  if Req_EM_T (run p dx dy s fx fy) 0 then XNaN else XFin (Rabs (rise p dx dy s fy) / length2 (rise p dx dy s fy) (run p dx dy s fx fy)).
Proof.
  rewrite gradient_xr. cbv zeta.
  replace ((s * s * (fy * fy) + fx * fx) * - dy + s * (fy * fy) * (p - dx)) with (run p dx dy s fx fy) by (unfold run; ring).
  replace (- s * (fy * fy) * - dy - fy * fy * (p - dx)) with (rise p dx dy s fy) by (unfold rise; ring).
  destruct (Req_EM_T (run p dx dy s fx fy) 0) as [Z|Z]; [reflexivity|]. f_equal. apply sine_of_slope; auto; set (t := _ / _);
    replace (1 * 1 + t * t) with (1 + t²) by (unfold Rsqr; ring); assert (K : 0 < sqrt (1 + t²)) by (apply sqrt_lt_R0; assert (X := Rle_0_sqr t); lra).
  - rewrite cos_atan. field. lra.
  - rewrite sin_atan. field. lra.
Qed.
Lemma rise_le p dx dy s fx fy : Rabs (rise p dx dy s fy) <= terms p dx dy s fx fy.
Proof.
  unfold rise, terms. assert (T := Rabs_triang (s * (fy * fy) * dy) (- (fy * fy * (p - dx)))). rewrite Rabs_Ropp in T.
  assert (0 <= (s * s * (fy * fy) + fx * fx) * Rabs dy).
  { apply Rmult_le_pos; [|apply Rabs_pos]. apply Rplus_le_le_0_compat; [apply Rmult_le_pos|]; apply Rle_0_sqr. }
  assert (Q := Rabs_pos (s * (fy * fy) * (p - dx))). unfold Rminus in *. lra.
Qed.
Lemma terms_nonneg p dx dy s fx fy : 0 <= terms p dx dy s fx fy.
Proof. apply Rle_trans with (2 := rise_le p dx dy s fx fy). apply Rabs_pos. Qed.
Lemma b47 : 64 * ulp1 = bpow radix2 (-47). Proof. unfold ulp1. change 64 with (B 6). now rewrite <- bpow_plus. Qed.
Lemma b48 : 32 * ulp1 = bpow radix2 (-48). Proof. unfold ulp1. change 32 with (B 5). now rewrite <- bpow_plus. Qed.

Section Both.
Variables (L : Libm f64) (e : R) (pv dxv dyv sv fxv fyv : f64) (p dx dy s s0 fx fy : R).
Hypothesis A : accurate L e.
Hypothesis E0 : 0 <= e <= / 1000000.
Hypothesis K : keeps_nan L.
Hypothesis P : f64_val pv = XFin p.
Hypothesis X : f64_val dxv = XFin dx.
Hypothesis Y : f64_val dyv = XFin dy.
Hypothesis S : f64_val sv = XFin s.
Hypothesis FX : f64_val fxv = XFin fx.
Hypothesis FY : f64_val fyv = XFin fy.
Hypothesis Rp : sized 50 p.
Hypothesis Rx : sized 50 dx.
Hypothesis Ry : sized 50 dy.
Hypothesis Rs : sized 101 s.
Hypothesis Rfx : sized 50 fx.
Hypothesis Rfy : sized 50 fy.
(** the shear is itself rounded *)
Hypothesis Es : rel 1 s s0.

Lemma shear_moved : Rabs (rise p dx dy s fy - rise p dx dy s0 fy) + Rabs (run p dx dy s fx fy - run p dx dy s0 fx fy) <= 3 * ulp1 * terms p dx dy s0 fx fy /\
  terms p dx dy s fx fy <= (1 + 3 * ulp1) * terms p dx dy s0 fx fy.
Proof.
  destruct Es as (d & D & ->). assert (U := ulp1_pos). rewrite Rmult_1_l in D.
  assert (D2 : Rabs (2 * d + d * d) <= 3 * ulp1).
  { assert (T := Rabs_triang (2 * d) (d * d)). rewrite !Rabs_mult, (Rabs_pos_eq 2) in T by lra.
    assert (Rabs d * Rabs d <= ulp1 * Rabs d) by (apply Rmult_le_compat_r; auto using Rabs_pos). assert (ulp1 * Rabs d <= 1 * Rabs d) by (apply Rmult_le_compat_r; auto using Rabs_pos; lra). lra. }
  set (t1 := s0 * (fy * fy) * dy). set (t3 := s0 * s0 * (fy * fy)). set (t4 := s0 * (fy * fy) * (p - dx)).
  assert (N3 : 0 <= t3) by (apply Rmult_le_pos; apply Rle_0_sqr).
  assert (Nx : 0 <= fx * fx) by apply Rle_0_sqr. assert (Nd := Rabs_pos dy). assert (Nf := Rabs_pos (fy * fy * (p - dx))).
  assert (M1 : Rabs (d * t1) <= ulp1 * Rabs t1) by (rewrite Rabs_mult; apply Rmult_le_compat_r; auto using Rabs_pos).
  assert (M4 : Rabs (d * t4) <= ulp1 * Rabs t4) by (rewrite Rabs_mult; apply Rmult_le_compat_r; auto using Rabs_pos).
  assert (M3 : Rabs ((2 * d + d * d) * (t3 * dy)) <= 3 * ulp1 * (t3 * Rabs dy)).
  { rewrite !Rabs_mult, (Rabs_pos_eq t3) by auto. apply Rmult_le_compat_r; [apply Rmult_le_pos; auto|exact D2]. }
  assert (P1 : 0 <= Rabs t1) by apply Rabs_pos. assert (P4 : 0 <= Rabs t4) by apply Rabs_pos. assert (P3 : 0 <= t3 * Rabs dy) by now apply Rmult_le_pos.
  assert (Px : 0 <= fx * fx * Rabs dy) by now apply Rmult_le_pos.
  assert (Q1 : 0 <= ulp1 * Rabs t1) by (apply Rmult_le_pos; lra). assert (Q4 : 0 <= ulp1 * Rabs t4) by (apply Rmult_le_pos; lra).
  assert (Q3 : 0 <= ulp1 * (t3 * Rabs dy)) by (apply Rmult_le_pos; lra). assert (Qx : 0 <= ulp1 * (fx * fx * Rabs dy)) by (apply Rmult_le_pos; lra).
  assert (Qf : 0 <= ulp1 * Rabs (fy * fy * (p - dx))) by (apply Rmult_le_pos; lra).
  assert (T0 : terms p dx dy s0 fx fy = Rabs t1 + Rabs (fy * fy * (p - dx)) + t3 * Rabs dy + fx * fx * Rabs dy + Rabs t4) by (unfold terms; fold t1 t3 t4; ring).
  split.
  - rewrite T0. replace (rise p dx dy (s0 * (1 + d)) fy - rise p dx dy s0 fy) with (d * t1) by (unfold rise, t1; ring).
    replace (run p dx dy (s0 * (1 + d)) fx fy - run p dx dy s0 fx fy) with (d * t4 + - ((2 * d + d * d) * (t3 * dy))) by (unfold run, t3, t4; ring).
    assert (T := Rabs_triang (d * t4) (- ((2 * d + d * d) * (t3 * dy)))). rewrite Rabs_Ropp in T. lra.
  - rewrite T0. unfold terms. replace (s0 * (1 + d) * (fy * fy) * dy) with (t1 + d * t1) by (unfold t1; ring).
    replace (s0 * (1 + d) * (fy * fy) * (p - dx)) with (t4 + d * t4) by (unfold t4; ring).
    replace ((s0 * (1 + d) * (s0 * (1 + d)) * (fy * fy) + fx * fx) * Rabs dy) with (t3 * Rabs dy + (2 * d + d * d) * (t3 * Rabs dy) + fx * fx * Rabs dy) by (unfold t3; ring).
    assert (T1 := Rabs_triang t1 (d * t1)). assert (T4 := Rabs_triang t4 (d * t4)).
    assert (M3' : (2 * d + d * d) * (t3 * Rabs dy) <= 3 * ulp1 * (t3 * Rabs dy)).
    { apply Rmult_le_compat_r; auto. apply Rle_trans with (1 := Rle_abs _). exact D2. }
    lra.
Qed.
Theorem gradient_both : 0 < length2 (rise p dx dy s0 fy) (run p dx dy s0 fx fy) ->
  (exists g, f64_val (gradient_at L pv dxv dyv sv fxv fyv) = XFin g /\ 0 <= g /\
     Rabs (g - Rabs (rise p dx dy s0 fy) / length2 (rise p dx dy s0 fy) (run p dx dy s0 fx fy)) <= 5 * e + bpow radix2 (-47) * cancellation p dx dy s0 fx fy) \/
  (f64_val (gradient_at L pv dxv dyv sv fxv fyv) = XNaN /\ Rabs (run p dx dy s0 fx fy) <= bpow radix2 (-48) * terms p dx dy s0 fx fy).
Proof.
  intros H. destruct (slope _ _ _ _ _ _ P X Y S FX FY Rp Rx Ry Rs Rfx Rfy) as (n & d & Vn & Vd & Rn & Rd & Er). destruct shear_moved as [Mv Mt].
  assert (U := ulp1_pos). assert (T0 := terms_nonneg p dx dy s0 fx fy). rewrite gradient_is, <- b47, <- b48. unfold cancellation.
  apply from_slope with (n := n) (d := d); auto; [|apply rise_le].
  assert (X1 : 16 * ulp1 * terms p dx dy s fx fy <= 16 * ulp1 * ((1 + 3 * ulp1) * terms p dx dy s0 fx fy)) by (apply Rmult_le_compat_l; lra).
  assert (X2 : 16 * ulp1 * (3 * ulp1) * terms p dx dy s0 fx fy <= ulp1 * terms p dx dy s0 fx fy).
  { apply Rmult_le_compat_r; auto. replace (16 * ulp1 * (3 * ulp1)) with (48 * ulp1 * ulp1) by ring. rewrite <- (Rmult_1_l ulp1) at 3. apply Rmult_le_compat_r; lra. }
  assert (T1 := Rabs_triang (n - rise p dx dy s fy) (rise p dx dy s fy - rise p dx dy s0 fy)).
  assert (T2 := Rabs_triang (d - run p dx dy s fx fy) (run p dx dy s fx fy - run p dx dy s0 fx fy)).
  replace (n - rise p dx dy s fy + (rise p dx dy s fy - rise p dx dy s0 fy)) with (n - rise p dx dy s0 fy) in T1 by ring.
  replace (d - run p dx dy s fx fy + (run p dx dy s fx fy - run p dx dy s0 fx fy)) with (d - run p dx dy s0 fx fy) in T2 by ring.
  lra.
Qed.
End Both.

Section Public.
Variables (L : Libm f64) (e : R) (pv dxv dyv fxv fyv : f64) (p dx dy fx fy : R).
Hypothesis A : accurate L e.
Hypothesis E0 : 0 <= e <= / 1000000.
Hypothesis K : keeps_nan L.
Hypothesis P : f64_val pv = XFin p.
Hypothesis X : f64_val dxv = XFin dx.
Hypothesis Y : f64_val dyv = XFin dy.
Hypothesis FX : f64_val fxv = XFin fx.
Hypothesis FY : f64_val fyv = XFin fy.
Hypothesis Rp : sized 50 p.
Hypothesis Rx : sized 50 dx.
Hypothesis Ry : sized 50 dy.
Hypothesis Rfx : sized 50 fx.
Hypothesis Rfy : sized 50 fy.

Lemma number_of (sv : f64) s s0 g0 : f64_val sv = XFin s -> sized 101 s -> rel 1 s s0 ->
  gradient_at Libm_xr (XFin p) (XFin dx) (XFin dy) (XFin s0) (XFin fx) (XFin fy) = XFin g0 ->
  (exists g, f64_val (gradient_at L pv dxv dyv sv fxv fyv) = XFin g /\ 0 <= g /\ Rabs (g - g0) <= 5 * e + bpow radix2 (-47) * cancellation p dx dy s0 fx fy) \/
  (f64_val (gradient_at L pv dxv dyv sv fxv fyv) = XNaN /\ sqrt (1 - g0 * g0) <= bpow radix2 (-48) * cancellation p dx dy s0 fx fy).
Proof.
  intros S Rs Es G. rewrite exact_gradient in G. destruct (Req_EM_T (run p dx dy s0 fx fy) 0) as [|N]; [discriminate|]. injection G as <-.
  assert (H : 0 < length2 (rise p dx dy s0 fy) (run p dx dy s0 fx fy)) by (apply length2_pos; auto).
  destruct (gradient_both pv dxv dyv sv fxv fyv A E0 K P X Y S FX FY Rp Rx Ry Rs Rfx Rfy Es H) as [G|[G Q]]; [now left|]. right. split; auto.
  unfold cancellation. set (a := rise p dx dy s0 fy) in *. set (b := run p dx dy s0 fx fy) in *. set (h := length2 a b) in *.
  assert (HH : h * h = a * a + b * b) by (unfold h, length2; apply sqrt_sqrt; apply Rplus_le_le_0_compat; apply Rle_0_sqr).
  replace (1 - Rabs a / h * (Rabs a / h)) with (Rsqr (b / h)).
  - rewrite sqrt_Rsqr_abs. unfold Rdiv. rewrite Rabs_mult, (Rabs_pos_eq (/ h)), <- Rmult_assoc by now apply Rlt_le, Rinv_0_lt_compat.
    apply Rmult_le_compat_r; [now apply Rlt_le, Rinv_0_lt_compat|exact Q].
  - unfold Rsqr. assert (Aa : Rabs a * Rabs a = a * a) by (rewrite <- Rabs_mult; apply Rabs_pos_eq, Rle_0_sqr).
    replace (Rabs a / h * (Rabs a / h)) with ((Rabs a * Rabs a) / (h * h)) by (field; lra). rewrite Aa.
    replace (b / h * (b / h)) with (b * b / (h * h)) by (field; lra). replace (b * b) with (h * h - a * a) by lra. field. lra.
Qed.
Theorem gradient64 (sv : f64) s g0 : f64_val sv = XFin s -> sized 101 s ->
  gradient_at Libm_xr (XFin p) (XFin dx) (XFin dy) (XFin s) (XFin fx) (XFin fy) = XFin g0 ->
  (exists g, f64_val (gradient_at L pv dxv dyv sv fxv fyv) = XFin g /\ 0 <= g /\ Rabs (g - g0) <= 5 * e + bpow radix2 (-47) * cancellation p dx dy s fx fy) \/
  (f64_val (gradient_at L pv dxv dyv sv fxv fyv) = XNaN /\ sqrt (1 - g0 * g0) <= bpow radix2 (-48) * cancellation p dx dy s fx fy).
Proof. intros S Rs. apply number_of with s; auto. apply rel_weaken with 0; [lra|apply rel_refl]. Qed.
(** where the tangent is vertical *)
Theorem gradient64_vertical (sv : f64) s : f64_val sv = XFin s -> sized 101 s ->
  gradient_at Libm_xr (XFin p) (XFin dx) (XFin dy) (XFin s) (XFin fx) (XFin fy) = XNaN -> rise p dx dy s fy <> 0 ->
  (exists g, f64_val (gradient_at L pv dxv dyv sv fxv fyv) = XFin g /\ 0 <= g /\ Rabs (g - 1) <= 5 * e + bpow radix2 (-47) * cancellation p dx dy s fx fy) \/
  f64_val (gradient_at L pv dxv dyv sv fxv fyv) = XNaN.
Proof.
  intros S Rs G N. rewrite exact_gradient in G. destruct (Req_EM_T (run p dx dy s fx fy) 0) as [Z|]; [|discriminate].
  assert (H : 0 < length2 (rise p dx dy s fy) (run p dx dy s fx fy)) by (apply length2_pos; auto).
  assert (Es : rel 1 s s) by (apply rel_weaken with 0; [lra|apply rel_refl]).
  destruct (gradient_both pv dxv dyv sv fxv fyv A E0 K P X Y S FX FY Rp Rx Ry Rs Rfx Rfy Es H) as [(g & V & G0 & B0)|[Q _]]; [left|now right].
  exists g. repeat split; auto. replace 1 with (Rabs (rise p dx dy s fy) / length2 (rise p dx dy s fy) (run p dx dy s fx fy)); [exact B0|].
  rewrite Z in *. unfold length2 in *. rewrite Rmult_0_l, Rplus_0_r in *. change (rise p dx dy s fy * rise p dx dy s fy) with (rise p dx dy s fy)² in *.
  rewrite sqrt_Rsqr_abs in *. field. lra.
Qed.
(** at a point of the grid, its shear being computed *)
Theorem gradient64_grid g0 : dy <> 0 ->
  gradient_at Libm_xr (XFin p) (XFin dx) (XFin dy) (shear_at (XFin dx) (XFin dy)) (XFin fx) (XFin fy) = XFin g0 ->
  (exists g, f64_val (gradient_at L pv dxv dyv (shear_at dxv dyv) fxv fyv) = XFin g /\ 0 <= g /\ Rabs (g - g0) <= 5 * e + bpow radix2 (-47) * cancellation p dx dy (- dx / dy) fx fy) \/
  (f64_val (gradient_at L pv dxv dyv (shear_at dxv dyv) fxv fyv) = XNaN /\ sqrt (1 - g0 * g0) <= bpow radix2 (-48) * cancellation p dx dy (- dx / dy) fx fy).
Proof.
  intros N. assert (Sx : shear_at (XFin dx) (XFin dy) = XFin (- dx / dy)).
  { unfold shear_at, n_zero. cbn [n_eq Num_xr x_eq n_ofZ n_neg x_neg n_div]. destruct (Req_EM_T dy 0); [contradiction|]. cbn [andb negb]. apply xdiv; auto. }
  rewrite Sx. assert (U := ulp1_pos).
  assert (Ri : ranged (-50) 50 (/ dy)).
  { destruct Ry as [|[P1 P2]]; [contradiction|]. right. rewrite Rabs_inv. split.
    - change (-50)%Z with (- (50))%Z. rewrite bpow_opp. apply Rinv_le; [now apply Rabs_pos_lt|exact P2].
    - change (B 50) with (B (- (-50))). rewrite bpow_opp. apply Rinv_le; [apply bpow_gt_0|exact P1]. }
  assert (Rq := ranged_mul (ranged_opp (sized_ranged Rx)) Ri). cbn in Rq. change (- dx * / dy) with (- dx / dy) in Rq.
  assert (I : in_range (- dx / dy)) by (apply ranged_in with (3 := Rq); lia).
  assert (Vs : f64_val (shear_at dxv dyv) = XFin (rnd (- dx / dy))).
  { unfold shear_at. assert (Z0 : f64_val (n_zero : f64) = XFin 0) by exact (of_Z 0 ltac:(lia)).
    assert (Q : n_eq dyv n_zero = false).
    { cbn [n_eq Num_f64]. rewrite f64_eq, Y. change (@n_zero f64 Num_f64) with (n_zero : f64). rewrite Z0. cbn [x_eq]. destruct (Req_EM_T dy 0); [contradiction|reflexivity]. }
    rewrite Q. cbn [andb negb]. exact (div_correct _ _ (neg_val _ X) Y N (in_range_le I)). }
  destruct (rnd_range I) as (d & D & E). apply number_of with (rnd (- dx / dy)); auto.
  - apply (ranged_weaken (lo := -100) (hi := 100)); [lia|lia|]. apply ranged_round; [lia|exact Rq].
  - exists d. split; [lra|exact E].
Qed.
(** on the vertical axis there is no cancellation *)
Theorem no_cancellation : dx = 0 -> 0 < length2 (rise p dx dy 0 fy) (run p dx dy 0 fx fy) -> cancellation p dx dy 0 fx fy <= 2.
Proof.
  intros D H. unfold cancellation. apply Rmult_le_reg_r with (1 := H). unfold Rdiv. rewrite Rmult_assoc, Rinv_l, Rmult_1_r by lra.
  destruct (length2_ge (rise p dx dy 0 fy) (run p dx dy 0 fx fy)) as [Q1 Q2].
  assert (T : terms p dx dy 0 fx fy = Rabs (rise p dx dy 0 fy) + Rabs (run p dx dy 0 fx fy)).
  { unfold terms, rise, run. rewrite D. replace (0 * (fy * fy) * dy) with 0 by ring. replace (0 * (fy * fy) * (p - 0)) with 0 by ring.
    replace (0 - fy * fy * (p - 0)) with (- (fy * fy * (p - 0))) by ring. rewrite Rabs_R0, Rabs_Ropp, !Rplus_0_r.
    replace (- ((0 * 0 * (fy * fy) + fx * fx) * dy)) with (- (fx * fx * dy)) by ring. rewrite Rabs_Ropp, (Rabs_mult (fx * fx) dy), (Rabs_pos_eq (fx * fx)) by apply Rle_0_sqr. ring. }
  lra.
Qed.
End Public.
