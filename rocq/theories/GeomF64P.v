(** The scale factors and the shear of a grid point computed in binary64. *)
From Coq Require Import ZArith Reals Lra Lia Bool.
From Flocq Require Import Core BinarySingleNaN.
From Verif Require Import Num NumP Geometry BuildFP SpecGeom SpecF64 Round64P.
Local Open Scope R_scope.
Set Implicit Arguments.

Definition middling (r : R) : Prop := r = 0 \/ B (-1000) <= r <= B 1000.
(** [x] is computed from [a] by [k] roundings *)
Definition tracks (k : nat) (x : f64) (a : R) : Prop := exists v, f64_val x = XFin v /\ near k v a.

Lemma near_scale k x y lo hi : near k x y -> (k <= 1000)%nat -> B lo <= y <= B hi -> B (lo - 1) <= x <= B (hi + 1).
Proof.
  intros N K [L H]. destruct (near_bound N K) as [E _]. assert (U := ulp1_pos). assert (Y : 0 < y) by (apply Rlt_le_trans with (2 := L), bpow_gt_0).
  assert (K' : 0 <= INR k <= 1000). { split; [apply pos_INR|]. replace 1000 with (INR 1000) by (rewrite INR_IZR_INZ; reflexivity). now apply le_INR. }
  assert (Z : (INR k + 1) * ulp1 <= / 4) by nra. apply Rabs_le_inv in E.
  assert (E1 : (INR k + 1) * ulp1 * y <= / 4 * y) by (apply Rmult_le_compat_r; lra).
  rewrite bpow_plus. replace (lo - 1)%Z with (lo + -1)%Z by lia. rewrite bpow_plus. change (B (-1)) with (/ 2). change (B 1) with 2. lra.
Qed.
Lemma range_of k x y : near k x y -> (k <= 1000)%nat -> middling y -> in_range x.
Proof.
  intros N K [->|H].
  - left. destruct (near_bound N K) as [E _]. rewrite Rmult_0_r, Rminus_0_r in E. apply Rabs_le_inv in E. lra.
  - right. assert (Z := near_scale _ _ N K H). assert (P := near_nonneg N). rewrite Rabs_pos_eq by exact P. split.
    + apply Rle_trans with (B (-1000 - 1)); [apply bpow_le; lia|apply Z].
    + apply Rle_trans with (B (1000 + 1)); [apply Z|apply bpow_le; lia].
Qed.

Lemma tracks_exact (x : f64) a : f64_val x = XFin a -> 0 <= a -> tracks 0 x a.
Proof. intros X A. exists a. split; auto. now apply near_refl. Qed.
Lemma tracks_weaken j k x a : (j <= k)%nat -> tracks j x a -> tracks k x a.
Proof. intros J (v & V & N). exists v. split; auto. now apply near_weaken with j. Qed.
Lemma tracks_mul j k x y a b : tracks j x a -> tracks k y b -> (j + k <= 900)%nat -> middling (a * b) -> tracks (S (j + k)) (n_mul x y) (a * b).
Proof.
  intros (v & V & N) (w & W & M) K R. assert (P := near_mul N M).
  destruct (mul64 _ _ V W) as (d & D & E); [apply (range_of P); auto; lia|].
  exists (v * w * (1 + d)). split; auto. now apply near_round.
Qed.
Lemma tracks_add k x y a b : tracks k x a -> tracks k y b -> (k <= 900)%nat -> a + b <= B 1000 -> tracks (S k) (n_add x y) (a + b).
Proof.
  intros (v & V & N) (w & W & M) K R. assert (P := near_add N M). assert (Q := near_nonneg P).
  destruct (add64 _ _ V W) as (d & D & E).
  - destruct (near_bound P) as [F _]; [lia|]. assert (U := ulp1_pos).
    assert (K' : 0 <= INR k <= 1000). { split; [apply pos_INR|]. replace 1000 with (INR 1000) by (rewrite INR_IZR_INZ; reflexivity). apply le_INR. lia. }
    assert (Z : (INR k + 1) * ulp1 <= / 4) by nra. destruct P as (P & _). apply Rabs_le_inv in F.
    assert (E1 : (INR k + 1) * ulp1 * (a + b) <= / 4 * (a + b)) by (apply Rmult_le_compat_r; lra).
    rewrite Rabs_pos_eq by lra. apply Rle_trans with (B (1 + 1000)); [|apply bpow_le; lia]. rewrite bpow_plus. change (B 1) with 2. lra.
  - exists ((v + w) * (1 + d)). split; auto. now apply near_round.
Qed.
Lemma near_sqrt k x y : near (k + k) x y -> near k (sqrt x) (sqrt y).
Proof.
  intros N. assert (X := near_nonneg N). destruct N as (Y & L & M). assert (P := shrink_pos k). rewrite shrink_add in L, M.
  assert (S : forall z, 0 <= z -> (1 - ulp1) ^ k * sqrt z = sqrt ((1 - ulp1) ^ k * (1 - ulp1) ^ k * z)).
  { intros z Z. rewrite sqrt_mult by nra. now rewrite sqrt_square by lra. }
  repeat split; [apply sqrt_pos| |]; rewrite S by auto; now apply sqrt_le_1_alt.
Qed.

(** a finite result shows that nothing overflowed *)
Lemma mul_inv (x y : f64) v : f64_val (n_mul x y) = XFin v ->
  exists a b, f64_val x = XFin a /\ f64_val y = XFin b /\ v = round radix2 (SpecFloat.fexp 53 1024) (round_mode mode_NE) (a * b).
Proof.
  intros V. cbn [n_mul Num_f64] in V. apply f64_val_fin in V as [F <-]. assert (C := Bmult_correct 53 1024 _ _ mode_NE x y).
  destruct (Rlt_bool _ _).
  - destruct C as (C & F' & _). rewrite F in F'. symmetry in F'. apply andb_true_iff in F' as [Fx Fy].
    exists (B2R x), (B2R y). rewrite !f64_val_finite by auto. auto.
  - exfalso. destruct (Bmult mode_NE x y); discriminate.
Qed.
Lemma div_inv (x y : f64) a b v : f64_val x = XFin a -> f64_val y = XFin b -> b <> 0 -> f64_val (n_div x y) = XFin v ->
  v = round radix2 (SpecFloat.fexp 53 1024) (round_mode mode_NE) (a / b).
Proof.
  intros X Y Nb V. cbn [n_div Num_f64] in V. apply f64_val_fin in V as [F <-]. apply f64_val_fin in X as [Fx <-]. apply f64_val_fin in Y as [Fy <-].
  assert (C := Bdiv_correct 53 1024 _ _ mode_NE x y Nb). destruct (Rlt_bool _ _).
  - apply C.
  - exfalso. destruct (Bdiv mode_NE x y); discriminate.
Qed.
Lemma sqrt_inv (x : f64) v : f64_val (n_sqrt x) = XFin v -> exists a, f64_val x = XFin a /\ 0 <= a.
Proof.
  intros V. cbn [n_sqrt Num_f64] in V. apply f64_val_fin in V as [F _].
  destruct (Bsqrt_correct 53 1024 _ _ mode_NE x) as (_ & F' & _). rewrite F in F'.
  destruct x as [s|s| |s m e P]; try discriminate F'.
  - exists 0. split; [reflexivity|lra].
  - destruct s; [discriminate F'|]. eexists. split; [reflexivity|]. cbn [B2R]. apply F2R_ge_0. cbn. lia.
Qed.

Lemma ordinary_sq r : ordinary r -> B (-200) <= r * r <= B 200.
Proof.
  intros [L H]. rewrite <- (Rabs_pos_eq (r * r)) by nra. rewrite Rabs_mult. change (-200)%Z with (-100 + -100)%Z. change 200%Z with (100 + 100)%Z. rewrite !bpow_plus.
  assert (P := bpow_ge_0 radix2 (-100)). assert (A := Rabs_pos r). split; apply Rmult_le_compat; auto.
Qed.
Lemma middle r lo hi : (-1000 <= lo)%Z -> (hi <= 1000)%Z -> B lo <= r <= B hi -> middling r.
Proof. intros L H [A C]. right. split; [apply Rle_trans with (2 := A)|apply Rle_trans with (1 := C)]; apply bpow_le; lia. Qed.
Lemma bpow_mul_between a b lo hi lo' hi' : B lo <= a <= B hi -> B lo' <= b <= B hi' -> B (lo + lo') <= a * b <= B (hi + hi').
Proof.
  intros [A C] [A' C']. rewrite !bpow_plus. assert (P := bpow_ge_0 radix2 lo). assert (P' := bpow_ge_0 radix2 lo'). split; apply Rmult_le_compat; auto; lra.
Qed.

Lemma of_Z z : (Z.abs z <= 2 ^ 53)%Z -> f64_val (n_ofZ z : f64) = XFin (IZR z).
Proof. intros H. exact (l_ofZ (T := f64) z H). Qed.
Lemma of_two : f64_val (num2 2 : f64) = XFin 2. Proof. apply (of_Z 2). vm_compute. discriminate. Qed.
Lemma of_four : f64_val (num2 4 : f64) = XFin 4. Proof. apply (of_Z 4). vm_compute. discriminate. Qed.
Lemma of_one : f64_val (n_one : f64) = XFin 1. Proof. apply (of_Z 1). vm_compute. discriminate. Qed.
Lemma of_zero : f64_val (n_zero : f64) = XFin 0. Proof. apply (of_Z 0). vm_compute. discriminate. Qed.

Section Factors.
Variables (f d : f64) (a b : R).
Hypotheses (F : f64_val f = XFin a) (D : f64_val d = XFin b) (Oa : ordinary a) (Ob : loose b).

Lemma track_sq (x : f64) r : f64_val x = XFin r -> loose r -> tracks 1 (n_sq x) (r * r).
Proof.
  intros X O. unfold n_sq. assert (P : middling (r * r)).
  { destruct O as [->|O]; [left; ring|]. apply (@middle _ (-200) 200); try lia. now apply ordinary_sq. }
  destruct (mul64 _ _ X X) as (e & E & V).
  - destruct P as [P|P]; [left; exact P|right]. rewrite Rabs_pos_eq by nra. split.
    + apply Rle_trans with (2 := proj1 P). apply bpow_le. lia.
    + apply Rle_trans with (1 := proj2 P). apply bpow_le. lia.
  - exists (r * r * (1 + e)). split; auto. apply near_step; auto. nra.
Qed.
Lemma loose_le r : loose r -> r * r <= B 200.
Proof. intros [->|O]; [rewrite Rmult_0_l; apply bpow_ge_0|now apply ordinary_sq]. Qed.
(** 4 dy^2 *)
Lemma track_four : tracks 2 (n_mul (num2 4) (n_sq d)) (4 * (b * b)).
Proof.
  change 2%nat with (S (0 + 1)). apply tracks_mul; [apply tracks_exact; [apply of_four|lra]|now apply track_sq|lia|].
  destruct Ob as [->|O]; [left; ring|]. apply (@middle _ (2 + -200) (2 + 200)); try lia. change 4 with (B 2). apply bpow_mul_between; [split; apply Rle_refl|now apply ordinary_sq].
Qed.
(** 1 + 4 dy^2 *)
Lemma four_between : 0 <= 4 * (b * b) <= B 202.
Proof. change 202%Z with (2 + 200)%Z. rewrite bpow_plus. change (B 2) with 4. assert (H := loose_le Ob). nra. Qed.
Lemma wide_between : B 0 <= 1 + 4 * (b * b) <= B 203.
Proof.
  assert (H := four_between). change 203%Z with (1 + 202)%Z. rewrite bpow_plus. change (B 1) with 2. change (B 0) with 1.
  assert (1 <= B 202) by (apply (bpow_le radix2 0 202); lia). lra.
Qed.
Lemma track_wide : tracks 3 (n_add n_one (n_mul (num2 4) (n_sq d))) (1 + 4 * (b * b)).
Proof.
  apply tracks_add; [apply tracks_weaken with 0%nat; [lia|]; apply tracks_exact; [apply of_one|lra]|apply track_four|lia|].
  apply Rle_trans with (1 := proj2 wide_between). apply bpow_le. lia.
Qed.
Lemma loose_a : loose a. Proof. right. exact Oa. Qed.
(** f^2 (1 + 4 dy^2) *)
Lemma product_between : B (-200) <= a * a * (1 + 4 * (b * b)) <= B 403.
Proof. apply (@bpow_mul_between _ _ (-200) 200 0 203); [now apply ordinary_sq|exact wide_between]. Qed.
Lemma track_product : tracks 5 (n_mul (n_sq f) (n_add n_one (n_mul (num2 4) (n_sq d)))) (a * a * (1 + 4 * (b * b))).
Proof.
  change 5%nat with (S (1 + 3)). apply tracks_mul; [apply track_sq; auto; apply loose_a|apply track_wide|lia|].
  apply (@middle _ (-200) 403); try lia. exact product_between.
Qed.

End Factors.

(** a difference that comes out positive *)
Lemma track_difference (x y z : f64) v w hi : f64_val x = XFin v -> f64_val y = XFin w -> f64_val z = XFin 0 -> 0 <= v <= B hi -> 0 <= w <= B hi -> (hi <= 1000)%Z ->
  n_le (n_sub x y) z = false -> exists D', f64_val (n_sub x y) = XFin D' /\ near 1 D' (v - w) /\ 0 < v - w.
Proof.
  intros X Y Z0 V W H L. assert (HB : B hi <= B 1023) by (apply bpow_le; lia).
  destruct (sub64 _ _ X Y) as (e & E & S); [apply Rabs_le; lra|].
  cbn [n_le Num_f64] in L. rewrite f64_le in L. change (Bminus mode_NE x y) with (n_sub x y : f64) in L. rewrite S, Z0 in L. unfold x_le, x_lt, x_eq in L.
  destruct (Rlt_dec _ 0) as [|N]; [discriminate|]. destruct (Req_EM_T _ 0) as [|N']; [discriminate|].
  assert (P : 0 < v - w). { apply Rabs_le_inv in E. assert (U := ulp1_pos). assert (0 < 1 + e) by lra. nra. }
  exists ((v - w) * (1 + e)). split; auto. split; auto. apply near_step; auto. lra.
Qed.


(** adding back what was subtracted *)
Lemma combine j k m P a pw ah t : near j pw P -> near k ah a -> near m t (pw - ah) -> (k <= m)%nat -> near (j + m) (t + a) P.
Proof.
  intros (HP & LP & MP) NA (HD & LD & MD) K. assert (Na := near_nonneg NA). destruct NA as (Ha & La & Ma).
  assert (Pj := shrink_pos j). assert (Pm := shrink_pos m). assert (Pm1 := shrink_le m).
  assert (Pk := shrink_pos k). assert (Pd := shrink_pos (m - k)). assert (Pd1 := shrink_le (m - k)).
  assert (E : (1 - ulp1) ^ m = (1 - ulp1) ^ (m - k) * (1 - ulp1) ^ k) by (rewrite <- shrink_add; f_equal; lia).
  unfold near. rewrite (Nat.add_comm j m), shrink_add. repeat split; auto.
  - rewrite Rmult_assoc. apply Rle_trans with ((1 - ulp1) ^ m * pw); [apply Rmult_le_compat_l; lra|].
    assert ((1 - ulp1) ^ m * ah <= a); [|lra]. rewrite E, Rmult_assoc. apply Rle_trans with ((1 - ulp1) ^ (m - k) * a); [apply Rmult_le_compat_l; lra|nra].
  - rewrite (Rmult_comm _ ((1 - ulp1) ^ j)), Rmult_assoc. apply Rle_trans with ((1 - ulp1) ^ j * pw); [apply Rmult_le_compat_l; [lra|]|exact MP].
    assert ((1 - ulp1) ^ m * a <= ah); [|lra]. apply Rle_trans with ((1 - ulp1) ^ k * a); [|exact La]. rewrite E. apply Rmult_le_compat_r; auto. nra.
Qed.

(** roundings of results known to be finite *)
Lemma rnd_near a : B (-1022) <= a -> near 1 (round radix2 (SpecFloat.fexp 53 1024) (round_mode mode_NE) a) a.
Proof.
  intros H. assert (P := bpow_gt_0 radix2 (-1022)). destruct (@rnd_rel a) as (d & D & ->); [rewrite Rabs_pos_eq; lra|]. apply near_step; auto. lra.
Qed.
Lemma div_le_bpow a b lo hi : B lo <= a -> 0 < b <= B hi -> B (lo - hi) <= a / b.
Proof.
  intros A C. assert (0 < a) by (apply Rlt_le_trans with (2 := A), bpow_gt_0). unfold Z.sub. rewrite bpow_plus, bpow_opp. apply Rmult_le_compat; auto.
  - apply bpow_ge_0. - apply Rlt_le, Rinv_0_lt_compat, bpow_gt_0. - apply Rinv_le_contravar; lra.
Qed.
Lemma middling_of_tracks k x a v : f64_val x = XFin v -> tracks k x a -> near k v a.
Proof. intros V (w & W & N). rewrite V in W. injection W as ->. exact N. Qed.

Theorem fx_residual (fyv dyv : f64) fx fy dy : f64_val fyv = XFin fy -> f64_val dyv = XFin dy -> 0 < fy -> ordinary fy -> loose dy ->
  f64_val (determine_fx fyv dyv) = XFin fx -> 0 < fx /\ near 11 (/ (fx * fx) + 4 * (dy * dy) / (fy * fy)) (1 + 4 * (dy * dy)).
Proof.
  intros F D Py Oy Od V. unfold determine_fx in V. cbv zeta in V.
  destruct (track_product _ _ F D Oy Od) as (pw & Vp & Np). destruct (track_four _ D Od) as (ah & Va & Na).
  assert (Bp := product_between Oy Od). assert (Bf := four_between Od).
  set (X := n_mul (n_sq fyv) (n_add n_one (n_mul (num2 4) (n_sq dyv)))) in *. set (Y := n_mul (num2 4) (n_sq dyv)) in *. clearbody X Y.
  destruct (n_le (n_sub X Y) n_zero) eqn:L.
  { destruct (mul_inv _ _ V) as (? & ? & N & _). discriminate N. }
  assert (Ip : B (-201) <= pw <= B 404). { apply (near_scale (-200) 403 Np); [lia|exact Bp]. }
  assert (Ia : 0 <= ah <= B 404).
  { split; [exact (near_nonneg Na)|]. destruct (near_bound Na) as [E _]; [lia|]. apply Rabs_le_inv in E. assert (U := ulp1_pos). change (INR 2) with 2 in E.
    apply Rle_trans with (2 * B 202); [nra|]. change 2 with (B 1). rewrite <- bpow_plus. apply bpow_le. lia. }
  assert (Pp : 0 < pw) by (apply Rlt_le_trans with (2 := proj1 Ip), bpow_gt_0).
  destruct (@track_difference X Y n_zero pw ah 404 Vp Va of_zero) as (De & Vd & Nd & Pd); auto; [lra|lia|].
  assert (Pde := near_pos Nd Pd).
  destruct (mul_inv _ _ V) as (sq & fy' & Vs & Vf & E1). rewrite F in Vf. injection Vf as <-.
  destruct (sqrt_inv _ Vs) as (rr & Vr & Rr).
  assert (E2 := div_inv _ _ of_one Vd (Rgt_not_eq _ _ Pde) Vr).
  assert (Bd : De <= B 405).
  { destruct (near_bound Nd) as [E _]; [lia|]. apply Rabs_le_inv in E. assert (U := ulp1_pos). change (INR 1) with 1 in E. change 405%Z with (1 + 404)%Z. rewrite bpow_plus. change (B 1) with 2. nra. }
  assert (Lr : B (-405) <= 1 / De). { apply (@div_le_bpow 1 De 0 405); [apply Rle_refl|lra]. }
  assert (Nr : near 2 rr (/ (pw - ah))).
  { rewrite E2. change 2%nat with (1 + 1)%nat. apply near_trans with (1 / De); [apply rnd_near; apply Rle_trans with (2 := Lr), bpow_le; lia|].
    unfold Rdiv. rewrite Rmult_1_l. now apply near_inv. }
  destruct (sqrt64 _ Vr Rr) as (d & Dd & Vs'). rewrite Vs in Vs'. injection Vs' as Es.
  assert (Ns : near 2 sq (sqrt (/ (pw - ah)))).
  { rewrite Es. apply (@near_round 1). - apply (@near_sqrt 1). exact Nr. - exact Dd. }
  assert (Pi : 0 < / (pw - ah)) by now apply Rinv_0_lt_compat.
  assert (Lq : B (-203) <= sq).
  { assert (Ls : B (-202) <= sqrt (/ (pw - ah))).
    { rewrite <- (sqrt_bpow radix2 (-202)). apply sqrt_le_1_alt. change (2 * -202)%Z with (- (404))%Z. rewrite (bpow_opp radix2 404). apply Rinv_le_contravar; lra. }
    assert (0 < sqrt (/ (pw - ah))) by now apply sqrt_lt_R0. destruct (near_bound Ns) as [E _]; [lia|]. apply Rabs_le_inv in E. assert (U := ulp1_pos). change (INR 2) with 2 in E.
    change (-203)%Z with (-1 + -202)%Z. rewrite bpow_plus. change (B (-1)) with (/ 2). nra. }
  assert (Lf : B (-100) <= fy). { destruct Oy as [L' _]. now rewrite Rabs_pos_eq in L' by lra. }
  assert (Lm : B (-303) <= sq * fy). { change (-303)%Z with (-203 + -100)%Z. rewrite bpow_plus. apply Rmult_le_compat; auto; apply bpow_ge_0. }
  assert (Nx : near 3 fx (sqrt (/ (pw - ah)) * fy)).
  { rewrite E1. change 3%nat with (1 + 2)%nat. apply near_trans with (sq * fy); [apply rnd_near; apply Rle_trans with (2 := Lm), bpow_le; lia|].
    apply (@near_mul 2 0); auto. apply near_refl. lra. }
  assert (Px : 0 < fx). { apply (near_pos Nx). apply Rmult_lt_0_compat; auto. now apply sqrt_lt_R0. }
  split; auto.
  assert (Nxx : near 6 (fx * fx) (fy * fy / (pw - ah))).
  { replace (fy * fy / (pw - ah)) with (sqrt (/ (pw - ah)) * fy * (sqrt (/ (pw - ah)) * fy)).
    - apply (near_mul Nx Nx).
    - replace (sqrt (/ (pw - ah)) * fy * (sqrt (/ (pw - ah)) * fy)) with (sqrt (/ (pw - ah)) * sqrt (/ (pw - ah)) * (fy * fy)) by ring. rewrite sqrt_sqrt by lra. field. lra. }
  assert (Nt : near 6 (fy * fy / (fx * fx)) (pw - ah)).
  { replace (pw - ah) with (fy * fy / (fy * fy / (pw - ah))) by (field; split; lra). apply (@near_div 0 6); auto.
    - apply near_refl. nra. - apply Rmult_lt_0_compat; nra. }
  assert (R := @combine 5 2 6 _ _ _ _ _ Np Na Nt ltac:(lia)).
  replace (/ (fx * fx) + 4 * (dy * dy) / (fy * fy)) with ((fy * fy / (fx * fx) + 4 * (dy * dy)) * / (fy * fy)) by (field; split; lra).
  replace (1 + 4 * (dy * dy)) with (fy * fy * (1 + 4 * (dy * dy)) * / (fy * fy)) by (field; lra).
  apply (@near_mul 11 0); auto. apply near_refl. apply Rlt_le, Rinv_0_lt_compat. nra.
Qed.

Theorem fy_residual (fxv dyv : f64) fx fy dy : f64_val fxv = XFin fx -> f64_val dyv = XFin dy -> 0 < fx -> ordinary fx -> ordinary dy ->
  f64_val (determine_fy fxv dyv) = XFin fy -> 0 < fy /\ near 13 (/ (fx * fx) + 4 * (dy * dy) / (fy * fy)) (1 + 4 * (dy * dy)).
Proof.
  intros F D Px Ox Od V. unfold determine_fy in V. cbv zeta in V. assert (Ld : loose dy) by now right.
  assert (Nz : dy <> 0). { intros ->. destruct Od as [Od _]. rewrite Rabs_R0 in Od. assert (P := bpow_gt_0 radix2 (-100)). lra. }
  assert (Z0 : n_eq dyv n_zero = false).
  { cbn [n_eq Num_f64]. rewrite f64_eq, D, of_zero. cbn. destruct (Req_EM_T dy 0); [contradiction|reflexivity]. }
  rewrite Z0 in V. cbn [andb] in V.
  destruct (track_product _ _ F D Ox Ld) as (pw & Vp & Np). assert (Bp := product_between Ox Ld).
  assert (Sx := ordinary_sq Ox). assert (Sd := ordinary_sq Od).
  assert (Bm : B (-398) <= 4 * (fx * fx) * (dy * dy) <= B 402).
  { apply (@bpow_mul_between _ _ (2 + -200) (2 + 200) (-200) 200); auto. change 4 with (B 2). apply bpow_mul_between; auto. split; apply Rle_refl. }
  assert (Tn : tracks 4 (n_mul (n_mul (num2 4) (n_sq fxv)) (n_sq dyv)) (4 * (fx * fx) * (dy * dy))).
  { apply (@tracks_mul 2 1); [apply (@tracks_mul 0 1)|apply track_sq; auto|lia|].
    - apply tracks_exact; [apply of_four|lra]. - apply track_sq; auto. now right. - lia.
    - apply (@middle _ (2 + -200) (2 + 200)); try lia. change 4 with (B 2). apply bpow_mul_between; auto. split; apply Rle_refl.
    - apply (@middle _ (-398) 402); try lia. exact Bm. }
  destruct Tn as (nu & Vn & Nn).
  set (X := n_mul (n_sq fxv) (n_add n_one (n_mul (num2 4) (n_sq dyv)))) in *. set (Y := n_mul (n_mul (num2 4) (n_sq fxv)) (n_sq dyv)) in *. clearbody X Y.
  destruct (n_le (n_sub X n_one) n_zero) eqn:L; [discriminate V|].
  assert (Ip : B (-201) <= pw <= B 404). { apply (near_scale (-200) 403 Np); [lia|exact Bp]. }
  assert (Pp : 0 < pw) by (apply Rlt_le_trans with (2 := proj1 Ip), bpow_gt_0).
  assert (I1 : 0 <= 1 <= B 404). { split; [lra|]. apply (bpow_le radix2 0 404). lia. }
  destruct (@track_difference X n_one n_zero pw 1 404 Vp of_one of_zero) as (De & Vd & Nd & Pd); auto; [lra|lia|].
  assert (Pde := near_pos Nd Pd).
  destruct (sqrt_inv _ V) as (rr & Vr & Rr).
  assert (E2 := div_inv _ _ Vn Vd (Rgt_not_eq _ _ Pde) Vr).
  assert (Bd : De <= B 405).
  { destruct (near_bound Nd) as [E _]; [lia|]. apply Rabs_le_inv in E. assert (U := ulp1_pos). change (INR 1) with 1 in E. change 405%Z with (1 + 404)%Z. rewrite bpow_plus. change (B 1) with 2. nra. }
  assert (In := near_scale (-398) 402 Nn ltac:(lia) Bm).
  assert (Lr : B (-804) <= nu / De). { apply (@div_le_bpow nu De (-399) 405); [apply In|lra]. }
  assert (Pm : 0 < 4 * (fx * fx) * (dy * dy)) by (apply Rlt_le_trans with (2 := proj1 Bm), bpow_gt_0).
  assert (Nr : near 6 rr (4 * (fx * fx) * (dy * dy) / (pw - 1))).
  { rewrite E2. change 6%nat with (1 + 5)%nat. apply near_trans with (nu / De); [apply rnd_near; apply Rle_trans with (2 := Lr), bpow_le; lia|].
    apply (@near_div 4 1); auto. }
  destruct (sqrt64 _ Vr Rr) as (d & Dd & Vs'). rewrite V in Vs'. injection Vs' as Es.
  assert (Pq : 0 < 4 * (fx * fx) * (dy * dy) / (pw - 1)) by (apply Rdiv_lt_0_compat; auto).
  assert (Ns : near 4 fy (sqrt (4 * (fx * fx) * (dy * dy) / (pw - 1)))).
  { rewrite Es. apply (@near_round 3); auto. apply (@near_sqrt 3). exact Nr. }
  assert (Py : 0 < fy). { apply (near_pos Ns). now apply sqrt_lt_R0. }
  split; auto.
  assert (Nyy : near 8 (fy * fy) (4 * (fx * fx) * (dy * dy) / (pw - 1))).
  { rewrite <- (sqrt_sqrt (4 * (fx * fx) * (dy * dy) / (pw - 1))) by lra. apply (near_mul Ns Ns). }
  assert (Nt : near 8 (4 * (fx * fx) * (dy * dy) / (fy * fy)) (pw - 1)).
  { replace (pw - 1) with (4 * (fx * fx) * (dy * dy) / (4 * (fx * fx) * (dy * dy) / (pw - 1))) by (field; repeat split; lra). apply (@near_div 0 8); auto. apply near_refl. lra. }
  assert (R := @combine 5 0 8 _ _ _ _ _ Np (@near_refl 1 ltac:(lra)) Nt ltac:(lia)).
  replace (/ (fx * fx) + 4 * (dy * dy) / (fy * fy)) with ((4 * (fx * fx) * (dy * dy) / (fy * fy) + 1) * / (fx * fx)) by (field; split; lra).
  replace (1 + 4 * (dy * dy)) with (fx * fx * (1 + 4 * (dy * dy)) * / (fx * fx)) by (field; lra).
  apply (@near_mul 13 0); auto. apply near_refl. apply Rlt_le, Rinv_0_lt_compat. nra.
Qed.

(** the shear *)
Lemma shear_error (dxv dyv : f64) s dx dy : f64_val dxv = XFin dx -> f64_val dyv = XFin dy -> loose dy -> f64_val (shear_at dxv dyv) = XFin s ->
  Rabs (s * dy + dx) <= ulp1 * Rabs dx + B (-975).
Proof.
  intros X Y O V. unfold shear_at in V. assert (U := ulp1_pos). assert (P9 := bpow_ge_0 radix2 (-975)).
  assert (Q0 : forall x a, f64_val x = XFin a -> n_eq x (n_zero : f64) = if Req_EM_T a 0 then true else false).
  { intros x a Xa. cbn [n_eq Num_f64]. rewrite f64_eq, Xa, of_zero. reflexivity. }
  rewrite (Q0 _ _ X), (Q0 _ _ Y) in V. destruct (Req_EM_T dy 0) as [->|Nd].
  - cbn [negb andb] in V. destruct (Req_EM_T dx 0) as [->|]; [|discriminate V]. rewrite Rmult_0_r, Rplus_0_l, Rabs_R0. lra.
  - cbn [negb andb] in V. assert (Xn : f64_val (n_neg dxv) = XFin (- dx)). { cbn [n_neg Num_f64]. rewrite f64_neg, X. reflexivity. }
    assert (E := div_inv _ _ Xn Y Nd V). destruct (rnd_abs (- dx / dy)) as (d & e & Dd & De & R). rewrite E, R.
    replace ((- dx / dy * (1 + d) + e) * dy + dx) with (- (dx * d) + e * dy) by (field; auto).
    apply Rle_trans with (1 := Rabs_triang _ _). rewrite Rabs_Ropp, !Rabs_mult.
    assert (Ad := Rabs_pos dx). destruct O as [O|[_ O]]; [contradiction|].
    apply Rplus_le_compat; [rewrite Rmult_comm; apply Rmult_le_compat_r; auto|].
    change (-975)%Z with (-1075 + 100)%Z. rewrite bpow_plus. apply Rmult_le_compat; auto using Rabs_pos.
Qed.

Lemma tiny_975 : B (-975) <= ulp1 / 1000.
Proof.
  apply Rle_trans with (B (-10 + -53)); [apply bpow_le; lia|]. rewrite bpow_plus. unfold ulp1. change (B (-10)) with (/ 1024). assert (P := bpow_gt_0 radix2 (-53)). lra.
Qed.

(** how far the ellipse is from the contact points *)
Lemma contact_of_residual n dx dy fx fy s sg : 0 < fx -> 0 < fy -> (n <= 13)%nat -> sg = 1 \/ sg = -1 ->
  near n (/ (fx * fx) + 4 * (dy * dy) / (fy * fy)) (1 + 4 * (dy * dy)) -> Rabs (s * dy + dx) <= ulp1 * Rabs dx + B (-975) ->
  exists k, 0 <= k /\ Rabs (k - 1) <= bpow radix2 (-49) * (1 + Rabs dx) /\ on_ellipse dx dy fx fy s (k * sqrt (/ 2 * / 2 + dy * dy)) (sg * / 2) 0.
Proof.
  intros Px Py K Sg N S. assert (U := ulp1_pos). assert (T := tiny_975). assert (Adx := Rabs_pos dx).
  assert (N13 := near_weaken K N). destruct (near_bound N13) as [Eb _]; [lia|]. clear N. replace (INR 13) with 13 in Eb by (rewrite INR_IZR_INZ; reflexivity). apply Rabs_le_inv in Eb.
  set (w := s * dy + dx) in *. set (W := 1 + 4 * (dy * dy)) in *.
  assert (HW : 1 <= W) by (unfold W; nra). clear N13.
  assert (E49 : B (-49) = 16 * ulp1). { unfold ulp1. change 16 with (B 4). now rewrite <- bpow_plus. }
  (* the point before stretching and shearing *)
  set (X := (sg * / 2 - w) / fx). set (Y := - dy / fy). set (c2 := / 2 * / 2 + dy * dy).
  assert (C2 : c2 = W / 4) by (unfold c2, W; field). assert (Pc : 0 < c2) by (rewrite C2; lra).
  assert (Kp : 0 <= (X * X + Y * Y) / c2). { apply Rmult_le_pos; [nra|]. apply Rlt_le, Rinv_0_lt_compat; auto. }
  exists (sqrt ((X * X + Y * Y) / c2)). split; [apply sqrt_pos|]. split.
  2:{ exists X, Y. split; [|split].
      - replace (sqrt ((X * X + Y * Y) / c2) * sqrt c2 * (sqrt ((X * X + Y * Y) / c2) * sqrt c2)) with (sqrt ((X * X + Y * Y) / c2) * sqrt ((X * X + Y * Y) / c2) * (sqrt c2 * sqrt c2)) by ring.
        rewrite !sqrt_sqrt by lra. field. lra.
      - unfold X, Y, w. field. split; lra.
      - unfold Y. field. lra. }
  set (m := / (fx * fx)) in *. set (n' := 4 * (dy * dy) / (fy * fy)) in *.
  assert (Hm : 0 < m). { apply Rinv_0_lt_compat. nra. }
  assert (Hn : 0 <= n'). { apply Rmult_le_pos; [nra|]. apply Rlt_le, Rinv_0_lt_compat. nra. }
  set (v := 2 * sg * w). assert (Hv : Rabs v <= 2 * ulp1 * Rabs dx + 2 * B (-975)).
  { unfold v. rewrite !Rabs_mult. rewrite (Rabs_pos_eq 2) by lra. assert (Rabs sg = 1) as -> by (destruct Sg as [->| ->]; [apply Rabs_R1|unfold Rabs; destruct (Rcase_abs (-1)); lra]). lra. }
  assert (Qe : (X * X + Y * Y) / c2 = (m * ((1 - v) * (1 - v)) + n') / W).
  { rewrite C2. unfold X, Y, m, n', v. assert (sg * sg = 1) as S2 by (destruct Sg as [->| ->]; lra). 
    replace ((1 - 2 * sg * w) * (1 - 2 * sg * w)) with (4 * ((sg * / 2 - w) * (sg * / 2 - w)) + (1 - sg * sg) + 4 * (sg * sg - 1) * (w * w)) by field. rewrite S2. field. repeat split; lra. }
  rewrite Qe in *. set (Q := (m * ((1 - v) * (1 - v)) + n') / W) in *. rewrite E49. set (z := Rabs v) in *. set (a := Rabs dx) in *.
  assert (Z0 : 0 <= z) by apply Rabs_pos. assert (Vz : - z <= v <= z) by (apply Rabs_le_inv; apply Rle_refl).
  set (t := 16 * ulp1 * (1 + a)). assert (Ht : 0 <= t) by (unfold t; nra).
  assert (Up : sqrt Q <= 1 + t).
  { assert (G : 0 <= (1 + 7 * ulp1) * (1 + z)) by (apply Rmult_le_pos; lra).
    apply Rle_trans with ((1 + 7 * ulp1) * (1 + z)).
    - rewrite <- (sqrt_square ((1 + 7 * ulp1) * (1 + z))) by exact G. apply sqrt_le_1_alt. unfold Q. apply Rmult_le_reg_r with W; [lra|].
      unfold Rdiv. rewrite Rmult_assoc, Rinv_l, Rmult_1_r by lra.
      assert (A1 : (1 - v) * (1 - v) <= (1 + z) * (1 + z)) by nra. assert (A2 : 1 <= (1 + z) * (1 + z)) by nra.
      apply Rle_trans with ((m + n') * ((1 + z) * (1 + z))); [nra|].
      replace ((1 + 7 * ulp1) * (1 + z) * ((1 + 7 * ulp1) * (1 + z)) * W) with ((1 + 7 * ulp1) * (1 + 7 * ulp1) * W * ((1 + z) * (1 + z))) by ring.
      apply Rmult_le_compat_r; [lra|]. nra.
    - unfold t. nra. }
  assert (Lo : 1 - t <= sqrt Q).
  { destruct (Rle_lt_dec 1 t) as [H1|H1]; [apply Rle_trans with 0; [lra|apply sqrt_pos]|].
    rewrite <- (sqrt_square (1 - t)) by lra. apply sqrt_le_1_alt. unfold Q. apply Rmult_le_reg_r with W; [lra|].
    unfold Rdiv. rewrite (Rmult_assoc (m * _ + n') (/ W) W), Rinv_l, Rmult_1_r by lra.
    assert (z <= t / 4) by (unfold t; nra). assert (A1 : 1 - 2 * z <= (1 - v) * (1 - v)) by nra.
    apply Rle_trans with ((m + n') * (1 - 2 * z)); [|nra].
    apply Rle_trans with ((1 - 14 * ulp1) * W * (1 - 2 * z)); [|apply Rmult_le_compat_r; lra].
    replace ((1 - 14 * ulp1) * W * (1 - 2 * z)) with ((1 - 14 * ulp1) * (1 - 2 * z) * W) by ring. apply Rmult_le_compat_r; [lra|].
    apply Rle_trans with (1 - t); [nra|]. unfold t. nra. }
  apply Rabs_le. unfold t in *. lra.
Qed.
