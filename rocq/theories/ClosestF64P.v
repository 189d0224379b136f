(** The closest grid point in binary64: proofs. *)
From Coq Require Import ZArith Reals List Bool Lia Lra.
From Flocq Require Import Core BinarySingleNaN Relative.
From Verif Require Import Num NumP Py SpecNum Validate Ring RingSystem RingP FS GridParams SpecGrid GridProp SpecProp Geometry Build SpecBuild Shallot AddLaws ShallotOps SpecOps
  OpsP OpsReadP OpsEditP OpsGradP OpsFitP OpsPointP OpsExtractP OpsWrapP Round64P GeomF64P SpecF64 SpecGrad GradF64P SpecAxis FitF64P SpecFit FitGridP SpecClosest.
Import ListNotations.
Local Open Scope R_scope.
Local Open Scope list_scope.
Set Implicit Arguments.

(** *** distances *)
Lemma square64 (x y : f64) a b : f64_val x = XFin a -> f64_val y = XFin b -> ranged (-260) 260 a -> ranged (-260) 260 b ->
  tracks 3 (n_mul (n_sub x y) (n_sub x y)) ((a - b) * (a - b)) /\ 0 <= (a - b) * (a - b) <= bpow radix2 522.
Proof.
  intros Ha Hb Ra Rb. assert (Sq : 0 <= (a - b) * (a - b)) by exact (Rle_0_sqr (a - b)).
  destruct (@sub_r x y a b (-260) 260) as (r & d & V & Rr & D & E); auto; try lia.
  assert (Rd : ranged (-313) 261 (a - b)).
  { change (ranged (-260 - 53) (260 + 1) (a + - b)). apply ranged_sum; [exact (f64_format _ Ha)|apply generic_format_opp; exact (f64_format _ Hb)|exact Ra|now apply ranged_opp]. }
  assert (N2 : near 2 (r * r) ((a - b) * (a - b))).
  { subst r. replace ((a - b) * (1 + d) * ((a - b) * (1 + d))) with ((a - b) * (a - b) * (1 + d) * (1 + d)) by ring. apply near_round; auto. apply near_step; auto. }
  assert (S2 : (a - b) * (a - b) = 0 \/ bpow radix2 (-626) <= (a - b) * (a - b) <= bpow radix2 522).
  { assert (X := ranged_mul Rd Rd). destruct X as [X|[X Y]]; [now left|right]. rewrite Rabs_pos_eq in X, Y by exact Sq. split; [exact X|exact Y]. }
  split; [|split; [exact Sq|destruct S2 as [->|S2]; [apply bpow_ge_0|apply S2]]].
  destruct (mul64 _ _ V V) as (f & F & G); [apply (range_of N2); [lia|]; destruct S2 as [S2|S2]; [now left|right; split; [apply Rle_trans with (2 := proj1 S2)|apply Rle_trans with (1 := proj2 S2)]; apply bpow_le; lia]|].
  exists (r * r * (1 + f)). split; [exact G|]. now apply near_round.
Qed.
Lemma tracks_sqrt k (x : f64) a : tracks (k + k) x a -> tracks (S k) (n_sqrt x) (sqrt a).
Proof.
  intros (v & V & N). destruct (sqrt64 _ V (near_nonneg N)) as (d & D & E). exists (sqrt v * (1 + d)). split; [exact E|]. apply near_round; auto. now apply near_sqrt.
Qed.
Lemma distance64 (u1 u2 u3 u4 w1 w2 w3 w4 : f64) r i t y r' i' t' y' :
  f64_val u1 = XFin r -> f64_val u2 = XFin i -> f64_val u3 = XFin t -> f64_val u4 = XFin y -> f64_val w1 = XFin r' -> f64_val w2 = XFin i' -> f64_val w3 = XFin t' -> f64_val w4 = XFin y' ->
  Forall (ranged (-260) 260) [r; i; t; y; r'; i'; t'; y'] ->
  let sq u := n_mul u u in
  tracks 4 (n_sqrt (n_add (n_add (n_add (sq (n_sub u1 w1)) (sq (n_sub u2 w2))) (sq (n_sub u3 w3))) (sq (n_sub u4 w4)))) (gap (r, i, t, y) (r', i', t', y')).
Proof.
  intros V1 V2 V3 V4 W1 W2 W3 W4 F. cbn zeta. repeat match goal with h : Forall _ (_ :: _) |- _ => inversion h; clear h; subst end.
  destruct (square64 _ _ V1 W1) as [T1 B1]; auto. destruct (square64 _ _ V2 W2) as [T2 B2]; auto. destruct (square64 _ _ V3 W3) as [T3 B3]; auto. destruct (square64 _ _ V4 W4) as [T4 B4]; auto.
  assert (K : 4 * bpow radix2 522 <= bpow radix2 1000) by (change 4 with (bpow radix2 2); rewrite <- bpow_plus; apply bpow_le; lia). assert (P := bpow_ge_0 radix2 522).
  unfold gap. apply (@tracks_sqrt 3). change (3 + 3)%nat with 6%nat. apply (@tracks_add 5); [|apply tracks_weaken with 3%nat; [lia|exact T4]|lia|lra].
  apply (@tracks_add 4); [|apply tracks_weaken with 3%nat; [lia|exact T3]|lia|lra]. apply (@tracks_add 3); [exact T1|exact T2|lia|lra].
Qed.
(** moving one coordinate *)
Lemma gap_move a r i t y y' : gap (r, i, t, y) a <= gap (r, i, t, y') a + Rabs (y - y').
Proof.
  destruct a as [[[r' i'] t'] b]. unfold gap. set (A := (r - r') * (r - r') + (i - i') * (i - i') + (t - t') * (t - t')).
  assert (HA : 0 <= A). { unfold A. assert (X := Rle_0_sqr (r - r')). assert (Y := Rle_0_sqr (i - i')). assert (Z := Rle_0_sqr (t - t')). unfold Rsqr in *. lra. }
  set (p := y - b). set (q := y' - b). replace (y - y') with (p - q) by (unfold p, q; ring). clearbody A p q.
  assert (Q0 := Rle_0_sqr q). assert (P0 := Rle_0_sqr p). unfold Rsqr in *.
  assert (S := sqrt_pos (A + q * q)). assert (S2 := sqrt_sqrt (A + q * q) ltac:(lra)). assert (Sq : Rabs q <= sqrt (A + q * q)).
  { rewrite <- (sqrt_Rsqr_abs q). apply sqrt_le_1_alt. unfold Rsqr. lra. }
  assert (D := Rabs_pos (p - q)). assert (T : Rabs p <= Rabs q + Rabs (p - q)) by (replace p with (q + (p - q)) at 1 by ring; apply Rabs_triang).
  rewrite <- (sqrt_Rsqr (sqrt (A + q * q) + Rabs (p - q))) by lra. apply sqrt_le_1_alt. unfold Rsqr.
  assert (E1 : p * p = Rabs p * Rabs p) by (rewrite <- Rabs_mult, Rabs_pos_eq; lra). assert (E2 : q * q = Rabs q * Rabs q) by (rewrite <- Rabs_mult, Rabs_pos_eq; lra).
  assert (Rabs p * Rabs p <= (Rabs q + Rabs (p - q)) * (Rabs q + Rabs (p - q))) by (apply Rmult_le_compat; auto using Rabs_pos).
  assert (Rabs q * Rabs (p - q) <= sqrt (A + q * q) * Rabs (p - q)) by (apply Rmult_le_compat_r; lra). lra.
Qed.
Lemma gap_near a r i t y y' : (y - snd a) * (y - snd a) <= (y' - snd a) * (y' - snd a) -> gap (r, i, t, y) a <= gap (r, i, t, y') a.
Proof. destruct a as [[[r' i'] t'] b]. cbn [snd]. intros H. unfold gap. apply sqrt_le_1_alt. lra. Qed.

(** *** row coordinates *)
Section Row.
Variables (s : shallot f64) (n : nat) (lo hi : R).
Hypothesis Ax : even_axis (g_dy (s_params s)) n lo hi.
Hypothesis Hn : (2 <= n)%nat /\ INR n <= bpow radix2 20.
Hypothesis Rlo : sized 100 lo.
Hypothesis Rhi : sized 100 hi.
Let M := Rmax (Rabs lo) (Rabs hi).
Hypothesis Span : bpow radix2 (-44) * (INR n * INR n) * M <= hi - lo.
Notation dy := (g_dy (s_params s)).
Lemma M_nonneg : Rabs lo <= M /\ Rabs hi <= M /\ 0 <= M.
Proof. unfold M. assert (X := Rmax_l (Rabs lo) (Rabs hi)). assert (Y := Rmax_r (Rabs lo) (Rabs hi)). assert (Z := Rabs_pos lo). lra. Qed.
Lemma n_real : 2 <= INR n. Proof. replace 2 with (INR 2) by reflexivity. apply le_INR, Hn. Qed.
Lemma dy_length : List.length dy = n.
Proof. destruct Ax as (l & E & L & _). rewrite <- L, <- (map_length f64_val), E, map_length. reflexivity. Qed.
Lemma dy_at y r : (exists l, map f64_val dy = map XFin l /\ nth_error l y = Some r) <-> exists u, nth_error dy y = Some u /\ f64_val u = XFin r.
Proof.
  split.
  - intros (l & E & N). assert (X : nth_error (map f64_val dy) y = Some (XFin r)) by (rewrite E, nth_error_map, N; reflexivity). rewrite nth_error_map in X. destruct (nth_error dy y) as [u|]; [|discriminate]. exists u. split; [reflexivity|]. cbn in X. congruence.
  - intros (u & N & V). destruct Ax as (l & E & _). exists l. split; [exact E|]. assert (X : nth_error (map f64_val dy) y = Some (XFin r)) by (rewrite nth_error_map, N; cbn; congruence). rewrite E, nth_error_map in X. destruct (nth_error l y); [|discriminate]. cbn in X. congruence.
Qed.
Definition raw (y : nat) : f64 := n_add (n_mul (n_div (n_ofnat y) (n_ofnat (List.length dy))) (n_sub (nth (List.length dy - 1) dy n_nan) (nth 0 dy n_nan))) (nth 0 dy n_nan).
Lemma ranged_step a b r d : ranged a b r -> Rabs d <= ulp1 -> ranged (a - 1) (b + 1) (r * (1 + d)).
Proof.
  intros [->|[A C]] D; [left; ring|right]. assert (U := ulp1_pos). apply Rabs_le_inv in D. rewrite Rabs_mult, (Rabs_pos_eq (1 + d)) by lra.
  replace (a - 1)%Z with (a + -1)%Z by ring. rewrite !bpow_plus. change (B (-1)) with (/ 2). change (B 1) with 2. assert (P := bpow_gt_0 radix2 a). split; apply Rmult_le_compat; lra.
Qed.
(** the computed row coordinate *)
Lemma raw64 y : (y < n)%nat -> exists v, f64_val (raw y) = XFin v /\ ranged (-230) 110 v /\ Rabs (v - (lo + INR y / INR n * (hi - lo))) <= bpow radix2 (-49) * M /\ (y = 0%nat -> v <= 0 <-> lo <= 0).
Proof.
  intros Hy. assert (MM := M_nonneg). assert (N2 := n_real). destruct Hn as [Hn1 Hn2]. assert (U := ulp1_pos).
  assert (F0 : f64_val (nth 0 dy n_nan) = XFin lo).
  { destruct Ax as (l & E & L & A & _). destruct (proj1 (dy_at 0 lo)) as (u & N & V); [eauto|]. apply nth_error_nth with (d := n_nan) in N. congruence. }
  assert (F1 : f64_val (nth (List.length dy - 1) dy n_nan) = XFin hi).
  { rewrite dy_length. destruct Ax as (l & E & L & _ & A & _). destruct (proj1 (dy_at (n - 1) hi)) as (u & N & V); [eauto|]. apply nth_error_nth with (d := n_nan) in N. congruence. }
  assert (I64 : forall i, (i <= n)%nat -> f64_val (n_ofnat i : f64) = XFin (INR i)).
  { intros i Hi. unfold n_ofnat. rewrite INR_IZR_INZ. apply of_Z. rewrite Z.abs_eq by lia. apply le_IZR. rewrite <- INR_IZR_INZ. apply Rle_trans with (INR n); [apply le_INR; exact Hi|]. apply Rle_trans with (1 := Hn2). change (IZR (2 ^ 53)) with (B 53). apply bpow_le. lia. }
  assert (Iy := pos_INR y). assert (Iyn : INR y <= INR n) by (apply le_INR; lia).
  assert (In : 0 < / INR n <= 1 /\ B (-20) <= / INR n). { split; [split; [apply Rinv_0_lt_compat; lra|]|]; [rewrite <- Rinv_1; apply Rinv_le; lra|]. change (-20)%Z with (- (20))%Z. rewrite bpow_opp. apply Rinv_le; lra. }
  assert (Q1 : 0 <= INR y / INR n <= 1). { unfold Rdiv. split; [apply Rmult_le_pos; lra|]. rewrite <- (Rinv_r (INR n)) by lra. apply Rmult_le_compat_r; lra. }
  assert (RQ : ranged (-20) 0 (INR y / INR n)).
  { destruct y as [|y]; [left; cbn; unfold Rdiv; ring|right]. rewrite Rabs_pos_eq by apply Q1. split; [|apply Q1]. unfold Rdiv. assert (1 <= INR (S y)) by (replace 1 with (INR 1) by reflexivity; apply le_INR; lia). assert (/ INR n <= INR (S y) * / INR n); [|lra]. rewrite <- (Rmult_1_l (/ INR n)) at 1. apply Rmult_le_compat_r; lra. }
  destruct (@div64 (n_ofnat y) (n_ofnat n) _ _ (I64 y ltac:(lia)) (I64 n ltac:(lia))) as (d1 & D1 & V1); [lra|apply (ranged_in (lo := (-20)%Z) (hi := 0%Z)); auto; lia|].
  destruct (@sub_r _ _ _ _ (-100) 100 F1 F0 Rhi Rlo) as (r2 & d2 & V2 & R2 & D2 & E2); try lia.
  assert (Rq := ranged_step d1 RQ D1).
  destruct (@mul_r _ _ _ _ (-21) 1 (-153) 101 V1 V2 Rq R2) as (r3 & d3 & V3 & R3 & D3 & E3); try lia.
  destruct (@add_r _ _ _ _ (-174) 102 V3 F0) as (r4 & d4 & V4 & R4 & D4 & E4); try lia; [exact R3|apply (ranged_weaken (lo := (-100)%Z) (hi := 100%Z)); [lia|lia|exact Rlo]|].
  exists r4. split; [unfold raw; rewrite dy_length in V4 |- *; exact V4|]. split; [apply (ranged_weaken (lo := (-227)%Z) (hi := 103%Z)); [lia|lia|exact R4]|].
  set (P := INR y / INR n * (hi - lo)) in *.
  assert (Hs : 0 <= hi - lo <= 2 * M).
  { split; [apply Rle_trans with (2 := Span); apply Rmult_le_pos; [apply Rmult_le_pos; [apply bpow_ge_0|nra]|lra]|]. destruct MM as (A & C & _). apply Rabs_le_inv in A, C. lra. }
  assert (P0 : 0 <= P <= 2 * M). { unfold P. split; [apply Rmult_le_pos; lra|]. rewrite <- (Rmult_1_l (2 * M)). apply Rmult_le_compat; lra. }
  assert (N3 : near 3 r3 P).
  { rewrite E3, E2. replace (INR y / INR n * (1 + d1) * ((hi - lo) * (1 + d2)) * (1 + d3)) with (P * (1 + d1) * (1 + d2) * (1 + d3)) by (unfold P; ring). apply near_round; auto. apply near_round; auto. apply near_step; [lra|exact D1]. }
  destruct (near_bound N3) as [B3 _]; [lia|]. replace (INR 3) with 3 in B3 by (rewrite INR_IZR_INZ; reflexivity). apply Rabs_le_inv in B3, D4. destruct MM as (ML & _ & M0). apply Rabs_le_inv in ML. split.
  - assert (B3' : - (8 * ulp1 * M) <= r3 - P <= 8 * ulp1 * M) by (assert (ulp1 * P <= ulp1 * (2 * M)) by (apply Rmult_le_compat_l; lra); lra).
    assert (Bs : Rabs (r3 + lo) <= 4 * M). { apply Rabs_le. assert (8 * ulp1 * M <= 1 * M) by (apply Rmult_le_compat_r; lra). lra. }
    assert (Bd : Rabs ((r3 + lo) * d4) <= 4 * M * ulp1) by (rewrite Rabs_mult; apply Rmult_le_compat; auto using Rabs_pos; apply Rabs_le; lra). apply Rabs_le_inv in Bd.
    change (-49)%Z with (4 + -53)%Z. rewrite bpow_plus. fold ulp1. change (B 4) with 16. apply Rabs_le. rewrite E4. lra.
  - intros ->. assert (P = 0) as PZ by (unfold P; cbn; unfold Rdiv; ring). rewrite PZ in B3. assert (r3 = 0) as Z3 by lra. rewrite E4, Z3, Rplus_0_l. split; intros H; nra.
Qed.
(** the dy of the row *)
Notation step := (row_step n lo hi).
Lemma span_facts : 0 < INR n /\ 0 <= hi - lo /\ B (-48) * M <= (hi - lo) / (16 * (INR n * INR n)) /\ step = (hi - lo) / (INR n - 1).
Proof.
  assert (N2 := n_real). assert (MM := M_nonneg). assert (Hs : 0 <= hi - lo) by (apply Rle_trans with (2 := Span); apply Rmult_le_pos; [apply Rmult_le_pos; [apply bpow_ge_0|nra]|lra]).
  split; [lra|]. split; [exact Hs|]. split.
  - apply Rmult_le_reg_r with (16 * (INR n * INR n)); [nra|]. replace ((hi - lo) / (16 * (INR n * INR n)) * (16 * (INR n * INR n))) with (hi - lo) by (field; lra). apply Rle_trans with (2 := Span). change (-44)%Z with (4 + -48)%Z. rewrite bpow_plus. change (B 4) with 16. lra.
  - unfold row_step. rewrite minus_INR by lia. reflexivity.
Qed.
Lemma shift y v r u : (y < n)%nat -> f64_val (raw y) = XFin v -> nth_error dy y = Some u -> f64_val u = XFin r ->
  (Rabs (r - v) <= step) /\ (r <= 0 -> v <= 0) /\ (step <= r -> 0 <= v) /\ ranged (-230) 110 v /\ lo <= r <= hi.
Proof.
  intros Hy Hv Nu Vu. destruct (raw64 Hy) as (v' & V' & Rv & Ev & Z0). assert (v' = v) as -> by congruence.
  destruct Ax as (l & E & L & A & A' & Mo & Pl). destruct (proj2 (dy_at y r)) as (l' & E' & N'); [eauto|].
  assert (l' = l) as ->. { clear -E E'. rewrite E in E'. clear E. revert l' E'. induction l as [|a l IH]; intros [|a' l'] X; cbn in X; try discriminate; [reflexivity|]. injection X as X1 X2. subst. f_equal. now apply IH. }
  destruct (Pl y r N') as [Rr Er]. fold M in Er. destruct span_facts as (N0 & S0 & SM & SE). assert (N2 := n_real).
  rewrite minus_INR in Er by lia. change (INR 1) with 1 in Er. apply Rabs_le_inv in Ev, Er.
  assert (Iy := pos_INR y). assert (Iyn : INR y <= INR n - 1). { change 1 with (INR 1). rewrite <- minus_INR by lia. apply le_INR. lia. }
  set (h := (hi - lo) / (INR n * (INR n - 1))). assert (Hi2 : 0 < INR n * (INR n - 1)) by nra.
  assert (h0 : 0 <= h) by (unfold h; apply Rmult_le_pos; [lra|]; apply Rlt_le, Rinv_0_lt_compat; lra).
  assert (Es : step = INR n * h) by (rewrite SE; unfold h; field; lra).
  assert (E1 : INR y / INR n * (hi - lo) = INR y * (INR n - 1) * h) by (unfold h; field; lra).
  assert (E2 : INR y * ((hi - lo) / (INR n - 1)) = INR y * INR n * h) by (unfold h; field; lra).
  assert (Sm : (hi - lo) / (16 * (INR n * INR n)) <= h / 16).
  { replace (h / 16) with ((hi - lo) / (16 * (INR n * (INR n - 1)))) by (unfold h; field; lra). unfold Rdiv. apply Rmult_le_compat_l; [lra|]. apply Rinv_le; nra. }
  assert (E48 : B (-48) * M = 2 * (B (-49) * M)) by (change (-48)%Z with (1 + -49)%Z; rewrite bpow_plus; change (B 1) with 2; ring).
  set (e := B (-49) * M) in *. assert (e0 : e <= h / 32) by lra. rewrite E1 in Ev. rewrite E2 in Er.
  assert (D : r - v <= INR y * h + h / 16 /\ INR y * h - h / 16 <= r - v).
  { assert (INR y * INR n * h - INR y * (INR n - 1) * h = INR y * h) by ring. lra. }
  assert (Yh : INR y * h <= (INR n - 1) * h) by (apply Rmult_le_compat_r; lra). assert (Y0 : 0 <= INR y * h) by (apply Rmult_le_pos; lra).
  assert (nh : (INR n - 1) * h + h = step) by (rewrite Es; ring). assert (hs : h <= (INR n - 1) * h) by (rewrite <- (Rmult_1_l h) at 1; apply Rmult_le_compat_r; lra). split; [apply Rabs_le; lra|]. split.
  - intros Hr. destruct y as [|y]; [apply Z0; [reflexivity|]; assert (r = lo) as <- by congruence; exact Hr|]. assert (h <= INR (S y) * h); [|lra]. rewrite <- (Rmult_1_l h) at 1. apply Rmult_le_compat_r; [lra|]. change 1 with (INR 1). apply le_INR. lia.
  - split; [intros Hr; lra|]. split; [exact Rv|exact Rr].
Qed.
End Row.

(** *** the row used *)
Lemma ranged_million : ranged (-260) 260 10000000 /\ ranged (-260) 260 (-10000000).
Proof. split; right; [rewrite Rabs_pos_eq by lra|rewrite Rabs_left by lra]; (split; [apply Rle_trans with (B 0); [apply bpow_le; lia|cbn; lra]|apply Rle_trans with (B 24); [cbn; lra|apply bpow_le; lia]]). Qed.
Lemma row_used (s : shallot f64) n lo hi y u r (b : f64) bb : rows_ok s n lo hi -> (y < List.length (g_dy (s_params s)))%nat -> nth_error (g_dy (s_params s)) y = Some u -> f64_val u = XFin r -> f64_val b = XFin bb ->
  exists v v', f64_val (row_of s b y) = XFin v' /\ ranged (-260) 260 v' /\ Rabs (r - v) <= row_step n lo hi /\ (v - bb) * (v - bb) <= (v' - bb) * (v' - bb) /\ (on_side (row_step n lo hi) bb r -> v' = v).
Proof.
  intros (Ax & H1 & H2 & Rl & Rh & L & H & Sp) Hy Nu Vu Vb. rewrite (dy_length _ Ax) in Hy.
  destruct (raw64 _ Ax (conj H1 H2) Rl Rh Sp Hy) as (v & V & Rv & Ev & _). destruct (shift _ Ax (conj H1 H2) Rl Rh Sp Hy V Nu Vu) as (Hs & Hneg & Hpos & _ & Hr).
  assert (Rv' : ranged (-260) 260 v) by (apply (ranged_weaken (lo := (-230)%Z) (hi := 110%Z)); [lia|lia|exact Rv]).
  assert (Vz : Rabs v <= 9000000).
  { assert (X : (hi - lo) <= 2000000) by (apply Rabs_le_inv in L, H; lra). assert (N2 := n_real (conj H1 H2)).
    assert (M0 : Rmax (Rabs lo) (Rabs hi) <= 1000000) by (apply Rmax_lub; assumption). assert (Mp := Rle_trans _ _ _ (Rabs_pos lo) (Rmax_l (Rabs lo) (Rabs hi))).
    assert (E0 : B (-49) * Rmax (Rabs lo) (Rabs hi) <= 1 * 1000000) by (apply Rmult_le_compat; auto; [apply bpow_ge_0|change 1 with (B 0); apply bpow_le; lia]).
    assert (Q0 : 0 <= INR y / INR n <= 1). { assert (INR y <= INR n) by (apply le_INR; lia). assert (Iy := pos_INR y). unfold Rdiv. assert (0 < / INR n) by (apply Rinv_0_lt_compat; lra). split; [apply Rmult_le_pos; lra|]. rewrite <- (Rinv_r (INR n)) by lra. apply Rmult_le_compat_r; lra. }
    assert (S0 : 0 <= hi - lo) by lra.
    assert (P0 : 0 <= INR y / INR n * (hi - lo) <= 1 * (hi - lo)) by (split; [apply Rmult_le_pos; lra|apply Rmult_le_compat_r; lra]).
    apply Rabs_le_inv in L, H, Ev. apply Rabs_le. lra. }
  apply Rabs_le_inv in Vz. exists v. assert (Z0 : f64_val (n_zero : f64) = XFin 0) by reflexivity.
  change (row_of s b y) with (if n_lt b n_zero then (if n_gt (raw s y) n_zero then n_ofZ 10000000 else raw s y) else if n_gt b n_zero then (if n_lt (raw s y) n_zero then n_ofZ (-10000000) else raw s y) else raw s y).
  assert (Lt : forall a c (x z : R), f64_val a = XFin x -> f64_val c = XFin z -> (n_lt (a : f64) c = true <-> x < z)) by (intros a c x z Ha Hc; rewrite nlt_iff; change (val a) with (f64_val a); change (val c) with (f64_val c); rewrite Ha, Hc; reflexivity).
  assert (Same : exists v', f64_val (raw s y) = XFin v' /\ ranged (-260) 260 v' /\ Rabs (r - v) <= row_step n lo hi /\ (v - bb) * (v - bb) <= (v' - bb) * (v' - bb) /\ (on_side (row_step n lo hi) bb r -> v' = v)) by (exists v; repeat split; auto; lra).
  destruct ranged_million as [Mp Mn].
  destruct (n_lt b n_zero) eqn:B1.
  - apply (Lt _ _ _ _ Vb Z0) in B1. destruct (n_gt (raw s y) n_zero) eqn:B2; [|exact Same]. unfold n_gt in B2. apply (Lt _ _ _ _ Z0 V) in B2.
    exists 10000000. split; [apply (of_Z 10000000); vm_compute; discriminate|]. split; [exact Mp|]. split; [exact Hs|]. split; [apply Rmult_le_compat; lra|]. intros [S1 _]. specialize (Hneg (S1 B1)). lra.
  - destruct (n_gt b n_zero) eqn:B3; [|exact Same]. unfold n_gt in B3. apply (Lt _ _ _ _ Z0 Vb) in B3. destruct (n_lt (raw s y) n_zero) eqn:B2; [|exact Same]. apply (Lt _ _ _ _ V Z0) in B2.
    exists (-10000000). split; [apply (of_Z (-10000000)); vm_compute; discriminate|]. split; [exact Mn|]. split; [exact Hs|]. split.
    + replace ((v - bb) * (v - bb)) with ((bb - v) * (bb - v)) by ring. replace ((-10000000 - bb) * (-10000000 - bb)) with ((bb - -10000000) * (bb - -10000000)) by ring. apply Rmult_le_compat; lra.
    + intros [_ S2]. specialize (Hpos (S2 B3)). lra.
Qed.
(** the distance computed for a point *)
Lemma away64 (s : shallot f64) n lo hi m (v1 v2 v3 v4 : f64) r i t b y x q a w : rows_ok s n lo hi -> f64_val v1 = XFin r -> f64_val v2 = XFin i -> f64_val v3 = XFin t -> f64_val v4 = XFin b ->
  Forall (sized 200) [r; i; t; b] -> disk_at s m y x q a -> away s m v1 v2 v3 v4 y x q w ->
  exists d g, f64_val w = XFin d /\ 0 <= g /\ agrees 4 d g /\ gap a (r, i, t, b) <= g + row_step n lo hi /\ (on_side (row_step n lo hi) b (snd a) -> g <= gap a (r, i, t, b) + row_step n lo hi).
Proof.
  intros Ro V1 V2 V3 V4 F. destruct a as [[[r' i'] t'] dy]. intros (Hy & Hx & Hq & (u1 & u2 & u3 & u4 & S1 & S2 & S3 & N4 & U1 & U2 & U3 & U4) & R1 & R2 & R3) (w1 & w2 & w3 & W1 & W2 & W3 & ->).
  rewrite <- (seen_fun S1 W1), <- (seen_fun S2 W2), <- (seen_fun S3 W3). destruct (@row_used _ _ _ _ _ _ _ _ _ Ro Hy N4 U4 V4) as (v & v' & Vr & Rr & Hs & Hq2 & Hk).
  assert (Wk : forall c, sized 200 c -> ranged (-260) 260 c) by (intros c Hc; apply (ranged_weaken (lo := (-200)%Z) (hi := 200%Z)); [lia|lia|exact Hc]).
  repeat match goal with h : Forall _ (_ :: _) |- _ => inversion h; clear h; subst end.
  assert (Fa : Forall (ranged (-260) 260) [r'; i'; t'; v'; r; i; t; b]) by (repeat (apply Forall_cons; [now auto|]); apply Forall_nil).
  destruct (@distance64 _ _ _ _ _ _ _ _ _ _ _ _ _ _ _ _ U1 U2 U3 Vr V1 V2 V3 V4 Fa) as (d & D & Nr).
  exists d, (gap (r', i', t', v') (r, i, t, b)). split; [exact D|]. split; [apply sqrt_pos|]. split; [split; apply Nr|].
  split.
  - apply Rle_trans with (1 := gap_move (r, i, t, b) r' i' t' dy v). apply Rplus_le_compat; [now apply gap_near|exact Hs].
  - cbn [snd]. intros So. rewrite (Hk So). apply Rle_trans with (1 := gap_move (r, i, t, b) r' i' t' v dy). rewrite Rabs_minus_sym. lra.
Qed.
Section Main.
Variable E : env f64.
Theorem closest64 (s s' : shallot f64) n lo hi v1 v2 v3 v4 m c y x q d r i t b a y' x' q' a' : sreach E s -> rows_ok s n lo hi ->
  determine_closest v1 v2 v3 v4 (PBool m) s = (s', Ok (c, (y, x, q), d)) ->
  f64_val (num_of v1) = XFin r -> f64_val (num_of v2) = XFin i -> f64_val (num_of v3) = XFin t -> f64_val (num_of v4) = XFin b -> Forall (sized 200) [r; i; t; b] ->
  disk_at s m y x q a -> disk_at s m y' x' q' a' -> on_side (row_step n lo hi) b (snd a') ->
  (1 - bpow radix2 (-53)) ^ 8 * gap a (r, i, t, b) <= gap a' (r, i, t, b) + 2 * row_step n lo hi.
Proof.
  intros Hs Ro Hd V1 V2 V3 V4 F Da Da' So. destruct c as [[cy cx] cr].
  destruct (@closest_is_least f64 _ _ _ E s s' v1 v2 v3 v4 m cy cx cr y x q d Hs Hd) as (_ & _ & _ & w & Aw & _ & K).
  assert (Ex : exists w', away s m (num_of v1) (num_of v2) (num_of v3) (num_of v4) y' x' q' w').
  { destruct a' as [[[? ?] ?] ?]. destruct Da' as (_ & _ & _ & (u1 & u2 & u3 & u4 & S1 & S2 & S3 & _) & _). eexists. exists u1, u2, u3. repeat split; eauto. }
  destruct Ex as (w' & Aw'). destruct (@away64 _ _ _ _ _ _ _ _ _ _ _ _ _ _ _ _ _ _ Ro V1 V2 V3 V4 F Da Aw) as (e & g & We & G0 & Ag & G1 & _). destruct (@away64 _ _ _ _ _ _ _ _ _ _ _ _ _ _ _ _ _ _ Ro V1 V2 V3 V4 F Da' Aw') as (e' & g' & We' & _ & Ag' & _ & G2). specialize (G2 So).
  change (val w) with (f64_val w) in K. rewrite We in K. destruct (K ltac:(discriminate)) as [_ L].
  assert (Bd : (y' < List.length (g_dy (s_params s)))%nat /\ (x' < List.length (g_dx (s_params s)))%nat /\ (q' < List.length (g_rfa (s_params s)))%nat) by (destruct a' as [[[? ?] ?] ?]; destruct Da' as (? & ? & ? & _); auto).
  destruct Bd as (B1 & B2 & B3). specialize (L y' x' q' w' B1 B2 B3 Aw'). change (val w') with (f64_val w') in L. rewrite We' in L. destruct L as [L|L]; [discriminate|].
  assert (A := agrees_le Ag Ag' G0 (fin_le L)). change (2 * 4)%nat with 8%nat in A. fold ulp1 in *. assert (P := shrink_pos 8).
  assert (P1 : (1 - ulp1) ^ 8 <= 1) by (assert (U := ulp1_pos); rewrite <- (pow1 8); apply pow_incr; lra).
  assert (St : 0 <= row_step n lo hi). { destruct Ro as (_ & H1 & _ & _ & _ & _ & _ & Sp). assert (Mp := Rle_trans _ _ _ (Rabs_pos lo) (Rmax_l (Rabs lo) (Rabs hi))). unfold row_step. apply Rmult_le_pos; [apply Rle_trans with (2 := Sp); apply Rmult_le_pos; [apply Rmult_le_pos; [apply bpow_ge_0|apply Rle_0_sqr]|exact Mp]|]. apply Rlt_le, Rinv_0_lt_compat, lt_0_INR. lia. }
  assert ((1 - ulp1) ^ 8 * gap a (r, i, t, b) <= (1 - ulp1) ^ 8 * (g + row_step n lo hi)) by (apply Rmult_le_compat_l; lra).
  assert ((1 - ulp1) ^ 8 * row_step n lo hi <= 1 * row_step n lo hi) by (apply Rmult_le_compat_r; lra). lra.
Qed.
(** the distance returned *)
Theorem reported64 (s s' : shallot f64) n lo hi v1 v2 v3 v4 m c y x q d r i t b a : sreach E s -> rows_ok s n lo hi ->
  determine_closest v1 v2 v3 v4 (PBool m) s = (s', Ok (c, (y, x, q), d)) ->
  f64_val (num_of v1) = XFin r -> f64_val (num_of v2) = XFin i -> f64_val (num_of v3) = XFin t -> f64_val (num_of v4) = XFin b -> Forall (sized 200) [r; i; t; b] ->
  disk_at s m y x q a ->
  exists e g, f64_val d = XFin e /\ agrees 4 e g /\ gap a (r, i, t, b) <= g + row_step n lo hi /\ (on_side (row_step n lo hi) b (snd a) -> Rabs (g - gap a (r, i, t, b)) <= row_step n lo hi).
Proof.
  intros Hs Ro Hd V1 V2 V3 V4 F Da. destruct c as [[cy cx] cr].
  destruct (@closest_is_least f64 _ _ _ E s s' v1 v2 v3 v4 m cy cx cr y x q d Hs Hd) as (_ & _ & _ & w & Aw & _ & K). destruct (@away64 _ _ _ _ _ _ _ _ _ _ _ _ _ _ _ _ _ _ Ro V1 V2 V3 V4 F Da Aw) as (e & g & We & G0 & Ag & G1 & G2).
  change (val w) with (f64_val w) in K. rewrite We in K. destruct (K ltac:(discriminate)) as [L _]. exists e, g. split; [exact L|]. split; [exact Ag|]. split; [exact G1|]. intros So. specialize (G2 So). apply Rabs_le. lra.
Qed.
End Main.
