(** np.linspace in binary64: the points are ordered, lie between the ends and are where they should be up to
    rounding. *)
From Coq Require Import ZArith Reals List Bool Lia Lra.
From Flocq Require Import Core BinarySingleNaN Relative.
From Verif Require Import Num NumP Py GridParams Round64P SpecF64.
Import ListNotations.
Set Implicit Arguments.
Local Open Scope R_scope.
#[local] Instance vexp : Valid_exp (SpecFloat.fexp 53 1024). Proof. apply fexp_correct. reflexivity. Qed.
#[local] Instance vrnd : Valid_rnd (round_mode mode_NE). Proof. apply valid_rnd_round_mode. Qed.

Section L.
Variables (a b : f64) (x y : R) (N : nat).
Hypothesis Ha : f64_val a = XFin x.
Hypothesis Hb : f64_val b = XFin y.
Hypothesis Hxy : B (-900) <= y - x.
Hypothesis Bx : Rabs x <= B 1000.
Hypothesis By : Rabs y <= B 1000.
Hypothesis N1 : (1 <= N)%nat.
Hypothesis N2 : (Z.of_nat N <= 2 ^ 50)%Z.

Lemma N_range : 1 <= INR N <= B 50.
Proof.
  split; [change 1 with (INR 1); now apply le_INR|]. rewrite INR_IZR_INZ. change (B 50) with (IZR (2 ^ 50)). now apply IZR_le.
Qed.
Lemma nat64 i : (i <= N)%nat -> f64_val (n_ofnat i : f64) = XFin (INR i).
Proof. intros H. rewrite INR_IZR_INZ. exact (l_ofZ (T := f64) (Z.of_nat i) ltac:(lia)). Qed.
Lemma width_pos : 0 < y - x.
Proof. assert (P := bpow_gt_0 radix2 (-900)). lra. Qed.
Lemma width_big : y - x <= B 1001.
Proof. change 1001%Z with (1 + 1000)%Z. rewrite bpow_plus. change (B 1) with 2. apply Rabs_le_inv in Bx, By. lra. Qed.
Let step : f64 := n_div (n_sub b a) (n_ofnat N).
Lemma step_val : exists s d, f64_val step = XFin s /\ Rabs d <= 3 * ulp1 /\ s = (y - x) / INR N * (1 + d) /\ B (-960) <= s.
Proof.
  assert (U := ulp1_pos). assert (W := width_pos). assert (G := width_big). assert (R := N_range).
  assert (E1 : B 1001 <= B 1023) by (apply bpow_le; lia).
  destruct (sub64 b a Hb Ha) as (d1 & D1 & S1); [rewrite Rabs_pos_eq; lra|].
  assert (D1' := Rabs_le_inv _ _ D1).
  set (q := (y - x) * (1 + d1) / INR N).
  assert (IN : 0 < / INR N <= 1). { split; [apply Rinv_0_lt_compat; lra|]. rewrite <- Rinv_1. apply Rinv_le; lra. }
  assert (IN' : B (-50) <= / INR N). { change (-50)%Z with (- (50))%Z. rewrite bpow_opp. apply Rinv_le; lra. }
  assert (Q : B (-951) <= q <= B 1001 * 2).
  { unfold q, Rdiv. change (-951)%Z with (-900 + -1 + -50)%Z. rewrite !bpow_plus. assert (P9 := bpow_gt_0 radix2 (-900)). assert (P5 := bpow_gt_0 radix2 (-50)). change (B (-1)) with (/ 2). split.
    - apply Rmult_le_compat; [lra|lra| |exact IN']. apply Rmult_le_compat; lra.
    - rewrite <- (Rmult_1_r (B 1001 * 2)). apply Rmult_le_compat; [apply Rmult_le_pos; lra|lra| |lra]. apply Rmult_le_compat; lra. }
  assert (P51 := bpow_gt_0 radix2 (-951)).
  destruct (div64 (n_sub b a) (n_ofnat N) S1 (nat64 (le_n N))) as (d2 & D2 & S2); [lra| |].
  { fold q. right. rewrite Rabs_pos_eq by lra. split; [apply Rle_trans with (B (-951)); [apply bpow_le; lia|lra]|].
    apply Rle_trans with (B 1002); [|apply bpow_le; lia]. change 1002%Z with (1001 + 1)%Z. rewrite bpow_plus. change (B 1) with 2. lra. }
  fold q in S2. assert (D2' := Rabs_le_inv _ _ D2).
  exists (q * (1 + d2)), (d1 + d2 + d1 * d2). split; [exact S2|]. split; [|split].
  - assert (X : Rabs (d1 * d2) <= ulp1). { rewrite Rabs_mult, <- (Rmult_1_r ulp1). apply Rmult_le_compat; try apply Rabs_pos; lra. }
    apply Rabs_le_inv in X. apply Rabs_le. lra.
  - unfold q. field. lra.
  - apply Rle_trans with (B (-951) * B (-9)); [rewrite <- bpow_plus; apply bpow_le; lia|]. apply Rmult_le_compat; [lra|apply bpow_ge_0|lra|].
    apply Rle_trans with (B (-1)); [apply bpow_le; lia|]. change (B (-1)) with (/ 2). lra.
Qed.

(** the offset of point [i] *)
Lemma small_slack i d : (i < N)%nat -> Rabs d <= 5 * ulp1 -> 0 <= INR i * ((y - x) / INR N) * (1 + d) <= y - x.
Proof.
  intros Hi D. assert (U := ulp1_pos). assert (W := width_pos). assert (R := N_range). apply Rabs_le_inv in D.
  assert (I : 0 <= INR i <= INR N - 1). { split; [apply pos_INR|]. assert (X : INR (S i) <= INR N) by (apply le_INR; lia). rewrite S_INR in X. lra. }
  assert (IN : 0 < / INR N) by (apply Rinv_0_lt_compat; lra).
  assert (K : 0 <= INR i * / INR N * (1 + d) <= 1).
  { split; [apply Rmult_le_pos; [apply Rmult_le_pos|]; lra|].
    apply Rmult_le_reg_r with (INR N); [lra|]. replace (INR i * / INR N * (1 + d) * INR N) with (INR i * (1 + d)) by (field; lra).
    apply Rle_trans with ((INR N - 1) * (1 + 5 * ulp1)); [apply Rmult_le_compat; lra|].
    assert (V : INR N * (5 * ulp1) <= 1).
    { apply Rle_trans with (B 50 * (5 * B (-53))); [apply Rmult_le_compat; try lra; unfold ulp1; lra|].
      replace (B 50 * (5 * B (-53))) with (5 * (B 50 * B (-53))) by ring. rewrite <- bpow_plus. change (50 + -53)%Z with (-3)%Z. change (B (-3)) with (/ 8). lra. }
    lra. }
  replace (INR i * ((y - x) / INR N) * (1 + d)) with ((y - x) * (INR i * / INR N * (1 + d))) by (unfold Rdiv; ring).
  split; [apply Rmult_le_pos; lra|]. rewrite <- (Rmult_1_r (y - x)) at 2. apply Rmult_le_compat_l; lra.
Qed.
Definition offset (s : R) (i : nat) : R := rnd (INR i * s).
Lemma offset_val s d i : Rabs d <= 3 * ulp1 -> s = (y - x) / INR N * (1 + d) -> B (-960) <= s -> f64_val step = XFin s -> (i < N)%nat ->
  f64_val (n_mul (n_ofnat i) step) = XFin (offset s i) /\ 0 <= offset s i <= y - x /\
  Rabs (offset s i - INR i * ((y - x) / INR N)) <= 5 * ulp1 * (y - x).
Proof.
  intros D Es Bs Hs Hi. assert (U := ulp1_pos). assert (W := width_pos). assert (G := width_big). assert (P := bpow_gt_0 radix2 (-960)).
  assert (E1 : B 1001 <= B 1023) by (apply bpow_le; lia).
  assert (S0 : 0 <= INR i * s <= y - x).
  { rewrite Es, <- Rmult_assoc. apply small_slack; auto. lra. }
  assert (IR : in_range (INR i * s)).
  { destruct i as [|i]; [left; cbn [INR]; ring|]. right. rewrite Rabs_pos_eq by lra. split; [|lra].
    apply Rle_trans with (B (-960)); [apply bpow_le; lia|]. rewrite <- (Rmult_1_l (B (-960))). apply Rmult_le_compat; try lra. change 1 with (INR 1). apply le_INR. lia. }
  split; [apply mul_correct; [apply nat64; lia|exact Hs|rewrite Rabs_pos_eq; lra]|].
  destruct (rnd_range IR) as (e & De & E). unfold offset. rewrite E.
  assert (X : exists d', Rabs d' <= 5 * ulp1 /\ INR i * s * (1 + e) = INR i * ((y - x) / INR N) * (1 + d')).
  { exists (d + e + d * e). split; [|rewrite Es; ring]. assert (X : Rabs (d * e) <= ulp1). { rewrite Rabs_mult, <- (Rmult_1_l ulp1). apply Rmult_le_compat; try apply Rabs_pos; lra. }
    apply Rabs_le_inv in X, D, De. apply Rabs_le. lra. }
  destruct X as (d' & D' & ->). split; [now apply small_slack|].
  assert (K := @small_slack i 0 Hi). rewrite Rabs_R0, Rplus_0_r, Rmult_1_r in K. destruct K as [K1 K2]; [lra|].
  replace (_ - _) with (INR i * ((y - x) / INR N) * d') by ring. rewrite Rabs_mult, (Rabs_pos_eq (INR i * _)) by exact K1. rewrite (Rmult_comm (5 * ulp1)).
  apply Rmult_le_compat; try apply Rabs_pos; auto.
Qed.
Definition place (s : R) (i : nat) : R := if Nat.eqb i N then y else rnd (offset s i + x).
Lemma between r : 0 <= r <= y - x -> Rabs (r + x) <= Rmax (Rabs x) (Rabs y).
Proof.
  intros H. assert (A := Rmax_l (Rabs x) (Rabs y)). assert (C := Rmax_r (Rabs x) (Rabs y)). assert (D := Rle_abs y). assert (E := Rle_abs (- x)). rewrite Rabs_Ropp in E.
  apply Rabs_le. lra.
Qed.
Theorem points : exists l, map f64_val (linspace a b (S N)) = map XFin l /\ List.length l = S N /\
  (forall i, (i <= N)%nat -> x <= nth i l 0 <= y) /\ nth 0 l 0 = x /\ nth N l 0 = y /\
  (forall i j, (i <= j <= N)%nat -> nth i l 0 <= nth j l 0) /\
  (forall i, (i <= N)%nat -> Rabs (nth i l 0 - (x + INR i * ((y - x) / INR N))) <= 16 * ulp1 * Rmax (Rabs x) (Rabs y)).
Proof.
  destruct step_val as (s & d & Hs & D & Es & Bs). assert (U := ulp1_pos). assert (W := width_pos). assert (P := bpow_gt_0 radix2 (-960)). assert (RN := N_range).
  assert (E0 : B 1000 <= B 1023) by (apply bpow_le; lia).
  assert (Fx : rnd x = x) by (apply round_generic; [exact vrnd|exact (f64_format a Ha)]).
  assert (Fy : rnd y = y) by (apply round_generic; [exact vrnd|exact (f64_format b Hb)]).
  assert (O := fun i => offset_val D Es Bs Hs (i := i)).
  assert (Mx : Rmax (Rabs x) (Rabs y) <= B 1000) by now apply Rmax_lub.
  assert (PL : forall i, (i <= N)%nat -> x <= place s i <= y).
  { intros i Hi. unfold place. destruct (Nat.eqb_spec i N) as [->|Ne]; [lra|]. destruct (O i) as (_ & B1 & _); [lia|].
    rewrite <- Fx at 1. rewrite <- Fy. split; apply round_le; try exact vexp; try exact vrnd; lra. }
  assert (NT : forall i, (i <= N)%nat -> nth i (map (place s) (seq 0 (S N))) 0 = place s i).
  { intros i Hi. rewrite nth_indep with (d' := place s 0) by (rewrite map_length, seq_length; lia). rewrite map_nth, seq_nth by lia. reflexivity. }
  exists (map (place s) (seq 0 (S N))). split; [|split; [now rewrite map_length, seq_length|split; [|split; [|split; [|split]]]]].
  - unfold linspace. rewrite !map_map. apply map_ext_in. intros i Hi. apply in_seq in Hi. replace (S N - 1)%nat with N by lia.
    destruct (Nat.ltb_spec 1 (S N)) as [_|X]; [|lia]. cbn [andb]. unfold place. destruct (Nat.eqb_spec i N) as [->|Ne]; [exact Hb|].
    assert (MT : forall (u v : f64), match N with O => u | S _ => v end = v) by (intros u v; clear - N1; destruct N; [lia|reflexivity]). rewrite MT.
    assert (Z : n_eq (n_div (n_sub b a) (n_ofnat N)) n_zero = false).
    { cbn [n_eq Num_f64]. rewrite f64_eq. change (f64_val (n_div (n_sub b a) (n_ofnat N))) with (f64_val step). rewrite Hs. change (f64_val n_zero) with (XFin 0).
      cbn [x_eq]. destruct (Req_EM_T s 0); [lra|reflexivity]. }
    rewrite Z. destruct (O i) as (V & B1 & _); [lia|]. apply add_correct; [exact V|exact Ha|]. apply Rle_trans with (1 := between B1). lra.
  - intros i Hi. rewrite NT by auto. now apply PL.
  - rewrite NT by lia. unfold place. destruct (Nat.eqb_spec 0 N) as [X|_]; [lia|]. unfold offset. cbn [INR]. rewrite Rmult_0_l, round_0, Rplus_0_l by exact vrnd. exact Fx.
  - rewrite NT by lia. unfold place. now rewrite Nat.eqb_refl.
  - intros i j [Hi Hj]. rewrite !NT by lia. unfold place at 2. destruct (Nat.eqb_spec j N) as [->|Ne]; [apply PL; lia|].
    unfold place. destruct (Nat.eqb_spec i N) as [->|Ne']; [lia|]. apply round_le; [exact vexp|exact vrnd|]. apply Rplus_le_compat_r.
    unfold offset. apply round_le; [exact vexp|exact vrnd|]. apply Rmult_le_compat_r; [lra|]. now apply le_INR.
  - intros i Hi. rewrite NT by auto. assert (MM := Rmax_l (Rabs x) (Rabs y)). assert (MM' := Rmax_r (Rabs x) (Rabs y)). assert (Px := Rabs_pos x).
    unfold place. destruct (Nat.eqb_spec i N) as [->|Ne].
    + replace (y - _) with 0 by (field; lra). rewrite Rabs_R0. apply Rmult_le_pos; lra.
    + destruct (O i) as (_ & B1 & A1); [lia|].
      assert (W2 : y - x <= 2 * Rmax (Rabs x) (Rabs y)). { assert (D1 := Rle_abs y). assert (E1 := Rle_abs (- x)). rewrite Rabs_Ropp in E1. lra. }
      destruct (O i) as (V & _ & _); [lia|]. assert (BB := between B1).
      destruct (add64 _ _ V Ha) as (e & De & A2); [lra|]. rewrite (add_correct _ _ V Ha) in A2 by lra. apply (f_equal (fun v => match v with XFin r => r | _ => 0 end)) in A2. cbv beta iota in A2. rewrite A2.
      replace (_ - _) with ((offset s i - INR i * ((y - x) / INR N)) + (offset s i + x) * e) by ring. apply Rle_trans with (1 := Rabs_triang _ _).
      assert (Q : Rabs ((offset s i + x) * e) <= ulp1 * Rmax (Rabs x) (Rabs y)). { rewrite Rabs_mult, Rmult_comm. apply Rmult_le_compat; try apply Rabs_pos; auto. }
      apply Rle_trans with (5 * ulp1 * (2 * Rmax (Rabs x) (Rabs y)) + ulp1 * Rmax (Rabs x) (Rabs y)); [|assert (0 <= ulp1 * Rmax (Rabs x) (Rabs y)) by (apply Rmult_le_pos; lra); lra].
      apply Rplus_le_compat; [|exact Q]. apply Rle_trans with (1 := A1). apply Rmult_le_compat_l; lra.
Qed.
End L.
