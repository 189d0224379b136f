(** Ringlets computed in binary64. *)
From Coq Require Import ZArith Reals Lra Lia List Bool.
From Flocq Require Import Core BinarySingleNaN.
From Verif Require Import Num NumP BuildFP Py SpecNum Ring RingSystem SpecRing SpecSplit Round64P GeomF64P DiskF64P EdgeErrP.
Import ListNotations.
Local Open Scope R_scope.
Set Implicit Arguments.
Local Notation B := (bpow radix2).
Local Notation u := ulp1.

Section Ringlet.
Variables (rin rout : f64) (i o : R) (d : Z) (k : nat).
Hypotheses (Vi : f64_val rin = XFin i) (Vo : f64_val rout = XFin o) (Hio : 0 < i < o) (Ho : o <= B 1000).
Hypotheses (Hd : (1 <= d <= 2 ^ 53)%Z) (Hk : (Z.of_nat k < d)%Z).
Let D := (o - i) / IZR d.
Let delta := n_div (n_sub rout rin) (n_ofZ d : f64).
Let ri := n_add rin (n_mul (n_ofnat k : f64) delta).
Let ro := n_add ri delta.
Let eta := B (-1075).
Lemma d_pos : 1 <= IZR d <= B 53.
Proof. split; [apply IZR_le; lia|]. change (B 53) with (IZR (2 ^ 53)). apply IZR_le. lia. Qed.
Lemma D_facts : 0 < D <= o - i /\ 0 <= INR k * D <= o - i - D.
Proof.
  destruct d_pos as [A _]. assert (I : 0 < / IZR d) by (apply Rinv_0_lt_compat; lra). assert (E : IZR d * D = o - i) by (unfold D; field; lra).
  assert (P : 0 < D) by (unfold D; apply Rdiv_lt_0_compat; lra). assert (K : 0 <= INR k <= IZR d - 1).
  { split; [apply pos_INR|]. rewrite INR_IZR_INZ, <- minus_IZR. apply IZR_le. lia. }
  assert (INR k * D <= (IZR d - 1) * D) by (apply Rmult_le_compat_r; lra). assert (1 * D <= IZR d * D) by (apply Rmult_le_compat_r; lra).
  split; [split; [exact P|lra]|]. split; [apply Rmult_le_pos; lra|lra].
Qed.
Lemma eta_facts : 0 < eta /\ INR k * eta <= B (-1022).
Proof.
  split; [apply bpow_gt_0|]. replace (B (-1022)) with (B 53 * eta) by (unfold eta; now rewrite <- bpow_plus). apply Rmult_le_compat_r; [apply bpow_ge_0|].
  rewrite INR_IZR_INZ. change (B 53) with (IZR (2 ^ 53)). apply IZR_le. lia.
Qed.
Lemma delta64 : exists v, f64_val delta = XFin v /\ Rabs (v - D) <= 21 / 10 * (u * D) + eta /\ 0 <= v.
Proof.
  assert (U := ulp1_pos). destruct D_facts as [[P1 P2] _]. destruct d_pos as [A A2]. destruct eta_facts as [T _].
  assert (BB : B 1000 <= B 1023) by (apply bpow_le; lia). assert (B1 : 8 * B 1000 <= B 1023) by (change 8 with (B 3); rewrite <- bpow_plus; apply bpow_le; lia).
  assert (H1 : Rabs (o - i) <= B 1023) by (rewrite Rabs_pos_eq; lra).
  destruct (@sub64 rout rin o i Vo Vi H1) as (d1 & D1 & V1).
  assert (Vd : f64_val (n_ofZ d : f64) = XFin (IZR d)) by (apply of_Z; lia).
  assert (I : 0 < / IZR d) by (apply Rinv_0_lt_compat; lra).
  assert (E : (o - i) * (1 + d1) / IZR d = D * (1 + d1)) by (unfold D; field; lra). apply Rabs_le_inv in D1.
  assert (H2 : Rabs ((o - i) * (1 + d1) / IZR d) <= B 1023). { rewrite E, Rabs_pos_eq by nra. assert (D * (1 + d1) <= D * 2) by (apply Rmult_le_compat_l; lra). lra. }
  assert (V2 := @div_correct _ _ _ _ V1 Vd ltac:(lra) H2). rewrite E in V2. fold delta in V2.
  destruct (rnd_abs (D * (1 + d1))) as (d2 & t2 & D2 & T2 & R). exists (D * (1 + d1) * (1 + d2) + t2). split; [now rewrite <- R|]. split.
  - replace (D * (1 + d1) * (1 + d2) + t2 - D) with (D * (d1 + d2 + d1 * d2) + t2) by ring. assert (D1' : Rabs d1 <= u) by (apply Rabs_le; lra).
    assert (S : Rabs (d1 + d2 + d1 * d2) <= 21 / 10 * u). { assert (N := abs_sum (abs_sum D1' D2) (abs_mul_le D1' D2)). assert (u * u <= / 10 * u) by (apply Rmult_le_compat_r; lra). lra. }
    assert (AD : Rabs D <= D) by (rewrite Rabs_pos_eq; lra). assert (N := abs_sum (abs_mul_le AD S) T2). fold eta in N. lra.
  - rewrite <- R. apply round_ge_generic; [exact vexp|exact vrnd|apply generic_format_0|]. nra.
Qed.
Lemma inner64 : exists a, f64_val ri = XFin a /\ i <= a /\ (k = 0%nat -> a = i) /\ Rabs (a - (i + INR k * D)) <= 5 * u * o - 1 / 2 * (u * o) + B (-1010).
Proof.
  assert (U := ulp1_pos). destruct D_facts as [[P1 P2] [P3 P4]]. destruct eta_facts as [T Tk]. destruct delta64 as (v & V & Dv & Pv).
  assert (B1 : 8 * B 1000 <= B 1023) by (change 8 with (B 3); rewrite <- bpow_plus; apply bpow_le; lia). assert (B0 : 1 <= B 1000) by (change 1 with (B 0); apply bpow_le; lia).
  assert (Tb : 20 * B (-1022) <= B (-1010)). { replace (B (-1010)) with (B 12 * B (-1022)) by now rewrite <- bpow_plus. apply Rmult_le_compat_r; [apply bpow_ge_0|]. change (B 12) with 4096. lra. }
  assert (Te : eta <= B (-1022)) by (apply bpow_le; lia). assert (Tm : B (-1022) <= 1) by (change 1 with (B 0); apply bpow_le; lia).
  assert (Vk : f64_val (n_ofnat k : f64) = XFin (INR k)). { rewrite INR_IZR_INZ. apply (of_Z (Z.of_nat k)). lia. }
  assert (K0 : 0 <= INR k) by apply pos_INR. assert (AK : Rabs (INR k) <= INR k) by (rewrite Rabs_pos_eq; lra).
  assert (KD : Rabs (INR k * v - INR k * D) <= 21 / 10 * (u * (INR k * D)) + B (-1022)).
  { replace (INR k * v - INR k * D) with (INR k * (v - D)) by ring. assert (N := abs_mul_le AK Dv). lra. }
  assert (UK : u * (INR k * D) <= / 1000 * (INR k * D)) by (apply Rmult_le_compat_r; lra). assert (UO : u * (INR k * D) <= u * o) by (apply Rmult_le_compat_l; lra).
  assert (KV : 0 <= INR k * v <= 101 / 100 * o + B (-1022)). { split; [now apply Rmult_le_pos|]. apply Rabs_le_inv in KD. lra. }
  assert (H1 : Rabs (INR k * v) <= B 1023) by (rewrite Rabs_pos_eq; lra).
  assert (V1 := @mul_correct _ _ _ _ Vk V H1). destruct (rnd_abs (INR k * v)) as (d1 & t1 & D1 & T1 & R1).
  set (p := rnd (INR k * v)) in *. assert (Pp : 0 <= p) by (apply round_ge_generic; [exact vexp|exact vrnd|apply generic_format_0|lra]).
  assert (Dp : Rabs (p - INR k * D) <= 32 / 10 * (u * o) + 3 * B (-1022)).
  { rewrite R1. replace (INR k * v * (1 + d1) + t1 - INR k * D) with ((INR k * v - INR k * D) + (INR k * v * d1 + t1)) by ring.
    assert (A : Rabs (INR k * v) <= 101 / 100 * o + B (-1022)) by (rewrite Rabs_pos_eq; lra). assert (N := abs_sum KD (abs_sum (abs_mul_le A D1) T1)). fold eta in N.
    assert (B (-1022) * u <= B (-1022) * / 2) by (apply Rmult_le_compat_l; [apply bpow_ge_0|lra]). assert (0 < u * o) by (apply Rmult_lt_0_compat; lra). lra. }
  assert (Uo : u * o <= / 1000 * o) by (apply Rmult_le_compat_r; lra).
  assert (Hp : p <= 11 / 10 * o + 3 * B (-1022)) by (apply Rabs_le_inv in Dp; lra).
  assert (H2 : Rabs (i + p) <= B 1023) by (rewrite Rabs_pos_eq; lra).
  assert (V2 := @add_correct _ _ _ _ Vi V1 H2). exists (rnd (i + p)). split; [exact V2|].
  assert (Fi := f64_format _ Vi).
  split; [apply round_ge_generic; [exact vexp|exact vrnd|exact Fi|lra]|]. split.
  - intros ->. unfold p. change (INR 0) with 0. rewrite Rmult_0_l, round_0, Rplus_0_r by exact vrnd. apply round_generic; [exact vrnd|exact Fi].
  - destruct (@add64 _ _ _ _ Vi V1 H2) as (d2 & D2 & V3). rewrite V2 in V3. injection V3 as V3. assert (V4 : rnd (i + p) = (i + p) * (1 + d2)) by exact V3. rewrite V4.
    replace ((i + p) * (1 + d2) - (i + INR k * D)) with ((p - INR k * D) + (i + INR k * D + (p - INR k * D)) * d2) by ring.
    assert (Q : Rabs (i + INR k * D) <= o) by (rewrite Rabs_pos_eq; lra). assert (N := abs_sum Dp (abs_mul_le (abs_sum Q Dp) D2)).
    assert (0 < u * o) by (apply Rmult_lt_0_compat; lra). assert (u * o * u <= u * o * / 1000) by (apply Rmult_le_compat_l; lra).
    assert (B (-1022) * u <= B (-1022) * / 2) by (apply Rmult_le_compat_l; [apply bpow_ge_0|lra]). assert (0 < B (-1022)) by apply bpow_gt_0. lra.
Qed.
Lemma outer64 : exists a b, f64_val ri = XFin a /\ f64_val ro = XFin b /\ i <= a /\ (k = 0%nat -> a = i) /\
  Rabs (a - (i + INR k * D)) <= 5 * u * o + B (-1000) /\ Rabs (b - (i + (INR k + 1) * D)) <= 8 * u * o + B (-1000).
Proof.
  assert (U := ulp1_pos). destruct D_facts as [[P1 P2] [P3 P4]]. destruct eta_facts as [T Tk]. destruct delta64 as (v & V & Dv & Pv). destruct inner64 as (a & Va & La & Za & Da).
  assert (B1 : 8 * B 1000 <= B 1023) by (change 8 with (B 3); rewrite <- bpow_plus; apply bpow_le; lia). assert (B0 : 1 <= B 1000) by (change 1 with (B 0); apply bpow_le; lia).
  assert (Tb : 20 * B (-1010) <= B (-1000)). { replace (B (-1000)) with (B 10 * B (-1010)) by now rewrite <- bpow_plus. apply Rmult_le_compat_r; [apply bpow_ge_0|]. change (B 10) with 1024. lra. }
  assert (Te : eta <= B (-1010)) by (apply bpow_le; lia). assert (Tm : B (-1010) <= 1) by (change 1 with (B 0); apply bpow_le; lia). assert (0 < B (-1010)) by apply bpow_gt_0.
  assert (PU : 0 < u * o) by (apply Rmult_lt_0_compat; lra). assert (UD : u * D <= u * o) by (apply Rmult_le_compat_l; lra). assert (Uo : u * o <= / 1000 * o) by (apply Rmult_le_compat_r; lra).
  assert (Dav : Rabs (a + v - (i + (INR k + 1) * D)) <= 45 / 10 * (u * o) + B (-1010) + (21 / 10 * (u * o) + B (-1010))).
  { replace (a + v - (i + (INR k + 1) * D)) with ((a - (i + INR k * D)) + (v - D)) by ring. apply abs_sum; lra. }
  assert (Q : Rabs (i + (INR k + 1) * D) <= o) by (replace (i + (INR k + 1) * D) with (i + INR k * D + D) by ring; rewrite Rabs_pos_eq; lra).
  assert (S := abs_sum Q Dav). replace (i + (INR k + 1) * D + (a + v - (i + (INR k + 1) * D))) with (a + v) in S by ring.
  assert (H1 : Rabs (a + v) <= B 1023) by lra.
  destruct (@add64 _ _ _ _ Va V H1) as (d2 & D2 & V2). exists a, ((a + v) * (1 + d2)). split; [exact Va|]. split; [exact V2|]. split; [exact La|]. split; [exact Za|]. split; [lra|].
  replace ((a + v) * (1 + d2) - (i + (INR k + 1) * D)) with ((a + v - (i + (INR k + 1) * D)) + (a + v) * d2) by ring.
  assert (N := abs_sum Dav (abs_mul_le S D2)). assert (u * o * u <= u * o * / 1000) by (apply Rmult_le_compat_l; lra).
  assert (B (-1010) * u <= B (-1010) * / 2) by (apply Rmult_le_compat_l; lra). lra.
Qed.
End Ringlet.
