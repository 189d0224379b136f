(** Proofs about the formatting of floats. *)
From Coq Require Import ZArith Reals List Bool String Ascii Lia Lra.
From Flocq Require Import Core BinarySingleNaN.
From Verif Require Import Num Fmt SpecFmt.
Import ListNotations.
Set Implicit Arguments.

Lemma app_assoc_s (a b c : string) : ((a ++ b) ++ c)%string = (a ++ b ++ c)%string.
Proof. induction a as [|x a IH]; cbn; [reflexivity|rewrite IH; reflexivity]. Qed.
Lemma app_nil_s (a : string) : (a ++ "")%string = a.
Proof. induction a as [|x a IH]; cbn; [reflexivity|rewrite IH; reflexivity]. Qed.

Lemma digit_char d : (0 <= d < 10)%Z -> digit_value (digit d) = Some d /\ Ascii.eqb (digit d) "."%char = false /\ Ascii.eqb (digit d) "-"%char = false.
Proof.
  intros H. assert (E : In d [0; 1; 2; 3; 4; 5; 6; 7; 8; 9]%Z) by (cbn; lia).
  cbn [In] in E. repeat (destruct E as [<-|E]; [repeat split; reflexivity|]). destruct E.
Qed.

Lemma read_digits_app k : forall n acc after s, (0 <= n)%Z ->
  read_digits acc after (digits k n ++ s)%string =
  read_digits (acc * 10 ^ Z.of_nat k + n mod 10 ^ Z.of_nat k) (option_map (Nat.add k) after) s.
Proof.
  induction k as [|k IH]; intros n acc after s Hn.
  - cbn [digits append]. change (10 ^ Z.of_nat 0)%Z with 1%Z. rewrite Z.mod_1_r.
    replace (acc * 1 + 0)%Z with acc by lia. destruct after; reflexivity.
  - cbn [digits]. rewrite app_assoc_s. rewrite IH by (apply Z.div_pos; lia). cbn [append read_digits].
    assert (Hd : (0 <= n mod 10 < 10)%Z) by (apply Z.mod_pos_bound; lia).
    destruct (digit_char Hd) as (E1 & E2 & _). rewrite E1, E2.
    assert (P : (0 < 10 ^ Z.of_nat k)%Z) by (apply Z.pow_pos_nonneg; lia).
    replace (10 * (acc * 10 ^ Z.of_nat k + (n / 10) mod 10 ^ Z.of_nat k) + n mod 10)%Z with (acc * 10 ^ Z.of_nat (S k) + n mod 10 ^ Z.of_nat (S k))%Z.
    { destruct after as [a|]; cbn [option_map]; [|reflexivity]. f_equal. }
    rewrite Nat2Z.inj_succ, Z.pow_succ_r by lia. rewrite (Z.rem_mul_r n 10) by lia. ring.
Qed.
Lemma width_enough fuel : forall n, (0 <= n < 2 ^ Z.of_nat (S fuel))%Z -> (n < 10 ^ Z.of_nat (width fuel n))%Z.
Proof.
  induction fuel as [|f IH]; intros n Hn; cbn [width].
  - cbn in *. lia.
  - destruct (Z.ltb_spec n 10); [cbn; lia|]. rewrite (Nat2Z.inj_succ (width f (n / 10))), Z.pow_succ_r by lia.
    assert (D : (n = 10 * (n / 10) + n mod 10)%Z) by (apply Z.div_mod; lia). assert (M := Z.mod_pos_bound n 10 ltac:(lia)).
    assert (n / 10 < 10 ^ Z.of_nat (width f (n / 10)))%Z; [|lia]. apply IH. split; [apply Z.div_pos; lia|].
    rewrite Nat2Z.inj_succ, Z.pow_succ_r in Hn by lia.
    apply Z.div_lt_upper_bound; [lia|]. assert (0 < 2 ^ Z.of_nat (S f))%Z by (apply Z.pow_pos_nonneg; lia). lia.
Qed.
Lemma whole_enough n : (0 <= n)%Z -> (n < 10 ^ Z.of_nat (width (Z.to_nat (Z.log2 n)) n))%Z.
Proof.
  intros H. apply width_enough. split; [exact H|]. destruct (Z.eq_dec n 0) as [->|Hn]; [reflexivity|].
  rewrite Nat2Z.inj_succ, Z2Nat.id by apply Z.log2_nonneg. apply Z.log2_spec. lia.
Qed.
Lemma read_whole n acc after s : (0 <= n)%Z -> exists w, (n < 10 ^ Z.of_nat w)%Z /\
  read_digits acc after (whole n ++ s)%string = read_digits (acc * 10 ^ Z.of_nat w + n) (option_map (Nat.add w) after) s.
Proof.
  intros H. exists (width (Z.to_nat (Z.log2 n)) n). assert (L := whole_enough H). split; [exact L|].
  unfold whole. rewrite read_digits_app by exact H. rewrite Z.mod_small; auto.
Qed.

Lemma read_fixed k n : (0 <= n)%Z -> read_digits 0 None (fixed_text k n) = Some (n, k).
Proof.
  intros H. unfold fixed_text. assert (P : (0 < 10 ^ Z.of_nat k)%Z) by (apply Z.pow_pos_nonneg; lia).
  destruct (@read_whole (n / 10 ^ Z.of_nat k) 0 None ("." ++ digits k n)%string) as (w & _ & ->); [apply Z.div_pos; lia|].
  cbn [append option_map read_digits Ascii.eqb Bool.eqb]. rewrite <- (app_nil_s (digits k n)), read_digits_app by exact H.
  cbn [read_digits option_map]. f_equal. f_equal; [|lia]. rewrite (Z.div_mod n (10 ^ Z.of_nat k)) at 3 by lia. ring.
Qed.
Lemma fixed_head k n : (0 <= n)%Z -> exists c t, fixed_text k n = String c t /\ Ascii.eqb c "-"%char = false.
Proof.
  intros H. unfold fixed_text, whole. set (q := (n / 10 ^ Z.of_nat k)%Z).
  assert (D : forall w q s, (0 < w)%nat -> (0 <= q)%Z -> exists c t, (digits w q ++ s)%string = String c t /\ Ascii.eqb c "-"%char = false).
  { clear. induction w as [|w IH]; intros q s Hw Hq; [lia|]. cbn [digits]. rewrite app_assoc_s. destruct w as [|w].
    - cbn. do 2 eexists. split; [reflexivity|]. apply digit_char, Z.mod_pos_bound. lia.
    - apply IH; [lia|apply Z.div_pos; lia]. }
  apply D; [|apply Z.div_pos; [lia|apply Z.pow_pos_nonneg; lia]].
  destruct (Z.to_nat (Z.log2 q)); cbn [width]; [lia|]. destruct (q <? 10)%Z; lia.
Qed.
Lemma read_signed k n (s : bool) : (0 <= n)%Z -> read_number ((if s then "-" else "") ++ fixed_text k n)%string = Some (s, n, k).
Proof.
  intros H. destruct s.
  - cbn [append read_number Ascii.eqb Bool.eqb]. rewrite read_fixed by exact H. reflexivity.
  - cbn [append]. destruct (fixed_head k H) as (c & t & E & Hc). rewrite E. cbn [read_number]. rewrite Hc, <- E, read_fixed by exact H. reflexivity.
Qed.

Lemma scaled_nonneg k m e : (0 <= scaled_round k m e)%Z.
Proof.
  unfold scaled_round. destruct (Z.leb_spec 0 e).
  - apply Z.mul_nonneg_nonneg; [apply Z.mul_nonneg_nonneg; [lia|]|]; apply Z.pow_nonneg; lia.
  - cbn zeta. assert (0 <= Z.pos m * 10 ^ Z.of_nat k / 2 ^ (- e))%Z.
    { apply Z.div_pos; [apply Z.mul_nonneg_nonneg; [lia|apply Z.pow_nonneg; lia]|apply Z.pow_pos_nonneg; lia]. }
    destruct (_ ?= _)%Z; [destruct (Z.even _)| |]; lia.
Qed.

Lemma scaled_nearest k m e : nearest_even (F2R (Float radix2 (Zpos m) e) * IZR (10 ^ Z.of_nat k)) (scaled_round k m e).
Proof.
  unfold scaled_round, nearest_even, F2R. cbn [Fnum Fexp]. destruct (Z.leb_spec 0 e) as [He|He].
  - assert (E : (IZR (Z.pos m) * bpow radix2 e * IZR (10 ^ Z.of_nat k) - IZR (Z.pos m * 2 ^ e * 10 ^ Z.of_nat k) = 0)%R).
    { rewrite !mult_IZR, <- (IZR_Zpower radix2 e He). cbn [radix_val radix2]. ring. }
    rewrite E, Rabs_R0. split; [lra|intros; exfalso; lra].
  - cbn zeta. set (d := (2 ^ (- e))%Z). set (n := (Z.pos m * 10 ^ Z.of_nat k)%Z).
    assert (Pd : (0 < d)%Z) by (apply Z.pow_pos_nonneg; lia). assert (PR : (0 < IZR d)%R) by (apply IZR_lt; exact Pd).
    assert (Ed : bpow radix2 e = (/ IZR d)%R).
    { replace e with (- - e)%Z by lia. rewrite bpow_opp. unfold d. rewrite <- IZR_Zpower by lia. reflexivity. }
    assert (X : (IZR (Z.pos m) * bpow radix2 e * IZR (10 ^ Z.of_nat k))%R = (IZR (n / d) + IZR (n mod d) / IZR d)%R).
    { rewrite Ed. replace (IZR (Z.pos m) * / IZR d * IZR (10 ^ Z.of_nat k))%R with (IZR n / IZR d)%R by (unfold n; rewrite mult_IZR; field; lra).
      rewrite (Z.div_mod n d) at 1 by lia. rewrite plus_IZR, mult_IZR. field. lra. }
    rewrite X. clear X Ed. assert (M := Z.mod_pos_bound n d Pd). set (q := (n / d)%Z) in *. set (r := (n mod d)%Z) in *.
    assert (R0 : (0 <= IZR r / IZR d)%R) by (apply Rmult_le_pos; [apply IZR_le; lia|apply Rlt_le, Rinv_0_lt_compat, PR]).
    assert (RD : (IZR r / IZR d * IZR d = IZR r)%R) by (field; lra). set (f := (IZR r / IZR d)%R) in *.
    destruct (Z.compare_spec (2 * r) d) as [C|C|C].
    + assert (Hf : f = (/ 2)%R). { assert (2 * IZR r = IZR d)%R by (rewrite <- mult_IZR; apply f_equal, C). nra. }
      rewrite Hf. destruct (Z.even q) eqn:Eq.
      * replace (IZR q + / 2 - IZR q)%R with (/ 2)%R by ring. rewrite Rabs_right by lra. split; [lra|auto].
      * rewrite plus_IZR. replace (IZR q + / 2 - (IZR q + 1))%R with (- / 2)%R by field. rewrite Rabs_Ropp, Rabs_right by lra. split; [lra|].
        intros _. rewrite Z.add_1_r, Z.even_succ, <- Z.negb_even, Eq. reflexivity.
    + assert (Hf : (f < / 2)%R). { assert (2 * IZR r < IZR d)%R by (rewrite <- mult_IZR; apply IZR_lt, C). nra. }
      replace (IZR q + f - IZR q)%R with f by ring. rewrite Rabs_right by lra. split; [lra|intros; exfalso; lra].
    + assert (Hf : (/ 2 < f < 1)%R). { assert (IZR d < 2 * IZR r)%R by (rewrite <- mult_IZR; apply IZR_lt, C). assert (IZR r < IZR d)%R by (apply IZR_lt; lia). nra. }
      rewrite plus_IZR. replace (IZR q + f - (IZR q + 1))%R with (- (1 - f))%R by ring. rewrite Rabs_Ropp, Rabs_right by lra. split; [lra|intros; exfalso; lra].
Qed.

(** the text of a finite float *)
Theorem fmt_spec k (x : f64) : is_finite x = true ->
  exists n, (0 <= n)%Z /\ read_number (fmt_fixed k x) = Some (Bsign x, n, k) /\
    nearest_even (Rabs (B2R x) * IZR (10 ^ Z.of_nat k)) n.
Proof.
  intros H. destruct x as [s|s| |s m e Hb]; try discriminate H.
  - exists 0%Z. split; [lia|]. split; [cbn [fmt_fixed]; apply read_signed; lia|].
    cbn [B2R]. unfold nearest_even. rewrite Rabs_R0, Rmult_0_l, Rminus_0_r, Rabs_R0. split; [lra|intros; exfalso; lra].
  - exists (scaled_round k m e). split; [apply scaled_nonneg|]. split; [apply read_signed, scaled_nonneg|].
    replace (Rabs (B2R (B754_finite s m e Hb))) with (F2R (Float radix2 (Zpos m) e)); [apply scaled_nearest|].
    cbn [B2R]. rewrite <- F2R_Zabs, abs_cond_Zopp. reflexivity.
Qed.
Theorem fmt_special k : fmt_fixed k B754_nan = "nan"%string /\ fmt_fixed k (B754_infinity false) = "inf"%string /\ fmt_fixed k (B754_infinity true) = "-inf"%string.
Proof. repeat split. Qed.

Lemma nearest_unique x a b : nearest_even x a -> nearest_even x b -> a = b.
Proof.
  intros [A1 A2] [B1 B2]. 
  assert (Hc : (Rabs (IZR a - IZR b) <= 1)%R).
  { replace (IZR a - IZR b)%R with (- (x - IZR a) + (x - IZR b))%R by ring. eapply Rle_trans; [apply Rabs_triang|]. rewrite Rabs_Ropp. lra. }
  rewrite <- minus_IZR, <- abs_IZR in Hc. apply le_IZR in Hc. destruct (Z.eq_dec a b) as [|Hn]; [assumption|]. exfalso.
  assert (W : forall a b : Z, (b = a + 1)%Z -> (Rabs (x - IZR a) <= / 2)%R -> (Rabs (x - IZR b) <= / 2)%R -> (Rabs (x - IZR a) = / 2)%R /\ (Rabs (x - IZR b) = / 2)%R).
  { clear. intros a b -> H1 H2. rewrite plus_IZR in *. revert H1 H2. unfold Rabs. repeat destruct (Rcase_abs _); intros; split; lra. }
  assert (Z.even a = true /\ Z.even b = true) as [Ea Eb].
  { destruct (Z.eq_dec b (a + 1)) as [E|E]; [destruct (W a b E A1 B1); auto|destruct (W b a ltac:(lia) B1 A1); auto]. }
  apply Z.even_spec in Ea, Eb. destruct Ea as [u ->], Eb as [v ->]. lia.
Qed.

Lemma fmt_text k (x : f64) : is_finite x = true -> exists n, (0 <= n)%Z /\ fmt_fixed k x = ((if Bsign x then "-" else "") ++ fixed_text k n)%string /\
    nearest_even (Rabs (B2R x) * IZR (10 ^ Z.of_nat k)) n.
Proof.
  intros H. destruct x as [s|s| |s m e Hb]; try discriminate H.
  - exists 0%Z. split; [lia|]. split; [reflexivity|].
    cbn [B2R]. unfold nearest_even. rewrite Rabs_R0, Rmult_0_l, Rminus_0_r, Rabs_R0. split; [lra|intros; exfalso; lra].
  - exists (scaled_round k m e). split; [apply scaled_nonneg|]. split; [reflexivity|].
    replace (Rabs (B2R (B754_finite s m e Hb))) with (F2R (Float radix2 (Zpos m) e)); [apply scaled_nearest|].
    cbn [B2R]. rewrite <- F2R_Zabs, abs_cond_Zopp. reflexivity.
Qed.

(** texts agree exactly if the signs and the rounded values agree *)
Theorem fmt_same k (x y : f64) : is_finite x = true -> is_finite y = true ->
  (fmt_fixed k x = fmt_fixed k y <-> Bsign x = Bsign y /\
     exists n, nearest_even (Rabs (B2R x) * IZR (10 ^ Z.of_nat k)) n /\ nearest_even (Rabs (B2R y) * IZR (10 ^ Z.of_nat k)) n).
Proof.
  intros Hx Hy. destruct (fmt_text k x Hx) as (n & Pn & Ex & Nx). destruct (fmt_text k y Hy) as (m & Pm & Ey & Ny).
  rewrite Ex, Ey. split.
  - intros E. apply (f_equal read_number) in E. rewrite !read_signed in E by assumption. injection E as E1 E2.
    split; [exact E1|]. exists n. split; [exact Nx|]. subst m. exact Ny.
  - intros (Es & j & Jx & Jy). assert (n = j) by (eapply nearest_unique; eauto). assert (m = j) by (eapply nearest_unique; eauto). subst n m.
    rewrite Es. reflexivity.
Qed.

(** values more than one unit of the last place apart have different texts *)
Theorem fmt_apart k (x y : f64) : is_finite x = true -> is_finite y = true ->
  (/ IZR (10 ^ Z.of_nat k) < Rabs (B2R x - B2R y))%R -> fmt_fixed k x <> fmt_fixed k y.
Proof.
  intros Hx Hy Hd E. apply fmt_same in E; auto. destruct E as (Es & n & [A _] & [B _]).
  set (p := IZR (10 ^ Z.of_nat k)) in *. assert (Pp : (0 < p)%R) by (apply IZR_lt, Z.pow_pos_nonneg; lia).
  assert (D : (Rabs (B2R x - B2R y) * p <= 1)%R).
  { assert (S : Rabs (B2R x - B2R y) = Rabs (Rabs (B2R x) - Rabs (B2R y))).
    { assert (G : forall z : f64, is_finite z = true -> B2R z = (if Bsign z then - Rabs (B2R z) else Rabs (B2R z))%R).
      { clear. intros z Hz. destruct z as [s|s| |s m e Hb]; try discriminate Hz; cbn [B2R Bsign].
        - rewrite Rabs_R0. destruct s; lra.
        - destruct s; cbn [cond_Zopp]; rewrite <- F2R_Zabs; cbn [Z.abs Z.opp].
          + change (Z.neg m) with (- Z.pos m)%Z. rewrite F2R_Zopp. reflexivity.
          + reflexivity. }
      rewrite (G x Hx), (G y Hy) at 1. rewrite Es. destruct (Bsign y).
      - rewrite <- Rabs_Ropp. f_equal. ring.
      - reflexivity. }
    rewrite S. rewrite <- (Rabs_pos_eq p) at 1 by lra. rewrite <- Rabs_mult.
    replace ((Rabs (B2R x) - Rabs (B2R y)) * p)%R with ((Rabs (B2R x) * p - IZR n) + - (Rabs (B2R y) * p - IZR n))%R by ring.
    eapply Rle_trans; [apply Rabs_triang|]. rewrite Rabs_Ropp. lra. }
  apply (Rmult_lt_compat_r p) in Hd; [|exact Pp]. rewrite Rinv_l in Hd by lra. lra.
Qed.
