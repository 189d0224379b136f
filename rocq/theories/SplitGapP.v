(** Gaps and overlaps between the pieces of a ring that was split in binary64. *)
From Coq Require Import ZArith Reals Lra Lia List.
From Flocq Require Import Core.
From Verif Require Import Num Ring SpecSplit EdgeErrP.
Import ListNotations.
Local Open Scope R_scope.
Local Notation B := (bpow radix2).

Lemma pieces_gap r d l k p q : even_pieces r d l -> nth_error l k = Some p -> nth_error l (S k) = Some q ->
  exists o b a, f64_val (r_out r) = XFin o /\ f64_val (r_out p) = XFin b /\ f64_val (r_in q) = XFin a /\ Rabs (a - b) <= 13 * half_ulp1 * o + 2 * B (-1000).
Proof.
  intros (i & o & Vi & Vo & _ & H) Hp Hq. destruct (H _ _ Hp) as (_ & _ & b & _ & Vb & _ & _ & _ & Db). destruct (H _ _ Hq) as (_ & a & _ & Va & _ & _ & _ & Da & _).
  exists o, b, a. repeat (split; [assumption|]). rewrite S_INR in Da. set (m := i + (INR k + 1) * ((o - i) / IZR d)) in *.
  replace (a - b) with ((a - m) + - (b - m)) by ring. rewrite <- (Rabs_Ropp (b - m)) in Db. assert (N := abs_sum Da Db). lra.
Qed.
Lemma pieces_end r d l p : (1 <= d)%Z -> even_pieces r d l -> nth_error l (List.length l - 1) = Some p ->
  exists o b, f64_val (r_out r) = XFin o /\ f64_val (r_out p) = XFin b /\ Rabs (b - o) <= 8 * half_ulp1 * o + B (-1000).
Proof.
  intros Hd (i & o & Vi & Vo & L & H) Hp. destruct (H _ _ Hp) as (_ & _ & b & _ & Vb & _ & _ & _ & Db). exists o, b. repeat (split; [assumption|]).
  replace (i + (INR (List.length l - 1) + 1) * ((o - i) / IZR d)) with o in Db; [exact Db|].
  assert (E : INR (List.length l - 1) + 1 = IZR d). { rewrite <- S_INR, INR_IZR_INZ. f_equal. rewrite L. lia. }
  rewrite E. field. assert (1 <= IZR d) by (apply IZR_le; lia). lra.
Qed.
