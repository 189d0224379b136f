(** The fit of a grid in binary64: proofs. *)
From Coq Require Import ZArith Reals List Bool Lia Lra.
From Flocq Require Import Core BinarySingleNaN Relative.
From Verif Require Import Num NumP Py SpecNum Validate Ring RingSystem FS GridParams SpecGrid GridProp SpecProp Geometry Build SpecBuild Shallot AddLaws ShallotOps SpecOps
  OpsP OpsReadP OpsEditP OpsGradP OpsFitP OpsPointP OpsExtractP OpsWrapP OpsListP Round64P GeomF64P SpecF64 SpecGrad FitF64P SpecFit.
Import ListNotations.
Local Open Scope R_scope.
Local Open Scope list_scope.
Set Implicit Arguments.

Lemma weight64 (ev : f64) e : f64_val ev = XFin e -> bpow radix2 (-100) <= e <= bpow radix2 100 -> tracks 1 (n_sq ev) (e * e) /\ bpow radix2 (-200) <= e * e <= bpow radix2 200.
Proof.
  intros H [L U]. assert (P : 0 < e) by (apply Rlt_le_trans with (2 := L), bpow_gt_0).
  assert (I : bpow radix2 (-200) <= e * e <= bpow radix2 200).
  { change (-200)%Z with (-100 + -100)%Z. change 200%Z with (100 + 100)%Z. rewrite !bpow_plus. split; apply Rmult_le_compat; try apply bpow_ge_0; lra. }
  split; [|exact I]. apply (@tracks_mul 0 0); try (apply tracks_exact; [exact H|lra]); [lia|]. right. split; [apply Rle_trans with (2 := proj1 I)|apply Rle_trans with (1 := proj2 I)]; apply bpow_le; lia.
Qed.
Lemma reading_term w i (g : ggrad f64) x t : reading w i g x -> fair x -> term_of w i g t ->
  tracks 5 t (misfit (fst (fst x)) (snd (fst x)) (snd x)) /\ misfit (fst (fst x)) (snd (fst x)) (snd x) <= bpow radix2 602.
Proof.
  destruct x as [[a m] e]. cbn [fst snd]. intros (v & sc & N & V & S & SV & W) (Fa & Fm & Fe) (v' & sc' & wt & N' & S' & W' & ->). cbn [fst snd] in *.
  assert (v' = v) as -> by congruence. assert (sc' = sc) as -> by congruence. unfold misfit.
  assert (Tw : tracks 1 wt (e * e) /\ bpow radix2 (-200) <= e * e <= bpow radix2 200).
  { destruct w.
    - destruct W as (ev & We & Ve), W' as (ev' & We' & ->). assert (ev' = ev) as -> by congruence. exact (weight64 _ Ve Fe).
    - subst wt e. split; [|rewrite Rmult_1_l; split; change 1 with (bpow radix2 0); apply bpow_le; lia]. apply tracks_weaken with 0%nat; [lia|]. rewrite Rmult_1_l. apply tracks_exact; [exact of_one|lra]. }
  exact (term64 _ _ V SV Fa Fm (proj1 Tw) (proj2 Tw)).
Qed.
Lemma total_nonneg w gs i r : true_fit w gs i r -> 0 <= r.
Proof.
  intros (xs & _ & F & ->). induction F as [|x xs (A & B & C) F IH]; cbn [map total fold_right]; [lra|]. fold (total (map (fun x => misfit (fst (fst x)) (snd (fst x)) (snd x)) xs)).
  assert (P : 0 < snd x) by (apply Rlt_le_trans with (2 := proj1 C), bpow_gt_0). unfold misfit at 1. assert (0 <= (fst (fst x) - snd (fst x)) * (fst (fst x) - snd (fst x)) / (snd x * snd x)); [|lra].
  apply Rmult_le_pos; [exact (Rle_0_sqr _)|]. apply Rlt_le, Rinv_0_lt_compat. nra.
Qed.

Section F.
Variable E : env f64.
Notation shallot := (shallot f64).
Theorem fit64 (s s' : shallot) w gs : sreach E s -> s_grads s = Some gs -> determine_gradient_fit w s = (s', Ok tt) -> INR (List.length gs) <= bpow radix2 50 ->
  exists p, s' = with_grads s (Some gs) (Some p) /\ forall i r, (i < points s)%nat -> true_fit w gs i r ->
    marked (p_mask p) i = false /\ exists v x, nth_error (p_data p) i = Some v /\ f64_val v = XFin x /\ agrees (List.length gs + 5) x r.
Proof.
  intros H Eg Ed Hn. destruct (fit_sum w H Eg Ed) as (p & -> & _ & Hp). exists p. split; [reflexivity|]. intros i r Hi HT. assert (R0 := total_nonneg HT). destruct HT as (xs & Hr & Hf & ->).
  destruct (Hp i Hi) as (ts & v & Ht & Nv & -> & _ & Mk & _).
  assert (F2 : Forall2 (fun t r => tracks 5 t r /\ r <= bpow radix2 602) ts (map (fun x => misfit (fst (fst x)) (snd (fst x)) (snd x)) xs)).
  { clear -Hr Hf Ht. revert ts Ht. induction Hr as [|g x gs xs Hg Hr IH]; intros ts Ht; inversion Ht; subst; [constructor|]. inversion Hf; subst. cbn [map]. constructor; [|auto]. eapply reading_term; eauto. }
  assert (Lt : List.length ts = List.length gs) by (clear -Ht; induction Ht; cbn; congruence).
  destruct (@sum64 _ _ F2 0%nat (n_zero : f64) 0 0) as (x & Vx & Nx).
  - reflexivity.
  - apply near_weaken with 0%nat; [lia|]. apply near_refl. lra.
  - cbn [INR]. lra.
  - cbn [Nat.add]. rewrite Lt. exact Hn.
  - split.
    + apply not_true_iff_false. intros M. apply Mk in M. change (f64_val (fold_left n_add ts n_zero) = XNaN) in M. congruence.
    + exists (fold_left n_add ts n_zero), x. split; [exact Nv|]. split; [exact Vx|]. rewrite Rplus_0_l in Nx. cbn [Nat.add] in Nx. rewrite Lt in Nx. rewrite Nat.add_comm. exact (near_agrees Nx).
Qed.
(** *** order *)
Lemma agrees_le k x y a b : agrees k x a -> agrees k y b -> 0 <= a -> x <= y -> (1 - bpow radix2 (-53)) ^ (2 * k) * a <= b.
Proof.
  intros [A1 A2] [B1 B2] Ha Hxy. fold ulp1 in *. assert (P := shrink_pos k). replace (2 * k)%nat with (k + k)%nat by lia. rewrite shrink_add, Rmult_assoc.
  apply Rle_trans with ((1 - ulp1) ^ k * x); [apply Rmult_le_compat_l; lra|]. apply Rle_trans with ((1 - ulp1) ^ k * y); [apply Rmult_le_compat_l; lra|exact B2].
Qed.
Lemma agrees_zero k x y : agrees k x y -> 0 <= y -> (x = 0 <-> y = 0).
Proof.
  intros [A B] Y. fold ulp1 in *. assert (P := shrink_pos k). split; intros ->; nra.
Qed.
Lemma total_zero l : Forall (fun r => 0 <= r) l -> 0 <= total l /\ (total l = 0 <-> Forall (fun r => r = 0) l).
Proof.
  induction 1 as [|r l R _ [IH1 IH2]]; cbn [total fold_right]; [split; [lra|split; [constructor|reflexivity]]|]. fold (total l). split; [lra|]. split.
  - intros H. constructor; [lra|]. apply IH2. lra.
  - intros H. inversion H; subst. apply IH2 in H3. lra.
Qed.
(** *** the solutions *)
Lemma has_nth A (l : list A) i : (i < List.length l)%nat -> exists x, nth_error l i = Some x.
Proof. intros H. apply nth_error_Some in H. destruct (nth_error l i) as [x|]; [eauto|congruence]. Qed.
Lemma point_there (s : shallot) p y x q v : sinv s -> (y < List.length (g_dy (s_params s)))%nat -> (x < List.length (g_dx (s_params s)))%nat -> (q < List.length (g_rfa (s_params s)))%nat ->
  ~ masked_at s (place s y x q) -> nth_error (p_data p) (place s y x q) = Some v -> exists z, fst z = v /\ at_point s p (y, x, q) z.
Proof.
  intros H Hy Hx Hq M N. assert (P : (place s y x q < points s)%nat) by (apply place_range; repeat split; auto).
  assert (C : forall w, exists c, nth_error (p_data (the_cube w s)) (place s y x q) = Some c).
  { intros w. apply has_nth. destruct (cube_shape (i_cubes H w)) as [_ ->]. rewrite (points_volume H). exact P. }
  destruct (C WRadius) as [c1 C1], (C WInclination) as [c2 C2], (C WTilt) as [c3 C3]. destruct (has_nth _ Hx) as [dx Dx], (has_nth _ Hy) as [dy Dy].
  exists (v, mkPD c1 c2 c3 dx dy n_nan n_nan n_nan n_nan None). split; [reflexivity|]. unfold at_point. cbn [fst snd pd_dr pd_inc pd_tilt pd_dx pd_dy]. tauto.
Qed.
Lemma masked_fit (s : shallot) gs (Eg : s_grads s = Some gs) p i : masked_at (with_grads s (Some gs) (Some p)) i <-> masked_at s i.
Proof. unfold masked_at. cbn [with_grads s_dr s_inc s_tilt s_grads]. rewrite Eg. tauto. Qed.
Lemma at_fit (s : shallot) gs (Eg : s_grads s = Some gs) p q z : at_point (with_grads s (Some gs) (Some p)) p q z <-> at_point s p q z.
Proof. destruct q as [[y x] q]. unfold at_point. change (place (with_grads s (Some gs) (Some p)) y x q) with (place s y x q). rewrite (masked_fit _ Eg). reflexivity. Qed.
Lemma fin_le a b : xle (XFin a) (XFin b) -> a <= b.
Proof. intros [H|[H _]]; [left; exact H|right; congruence]. Qed.
Lemma Forall2_nth_error_l A B (R : A -> B -> Prop) l m : Forall2 R l m -> forall i a, nth_error l i = Some a -> exists b, nth_error m i = Some b /\ R a b.
Proof. induction 1 as [|x y l m Hxy _ IH]; intros [|i] a E0; cbn in *; try discriminate; [inversion E0; subst; eauto|eauto]. Qed.
Theorem best64 (s s' : shallot) w gs is v k : sreach E s -> s_grads s = Some gs -> determine_gradient_fit w s = (s', Ok tt) -> INR (List.length gs) <= bpow radix2 50 ->
  unmasked s is -> asks v (List.length is) k -> (forall i, In i is -> exists r, true_fit w gs i r) ->
  let u := (1 - bpow radix2 (-53)) ^ (2 * (List.length gs + 5)) in
  exists s'' qs l p, s_fit s' = Some p /\ extract_solutions v s' = (s'', Ok l) /\ List.length l = k /\ NoDup qs /\ Forall2 (at_point s p) qs l /\
    (forall a b y x q y' x' q' r r', (a < b)%nat -> nth_error qs a = Some (y, x, q) -> nth_error qs b = Some (y', x', q') ->
       true_fit w gs (place s y x q) r -> true_fit w gs (place s y' x' q') r' -> u * r <= r') /\
    (forall y x q y' x' q' r r', In (y, x, q) qs -> In (place s y' x' q') is -> ~ In (y', x', q') qs ->
       (y' < List.length (g_dy (s_params s)))%nat -> (x' < List.length (g_dx (s_params s)))%nat -> (q' < List.length (g_rfa (s_params s)))%nat ->
       true_fit w gs (place s y x q) r -> true_fit w gs (place s y' x' q') r' -> u * r <= r').
Proof.
  intros H Eg Ed Hn Hu Ha HT u. destruct (fit64 w H Eg Ed Hn) as (p & -> & Hp). set (s' := with_grads s (Some gs) (Some p)) in *.
  assert (Hs' : sreach E s'). { replace s' with (do_op E s (OFit w)) by (cbn [do_op]; rewrite Ed; reflexivity). apply sr_op; [exact I|exact H]. }
  assert (Hu' : unmasked s' is). { destruct Hu as [A B]. split; [exact A|]. intros i. unfold s'. rewrite (masked_fit _ Eg). exact (B i). }
  assert (Hf : fit_finite s' p).
  { intros i Hi M. unfold s' in M. rewrite (masked_fit _ Eg) in M. assert (Ii : In i is) by (apply Hu; auto). destruct (HT i Ii) as [r Hr]. destruct (Hp i r Hi Hr) as (A & v0 & x & N & V & _). split; [exact A|]. eauto. }
  destruct (extract_best_r v k Hs' eq_refl Hf Hu' Ha) as (s'' & qs & l & El & Hl & Nd & F2 & Or & Be).
  assert (F2' : Forall2 (at_point s p) qs l). { clear -F2 Eg. induction F2; constructor; auto. exact (proj1 (at_fit _ Eg _ _ _) H). }
  assert (K : forall q z q' z' r r', at_point s p q z -> at_point s p q' z' -> xle (val (fst z)) (val (fst z')) ->
    true_fit w gs (let '(y, x, c) := q in place s y x c) r -> true_fit w gs (let '(y, x, c) := q' in place s y x c) r' -> u * r <= r').
  { intros [[y x] c] z [[y' x'] c'] z' r r' (R1 & _ & N1 & _) (R2 & _ & N2 & _) L T1 T2.
    destruct (Hp _ _ (place_range R1) T1) as (_ & v1 & x1 & M1 & V1 & A1). destruct (Hp _ _ (place_range R2) T2) as (_ & v2 & x2 & M2 & V2 & A2).
    assert (v1 = fst z) as -> by congruence. assert (v2 = fst z') as -> by congruence. change (xle (f64_val (fst z)) (f64_val (fst z'))) in L. rewrite V1, V2 in L.
    exact (agrees_le A1 A2 (total_nonneg T1) (fin_le L)). }
  exists s'', qs, l, p. split; [reflexivity|]. split; [exact El|]. split; [exact Hl|]. split; [exact Nd|]. split; [exact F2'|]. split.
  - intros a b y x q y' x' q' r r' Hab Ea Eb T1 T2.
    destruct (Forall2_nth_error_l F2' _ Ea) as (z & Ez & Az). destruct (Forall2_nth_error_l F2' _ Eb) as (z' & Ez' & Az').
    exact (K _ _ _ _ _ _ Az Az' (Or a b z z' Hab Ez Ez') T1 T2).
  - intros y x q y' x' q' r r' I1 I2 Ni Hy Hx Hq T1 T2. apply In_nth_error in I1 as [a Ea]. destruct (Forall2_nth_error_l F2' _ Ea) as (z & Ez & Az).
    apply Hu in I2 as [P2 M2]. destruct (Hp _ _ P2 T2) as (_ & v2 & x2 & N2 & _). destruct (@point_there s p y' x' q' v2 (reached_sinv H) Hy Hx Hq M2 N2) as (z' & <- & Az').
    refine (K _ _ _ _ _ _ Az Az' (Be z (nth_error_In _ _ Ez) _ z' (proj2 (at_fit _ Eg _ _ _) Az') Ni) T1 T2).
Qed.
End F.
