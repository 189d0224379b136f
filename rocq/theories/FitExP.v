(** Scaled gradients and the fit in binary64: their use on a grid, an example and refutations. *)
From Coq Require Import ZArith Reals List Bool Lia Lra.
From Flocq Require Import Core BinarySingleNaN.
From Verif Require Import Num NumP Py SpecNum Validate Ring RingSystem FS GridParams SpecGrid RingP GridProp SpecProp Geometry Build SpecBuild Shallot AddLaws ShallotOps SpecOps
  OpsP OpsReadP OpsEditP OpsGradP OpsFitP OpsPointP OpsExtractP OpsWrapP OpsListP OpsExP Round64P GeomF64P LibmF64P SpecF64 SpecGrad FitF64P SpecFit FitGridP.
Import ListNotations.
Local Open Scope R_scope.
Local Open Scope list_scope.
Set Implicit Arguments.

Section F.
Variable E : env f64.
Hypothesis HL : accurate (e_libm E) (bpow radix2 (-51)).
Notation shallot := (shallot f64).
Lemma not_zero k (x : f64) y : tracks k x y -> 0 < y -> n_eq x n_zero = false.
Proof.
  intros (v & V & N) P. assert (v <> 0). { intros ->. apply near_agrees in N. destruct N as [A _]. assert (X := shrink_pos k). fold ulp1 in A. nra. }
  apply not_true_iff_false. intros Q. apply neq_iff in Q as [Q _]. change (f64_val x = f64_val n_zero) in Q. rewrite V in Q. change (f64_val n_zero) with (XFin 0) in Q. congruence.
Qed.
Theorem scale64 (s : shallot) u v a b : s_limb s = Some u -> s_vel s = Some v -> is_number u = true -> is_number v = true ->
  f64_val (num_of u) = XFin a -> f64_val (num_of v) = XFin b -> 0 <= a <= 1 -> bpow radix2 (-500) <= b <= bpow radix2 500 ->
  exists o x, determine_orbital_scale E s = Ok o /\ f64_val (num_of o) = XFin x /\ agrees 21 x (orbital a b).
Proof.
  intros Eu Ev Nu Nv Va Vb Ra Rb. destruct (orbital64 _ _ HL Va Vb Ra Rb) as [(x & X & N) _].
  assert (D := denominator _ HL Va Ra). assert (P3 := PI_3).
  assert (Z1 := not_zero D). assert (Z2 : n_eq (num_of v) n_zero = false).
  { apply (@not_zero 0 _ b); [apply tracks_exact; [exact Vb|]|]; assert (Y := bpow_gt_0 radix2 (-500)); lra. }
  unfold determine_orbital_scale. rewrite Eu, Ev, Nu, Nv. cbn [andb]. cbv zeta. rewrite Z1, Z2, !andb_false_r by nra.
  do 2 eexists. split; [reflexivity|]. split; [|exact (near_agrees N)]. destruct (own_number u && own_number v); exact X.
Qed.
Theorem added64 (s s' : shallot) t l e tr u d v a b : sreach E s -> arr_wf t -> arr_wf l -> o_wf e -> o_wf tr ->
  s_limb s = Some u -> s_ecl s = Some d -> s_vel s = Some v -> add_gradients E t l e tr s = (s', Ok tt) ->
  f64_val (num_of u) = XFin a -> f64_val (num_of v) = XFin b -> 0 <= a <= 1 -> bpow radix2 (-500) <= b <= bpow radix2 500 ->
  exists ls trs new, l = farr ls /\ given tr ls trs /\ s' = with_grads s (Some (dflt [] (s_grads s) ++ new)) None /\ List.length new = List.length ls /\
    forall k lc tm m c, nth_error ls k = Some lc -> nth_error trs k = Some tm -> f64_val lc = XFin m -> f64_val tm = XFin c -> sized 200 m -> bpow radix2 (-200) <= c <= bpow radix2 200 ->
      exists g sc x, nth_error new k = Some g /\ scaled_gradient g = Ok (Some sc) /\ f64_val sc = XFin x /\ agrees 24 x (scaled_by (Rabs m) (orbital a b) c).
Proof.
  intros H W1 W2 W3 W4 Eu Ed Ev Ea Va Vb Ra Rb. destruct (@added f64 _ _ _ E s s' t l e tr u d v H W1 W2 W3 W4 Eu Ed Ev Ea) as (ts & ls & es & trs & o & new & _ & -> & _ & Gt & L1 & L2 & L3 & Eo & -> & Ln & Hk).
  exists ls, trs, new. split; [reflexivity|]. split; [exact Gt|]. split; [reflexivity|]. split; [congruence|]. intros k lc tm m c El Et Vm Vc Rm Rc.
  assert (Lk : (k < List.length ls)%nat) by (apply nth_error_Some; congruence).
  destruct (@has_nth _ ts k) as [time Ei]; [lia|]. destruct (@has_nth _ es k) as [er Ee]; [lia|]. destruct (Hk k time lc er tm Ei El Ee Et) as (g & Hg & _ & _ & _ & _ & _ & Sg & _).
  assert (To : tracks 21 (num_of o) (orbital a b) /\ bpow radix2 (-501) <= orbital a b <= bpow radix2 502).
  { destruct (orbital64 _ _ HL Va Vb Ra Rb) as [To Ro]. split; [|exact Ro]. revert Eo. unfold determine_orbital_scale. rewrite Eu, Ev. destruct (is_number u && is_number v); [|discriminate]. cbv zeta.
    destruct (own_number u && n_eq _ _); [discriminate|]. destruct (own_number v && n_eq _ _); [discriminate|]. intros [= <-]. destruct (own_number u && own_number v); exact To. }
  destruct To as [To Ro].
  assert (Va' : f64_val (n_abs lc) = XFin (Rabs m)). { change (val (n_abs lc) = XFin (Rabs m)). rewrite l_abs. change (val lc) with (f64_val lc). rewrite Vm. reflexivity. }
  assert (Rm' : Rabs m = 0 \/ modest (Rabs m)) by (destruct Rm as [->|Rm]; [left; apply Rabs_R0|right; exact Rm]).
  destruct (product64 _ _ Va' To Vc ltac:(lia) eq_refl Rm' Ro Rc) as (x & X & N). exists g, (n_mul (n_abs lc) (n_mul (num_of o) (n_div n_one tm))), x. split; [exact Hg|]. split; [exact Sg|]. split; [exact X|]. exact (near_agrees N).
Qed.
End F.

Section G.
Variable E : env f64.
Notation shallot := (shallot f64).
Theorem zero64 (s s' : shallot) w gs : sreach E s -> s_grads s = Some gs -> determine_gradient_fit w s = (s', Ok tt) -> INR (List.length gs) <= bpow radix2 50 ->
  exists p, s_fit s' = Some p /\ forall i xs, (i < points s)%nat -> Forall2 (reading w i) gs xs -> Forall fair xs ->
    exists v, nth_error (p_data p) i = Some v /\ (f64_val v = XFin 0 <-> Forall (fun x => fst (fst x) = snd (fst x)) xs).
Proof.
  intros H Eg Ed Hn. destruct (fit64 w H Eg Ed Hn) as (p & -> & Hp). exists p. split; [reflexivity|]. intros i xs Hi Hr Hf.
  assert (HT : true_fit w gs i (total (map (fun x => misfit (fst (fst x)) (snd (fst x)) (snd x)) xs))) by (exists xs; auto).
  destruct (Hp i _ Hi HT) as (_ & v & x & N & V & A). exists v. split; [exact N|]. rewrite V.
  assert (Z := agrees_zero A (total_nonneg HT)). assert (X : XFin x = XFin 0 <-> x = 0) by (split; congruence). rewrite X, Z.
  assert (Q : Forall (fun r => 0 <= r) (map (fun x => misfit (fst (fst x)) (snd (fst x)) (snd x)) xs) /\
    (Forall (fun r => r = 0) (map (fun x => misfit (fst (fst x)) (snd (fst x)) (snd x)) xs) <-> Forall (fun x => fst (fst x) = snd (fst x)) xs)).
  { clear -Hf. induction Hf as [|[[a m] e] xs (_ & _ & Fe) _ [IH1 IH2]]; cbn [map fst snd] in *; [split; [constructor|split; constructor]|].
    assert (P : 0 < e) by (apply Rlt_le_trans with (2 := proj1 Fe), bpow_gt_0). assert (Pi : 0 < / (e * e)) by (apply Rinv_0_lt_compat; nra).
    assert (Sq : 0 <= (a - m) * (a - m)) by exact (Rle_0_sqr (a - m)).
    assert (M : misfit a m e = 0 <-> a = m).
    { unfold misfit. split; [|intros ->; unfold Rdiv; ring]. intros M. apply Rmult_integral in M as [M|M]; [|lra]. apply Rmult_integral in M. lra. }
    split; [constructor; [apply Rmult_le_pos; lra|exact IH1]|]. split; intros F; inversion F; subst; constructor; try (apply IH2; assumption); apply M; assumption. }
  rewrite <- (proj2 Q). exact (proj2 (total_zero (proj1 Q))).
Qed.
Theorem order64 (s s' : shallot) w gs i j r r' : sreach E s -> s_grads s = Some gs -> determine_gradient_fit w s = (s', Ok tt) -> INR (List.length gs) <= bpow radix2 50 ->
  (i < points s)%nat -> (j < points s)%nat -> true_fit w gs i r -> true_fit w gs j r' -> r < (1 - bpow radix2 (-53)) ^ (2 * (List.length gs + 5)) * r' ->
  exists p v v', s_fit s' = Some p /\ nth_error (p_data p) i = Some v /\ nth_error (p_data p) j = Some v' /\ n_lt v v' = true.
Proof.
  intros H Eg Ed Hn Hi Hj T1 T2 L. destruct (fit64 w H Eg Ed Hn) as (p & -> & Hp). destruct (Hp i r Hi T1) as (_ & v & x & N & V & A). destruct (Hp j r' Hj T2) as (_ & v' & x' & N' & V' & A').
  exists p, v, v'. split; [reflexivity|]. split; [exact N|]. split; [exact N'|]. apply nlt_iff. change (xlt (f64_val v) (f64_val v')). rewrite V, V'. cbn.
  apply Rnot_le_lt. intros Q. assert (Y := agrees_le A' A (total_nonneg T2) Q). lra.
Qed.
End G.

(** *** refutations *)
(** a measurement of zero at the centre of the star, known exactly *)
Definition exact_ops : list (@op f64) := [OEclipse (PInt 2) (PInt 3) (PFloat (n_div (n_ofZ 1) (n_ofZ 2))); OAdd (F [0]%Z) (F [0]%Z) (Some (F [0]%Z)) None].
Definition tiny : f64 := n_div n_one (n_ofZ (2 ^ 600)).
(** a tiny measurement *)
Definition tiny_ops : list (@op f64) := [OEclipse (PInt 2) (PInt 3) (PFloat (n_div (n_ofZ 1) (n_ofZ 2))); OAdd (F [0]%Z) (farr [tiny]) None None].
Definition is_zero (x : f64) : bool := match x with B754_zero _ => true | _ => false end.
Lemma is_zero_val x : is_zero x = true -> f64_val x = XFin 0. Proof. destruct x; try discriminate. reflexivity. Qed.
Lemma not_zero_val x : is_zero x = false -> is_nan x = false -> f64_val x <> XFin 0.
Proof.
  destruct x as [| [] | |s m e p]; try discriminate; intros _ _ H; [cbn in H; discriminate H..|]. cbn in H. assert (F2R (Float radix2 (cond_Zopp s (Z.pos m)) e) = 0) as Q by congruence. apply eq_0_F2R in Q. destruct s; discriminate.
Qed.
(** the first gradient at the first point, the scaled gradient, the fit there and its mask *)
Definition first_of (w : bool) (s : shallot f64) : option (f64 * f64 * f64 * bool * bool) :=
  match s_grads s, determine_gradient_fit w s with
  | Some [g], (s', Ok tt) =>
    match nth_error (p_data (gg_prop g)) 0, scaled_gradient g, s_fit s' with
    | Some v, Ok (Some sc), Some p => match nth_error (p_data p) 0 with Some x => Some (v, sc, x, marked (p_mask p) 0, masked_b s 0) | None => None end
    | _, _, _ => None
    end
  | _, _ => None
  end.
Definition on_first (w : bool) (t : f64 * f64 * f64 * bool * bool -> bool) (s : shallot f64) : bool :=
  Nat.ltb 0 (points s) && match first_of w s with Some z => t z | None => false end.
Lemma on_first_ok w t s : on_first w t s = true -> (0 < points s)%nat /\ exists g s' v sc p x, s_grads s = Some [g] /\ determine_gradient_fit w s = (s', Ok tt) /\
  nth_error (p_data (gg_prop g)) 0 = Some v /\ scaled_gradient g = Ok (Some sc) /\ s_fit s' = Some p /\ nth_error (p_data p) 0 = Some x /\ t (v, sc, x, marked (p_mask p) 0, masked_b s 0) = true.
Proof.
  unfold on_first, first_of. intros H. apply andb_prop in H as [H0 H]. apply Nat.ltb_lt in H0. split; [exact H0|]. destruct (s_grads s) as [[|g [|]]|]; try discriminate.
  destruct (determine_gradient_fit w s) as [s' [[]|]] eqn:Ed; [|discriminate]. destruct (nth_error (p_data (gg_prop g)) 0) as [v|] eqn:Ev; [|discriminate]. destruct (scaled_gradient g) as [[sc|]|] eqn:Es; try discriminate.
  destruct (s_fit s') as [p|] eqn:Ep; [|discriminate]. destruct (nth_error (p_data p) 0) as [x|] eqn:Ex; [|discriminate]. exists g, s', v, sc, p, x. repeat split; auto.
Qed.
Lemma exact_wf : Forall (@op_wf f64) exact_ops. Proof. repeat constructor. Qed.
Lemma tiny_wf : Forall (@op_wf f64) tiny_ops. Proof. repeat constructor. Qed.
(** an exact match of a measurement without error is not the best fit: it has none *)
Lemma perfect_refuted : ~ (forall (E : env f64) s s' g v sc p, sreach E s -> s_grads s = Some [g] -> determine_gradient_fit true s = (s', Ok tt) -> s_fit s' = Some p -> (0 < points s)%nat ->
  nth_error (p_data (gg_prop g)) 0 = Some v -> scaled_gradient g = Ok (Some sc) -> f64_val v = XFin 0 -> f64_val sc = XFin 0 ->
  marked (p_mask p) 0 = false).
Proof.
  intros H. destruct (holds_in exact_ops (on_first true (fun '(v, sc, x, m, b) => is_zero v && is_zero sc && m))) as (s & Hs & Ht); [exact exact_wf|vm_compute; exact eq_refl|].
  apply on_first_ok in Ht as (P & g & s' & v & sc & p & x & Eg & Ed & Ev & Es & Ep & Ex & Ht). apply andb_prop in Ht as [Ht Hm]. apply andb_prop in Ht as [H1 H2].
  assert (X := H env2 s s' g v sc p Hs Eg Ed Ep P Ev Es (is_zero_val _ H1) (is_zero_val _ H2)). rewrite Hm in X. discriminate.
Qed.
(** a fit of zero is no exact match: the square of a tiny misfit underflows *)
Lemma tiny_refuted : ~ (forall (E : env f64) s s' g v sc p x, sreach E s -> s_grads s = Some [g] -> determine_gradient_fit false s = (s', Ok tt) -> s_fit s' = Some p -> (0 < points s)%nat ->
  nth_error (p_data (gg_prop g)) 0 = Some v -> scaled_gradient g = Ok (Some sc) -> nth_error (p_data p) 0 = Some x -> f64_val x = XFin 0 -> f64_val v = f64_val sc).
Proof.
  intros H. destruct (holds_in tiny_ops (on_first false (fun '(v, sc, x, m, b) => is_zero v && is_zero x && negb (is_zero sc) && negb (is_nan sc)))) as (s & Hs & Ht); [exact tiny_wf|vm_compute; exact eq_refl|].
  apply on_first_ok in Ht as (P & g & s' & v & sc & p & x & Eg & Ed & Ev & Es & Ep & Ex & Ht). apply andb_prop in Ht as [Ht H4]. apply andb_prop in Ht as [Ht H3]. apply andb_prop in Ht as [H1 H2]. apply negb_true_iff in H3, H4.
  assert (X := H env2 s s' g v sc p x Hs Eg Ed Ep P Ev Es Ex (is_zero_val _ H2)). rewrite (is_zero_val _ H1) in X. exact (not_zero_val _ H3 H4 (eq_sym X)).
Qed.

(** *** an example *)
Definition sized_b (x : f64) : bool :=
  match x with B754_zero _ => true | B754_finite _ m e _ => Z.leb (-200) e && Z.leb (e + 53) 200 && Z.ltb (Z.pos m) (2 ^ 53) | _ => false end.
Lemma sized_b_ok x : sized_b x = true -> exists r, f64_val x = XFin r /\ sized 200 r.
Proof.
  destruct x as [| | |s m e p]; try discriminate; [intros _; exists 0; split; [reflexivity|now left]|]. cbn [sized_b]. intros H. apply andb_prop in H as [H H3]. apply andb_prop in H as [H1 H2].
  apply Z.leb_le in H1, H2. apply Z.ltb_lt in H3. eexists. split; [reflexivity|]. right. cbn [SF2R B2R]. unfold F2R. cbn [Fnum Fexp]. rewrite Rabs_mult, (Rabs_pos_eq (bpow radix2 e)) by apply bpow_ge_0.
  rewrite <- abs_IZR, abs_cond_Zopp. cbn [Z.abs]. assert (P := bpow_gt_0 radix2 e). assert (M1 : 1 <= IZR (Z.pos m)) by (apply IZR_le; lia). assert (M2 : IZR (Z.pos m) <= bpow radix2 53) by (apply IZR_lt in H3; change (bpow radix2 53) with (IZR (2 ^ 53)); lra).
  split.
  - apply Rle_trans with (bpow radix2 e); [apply bpow_le; lia|]. rewrite <- (Rmult_1_l (bpow radix2 e)) at 1. apply Rmult_le_compat_r; lra.
  - apply Rle_trans with (bpow radix2 (53 + e)); [|apply bpow_le; lia]. rewrite bpow_plus. apply Rmult_le_compat_r; lra.
Qed.
Definition fair_b (i : nat) (g : ggrad f64) : bool :=
  match nth_error (p_data (gg_prop g)) i, scaled_gradient g with Some v, Ok (Some sc) => sized_b v && sized_b sc | _, _ => false end.
Lemma fair_b_ok i gs : forallb (fair_b i) gs = true -> exists r, true_fit false gs i r.
Proof.
  intros H. enough (X : exists xs, Forall2 (reading false i) gs xs /\ Forall fair xs) by (destruct X as (xs & A & B); eexists; exists xs; auto).
  induction gs as [|g gs IH]; cbn [forallb] in H; [exists []; split; constructor|]. apply andb_prop in H as [H1 H2]. destruct (IH H2) as (xs & A & C). unfold fair_b in H1.
  destruct (nth_error (p_data (gg_prop g)) i) as [v|] eqn:Ev; [|discriminate]. destruct (scaled_gradient g) as [[sc|]|] eqn:Es; try discriminate. apply andb_prop in H1 as [F1 F2].
  apply sized_b_ok in F1 as (a & Va & Sa), F2 as (m & Vm & Sm). exists ((a, m, 1) :: xs). split; constructor; auto.
  - exists v, sc. auto.
  - split; [exact Sa|]. split; [exact Sm|]. cbn [snd]. change 1 with (bpow radix2 0). split; apply bpow_le; lia.
Qed.
Definition fair_ops : list (@op f64) := [OEclipse (PInt 2) (PInt 3) (PFloat (n_div (n_ofZ 1) (n_ofZ 2))); OAdd (F [10; -20; 5]%Z) (F [1; 2; 3]%Z) None None].
Lemma fair_wf : Forall (@op_wf f64) fair_ops. Proof. repeat constructor. Qed.
Definition fair_all (s : shallot f64) : bool :=
  match s_grads s, snd (determine_gradient_fit false s) with
  | Some gs, Ok tt => Nat.eqb (List.length gs) 3 && Nat.leb 10 (open_points s) && forallb (fun i => masked_b s i || forallb (fair_b i) gs) (seq 0 (points s))
  | _, _ => false
  end.
Lemma fair_ex : exists s s' gs is, sreach env2 s /\ s_grads s = Some gs /\ List.length gs = 3%nat /\ determine_gradient_fit false s = (s', Ok tt) /\ unmasked s is /\ (10 <= List.length is)%nat /\
  forall i, In i is -> exists r, true_fit false gs i r.
Proof.
  destruct (holds_in fair_ops fair_all) as (s & Hs & Ht); [exact fair_wf|vm_compute; exact eq_refl|]. unfold fair_all in Ht. destruct (s_grads s) as [gs|] eqn:Eg; [|discriminate].
  destruct (determine_gradient_fit false s) as [s' r] eqn:Ed. cbn [snd] in Ht. destruct r as [[]|]; [|discriminate]. apply andb_prop in Ht as [Ht H3]. apply andb_prop in Ht as [H1 H2]. apply Nat.eqb_eq in H1. apply Nat.leb_le in H2.
  destruct (unmasked_exists s) as [is Hu]. exists s, s', gs, is. repeat (split; [assumption || reflexivity|]). split; [rewrite (unmasked_count Hu); exact H2|].
  intros i Hi. apply Hu in Hi as [Hi M]. apply fair_b_ok. rewrite forallb_forall in H3. specialize (H3 i). rewrite (proj2 (masked_b_false s i) M) in H3. apply H3. apply in_seq. lia.
Qed.
(** the scale for the limb darkening 1/2 and the velocity 3, with the nearest elementary functions *)
Lemma scale_ex : exists s o x, determine_orbital_scale (mkEnv Libm_nearest (e_search env2) (e_fmt env2) 100) s = Ok o /\ f64_val (num_of o) = XFin x /\ agrees 21 x (orbital 1 3).
Proof.
  destruct (holds_in [OEclipse (PInt 2) (PInt 3) (PInt 1)] (fun s => match s_limb s, s_vel s with Some (PInt 1), Some (PInt 3) => true | _, _ => false end)) as (s & _ & Ht); [repeat constructor|vm_compute; exact eq_refl|].
  exists s. destruct (s_limb s) as [[]|] eqn:Eu; try discriminate. destruct (s_vel s) as [[]|] eqn:Ev; try (destruct z as [|[]|]; discriminate).
  destruct z as [|[| |]|]; try discriminate. destruct z0 as [|[[| |]| |]|]; try discriminate.
  apply (@scale64 (mkEnv Libm_nearest (e_search env2) (e_fmt env2) 100) nearest_accurate s (PInt 1) (PInt 3)); auto; try (apply of_Z; vm_compute; discriminate); try lra.
  split; [apply Rle_trans with (bpow radix2 0); [apply bpow_le; lia|cbn; lra]|apply Rle_trans with (bpow radix2 2); [cbn; lra|apply bpow_le; lia]].
Qed.
