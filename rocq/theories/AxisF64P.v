(** The axes of a grid in binary64. *)
From Coq Require Import ZArith Reals List Bool Lia Lra.
From Flocq Require Import Core BinarySingleNaN Relative.
From Verif Require Import Num NumP Py SpecNum Validate ValidateP Ring RingP FS GridParams SpecGrid GridParamsP GridParamsXP BuildFP Round64P SpecF64 SpecAxis LinspaceF64P.
Import ListNotations.
Set Implicit Arguments.
Local Open Scope R_scope.
#[local] Instance vexp : Valid_exp (SpecFloat.fexp 53 1024). Proof. apply fexp_correct. reflexivity. Qed.
#[local] Instance vrnd : Valid_rnd (round_mode mode_NE). Proof. apply valid_rnd_round_mode. Qed.

Lemma eps16 : 16 * ulp1 = B (-49).
Proof. unfold ulp1. change 16 with (B 4). now rewrite <- bpow_plus. Qed.
Lemma nth_some {A} (l : list A) i d r : nth_error l i = Some r -> (i < List.length l)%nat /\ nth i l d = r.
Proof. intros H. split; [apply nth_error_Some; congruence|now apply nth_error_nth]. Qed.

(** equal ends *)
Lemma linspace_same (a b : f64) x n : f64_val a = XFin x -> f64_val b = XFin x -> (1 <= n)%nat -> (Z.of_nat n <= 2 ^ 50)%Z -> moderate x ->
  map f64_val (linspace a b n) = map XFin (repeat x n).
Proof.
  intros Ha Hb N1 N2 M. unfold moderate in M. assert (E0 : B 1000 <= B 1023) by (apply bpow_le; lia). assert (P := bpow_ge_0 radix2 1000).
  assert (Z0 : rnd 0 = 0) by (apply round_0; exact vrnd).
  assert (Fx : rnd x = x) by (apply round_generic; [exact vrnd|exact (f64_format a Ha)]).
  assert (D0 : f64_val (n_sub b a) = XFin 0). { rewrite (sub_correct b a Hb Ha); [|]; replace (x - x) with 0 by ring; [now rewrite Z0|rewrite Rabs_R0; lra]. }
  assert (Q : forall k : f64, (exists r, f64_val k = XFin r) -> f64_val (n_mul k (n_sub b a)) = XFin 0).
  { intros k [r Hk]. rewrite (mul_correct k _ Hk D0); rewrite Rmult_0_r; [now rewrite Z0|rewrite Rabs_R0; lra]. }
  assert (I64 : forall i, (i <= n)%nat -> f64_val (n_ofnat i : f64) = XFin (INR i)).
  { intros i Hi. rewrite INR_IZR_INZ. exact (l_ofZ (T := f64) (Z.of_nat i) ltac:(lia)). }
  unfold linspace. rewrite map_map.
  assert (MR : map XFin (repeat x n) = repeat (XFin x) n) by (clear; induction n; [reflexivity|cbn [repeat map]; congruence]). rewrite MR.
  assert (C : forall (h : nat -> xr) l, (forall i, In i l -> h i = XFin x) -> map h l = repeat (XFin x) (List.length l)).
  { intros h l. induction l as [|i l IH]; intros H; [reflexivity|]. cbn [map List.length repeat]. rewrite IH by (intros; apply H; now right). f_equal. apply H. now left. }
  rewrite C; [now rewrite seq_length|]. intros i Hi. apply in_seq in Hi.
  destruct (Nat.ltb 1 n && Nat.eqb i (n - 1)); [exact Hb|].
  assert (F : forall k : f64, f64_val k = XFin 0 -> f64_val (n_add k a) = XFin x).
  { intros k Hk. rewrite (add_correct k a Hk Ha); rewrite Rplus_0_l; [now rewrite Fx|lra]. }
  apply F. destruct (n - 1)%nat as [|k] eqn:En.
  - apply Q. exists (INR i). apply I64. lia.
  - assert (P1 : 0 < INR (S k)) by (apply lt_0_INR; lia).
    assert (V : f64_val (n_div (n_sub b a) (n_ofnat (S k) : f64)) = XFin 0).
    { assert (Z1 : 0 / INR (S k) = 0) by (field; lra). rewrite (div_correct _ _ D0 (I64 (S k) ltac:(lia))); rewrite ?Z1; [now rewrite Z0|lra|rewrite Rabs_R0; lra]. }
    assert (Z : n_eq (n_div (n_sub b a) (n_ofnat (S k) : f64)) n_zero = true).
    { cbn [n_eq Num_f64]. rewrite f64_eq, V. change (f64_val n_zero) with (XFin 0). cbn [x_eq]. destruct (Req_EM_T 0 0); [reflexivity|lra]. }
    rewrite Z. apply Q. exists (rnd (INR i / INR (S k))). apply div_correct; [apply I64; lia|apply I64; lia|lra|].
    assert (L : 0 <= INR i <= INR (S k)) by (split; [apply pos_INR|apply le_INR; lia]).
    assert (0 < / INR (S k)) by now apply Rinv_0_lt_compat.
    assert (0 <= INR i / INR (S k) <= 1). { unfold Rdiv. split; [apply Rmult_le_pos; lra|]. rewrite <- (Rinv_r (INR (S k))) by lra. apply Rmult_le_compat_r; lra. }
    rewrite Rabs_pos_eq by lra. apply Rle_trans with 1; [lra|]. change 1 with (B 0). apply bpow_le. lia.
Qed.

Theorem linspace_even (a b : f64) x y n : f64_val a = XFin x -> f64_val b = XFin y -> (1 <= n)%nat -> (Z.of_nat n <= 2 ^ 50)%Z ->
  moderate x -> moderate y -> x = y \/ apart x y -> even_axis (linspace a b n) n x y.
Proof.
  intros Ha Hb N1 N2 Mx My [->|H].
  - exists (repeat y n). split; [now apply linspace_same|]. split; [apply repeat_length|].
    assert (R : forall i r, nth_error (repeat y n) i = Some r -> r = y) by (intros i r Hr; apply nth_error_In, repeat_spec in Hr; exact Hr).
    assert (E : forall i, (i < n)%nat -> nth_error (repeat y n) i = Some y) by (intros i Hi; now apply nth_error_repeat).
    split; [now apply E|]. split; [intros; apply E; lia|]. split.
    + intros i j r s _ Hr Hs. apply R in Hr, Hs. lra.
    + intros i r Hr. apply R in Hr as ->. split; [lra|]. replace (y - _) with 0 by (unfold Rdiv; ring). rewrite Rabs_R0. apply Rmult_le_pos; [apply bpow_ge_0|]. apply Rle_trans with (2 := Rmax_l _ _). apply Rabs_pos.
  - destruct n as [|N]; [lia|]. destruct N as [|M].
    + destruct (@linspace_first_f64 a b 1) as (z & l & El & Ez); [lia|lia| | |].
      { apply f64_val_fin in Ha as [F _]. exact F. }
      { destruct (sub64 b a Hb Ha) as (d & _ & V); [|apply f64_val_fin in V as [F _]; exact F]. unfold moderate in *. apply Rabs_le_inv in Mx, My.
        apply Rle_trans with (B 1001); [|apply bpow_le; lia]. change 1001%Z with (1 + 1000)%Z. rewrite bpow_plus. change (B 1) with 2. apply Rabs_le. lra. }
      assert (L := linspace_length a b 1). rewrite El in L |- *. destruct l; [|discriminate L]. exists [x]. cbn [map]. rewrite Ez, Ha.
      assert (P := bpow_gt_0 radix2 (-900)). unfold apart in H.
      split; [reflexivity|]. split; [reflexivity|]. split; [reflexivity|]. split; [lia|]. split.
      * intros i j r s Hij Hr Hs. destruct i as [|[|]], j as [|[|]]; try discriminate; injection Hr as <-; injection Hs as <-; lra.
      * intros i r Hr. destruct i as [|[|]]; try discriminate. injection Hr as <-. split; [lra|]. cbn [INR]. rewrite Rmult_0_l, Rplus_0_r, Rminus_eq_0, Rabs_R0.
        apply Rmult_le_pos; [apply bpow_ge_0|]. apply Rle_trans with (2 := Rmax_l _ _). apply Rabs_pos.
    + destruct (@points a b x y (S M) Ha Hb H Mx My) as (l & E & L & Bt & F & La & So & Ac); [lia|lia|].
      exists l. split; [exact E|]. split; [exact L|].
      assert (NE : forall i, (i <= S M)%nat -> nth_error l i = Some (nth i l 0)) by (intros; apply nth_error_nth'; lia).
      split; [rewrite NE, F by lia; reflexivity|]. split; [intros _; replace (S (S M) - 1)%nat with (S M) by lia; rewrite NE, La by lia; reflexivity|]. split.
      * intros i j r s Hij Hr Hs. destruct (nth_some l i 0 Hr) as [Li <-]. destruct (nth_some l j 0 Hs) as [Lj <-]. apply So. lia.
      * intros i r Hr. destruct (nth_some l i 0 Hr) as [Li <-]. split; [apply Bt; lia|]. rewrite <- eps16. replace (S (S M) - 1)%nat with (S M) by lia. apply Ac. lia.
Qed.

(** rf starts at 1: the top is 1 or apart from it *)
Lemma above_one (b : f64) r : f64_val b = XFin r -> 1 <= r -> 1 = r \/ apart 1 r.
Proof.
  intros Hb [H|H]; [|now left]. right. unfold apart.
  assert (F1 : generic_format radix2 (SpecFloat.fexp 53 1024) 1). { change 1 with (B 0). apply generic_format_bpow. unfold SpecFloat.fexp, SpecFloat.emin. lia. }
  assert (S := succ_le_lt radix2 (SpecFloat.fexp 53 1024) 1 r F1 (f64_format b Hb) H).
  rewrite succ_eq_pos in S by lra. change 1 with (B 0) in S at 2. rewrite ulp_bpow in S. 
  apply Rle_trans with (B (-52)); [apply bpow_le; lia|]. change (SpecFloat.fexp 53 1024 (0 + 1)) with (-52)%Z in S. lra.
Qed.

Lemma end_value (v : pyval f64) r : numberlike v -> small v -> value v = XFin r -> f64_val (num_of v) = XFin r.
Proof. intros N S V. rewrite <- V. exact (num_of_value N S). Qed.
Theorem grid_axes (mnx mxx nx mny mxy ny mxr nr : pyval f64) g x0 x1 y0 y1 r1 :
  Forall small [mnx; mxx; nx; mny; mxy; ny; mxr; nr] -> new_params mnx mxx nx mny mxy ny mxr nr = Ok g ->
  value mnx = XFin x0 -> value mxx = XFin x1 -> value mny = XFin y0 -> value mxy = XFin y1 -> value mxr = XFin r1 ->
  moderate x0 -> moderate x1 -> moderate y0 -> moderate y1 -> moderate r1 -> apart x0 x1 -> apart y0 y1 ->
  (zof nx <= 2 ^ 50)%Z -> (zof ny <= 2 ^ 50)%Z -> (zof nr <= 2 ^ 50)%Z ->
  even_axis (g_dx g) (Z.to_nat (zof nx)) x0 x1 /\ even_axis (g_dy g) (Z.to_nat (zof ny)) y0 y1 /\ even_axis (g_rf g) (Z.to_nat (zof nr)) 1 r1.
Proof.
  intros S H X0 X1 Y0 Y1 R1 Mx0 Mx1 My0 My1 Mr Ax Ay Nx Ny Nr. apply new_params_iff in H; [|exact S]. destruct H as (A1 & A2 & A3 & e & _ & ->).
  unfold built. cbn [g_dx g_dy g_rf].
  assert (S1 := Forall_inv S). apply Forall_inv_tail in S. assert (S2 := Forall_inv S). do 2 apply Forall_inv_tail in S.
  assert (S4 := Forall_inv S). apply Forall_inv_tail in S. assert (S5 := Forall_inv S). do 2 apply Forall_inv_tail in S. assert (S7 := Forall_inv S). clear S.
  destruct A1 as (a1 & a2 & _ & _ & a3), A2 as (b1 & b2 & _ & _ & b3), A3 as (c1 & c2 & _ & c3).
  assert (M1 : moderate 1). { unfold moderate. rewrite Rabs_R1. change 1 with (B 0). apply bpow_le. lia. }
  split; [|split].
  - apply linspace_even; auto using end_value; lia.
  - apply linspace_even; auto using end_value; lia.
  - assert (V := end_value c1 S7 R1). apply linspace_even; auto; try lia; [exact (val_one (T := f64))|]. apply above_one with (1 := V).
    rewrite R1 in c2. cbn in c2. lra.
Qed.

(** the extended axis, against the axis it was made from *)
Lemma even_at v n x y i a : even_axis v n x y -> nth_error v i = Some a -> exists r, f64_val a = XFin r /\ (i < n)%nat /\
  Rabs (r - (x + INR i * ((y - x) / INR (n - 1)))) <= B (-49) * Rmax (Rabs x) (Rabs y).
Proof.
  intros (l & E & L & _ & _ & _ & A) H. assert (X : nth_error (map f64_val v) i = Some (f64_val a)) by (now apply map_nth_error).
  rewrite E, nth_error_map in X. destruct (nth_error l i) as [r|] eqn:Er; [|discriminate X]. cbn [option_map] in X. exists r. split; [congruence|].
  split; [rewrite <- L; apply nth_error_Some; congruence|]. now apply A.
Qed.
Lemma even_length v n x y : even_axis v n x y -> List.length v = n.
Proof. intros (l & E & L & _). rewrite <- L, <- (map_length f64_val v), E. apply map_length. Qed.
Lemma mirror_even (v w : list f64) n m : (2 <= n)%nat -> 0 < m -> even_axis v n 0 m -> even_axis w (2 * n - 1) (- m) m -> mirrored_within (B (-48) * m) v w.
Proof.
  intros N Pm V W. unfold mirrored_within. rewrite (even_length V), (even_length W). split; [lia|]. intros i a Ha.
  destruct (even_at i V Ha) as (r & Er & Hi & Ar).
  destruct (nth_error w (n - 1 + i)) as [b|] eqn:Eb; [|apply nth_error_None in Eb; rewrite (even_length W) in Eb; lia].
  destruct (nth_error w (n - 1 - i)) as [c|] eqn:Ec; [|apply nth_error_None in Ec; rewrite (even_length W) in Ec; lia].
  destruct (even_at (n - 1 + i) W Eb) as (p & Ep & _ & Ap). destruct (even_at (n - 1 - i) W Ec) as (q & Eq & _ & Aq).
  exists b, c, r, p, q. repeat (split; [assumption || reflexivity|]).
  assert (PN : 0 < INR (n - 1)) by (apply lt_0_INR; lia).
  assert (X1 : INR (2 * n - 1 - 1) = 2 * INR (n - 1)). { replace (2 * n - 1 - 1)%nat with (2 * (n - 1))%nat by lia. rewrite mult_INR. reflexivity. }
  rewrite X1 in Ap, Aq. rewrite plus_INR in Ap. rewrite (minus_INR (n - 1) i) in Aq by lia.
  assert (Y1 : Rmax (Rabs 0) (Rabs m) = m) by (rewrite Rabs_R0, Rmax_right, Rabs_pos_eq; try lra; apply Rabs_pos).
  assert (Y2 : Rmax (Rabs (- m)) (Rabs m) = m) by (rewrite Rabs_Ropp, Rmax_left, Rabs_pos_eq; lra).
  rewrite Y1 in Ar. rewrite Y2 in Ap, Aq.
  replace (- m + (INR (n - 1) + INR i) * ((m - - m) / (2 * INR (n - 1)))) with (INR i * (m / INR (n - 1))) in Ap by (field; lra).
  replace (- m + (INR (n - 1) - INR i) * ((m - - m) / (2 * INR (n - 1)))) with (- (INR i * (m / INR (n - 1)))) in Aq by (field; lra).
  rewrite Rminus_0_r, Rplus_0_l in Ar.
  change (-48)%Z with (1 + -49)%Z. rewrite bpow_plus. change (B 1) with 2. apply Rabs_le_inv in Ar, Ap, Aq. split; apply Rabs_le; lra.
Qed.
Lemma axis_end (v : list f64) n x y : (2 <= n)%nat -> even_axis v n x y -> exists a, nth_error v (List.length v - 1) = Some a /\ f64_val a = XFin y.
Proof.
  intros N V. rewrite (even_length V). destruct V as (l & E & L & _ & La & _). specialize (La N).
  destruct (nth_error v (n - 1)) as [a|] eqn:Ea.
  - exists a. split; [reflexivity|]. assert (X : nth_error (map f64_val v) (n - 1) = Some (f64_val a)) by (now apply map_nth_error). rewrite E, nth_error_map, La in X. cbn [option_map] in X. congruence.
  - apply nth_error_None in Ea. assert (X : List.length v = n) by (rewrite <- L, <- (map_length f64_val v), E; apply map_length). lia.
Qed.
Lemma ext_even (m : f64) r n : f64_val m = XFin r -> apart 0 r -> moderate r -> (2 <= n)%nat -> (Z.of_nat n <= 2 ^ 48)%Z ->
  even_axis (linspace (n_neg m) m (2 * n - 1)) (2 * n - 1) (- r) r.
Proof.
  intros Hm A M N1 N2. apply linspace_even; auto; try lia.
  - assert (X := l_neg (T := f64) m). change (@val f64 _ _) with f64_val in X. rewrite X, Hm. reflexivity.
  - unfold moderate in *. now rewrite Rabs_Ropp.
  - right. unfold apart in *. assert (P := bpow_gt_0 radix2 (-900)). lra.
Qed.
Theorem extended_axes (mnx mxx nx mny mxy ny mxr nr : pyval f64) g x1 y1 :
  Forall small [mnx; mxx; nx; mny; mxy; ny; mxr; nr] -> new_params mnx mxx nx mny mxy ny mxr nr = Ok g ->
  value mnx = XFin 0 -> value mxx = XFin x1 -> value mny = XFin 0 -> value mxy = XFin y1 ->
  moderate x1 -> moderate y1 -> apart 0 x1 -> apart 0 y1 -> (2 <= zof nx <= 2 ^ 48)%Z -> (2 <= zof ny <= 2 ^ 48)%Z ->
  exists g', extend_grid g = (g', Ok tt) /\ even_axis (g_dx g') (2 * Z.to_nat (zof nx) - 1) (- x1) x1 /\ even_axis (g_dy g') (2 * Z.to_nat (zof ny) - 1) (- y1) y1 /\
    mirrored_within (B (-48) * x1) (g_dx g) (g_dx g') /\ mirrored_within (B (-48) * y1) (g_dy g) (g_dy g') /\ g_rf g' = g_rf g /\ g_rfa g' = g_rfa g.
Proof.
  intros S H X0 X1 Y0 Y1 Mx1 My1 Ax Ay Nx Ny.
  assert (Hr : reachable g) by (eapply rc_new; exact H).
  assert (P := bpow_gt_0 radix2 (-900)). assert (Px : 0 < x1) by (unfold apart in Ax; lra). assert (Py : 0 < y1) by (unfold apart in Ay; lra).
  assert (M0 : moderate 0) by (unfold moderate; rewrite Rabs_R0; apply bpow_ge_0).
  assert (S0 := S). apply new_params_iff in H; [|exact S]. destruct H as (A1 & A2 & A3 & e & He & Hg).
  assert (S1 := Forall_inv S). apply Forall_inv_tail in S. assert (S2 := Forall_inv S). do 2 apply Forall_inv_tail in S.
  assert (S4 := Forall_inv S). apply Forall_inv_tail in S. assert (S5 := Forall_inv S). clear S.
  destruct A1 as (a1 & a2 & _ & _ & a3), A2 as (b1 & b2 & _ & _ & b3).
  assert (Ex : even_axis (g_dx g) (Z.to_nat (zof nx)) 0 x1) by (rewrite Hg; apply linspace_even; auto using end_value; lia).
  assert (Ey : even_axis (g_dy g) (Z.to_nat (zof ny)) 0 y1) by (rewrite Hg; apply linspace_even; auto using end_value; lia).
  assert (Lx := even_length Ex). assert (Ly := even_length Ey).
  destruct (@axis_end _ (Z.to_nat (zof nx)) _ _ ltac:(lia) Ex) as (ax & Nax & Vax). destruct (@axis_end _ (Z.to_nat (zof ny)) _ _ ltac:(lia) Ey) as (ay & Nay & Vay).
  assert (Ge : g_ext g = true).
  { rewrite Hg. cbn [g_ext built]. unfold extendable_of in He.
    assert (First : forall v n z, even_axis v n 0 z -> exists h t, v = h :: t /\ n_eq h n_zero = true).
    { intros v n z (l & E & _ & F & _). destruct v as [|h t]; [destruct l; [discriminate F|discriminate E]|]. exists h, t. split; [reflexivity|]. destruct l as [|r l]; [discriminate F|]. injection F as ->.
      assert (V : f64_val h = XFin 0) by (cbn [map] in E; congruence). cbn [n_eq Num_f64]. rewrite f64_eq, V. change (f64_val n_zero) with (XFin 0). cbn [x_eq]. destruct (Req_EM_T 0 0); [reflexivity|lra]. }
    rewrite Hg in Ex, Ey. cbn [g_dx g_dy built] in Ex, Ey.
    destruct (First _ _ _ Ex) as (h & t & E1 & Z1). destruct (First _ _ _ Ey) as (h' & t' & E2 & Z2). rewrite E1, E2, Z1, Z2 in He. congruence. }
  destruct (@extend_ok f64 _ _ g ax ay Hr Ge) as (e' & _ & Xe); auto; try lia; try (change (@val f64 _ _) with f64_val; rewrite ?Vax, ?Vay; exact Px || exact Py).
  eexists. split; [exact Xe|]. cbn [g_dx g_dy g_rf g_rfa]. rewrite Lx, Ly.
  assert (Wx := @ext_even ax x1 (Z.to_nat (zof nx)) Vax Ax Mx1 ltac:(lia) ltac:(lia)). assert (Wy := @ext_even ay y1 (Z.to_nat (zof ny)) Vay Ay My1 ltac:(lia) ltac:(lia)).
  split; [exact Wx|]. split; [exact Wy|]. split; [|split; [|split; reflexivity]].
  - apply mirror_even with (n := Z.to_nat (zof nx)); auto. lia.
  - apply mirror_even with (n := Z.to_nat (zof ny)); auto. lia.
Qed.

(** *** what may go wrong *)
Definition pair_at (v : list f64) (i : nat) (P : f64 -> f64 -> bool) : bool :=
  match nth_error v i, nth_error v (S i) with Some p, Some q => P p q | _, _ => false end.
Lemma pair_grid a b n i P :
  match new_params (T := f64) a b n (PInt 0) (PInt 1) (PInt 2) (PInt 2) (PInt 2) with Ok g => pair_at (g_dx g) i P | Err _ => false end = true ->
  exists g p q, reachable g /\ nth_error (g_dx g) i = Some p /\ nth_error (g_dx g) (S i) = Some q /\ P p q = true.
Proof.
  intros H. destruct (new_params a b n (PInt 0) (PInt 1) (PInt 2) (PInt 2) (PInt 2)) as [g|] eqn:E; [|discriminate H]. unfold pair_at in H.
  destruct (nth_error (g_dx g) i) as [p|] eqn:Ep; [|discriminate H]. destruct (nth_error (g_dx g) (S i)) as [q|] eqn:Eq; [|discriminate H].
  exists g, p, q. split; [eapply rc_new; exact E|]. auto.
Qed.
(** four points from 1 to the next number *)
Lemma equal_neighbours : exists (g : gparams f64) p q, reachable g /\ nth_error (g_dx g) 0 = Some p /\ nth_error (g_dx g) 1 = Some q /\ n_eq p q = true.
Proof. apply (pair_grid (PInt 1) (PNpFloat (n_add n_one (n_div n_one (n_ofZ (2 ^ 52))))) (PInt 4) 0 (fun p q => n_eq p q)). vm_compute. exact eq_refl. Qed.
(** eight points from 0 to 11 times the smallest number *)
Definition least11 : f64 := @B754_finite 53 1024 false 11 (-1074) eq_refl.
Lemma falling : exists (g : gparams f64) p q, reachable g /\ nth_error (g_dx g) 6 = Some p /\ nth_error (g_dx g) 7 = Some q /\ n_lt q p = true.
Proof. apply (pair_grid (PInt 0) (PNpFloat least11) (PInt 8) 6 (fun p q => n_lt q p)). vm_compute. exact eq_refl. Qed.
(** three points from -2^1023 to 2^1023 *)
Definition huge : f64 := @B754_finite 53 1024 false 4503599627370496 971 eq_refl.
Lemma lost : exists (g : gparams f64) p q, reachable g /\ nth_error (g_dx g) 0 = Some p /\ nth_error (g_dx g) 1 = Some q /\ n_isnan p && n_eq q n_inf = true.
Proof. apply (pair_grid (PNpFloat (n_neg huge)) (PNpFloat huge) (PInt 3) 0 (fun p q => n_isnan p && n_eq q n_inf)). vm_compute. exact eq_refl. Qed.
Lemma axes_ex : Forall (@small f64) [PInt 0; PInt 3; PInt 7; PInt 0; PInt 1; PInt 4; PInt 5; PInt 3] /\
  is_ok (new_params (T := f64) (PInt 0) (PInt 3) (PInt 7) (PInt 0) (PInt 1) (PInt 4) (PInt 5) (PInt 3)) = true /\
  moderate 3 /\ moderate 1 /\ moderate 5 /\ apart 0 3 /\ apart 0 1.
Proof.
  assert (P : B 3 <= B 1000) by (apply bpow_le; lia). change (B 3) with 8 in P. assert (Q : B (-900) <= B 0) by (apply bpow_le; lia). change (B 0) with 1 in Q.
  split; [repeat (apply Forall_cons; [cbn; lia|]); apply Forall_nil|]. split; [vm_compute; exact eq_refl|].
  unfold moderate, apart. rewrite !Rabs_pos_eq by lra. lra.
Qed.
