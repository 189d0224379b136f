(** GridParameters in exact arithmetic (equal spacing, mirror images) and in binary64. *)
From Coq Require Import ZArith Reals List Bool String Lra Lia.
From Flocq Require Import Core BinarySingleNaN.
From Verif Require Import Num NumP Py Validate SpecNum ValidateP Ring RingP RingSystem RingSystemP RingMoreP FS FSP GridParams GridDiag SpecGrid GridParamsP.
Import ListNotations.
Set Implicit Arguments.
Local Open Scope R_scope.

Lemma x_ofnat k : n_ofnat k = XFin (INR k).
Proof. unfold n_ofnat. cbn. now rewrite INR_IZR_INZ. Qed.

Lemma linspace_one (a b : R) : linspace (XFin a) (XFin b) 1 = [XFin a].
Proof. unfold linspace. cbn [Nat.sub seq map]. rewrite x_ofnat. cbn. do 2 f_equal. ring. Qed.

Lemma linspace_xr (a b : R) n : (2 <= n)%nat -> equally_spaced (linspace (XFin a) (XFin b) n) a b n.
Proof.
  intros Hn. split; [apply linspace_length|]. intros i Hi.
  assert (P : INR (n - 1) <> 0) by (apply not_0_INR; lia).
  unfold linspace. rewrite nth_error_map.
  rewrite (nth_error_nth' _ 0%nat) by (rewrite seq_length; lia). rewrite seq_nth by lia. cbn [option_map Nat.add].
  f_equal. rewrite !x_ofnat. cbn [n_sub Num_xr x_sub n_div x_div].
  destruct (Req_EM_T (INR (n - 1)) 0) as [|_]; [contradiction|].
  destruct (Nat.ltb_spec 1 n) as [_|]; [|lia]. destruct (Nat.eqb_spec i (n - 1)) as [->|Hne].
  - cbn [andb]. unfold spaced. f_equal. field. exact P.
  - cbn [andb]. destruct (n - 1)%nat as [|k] eqn:Ek; [lia|]. rewrite <- Ek in *.
    cbn [n_eq Num_xr]. unfold n_zero. cbn [n_ofZ Num_xr x_eq].
    destruct (Req_EM_T ((b - a) / INR (n - 1)) 0) as [E|E]; unfold spaced.
    + cbn [n_mul n_div n_add Num_xr x_div x_mul x_add].
      destruct (Req_EM_T (INR (n - 1)) 0) as [|_]; [contradiction|]. cbn [x_mul x_add]. f_equal.
      rewrite E. assert (b - a = 0). { apply (Rmult_eq_reg_r (/ INR (n - 1))); [unfold Rdiv in E; lra|]. apply Rinv_neq_0_compat; auto. }
      rewrite H. ring.
    + cbn [n_mul n_add Num_xr x_mul x_add]. f_equal. ring.
Qed.

Lemma equally_spaced_ends l lo hi n : (2 <= n)%nat -> equally_spaced l lo hi n ->
  nth_error l 0 = Some (XFin lo) /\ nth_error l (n - 1) = Some (XFin hi).
Proof.
  intros Hn [_ H]. rewrite !H by lia. unfold spaced. split; do 2 f_equal; [cbn; ring|]. field. apply not_0_INR. lia.
Qed.

(** C20, exact arithmetic *)
Theorem new_params_spaced (mnx mxx nx mny mxy ny mxr nr : pyval xr) g x0 x1 y0 y1 r1 :
  Forall small [mnx; mxx; nx; mny; mxy; ny; mxr; nr] ->
  value mnx = XFin x0 -> value mxx = XFin x1 -> value mny = XFin y0 -> value mxy = XFin y1 -> value mxr = XFin r1 ->
  new_params mnx mxx nx mny mxy ny mxr nr = Ok g ->
  x0 < x1 /\ y0 < y1 /\ 1 <= r1 /\
  ((2 <= zof nx)%Z -> equally_spaced (g_dx g) x0 x1 (Z.to_nat (zof nx))) /\ (zof nx = 1%Z -> g_dx g = [XFin x0]) /\
  ((2 <= zof ny)%Z -> equally_spaced (g_dy g) y0 y1 (Z.to_nat (zof ny))) /\ (zof ny = 1%Z -> g_dy g = [XFin y0]) /\
  ((2 <= zof nr)%Z -> equally_spaced (g_rf g) 1 r1 (Z.to_nat (zof nr))) /\ (zof nr = 1%Z -> g_rf g = [XFin 1]) /\
  (g_ext g = true <-> x0 = 0 /\ y0 = 0).
Proof.
  intros HS V1 V2 V3 V4 V5 H. apply new_params_iff in H; auto. destruct H as (A1 & A2 & A3 & e & Ee & ->).
  assert (S1 := Forall_inv HS). apply Forall_inv_tail in HS. assert (S2 := Forall_inv HS). apply Forall_inv_tail in HS.
  apply Forall_inv_tail in HS. assert (S4 := Forall_inv HS). apply Forall_inv_tail in HS.
  assert (S5 := Forall_inv HS). apply Forall_inv_tail in HS. apply Forall_inv_tail in HS.
  assert (S7 := Forall_inv HS). clear HS.
  destruct A1 as (N1 & N2 & L1 & C1 & P1), A2 as (N3 & N4 & L2 & C2 & P2), A3 as (N5 & L3 & C3 & P3).
  assert (Q : forall v : pyval xr, numberlike v -> small v -> num_of v = value v) by (intros v Hv Hs; exact (@num_of_value xr _ _ v Hv Hs)).
  rewrite !Q in * by auto. rewrite V1, V2, V3, V4 in *. rewrite V5 in *.
  unfold built. cbn [g_dx g_dy g_rf g_ext].
  assert (X : x0 < x1). { apply Rnot_le_lt. intros X. apply L1. destruct X as [X|X]; [left; exact X|right; subst; split; [auto|discriminate]]. }
  assert (Y : y0 < y1). { apply Rnot_le_lt. intros X'. apply L2. destruct X' as [X'|X']; [left; exact X'|right; subst; split; [auto|discriminate]]. }
  assert (Z : 1 <= r1). { apply Rnot_lt_le. intros X'. apply L3. exact X'. }
  do 3 (split; [assumption|]).
  split; [intros; apply linspace_xr; lia|]. split; [intros ->; apply linspace_one|].
  split; [intros; apply linspace_xr; lia|]. split; [intros ->; apply linspace_one|].
  split; [intros; apply linspace_xr; lia|]. split; [intros ->; apply linspace_one|].
  assert (F : forall a b n, (1 <= n)%nat -> exists l, linspace (XFin a) (XFin b) n = XFin a :: l).
  { intros a b n Hn. destruct (Nat.eq_dec n 1) as [->|Hn1]; [rewrite linspace_one; eauto|].
    assert (E := linspace_xr a b (n:=n) ltac:(lia)). apply equally_spaced_ends in E; [|lia]. destruct E as [E _].
    destruct (linspace (XFin a) (XFin b) n) as [|z l]; [discriminate|]. cbn in E. inversion E; eauto. }
  destruct (F x0 x1 (Z.to_nat (zof nx)) ltac:(lia)) as [lx Ex]. destruct (F y0 y1 (Z.to_nat (zof ny)) ltac:(lia)) as [ly Ey].
  rewrite Ex, Ey in Ee. unfold extendable_of in Ee. cbn in Ee.
  destruct (Req_EM_T y0 0); [|inversion Ee; split; [discriminate|tauto]].
  inversion Ee. destruct (Req_EM_T x0 0); split; intros; try discriminate; auto; tauto.
Qed.

Lemma mirror_linspace l m n : (2 <= n)%nat -> equally_spaced l 0 m n ->
  mirrored l (linspace (x_neg (XFin m)) (XFin m) (2 * n - 1)).
Proof.
  intros Hn [Hl H]. cbn [x_neg]. destruct (linspace_xr (- m) m (n:=2 * n - 1) ltac:(lia)) as [Hl' H'].
  split; [rewrite Hl', Hl; lia|]. rewrite Hl. intros j r Hj.
  assert (Hjn : (j < n)%nat). { rewrite <- Hl. apply nth_error_Some. congruence. }
  rewrite H in Hj by auto. assert (Hr : r = spaced 0 m n j) by congruence. clear Hj. rewrite Hr. clear Hr r. rewrite !H' by lia. unfold spaced.
  assert (P : INR (n - 1) <> 0) by (apply not_0_INR; lia).
  assert (E1 : INR (2 * n - 1 - 1) = 2 * INR (n - 1)). { replace (2 * n - 1 - 1)%nat with (2 * (n - 1))%nat by lia. rewrite mult_INR. cbn. ring. }
  rewrite E1. rewrite plus_INR, (minus_INR (n - 1) j) by lia. split; do 2 f_equal; field; auto.
Qed.

(** C21, exact arithmetic *)
Theorem extend_mirrors (mnx mxx nx mny mxy ny mxr nr : pyval xr) g x0 x1 y0 y1 :
  Forall small [mnx; mxx; nx; mny; mxy; ny; mxr; nr] ->
  value mnx = XFin x0 -> value mxx = XFin x1 -> value mny = XFin y0 -> value mxy = XFin y1 ->
  new_params mnx mxx nx mny mxy ny mxr nr = Ok g -> g_ext g = true ->
  (2 <= zof nx)%Z -> (2 <= zof ny)%Z -> (2 * zof nx <= 2 ^ 53)%Z -> (2 * zof ny <= 2 ^ 53)%Z ->
  exists g', extend_grid g = (g', Ok tt) /\ mirrored (g_dx g) (g_dx g') /\ mirrored (g_dy g) (g_dy g') /\
    g_rf g' = g_rf g /\ g_rfa g' = g_rfa g /\
    g_shape g' = (List.length (g_dy g'), List.length (g_dx g'), List.length (g_rfa g')) /\
    extend_grid g' = (g', Err AttributeError).
Proof.
  intros HS V1 V2 V3 V4 H He Nx Ny Bx By.
  assert (Hr : reachable g) by (eapply rc_new; eauto).
  assert (Sz := new_params_sizes HS H). destruct Sz as (Lx & Ly & _ & _ & Hsh & Ex & Ey & _).
  specialize (Ex Nx). specialize (Ey Ny).
  assert (H2 := H). apply new_params_iff in H2; auto. destruct H2 as (A1 & A2 & A3 & e & Ee & Eg).
  assert (S1 := Forall_inv HS). assert (HS2 := Forall_inv_tail HS). assert (S2 := Forall_inv HS2). apply Forall_inv_tail in HS2.
  apply Forall_inv_tail in HS2. assert (S4 := Forall_inv HS2). apply Forall_inv_tail in HS2. assert (S5 := Forall_inv HS2). clear HS2.
  destruct A1 as (N1 & N2 & L1 & C1 & P1), A2 as (N3 & N4 & L2 & C2 & P2).
  assert (Q : forall v : pyval xr, numberlike v -> small v -> num_of v = value v) by (intros v Hv Hs; exact (@num_of_value xr _ _ v Hv Hs)).
  assert (F := ext_true (reachable_consistent Hr) He). destruct F as (a & la & b & lb & Fx & Fy & Va & Vb). cbn in Va, Vb. subst a b.
  rewrite !Q in * by auto. rewrite V1, V2, V3, V4 in *.
  assert (Dx : equally_spaced (g_dx g) x0 x1 (Z.to_nat (zof nx))) by (subst g; apply linspace_xr; lia).
  assert (Dy : equally_spaced (g_dy g) y0 y1 (Z.to_nat (zof ny))) by (subst g; apply linspace_xr; lia).
  assert (x0 = 0). { apply equally_spaced_ends in Dx; [|lia]. rewrite Fx in Dx. destruct Dx as [Dx _]. inversion Dx; auto. }
  assert (y0 = 0). { apply equally_spaced_ends in Dy; [|lia]. rewrite Fy in Dy. destruct Dy as [Dy _]. inversion Dy; auto. }
  subst x0 y0.
  assert (X : 0 < x1). { apply Rnot_le_lt. intros X. apply L1. destruct X as [X|X]; [left; exact X|right; subst; split; [auto|discriminate]]. }
  assert (Y : 0 < y1). { apply Rnot_le_lt. intros X'. apply L2. destruct X' as [X'|X']; [left; exact X'|right; subst; split; [auto|discriminate]]. }
  destruct (@extend_ok xr _ _ g (XFin x1) (XFin y1) Hr He) as (e' & Ee' & E); auto; try lia.
  eexists. split; [exact E|]. cbn [g_dx g_dy g_rf g_rfa g_shape].
  replace (List.length (g_dx g)) with (Z.to_nat (zof nx)) in * by lia. replace (List.length (g_dy g)) with (Z.to_nat (zof ny)) in * by lia.
  split; [apply mirror_linspace; auto; lia|]. split; [apply mirror_linspace; auto; lia|].
  split; auto. split; auto. split; [rewrite !linspace_length; reflexivity|].
  apply extend_refused. cbn [g_ext].
  assert (G := linspace_xr (- y1) y1 (n:=2 * Z.to_nat (zof ny) - 1) ltac:(lia)). apply equally_spaced_ends in G; [|lia]. destruct G as [G _].
  change (n_neg (XFin y1)) with (XFin (- y1)) in Ee'. unfold extendable_of in Ee'.
  destruct (linspace (XFin (- y1)) (XFin y1) (2 * Z.to_nat (zof ny) - 1)) as [|z l]; [discriminate|]. cbn in G. inversion G; subst z.
  cbn in Ee'. destruct (Req_EM_T (- y1) 0); [lra|]. inversion Ee'. reflexivity.
Qed.

(** *** binary64: the first entry is the lower limit *)
Lemma f64_quot_finite (x y : f64) k : is_finite x = true -> is_finite y = true -> B2R y = IZR k -> (1 <= k)%Z -> is_finite (Bdiv mode_NE x y) = true.
Proof.
  intros Hx Hy Hk Hk1.
  assert (K : 1 <= IZR k) by (apply (IZR_le 1); auto).
  assert (C := Bdiv_correct 53 1024 _ _ mode_NE x y). rewrite Hk in C.
  rewrite Rlt_bool_true in C.
  - destruct C as (_ & C & _); [lra|]. rewrite C. exact Hx.
  - apply Rle_lt_trans with (Rabs (B2R x)); [|apply abs_B2R_lt_emax].
    apply abs_round_le_generic; [apply fexp_correct; reflexivity|apply valid_rnd_N| |].
    + apply generic_format_abs. apply generic_format_B2R.
    + unfold Rdiv. rewrite Rabs_mult. rewrite <- (Rmult_1_r (Rabs (B2R x))) at 2.
      apply Rmult_le_compat_l; [apply Rabs_pos|]. rewrite Rabs_pos_eq by (left; apply Rinv_0_lt_compat; lra).
      rewrite <- Rinv_1. apply Rinv_le_contravar; lra.
Qed.

Lemma f64_zero_mult (x : f64) : is_finite x = true -> f64_val (Bmult mode_NE (n_ofZ 0 : f64) x) = XFin 0 /\ is_finite (Bmult mode_NE (n_ofZ 0 : f64) x) = true.
Proof. change (n_ofZ 0 : f64) with (B754_zero false : f64). destruct x; try discriminate; intros _; split; reflexivity. Qed.
Lemma f64_zero_div (x : f64) : is_finite x = true -> B2R x <> 0 -> f64_val (Bdiv mode_NE (n_ofZ 0 : f64) x) = XFin 0 /\ is_finite (Bdiv mode_NE (n_ofZ 0 : f64) x) = true.
Proof. change (n_ofZ 0 : f64) with (B754_zero false : f64). destruct x; try discriminate; intros _ H; [cbn in H; lra|]; split; reflexivity. Qed.
Lemma f64_zero_plus (z x : f64) : f64_val z = XFin 0 -> is_finite z = true -> is_finite x = true -> f64_val (Bplus mode_NE z x) = f64_val x.
Proof.
  intros Hz Fz Fx. destruct z as [s| | |s m e He]; try discriminate.
  - destruct x as [s'| | |]; try discriminate; [|reflexivity]. destruct s, s'; reflexivity.
  - exfalso. rewrite f64_val_finite in Hz by reflexivity. assert (B2R (B754_finite s m e He : f64) = 0) by congruence.
    unfold B2R, F2R in H. cbn [Fnum Fexp] in H. apply Rmult_integral in H. destruct H as [H|H].
    + destruct s; cbn in H; [apply (eq_IZR (Zneg m) 0) in H|apply (eq_IZR (Zpos m) 0) in H]; discriminate.
    + assert (0 < bpow radix2 e) by apply bpow_gt_0. lra.
Qed.
Lemma f64_zero_mult2 (z x : f64) : f64_val z = XFin 0 -> is_finite z = true -> is_finite x = true -> f64_val (Bmult mode_NE z x) = XFin 0 /\ is_finite (Bmult mode_NE z x) = true.
Proof.
  intros Hz Fz Fx. destruct z as [s| | |s m e He]; try discriminate.
  - destruct x as [s'| | |]; try discriminate; split; reflexivity.
  - exfalso. rewrite f64_val_finite in Hz by reflexivity. assert (B2R (B754_finite s m e He : f64) = 0) by congruence.
    unfold B2R, F2R in H. cbn [Fnum Fexp] in H. apply Rmult_integral in H. destruct H as [H|H].
    + destruct s; cbn in H; [apply (eq_IZR (Zneg m) 0) in H|apply (eq_IZR (Zpos m) 0) in H]; discriminate.
    + assert (0 < bpow radix2 e) by apply bpow_gt_0. lra.
Qed.

(** the width is a finite number, so no overflow happens *)
Theorem linspace_first_f64 (a b : f64) n : (1 <= n)%nat -> (Z.of_nat n <= 2 ^ 53)%Z -> is_finite a = true -> is_finite (n_sub b a) = true ->
  exists x l, linspace a b n = x :: l /\ f64_val x = f64_val a.
Proof.
  intros Hn Hs Ha Hd. unfold linspace. destruct n as [|n]; [lia|]. cbn [seq map].
  eexists _, _. split; [reflexivity|].
  assert (Hb : Nat.ltb 1 (S n) && Nat.eqb 0 (S n - 1) = false).
  { destruct (Nat.ltb_spec 1 (S n)); auto. cbn [andb]. apply Nat.eqb_neq. lia. }
  rewrite Hb. change (n_ofnat 0 : f64) with (n_ofZ 0 : f64).
  destruct (S n - 1)%nat as [|m] eqn:E.
  - cbn [n_add n_mul Num_f64]. destruct (f64_zero_mult _ Hd). apply f64_zero_plus; auto.
  - destruct (f64_ofZ (Z.of_nat (S m))) as [F1 F2]; [lia|].
    assert (Fd : is_finite (Bdiv mode_NE (n_sub b a) (n_ofnat (S m) : f64)) = true).
    { apply (@f64_quot_finite _ _ (Z.of_nat (S m))); auto. lia. }
    destruct (n_eq _ n_zero).
    + cbn [n_add n_mul n_div Num_f64]. destruct (@f64_zero_div (n_ofnat (S m) : f64)) as [G1 G2]; auto.
      { unfold n_ofnat. rewrite F2. apply not_0_IZR. lia. }
      destruct (f64_zero_mult2 _ _ G1 G2 Hd). apply f64_zero_plus; auto.
    + cbn [n_add n_mul n_div Num_f64]. destruct (f64_zero_mult _ Fd). apply f64_zero_plus; auto.
Qed.

(** C23: 50 points from 0 to 1 *)
Definition axis50 : list f64 := linspace (n_ofZ 0) (n_ofZ 1) 50.
Lemma axis50_b :
  match new_params (T:=f64) (PInt 0) (PInt 1) (PInt 50) (PInt 0) (PInt 1) (PInt 50) (PInt 2) (PInt 2) with
  | Ok g => g_ext g &&
    match extend_grid g with
    | (g', Ok _) => Nat.eqb (List.length (g_dx g')) 99 &&
        match nth_error (g_dx g') 49, nth_error (g_dy g') 49 with
        | Some x, Some y => negb (n_eq x n_zero) && negb (n_eq y n_zero) && n_eq (n_neg (n_div x y)) (n_ofZ (-1))
        | _, _ => false
        end && forallb (fun x => negb (n_eq x n_zero)) (g_dx g')
    | _ => false
    end
  | Err _ => false
  end = true.
Proof. vm_compute. reflexivity. Qed.
