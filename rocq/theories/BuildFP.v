(** The interpolated scale factors, the diagnostic value of the smallest disk, and the shear in binary64. *)
From Coq Require Import ZArith List Bool String Lia Reals Lra.
From Flocq Require Import Core.Core IEEE754.BinarySingleNaN.
From Verif Require Import Num NumP Py SpecNum Validate ValidateP Ring RingP RingSystem XLibm FS FSP GridParams SpecGrid GridParamsP GridParamsXP GridDiag GridDiagP GridCrashP
  Names GridProp SpecProp GridPropP Geometry GeomP Build SpecBuild BuildP BuildQP StretchP BuildXP InterpP Shallot BuildGP BuildGridP BuildCP BuildDP BuildEP.
Import ListNotations.
Set Implicit Arguments.
Local Open Scope list_scope.

Section X.
Local Open Scope R_scope.
Context (E : env xr) (HS : brackets (e_search E)).

Lemma fin_num r : val (XFin r) <> XNaN. Proof. discriminate. Qed.
Lemma map_fin (l : list xr) : Forall fin l -> exists r, l = map XFin r.
Proof. induction 1 as [|x l [q ->] _ [r ->]]; [exists []|exists (q :: r)]; reflexivity. Qed.
Lemma Forall2_nth {A B} (P : A -> B -> Prop) l l' : Forall2 P l l' -> forall i a, nth_error l i = Some a -> exists b, nth_error l' i = Some b /\ P a b.
Proof. induction 1; intros [|i] a; cbn; try discriminate; intros; [exists y; split; congruence|eauto]. Qed.

(** the first of the least entries *)
Lemma argmin_first_from l i best bi : exists x, 
  (argmin_from (map XFin l) i (XFin best) bi = bi /\ x = best \/ exists j, argmin_from (map XFin l) i (XFin best) bi = (i + j)%nat /\ nth_error l j = Some x /\ x < best /\ forall j' d, (j' < j)%nat -> nth_error l j' = Some d -> x < d) /\
  x <= best /\ forall d, In d l -> x <= d.
Proof.
  revert i best bi; induction l as [|a l IH]; intros i best bi; cbn [argmin_from map].
  - exists best. split; [left; auto|]. split; [lra|intros d []].
  - cbn [n_lt Num_xr x_lt]. destruct (Rlt_dec a best) as [Hlt|Hge].
    + destruct (IH (S i) a i) as (x & [[E1 ->]|(j & E1 & E2 & E3 & E4)] & Hx & Hall); rewrite E1; clear E1.
      * exists a. split; [right; exists 0%nat; split; [lia|]; split; [reflexivity|]; split; [auto|intros; lia]|]. split; [lra|]. intros d [<-|Hd]; [lra|auto].
      * exists x. split; [right; exists (S j); split; [lia|]; split; [exact E2|]; split; [lra|]|].
        -- intros [|j'] d Hj Hd; [injection Hd as <-; auto|]. apply (E4 j' d); [lia|exact Hd].
        -- split; [lra|]. intros d [<-|Hd]; [lra|auto].
    + destruct (IH (S i) best bi) as (x & [[E1 ->]|(j & E1 & E2 & E3 & E4)] & Hx & Hall); rewrite E1; clear E1.
      * exists best. split; [left; auto|]. split; [lra|]. intros d [<-|Hd]; [lra|auto].
      * exists x. split; [right; exists (S j); split; [lia|]; split; [exact E2|]; split; [lra|]|].
        -- intros [|j'] d Hj Hd; [injection Hd as <-; lra|]. apply (E4 j' d); [lia|exact Hd].
        -- split; [lra|]. intros d [<-|Hd]; [lra|auto].
Qed.
Lemma nanargmin_first ds k : nanargmin (map XFin ds) = Ok k ->
  exists m, nth_error ds k = Some m /\ (forall d, In d ds -> m <= d) /\ forall j d, (j < k)%nat -> nth_error ds j = Some d -> m < d.
Proof.
  unfold nanargmin. destruct (forallb n_isnan (map XFin ds)) eqn:F; [discriminate|]. intros H. assert (Hk : argmin (map (fun x => if n_isnan x then n_inf else x) (map XFin ds)) = k) by congruence. clear H.
  rewrite map_map in Hk. rewrite (map_ext _ XFin) in Hk by (intros; reflexivity). subst k.
  destruct ds as [|a l]; [|].
  - discriminate F.
  - cbn [map argmin]. destruct (argmin_first_from l 1 a 0) as (x & [[E1 ->]|(j & E1 & E2 & E3 & E4)] & Hx & Hall); rewrite E1; clear E1.
    + exists a. split; [reflexivity|]. split; [intros d [<-|Hd]; [lra|auto]|intros; lia].
    + exists x. split; [exact E2|]. split; [intros d [<-|Hd]; [lra|auto]|]. intros [|j'] d Hj Hd; [injection Hd as <-; auto|]. apply (E4 j' d); [lia|exact Hd].
Qed.

Theorem interpolate_lines (rf ys ds : list R) dy fx fy : rf <> [] -> List.length ys = List.length ds -> Forall (fun d => 0 < d) ds ->
  interpolate E (map XFin rf) (XFin dy) (map XFin ys) (map XFin ds) = Ok (fx, fy) ->
  exists k m, nth_error ds k = Some m /\ (forall d, In d ds -> m <= d) /\ (forall j d, (j < k)%nat -> nth_error ds j = Some d -> m < d) /\
    nth_error fy (List.length rf - 1) = option_map XFin (nth_error ys k) /\
    forall j q, (1 <= j)%nat -> nth_error rf j = Some q ->
      (exists v, nth_error fy (List.length rf - 1 + j) = Some (XFin v) /\ broken_line (map (fun d => d / m) (skipn k ds)) (skipn k ys) q v) /\
      (exists v, nth_error fy (List.length rf - 1 - j) = Some (XFin v) /\ broken_line (map (fun d => d / m) (rev (firstn (S k) ds))) (rev (firstn (S k) ys)) q v).
Proof.
  intros Hrf Hlen Hpos H. assert (H0 := H). apply interpolate_middle in H0 as (_ & _ & k & Hk0 & Hmid); [|destruct rf; [congruence|discriminate]|rewrite !map_length; auto].
  rewrite map_length in Hmid. unfold interpolate in H.
  destruct (nan_min (map XFin ds)) as [m|] eqn:Em; cbn [bind] in H; [|discriminate]. rewrite Hk0 in H. cbn [bind] in H.
  assert (Hp : Forall positive (map XFin ds)). { apply Forall_forall. intros x Hx. apply in_map_iff in Hx as (d & <- & Hd). exists d. split; auto. rewrite Forall_forall in Hpos. auto. }
  destruct (@nan_min_positive _ _ Em Hp) as ((m0 & -> & Hm0) & Hmin).
  assert (Hmin' : forall d, In d ds -> m0 <= d). { intros d Hd. destruct (Hmin d (in_map XFin _ _ Hd)) as (q & Eq & Hq). injection Eq as ->. auto. }
  assert (Hin : In m0 ds). { apply nan_min_spec in Em as (_ & [[X _]|(X & _)]).
    - destruct ds as [|d ds]; [discriminate Hk0|]. destruct (@fin_num _ (X (XFin d) (or_introl eq_refl))).
    - apply in_map_iff in X as (d & Ed & X). injection Ed as ->. auto. }
  destruct (nanargmin_spec _ Hk0) as (x & Hx & _ & _ & Hxm). rewrite nth_error_map in Hx. destruct (nth_error ds k) as [d0|] eqn:Ed0; cbn [option_map] in Hx; [|congruence]. injection Hx as <-.
  assert (d0 = m0) as ->.
  { apply Rle_antisym; [|apply Hmin'; eapply nth_error_In; eauto]. specialize (Hxm (@fin_num _) (XFin m0) (in_map XFin _ _ Hin) (@fin_num _)).
    change (xle (XFin d0) (XFin m0)) in Hxm. destruct Hxm as [Hxm|[Hxm _]]; [cbn in Hxm; lra|injection Hxm; lra]. }
  set (fr := fun d => d / m0).
  assert (Efr : map (fun d => n_div d (XFin m0)) (map XFin ds) = map XFin (map fr ds)).
  { rewrite !map_map. apply map_ext. intros d. apply xdiv. lra. }
  rewrite Efr in H. rewrite !firstn_map, !skipn_map, <- !map_rev in H.
  destruct (np_interp E (map XFin rf) (map XFin (map fr (rev (firstn (S k) ds)))) _) as [ix|] eqn:Ex; cbn [bind] in H; [|discriminate].
  destruct (np_interp E (map XFin rf) (map XFin (map fr (skipn k ds))) _) as [iy|] eqn:Ey; cbn [bind] in H; [|discriminate].
  apply ok_pair in H as [_ Hfy].
  assert (Hk : (k < List.length ds)%nat) by (apply nth_error_Some; congruence).
  destruct (@np_interp_line E HS (map fr (rev (firstn (S k) ds))) (rev (firstn (S k) ys)) rf ix) as (vx & -> & Fx); auto.
  { intros X. apply (f_equal (@List.length R)) in X. rewrite map_length, rev_length, firstn_length in X. cbn [List.length] in X. lia. }
  { rewrite map_length, !rev_length, !firstn_length, Hlen. reflexivity. }
  destruct (@np_interp_line E HS (map fr (skipn k ds)) (skipn k ys) rf iy) as (vy & -> & Fy); auto.
  { intros X. apply (f_equal (@List.length R)) in X. rewrite map_length, skipn_length in X. cbn [List.length] in X. lia. }
  { rewrite map_length, !skipn_length, Hlen. reflexivity. }
  assert (Lx := Forall2_len Fx). assert (Ly := Forall2_len Fy).
  exists k, m0. split; auto. split; auto. split; [destruct (nanargmin_first _ Hk0) as (m1 & Hm1 & _ & Hfst); rewrite Ed0 in Hm1; injection Hm1 as <-; exact Hfst|]. split; [rewrite Hmid, nth_error_map; reflexivity|].
  intros j q Hj Hq. assert (Hjl : (j < List.length rf)%nat) by (apply nth_error_Some; congruence).
  destruct (Forall2_nth Fx _ Hq) as (u & Hu & Bu). destruct (Forall2_nth Fy _ Hq) as (v & Hv & Bv).
  rewrite removelast_rev in Hfy. destruct vx as [|x0 vx]; [cbn in Lx; lia|]. destruct vy as [|y0 vy]; [cbn in Ly; lia|]. cbn [map tl] in Hfy.
  destruct j as [|j]; [lia|]. cbn [nth_error] in Hu, Hv. cbn [List.length] in Lx, Ly.
  assert (Lr : List.length (rev (map XFin vx)) = (List.length rf - 1)%nat) by (rewrite rev_length, map_length; lia).
  split.
  - exists v. split; auto. rewrite Hfy. rewrite nth_error_app2 by lia. rewrite Lr. replace (List.length rf - 1 + S j - (List.length rf - 1))%nat with (S j) by lia. cbn [app nth_error]. now rewrite nth_error_map, Hv.
  - exists u. split; auto. rewrite Hfy. rewrite nth_error_app1 by lia. rewrite nth_error_rev' by (rewrite map_length; lia). rewrite map_length.
    replace (List.length vx - 1 - (List.length rf - 1 - S j))%nat with j by lia. now rewrite nth_error_map, Hu.
Qed.
End X.

(** *** binary64 *)
Section F.
Local Open Scope R_scope.
Lemma f64_val_fin (x : f64) r : f64_val x = XFin r -> is_finite x = true /\ B2R x = r.
Proof. destruct x as [s|[]| |]; cbn; try discriminate; intros H; split; auto; injection H; auto. Qed.
Lemma f64_div_self (x : f64) r : f64_val x = XFin r -> r <> 0 -> f64_val (Bdiv mode_NE x x) = XFin 1.
Proof.
  intros H Hr. apply f64_val_fin in H as [Hf Hb]. assert (C := Bdiv_correct 53 1024 _ _ mode_NE x x). rewrite Hb in C. specialize (C Hr).
  replace (r / r) with 1 in C by (field; auto).
  assert (R1 : round radix2 (SpecFloat.fexp 53 1024) (round_mode mode_NE) 1 = 1).
  { apply round_generic; [apply valid_rnd_N|]. change 1 with (bpow radix2 0). apply generic_format_bpow. unfold SpecFloat.fexp, SpecFloat.emin. lia. }
  rewrite R1 in C. rewrite Rlt_bool_true in C.
  - destruct C as (C & Fc & _). rewrite f64_val_finite by congruence. f_equal. exact C.
  - rewrite Rabs_R1. change 1 with (bpow radix2 0). apply bpow_lt. lia.
Qed.
Lemma f64_sub_same (x y : f64) r : f64_val x = XFin r -> f64_val y = XFin r -> f64_val (Bminus mode_NE x y) = XFin 0.
Proof.
  intros Hx Hy. apply f64_val_fin in Hx as [Fx Bx]. apply f64_val_fin in Hy as [Fy By].
  assert (C := Bminus_correct 53 1024 _ _ mode_NE x y Fx Fy). rewrite Bx, By in C. replace (r - r) with 0 in C by ring.
  rewrite round_0 in C by apply valid_rnd_N. rewrite Rlt_bool_true in C by (rewrite Rabs_R0; apply bpow_gt_0).
  destruct C as (C & Fc & _). rewrite f64_val_finite by auto. f_equal. exact C.
Qed.
Lemma f64_below_finite (b : f64) r : f64_val b = XFin r -> 1 <= r -> is_finite (n_sub b (n_ofZ 1 : f64)) = true.
Proof.
  intros Hb Hr. apply f64_val_fin in Hb as [Fb Bb]. cbn [n_sub Num_f64]. destruct (f64_ofZ 1) as [F1 B1]; [lia|]. set (one := n_ofZ 1 : f64) in *. clearbody one.
  assert (C := Bminus_correct 53 1024 _ _ mode_NE b one Fb F1). rewrite Bb, B1 in C. rewrite Rlt_bool_true in C; [destruct C as (_ & C & _); exact C|].
  apply Rle_lt_trans with (Rabs (B2R b)); [|apply abs_B2R_lt_emax]. apply abs_round_le_generic; [apply fexp_correct; reflexivity|apply valid_rnd_N| |].
  - apply generic_format_abs, generic_format_B2R.
  - rewrite Bb, !Rabs_pos_eq by lra. lra.
Qed.
(** a quotient of finite numbers with a divisor that is not zero is never NaN *)
Lemma f64_div_notnan (x y : f64) a b : f64_val x = XFin a -> f64_val y = XFin b -> b <> 0 -> f64_val (Bdiv mode_NE x y) <> XNaN.
Proof.
  intros Hx Hy Hb. apply f64_val_fin in Hx as [Fx Bx]. apply f64_val_fin in Hy as [Fy By].
  assert (C := Bdiv_correct 53 1024 _ _ mode_NE x y). rewrite By in C. specialize (C Hb).
  destruct (Rlt_bool _ _).
  - destruct C as (_ & Fc & _). rewrite f64_val_finite by congruence. discriminate.
  - intros X. destruct (Bdiv mode_NE x y) as [|[]| |]; cbn in X; try discriminate.
Qed.

Theorem shear_f64 (dx dy : f64) a b : f64_val dx = XFin a -> f64_val dy = XFin b ->
  (f64_val (shear_at dx dy) = XNaN <-> b = 0 /\ a <> 0) /\
  (a = 0 -> b = 0 -> f64_val (shear_at dx dy) = XFin 0) /\ (b <> 0 -> shear_at dx dy = n_div (n_neg dx) dy).
Proof.
  intros Ha Hb. unfold shear_at. assert (Ey : n_eq dy n_zero = true <-> b = 0).
  { rewrite neq_iff, val_zero. change (val dy) with (f64_val dy). rewrite Hb. split; [intros [H _]; congruence|intros ->; split; auto; discriminate]. }
  assert (Ex : n_eq dx n_zero = true <-> a = 0).
  { rewrite neq_iff, val_zero. change (val dx) with (f64_val dx). rewrite Ha. split; [intros [H _]; congruence|intros ->; split; auto; discriminate]. }
  destruct (n_eq dy n_zero); cbn [andb negb].
  - assert (b = 0) by tauto. destruct (n_eq dx n_zero).
    + assert (a = 0) by tauto. split; [|split].
      * split; [|tauto]. intros X. exfalso. assert (Y := val_zero (T := f64)). change (f64_val n_zero = XFin 0) in Y. congruence.
      * intros _ _. exact (val_zero (T := f64)).
      * tauto.
    + assert (a <> 0) by (intros X; apply Ex in X; discriminate). split; [|split; tauto]. split; auto.
  - assert (b <> 0) by (intros X; apply Ey in X; discriminate). split; [|split; tauto]. split; [|tauto].
    intros X. exfalso. revert X. apply f64_div_notnan with (a := - a) (b := b); auto. exact (eq_trans (f64_neg dx) (f_equal x_neg Ha)).
Qed.

(** the diagnostic value of the smallest disk *)
Lemma rfa_middle_f64 (mnx mxx nx mny mxy ny mxr nr : pyval f64) g r : Forall small [mnx; mxx; nx; mny; mxy; ny; mxr; nr] ->
  new_params mnx mxx nx mny mxy ny mxr nr = Ok g -> value mxr = XFin r ->
  exists e, nth_error (g_rfa g) (List.length (g_rf g) - 1) = Some e /\ f64_val e = XFin 1.
Proof.
  intros HSm H Hr. assert (H2 := H). apply new_params_iff in H2 as (_ & _ & A3 & e & _ & Eg); auto. destruct A3 as (Hnl & Hge & Hc & Hp).
  assert (Hs7 : small mxr) by (do 6 apply Forall_inv_tail in HSm; apply Forall_inv in HSm; exact HSm).
  assert (Hs8 : small nr) by (do 7 apply Forall_inv_tail in HSm; apply Forall_inv in HSm; exact HSm).
  destruct (rfa_mirror 0 HSm H) as [M _]; [lia|]. 
  assert (Hlen : List.length (g_rf g) = Z.to_nat (zof nr)) by (destruct (new_params_sizes HSm H) as (_ & _ & X & _); lia).
  destruct (@linspace_first_f64 (n_ofZ 1) (num_of mxr) (Z.to_nat (zof nr))) as (x & l & El & Ex).
  - lia.
  - destruct Hc; cbn in Hs8 |- *; try (destruct b); lia.
  - apply (f64_ofZ 1). lia.
  - assert (Hv : val (num_of mxr) = XFin r) by (rewrite (num_of_value Hnl Hs7); exact Hr). change (f64_val (num_of mxr) = XFin r) in Hv. apply (f64_below_finite _ Hv).
    rewrite Hr in Hge. cbn in Hge. lra.
  - exists x. split; [|rewrite Ex; exact (l_ofZ (T := f64) 1 ltac:(lia))].
    assert (Erf : g_rf g = x :: l) by (rewrite Eg; cbn [g_rf built]; exact El).
    rewrite Erf in M |- *. cbn [nth_error] in M. rewrite <- M. f_equal. rewrite Erf in Hlen. lia.
Qed.
End F.
