(** The values at one grid point: the smallest disk in the middle, the interpolation around it; degenerate points. *)
From Coq Require Import ZArith List Bool String Lia Reals Lra.
From Flocq Require Import Core.Core IEEE754.BinarySingleNaN.
From Verif Require Import Num NumP Py SpecNum Validate ValidateP Ring RingP RingSystem XLibm FS FSP GridParams SpecGrid GridParamsP GridParamsXP GridDiag GridDiagP GridCrashP
  Names GridProp SpecProp GridPropP Geometry GeomP Build SpecBuild BuildP BuildQP StretchP BuildXP InterpP Shallot BuildGP BuildGridP BuildCP BuildDP.
Import ListNotations.
Set Implicit Arguments.
Local Open Scope list_scope.

(** *** the loops *)
Section L.
Context {T : Type} {NT : Num T}.
Context (new : Z -> res (list T * list T)) (join : list T -> list T -> list T) (outer : list T -> option T) (mx max_rf : T).

Lemma stretch_inv_ge (P : list T -> list T -> Prop) k : (forall sh a b fys drs, (k <= sh)%Z -> new sh = Ok (a, b) -> P fys drs -> P (join a fys) (join b drs)) ->
  forall f sh fys drs fys' drs', (k <= sh)%Z -> P fys drs -> stretch f new join outer mx max_rf sh fys drs = Ok (fys', drs') -> P fys' drs'.
Proof.
  intros HP. induction f; intros sh fys drs fys' drs' Hk H0 H; cbn [stretch] in H; [discriminate|].
  destruct (new sh) as [[a b]|] eqn:En; cbn [bind fst snd] in *; [|discriminate].
  destruct (nan_min _) as [m|]; cbn [bind] in *; [|discriminate]. destruct (outer b); [|discriminate].
  destruct (n_lt _ max_rf); destruct (n_gt _ _); try discriminate.
  - eapply IHf; [| |exact H]; [lia|eauto].
  - inversion H; subst. eauto.
Qed.
Lemma stretch_incl (Hj : forall b d x, In x (join b d) <-> In x b \/ In x d) f : forall sh fys drs fys' drs',
  stretch f new join outer mx max_rf sh fys drs = Ok (fys', drs') -> exists a b, new sh = Ok (a, b) /\ incl b drs' /\ incl drs drs'.
Proof.
  induction f; intros sh fys drs fys' drs' H; cbn [stretch] in H; [discriminate|].
  destruct (new sh) as [[a b]|] eqn:En; cbn [bind fst snd] in *; [|discriminate]. exists a, b. split; auto.
  destruct (nan_min _) as [m|]; cbn [bind] in *; [|discriminate]. destruct (outer b); [|discriminate].
  destruct (n_lt _ max_rf); destruct (n_gt _ _); try discriminate.
  - apply IHf in H as (_ & _ & _ & _ & H). split; intros x Hx; apply H, Hj; auto.
  - inversion H; subst. split; intros x Hx; apply Hj; auto.
Qed.
End L.

(** *** all numbers *)
Section G.
Context {T : Type} {NT : Num T} {LT : NumLaws T} (E : env T).
Notation pyval := (pyval T).

Definition disk_radius (fx fy s c : T) : T := fst (fst (disk_parameters (e_libm E) fx fy s c)).

Lemma nth_combine {A B} (l : list A) (l' : list B) i a b : nth_error l i = Some a -> nth_error l' i = Some b -> nth_error (combine l l') i = Some (a, b).
Proof. revert l' i; induction l as [|x l IH]; intros [|y l'] [|i]; cbn; try discriminate; intros; try congruence. now apply IH. Qed.

(** the entry at the middle of the rf axis comes from the sample of least radius *)
Theorem point_middle (g : gparams T) nf dy s c col : g_rf g <> [] -> grid_point E g nf dy s c = Ok col ->
  let mid := List.length (g_rf g) - 1 in
  List.length (c_fy col) = 2 * List.length (g_rf g) - 1 /\
  Forall2 (from_disk E dy s c) (c_fys col) (c_drs col) /\
  exists k fy r, nanargmin (c_drs col) = Ok k /\ nth_error (c_fys col) k = Some fy /\ nth_error (c_drs col) k = Some r /\
    nth_error (c_fy col) mid = Some fy /\ nth_error (c_fx col) mid = Some (determine_fx fy dy) /\
    nth_error (c_dr col) mid = Some (disk_radius (determine_fx fy dy) fy s c) /\
    (val r <> XNaN -> forall r', In r' (c_drs col) -> val r' <> XNaN -> xle (val r) (val r')).
Proof.
  intros Hrf H mid. unfold grid_point in H. destruct (last_opt (g_rf g)) as [F|]; cbn [bind] in H; [|discriminate].
  destruct (extend_horizontally _ _ _ _ _ _ _ _ _) as [h|] eqn:Eh; cbn [bind] in H; [|discriminate].
  destruct (extend_vertically _ _ _ _ _ _ _ _ _) as [v|] eqn:Ev; cbn [bind] in H; [|discriminate].
  destruct (interpolate _ _ _ _ _) as [[fx fy]|] eqn:Ei; cbn [bind fst snd] in H; [|discriminate].
  destruct (disk_arrays _ _ _ _ _) as [d|] eqn:Ed; cbn [bind] in H; [|discriminate]. injection H as <-. cbn [c_fy c_fys c_drs c_fx c_dr].
  assert (Sm := samples E _ _ _ _ _ _ _ Eh Ev). assert (Hl := Forall2_len Sm).
  destruct (@interpolate_middle T NT LT E (g_rf g) dy (fst v) (snd v) fx fy Hrf Hl Ei) as (L1 & L2 & k & Hk & Hm).
  split; auto. split; auto. destruct (nanargmin_spec _ Hk) as (r & Hr & _ & _ & Hmin).
  assert (k < List.length (fst v)) by (rewrite Hl; apply nth_error_Some; congruence).
  destruct (nth_error (fst v) k) as [y|] eqn:Ey; [|apply nth_error_Some in H; contradiction].
  exists k, y, r. split; auto. split; auto. split; auto. split; auto.
  assert (Hfx : nth_error fx mid = Some (determine_fx y dy)) by (rewrite L2, nth_error_map; unfold mid; rewrite Hm; reflexivity).
  split; auto. split; auto. apply disk_arrays_ok in Ed. subst d. unfold radii. rewrite map_map, nth_error_map, (nth_combine _ _ _ Hfx Hm). reflexivity.
Qed.

(** a grid whose largest dx or dy is below 0.01 has no computable point *)
Lemma loop_small nf mx max_rf dy s c fys drs : n_gt (n_ofZ 1) (n_mul (num2 100) mx) = true ->
  (forall r, extend_horizontally E nf mx max_rf dy s c fys drs <> Ok r) /\ (forall r, extend_vertically E nf mx max_rf dy s c fys drs <> Ok r).
Proof.
  intros Hg. assert (Hmono : forall z, (1 <= z)%Z -> n_gt (n_ofZ z) (n_mul (num2 100) mx) = false -> (2 ^ 53 < z)%Z).
  { intros z Hz H. destruct (Z_lt_le_dec (2 ^ 53) z) as [|Hs]; auto. exfalso. assert (n_gt (n_ofZ z) (n_mul (num2 100) mx) = true); [|congruence].
    unfold n_gt in *. apply nlt_iff in Hg. apply nlt_iff. rewrite l_ofZ in * by lia.
    destruct (val (n_mul (num2 100) mx)); cbn [xlt] in *; auto. apply (IZR_le 1) in Hz. lra. }
  assert (Hno : forall new join outer f r, stretch f new join outer mx max_rf 1 fys drs <> Ok r).
  { intros new join outer f r H. destruct f; cbn [stretch] in H; [discriminate|]. destruct (new 1%Z) as [fd|]; cbn [bind] in H; [|discriminate].
    destruct (nan_min _); cbn [bind] in H; [|discriminate]. destruct (outer _); [|discriminate].
    destruct (n_lt _ max_rf).
    - change (1 + 1)%Z with 2%Z in H. destruct (n_gt (n_ofZ 2) _) eqn:E2; [discriminate|]. apply Hmono in E2; lia.
    - rewrite Hg in H. discriminate. }
  split; intros r; apply Hno.
Qed.
Theorem point_small (g : gparams T) nf dy s c : n_gt (n_ofZ 1) (n_mul (num2 100) (amax (g_dx g))) = true \/ n_gt (n_ofZ 1) (n_mul (num2 100) (amax (g_dy g))) = true ->
  forall col, grid_point E g nf dy s c <> Ok col.
Proof.
  intros Hg col H. unfold grid_point in H. destruct (last_opt (g_rf g)) as [F|]; cbn [bind] in H; [|discriminate].
  destruct (extend_horizontally _ _ _ _ _ _ _ _ _) as [h|] eqn:Eh; cbn [bind] in H; [|discriminate].
  destruct (extend_vertically _ _ _ _ _ _ _ _ _) as [v|] eqn:Ev; cbn [bind] in H; [|discriminate].
  destruct Hg as [Hg|Hg]; [apply (proj1 (loop_small nf (amax (g_dx g)) F dy s c [] [] Hg)) in Eh|apply (proj2 (loop_small nf _ F dy s c (fst h) (snd h) Hg)) in Ev]; auto.
Qed.
Theorem constructor_small (g : gparams T) nf ll keep inter og l s y x : proper g ->
  n_gt (n_ofZ 1) (n_mul (num2 100) (amax (g_dx g))) = true \/ n_gt (n_ofZ 1) (n_mul (num2 100) (amax (g_dy g))) = true ->
  y < List.length (g_dy g) -> x < List.length (g_dx g) -> n_isnan (shear_at (nth x (g_dx g) n_nan) (nth y (g_dy g) n_nan)) = false ->
  new_shallot E (EIs g) nf ll keep inter <> (og, (l, Ok s)).
Proof.
  intros Hpr Hg Hy Hx Hs H. apply constructor_result in H as (_ & [_ _ _ _ _ _ _ _ Hd] & _); auto.
  assert (Q : exists data, quadrant E g nf WRadius data).
  { destruct Hd as [(_ & _ & Hd)|(_ & _ & Hd)]; [eauto|]. destruct (Hd WRadius) as (data & Hq & _). eauto. }
  destruct Q as (data & _ & Q). specialize (Q y x Hy Hx). unfold column_spec in Q. cbn zeta in Q. rewrite Hs in Q. destruct Q as (col & Hc & _).
  eapply point_small; eauto.
Qed.
(** the loops raise AttributeError *)
Theorem loop_small_error nf n mx max_rf dy s c : num_index nf = Ok (S n) -> 1 <= e_fuel E ->
  number (PNpFloat s) false m_inf p_inf false = Ok (PNpFloat s) -> number (PNpFloat c) false (PInt 0) p_inf false = Ok (PNpFloat c) ->
  n_gt (n_ofZ 1) (n_mul (num2 100) mx) = true ->
  extend_horizontally E nf mx max_rf dy s c [] [] = Err AttributeError /\
  forall fys drs, extend_vertically E nf mx max_rf dy s c fys drs = Err AttributeError.
Proof.
  intros Hn Hf Hs Hc Hg. assert (Hz : (1 <= 1 <= 2 ^ 52)%Z) by lia.
  assert (Ar : exists l, fxy_array nf mx 1 = Ok l /\ List.length l = S n).
  { unfold fxy_array. rewrite Hn. cbn [bind]. eexists; split; [reflexivity|]. apply linspace_length. }
  destruct Ar as (la & Ea & Hla). destruct (e_fuel E) as [|f] eqn:Ef; [lia|].
  split.
  - unfold extend_horizontally. rewrite Ef. unfold disk_arrays. 
    set (b := radii (map (fun p => disk_parameters (e_libm E) (fst p) (snd p) s c) (combine (rev la) (rev (map (fun x => determine_fy x dy) la))))).
    assert (Hlb : List.length b = S n). { unfold b, radii. rewrite !map_length, combine_length, !rev_length, map_length, Hla. lia. }
    destruct b as [|r b'] eqn:Eb; [discriminate|].
    assert (En : new_horizontal E nf mx dy s c 1 = Ok (rev (map (fun x => determine_fy x dy) la), r :: b')).
    { unfold new_horizontal. rewrite Ea. cbn [bind]. unfold disk_arrays. rewrite Hs. cbn [bind]. rewrite Hc. cbn [bind]. f_equal. f_equal. exact Eb. }
    destruct (@nan_min_total T _ ((r :: b') ++ [])) as [m Hm]; [discriminate|].
    apply (@stretch_small T NT LT _ _ _ mx max_rf f 1%Z [] [] _ _ m r En Hm eq_refl Hz Hg).
  - intros fys drs. unfold extend_vertically. rewrite Ef.
    set (b := radii (map (fun p => disk_parameters (e_libm E) (fst p) (snd p) s c) (combine (map (fun y => determine_fx y dy) la) la))).
    assert (Hlb : List.length b = S n). { unfold b, radii. rewrite !map_length, combine_length, map_length, Hla. lia. }
    assert (En : new_vertical E nf mx dy s c 1 = Ok (la, b)).
    { unfold new_vertical. rewrite Ea. cbn [bind]. unfold disk_arrays. rewrite Hs. cbn [bind]. rewrite Hc. cbn [bind]. reflexivity. }
    assert (Hbn : b <> []) by (intros X; rewrite X in Hlb; discriminate).
    destruct (@nan_min_total T _ (drs ++ b)) as [m Hm]; [destruct drs; [exact Hbn|discriminate]|].
    assert (Ho : exists r, final_opt b = Some r).
    { rewrite final_opt_nth by auto. destruct (nth_error b _) eqn:X; [eauto|]. apply nth_error_None in X. lia. }
    destruct Ho as [r Ho].
    apply (@stretch_small T NT LT _ _ _ mx max_rf f 1%Z fys drs _ _ m r En Hm Ho Hz Hg).
Qed.
End G.

Lemma ok_pair {A B} (a c : A) (b d : B) : Ok (a, b) = Ok (c, d) -> c = a /\ d = b.
Proof. intros H. split; congruence. Qed.

(** *** exact arithmetic *)
Section X.
Local Open Scope R_scope.
Context (E : env xr) (HE : e_libm E = Libm_xr) (nf : pyval xr) (n : nat) (Hnf : num_index nf = Ok n) (Hn : (2 <= n)%nat).
Context (dy s c : R) (Hc : 0 < c).

Inductive sampled : xr -> xr -> Prop :=
  | sm_h fx fy : 1 <= fx -> 0 <= fy -> determine_fy (XFin fx) (XFin dy) = XFin fy -> sampled (XFin fy) (XFin (d_major fx fy s c))
  | sm_v fx fy : 1 <= fy -> 0 < fx -> determine_fx (XFin fy) (XFin dy) = XFin fx -> sampled (XFin fy) (XFin (d_major fx fy s c)).

Lemma sampled_h M k a b : 1 <= M -> (1 <= k)%Z -> new_horizontal E nf (XFin M) (XFin dy) (XFin s) (XFin c) k = Ok (a, b) -> Forall2 sampled a b.
Proof.
  intros HM Hk. destruct (@array_range nf n Hnf Hn M k HM Hk) as (l & El & Hl & _). unfold new_horizontal. rewrite El. cbn [bind]. rewrite (@checks_ok E HE n Hn s c Hc). cbn [bind].
  rewrite <- map_rev, combine_map_r. unfold radii. rewrite !map_map. cbn [fst snd]. intros H. apply ok_pair in H as [-> ->].
  assert (Hl' : forall x, In x (rev l) -> exists q, x = XFin q /\ 1 <= q) by (intros x Hx; apply Hl; now apply in_rev).
  induction (rev l) as [|x l' IH]; cbn [map]; constructor.
  - destruct (Hl' x (or_introl eq_refl)) as (q & -> & Hq). destruct (fy_ge1 dy Hq) as (y & Ey & Hy). rewrite Ey, major_radius by lra. apply sm_h; auto.
  - apply IH. intros y Hy. apply Hl'. now right.
Qed.
Lemma sampled_v M k a b : 1 <= M -> (1 <= k)%Z -> new_vertical E nf (XFin M) (XFin dy) (XFin s) (XFin c) k = Ok (a, b) -> Forall2 sampled a b.
Proof.
  intros HM Hk. destruct (@array_range nf n Hnf Hn M k HM Hk) as (l & El & Hl & _). unfold new_vertical. rewrite El. cbn [bind]. rewrite (@checks_ok E HE n Hn s c Hc). cbn [bind].
  rewrite combine_map_l. unfold radii. rewrite !map_map. cbn [fst snd]. intros H. apply ok_pair in H as [-> ->]. clear El.
  induction l as [|x l' IH]; cbn [map]; constructor.
  - destruct (Hl x (or_introl eq_refl)) as (q & -> & Hq). destruct (fx_ge1 dy Hq) as (y & Ey & Hy). rewrite Ey, major_radius by lra. apply sm_v; auto.
  - apply IH. intros y Hy. apply Hl. now right.
Qed.

Lemma loops_sampled Mx My F h v : 1 <= Mx -> 1 <= My ->
  extend_horizontally E nf (XFin Mx) F (XFin dy) (XFin s) (XFin c) [] [] = Ok h ->
  extend_vertically E nf (XFin My) F (XFin dy) (XFin s) (XFin c) (fst h) (snd h) = Ok v ->
  Forall2 sampled (fst v) (snd v) /\ exists q, In (XFin q) (snd v) /\ q <= (Rabs s + 1) * c.
Proof.
  intros HMx HMy Eh Ev. destruct h as [ha hb], v as [va vb]. cbn [fst snd] in *. unfold extend_horizontally, extend_vertically in *.
  assert (Hh : Forall2 sampled ha hb).
  { revert Eh. apply stretch_inv_ge with (P := Forall2 sampled) (k := 1%Z); [|lia|constructor]. intros sh a b fys drs Hsh Hab Hp.
    apply Forall2_both; auto. eapply sampled_h; [| |exact Hab]; auto. }
  split.
  - revert Ev. apply stretch_inv_ge with (P := Forall2 sampled) (k := 1%Z); [|lia|exact Hh]. intros sh a b fys drs Hsh Hab Hp.
    apply Forall2_both; auto. eapply sampled_v; [| |exact Hab]; auto.
  - destruct (@round_h_small E HE nf n Hnf Hn dy s c Hc Mx HMx) as (a & b & q & Hab & Hq & Hle).
    apply stretch_incl in Eh as (a' & b' & Hab' & Hin & _); [|intros; rewrite in_app_iff; tauto]. rewrite Hab in Hab'. apply ok_pair in Hab' as [-> ->].
    apply stretch_incl in Ev as (_ & _ & _ & _ & Hin'); [|intros; rewrite in_app_iff; tauto]. exists q. split; auto.
Qed.

(** the radius at the middle of the rf axis is the least sampled one *)
Theorem middle_radius (g : gparams xr) Mx My col : g_rf g <> [] -> (dy = 0 -> s = 0) -> amax (g_dx g) = XFin Mx -> amax (g_dy g) = XFin My -> 1 <= Mx -> 1 <= My ->
  grid_point E g nf (XFin dy) (XFin s) (XFin c) = Ok col ->
  exists r, nth_error (c_dr col) (List.length (g_rf g) - 1) = Some (XFin r) /\ In (XFin r) (c_drs col) /\ 0 < r /\
    forall r', In r' (c_drs col) -> exists q, r' = XFin q /\ r <= q.
Proof.
  intros Hrf Hz H1 H2 HMx HMy H. destruct (@point_middle xr _ _ E g nf (XFin dy) (XFin s) (XFin c) col Hrf H) as (_ & _ & k & fy & r & Hk & Hfy & Hr & _ & _ & Hm & Hmin).
  assert (Hs : Forall2 sampled (c_fys col) (c_drs col) /\ exists q, In (XFin q) (c_drs col) /\ q <= (Rabs s + 1) * c).
  { unfold grid_point in H. destruct (last_opt (g_rf g)) as [F|]; cbn [bind] in H; [|discriminate]. rewrite H1, H2 in H.
    destruct (extend_horizontally _ _ _ _ _ _ _ _ _) as [h|] eqn:Eh; cbn [bind] in H; [|discriminate].
    destruct (extend_vertically _ _ _ _ _ _ _ _ _) as [v|] eqn:Ev; cbn [bind] in H; [|discriminate].
    destruct (interpolate _ _ _ _ _) as [[fx fy']|] eqn:Ei; cbn [bind fst snd] in H; [|discriminate].
    destruct (disk_arrays _ _ _ _ _) as [d|] eqn:Ed; cbn [bind] in H; [|discriminate]. match type of H with Ok ?x = _ => assert (Hcol : col = x) by congruence end. clear H. subst col. cbn [c_fys c_drs]. exact (@loops_sampled Mx My F h v HMx HMy Eh Ev). }
  destruct Hs as (Hs & q0 & Hq0 & Hq0').
  assert (At : forall i a b, nth_error (c_fys col) i = Some a -> nth_error (c_drs col) i = Some b -> sampled a b).
  { clear - Hs. induction Hs; intros [|i] a b; cbn; try discriminate; intros; [congruence|eauto]. }
  assert (All : forall b, In b (c_drs col) -> exists q, b = XFin q /\ 0 < q).
  { clear - Hs Hc. induction Hs; [intros b []|]. intros b [<-|Hb]; [|eauto]. destruct H as [fx fy Hx Hy _|fx fy Hy Hx _]; eexists; split; try reflexivity.
    - apply Rlt_le_trans with (fx * c); [nra|apply d_major_ge_x; lra].
    - apply Rlt_le_trans with (fy * c); [nra|apply d_major_ge_y; lra]. }
  assert (Hr' := nth_error_In _ _ Hr). assert (Sm := At _ _ _ Hfy Hr). destruct (All _ Hr') as (r0 & Er0 & Hr0).
  assert (Least : forall q, In (XFin q) (c_drs col) -> r0 <= q).
  { intros q Hq. specialize (Hmin ltac:(rewrite Er0; discriminate) _ Hq ltac:(discriminate)). rewrite Er0 in Hmin. destruct Hmin as [Hmin|[Hmin _]]; [cbn in Hmin; lra|injection Hmin; lra]. }
  exists r0. split; [|split; [rewrite <- Er0; auto|split; auto; intros r' Hr''; destruct (All _ Hr'') as (q & -> & _); eauto]].
  rewrite Hm. f_equal. unfold disk_radius. rewrite HE. destruct Sm as [fx fy Hx Hy Efy|fx fy Hy Hx Efx].
  - assert (Efx : determine_fx (XFin fy) (XFin dy) = XFin fx).
    { destruct (Req_EM_T dy 0) as [Ed|Ed]; [|apply fx_of_fy; auto; lra]. specialize (Hz Ed).
      assert (fx = 1).
      { specialize (Least _ Hq0). injection Er0 as <-. assert (G := @d_major_ge_x fx fy s c ltac:(lra) Hy Hc). rewrite Hz, Rabs_R0 in Hq0'. apply Rle_antisym; auto.
        apply (Rmult_le_reg_r c); auto. lra. }
      subst fx. rewrite fy_one in Efy. injection Efy as <-. rewrite Ed, fx_xr. cbn zeta. destruct (Rle_dec _ 0); [exfalso; lra|]. f_equal.
      replace (1 / _) with 1 by field. rewrite sqrt_1. lra. }
    rewrite Efx, major_radius by lra. congruence.
  - rewrite Efx, major_radius by lra. congruence.
Qed.
End X.
