(** The disks of the grid that load builds first. *)
From Coq Require Import ZArith Reals List Bool String Lia Lra Psatz.
From Verif Require Import Num NumP Py SpecNum Validate ValidateP Ring RingP RingSystem XLibm FS FSP GridParams SpecGrid GridParamsP GridParamsXP
  Names GridProp SpecProp GridPropP Geometry SpecGeom GeomP GeomMoreP EdgeP Build SpecBuild BuildP BuildQP StretchP BuildXP InterpP Shallot BuildGP BuildGridP BuildCP BuildDP BuildEP BuildFP BuildHP BuildExP ColumnP SaveExP WholeP WholeOP SpecError WholeEP.
Import ListNotations.
Set Implicit Arguments.
Local Open Scope R_scope.

Theorem grid_casts (E : env xr) nf n mnx mxx nx mny mxy ny mxr nr g x0 x1 y0 y1 r1 ll keep inter og l s :
  e_libm E = Libm_xr -> brackets (e_search E) -> num_index nf = Ok n -> (2 <= n)%nat ->
  Forall small [mnx; mxx; nx; mny; mxy; ny; mxr; nr] ->
  value mnx = XFin x0 -> value mxx = XFin x1 -> value mny = XFin y0 -> value mxy = XFin y1 -> value mxr = XFin r1 ->
  new_params mnx mxx nx mny mxy ny mxr nr = Ok g -> (2 <= zof nx)%Z -> (2 <= zof ny)%Z -> (2 * zof nx <= 2 ^ 53)%Z -> (2 * zof ny <= 2 ^ 53)%Z ->
  1 <= x1 -> 1 <= y1 -> new_shallot E (EIs g) nf ll keep inter = (og, (l, Ok s)) ->
  let p := s_params s in
  let at_ w i j k := cell (List.length (g_dx p)) (List.length (g_rfa p)) (p_data (cube_of w s)) i j k in
  forall i j k dy dx, nth_error (g_dy p) i = Some (XFin dy) -> nth_error (g_dx p) j = Some (XFin dx) -> (k < List.length (g_rfa p))%nat ->
    (dy <> 0 -> exists fx fy r ic t, casts_eclipse dx dy fx fy r ic t /\
       at_ WFx i j k = Some (XFin fx) /\ at_ WFy i j k = Some (XFin fy) /\
       at_ WRadius i j k = Some (XFin r) /\ at_ WInclination i j k = Some (XFin ic) /\ at_ WTilt i j k = Some (XFin t)) /\
    (dy = 0 -> dx <> 0 -> forall w, at_ w i j k = Some XNaN).
Proof.
  intros HE HS Hnf Hn Sml V1 V2 V3 V4 V5 Hg Nx Ny Bx By H1x H1y H p at_ i j k dy dx Hi Hj Hk.
  destruct (@grid_disks E HE HS nf n Hnf Hn mnx mxx nx mny mxy ny mxr nr g x0 x1 y0 y1 r1 Sml V1 V2 V3 V4 V5 Hg Nx Ny Bx By H1x H1y ll keep inter og l s H i j k dy dx Hi Hj Hk) as [A B].
  split; [|exact B]. intros Hd. destruct (A Hd) as (fx & fy & r & ic & t & C & Hw). exists fx, fy, r, ic, t. split; [exact C|].
  exact (conj (Hw WFx) (conj (Hw WFy) (conj (Hw WRadius) (conj (Hw WInclination) (Hw WTilt))))).
Qed.

(** the axes of that grid *)
Lemma dummy_grid og l s : dummy env_xr = (og, (l, Ok s)) -> exists g, 
  new_params (PInt 0) (PInt 1) (PInt 2) (PInt 0) (PInt 1) (PInt 2) (PInt 2) (PInt 2) = Ok g /\
  new_shallot env_xr (EIs g) (PInt 100) (PInt 50) (PBool false) (PBool false) = (og, (l, Ok s)) /\
  (forall i, (i < 3)%nat -> nth_error (g_dy (s_params s)) i = Some (XFin (INR i - 1)) /\ nth_error (g_dx (s_params s)) i = Some (XFin (INR i - 1))) /\
  g_rf (s_params s) = [XFin 1; XFin 2] /\ List.length (g_rfa (s_params s)) = 3%nat.
Proof.
  intros H. destruct dummy_params as [g Hg]. unfold dummy in H. rewrite Hg in H. exists g. split; auto. split; auto.
  assert (Sml : Forall (@small xr) [PInt 0; PInt 1; PInt 2; PInt 0; PInt 1; PInt 2; PInt 2; PInt 2]) by (repeat constructor; cbn; lia).
  assert (V : forall z, value (PInt z : pyval xr) = XFin (IZR z)) by reflexivity.
  destruct (new_params_spaced Sml (V 0%Z) (V 1%Z) (V 0%Z) (V 1%Z) (V 2%Z) Hg) as (_ & _ & _ & Sx & _ & Sy & _ & Sr & _ & Ex).
  assert (Eg : g_ext g = true) by (apply Ex; auto).
  assert (Hr : reachable g) by (eapply rc_new; exact Hg).
  destruct (@constructor_reflects xr _ _ env_xr g _ _ _ _ _ _ _ Hr Eg H) as (Hx & _).
  assert (Nx : (2 <= zof (PInt 2 : pyval xr))%Z) by (cbn; lia). assert (Bx : (2 * zof (PInt 2 : pyval xr) <= 2 ^ 53)%Z) by (cbn; lia).
  destruct (@extend_mirrors _ _ _ _ _ _ _ _ g _ _ _ _ Sml (V 0%Z) (V 1%Z) (V 0%Z) (V 1%Z) Hg Eg Nx Nx Bx Bx) as (g' & Hx' & Mx & My & Hrf & Hrfa & _).
  rewrite Hx in Hx'. apply pair_equal_spec in Hx' as [Hp _]. subst g'.
  assert (Sp : forall a b, spaced a b 2 0 = a /\ spaced a b 2 1 = b) by (intros a b; unfold spaced; change (2 - 1)%nat with 1%nat; cbn [INR]; split; field).
  assert (F : forall l m, equally_spaced l 0 1 2 -> mirrored l m -> forall i, (i < 3)%nat -> nth_error m i = Some (XFin (INR i - 1))).
  { intros l0 m [Hl Hi] [_ Hm] i Hi3. destruct (Sp 0 1) as [S0 S1]. assert (K0 := Hi 0%nat ltac:(lia)). assert (K1 := Hi 1%nat ltac:(lia)). rewrite S0 in K0. rewrite S1 in K1.
    apply Hm in K0 as [K0 _]. apply Hm in K1 as [K1 K2]. rewrite Hl in *. cbn [Nat.sub Nat.add] in *.
    destruct i as [|[|[|i]]]; [| | |lia]; cbn [INR]; [rewrite K2|rewrite K0|rewrite K1]; do 2 f_equal; ring. }
  split; [intros i Hi; split; [exact (F _ _ (Sy Nx) My i Hi)|exact (F _ _ (Sx Nx) Mx i Hi)]|].
  destruct (new_params_sizes Sml Hg) as (_ & _ & L1 & L2 & _). cbn [zof] in L1, L2. rewrite Hrf, Hrfa. split; [|lia].
  destruct (Sr Nx) as [Hl Hi]. assert (K0 := Hi 0%nat ltac:(cbn; lia)). assert (K1 := Hi 1%nat ltac:(cbn; lia)). cbn [zof] in *. change (Z.to_nat 2) with 2%nat in *.
  destruct (Sp 1 2) as [S0 S1]. rewrite S0 in K0. rewrite S1 in K1.
  destruct (g_rf g) as [|a [|b [|? ?]]]; try (cbn in Hl; lia). cbn in K0, K1. congruence.
Qed.
Theorem dummy_disk : exists og l s, dummy env_xr = (og, (l, Ok s)) /\
  exists fx fy r ic t, casts_eclipse (-1) (-1) fx fy r ic t /\
    nth_error (p_data (cube_of WRadius s)) 0 = Some (XFin r) /\ nth_error (p_data (cube_of WInclination s)) 0 = Some (XFin ic) /\
    nth_error (p_data (cube_of WTilt s)) 0 = Some (XFin t).
Proof.
  destruct (@dummy_builds env_xr eq_refl) as (og & l & s & H); [cbn; lia|]. exists og, l, s. split; [exact H|].
  destruct (dummy_grid H) as (g & Hg & Hs & Ax & _ & Lr).
  assert (Sml : Forall (@small xr) [PInt 0; PInt 1; PInt 2; PInt 0; PInt 1; PInt 2; PInt 2; PInt 2]) by (repeat constructor; cbn; lia).
  assert (V : forall z, value (PInt z : pyval xr) = XFin (IZR z)) by reflexivity.
  assert (Nx : (2 <= zof (PInt 2 : pyval xr))%Z) by (cbn; lia). assert (Bx : (2 * zof (PInt 2 : pyval xr) <= 2 ^ 53)%Z) by (cbn; lia).
  destruct (Ax 0%nat ltac:(lia)) as [A1 A2]. cbn [INR] in A1, A2. replace (0 - 1) with (-1) in A1, A2 by ring.
  destruct (@grid_casts env_xr (PInt 100) 100%nat _ _ _ _ _ _ _ _ g _ _ _ _ _ _ _ _ _ _ _ eq_refl (np_search_brackets (T := xr)) eq_refl ltac:(lia)
     Sml (V 0%Z) (V 1%Z) (V 0%Z) (V 1%Z) (V 2%Z) Hg Nx Nx Bx Bx (Rle_refl 1) (Rle_refl 1) Hs 0%nat 0%nat 0%nat (-1) (-1) A1 A2) as [C _]; [lia|].
  destruct C as (fx & fy & r & ic & t & C & _ & _ & B1 & B2 & B3); [lra|]. exists fx, fy, r, ic, t. split; [exact C|]. exact (conj B1 (conj B2 B3)).
Qed.

(** the origin of that grid *)
Theorem dummy_origin : exists og l s, dummy env_xr = (og, (l, Ok s)) /\
  g_rf (s_params s) = [XFin 1; XFin 2] /\ nth_error (g_dy (s_params s)) 1 = Some (XFin 0) /\ nth_error (g_dx (s_params s)) 1 = Some (XFin 0) /\
  cell 3 3 (p_data (cube_of WRadius s)) 1 1 1 = Some (XFin (/ 2)) /\ cell 3 3 (p_data (cube_of WRadius s)) 1 1 2 = Some (XFin 1) /\
  (cell 3 3 (p_data (cube_of WRadius s)) 1 1 0 = Some (XFin (/ 2)) \/ cell 3 3 (p_data (cube_of WRadius s)) 1 1 0 = Some XNaN).
Proof.
  destruct (@dummy_builds env_xr eq_refl) as (og & l & s & H); [cbn; lia|]. exists og, l, s. split; [exact H|].
  destruct (dummy_grid H) as (g & Hg & Hs & Ax & Rf & Lr).
  assert (Sml : Forall (@small xr) [PInt 0; PInt 1; PInt 2; PInt 0; PInt 1; PInt 2; PInt 2; PInt 2]) by (repeat constructor; cbn; lia).
  assert (V : forall z, value (PInt z : pyval xr) = XFin (IZR z)) by reflexivity.
  assert (Nx : (2 <= zof (PInt 2 : pyval xr))%Z) by (cbn; lia). assert (Bx : (2 * zof (PInt 2 : pyval xr) <= 2 ^ 53)%Z) by (cbn; lia).
  split; [exact Rf|]. destruct (Ax 1%nat ltac:(lia)) as [A1 A2]. cbn [INR] in A1, A2. replace (1 - 1) with 0 in A1, A2 by ring. split; [exact A1|]. split; [exact A2|].
  assert (Lx : List.length (g_dx (s_params s)) = 3%nat).
  { assert (Hre : reachable g) by (eapply rc_new; exact Hg). destruct (new_params_spaced Sml (V 0%Z) (V 1%Z) (V 0%Z) (V 1%Z) (V 2%Z) Hg) as (_ & _ & _ & _ & _ & _ & _ & _ & _ & Ex).
    assert (Eg : g_ext g = true) by (apply Ex; auto). destruct (@constructor_reflects xr _ _ env_xr g _ _ _ _ _ _ _ Hre Eg Hs) as (Hx & _).
    destruct (@extend_mirrors _ _ _ _ _ _ _ _ g _ _ _ _ Sml (V 0%Z) (V 1%Z) (V 0%Z) (V 1%Z) Hg Eg Nx Nx Bx Bx) as (g' & Hx' & [Mx _] & _).
    rewrite Hx in Hx'. apply pair_equal_spec in Hx' as [Hp _]. subst g'. rewrite Mx. destruct (new_params_sizes Sml Hg) as (L & _). cbn [zof] in L. lia. }
  destruct (@grid_origin env_xr eq_refl (np_search_brackets (T := xr)) (PInt 100) 100%nat eq_refl ltac:(lia) _ _ _ _ _ _ _ _ g _ _ _ _ _
     Sml (V 0%Z) (V 1%Z) (V 0%Z) (V 1%Z) (V 2%Z) Hg Nx Nx Bx Bx _ _ _ _ _ _ (Rle_refl 1) (Rle_refl 1) ltac:(lra) Hs 1%nat 1%nat A1 A2) as (D1 & b & Hb & Hq).
  rewrite Lx, Lr in *. assert (E2 : nth_error (g_rf (s_params s)) 1 = Some (XFin 2)) by (rewrite Rf; reflexivity).
  destruct (Hq 1%nat 2 ltac:(lia) E2) as (Dr & Dl & Dn). rewrite Rf in *. cbn [List.length Nat.sub Nat.add] in *.
  split; [apply D1|]. split; [destruct Dr as (_ & _ & Dr & _); rewrite Dr; do 2 f_equal; field|].
  destruct (Rlt_le_dec 2 b) as [L|L]; [left; destruct (Dl L) as (_ & _ & X & _); exact X|right; apply (proj2 (Dn L)); discriminate].
Qed.
Theorem origin_fraction_refuted : ~ (forall og l s, dummy env_xr = (og, (l, Ok s)) -> forall i j e q r,
  nth_error (g_rf (s_params s)) e = Some (XFin q) -> cell 3 3 (p_data (cube_of WRadius s)) i j 1 = Some (XFin r) ->
  exists r', cell 3 3 (p_data (cube_of WRadius s)) i j (1 - e) = Some (XFin r') /\ Rabs (r' - q * r) < / 2).
Proof.
  intros H. destruct dummy_origin as (og & l & s & Hs & Rf & _ & _ & Hm & _ & Hl).
  destruct (H og l s Hs 1%nat 1%nat 1%nat 2 (/ 2)) as (r' & Hr & Ha); [rewrite Rf; reflexivity|exact Hm|]. change (1 - 1)%nat with 0%nat in Hr.
  destruct Hl as [Hl|Hl]; rewrite Hl in Hr; [|discriminate]. injection Hr as <-. rewrite Rabs_left in Ha by lra. lra.
Qed.

(** the accuracy of that grid at the corner dx = dy = -1 *)
Lemma dummy_resolution : 0 <= resolution 100 1 1 (-1) (-1) <= 7 / 100.
Proof.
  unfold resolution. replace (-1 / -1) with 1 by field. rewrite (Rabs_pos_eq 1) by lra. change (100 - 1)%nat with 99%nat. rewrite INR_IZR_INZ. change (Z.of_nat 99) with 99%Z.
  replace (-1 * -1) with 1 by ring. rewrite Rmax_right by lra. assert (S := sqrt_pos (/ 2 * / 2 + 1)).
  assert (B : sqrt (/ 2 * / 2 + 1) <= 112 / 100). { apply Rle_trans with (sqrt (112 / 100 * (112 / 100))); [apply sqrt_le_1_alt; lra|right; apply sqrt_square; lra]. }
  lra.
Qed.
Theorem dummy_error : exists og l s, dummy env_xr = (og, (l, Ok s)) /\ exists m r r',
  nth_error (p_data (cube_of WRadius s)) 0 = Some (XFin r) /\ nth_error (p_data (cube_of WRadius s)) 1 = Some (XFin m) /\ nth_error (p_data (cube_of WRadius s)) 2 = Some (XFin r') /\
  Rabs (r - 2 * m) <= 14 / 100 /\ Rabs (r' - 2 * m) <= 14 / 100 /\
  (exists ra ia ta, eclipsing_disk (-1) (-1) ra ia ta) /\ forall ra ia ta, eclipsing_disk (-1) (-1) ra ia ta -> m <= ra + 7 / 100.
Proof.
  destruct dummy_disk as (og & l & s & H & fx & fy & r0 & ic & t & (_ & _ & P1 & P2 & P3 & P4 & _) & _). exists og, l, s. split; [exact H|].
  destruct (dummy_grid H) as (g & Hg & Hs & Ax & Rf & Lr).
  assert (Sml : Forall (@small xr) [PInt 0; PInt 1; PInt 2; PInt 0; PInt 1; PInt 2; PInt 2; PInt 2]) by (repeat constructor; cbn; lia).
  assert (V : forall z, value (PInt z : pyval xr) = XFin (IZR z)) by reflexivity.
  assert (Nx : (2 <= zof (PInt 2 : pyval xr))%Z) by (cbn; lia). assert (Bx : (2 * zof (PInt 2 : pyval xr) <= 2 ^ 53)%Z) by (cbn; lia).
  destruct (Ax 0%nat ltac:(lia)) as [A1 A2]. cbn [INR] in A1, A2. replace (0 - 1) with (-1) in A1, A2 by ring.
  destruct (@grid_error env_xr eq_refl (np_search_brackets (T := xr)) (PInt 100) 100%nat eq_refl ltac:(lia) _ _ _ _ _ _ _ _ g _ _ _ _ _
     Sml (V 0%Z) (V 1%Z) (V 0%Z) (V 1%Z) (V 2%Z) Hg Nx Nx Bx Bx _ _ _ _ _ _ (Rle_refl 1) (Rle_refl 1) Hs 0%nat 0%nat (-1) (-1) A1 A2 ltac:(lra)) as (m & Hm & Least & Sides).
  assert (D := dummy_resolution). assert (E2 : nth_error (g_rf (s_params s)) 1 = Some (XFin 2)) by (rewrite Rf; reflexivity). rewrite Rf in Hm, Sides. cbn [List.length Nat.sub Nat.add] in Hm, Sides.
  destruct (Sides 1%nat 2 0%nat eq_refl (or_intror eq_refl)) as (r & Hr & B1). destruct (Sides 1%nat 2 2%nat eq_refl (or_introl eq_refl)) as (r' & Hr' & B2).
  exists m, r, r'. split; [exact Hr|]. split; [exact Hm|]. split; [exact Hr'|]. split; [lra|]. split; [lra|]. split; [exists r0, ic, t; exact (conj P1 (conj P2 (conj P3 P4)))|].
  intros ra ia ta Hd. assert (L : exists e q, nth_error (g_rf (s_params s)) e = Some (XFin q) /\ 1 < q) by (exists 1%nat, 2; split; [exact E2|lra]).
  specialize (Least L ra ia ta Hd). lra.
Qed.
