(** The grids that the constructor builds can be searched. *)
From Coq Require Import ZArith Reals List Bool String Lia Lra.
From Verif Require Import Num NumP Py SpecNum Validate ValidateP XLibm Ring RingP RingSystem FS GridParams SpecGrid GridParamsP GridParamsXP GridProp SpecProp Names Geometry SpecGeom SpecError GeomP GeomMoreP
  Build SpecBuild BuildXP InterpP Shallot BuildGP BuildGridP BuildCP BuildDP BuildEP BuildFP BuildHP BuildExP ColumnP SaveExP WholeP WholeOP WholeExP AddLaws ShallotOps SpecOps OpsP OpsReadP OpsWrapP SpecSearch TangentP SearchP.
Import ListNotations.
Set Implicit Arguments.
Local Open Scope R_scope.

Lemma slope_le vx vy : Rabs vy / sqrt (vx * vx + vy * vy) <= 1.
Proof.
  destruct (Req_dec vy 0) as [->|Hy]; [rewrite Rabs_R0; unfold Rdiv; rewrite Rmult_0_l; lra|].
  assert (P : 0 < vx * vx + vy * vy) by nra. apply Rmult_le_reg_r with (sqrt (vx * vx + vy * vy)); [now apply sqrt_lt_R0|]. unfold Rdiv. rewrite Rmult_assoc, Rinv_l, Rmult_1_r, Rmult_1_l by (apply Rgt_not_eq, sqrt_lt_R0, P).
  rewrite <- sqrt_Rsqr_abs. apply sqrt_le_1_alt. unfold Rsqr. nra.
Qed.
Section B.
Context (E : env xr) (HE : e_libm E = Libm_xr) (HS : brackets (e_search E)) (nf : pyval xr) (n : nat) (Hnf : num_index nf = Ok n) (Hn : (2 <= n)%nat).
Context (mnx mxx nx mny mxy ny mxr nr : pyval xr) (g : gparams xr) (x0 x1 y0 y1 r1 : R).
Context (Sml : Forall small [mnx; mxx; nx; mny; mxy; ny; mxr; nr])
  (V1 : value mnx = XFin x0) (V2 : value mxx = XFin x1) (V3 : value mny = XFin y0) (V4 : value mxy = XFin y1) (V5 : value mxr = XFin r1)
  (Hg : new_params mnx mxx nx mny mxy ny mxr nr = Ok g) (Nx : (2 <= zof nx)%Z) (Ny : (2 <= zof ny)%Z) (Bx : (2 * zof nx <= 2 ^ 53)%Z) (By : (2 * zof ny <= 2 ^ 53)%Z).

Definition all_fin (l : list xr) : Prop := forall i, (i < List.length l)%nat -> exists a, nth_error l i = Some (XFin a).
Lemma mirrored_fin l m : all_fin l -> mirrored l m -> all_fin m.
Proof.
  intros F [Hl Hm] i Hi. rewrite Hl in Hi. destruct (le_lt_dec (List.length l - 1) i) as [L|L].
  - destruct (F (i - (List.length l - 1))%nat) as [a Ha]; [lia|]. destruct (Hm _ _ Ha) as [A _]. replace (List.length l - 1 + (i - (List.length l - 1)))%nat with i in A by lia. eauto.
  - destruct (F (List.length l - 1 - i)%nat) as [a Ha]; [lia|]. destruct (Hm _ _ Ha) as [_ A]. replace (List.length l - 1 - (List.length l - 1 - i))%nat with i in A by lia. exists (- a). exact A.
Qed.
Lemma spaced_all l a b k : equally_spaced l a b k -> all_fin l.
Proof. intros [Hl Hi] i L. rewrite Hl in L. eauto. Qed.
Lemma built_axes ll keep inter og l s : new_shallot E (EIs g) nf ll keep inter = (og, (l, Ok s)) ->
  all_fin (g_dx (s_params s)) /\ all_fin (g_dy (s_params s)) /\ g_rf (s_params s) = g_rf g /\ List.length (g_rfa (s_params s)) = List.length (g_rfa g).
Proof.
  intros H. destruct (new_params_spaced Sml V1 V2 V3 V4 V5 Hg) as (_ & _ & _ & Sx & _ & Sy & _ & _ & _ & Ex). specialize (Sx Nx). specialize (Sy Ny). apply spaced_all in Sx, Sy.
  assert (Hr : reachable g) by (eapply rc_new; exact Hg). destruct (g_ext g) eqn:Eg.
  - destruct (@constructor_reflects xr _ _ E g nf ll keep inter og l s Hr Eg H) as (Hx & _).
    destruct (@extend_mirrors mnx mxx nx mny mxy ny mxr nr g x0 x1 y0 y1 Sml V1 V2 V3 V4 Hg Eg Nx Ny Bx By) as (g' & Hx' & Mx & My & Hrf & Hrfa & _).
    rewrite Hx in Hx'. apply pair_equal_spec in Hx' as [Hp _]. subst g'. rewrite Hrf, Hrfa. split; [exact (mirrored_fin Sx Mx)|]. split; [exact (mirrored_fin Sy My)|]. auto.
  - assert (Hp := reachable_proper Hr). apply constructor_result in H as (_ & [_ _ _ _ _ _ _ _ Hd] & _); auto. destruct Hd as [(_ & Ep & Hd)|(X & _)]; [|congruence]. rewrite Ep. auto.
Qed.
Theorem built_disks ll keep inter og l s : 1 <= x1 -> 1 <= y1 -> 1 < r1 -> new_shallot E (EIs g) nf ll keep inter = (og, (l, Ok s)) -> disk_grid s.
Proof.
  intros H1x H1y H1r H. destruct (built_axes _ _ _ H) as (Fx & Fy & Rf & Lr). unfold disk_grid. intros y x k Hy Hx Hk. destruct (Fx x Hx) as [dx Dx]. destruct (Fy y Hy) as [dy Dy].
  exists dx, dy. split; [exact Dy|]. split; [exact Dx|].
  destruct (@grid_casts E nf n _ _ _ _ _ _ _ _ g _ _ _ _ _ _ _ _ _ _ _ HE HS Hnf Hn Sml V1 V2 V3 V4 V5 Hg Nx Ny Bx By H1x H1y H y x k dy dx Dy Dx Hk) as [A B].
  destruct (Req_dec dy 0) as [Z|Z].
  - destruct (Req_dec dx 0) as [Z'|Z']; [|left; exact (B Z Z' WRadius)]. subst dy dx.
    destruct (@grid_origin E HE HS nf n Hnf Hn _ _ _ _ _ _ _ _ g _ _ _ _ _ Sml V1 V2 V3 V4 V5 Hg Nx Ny Bx By _ _ _ _ _ _ H1x H1y H1r H y x Dy Dx) as (D1 & b & Hb & Hq).
    destruct (@grid_fractions n Hn _ _ _ _ _ _ _ _ g _ _ _ _ _ Sml V1 V2 V3 V4 V5 Hg) as (rf & Erf & Hne & Hl & _).
    rewrite Rf, Erf, map_length in *.
    set (mid := (List.length rf - 1)%nat) in *.
    assert (Lf : (1 <= List.length rf)%nat) by (destruct rf; [congruence|cbn; lia]).
    assert (Q : forall e, (1 <= e < List.length rf)%nat -> exists q, nth_error (map XFin rf) e = Some (XFin q)).
    { intros e He. destruct (nth_error rf e) as [q|] eqn:Eq; [|apply nth_error_None in Eq; lia]. exists q. now rewrite nth_error_map, Eq. }
    destruct (lt_eq_lt_dec k mid) as [[L|L]|L].
    + destruct (Q (mid - k)%nat) as [q Hq1]; [unfold mid in *; lia|]. destruct (Hq (mid - k)%nat q ltac:(lia) Hq1) as (_ & Dl & Dn). replace (mid - (mid - k))%nat with k in Dl, Dn by lia.
      destruct (Rlt_le_dec q b) as [Lq|Lq]; [|left; apply (proj2 (Dn Lq)); discriminate]. right. split; [auto|]. destruct (Dl Lq) as (F1 & F2 & F3 & ic & t & F4 & F5 & F6). eexists 1, _, _, ic, t. split; [exact F6|]. auto.
    + subst k. right. split; [auto|]. destruct D1 as (F1 & F2 & F3 & ic & t & F4 & F5 & F6). eexists 1, 1, _, ic, t. split; [exact F6|]. auto.
    + destruct (Q (k - mid)%nat) as [q Hq1]; [unfold mid in *; lia|]. destruct (Hq (k - mid)%nat q ltac:(lia) Hq1) as (Dr & _). replace (mid + (k - mid))%nat with k in Dr by lia.
      right. split; [auto|]. destruct Dr as (F1 & F2 & F3 & ic & t & F4 & F5 & F6). eexists 1, _, _, ic, t. split; [exact F6|]. auto.
  - right. split; [contradiction|]. exact (A Z).
Qed.

Theorem built_searchable ll keep inter og l s : 1 <= x1 -> 1 <= y1 -> 1 < r1 -> new_shallot E (EIs g) nf ll keep inter = (og, (l, Ok s)) -> searchable E s.
Proof.
  intros H1x H1y H1r H. assert (Hr : reachable g) by (eapply rc_new; exact Hg). split; [exact HE|]. split; [eapply sr_new; [exact Hr|exact H]|]. split; [exact (built_disks _ _ _ H1x H1y H1r H)|].
  apply constructor_result in H as (_ & C & _); [|now apply reachable_proper]. intros c. destruct (cn_plain C c) as (_ & _ & _ & _ & X & _). destruct c; exact X.
Qed.
End B.

(** the gradients of a grid are the sines of the tangents of its disks *)
Theorem grid_gradients (E : env xr) s s' t l e tr u d v D : e_libm E = Libm_xr -> sreach E s -> disk_grid s -> arr_wf t -> arr_wf l -> o_wf e -> o_wf tr ->
  s_limb s = Some u -> s_ecl s = Some d -> s_vel s = Some v -> small d -> numberlike d -> value d = XFin D -> D <> 0 -> add_gradients E t l e tr s = (s', Ok tt) ->
  exists ts new, t = farr ts /\ s_grads s' = Some (dflt [] (s_grads s) ++ new) /\ List.length new = List.length ts /\
  forall n time, nth_error ts n = Some (XFin time) -> exists g, nth_error new n = Some g /\
    forall y x k dx dy r i a, let at_ c := cell (List.length (g_dx (s_params s))) (List.length (g_rfa (s_params s))) (p_data (the_cube c s)) y x k in
      nth_error (g_dy (s_params s)) y = Some (XFin dy) -> nth_error (g_dx (s_params s)) x = Some (XFin dx) -> (k < List.length (g_rfa (s_params s)))%nat ->
      at_ WRadius = Some (XFin r) -> at_ WInclination = Some (XFin i) -> at_ WTilt = Some (XFin a) ->
      exists gv, nth_error (p_data (gg_prop g)) (place s y x k) = Some gv /\
        ((exists q, sine dx dy i a (- time / D) q /\ q < 1 /\ gv = XFin q) \/ gv = XNaN /\ forall q, sine dx dy i a (- time / D) q -> q = 1).
Proof.
  intros HE Hs Hg W1 W2 W3 W4 Hu He Hv Sd Nd Vd D0 Add. destruct (@added _ _ _ _ E s s' t l e tr u d v Hs W1 W2 W3 W4 Hu He Hv Add) as (ts & ls & es & trs & o & new & Et & El & Ee & Etr & L1 & L2 & L3 & Ho & E2 & Ln & Hn).
  exists ts, new. split; [exact Et|]. split; [rewrite E2; reflexivity|]. split; [exact Ln|]. intros n time Ht.
  assert (In_ : forall (m : list xr), List.length m = List.length ts -> exists z, nth_error m n = Some z).
  { intros m Lm. destruct (nth_error m n) as [z|] eqn:Em; [eauto|]. apply nth_error_None in Em. assert (n < List.length ts)%nat by (apply nth_error_Some; congruence). lia. }
  destruct (In_ ls L1) as [lc Hl]. destruct (In_ es L2) as [er Her]. destruct (In_ trs L3) as [tm Htm]. destruct (Hn n _ _ _ _ Ht Hl Her Htm) as (g & Hgn & K). cbv zeta in K.
  exists g. split; [exact Hgn|]. destruct K as (_ & _ & _ & _ & _ & _ & _ & _ & K). intros y x k dx dy r i a at_ Hy Hx Hk Hr Hi Ha.
  assert (Ry : (y < List.length (g_dy (s_params s)))%nat) by (apply nth_error_Some; congruence). assert (Rx : (x < List.length (g_dx (s_params s)))%nat) by (apply nth_error_Some; congruence).
  destruct (Hg y x k Ry Rx Hk) as (dx' & dy' & Hy' & Hx' & Hd). rewrite Hy in Hy'. rewrite Hx in Hx'. injection Hy' as <-. injection Hx' as <-.
  destruct Hd as [Hd|(O & fx & fy & r' & i' & a' & C & Hfx & Hfy & Hr' & Hi' & Ha')]; [unfold at_ in Hr; rewrite Hd in Hr; discriminate|]. unfold at_ in *.
  rewrite Hr in Hr'. rewrite Hi in Hi'. rewrite Ha in Ha'. injection Hr' as <-. injection Hi' as <-. injection Ha' as <-.
  destruct (K y x k _ _ _ _ Hy Hx Hk Hfx Hfy) as (gv & Eg & G & _). exists gv. split; [exact G|].
  assert (Qd := @num_of_value xr _ _ d Nd Sd). change (num_of d = value d) in Qd. rewrite Vd in Qd.
  replace (n_div (n_neg (XFin time)) (num_of d)) with (XFin (- time / D)) in Eg by (rewrite Qd; cbn [n_div n_neg Num_xr x_neg]; rewrite xdiv by auto; reflexivity). rewrite HE in Eg.
  destruct (@cast_nan dx dy fx fy O (- time / D)) as [N|[q G']].
  - right. split; [congruence|]. intros q (vx & vy & Ht' & ->). assert (Cv := cast_value C O (- time / D) (Rabs vy / sqrt (vx * vx + vy * vy))). 
    destruct (Rlt_le_dec (Rabs vy / sqrt (vx * vx + vy * vy)) 1) as [L|L]; [rewrite (proj2 Cv) in N; [discriminate|split; [exists vx, vy; auto|exact L]]|]. apply Rle_antisym; [|exact L].
    apply slope_le.
  - left. exists q. destruct (proj1 (cast_value C O _ _) G') as [S L]. split; [exact S|]. split; [exact L|]. congruence.
Qed.

(** the grid of load can be searched *)
Lemma dummy_searchable og l s : dummy env_xr = (og, (l, Ok s)) -> searchable env_xr s /\
  (forall i, (i < 3)%nat -> nth_error (g_dy (s_params s)) i = Some (XFin (INR i - 1)) /\ nth_error (g_dx (s_params s)) i = Some (XFin (INR i - 1))) /\
  List.length (g_dy (s_params s)) = 3%nat /\ List.length (g_dx (s_params s)) = 3%nat /\ List.length (g_rfa (s_params s)) = 3%nat.
Proof.
  intros H. destruct (dummy_grid H) as (g & Hg & Hs & Ax & Rf & Lr).
  assert (Sml : Forall (@small xr) [PInt 0; PInt 1; PInt 2; PInt 0; PInt 1; PInt 2; PInt 2; PInt 2]) by (repeat constructor; cbn; lia).
  assert (V : forall z, value (PInt z : pyval xr) = XFin (IZR z)) by reflexivity.
  assert (Nx : (2 <= zof (PInt 2 : pyval xr))%Z) by (cbn; lia). assert (Bx : (2 * zof (PInt 2 : pyval xr) <= 2 ^ 53)%Z) by (cbn; lia).
  split; [|split; [exact Ax|]].
  - exact (@built_searchable env_xr eq_refl (np_search_brackets (T := xr)) (PInt 100) 100%nat eq_refl ltac:(lia) _ _ _ _ _ _ _ _ g _ _ _ _ _ Sml (V 0%Z) (V 1%Z) (V 0%Z) (V 1%Z) (V 2%Z) Hg Nx Nx Bx Bx _ _ _ _ _ _ (Rle_refl 1) (Rle_refl 1) ltac:(lra) Hs).
  - destruct (new_params_sizes Sml Hg) as (L1 & L2 & _). cbn [zof] in L1, L2.
    destruct (new_params_spaced Sml (V 0%Z) (V 1%Z) (V 0%Z) (V 1%Z) (V 2%Z) Hg) as (_ & _ & _ & Sx & _ & Sy & _ & Sr & _ & Ex).
    assert (Eg : g_ext g = true) by (apply Ex; auto). assert (Hr : reachable g) by (eapply rc_new; exact Hg).
    destruct (@constructor_reflects xr _ _ env_xr g _ _ _ _ _ _ _ Hr Eg Hs) as (Hx & _).
    destruct (@extend_mirrors _ _ _ _ _ _ _ _ g _ _ _ _ Sml (V 0%Z) (V 1%Z) (V 0%Z) (V 1%Z) Hg Eg Nx Nx Bx Bx) as (g' & Hx' & Mx & My & _).
    rewrite Hx in Hx'. apply pair_equal_spec in Hx' as [Hp _]. subst g'. destruct Mx as [Mx _]. destruct My as [My _]. split; [rewrite My|split; [rewrite Mx|exact Lr]]; lia.
Qed.
Lemma one_setting hill : 0 <= hill -> settings (PInt 1 : pyval xr) (PInt 1) (PInt 0) (PFloat (XFin hill)) 1 1 0 hill.
Proof.
  intros H0. assert (N : forall z, numberlike (PInt z : pyval xr)) by (intros; left; constructor). assert (F : numberlike (PFloat (XFin hill))) by (right; constructor).
  split; [repeat constructor; cbn [small]; lia|]. split; [repeat constructor; assumption || apply N|]. repeat (split; [reflexivity|]). split; [lra|]. split; [lra|]. split; [lra|]. exact H0.
Qed.
Lemma corner_sine fx fy r i t : casts_eclipse (-1) (-1) fx fy r i t -> exists g, sine (-1) (-1) i t (- / 2) g /\ 0 < g < 1.
Proof.
  intros C. assert (C' := C). destruct C' as (Fx & Fy & Fr & _).
  assert (O : -1 = 0 -> -1 = 0) by lra.
  destruct (@cast_nan (-1) (-1) fx fy O (- / 2)) as [N|[g G]].
  { exfalso. rewrite cast_shear in N by exact O. apply gradient_nan in N. replace (- -1 / -1) with (-1) in N by field. nra. }
  destruct (proj1 (cast_value C O _ _) G) as [Sg Lg].
  assert (G0 : 0 < g).
  { rewrite cast_shear in G by exact O. replace (- -1 / -1) with (-1) in G by field. rewrite gradient_xr in G. cbv zeta in G.
    destruct (Req_EM_T _ 0) as [|_]; [discriminate|]. injection G as <-. apply Rabs_pos_lt, Rgt_not_eq. match goal with |- sin (atan ?z) > 0 => assert (Z : 0 < z) end.
    { apply Rdiv_lt_0_compat; nra. }
    apply sin_gt_0; [rewrite <- atan_0; apply atan_increasing; exact Z|]. match goal with |- atan ?z < _ => destruct (atan_bound z) end. assert (Q := PI_RGT_0). lra. }
  exists g. auto.
Qed.
Theorem sine_example : exists fx fy r i t g, casts_eclipse (-1) (-1) fx fy r i t /\ sine (-1) (-1) i t (- / 2) g /\ 0 < g < 1.
Proof. destruct dummy_disk as (og & l & s & _ & fx & fy & r & i & t & C & _). destruct (corner_sine C) as (g & G). exists fx, fy, r, i, t, g. auto. Qed.
(** a gradient explained by the disk at its corner *)
Theorem search_example : exists og l s o hill r i t chi, dummy env_xr = (og, (l, Ok s)) /\ searchable env_xr s /\
  settings (PInt 1 : pyval xr) (PInt 1) (PInt 0) (PFloat (XFin hill)) 1 1 0 hill /\ Forall (measurable 0 1) [o] /\ 0 < o_slope o /\ 0 < o_err o /\
  found s true 1 0 1 hill [o] (0, 0, 0)%nat (-1) (-1) r i t chi.
Proof.
  destruct (@dummy_builds env_xr eq_refl) as (og & l & s & H); [cbn; lia|]. destruct (dummy_searchable H) as (Hs & Ax & Ly & Lx & Lr). destruct (dummy_grid H) as (gp & Hg & Hd & _).
  destruct (Ax 0%nat ltac:(lia)) as [A1 A2]. cbn [INR] in A1, A2. replace (0 - 1) with (-1) in A1, A2 by ring.
  assert (Sml : Forall (@small xr) [PInt 0; PInt 1; PInt 2; PInt 0; PInt 1; PInt 2; PInt 2; PInt 2]) by (repeat constructor; cbn; lia).
  assert (V : forall z, value (PInt z : pyval xr) = XFin (IZR z)) by reflexivity.
  assert (Nx : (2 <= zof (PInt 2 : pyval xr))%Z) by (cbn; lia). assert (Bx : (2 * zof (PInt 2 : pyval xr) <= 2 ^ 53)%Z) by (cbn; lia).
  destruct (@grid_casts env_xr (PInt 100) 100%nat _ _ _ _ _ _ _ _ gp _ _ _ _ _ _ _ _ _ _ _ eq_refl (np_search_brackets (T := xr)) eq_refl ltac:(lia)
     Sml (V 0%Z) (V 1%Z) (V 0%Z) (V 1%Z) (V 2%Z) Hg Nx Nx Bx Bx (Rle_refl 1) (Rle_refl 1) Hd 0%nat 0%nat 0%nat (-1) (-1) A1 A2) as [C _]; [lia|].
  destruct C as (fx & fy & r & ic & t & C & B1 & B2 & B3 & B4 & B5); [lra|]. assert (C' := C). destruct C' as (Fx & Fy & Fr & _).
  destruct (corner_sine C) as (g & Sg & G0 & Lg).
  assert (Pp := PI_RGT_0). set (o := mkObs (/ 2) (g / PI) 1 1).
  assert (Rq : required 0 1 o = g / 2). { unfold required, orbital. cbn [o_slope o_trans o]. rewrite Rabs_right by (apply Rle_ge; left; apply Rdiv_lt_0_compat; lra). field. lra. }
  exists og, l, s, o, r, r, ic, t, (misfit true 0 1 [o] [g]). split; [exact H|]. split; [exact Hs|]. split; [apply one_setting; lra|].
  assert (Sl : 0 < g / PI) by (apply Rdiv_lt_0_compat; lra).
  split; [constructor; [|constructor]; unfold measurable; rewrite Rq; cbn [o_slope o_err o_trans o]; lra|]. split; [exact Sl|]. split; [cbn; lra|].
  cbn [found]. split; [lia|]. split; [exact A1|]. split; [exact A2|]. split; [exact B3|]. split; [exact B4|]. split; [exact B5|]. split; [lra|].
  exists [g]. split; [|reflexivity]. constructor; [|constructor]. replace (- o_time o / 1) with (- / 2) by (cbn; field). split; [exact Sg|]. split; [exact Lg|]. rewrite Rq. lra.
Qed.
(** a disk with a vertical tangent at the time of a gradient is not found, however small the gradient *)
Theorem vertical_refuted : ~ (forall (E : env xr) a v u h D V U hill os w s s1 s2 s3 s4, searchable E s -> settings a v u h D V U hill -> Forall (measurable U V) os -> searched E a v u h os w s s1 s2 s3 s4 ->
  forall y x k dx dy r i t, let at_ c := cell (List.length (g_dx (s_params s))) (List.length (g_rfa (s_params s))) (p_data (the_cube c s)) y x k in
    nth_error (g_dy (s_params s)) y = Some (XFin dy) -> nth_error (g_dx (s_params s)) x = Some (XFin dx) -> (k < List.length (g_rfa (s_params s)))%nat ->
    at_ WRadius = Some (XFin r) -> at_ WInclination = Some (XFin i) -> at_ WTilt = Some (XFin t) -> r <= hill ->
    Forall (fun o => exists g, sine dx dy i t (- o_time o / D) g /\ required U V o <= g) os -> ~ masked_at s4 (place s y x k)).
Proof.
  intros F. destruct (@dummy_builds env_xr eq_refl) as (og & l & s & H); [cbn; lia|]. destruct (dummy_searchable H) as (Hs & Ax & Ly & Lx & Lr). destruct (dummy_grid H) as (gp & Hg & Hd & _ & Rf & _).
  destruct (Ax 1%nat ltac:(lia)) as [A1 A2]. cbn [INR] in A1, A2. replace (1 - 1) with 0 in A1, A2 by ring.
  assert (Sml : Forall (@small xr) [PInt 0; PInt 1; PInt 2; PInt 0; PInt 1; PInt 2; PInt 2; PInt 2]) by (repeat constructor; cbn; lia).
  assert (V : forall z, value (PInt z : pyval xr) = XFin (IZR z)) by reflexivity.
  assert (Nx : (2 <= zof (PInt 2 : pyval xr))%Z) by (cbn; lia). assert (Bx : (2 * zof (PInt 2 : pyval xr) <= 2 ^ 53)%Z) by (cbn; lia).
  destruct (@grid_origin env_xr eq_refl (np_search_brackets (T := xr)) (PInt 100) 100%nat eq_refl ltac:(lia) _ _ _ _ _ _ _ _ gp _ _ _ _ _
     Sml (V 0%Z) (V 1%Z) (V 0%Z) (V 1%Z) (V 2%Z) Hg Nx Nx Bx Bx _ _ _ _ _ _ (Rle_refl 1) (Rle_refl 1) ltac:(lra) Hd 1%nat 1%nat A1 A2) as (D1 & _).
  rewrite Rf in D1. cbn [List.length Nat.sub] in D1. destruct D1 as (B1 & B2 & B3 & ic & t & B4 & B5 & C).
  set (o := mkObs (/ 4) 0 1 1). assert (Mo : Forall (measurable 0 1) [o]) by (constructor; [|constructor]; unfold measurable, required; cbn; rewrite Rabs_R0; lra).
  destruct (@search env_xr s _ _ _ _ _ _ _ _ [o] false Hs (@one_setting 1 Rle_0_1) Mo) as (s1 & s2 & s3 & s4 & all & Hp & _ & Ha & Hu & _); [discriminate|].
  assert (O : 0 = 0 -> 0 = 0) by auto. assert (P4 : - / 4 <> 0) by lra.
  assert (N : gradient_at Libm_xr (XFin (- / 4)) (XFin 0) (XFin 0) (shear_at (XFin 0) (XFin 0)) (XFin 1) (XFin 1) = XNaN).
  { rewrite cast_shear by exact O. apply gradient_nan. unfold Rdiv. ring. }
  destruct (@tangent_exists ic t 0 0 (- / 4) (cast_ci C) (or_introl P4)) as (vx & vy & Ht).
  assert (S1 : sine 0 0 ic t (- / 4) (Rabs vy / sqrt (vx * vx + vy * vy))) by (exists vx, vy; auto).
  refine (F env_xr _ _ _ _ _ _ _ _ [o] false s s1 s2 s3 s4 Hs (@one_setting 1 Rle_0_1) Mo Hp 1%nat 1%nat 1%nat 0 0 (/ 2) ic t A1 A2 _ B3 B4 B5 _ _ _); [lia|lra| |].
  - constructor; [|constructor]. eexists. replace (- o_time o / 1) with (- / 4) by (cbn; field). split; [exact S1|]. unfold required. cbn. rewrite Rabs_R0, Rmult_0_l. apply Rmult_le_pos; [apply Rabs_pos|]. 
    apply Rlt_le, Rinv_0_lt_compat. apply sqrt_lt_R0.
    destruct (tangent_dir (cast_ci C) Ht) as [T1 T2]. assert (Dm := det_m ic t). assert (Cc := cast_ci C). destruct (Req_dec vx 0) as [Zx|Zx]; [|nra]. destruct (Req_dec vy 0) as [Zy|Zy]; [|nra]. rewrite Zx in T1. rewrite Zy in T2.
    assert (M1 : m12 ic t = 0) by lra. assert (M2 : m22 ic t = 0) by lra. rewrite M1, M2 in Dm. nra.
  - apply Classical_Prop.NNPP. intros X. apply Hu in X; [|lia..]. apply Ha in X as (dx & dy & r & i & t' & chi & X). cbn [found] in X. destruct X as (_ & X1 & X2 & X3 & X4 & X5 & _ & gs & X6 & _).
    cbn [the_cube cube_of] in *. rewrite A1 in X1. rewrite A2 in X2. rewrite B3 in X3. rewrite B4 in X4. rewrite B5 in X5. injection X1 as <-. injection X2 as <-. injection X3 as <-. injection X4 as <-. injection X5 as <-.
    inversion X6 as [|o' g' os' gs' (Y1 & Y2 & _)]; subst. replace (- o_time o / 1) with (- / 4) in Y1 by (cbn; field).
    rewrite (proj2 (cast_value C O _ _) (conj Y1 Y2)) in N. discriminate.
Qed.
