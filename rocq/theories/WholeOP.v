(** The columns of the built cubes, and those at the origin. *)
From Coq Require Import ZArith Reals List Bool String Lia Lra Psatz Sorted.
From Verif Require Import Num NumP Py SpecNum Validate ValidateP Ring RingP RingSystem XLibm FS FSP GridParams SpecGrid GridParamsP GridParamsXP
  Names GridProp SpecProp GridPropP Geometry SpecGeom GeomP GeomMoreP EdgeP Build SpecBuild BuildP BuildQP StretchP BuildXP InterpP Shallot BuildGP BuildGridP BuildCP BuildDP BuildEP BuildFP BuildHP ColumnP SampleP OriginP WholeP.
Import ListNotations.
Set Implicit Arguments.
Local Open Scope R_scope.

Lemma radius_origin : radius_of 0 = / 2.
Proof. unfold radius_of. replace (_ + _) with (/ 2 * / 2) by field. apply sqrt_square. lra. Qed.
Lemma origin_casts fy r i t : 0 < fy -> disk_parameters Libm_xr (XFin 1) (XFin fy) (XFin 0) (XFin (/ 2)) = (XFin r, XFin i, XFin t) ->
  casts_eclipse 0 0 1 fy r i t /\ r = Rmax 1 fy / 2.
Proof.
  intros Hy Hp. assert (H2 : 0 < / 2) by lra. assert (H1 := Rlt_0_1).
  assert (Ed := @edge_is_ellipse 0 0 1 fy 0 (/ 2) r i t H1 Hy H2 Hp).
  destruct (@disk_is_ellipse 1 fy 0 (/ 2) H1 Hy H2) as (r' & i' & t' & Hp' & _ & _ & Hi & Hr & _).
  rewrite Hp in Hp'. injection Hp' as <- <- <-. split.
  - assert (C : forall u, u * u = / 2 * / 2 -> on_ellipse 0 0 1 fy 0 (/ 2) u 0). { intros u Hu. exists u, 0. split; [lra|]. split; ring. }
    unfold casts_eclipse. replace (- 0 / 0) with 0 by (unfold Rdiv; ring). fold (radius_of 0). rewrite radius_origin.
    do 6 (split; [assumption || (apply Ed, C; lra)|]). intros x y. symmetry. apply Ed.
  - assert (M := @major_radius 1 fy 0 (/ 2) H1 ltac:(lra) H2). rewrite Hp in M. cbn [fst] in M. injection M as ->. rewrite major_unsheared by lra. field.
Qed.

Lemma disk_nan fy s c : disk_parameters Libm_xr XNaN (XFin fy) (XFin s) (XFin c) = (XNaN, XNaN, XNaN).
Proof.
  unfold disk_parameters. assert (V : vertex_angle Libm_xr XNaN (XFin fy) (XFin s) = XNaN) by (unfold vertex_angle; rewrite x_half; reflexivity).
  assert (W : covertex_angle Libm_xr XNaN (XFin fy) (XFin s) = XNaN) by (unfold covertex_angle; rewrite V; reflexivity).
  rewrite V, W. unfold to_deg, num2. cbn [n_div n_ofZ n_mul Num_xr m_pi Libm_xr]. rewrite xdiv by (apply PI_neq0). reflexivity.
Qed.

Section W.
Context (E : env xr) (HE : e_libm E = Libm_xr) (HS : brackets (e_search E)) (nf : pyval xr) (n : nat) (Hnf : num_index nf = Ok n) (Hn : (2 <= n)%nat).
Context (mnx mxx nx mny mxy ny mxr nr : pyval xr) (g : gparams xr) (x0 x1 y0 y1 r1 : R).
Context (Sml : Forall small [mnx; mxx; nx; mny; mxy; ny; mxr; nr])
  (V1 : value mnx = XFin x0) (V2 : value mxx = XFin x1) (V3 : value mny = XFin y0) (V4 : value mxy = XFin y1) (V5 : value mxr = XFin r1)
  (Hg : new_params mnx mxx nx mny mxy ny mxr nr = Ok g) (Nx : (2 <= zof nx)%Z) (Ny : (2 <= zof ny)%Z) (Bx : (2 * zof nx <= 2 ^ 53)%Z) (By : (2 * zof ny <= 2 ^ 53)%Z).

Definition turned (b : bool) (w : which) (v : xr) : xr := match w with WTilt => if b then n_sub (n_ofZ 180) v else v | _ => v end.
Definition slope (dx dy : R) : R := if Req_EM_T dy 0 then 0 else - dx / dy.

(** the columns of a point are those computed for its mirror image in the built quadrant *)
Theorem grid_columns ll keep inter og l s : new_shallot E (EIs g) nf ll keep inter = (og, (l, Ok s)) ->
  let p := s_params s in
  forall i j dy dx, nth_error (g_dy p) i = Some (XFin dy) -> nth_error (g_dx p) j = Some (XFin dx) -> ~ (dy = 0 /\ dx <> 0) ->
  List.length (g_rfa p) = List.length (g_rfa g) /\
  exists b dy' dx' col, (dy' = dy \/ dy' = - dy) /\ (dx' = dx \/ dx' = - dx) /\
    grid_point E g nf (XFin dy') (XFin (slope dx' dy')) (XFin (radius_of dy')) = Ok col /\
    forall w k, (k < List.length (g_rfa g))%nat ->
      cell (List.length (g_dx p)) (List.length (g_rfa p)) (p_data (cube_of w s)) i j k = option_map (turned b w) (nth_error (part_of w col) k).
Proof.
  intros H p i j dy dx Hi Hj Hz.
  assert (Hr : reachable g) by (eapply rc_new; exact Hg).
  destruct (new_params_spaced Sml V1 V2 V3 V4 V5 Hg) as (_ & _ & _ & Sx & _ & Sy & _ & _ & _ & Ex). specialize (Sx Nx). specialize (Sy Ny).
  assert (Col : forall y x dy' dx', nth_error (g_dy g) y = Some (XFin dy') -> nth_error (g_dx g) x = Some (XFin dx') -> ~ (dy' = 0 /\ dx' <> 0) ->
    forall w data, quadrant E g nf w data -> exists col, grid_point E g nf (XFin dy') (XFin (slope dx' dy')) (XFin (radius_of dy')) = Ok col /\
      column_at (List.length (g_dx g)) (List.length (g_rfa g)) data y x = part_of w col).
  { intros y x dy' dx' Hy Hx Hz' w data [_ Hq].
    assert (Hyl : (y < List.length (g_dy g))%nat) by (apply nth_error_Some; congruence).
    assert (Hxl : (x < List.length (g_dx g))%nat) by (apply nth_error_Some; congruence).
    specialize (Hq y x Hyl Hxl). unfold column_spec in Hq. cbn zeta in Hq. rewrite (nth_error_nth _ _ _ Hy), (nth_error_nth _ _ _ Hx), HE, radius_xr, shear_xr in Hq.
    unfold slope. destruct (Req_EM_T dy' 0); [destruct (Req_EM_T dx' 0)|]; cbn [n_isnan Num_xr x_isnan] in Hq; auto. exfalso; tauto. }
  destruct (g_ext g) eqn:Eg.
  - destruct (@constructor_reflects xr _ _ E g nf ll keep inter og l s Hr Eg H) as (Hx & Hq). fold p in Hx.
    destruct (@extend_mirrors mnx mxx nx mny mxy ny mxr nr g x0 x1 y0 y1 Sml V1 V2 V3 V4 Hg Eg Nx Ny Bx By) as (g' & Hx' & Mx & My & _ & Hrfa & _).
    rewrite Hx in Hx'. assert (g' = p) by congruence. subst g'. clear Hx'.
    destruct (@mirrored_at _ Hn _ _ _ _ My (spaced_fin Sy) Hi) as [Bi Ci]. destruct (@mirrored_at _ Hn _ _ _ _ Mx (spaced_fin Sx) Hj) as [Bj Cj].
    set (ly := List.length (g_dy g)) in *. set (lx := List.length (g_dx g)) in *. rewrite Hrfa in *.
    assert (Lp : List.length (g_dx p) = (2 * lx - 1)%nat) by (apply Mx). rewrite Lp. split; auto.
    set (dy' := if Nat.ltb i ly then - dy else dy) in *. set (dx' := if Nat.ltb j lx then - dx else dx) in *.
    assert (Hz' : ~ (dy' = 0 /\ dx' <> 0)) by (intros [A B]; apply Hz; unfold dy', dx' in *; destruct (Nat.ltb i ly), (Nat.ltb j lx); split; try lra; intros C; apply B; lra).
    destruct (Hq WRadius) as (data0 & Hq0 & _). destruct (Col _ _ _ _ Ci Cj Hz' _ _ Hq0) as (col & Hcol & _).
    exists (xorb (Nat.ltb i ly) (Nat.ltb j lx)), dy', dx', col.
    split; [unfold dy'; destruct (Nat.ltb i ly); auto|]. split; [unfold dx'; destruct (Nat.ltb j lx); auto|]. split; auto.
    intros w k Hk. destruct (Hq w) as (data & Hq' & Hcell). destruct (Col _ _ _ _ Ci Cj Hz' _ _ Hq') as (col' & Hcol' & Ec).
    rewrite Hcol in Hcol'. assert (col' = col) by congruence. subst col'.
    assert (Hc0 : cell lx (List.length (g_rfa g)) data (from_middle ly i) (from_middle lx j) k = nth_error (part_of w col) k) by (rewrite <- column_cell by auto; rewrite Ec; reflexivity).
    destruct (nth_error (part_of w col) k) as [v|] eqn:Ev.
    + rewrite (Hcell i j k v Bi Bj Hk Hc0). cbn [option_map]. destruct w; reflexivity.
    + exfalso. destruct Hq' as [Hl _]. unfold cell in Hc0. apply nth_error_None in Hc0. rewrite Hl in Hc0.
      assert (Hy : (from_middle ly i < ly)%nat) by (apply from_middle_lt; auto). assert (Hx2 : (from_middle lx j < lx)%nat) by (apply from_middle_lt; auto).
      set (nr0 := List.length (g_rfa g)) in *. fold ly lx in Hc0. set (fi := from_middle ly i) in *. set (fj := from_middle lx j) in *. clearbody fi fj nr0 lx ly.
      assert (A : (fi * lx + fj + 1 <= ly * lx)%nat) by nia. apply (Nat.mul_le_mono_r _ _ nr0) in A. lia.
  - assert (Hp := reachable_proper Hr). apply constructor_result in H as (_ & [_ _ _ _ _ _ _ _ Hd] & _); auto. destruct Hd as [(_ & Ep & Hd)|(X & _)]; [|congruence].
    unfold p in *. rewrite Ep in *. clear p. split; auto. destruct (Col _ _ _ _ Hi Hj Hz _ _ (Hd WRadius)) as (col & Hcol & _).
    exists false, dy, dx, col. split; auto. split; auto. split; auto. intros w k Hk. destruct (Col _ _ _ _ Hi Hj Hz _ _ (Hd w)) as (col' & Hcol' & Ec).
    rewrite Hcol in Hcol'. assert (col' = col) by congruence. subst col'. rewrite <- column_cell by auto. rewrite Ec. destruct (nth_error (part_of w col) k); auto. cbn [option_map]. destruct w; reflexivity.
Qed.

(** the fractions of the rf axis *)
Lemma grid_fractions : exists rf, g_rf g = map XFin rf /\ rf <> [] /\ List.length (g_rfa g) = (2 * List.length rf - 1)%nat /\
  exists F, last_opt (g_rf g) = Ok (XFin F) /\ (1 < r1 -> forall j q, (1 <= j)%nat -> nth_error rf j = Some q -> 1 < q <= F).
Proof.
  destruct (@grid_rf n Hn mnx mxx nx mny mxy ny mxr nr g x0 x1 y0 y1 r1 Sml V1 V2 V3 V4 V5 Hg) as (rf & Erf & Hne & Hl). exists rf. split; auto. split; auto. split; auto.
  destruct (new_params_spaced Sml V1 V2 V3 V4 V5 Hg) as (_ & _ & Hr1 & _ & _ & _ & _ & Sr & Sr1 & _).
  destruct (new_params_sizes Sml Hg) as (_ & _ & L1 & L2 & _).
  assert (Hn0 : (1 <= zof nr)%Z). { assert (List.length (g_rf g) = List.length rf) by (rewrite Erf; apply map_length). destruct rf; [congruence|]. cbn [List.length] in H. lia. }
  destruct (Z_lt_le_dec (zof nr) 2) as [Hlt|Hge].
  - assert (E1 : zof nr = 1%Z) by lia. exists 1. rewrite (Sr1 E1). split; [reflexivity|]. intros _ j q Hj Hq. exfalso.
    assert (Hrl : List.length rf = 1%nat). { rewrite <- (map_length XFin), <- Erf, (Sr1 E1). reflexivity. }
    assert (j < List.length rf)%nat by (apply nth_error_Some; congruence). lia.
  - destruct (Sr Hge) as [Hlr Hi]. set (N := Z.to_nat (zof nr)) in *. assert (HN : (2 <= N)%nat) by (unfold N; lia).
    assert (P : 0 < INR (N - 1)) by (apply lt_0_INR; lia). exists r1. split.
    + unfold last_opt. assert (Hr' : nth_error (rev (g_rf g)) 0 = Some (XFin (spaced 1 r1 N (N - 1)))).
      { rewrite (nth_error_nth' _ n_nan) by (rewrite rev_length; lia). rewrite rev_nth by lia. f_equal. apply nth_error_nth. rewrite Hlr. apply Hi. lia. }
      destruct (rev (g_rf g)); [discriminate|]. cbn in Hr'. injection Hr' as ->. do 2 f_equal. unfold spaced. field. lra.
    + intros H1 j q Hj Hq. assert (Hjl : (j < N)%nat). { assert (j < List.length rf)%nat by (apply nth_error_Some; congruence). rewrite Erf, map_length in Hlr. lia. }
      specialize (Hi j Hjl). rewrite Erf, nth_error_map, Hq in Hi. cbn [option_map] in Hi. injection Hi as ->. unfold spaced.
      assert (1 <= INR j) by (apply (le_INR 1); auto). assert (INR j <= INR (N - 1)) by (apply le_INR; lia).
      assert (D : 0 < (r1 - 1) / INR (N - 1)) by (apply Rdiv_lt_0_compat; lra).
      assert (Ee : INR (N - 1) * ((r1 - 1) / INR (N - 1)) = r1 - 1) by (field; lra). split; nra.
Qed.

(** the origin *)
Theorem grid_origin ll keep inter og l s : 1 <= x1 -> 1 <= y1 -> 1 < r1 -> new_shallot E (EIs g) nf ll keep inter = (og, (l, Ok s)) ->
  let p := s_params s in
  let mid := (List.length (g_rf p) - 1)%nat in
  forall i j, nth_error (g_dy p) i = Some (XFin 0) -> nth_error (g_dx p) j = Some (XFin 0) ->
  let at_ w k := cell (List.length (g_dx p)) (List.length (g_rfa p)) (p_data (cube_of w s)) i j k in
  let disk k fy r := at_ WFx k = Some (XFin 1) /\ at_ WFy k = Some (XFin fy) /\ at_ WRadius k = Some (XFin r) /\
    exists ic t, at_ WInclination k = Some (XFin ic) /\ at_ WTilt k = Some (XFin t) /\ casts_eclipse 0 0 1 fy r ic t in
  disk mid 1 (/ 2) /\
  exists b, 1 < b /\ forall e q, (1 <= e)%nat -> nth_error (g_rf p) e = Some (XFin q) -> 
    disk (mid + e)%nat q (q / 2) /\
    (q < b -> disk (mid - e)%nat ((b - q) / (b - 1)) (/ 2)) /\
    (b <= q -> at_ WFy (mid - e)%nat = Some (XFin 0) /\ forall w, w <> WFy -> at_ w (mid - e)%nat = Some XNaN).
Proof.
  intros H1x H1y H1r H p mid i j Hi Hj at_ disk.
  destruct grid_fractions as (rf & Erf & Hne & Hl & F & HF & Hr). specialize (Hr H1r).
  destruct (@grid_columns ll keep inter og l s H i j 0 0 Hi Hj) as (Hlr & b0 & dy' & dx' & col & Hdy & Hdx & Hcol & Cells); [tauto|].
  assert (dy' = 0) by (destruct Hdy; lra). assert (dx' = 0) by (destruct Hdx; lra). subst dy' dx'. clear Hdy Hdx.
  unfold slope in Hcol. destruct (Req_EM_T 0 0) as [_|]; [|lra]. rewrite radius_origin in Hcol.
  assert (Hrp : g_rf p = g_rf g).
  { assert (Hre : reachable g) by (eapply rc_new; exact Hg). destruct (g_ext g) eqn:Eg.
    - destruct (@constructor_reflects xr _ _ E g nf ll keep inter og l s Hre Eg H) as (Hx & _). fold p in Hx.
      destruct (@extend_mirrors mnx mxx nx mny mxy ny mxr nr g x0 x1 y0 y1 Sml V1 V2 V3 V4 Hg Eg Nx Ny Bx By) as (g' & Hx' & _ & _ & Hrf & _).
      rewrite Hx in Hx'. apply pair_equal_spec in Hx' as [Hp _]. subst g'. exact Hrf.
    - assert (Hp := reachable_proper Hre). apply constructor_result in H as (_ & [_ _ _ _ _ _ _ _ Hd] & _); auto. destruct Hd as [(_ & Ep & Hd)|(X & _)]; [|congruence]. unfold p. now rewrite Ep. }
  destruct (@grid_max n Hn mnx mxx nx mny mxy ny mxr nr g x0 x1 y0 y1 r1 Sml V1 V2 V3 V4 V5 Hg Nx Ny) as [Mx My].
  assert (H2 : 0 < / 2) by lra.
  destruct (@column_open E HE nf n Hnf Hn 0 0 (/ 2) H2 g rf Erf Hne x1 y1 Mx My H1x H1y col Hcol) as (ys & ds & _ & _ & _ & _ & Hfx & Hlc & Hdisk).
  assert (Hmid : mid = (List.length rf - 1)%nat) by (unfold mid; rewrite Hrp, Erf, map_length; reflexivity).
  (* an entry with a positive scale factor *)
  assert (Pos : forall k v, (k < 2 * List.length rf - 1)%nat -> nth_error (c_fy col) k = Some (XFin v) -> 0 < v -> disk k v (Rmax 1 v / 2)).
  { intros k v Hk Hv Pv. assert (Hk' : (k < List.length (g_rfa g))%nat) by lia.
    assert (Hx : nth_error (c_fx col) k = Some (XFin 1)) by (rewrite Hfx, nth_error_map, Hv; cbn [option_map]; now rewrite origin_fx).
    destruct (@disk_is_ellipse 1 v 0 (/ 2) Rlt_0_1 Pv H2) as (r & ic & t & Hp & _). destruct (Hdisk _ _ _ _ _ _ Hx Hv Hp) as (A1 & A2 & A3).
    destruct (origin_casts Pv Hp) as [Hc ->]. unfold disk, at_. rewrite !Cells by auto. cbn [part_of]. rewrite Hx, Hv, A1, A2, A3. cbn [option_map turned].
    do 3 (split; [reflexivity|]). exists ic. destruct b0.
    - exists (180 - t). split; auto. split; auto. apply casts_mirror_x in Hc. rewrite Ropp_0 in Hc. exact Hc.
    - exists t. auto. }
  destruct (@origin_column E HE HS nf n Hnf Hn (/ 2) H2 g rf F Erf Hne HF Hr x1 y1 Mx My H1x H1y col Hcol) as (Hm & b & Hb & Hcols).
  assert (Hrl : (1 <= List.length rf)%nat) by (destruct rf; [congruence|cbn; lia]).
  split. { replace (/ 2) with (Rmax 1 1 / 2) by (rewrite Rmax_left by lra; field). apply Pos; [lia| |lra]. now rewrite Hmid. }
  exists b. split; auto. intros e q He Hq. rewrite Hrp, Erf, nth_error_map in Hq. destruct (nth_error rf e) as [q'|] eqn:Eq; [|discriminate]. cbn [option_map] in Hq. injection Hq as ->.
  assert (Hel : (e < List.length rf)%nat) by (apply nth_error_Some; congruence). destruct (Hcols e q He Eq) as [Hright Hleft]. assert (Hq1 := Hr _ _ He Eq). rewrite <- Hmid in *.
  split; [|split].
  - replace (q / 2) with (Rmax 1 q / 2) by (rewrite Rmax_right by lra; field). apply Pos; auto; [lia|lra].
  - intros Hlt. destruct (Rlt_dec q b); [|lra]. assert (0 < (b - q) / (b - 1)) by (apply Rdiv_lt_0_compat; lra).
    assert ((b - q) / (b - 1) < 1) by (apply (Rmult_lt_reg_r (b - 1)); [lra|]; unfold Rdiv; rewrite Rmult_assoc, Rinv_l by lra; lra).
    replace (/ 2) with (Rmax 1 ((b - q) / (b - 1)) / 2) by (rewrite Rmax_left by lra; field). apply Pos; auto. lia.
  - intros Hge. destruct (Rlt_dec q b); [lra|]. assert (Hk : (mid - e < List.length (g_rfa g))%nat) by lia.
    assert (Hx : nth_error (c_fx col) (mid - e) = Some XNaN) by (rewrite Hfx, nth_error_map, Hleft; cbn [option_map]; now rewrite origin_nan).
    destruct (Hdisk _ _ _ _ _ _ Hx Hleft (@disk_nan 0 0 (/ 2))) as (A1 & A2 & A3). unfold at_. split.
    + rewrite Cells by auto. cbn [part_of]. rewrite Hleft. reflexivity.
    + intros w Hw. rewrite Cells by auto. destruct w; cbn [part_of]; rewrite ?A1, ?A2, ?A3, ?Hx; try reflexivity; [destruct b0; reflexivity|congruence].
Qed.
End W.
