(** The whole grid in exact arithmetic: what every entry of the five cubes describes. *)
From Coq Require Import ZArith Reals List Bool String Lia Lra Psatz.
From Verif Require Import Num NumP Py SpecNum Validate ValidateP Ring RingP RingSystem XLibm FS FSP GridParams SpecGrid GridParamsP GridParamsXP
  Names GridProp SpecProp GridPropP Geometry SpecGeom GeomP GeomMoreP EdgeP Build SpecBuild BuildP BuildQP StretchP BuildXP InterpP Shallot BuildGP BuildGridP BuildCP BuildDP BuildEP BuildFP BuildHP ColumnP.
Import ListNotations.
Set Implicit Arguments.
Local Open Scope R_scope.

Definition pick {A} (fx fy r i t : A) (w : which) : A := match w with WRadius => r | WInclination => i | WTilt => t | WFx => fx | WFy => fy end.

Section W.
Context (E : env xr) (HE : e_libm E = Libm_xr) (HS : brackets (e_search E)) (nf : pyval xr) (n : nat) (Hnf : num_index nf = Ok n) (Hn : (2 <= n)%nat).
Context (mnx mxx nx mny mxy ny mxr nr : pyval xr) (g : gparams xr) (x0 x1 y0 y1 r1 : R).
Context (Sml : Forall small [mnx; mxx; nx; mny; mxy; ny; mxr; nr])
  (V1 : value mnx = XFin x0) (V2 : value mxx = XFin x1) (V3 : value mny = XFin y0) (V4 : value mxy = XFin y1) (V5 : value mxr = XFin r1)
  (Hg : new_params mnx mxx nx mny mxy ny mxr nr = Ok g) (Nx : (2 <= zof nx)%Z) (Ny : (2 <= zof ny)%Z) (Bx : (2 * zof nx <= 2 ^ 53)%Z) (By : (2 * zof ny <= 2 ^ 53)%Z)
  (H1x : 1 <= x1) (H1y : 1 <= y1).

Lemma grid_rf : exists rf, g_rf g = map XFin rf /\ rf <> [] /\ List.length (g_rfa g) = (2 * List.length rf - 1)%nat.
Proof.
  destruct (new_params_spaced Sml V1 V2 V3 V4 V5 Hg) as (_ & _ & _ & _ & _ & _ & _ & Sr & Sr1 & _).
  destruct (new_params_sizes Sml Hg) as (_ & _ & L1 & L2 & _).
  assert (Fin : Forall fin (g_rf g)).
  { destruct (Z_lt_le_dec (zof nr) 2) as [Hlt|Hge].
    - assert (zof nr = 1)%Z by lia. rewrite Sr1 by auto. repeat constructor. now exists 1.
    - destruct (Sr Hge) as [Hl Hi]. apply Forall_forall. intros x Hx. apply In_nth_error in Hx as [i Hx].
      assert (i < Z.to_nat (zof nr))%nat by (rewrite <- Hl; apply nth_error_Some; congruence). rewrite Hi in Hx by auto. injection Hx as <-. eexists; reflexivity. }
  destruct (map_fin Fin) as (rf & Erf). exists rf. split; auto. assert (Hl : List.length (g_rf g) = List.length rf) by (rewrite Erf, map_length; auto).
  split; [intros ->; cbn in Hl; lia|lia].
Qed.
Lemma grid_max : amax (g_dx g) = XFin x1 /\ amax (g_dy g) = XFin y1.
Proof.
  destruct (new_params_spaced Sml V1 V2 V3 V4 V5 Hg) as (L1 & L2 & _ & Sx & _ & Sy & _).
  split; [apply (amax_spaced (Sx Nx))|apply (amax_spaced (Sy Ny))]; try lia; lra.
Qed.

(** a point of the built quadrant off the row dy = 0 *)
Lemma quadrant_disk y x k dy dx : nth_error (g_dy g) y = Some (XFin dy) -> nth_error (g_dx g) x = Some (XFin dx) -> (k < List.length (g_rfa g))%nat -> dy <> 0 ->
  (exists data w, quadrant E g nf w data) ->
  exists fx fy r i t, casts_eclipse dx dy fx fy r i t /\
    forall w data, quadrant E g nf w data -> cell (List.length (g_dx g)) (List.length (g_rfa g)) data y x k = Some (XFin (pick fx fy r i t w)).
Proof.
  intros Hy Hx Hk Hd (data0 & w0 & Hq0). destruct grid_rf as (rf & Erf & Hne & Hrl). destruct grid_max as [Mx My].
  assert (Hyl : (y < List.length (g_dy g))%nat) by (apply nth_error_Some; congruence).
  assert (Hxl : (x < List.length (g_dx g))%nat) by (apply nth_error_Some; congruence).
  assert (Hs : shear_at (XFin dx) (XFin dy) = XFin (- dx / dy)) by (rewrite shear_xr; destruct (Req_EM_T dy 0); [contradiction|reflexivity]).
  assert (Col : forall w data, quadrant E g nf w data -> exists col, grid_point E g nf (XFin dy) (XFin (- dx / dy)) (XFin (radius_of dy)) = Ok col /\
    column_at (List.length (g_dx g)) (List.length (g_rfa g)) data y x = part_of w col).
  { intros w data [_ Hq]. specialize (Hq y x Hyl Hxl). unfold column_spec in Hq. cbn zeta in Hq.
    rewrite (nth_error_nth _ _ _ Hy), (nth_error_nth _ _ _ Hx), Hs, HE, radius_xr in Hq. exact Hq. }
  destruct (Col _ _ Hq0) as (col & Hcol & _).
  destruct (@column_disks E HE HS nf n Hnf Hn dy (- dx / dy) (radius_of dy) (radius_pos dy) g rf Erf Hne x1 y1 Mx My H1x H1y col Hd Hcol k ltac:(lia))
    as (fx & fy & r & i & t & A1 & A2 & A3 & A4 & A5 & Px & Py & Ef & Hp).
  exists fx, fy, r, i, t. split; [apply disk_casts; auto|]. intros w data Hq. destruct (Col _ _ Hq) as (col' & Hcol' & Ec). rewrite Hcol in Hcol'. 
  assert (col' = col) by congruence. subst col'. rewrite <- column_cell by auto. rewrite Ec. destruct w; assumption.
Qed.
Lemma quadrant_none y x k dx : nth_error (g_dy g) y = Some (XFin 0) -> nth_error (g_dx g) x = Some (XFin dx) -> (k < List.length (g_rfa g))%nat -> dx <> 0 ->
  forall w data, quadrant E g nf w data -> cell (List.length (g_dx g)) (List.length (g_rfa g)) data y x k = Some XNaN.
Proof.
  intros Hy Hx Hk Hd w data [_ Hq].
  assert (Hyl : (y < List.length (g_dy g))%nat) by (apply nth_error_Some; congruence).
  assert (Hxl : (x < List.length (g_dx g))%nat) by (apply nth_error_Some; congruence).
  specialize (Hq y x Hyl Hxl). unfold column_spec in Hq. cbn zeta in Hq. rewrite (nth_error_nth _ _ _ Hy), (nth_error_nth _ _ _ Hx), shear_xr in Hq.
  destruct (Req_EM_T 0 0); [|lra]. destruct (Req_EM_T dx 0); [contradiction|]. cbn [n_isnan Num_xr x_isnan] in Hq. rewrite <- column_cell by auto. rewrite Hq. apply nth_error_repeat. exact Hk.
Qed.

(** an index of a mirrored axis *)
Lemma mirrored_at l m i v : mirrored l m -> Forall fin l -> nth_error m i = Some (XFin v) ->
  (i < 2 * List.length l - 1)%nat /\ nth_error l (from_middle (List.length l) i) = Some (XFin (if Nat.ltb i (List.length l) then - v else v)).
Proof.
  intros [Hl Hm] Hf Hi. assert (Hil : (i < 2 * List.length l - 1)%nat) by (rewrite <- Hl; apply nth_error_Some; congruence). split; auto.
  assert (Hj : (from_middle (List.length l) i < List.length l)%nat) by (apply from_middle_lt; auto).
  destruct (nth_error l (from_middle (List.length l) i)) as [x|] eqn:Ex; [|apply nth_error_None in Ex; lia].
  assert (Hx := nth_error_In _ _ Ex). rewrite Forall_forall in Hf. destruct (Hf _ Hx) as [q ->]. destruct (Hm _ _ Ex) as [A B]. f_equal. f_equal.
  destruct (Nat.ltb_spec i (List.length l)) as [Hlt|Hge].
  - replace (List.length l - 1 - from_middle (List.length l) i)%nat with i in B.
    + rewrite Hi in B. injection B as ->. ring.
    + unfold from_middle. destruct (Nat.leb_spec i (List.length l - 1)); lia.
  - replace (List.length l - 1 + from_middle (List.length l) i)%nat with i in A.
    + rewrite Hi in A. injection A as ->. ring.
    + unfold from_middle. destruct (Nat.leb_spec i (List.length l - 1)); lia.
Qed.
Lemma spaced_fin l a b m : equally_spaced l a b m -> Forall fin l.
Proof.
  intros [Hl Hi]. apply Forall_forall. intros x Hx. apply In_nth_error in Hx as [i Hx].
  assert (i < m)%nat by (rewrite <- Hl; apply nth_error_Some; congruence). rewrite Hi in Hx by auto. injection Hx as <-. eexists; reflexivity.
Qed.

Theorem grid_disks ll keep inter og l s : new_shallot E (EIs g) nf ll keep inter = (og, (l, Ok s)) ->
  let p := s_params s in
  forall i j k dy dx, nth_error (g_dy p) i = Some (XFin dy) -> nth_error (g_dx p) j = Some (XFin dx) -> (k < List.length (g_rfa p))%nat ->
    (dy <> 0 -> exists fx fy r ic t, casts_eclipse dx dy fx fy r ic t /\
       forall w, cell (List.length (g_dx p)) (List.length (g_rfa p)) (p_data (cube_of w s)) i j k = Some (XFin (pick fx fy r ic t w))) /\
    (dy = 0 -> dx <> 0 -> forall w, cell (List.length (g_dx p)) (List.length (g_rfa p)) (p_data (cube_of w s)) i j k = Some XNaN).
Proof.
  intros H p i j k dy dx Hi Hj Hk.
  assert (Hr : reachable g) by (eapply rc_new; exact Hg).
  destruct (new_params_spaced Sml V1 V2 V3 V4 V5 Hg) as (L1 & L2 & _ & Sx & _ & Sy & _ & _ & _ & Ex). specialize (Sx Nx). specialize (Sy Ny).
  destruct (g_ext g) eqn:Eg.
  - destruct (@constructor_reflects xr _ _ E g nf ll keep inter og l s Hr Eg H) as (Hx & Hq). fold p in Hx.
    destruct (@extend_mirrors mnx mxx nx mny mxy ny mxr nr g x0 x1 y0 y1 Sml V1 V2 V3 V4 Hg Eg Nx Ny Bx By) as (g' & Hx' & Mx & My & _ & Hrfa & _).
    rewrite Hx in Hx'. assert (g' = p) by congruence. subst g'. clear Hx'.
    destruct (@mirrored_at _ _ _ _ My (spaced_fin Sy) Hi) as [Bi Ci]. destruct (@mirrored_at _ _ _ _ Mx (spaced_fin Sx) Hj) as [Bj Cj].
    set (ly := List.length (g_dy g)) in *. set (lx := List.length (g_dx g)) in *. rewrite Hrfa in *.
    assert (Lp : List.length (g_dx p) = (2 * lx - 1)%nat) by (apply Mx). rewrite Lp. split.
    + intros Hd.
      destruct (@quadrant_disk (from_middle ly i) (from_middle lx j) k (if Nat.ltb i ly then - dy else dy) (if Nat.ltb j lx then - dx else dx) Ci Cj Hk)
        as (fx & fy & r & ic & t & Hc & Hall); [destruct (Nat.ltb i ly); lra|destruct (Hq WRadius) as (data & Hq' & _); eauto|].
      assert (Cells : forall w, cell (2 * lx - 1) (List.length (g_rfa g)) (p_data (cube_of w s)) i j k =
        Some (match w with WTilt => if xorb (Nat.ltb i ly) (Nat.ltb j lx) then n_sub (n_ofZ 180) (XFin t) else XFin t | _ => XFin (pick fx fy r ic t w) end)).
      { intros w. destruct (Hq w) as (data & Hq' & Hcell). rewrite (Hcell i j k (XFin (pick fx fy r ic t w)) Bi Bj Hk (Hall _ _ Hq')). destruct w; reflexivity. }
      destruct (Nat.ltb i ly), (Nat.ltb j lx); cbn [xorb] in Cells.
      * exists fx, fy, r, ic, t. split; [|intros w; rewrite Cells; destruct w; reflexivity].
        apply casts_mirror_xy in Hc; [|lra]. rewrite !Ropp_involutive in Hc. exact Hc.
      * exists fx, fy, r, ic, (180 - t). split; [|intros w; rewrite Cells; destruct w; reflexivity].
        apply casts_mirror_y in Hc; [|lra]. rewrite !Ropp_involutive in Hc. exact Hc.
      * exists fx, fy, r, ic, (180 - t). split; [|intros w; rewrite Cells; destruct w; reflexivity].
        apply casts_mirror_x in Hc. rewrite !Ropp_involutive in Hc. exact Hc.
      * exists fx, fy, r, ic, t. split; [|intros w; rewrite Cells; destruct w; reflexivity]. exact Hc.
    + intros -> Hd w. destruct (Hq w) as (data & Hq' & Hcell).
      assert (Ci' : nth_error (g_dy g) (from_middle ly i) = Some (XFin 0)) by (destruct (Nat.ltb i ly); rewrite ?Ropp_0 in Ci; exact Ci).
      assert (Hd' : (if Nat.ltb j lx then - dx else dx) <> 0) by (destruct (Nat.ltb j lx); lra).
      assert (Nn := @quadrant_none (from_middle ly i) (from_middle lx j) k _ Ci' Cj Hk Hd' w data Hq').
      rewrite (Hcell i j k _ Bi Bj Hk Nn). destruct w; auto. destruct (xorb _ _); reflexivity.
  - assert (Hp := reachable_proper Hr). apply constructor_result in H as (_ & [_ _ _ _ _ _ _ _ Hd] & _); auto. destruct Hd as [(_ & Ep & Hd)|(X & _)]; [|congruence].
    unfold p in *. rewrite Ep in *. clear p. split.
    + intros Hz. destruct (@quadrant_disk i j k dy dx Hi Hj Hk Hz) as (fx & fy & r & ic & t & Hc & Hall); [exists (p_data (cube_of WRadius s)), WRadius; auto|].
      exists fx, fy, r, ic, t. split; auto.
    + intros -> Hz w. apply (@quadrant_none i j k dx Hi Hj Hk Hz w). apply Hd.
Qed.
End W.
