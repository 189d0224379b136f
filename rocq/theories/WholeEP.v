(** The radii of the built cubes: how close they are to the fractions of the rf axis, and how close the
    radius in the middle is to the smallest possible. *)
From Coq Require Import ZArith Reals List Bool String Lia Lra Psatz Sorted.
From Verif Require Import Num NumP Py SpecNum Validate ValidateP Ring RingP RingSystem XLibm FS FSP GridParams SpecGrid GridParamsP GridParamsXP
  Names GridProp SpecProp GridPropP Geometry SpecGeom SpecError GeomP GeomMoreP EdgeP Build SpecBuild BuildP BuildQP StretchP BuildXP InterpP Shallot BuildGP BuildGridP BuildCP BuildDP BuildEP BuildFP BuildHP ColumnP SampleP OriginP LipP FamilyP ErrorP WholeP WholeOP.
Import ListNotations.
Set Implicit Arguments.
Local Open Scope R_scope.

Lemma eclipsing_mirror dx dy dx' dy' r i t : (dx' = dx \/ dx' = - dx) -> (dy' = dy \/ dy' = - dy) -> eclipsing_disk dx dy r i t -> exists t', eclipsing_disk dx' dy' r i t'.
Proof.
  intros Hx Hy (Pr & Pi & C1 & C2). assert (N : - - / 2 = / 2) by ring.
  assert (X : exists t', eclipsing_disk dx' dy r i t').
  { destruct Hx as [-> | ->]; [exists t; repeat split; tauto|]. exists (180 - t). repeat split; try tauto.
    - exact (edge_mirror_x _ _ _ _ _ _ _ C2).
    - rewrite <- N. exact (edge_mirror_x _ _ _ _ _ _ _ C1). }
  destruct X as (t1 & _ & _ & D1 & D2). destruct Hy as [-> | ->]; [exists t1; repeat split; tauto|].
  exists (180 - t1). repeat split; try tauto; rewrite <- Ropp_0; eapply edge_mirror_y; eauto.
Qed.
Lemma Rabs_ratio dx dy dx' dy' : dy <> 0 -> (dx' = dx \/ dx' = - dx) -> (dy' = dy \/ dy' = - dy) -> Rabs (- dx' / dy') = Rabs (dx / dy).
Proof.
  intros Hd Hx Hy. assert (E : - dx' / dy' = dx / dy \/ - dx' / dy' = - (dx / dy)).
  { destruct Hx as [-> | ->], Hy as [-> | ->]; [right|left|left|right]; field; auto. }
  destruct E as [-> | ->]; [reflexivity|apply Rabs_Ropp].
Qed.

Section W.
Context (E : env xr) (HE : e_libm E = Libm_xr) (HS : brackets (e_search E)) (nf : pyval xr) (n : nat) (Hnf : num_index nf = Ok n) (Hn : (2 <= n)%nat).
Context (mnx mxx nx mny mxy ny mxr nr : pyval xr) (g : gparams xr) (x0 x1 y0 y1 r1 : R).
Context (Sml : Forall small [mnx; mxx; nx; mny; mxy; ny; mxr; nr])
  (V1 : value mnx = XFin x0) (V2 : value mxx = XFin x1) (V3 : value mny = XFin y0) (V4 : value mxy = XFin y1) (V5 : value mxr = XFin r1)
  (Hg : new_params mnx mxx nx mny mxy ny mxr nr = Ok g) (Nx : (2 <= zof nx)%Z) (Ny : (2 <= zof ny)%Z) (Bx : (2 * zof nx <= 2 ^ 53)%Z) (By : (2 * zof ny <= 2 ^ 53)%Z).

Lemma grid_fractions_le : exists rf, g_rf g = map XFin rf /\ rf <> [] /\ List.length (g_rfa g) = (2 * List.length rf - 1)%nat /\ nth_error rf 0 = Some 1 /\
  exists F, last_opt (g_rf g) = Ok (XFin F) /\ forall j q, nth_error rf j = Some q -> 1 <= q <= F.
Proof.
  destruct (@grid_rf n Hn mnx mxx nx mny mxy ny mxr nr g x0 x1 y0 y1 r1 Sml V1 V2 V3 V4 V5 Hg) as (rf & Erf & Hne & Hl). exists rf. split; auto. split; auto. split; auto.
  destruct (new_params_spaced Sml V1 V2 V3 V4 V5 Hg) as (_ & _ & Hr1 & _ & _ & _ & _ & Sr & Sr1 & _).
  destruct (new_params_sizes Sml Hg) as (_ & _ & L1 & L2 & _).
  assert (Hn0 : (1 <= zof nr)%Z). { assert (List.length (g_rf g) = List.length rf) by (rewrite Erf; apply map_length). destruct rf; [congruence|]. cbn [List.length] in H. lia. }
  destruct (Z_lt_le_dec (zof nr) 2) as [Hlt|Hge].
  - assert (E1 : zof nr = 1%Z) by lia. specialize (Sr1 E1). rewrite Sr1 in *. destruct rf as [|a [|? ?]]; try discriminate. cbn in Erf. injection Erf as <-. split; [reflexivity|].
    exists 1. split; [reflexivity|]. intros [|j] q Hq; cbn in Hq; [injection Hq as <-; lra|destruct j; discriminate].
  - destruct (Sr Hge) as [Hlr Hi]. set (N := Z.to_nat (zof nr)) in *. assert (HN : (2 <= N)%nat) by (unfold N; lia).
    assert (P : 0 < INR (N - 1)) by (apply lt_0_INR; lia).
    assert (D : 0 <= (r1 - 1) / INR (N - 1)) by (apply Rmult_le_pos; [lra|left; apply Rinv_0_lt_compat; auto]).
    assert (Ee : INR (N - 1) * ((r1 - 1) / INR (N - 1)) = r1 - 1) by (field; lra).
    assert (Val : forall j q, nth_error rf j = Some q -> (j < N)%nat /\ q = spaced 1 r1 N j).
    { intros j q Hq. assert (Hjl : (j < N)%nat). { assert (j < List.length rf)%nat by (apply nth_error_Some; congruence). rewrite Erf, map_length in Hlr. lia. }
      split; auto. specialize (Hi j Hjl). rewrite Erf, nth_error_map, Hq in Hi. cbn [option_map] in Hi. congruence. }
    split.
    + destruct (nth_error rf 0) as [q|] eqn:Eq; [|destruct rf; [congruence|discriminate]]. apply Val in Eq as [_ ->]. f_equal. unfold spaced. cbn [INR]. ring.
    + exists r1. split.
      * unfold last_opt. assert (Hr' : nth_error (rev (g_rf g)) 0 = Some (XFin (spaced 1 r1 N (N - 1)))).
        { rewrite (nth_error_nth' _ n_nan) by (rewrite rev_length; lia). rewrite rev_nth by lia. f_equal. apply nth_error_nth. rewrite Hlr. apply Hi. lia. }
        destruct (rev (g_rf g)); [discriminate|]. cbn in Hr'. injection Hr' as ->. do 2 f_equal. unfold spaced. field. lra.
      * intros j q Hq. apply Val in Hq as [Hjl ->]. unfold spaced.
        assert (0 <= INR j) by apply pos_INR. assert (INR j <= INR (N - 1)) by (apply le_INR; lia). split; nra.
Qed.

Theorem grid_error ll keep inter og l s : 1 <= x1 -> 1 <= y1 -> new_shallot E (EIs g) nf ll keep inter = (og, (l, Ok s)) ->
  let p := s_params s in
  let mid := (List.length (g_rf p) - 1)%nat in
  forall i j dy dx, nth_error (g_dy p) i = Some (XFin dy) -> nth_error (g_dx p) j = Some (XFin dx) -> dy <> 0 ->
  let radius k := cell (List.length (g_dx p)) (List.length (g_rfa p)) (p_data (cube_of WRadius s)) i j k in
  exists m, radius mid = Some (XFin m) /\
    ((exists e q, nth_error (g_rf p) e = Some (XFin q) /\ 1 < q) -> forall r ic t, eclipsing_disk dx dy r ic t -> m <= r + resolution n x1 y1 dx dy) /\
    forall e q k, nth_error (g_rf p) e = Some (XFin q) -> k = (mid + e)%nat \/ k = (mid - e)%nat ->
      exists r, radius k = Some (XFin r) /\ Rabs (r - q * m) <= 2 * resolution n x1 y1 dx dy.
Proof.
  intros H1x H1y H p mid i j dy dx Hi Hj Hd radius.
  destruct grid_fractions_le as (rf & Erf & Hne & Hl & Hrf0 & F & HF & Hr).
  destruct (@grid_columns E HE nf n Hn mnx mxx nx mny mxy ny mxr nr g x0 x1 y0 y1 r1 Sml V1 V2 V3 V4 V5 Hg Nx Ny Bx By ll keep inter og l s H i j dy dx Hi Hj) as (Hlr & b0 & dy' & dx' & col & Hdy & Hdx & Hcol & Cells); [tauto|].
  assert (Hd' : dy' <> 0) by (destruct Hdy; lra). unfold slope in Hcol. destruct (Req_EM_T dy' 0) as [|_]; [contradiction|].
  assert (Sq : dy' * dy' = dy * dy) by (destruct Hdy as [-> | ->]; ring).
  assert (Ra := Rabs_ratio Hd Hdx Hdy). assert (Er : radius_of dy' = sqrt (/ 2 * / 2 + dy * dy)) by (unfold radius_of; rewrite Sq; reflexivity).
  assert (Hrp : g_rf p = g_rf g).
  { assert (Hre : reachable g) by (eapply rc_new; exact Hg). destruct (g_ext g) eqn:Eg.
    - destruct (@constructor_reflects xr _ _ E g nf ll keep inter og l s Hre Eg H) as (Hx & _). fold p in Hx.
      destruct (@extend_mirrors mnx mxx nx mny mxy ny mxr nr g x0 x1 y0 y1 Sml V1 V2 V3 V4 Hg Eg Nx Ny Bx By) as (g' & Hx' & _ & _ & Hrf & _).
      rewrite Hx in Hx'. apply pair_equal_spec in Hx' as [Hp _]. subst g'. exact Hrf.
    - assert (Hp := reachable_proper Hre). apply constructor_result in H as (_ & [_ _ _ _ _ _ _ _ Hdd] & _); auto. destruct Hdd as [(_ & Ep & _)|(X & _)]; [|congruence]. unfold p. now rewrite Ep. }
  destruct (@grid_max n Hn mnx mxx nx mny mxy ny mxr nr g x0 x1 y0 y1 r1 Sml V1 V2 V3 V4 V5 Hg Nx Ny) as [Mx My].
  set (eta := Rmax (x1 / INR (n - 1) * (1 + (1 + Rabs (dx / dy)) / (4 * (dy * dy)))) (y1 / INR (n - 1) * (4 * (dy * dy) + (1 + Rabs (dx / dy))))).
  assert (Res : resolution n x1 y1 dx dy = radius_of dy' * eta) by (rewrite Er; reflexivity).
  assert (Hc := radius_pos dy').
  assert (E1 : x1 / INR (n - 1) * (1 + (1 + Rabs (- dx' / dy')) / (4 * (dy' * dy'))) <= eta) by (rewrite Ra, Sq; apply Rmax_l).
  assert (E2 : y1 / INR (n - 1) * (4 * (dy' * dy') + (1 + Rabs (- dx' / dy'))) <= eta) by (rewrite Ra, Sq; apply Rmax_r).
  destruct (@column_error E HE HS nf n Hnf Hn dy' (- dx' / dy') (radius_of dy') Hd' Hc g rf Erf Hne x1 y1 Mx My H1x H1y eta E1 E2 col F Hcol HF) as (m & Hm & Pm & Least & Sides).
  { intros k q _ Hq. apply (Hr k q Hq). }
  assert (Hmid : mid = (List.length rf - 1)%nat) by (unfold mid; rewrite Hrp, Erf, map_length; reflexivity). rewrite <- Hmid in *.
  assert (Hrl : (1 <= List.length rf)%nat) by (destruct rf; [congruence|cbn; lia]).
  assert (Cell : forall k v, (k < List.length (g_rfa g))%nat -> nth_error (c_dr col) k = Some v -> radius k = Some v).
  { intros k v Hk Hv. unfold radius. rewrite Cells by auto. cbn [part_of]. rewrite Hv. reflexivity. }
  exists m. split; [apply Cell; [lia|exact Hm]|]. rewrite Res. split.
  - intros (e & q & Hq & Hq1) r ic t Hdisk. rewrite Hrp, Erf, nth_error_map in Hq. destruct (nth_error rf e) as [q'|] eqn:Eq; [|discriminate]. cbn [option_map] in Hq. injection Hq as ->.
    assert (HF1 : 1 < F) by (destruct (Hr _ _ Eq); lra). destruct (eclipsing_mirror Hdx Hdy Hdisk) as (t' & Pr & Pi & C1 & C2).
    destruct (@disk_in_family dx' dy' r ic t' Hd' Pr Pi C1 C2) as (fy & Rm & _ & ->). apply Least; auto.
  - intros e q k Hq Hk. rewrite Hrp, Erf, nth_error_map in Hq. destruct (nth_error rf e) as [q'|] eqn:Eq; [|discriminate]. cbn [option_map] in Hq. injection Hq as ->.
    assert (Hel : (e < List.length rf)%nat) by (apply nth_error_Some; congruence). destruct e as [|e].
    + rewrite Hrf0 in Eq. injection Eq as <-. rewrite Nat.add_0_r, Nat.sub_0_r in Hk. assert (k = mid) by tauto. subst k. exists m. split; [apply Cell; [lia|exact Hm]|].
      replace (m - 1 * m) with 0 by ring. rewrite Rabs_R0. assert (0 <= eta); [|nra]. eapply Rle_trans; [|exact E2]. assert (P : 0 < INR (n - 1)) by (apply lt_0_INR; lia).
      assert (Ps := Rabs_pos (- dx' / dy')). apply Rmult_le_pos; [apply Rmult_le_pos; [lra|left; apply Rinv_0_lt_compat; auto]|]. assert (0 <= dy' * dy') by apply Rle_0_sqr. lra.
    + destruct (Sides (S e) q ltac:(lia) Eq k Hk) as (r & Hr' & He). exists r. split; auto. apply Cell; auto. destruct Hk; lia.
Qed.
End W.

(** finer samples make the difference as small as one likes *)
Lemma resolution_vanishes x1 y1 dx dy : forall eps, 0 < eps -> exists N, forall n, (N <= n)%nat -> Rabs (resolution n x1 y1 dx dy) < eps.
Proof.
  intros eps He. set (A := x1 * (1 + (1 + Rabs (dx / dy)) / (4 * (dy * dy)))). set (B := y1 * (4 * (dy * dy) + (1 + Rabs (dx / dy)))). set (c := sqrt (/ 2 * / 2 + dy * dy)).
  assert (Pc : 0 <= c) by apply sqrt_pos. set (K := c * (Rabs A + Rabs B)). assert (PK : 0 <= K) by (apply Rmult_le_pos; auto; assert (X := Rabs_pos A); assert (Y := Rabs_pos B); lra).
  destruct (archimed (K / eps)) as [HN _]. set (N := Z.to_nat (up (K / eps))).
  assert (HN2 : K / eps < INR N). { assert (0 <= K / eps) by (apply Rmult_le_pos; [auto|left; apply Rinv_0_lt_compat; auto]). unfold N. rewrite INR_IZR_INZ, Z2Nat.id; auto. apply le_IZR. lra. } exists (N + 2)%nat. intros n Hn.
  assert (P : 0 < INR (n - 1)) by (apply lt_0_INR; lia). assert (HN' : INR N <= INR (n - 1)) by (apply le_INR; lia).
  unfold resolution. replace (x1 / INR (n - 1) * (1 + (1 + Rabs (dx / dy)) / (4 * (dy * dy)))) with (A / INR (n - 1)) by (unfold A; unfold Rdiv; ring).
  replace (y1 / INR (n - 1) * (4 * (dy * dy) + (1 + Rabs (dx / dy)))) with (B / INR (n - 1)) by (unfold B, Rdiv; ring). fold c.
  apply Rle_lt_trans with (K / INR (n - 1)).
  - rewrite Rabs_mult, (Rabs_pos_eq c) by auto. unfold K, Rdiv. rewrite Rmult_assoc. apply Rmult_le_compat_l; auto.
    assert (I : 0 < / INR (n - 1)) by (apply Rinv_0_lt_compat; auto). assert (X := Rabs_pos A). assert (Y := Rabs_pos B).
    assert (Rabs (Rmax (A * / INR (n - 1)) (B * / INR (n - 1))) <= Rabs (A * / INR (n - 1)) + Rabs (B * / INR (n - 1))).
    { assert (Z1 := Rabs_pos (A * / INR (n - 1))). assert (Z2 := Rabs_pos (B * / INR (n - 1))). unfold Rmax. destruct (Rle_dec _ _); lra. }
    rewrite !Rabs_mult, !(Rabs_pos_eq (/ INR (n - 1))) in H by lra. lra.
  - apply (Rmult_lt_reg_r (INR (n - 1))); auto. unfold Rdiv. rewrite Rmult_assoc, Rinv_l by lra. rewrite Rmult_1_r.
    assert (E : K = K / eps * eps) by (field; lra). rewrite E. rewrite (Rmult_comm eps). apply Rmult_lt_compat_r; auto. lra.
Qed.
