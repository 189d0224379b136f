(** The diagnostics kept while a grid is built, and what is found there afterwards. *)
From Coq Require Import ZArith Reals List Bool String Lia Lra.
From Verif Require Import Num NumP Py SpecNum Validate ValidateP Ring RingP RingSystem XLibm FS FSP GridParams SpecGrid GridParamsP GridParamsXP GridDiag GridDiagP GridCrashP
  Names GridProp SpecProp GridPropP Geometry SpecGeom GeomP GeomMoreP EdgeP Build SpecBuild BuildP BuildQP StretchP BuildXP InterpP Shallot BuildGP BuildGridP BuildCP BuildDP BuildEP BuildFP BuildHP ColumnP WholeP SpecError.
Import ListNotations.
Set Implicit Arguments.

Section K.
Context {T : Type} {NT : Num T} {LT : NumLaws T} (E : env T).
Notation pyval := (pyval T).
Notation key y x := (KInt (Z.of_nat y), KInt (Z.of_nat x)).

(** what is stored for the point (y, x) *)
Definition stored (d : gdiag T) (y x : nat) := (dget (d_fy d) (key y x), dget (d_dr d) (key y x)).
Definition holds (D : nat -> nat -> bool) (s : shallot T) (d : gdiag T) : Prop :=
  d_my d = Z.of_nat (ny_of s) /\ d_mx d = Z.of_nat (nx_of s) /\ d_ext d = false /\
  (forall y x, ny_of s <= y \/ nx_of s <= x -> stored d y x = (None, None)) /\
  forall y x, y < ny_of s -> x < nx_of s ->
    if D y x && negb (n_isnan (shear_of s y x))
    then exists col, point_of E s y x = Ok col /\ stored d y x = (Some (map (@SF T) (c_fys col)), Some (map (@SF T) (c_drs col)))
    else stored d y x = (None, None).

Lemma sampled_len (g : gparams T) nf dy s c col : grid_point E g nf dy s c = Ok col -> List.length (c_fys col) = List.length (c_drs col).
Proof.
  intros H. unfold grid_point in H. destruct (last_opt (g_rf g)) as [F|]; cbn [bind] in H; [|discriminate].
  destruct (extend_horizontally _ _ _ _ _ _ _ _ _) as [h|] eqn:Eh; cbn [bind] in H; [|discriminate].
  destruct (extend_vertically _ _ _ _ _ _ _ _ _) as [v|] eqn:Ev; cbn [bind] in H; [|discriminate].
  destruct (interpolate _ _ _ _ _) as [[fx fy]|] eqn:Ei; cbn [bind fst snd] in H; [|discriminate].
  destruct (disk_arrays _ _ _ _ _) as [dk|] eqn:Ed; cbn [bind] in H; [|discriminate]. injection H as <-. cbn [c_fys c_drs].
  exact (Forall2_len (samples _ _ _ _ _ _ _ _ Eh Ev)).
Qed.
Lemma key_inj y x y' x' : key y x = key y' x' -> y = y' /\ x = x'.
Proof. intros H. injection H as H1 H2. lia. Qed.

Lemma holds_ext D D' s d : (forall y x, y < ny_of s -> x < nx_of s -> D y x = D' y x) -> holds D s d -> holds D' s d.
Proof. intros HD (A & B & C & O & H). split; auto. split; auto. split; auto. split; auto. intros y x Hy Hx. specialize (H y x Hy Hx). rewrite HD in H by auto. exact H. Qed.
Lemma holds_others D s s' d : others s' = others s -> holds D s d -> holds D s' d.
Proof.
  intros Ho (A & B & C & O & H). destruct (others_sizes E Ho) as (Ey & Ex & Es & Ep). split; [congruence|]. split; [congruence|]. split; auto.
  split; [intros y x; rewrite Ey, Ex; apply O|].
  intros y x Hy Hx. rewrite Es, Ep. apply H; congruence.
Qed.

Lemma stored_same (d : gdiag T) e y x a b : stored (mkGD (d_my d) (d_mx d) (dput (d_fy d) (key y x) a) (dput (d_dr d) (key y x) b) e) y x = (Some a, Some b).
Proof. unfold stored. cbn [d_fy d_dr]. rewrite !dget_same. reflexivity. Qed.
Lemma stored_other (d : gdiag T) e y x y' x' a b : ~ (y' = y /\ x' = x) ->
  stored (mkGD (d_my d) (d_mx d) (dput (d_fy d) (key y x) a) (dput (d_dr d) (key y x) b) e) y' x' = stored d y' x'.
Proof. intros H. unfold stored. cbn [d_fy d_dr]. rewrite !dget_other by (intros X; apply H, key_inj; exact X). reflexivity. Qed.

Lemma point_holds nr D s d y x s' : shapely nr s -> y < ny_of s -> x < nx_of s -> s_diag s = Some d -> holds D s d -> build_point E y s x = Ok s' ->
  exists d', s_diag s' = Some d' /\ holds (fun y' x' => D y' x' || (Nat.eqb y' y && Nat.eqb x' x)) s' d'.
Proof.
  intros Hs Hy Hx Hd Hh H. assert (U := point_updated E Hs Hy Hx H). destruct U as (Ho & _).
  unfold build_point in H. fold (nx_of s) in H. fold (shear_of s y x) in H. destruct (n_isnan (shear_of s y x)) eqn:En.
  { injection H as <-. exists d. split; auto. destruct Hh as (A & B & C & O & Hh). split; auto. split; auto. split; auto. split; auto. intros y' x' Hy' Hx'. specialize (Hh y' x' Hy' Hx').
    destruct (Nat.eqb_spec y' y) as [->|]; [destruct (Nat.eqb_spec x' x) as [->|]|]; cbn [andb]; rewrite ?orb_false_r; auto.
    rewrite En in *. cbn [negb] in *. rewrite andb_false_r in *. exact Hh. }
  fold (point_of E s y x) in H. destruct (point_of E s y x) as [col|] eqn:Ep; cbn [bind] in H; [|discriminate].
  destruct (put_column (s_dr s) y x (c_dr col)) as [p1|] eqn:E1; cbn [bind] in H; [|discriminate].
  destruct (put_column (s_inc s) y x (c_inc col)) as [p2|] eqn:E2; cbn [bind] in H; [|discriminate].
  destruct (put_column (s_tilt s) y x (c_tilt col)) as [p3|] eqn:E3; cbn [bind] in H; [|discriminate].
  destruct (put_column (s_fx s) y x (c_fx col)) as [p4|] eqn:E4; cbn [bind] in H; [|discriminate].
  destruct (put_column (s_fy s) y x (c_fy col)) as [p5|] eqn:E5; cbn [bind] in H; [|discriminate].
  cbn [with_cubes s_diag] in H. rewrite Hd in H. destruct Hh as (A & B & C & O & Hh).
  rewrite save_ok in H.
  - injection H as <-. eexists. split; [reflexivity|]. apply (holds_others Ho). unfold holds. cbn [d_my d_mx d_ext]. split; auto. split; auto. split; auto.
    cbn [kcomp_of elems]. change (int_of (PInt (Z.of_nat y) : pyval)) with (Z.of_nat y). change (int_of (PInt (Z.of_nat x) : pyval)) with (Z.of_nat x). split; [intros y' x' Ho'; rewrite stored_other by lia; apply O; exact Ho'|]. intros y' x' Hy' Hx'. destruct (Nat.eqb_spec y' y) as [->|Ny]; [destruct (Nat.eqb_spec x' x) as [->|Nx]|]; cbn [andb].
    + rewrite orb_true_r, En. cbn [negb andb]. exists col. split; auto. apply stored_same.
    + rewrite orb_false_r, stored_other by tauto. apply Hh; auto.
    + rewrite orb_false_r, stored_other by tauto. apply Hh; auto.
  - exact C.
  - exists (List.length (c_fys col)), (map (@SF T) (c_fys col)), (map (@SF T) (c_drs col)). split; [reflexivity|]. unfold point_of in Ep. rewrite (sampled_len _ _ _ _ _ Ep). reflexivity.
  - rewrite A. split; [constructor|]. cbn [zof]. lia.
  - rewrite B. split; [constructor|]. cbn [zof]. lia.
Qed.

Lemma points_hold nr y xs D s d s' : shapely nr s -> y < ny_of s -> (forall x, In x xs -> x < nx_of s) -> s_diag s = Some d -> holds D s d ->
  fold_res (build_point E y) xs s = Ok s' ->
  exists d', s_diag s' = Some d' /\ holds (fun y' x' => D y' x' || (Nat.eqb y' y && existsb (Nat.eqb x') xs)) s' d'.
Proof.
  revert D s d; induction xs as [|x xs IH]; intros D s d Hs Hy Hxs Hd Hh H; cbn [fold_res] in H.
  - injection H as <-. exists d. split; auto. eapply holds_ext; [|exact Hh]. intros. cbn [existsb]. now rewrite andb_false_r, orb_false_r.
  - destruct (build_point E y s x) as [s1|] eqn:E1; cbn [bind] in H; [|discriminate].
    assert (U1 := point_updated E Hs Hy (Hxs x (or_introl eq_refl)) E1). destruct (others_sizes E (proj1 U1)) as (Ey & Ex & _).
    destruct (@point_holds nr D s d y x s1 Hs Hy (Hxs x (or_introl eq_refl)) Hd Hh E1) as (d1 & Hd1 & Hh1).
    destruct (IH _ s1 d1 (updated_shapely U1 Hs) ltac:(now rewrite Ey) ltac:(intros z Hz; rewrite Ex; apply Hxs; now right) Hd1 Hh1 H) as (d2 & Hd2 & Hh2).
    exists d2. split; auto. eapply holds_ext; [|exact Hh2]. intros y' x' _ _. cbn beta. cbn [existsb]. destruct (D y' x'), (Nat.eqb y' y); reflexivity.
Qed.

Lemma rows_hold nr inter ys D s d l s' : shapely nr s -> (forall y, In y ys -> y < ny_of s) -> s_diag s = Some d -> holds D s d ->
  build_rows E inter ys s = (l, Ok s') ->
  exists d', s_diag s' = Some d' /\ holds (fun y' x' => D y' x' || existsb (Nat.eqb y') ys) s' d'.
Proof.
  revert D s d l; induction ys as [|y ys IH]; intros D s d l Hs Hys Hd Hh H; cbn [build_rows] in H.
  - injection H as _ <-. exists d. split; auto. eapply holds_ext; [|exact Hh]. intros. cbn [existsb]. now rewrite orb_false_r.
  - destruct (build_row E s y) as [s1|] eqn:E1; [|discriminate].
    assert (U := row_updated E Hs (Hys y (or_introl eq_refl)) E1). destruct (others_sizes E (proj1 U)) as (Ey & Ex & _).
    unfold build_row in E1. fold (nx_of s) in E1.
    destruct (@points_hold nr y (seq 0 (nx_of s)) D s d s1 Hs (Hys y (or_introl eq_refl)) ltac:(intros x Hx; now apply in_seq0 in Hx) Hd Hh E1) as (d1 & Hd1 & Hh1).
    destruct (build_rows E inter ys s1) as [l2 r2] eqn:E2.
    assert (r2 = Ok s') by congruence. subst r2.
    destruct (IH _ s1 d1 l2 (updated_shapely U Hs) ltac:(intros z Hz; rewrite Ey; apply Hys; now right) Hd1 Hh1 E2) as (d2 & Hd2 & Hh2).
    exists d2. split; auto. destruct (@rows_updated T NT E nr inter ys s1 l2 s' (updated_shapely U Hs) ltac:(intros z Hz; rewrite Ey; apply Hys; now right) E2) as (Ho2 & _).
    destruct (others_sizes E Ho2) as (Ey2 & Ex2 & _).
    eapply holds_ext; [|exact Hh2]. intros y' x' Hy' Hx'. cbn beta. cbn [existsb]. rewrite existsb_seq. cbn [Nat.leb andb Nat.add].
    rewrite Ex2, Ex in Hx'. rewrite (proj2 (Nat.ltb_lt x' (nx_of s)) Hx'). rewrite andb_true_r. destruct (D y' x'), (Nat.eqb y' y); reflexivity.
Qed.

(** the samples of the point (y, x) of the quadrant *)
Definition samples_at (g : gparams T) (nf : pyval) (d : gdiag T) (y x : nat) : Prop :=
  let dy := nth y (g_dy g) n_nan in let sh := shear_at (nth x (g_dx g) n_nan) dy in
  if n_isnan sh then stored d y x = (None, None)
  else exists col, grid_point E g nf dy sh (circular_radius (e_libm E) dy) = Ok col /\ stored d y x = (Some (map (@SF T) (c_fys col)), Some (map (@SF T) (c_drs col))).

Lemma built_diag (g : gparams T) nf inter l s : consistent g -> build_grid E (fresh_shallot E g nf (Some (new_diag g))) inter (PInt 0) = (l, Ok s) ->
  exists d, s_diag s = Some d /\ d_my d = Z.of_nat (List.length (g_dy g)) /\ d_mx d = Z.of_nat (List.length (g_dx g)) /\ d_ext d = false /\
    (forall y x, List.length (g_dy g) <= y \/ List.length (g_dx g) <= x -> stored d y x = (None, None)) /\
    forall y x, y < List.length (g_dy g) -> x < List.length (g_dx g) -> samples_at g nf d y x.
Proof.
  intros Hg H. unfold build_grid in H. change (s_params (fresh_shallot E g nf (Some (new_diag g)))) with g in H. rewrite number_start in H. change (int_of (PInt 0 : pyval)) with 0%Z in H. cbn [Z.eqb] in H.
  rewrite init_ok in H. change (s_params (fresh_shallot E g nf (Some (new_diag g)))) with g in H. change (Z.to_nat 0) with 0 in H.
  set (s0 := with_all (fresh_shallot E g nf (Some (new_diag g))) (nan_cube g)) in *. change (s_params s0) with g in H. rewrite Nat.sub_0_r in H.
  destruct (build_rows E inter (seq 0 (List.length (g_dy g))) s0) as [l1 [s1|]] eqn:E1; [|discriminate].
  set (nr := List.length (g_rfa g)).
  assert (Hsh := consistent_shape3 Hg).
  assert (S0 : shapely nr s0).
  { intros w. unfold s0. rewrite cube_with_all, nan_cube_shape, nan_cube_data, repeat_length, Hsh, volume3. split; reflexivity. }
  assert (Y0 : forall y, In y (seq 0 (List.length (g_dy g))) -> y < ny_of s0) by (intros y Hy; apply in_seq0 in Hy; exact Hy).
  assert (U := @rows_updated T NT E nr inter _ s0 l1 s1 S0 Y0 E1).
  destruct U as (Ho & _ & _). assert (Hm : s_dmap s1 = None /\ s_grads s1 = None) by exact (others_extra Ho).
  rewrite (set_contrasts_ok _ (proj1 Hm) (proj2 Hm)) in H. injection H as _ <-.
  assert (Hsize : g_shape g = (List.length (g_dy g), List.length (g_dx g), List.length (g_rfa g))).
  { unfold shape3 in Hsh. destruct (g_shape g) as [[a b] c]. injection Hsh as -> -> ->. reflexivity. }
  assert (H0 : holds (fun _ _ => false) s0 (new_diag g)).
  { unfold holds, new_diag. rewrite Hsize. cbn [d_my d_mx d_ext]. split; [reflexivity|]. split; [reflexivity|]. split; [reflexivity|]. split; [reflexivity|]. intros y x _ _. cbn [andb]. reflexivity. }
  destruct (@rows_hold nr inter _ _ s0 (new_diag g) l1 s1 S0 Y0 eq_refl H0 E1) as (d & Hd & Hh).
  exists d. split; [exact Hd|]. destruct Hh as (A & B & C & O & Hh). destruct (others_sizes E Ho) as (Ey & Ex & Es & Ep). rewrite Ey in *. rewrite Ex in *. split; [exact A|]. split; [exact B|]. split; [exact C|]. split; [exact O|].
  intros y x Hy Hx. specialize (Hh y x Hy Hx). rewrite Es, Ep, existsb_seq in Hh. cbn [Nat.leb Nat.add andb orb] in Hh. rewrite (proj2 (Nat.ltb_lt y _) Hy) in Hh. cbn [andb] in Hh.
  unfold point_of, shear_of in Hh. change (nx_of s0) with (List.length (g_dx g)) in Hh. change (s_shear s0) with (shear_of_params g) in Hh.
  change (s_params s0) with g in Hh. change (s_nf s0) with nf in Hh. change (s_radius s0) with (radius_of_params E g) in Hh.
  rewrite shear_params, radius_params in Hh by auto. unfold samples_at. cbn zeta. destruct (n_isnan (shear_at _ _)); exact Hh.
Qed.

(** after the constructor *)
Theorem constructed_diag (g : gparams T) nf ll inter og l s : proper g -> new_shallot E (EIs g) nf ll (PBool true) inter = (og, (l, Ok s)) ->
  exists d, s_diag s = Some d /\ d_my d = Z.of_nat (List.length (g_dy g)) /\ d_mx d = Z.of_nat (List.length (g_dx g)) /\ d_ext d = g_ext g /\
    (forall y x, List.length (g_dy g) <= y \/ List.length (g_dx g) <= x -> stored d y x = (None, None)) /\
    forall y x, y < List.length (g_dy g) -> x < List.length (g_dx g) -> samples_at g nf d y x.
Proof.
  intros Hpr H. unfold new_shallot in H.
  destruct (number ll _ _ _ _); cbn [bind class_arg] in H; [|discriminate].
  destruct (number nf true (PInt 1) p_inf false) as [nf'|] eqn:En; cbn [bind] in H; [|discriminate].
  assert (nf' = nf) as -> by exact (number_same _ _ _ _ _ En).
  cbn [boolean_v bind] in H. destruct (boolean_v inter) as [it|] eqn:Ei; cbn [bind] in H; [|discriminate].
  destruct (build_grid E (fresh_shallot E g nf (Some (new_diag g))) it (PInt 0)) as [l1 [s1|]] eqn:Eb; [|discriminate].
  destruct (@built_diag g nf it l1 s1 (pr_cons Hpr) Eb) as (d & Hd & A & B & C & O & Hs).
  destruct (@built T NT LT E g nf _ it l1 s1 (pr_cons Hpr) Eb) as (Ho & _ & Hw).
  assert (Hg1 : s_params s1 = g). { unfold others in Ho. inversion Ho. reflexivity. }
  assert (Hpl : forall w, plain g w (cube_of w s1)). { intros w. destruct (Hw w) as (data & -> & Hl & _). apply built_plain; auto. apply Hpr. }
  destruct (finish_shallot E s1) as [g' r] eqn:Ef. injection H as _ _ ->.
  unfold finish_shallot in Ef. destruct (extend_shallot E s1) as [g2 [s2|]] eqn:E2; [|discriminate].
  assert (Hdd : s_diag s = s_diag s2).
  { unfold diagnose_shallot in Ef. destruct (diagnose _ _) as [m|]; cbn [bind] in Ef; [|discriminate]. injection Ef as _ <-. reflexivity. }
  rewrite Hdd. destruct (extend_shallot_needs E _ E2) as [Hx|Hx]; rewrite Hg1 in Hx.
  - assert (Hr := extend_refused _ Hx). unfold extend_shallot in E2. rewrite Hg1, Hr in E2. injection E2 as _ <-. exists d. rewrite Hx. auto 10.
  - destruct (@extend_fill T NT LT E g g2 s1 (pr_cons Hpr) Hg1 Hpl Hx) as (s3 & E3 & _ & Hdg & _). rewrite E2 in E3. injection E3 as <-.
    destruct (extended_sizes (pr_cons Hpr) Hx) as (He & _). exists (diag_extend d). rewrite Hdg, Hd. split; [reflexivity|]. cbn [diag_extend d_my d_mx d_ext]. rewrite He. auto 10.
Qed.

(** looking up *)
Lemma lookup_plain (d : gdiag T) y x : d_ext d = false -> (Z.of_nat y < d_my d)%Z -> (Z.of_nat x < d_mx d)%Z ->
  get_diagnostic d (PInt (Z.of_nat y)) (PInt (Z.of_nat x)) = match stored d y x with (Some a, Some b) => Ok (a, b) | _ => Err KeyError end.
Proof.
  intros He Hy Hx. unfold get_diagnostic. rewrite gen_key_ok; [|exact He|split; [constructor|cbn [zof]; lia]|split; [constructor|cbn [zof]; lia]].
  cbn [bind kcomp_of int_of]. reflexivity.
Qed.
Lemma lookup_extended (d : gdiag T) y x : d_ext d = true -> (Z.of_nat y < 2 * d_my d - 1)%Z -> (Z.of_nat x < 2 * d_mx d - 1)%Z ->
  get_diagnostic d (PInt (Z.of_nat y)) (PInt (Z.of_nat x)) =
  match stored d (Z.to_nat (Z.abs (Z.of_nat y - d_my d))) (Z.to_nat (Z.abs (Z.of_nat x - d_mx d))) with (Some a, Some b) => Ok (a, b) | _ => Err KeyError end.
Proof.
  intros He Hy Hx. unfold get_diagnostic, gen_key. rewrite He.
  replace (2 * (d_my d - 1))%Z with (2 * d_my d - 1 - 1)%Z by lia. replace (2 * (d_mx d - 1))%Z with (2 * d_mx d - 1 - 1)%Z by lia.
  rewrite (@index_number T NT (PInt (Z.of_nat y)) (2 * d_my d - 1)) by (split; [constructor|cbn [zof]; lia]). cbn [bind].
  rewrite (@index_number T NT (PInt (Z.of_nat x)) (2 * d_mx d - 1)) by (split; [constructor|cbn [zof]; lia]). cbn [bind int_of].
  unfold stored. rewrite !Z2Nat.id by apply Z.abs_nonneg. reflexivity.
Qed.
End K.

Local Open Scope R_scope.
Notation sf l := (map (fun v => SF (XFin v)) l).

Lemma good_flip (dx dy dx' dy' : R) ys ds m : (dx' = dx \/ dx' = - dx) -> (dy' = dy \/ dy' = - dy) -> good_samples dx' dy' ys ds m -> good_samples dx dy ys ds m.
Proof.
  intros Hx Hy (A & B & C & D). split; auto. split; auto. split; auto. intros Hd. assert (Hd' : dy' <> 0) by (destruct Hy; lra).
  specialize (D Hd'). clear A B C. induction D as [|a b la lb (fx & i & t & Hc) _ IH]; constructor; auto. exists fx, i.
  destruct Hx as [-> | ->], Hy as [-> | ->].
  - eauto.
  - exists (180 - t). apply casts_mirror_y in Hc; [|lra]. rewrite Ropp_involutive in Hc. exact Hc.
  - exists (180 - t). apply casts_mirror_x in Hc. rewrite Ropp_involutive in Hc. exact Hc.
  - exists t. apply casts_mirror_xy in Hc; [|lra]. rewrite !Ropp_involutive in Hc. exact Hc.
Qed.

Section W.
Context (E : env xr) (HE : e_libm E = Libm_xr) (HS : brackets (e_search E)) (nf : pyval xr) (n : nat) (Hnf : num_index nf = Ok n) (Hn : (2 <= n)%nat).
Context (mnx mxx nx mny mxy ny mxr nr : pyval xr) (g : gparams xr) (x0 x1 y0 y1 r1 : R).
Context (Sml : Forall small [mnx; mxx; nx; mny; mxy; ny; mxr; nr])
  (V1 : value mnx = XFin x0) (V2 : value mxx = XFin x1) (V3 : value mny = XFin y0) (V4 : value mxy = XFin y1) (V5 : value mxr = XFin r1)
  (Hg : new_params mnx mxx nx mny mxy ny mxr nr = Ok g) (Nx : (2 <= zof nx)%Z) (Ny : (2 <= zof ny)%Z) (Bx : (2 * zof nx <= 2 ^ 53)%Z) (By : (2 * zof ny <= 2 ^ 53)%Z)
  (H1x : 1 <= x1) (H1y : 1 <= y1).

Lemma map_sf l : map (@SF xr) (map XFin l) = sf l.
Proof. apply map_map. Qed.

(** a point of the quadrant *)
Lemma quadrant_samples d y x dy dx : nth_error (g_dy g) y = Some (XFin dy) -> nth_error (g_dx g) x = Some (XFin dx) -> samples_at E g nf d y x ->
  (dy = 0 -> dx <> 0 -> stored d y x = (None, None)) /\
  ((dy = 0 -> dx = 0) -> exists ys ds m, stored d y x = (Some (sf ys), Some (sf ds)) /\ good_samples dx dy ys ds m /\
    forall data, quadrant E g nf WRadius data -> cell (List.length (g_dx g)) (List.length (g_rfa g)) data y x (List.length (g_rf g) - 1) = Some (XFin m)).
Proof.
  intros Hy Hx H. unfold samples_at in H. cbn zeta in H. rewrite (nth_error_nth _ _ _ Hy), (nth_error_nth _ _ _ Hx), shear_xr, HE, radius_xr in H. split.
  - intros -> Hz. destruct (Req_EM_T 0 0); [|lra]. destruct (Req_EM_T dx 0); [contradiction|]. exact H.
  - intros Hz. set (sl := if Req_EM_T dy 0 then 0 else - dx / dy).
    assert (Hs : shear_at (XFin dx) (XFin dy) = XFin sl).
    { rewrite shear_xr. unfold sl. destruct (Req_EM_T dy 0) as [Ed|]; [|reflexivity]. destruct (Req_EM_T dx 0); [reflexivity|]. exfalso; auto. }
    rewrite <- shear_xr, Hs in H. cbn [n_isnan Num_xr x_isnan] in H. destruct H as (col & Hcol & Hst).
    destruct (@grid_rf n Hn mnx mxx nx mny mxy ny mxr nr g x0 x1 y0 y1 r1 Sml V1 V2 V3 V4 V5 Hg) as (rf & Erf & Hne & Hrl).
    destruct (@grid_max n Hn mnx mxx nx mny mxy ny mxr nr g x0 x1 y0 y1 r1 Sml V1 V2 V3 V4 V5 Hg Nx Ny) as [Mx My].
    assert (Hc := radius_pos dy).
    destruct (@column_open E HE nf n Hnf Hn dy sl (radius_of dy) Hc g rf Erf Hne x1 y1 Mx My H1x H1y col Hcol) as (ys & ds & Ey & Eds & Sm & _).
    assert (Hrf : g_rf g <> []) by (rewrite Erf; destruct rf; [congruence|discriminate]).
    assert (Hsl : dy = 0 -> sl = 0) by (intros X; unfold sl; destruct (Req_EM_T dy 0); [reflexivity|contradiction]).
    destruct (@middle_radius E HE nf n Hnf Hn dy sl (radius_of dy) Hc g x1 y1 col Hrf Hsl Mx My H1x H1y Hcol) as (m & Hm & Hin & Pm & Hall).
    exists ys, ds, m. split; [rewrite Hst, Ey, Eds, !map_sf; reflexivity|]. split.
    + rewrite Eds in Hin, Hall. split; [exact (Forall2_len Sm)|]. split.
      { apply in_map_iff in Hin as (q & Hq & Hin). injection Hq as ->. exact Hin. }
      split.
      { intros r Hr. destruct (Hall (XFin r)) as (q & Hq & Hle); [apply in_map; exact Hr|]. injection Hq as ->. lra. }
      intros Hd. clear - Sm Hd Hc Hnf. unfold sl in Sm. destruct (Req_EM_T dy 0) as [|_]; [contradiction|].
      induction Sm as [|a b la lb Hab _ IH]; constructor; auto. destruct (sampled_roomy Hd Hab) as (fy & Ef & Er & Hr). injection Ef as ->. injection Er as ->.
      destruct (fx_roomy Hr) as [Ex Px]. destruct Hr as [Pf _].
      destruct (@disk_is_ellipse (fx_of dy fy) fy (- dx / dy) (radius_of dy) Px Pf Hc) as (r & i & t & Hp & _). assert (Hp' := Hp). rewrite disk_xr in Hp' by auto.
      apply pair_equal_spec in Hp' as [Hp' _]. apply pair_equal_spec in Hp' as [Hp' _]. injection Hp' as Hp'. exists (fx_of dy fy), i, t. rewrite Hp'. apply disk_casts; auto.
    + intros data [_ Hq]. assert (Hyl : (y < List.length (g_dy g))%nat) by (apply nth_error_Some; congruence).
      assert (Hxl : (x < List.length (g_dx g))%nat) by (apply nth_error_Some; congruence).
      specialize (Hq y x Hyl Hxl). unfold column_spec in Hq. cbn zeta in Hq. rewrite (nth_error_nth _ _ _ Hy), (nth_error_nth _ _ _ Hx), Hs, HE, radius_xr in Hq.
      cbn [n_isnan Num_xr x_isnan] in Hq. destruct Hq as (col' & Hcol' & Ec). rewrite Hcol in Hcol'. assert (col' = col) by congruence. subst col'.
      rewrite <- column_cell; [rewrite Ec; exact Hm|rewrite Hrl, Erf, map_length; destruct rf; [congruence|cbn [List.length]; lia]].
Qed.

Lemma abs_shift k i : (1 <= i)%nat -> (i < 2 * k - 1)%nat -> Z.to_nat (Z.abs (Z.of_nat i - Z.of_nat k)) = from_middle k (i - 1).
Proof. intros H1 H2. unfold from_middle. destruct (Nat.leb_spec (i - 1) (k - 1)); lia. Qed.

Theorem kept_diagnostics ll inter og l s : new_shallot E (EIs g) nf ll (PBool true) inter = (og, (l, Ok s)) ->
  let p := s_params s in let o := if g_ext g then 1%nat else 0%nat in
  exists d, s_diag s = Some d /\ forall i j, (i < List.length (g_dy p))%nat -> (j < List.length (g_dx p))%nat ->
    let got := get_diagnostic d (PInt (Z.of_nat i)) (PInt (Z.of_nat j)) in
    ((i < o \/ j < o)%nat -> got = Err KeyError) /\
    forall dy dx, (o <= i)%nat -> (o <= j)%nat -> nth_error (g_dy p) (i - o) = Some (XFin dy) -> nth_error (g_dx p) (j - o) = Some (XFin dx) ->
      (dy = 0 -> dx <> 0 -> got = Err KeyError) /\
      ((dy = 0 -> dx = 0) -> exists ys ds m, got = Ok (sf ys, sf ds) /\ good_samples dx dy ys ds m /\
        cell (List.length (g_dx p)) (List.length (g_rfa p)) (p_data (s_dr s)) (i - o) (j - o) (List.length (g_rf p) - 1) = Some (XFin m)).
Proof.
  intros H p o. assert (Hr : reachable g) by (eapply rc_new; exact Hg). assert (Hp := reachable_proper Hr).
  destruct (@constructed_diag xr _ _ E g nf ll inter og l s Hp H) as (d & Hd & Dy & Dx & De & Out & Sam). exists d. split; auto. intros i j Hi Hj got.
  destruct (new_params_spaced Sml V1 V2 V3 V4 V5 Hg) as (L1 & L2 & _ & Sx & _ & Sy & _ & _ & _ & Ex). specialize (Sx Nx). specialize (Sy Ny).
  destruct (@grid_rf n Hn mnx mxx nx mny mxy ny mxr nr g x0 x1 y0 y1 r1 Sml V1 V2 V3 V4 V5 Hg) as (rf & Erf & Hne & Hrl).
  assert (Hmid : (List.length (g_rf g) - 1 < List.length (g_rfa g))%nat) by (rewrite Hrl, Erf, map_length; destruct rf; [congruence|cbn [List.length]; lia]).
  destruct (g_ext g) eqn:Eg; unfold o in *; clear o.
  - destruct (@constructor_reflects xr _ _ E g nf ll (PBool true) inter og l s Hr Eg H) as (Hx & Hq). fold p in Hx.
    destruct (@extend_mirrors mnx mxx nx mny mxy ny mxr nr g x0 x1 y0 y1 Sml V1 V2 V3 V4 Hg Eg Nx Ny Bx By) as (g' & Hx' & Mx & My & Hrf & Hrfa & _).
    rewrite Hx in Hx'. assert (g' = p) by congruence. subst g'. clear Hx'.
    set (ly := List.length (g_dy g)) in *. set (lx := List.length (g_dx g)) in *.
    assert (Lp : List.length (g_dx p) = (2 * lx - 1)%nat) by (apply Mx). assert (Lq : List.length (g_dy p) = (2 * ly - 1)%nat) by (apply My).
    assert (G : got = match stored d (Z.to_nat (Z.abs (Z.of_nat i - d_my d))) (Z.to_nat (Z.abs (Z.of_nat j - d_mx d))) with (Some a, Some b) => Ok (a, b) | _ => Err KeyError end)
      by (apply lookup_extended; [exact De|rewrite Dy; lia|rewrite Dx; lia]).
    rewrite Dy, Dx in G. split.
    + intros Hz. rewrite G, Out; [reflexivity|]. destruct Hz; [left|right]; lia.
    + intros dy dx Oi Oj Ny' Nx'. rewrite !abs_shift in G by lia.
      destruct (@mirrored_at _ Hn _ _ _ _ My (spaced_fin Sy) Ny') as [Bi Ci]. destruct (@mirrored_at _ Hn _ _ _ _ Mx (spaced_fin Sx) Nx') as [Bj Cj]. fold ly in Bi, Ci. fold lx in Bj, Cj.
      destruct (@quadrant_samples d _ _ _ _ Ci Cj) as [Q1 Q2]; [apply Sam; apply from_middle_lt; auto|]. fold ly lx in Q1, Q2.
      assert (Fy : let dy' := if Nat.ltb (i - 1) ly then - dy else dy in dy' = dy \/ dy' = - dy) by (cbn zeta; destruct (Nat.ltb (i - 1) ly); auto).
      assert (Fx : let dx' := if Nat.ltb (j - 1) lx then - dx else dx in dx' = dx \/ dx' = - dx) by (cbn zeta; destruct (Nat.ltb (j - 1) lx); auto).
      cbn zeta in Fy, Fx. set (dy' := if Nat.ltb (i - 1) ly then - dy else dy) in *. set (dx' := if Nat.ltb (j - 1) lx then - dx else dx) in *. clearbody dy' dx'. split.
      * intros A B. rewrite G, Q1; [reflexivity|destruct Fy; lra|destruct Fx; lra].
      * intros A. destruct Q2 as (ys & ds & m & S1 & S2 & S3).
        { intros X. assert (dx = 0) by (apply A; destruct Fy; lra). destruct Fx; lra. }
        exists ys, ds, m. split; [rewrite G, S1; reflexivity|]. split; [exact (good_flip Fx Fy S2)|].
        destruct (Hq WRadius) as (data & Hq' & Hcell). rewrite Hrf, Hrfa, Lp. exact (Hcell (i - 1)%nat (j - 1)%nat _ _ Bi Bj Hmid (S3 data Hq')).
  - assert (Hp2 := reachable_proper Hr). assert (HC := H). apply constructor_result in HC as (_ & [_ _ _ _ _ _ _ _ Hdd] & _); auto. destruct Hdd as [(_ & Ep & Hdd)|(X & _)]; [|congruence].
    unfold p in *. rewrite Ep in *. clear p. split; [intros [X|X]; lia|]. rewrite !Nat.sub_0_r. intros dy dx _ _ Ny' Nx'.
    assert (G : got = match stored d i j with (Some a, Some b) => Ok (a, b) | _ => Err KeyError end) by (apply lookup_plain; [exact De|rewrite Dy; lia|rewrite Dx; lia]).
    destruct (@quadrant_samples d _ _ _ _ Ny' Nx') as [Q1 Q2]; [apply Sam; auto|]. split.
    + intros A B. rewrite G, (Q1 A B). reflexivity.
    + intros A. destruct (Q2 A) as (ys & ds & m & S1 & S2 & S3). exists ys, ds, m. split; [rewrite G, S1; reflexivity|]. split; auto. apply S3. exact (Hdd WRadius).
Qed.
End W.
