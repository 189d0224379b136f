(** The disks stored in a grid built in binary64. *)
From Coq Require Import ZArith Reals Lra Lia Bool List String.
From Flocq Require Import Core BinarySingleNaN.
From Verif Require Import Num NumP Py SpecNum Validate ValidateP Ring RingP RingSystem XLibm FS FSP GridParams SpecGrid SpecAxis GridParamsP AxisF64P
  Names GridProp SpecProp GridPropP Geometry SpecGeom SpecF64 SpecEdge Round64P GeomF64P GeomP EdgeP DiskErrP DiskF64P EdgeErrP EdgeF64P EdgeContactP
  Build SpecBuild BuildP BuildQP StretchP Shallot BuildGP BuildGridP BuildCP BuildFP BuildEP WholeP.
Import ListNotations.
Set Implicit Arguments.
Local Open Scope R_scope.

Lemma ok_inj {A} (a b : A) : Ok a = Ok b -> a = b. Proof. now injection 1. Qed.
Section Cells.
Context {T : Type} {NT : Num T} (E : env T).
(** the entries of a column belong to the disk of its scale factor *)
Lemma column_entries (g : gparams T) nf dy s c col k fy : grid_point E g nf dy s c = Ok col -> nth_error (c_fy col) k = Some fy ->
  let d := disk_parameters (e_libm E) (determine_fx fy dy) fy s c in
  forall w, nth_error (part_of w col) k = Some (pick (determine_fx fy dy) fy (fst (fst d)) (snd (fst d)) (snd d) w).
Proof.
  intros H Hk d. unfold grid_point in H. destruct (last_opt (g_rf g)) as [mx|]; cbn [bind] in H; [|discriminate].
  destruct (extend_horizontally _ _ _ _ _ _ _ _ _) as [h|]; cbn [bind] in H; [|discriminate].
  destruct (extend_vertically _ _ _ _ _ _ _ _ _) as [v|]; cbn [bind] in H; [|discriminate].
  destruct (interpolate _ _ _ _ _) as [[fxs fys]|] eqn:Ei; cbn [bind fst snd] in H; [|discriminate].
  destruct (disk_arrays _ _ _ _ _) as [dk|] eqn:Ed; cbn [bind] in H; [|discriminate]. injection H as <-.
  cbn [c_fy] in Hk. apply disk_arrays_ok in Ed. unfold interpolate in Ei.
  destruct (nan_min _) as [mn|]; cbn [bind] in Ei; [|discriminate]. destruct (nanargmin _) as [kk|]; cbn [bind] in Ei; [|discriminate].
  destruct (np_interp _ _ _ _) as [ix|]; cbn [bind] in Ei; [|discriminate]. destruct (np_interp _ _ _ _) as [iy|]; cbn [bind] in Ei; [|discriminate].
  apply ok_pair in Ei as [Ex Ey]. rewrite <- Ey in Ex. subst fxs.
  assert (Hx : nth_error (map (fun y => determine_fx y dy) fys) k = Some (determine_fx fy dy)) by (rewrite nth_error_map, Hk; reflexivity).
  assert (Hd : nth_error dk k = Some d) by (rewrite Ed, nth_error_map, (@nth_combine _ _ _ _ _ _ _ Hx Hk); reflexivity).
  intros []; cbn [part_of c_dr c_inc c_tilt c_fx c_fy pick]; unfold radii; rewrite ?nth_error_map, ?Hd, ?Hk; reflexivity.
Qed.
End Cells.

(** mirrored, shifted and turned disks *)
Lemma dist_mirror_x x y x' y' : dist (- x) y (- x') y' = dist x y x' y'.
Proof. unfold dist. f_equal. ring. Qed.
Lemma dist_mirror_y x y x' y' : dist x (- y) x' (- y') = dist x y x' y'.
Proof. unfold dist. f_equal. ring. Qed.
Lemma near_mirror_x d dx dy r i t x y : near_edge d dx dy r i t x y -> near_edge d (- dx) dy r i (180 - t) (- x) y.
Proof. intros (x' & y' & O & H). exists (- x'), y'. split; [now apply edge_mirror_x|]. now rewrite dist_mirror_x. Qed.
Lemma near_mirror_y d dx dy r i t x y : near_edge d dx dy r i t x y -> near_edge d dx (- dy) r i (180 - t) x (- y).
Proof. intros (x' & y' & O & H). exists x', (- y'). split; [now apply edge_mirror_y|]. now rewrite dist_mirror_y. Qed.
Lemma casts_within_x d dx dy r i t : casts_within d dx dy r i t -> casts_within d (- dx) dy r i (180 - t).
Proof. intros [A B]. apply near_mirror_x in A, B. rewrite Ropp_involutive in A. split; auto. Qed.
Lemma casts_within_y d dx dy r i t : casts_within d dx dy r i t -> casts_within d dx (- dy) r i (180 - t).
Proof. intros [A B]. apply near_mirror_y in A, B. rewrite Ropp_0 in A, B. split; auto. Qed.
Lemma casts_within_xy d dx dy r i t : casts_within d dx dy r i t -> casts_within d (- dx) (- dy) r i t.
Proof. intros H. apply casts_within_x, casts_within_y in H. replace (180 - (180 - t)) with t in H by ring. exact H. Qed.
Lemma near_shift d dx dy dx' dy' r i t x y : near_edge d dx dy r i t x y -> near_edge (d + (Rabs (dx' - dx) + Rabs (dy' - dy))) dx' dy' r i t x y.
Proof.
  intros (x' & y' & (th & X & Y) & H). exists (x' + (dx' - dx)), (y' + (dy' - dy)). split; [exists th; lra|].
  apply Rle_trans with (1 := dist_triangle x y x' y' _ _). apply Rplus_le_compat; auto. apply Rle_trans with (1 := dist_sum _ _ _ _). right. f_equal; f_equal; ring.
Qed.
Lemma near_turn d dx dy r i t t' x y a R : Rabs r <= 101 / 100 * R -> Rabs (degrees t' - degrees t) <= a -> near_edge d dx dy r i t x y -> near_edge (d + 4 * (a * R)) dx dy r i t' x y.
Proof.
  intros Hr Ha (x' & y' & (th & -> & ->) & H).
  exists (dx + (r * cos th * cos (degrees t') - r * cos (degrees i) * sin th * sin (degrees t'))), (dy + (r * cos th * sin (degrees t') + r * cos (degrees i) * sin th * cos (degrees t'))).
  split; [exists th; split; reflexivity|]. eapply Rle_trans; [apply dist_triangle with (x' := dx + (r * cos th * cos (degrees t) - r * cos (degrees i) * sin th * sin (degrees t))) (y' := dy + (r * cos th * sin (degrees t) + r * cos (degrees i) * sin th * cos (degrees t)))|].
  apply Rplus_le_compat; auto. assert (Pa := Rle_trans _ _ _ (Rabs_pos _) Ha).
  assert (PR : 0 <= R) by (generalize (Rabs_pos r); lra).
  assert (C := Rle_trans _ _ _ (cos_lip (degrees t') (degrees t)) Ha). assert (S := Rle_trans _ _ _ (sin_lip (degrees t') (degrees t)) Ha).
  destruct (unit_abs th) as [Ct St]. destruct (unit_abs (degrees i)) as [Ci _].
  assert (A1 := abs_mul_le Hr Ct). assert (A2 := abs_mul_le (abs_mul_le Hr Ci) St).
  replace (4 * (a * R)) with (3 / 2 * (8 / 3 * (a * R))) by field. apply dist_le.
  - replace (dx + (r * cos th * cos (degrees t') - r * cos (degrees i) * sin th * sin (degrees t')) - (dx + (r * cos th * cos (degrees t) - r * cos (degrees i) * sin th * sin (degrees t))))
      with (r * cos th * (cos (degrees t') - cos (degrees t)) + - (r * cos (degrees i) * sin th * (sin (degrees t') - sin (degrees t)))) by ring.
    assert (M := abs_mul_le A2 S). rewrite <- Rabs_Ropp in M. apply Rle_trans with (1 := abs_sum (abs_mul_le A1 C) M). nra.
  - replace (dy + (r * cos th * sin (degrees t') + r * cos (degrees i) * sin th * cos (degrees t')) - (dy + (r * cos th * sin (degrees t) + r * cos (degrees i) * sin th * cos (degrees t))))
      with (r * cos th * (sin (degrees t') - sin (degrees t)) + r * cos (degrees i) * sin th * (cos (degrees t') - cos (degrees t))) by ring.
    apply Rle_trans with (1 := abs_sum (abs_mul_le A1 S) (abs_mul_le A2 C)). nra.
Qed.

Section Grid.
Context (E : env f64) (e : R) (Acc : accurate (e_libm E) e) (He : bpow radix2 (-52) <= e <= / 1000000) (nf : pyval f64) (g : gparams f64) (Hr : reachable g).
Let lx := List.length (g_dx g). Let nr := List.length (g_rfa g).

(** the entries of a point belong to the disk of its scale factor *)
Lemma quadrant_fx y x k (dyv dxv fyv : f64) sh : nth_error (g_dy g) y = Some dyv -> nth_error (g_dx g) x = Some dxv -> (k < nr)%nat ->
  f64_val (shear_at dxv dyv) = XFin sh -> (exists data, quadrant E g nf WFy data /\ cell lx nr data y x k = Some fyv) ->
  let d := disk_parameters (e_libm E) (determine_fx fyv dyv) fyv (shear_at dxv dyv) (circular_radius (e_libm E) dyv) in
  (forall w data, quadrant E g nf w data -> cell lx nr data y x k = Some (pick (determine_fx fyv dyv) fyv (fst (fst d)) (snd (fst d)) (snd d) w)).
Proof.
  intros Hy Hx Hk Vs (data0 & Hq0 & Hc0) d.
  assert (Hyl : (y < List.length (g_dy g))%nat) by (apply nth_error_Some; rewrite Hy; intros A; inversion A).
  assert (Hxl : (x < List.length (g_dx g))%nat) by (apply nth_error_Some; rewrite Hx; intros A; inversion A).
  assert (Hnan : n_isnan (shear_at dxv dyv) = false) by (destruct (shear_at dxv dyv); try reflexivity; discriminate Vs).
  assert (Col : forall w data, quadrant E g nf w data -> exists col, grid_point E g nf dyv (shear_at dxv dyv) (circular_radius (e_libm E) dyv) = Ok col /\
    column_at lx nr data y x = part_of w col).
  { intros w data [_ Hq]. specialize (Hq y x Hyl Hxl). unfold column_spec in Hq. cbn zeta in Hq.
    rewrite (nth_error_nth _ _ _ Hy), (nth_error_nth _ _ _ Hx), Hnan in Hq. exact Hq. }
  destruct (Col _ _ Hq0) as (col & Hcol & Ecol). rewrite <- column_cell in Hc0 by auto. rewrite Ecol in Hc0.
  assert (En := @column_entries f64 _ E g nf _ _ _ col k fyv Hcol Hc0). cbv zeta in En.
  intros w data Hq. destruct (Col _ _ Hq) as (col' & Hcol' & Ec). rewrite Hcol in Hcol'. apply ok_inj in Hcol'. subst col'.
  rewrite <- column_cell by auto. rewrite Ec. exact (En w).
Qed.
(** a point of the built quadrant *)
Lemma quadrant64 y x k (dyv dxv fyv : f64) dy dx fy fx sh : nth_error (g_dy g) y = Some dyv -> nth_error (g_dx g) x = Some dxv -> (k < nr)%nat ->
  f64_val dyv = XFin dy -> f64_val dxv = XFin dx -> f64_val (shear_at dxv dyv) = XFin sh -> loose dy -> Rabs dy <= bpow radix2 99 -> loose sh ->
  (exists data, quadrant E g nf WFy data /\ cell lx nr data y x k = Some fyv) -> f64_val fyv = XFin fy -> 0 < fy -> ordinary fy ->
  f64_val (determine_fx fyv dyv) = XFin fx -> ordinary fx ->
  exists rv iv tv r ic t c R m,
    (forall w data, quadrant E g nf w data -> cell lx nr data y x k = Some (pick (determine_fx fyv dyv) fyv rv iv tv w)) /\
    f64_val rv = XFin r /\ f64_val iv = XFin ic /\ f64_val tv = XFin t /\ f64_val (circular_radius (e_libm E) dyv) = XFin c /\
    largest_distance fx fy sh c R /\ smallest_distance fx fy sh c m /\ 0 < m <= R /\ Rabs (r - R) <= 22 * e * R /\ Rabs t <= 400 /\
    casts_within (528 * e * (R * R) / m + bpow radix2 (-48) * (1 + Rabs dx) * R) dx dy r ic t.
Proof.
  intros Hy Hx Hk Vy Vx Vs Ly By Ls Q Vf Pf Of Vfx Ofx.
  assert (En := @quadrant_fx y x k dyv dxv fyv sh Hy Hx Hk Vs Q). cbv zeta in En.
  destruct (@casts64 (e_libm E) e dxv dyv fyv dx dy fx fy sh Acc He Vx Vy Vf Ly By Pf Of Vs Ls Vfx Ofx) as (rv & iv & tv & r & ic & t & c & R & m & G & Rest).
  exists rv, iv, tv, r, ic, t, c, R, m. split; [|exact Rest]. rewrite G in En. exact En.
Qed.
Theorem grid_plain ll keep inter og l s : new_shallot E (EIs g) nf ll keep inter = (og, (l, Ok s)) -> g_ext g = false ->
  s_params s = g /\
  let at_ w i j k := cell lx nr (p_data (cube_of w s)) i j k in
  forall i j k (dyv dxv fyv fxv : f64) dy dx fy fx sh, nth_error (g_dy g) i = Some dyv -> nth_error (g_dx g) j = Some dxv -> (k < nr)%nat ->
  f64_val dyv = XFin dy -> f64_val dxv = XFin dx -> f64_val (shear_at dxv dyv) = XFin sh -> loose dy -> Rabs dy <= bpow radix2 99 -> loose sh ->
  at_ WFy i j k = Some fyv -> f64_val fyv = XFin fy -> 0 < fy -> ordinary fy -> at_ WFx i j k = Some fxv -> f64_val fxv = XFin fx -> ordinary fx ->
  exists rv iv tv r ic t c R m, at_ WRadius i j k = Some rv /\ at_ WInclination i j k = Some iv /\ at_ WTilt i j k = Some tv /\
    f64_val rv = XFin r /\ f64_val iv = XFin ic /\ f64_val tv = XFin t /\ f64_val (circular_radius (e_libm E) dyv) = XFin c /\
    largest_distance fx fy sh c R /\ smallest_distance fx fy sh c m /\
    casts_within (528 * e * (R * R) / m + bpow radix2 (-48) * (1 + Rabs dx) * R) dx dy r ic t.
Proof.
  intros H Ex. assert (Hp := reachable_proper Hr). apply constructor_result in H as (_ & [_ _ _ _ _ _ _ _ Hd] & _); auto. destruct Hd as [(_ & Ep & Hd)|(X & _)]; [|rewrite X in Ex; discriminate].
  split; [exact Ep|]. intros at_ i j k dyv dxv fyv fxv dy dx fy fx sh Hy Hx Hk Vy Vx Vs Ly By Ls Cf Vf Pf Of Cx Vfx Ofx.
  assert (Q : exists data, quadrant E g nf WFy data /\ cell lx nr data i j k = Some fyv) by (eexists; split; [apply (Hd WFy)|exact Cf]).
  assert (Fx : fxv = determine_fx fyv dyv).
  { destruct Q as (data & Q1 & Q2). assert (Q3 := @quadrant_fx i j k dyv dxv fyv sh Hy Hx Hk Vs (ex_intro _ data (conj Q1 Q2))). cbv zeta in Q3. specialize (Q3 WFx _ (Hd WFx)). unfold at_ in Cx. rewrite Cx in Q3. now injection Q3. }
  rewrite Fx in Vfx.
  destruct (@quadrant64 i j k dyv dxv fyv dy dx fy fx sh Hy Hx Hk Vy Vx Vs Ly By Ls Q Vf Pf Of Vfx Ofx) as (rv & iv & tv & r & ic & t & c & R & m & Cells & G1 & G2 & G3 & G4 & G5 & G6 & _ & _ & _ & G7).
  exists rv, iv, tv, r, ic, t, c, R, m. repeat (split; [first [assumption|exact (Cells _ _ (Hd _))]|]). exact G7.
Qed.

(** a grid that is mirrored *)
Context (mnx mxx nx mny mxy ny mxr nrv : pyval f64) (x1 y1 : R).
Context (Sml : Forall small [mnx; mxx; nx; mny; mxy; ny; mxr; nrv]) (Hg : new_params mnx mxx nx mny mxy ny mxr nrv = Ok g)
  (V1 : value mnx = XFin 0) (V2 : value mxx = XFin x1) (V3 : value mny = XFin 0) (V4 : value mxy = XFin y1)
  (Mx : moderate x1) (My : moderate y1) (Ax : apart 0 x1) (Ay : apart 0 y1) (Nx : (2 <= zof nx <= 2 ^ 48)%Z) (Ny : (2 <= zof ny <= 2 ^ 48)%Z).
Let ly := List.length (g_dy g).
Lemma mirrored_place d (v w : list f64) i a r : mirrored_within d v w -> (i < 2 * List.length v - 1)%nat -> nth_error v (from_middle (List.length v) i) = Some a -> f64_val a = XFin r ->
  exists b q, nth_error w i = Some b /\ f64_val b = XFin q /\ Rabs (q - (if Nat.ltb i (List.length v) then - r else r)) <= d.
Proof.
  intros [_ H] Hi Ha Va. destruct (H _ _ Ha) as (b & c & r' & p & q & Hb & Hc & Va' & Vb & Vc & Ep & Eq). rewrite Va in Va'. injection Va' as <-.
  unfold from_middle in *. destruct (Nat.ltb_spec i (List.length v)), (Nat.leb_spec i (List.length v - 1)); try lia.
  - replace (List.length v - 1 - (List.length v - 1 - i))%nat with i in Hc by lia. exists c, q. split; auto. split; auto. replace (q - - r) with (q + r) by ring. exact Eq.
  - replace (List.length v - 1 + (i - (List.length v - 1)))%nat with i in Hb by lia. exists b, p. auto.
Qed.
Lemma turned_tilt (tv : f64) t : f64_val tv = XFin t -> Rabs t <= 400 -> exists t', f64_val (n_sub (n_ofZ 180) tv) = XFin t' /\ Rabs (degrees t' - degrees (180 - t)) <= 6 * e.
Proof.
  intros V Ht. assert (V180 : f64_val (n_ofZ 180) = XFin 180) by (apply (of_Z 180); vm_compute; discriminate). assert (U := ulp1_pos). apply Rabs_le_inv in Ht.
  destruct (sub64 _ _ V180 V) as (d & Dd & Vd). { apply Rle_trans with (B 10); [change (B 10) with 1024; apply Rabs_le; lra|apply bpow_le; lia]. }
  eexists. split; [exact Vd|]. replace (degrees ((180 - t) * (1 + d)) - degrees (180 - t)) with ((180 - t) * (PI / 180) * d) by (unfold degrees; ring).
  assert (PB := PI_bounds). assert (K : Rabs ((180 - t) * (PI / 180)) <= 12).
  { apply Rle_trans with (580 * (35 / 10 / 180)); [|lra]. apply abs_mul_le; apply Rabs_le; lra. }
  apply Rle_trans with (1 := abs_mul_le K Dd). assert (E2 : bpow radix2 (-52) = 2 * ulp1) by (unfold ulp1; change 2 with (B 1); rewrite <- bpow_plus; reflexivity). lra.
Qed.
Theorem grid_mirrored ll keep inter og l s : new_shallot E (EIs g) nf ll keep inter = (og, (l, Ok s)) ->
  let p := s_params s in
  let at_ w i j k := cell (List.length (g_dx p)) (List.length (g_rfa p)) (p_data (cube_of w s)) i j k in
  forall i j k (dyv dxv fyv fxv : f64) dy dx fy fx sh, (i < List.length (g_dy p))%nat -> (j < List.length (g_dx p))%nat -> (k < List.length (g_rfa p))%nat ->
  nth_error (g_dy g) (from_middle ly i) = Some dyv -> nth_error (g_dx g) (from_middle lx j) = Some dxv ->
  f64_val dyv = XFin dy -> f64_val dxv = XFin dx -> f64_val (shear_at dxv dyv) = XFin sh -> loose dy -> Rabs dy <= bpow radix2 99 -> loose sh ->
  at_ WFy i j k = Some fyv -> f64_val fyv = XFin fy -> 0 < fy -> ordinary fy -> at_ WFx i j k = Some fxv -> f64_val fxv = XFin fx -> ordinary fx ->
  exists dyv' dxv' dy' dx' rv iv tv r ic t c R m, nth_error (g_dy p) i = Some dyv' /\ nth_error (g_dx p) j = Some dxv' /\ f64_val dyv' = XFin dy' /\ f64_val dxv' = XFin dx' /\
    at_ WRadius i j k = Some rv /\ at_ WInclination i j k = Some iv /\ at_ WTilt i j k = Some tv /\
    f64_val rv = XFin r /\ f64_val iv = XFin ic /\ f64_val tv = XFin t /\ f64_val (circular_radius (e_libm E) dyv) = XFin c /\
    largest_distance fx fy sh c R /\ smallest_distance fx fy sh c m /\
    casts_within (552 * e * (R * R) / m + bpow radix2 (-48) * ((1 + Rabs dx) * R + x1 + y1)) dx' dy' r ic t.
Proof.
  intros H p at_ i j k dyv dxv fyv fxv dy dx fy fx sh Bi Bj Hk Hy Hx Vy Vx Vs Ly By Ls Cf Vf Pf Of Cx Vfx Ofx.
  assert (Hp := reachable_proper Hr). destruct (@extended_axes mnx mxx nx mny mxy ny mxr nrv g x1 y1 Sml Hg V1 V2 V3 V4 Mx My Ax Ay Nx Ny) as (g' & Hx' & _ & _ & Mdx & Mdy & _ & Hrfa).
  apply constructor_result in H as (_ & [_ _ _ _ _ _ _ _ Hd] & _); auto. destruct Hd as [(X & _)|(_ & Hext & Hd)].
  { exfalso. revert Hx'. unfold extend_grid. rewrite X. cbn [negb]. intros A. inversion A. }
  rewrite Hext in Hx'. assert (g' = p) by (injection Hx'; auto). subst g'. clear Hx' Hext.
  assert (Lx : List.length (g_dx p) = (2 * lx - 1)%nat) by apply Mdx. assert (Lyy : List.length (g_dy p) = (2 * ly - 1)%nat) by apply Mdy.
  rewrite Lyy in Bi. rewrite Lx in Bj. unfold at_ in *. rewrite Lx, Hrfa in *. clear at_.
  assert (Fy : (from_middle ly i < ly)%nat) by (apply nth_error_Some; unfold ly in Hy |- *; rewrite Hy; intros A; inversion A).
  assert (Fx' : (from_middle lx j < lx)%nat) by (apply nth_error_Some; unfold lx in Hx |- *; rewrite Hx; intros A; inversion A).
  assert (Tr : forall w data, quadrant E g nf w data -> reflected ly lx nr w data (p_data (cube_of w s)) ->
    cell (2 * lx - 1) nr (p_data (cube_of w s)) i j k = option_map (adjusted (match w with WTilt => true | _ => false end) ly lx i j) (cell lx nr data (from_middle ly i) (from_middle lx j) k)).
  { intros w data _ [_ HR]. apply HR; auto. }
  assert (Q : exists data, quadrant E g nf WFy data /\ cell lx nr data (from_middle ly i) (from_middle lx j) k = Some fyv).
  { destruct (Hd WFy) as (data & Q1 & Q2). exists data. split; auto. fold nr ly lx in Q2. assert (Z := Tr _ _ Q1 Q2). unfold nr in Z, Cf |- *. rewrite Cf in Z. revert Z. destruct (cell lx _ data _ _ k); cbn; intros Z; [injection Z as ->; reflexivity|discriminate Z]. }
  assert (Cells0 := @quadrant_fx (from_middle ly i) (from_middle lx j) k dyv dxv fyv sh Hy Hx Hk Vs Q). cbv zeta in Cells0.
  assert (Fx : fxv = determine_fx fyv dyv).
  { destruct (Hd WFx) as (data & Q1 & Q2). assert (Z := Tr _ _ Q1 Q2). rewrite (Cells0 WFx data Q1) in Z. unfold nr in Z. rewrite Cx in Z. cbn in Z. now injection Z. }
  rewrite Fx in Vfx.
  destruct (@quadrant64 (from_middle ly i) (from_middle lx j) k dyv dxv fyv dy dx fy fx sh Hy Hx Hk Vy Vx Vs Ly By Ls Q Vf Pf Of Vfx Ofx)
    as (rv & iv & tv & r & ic & t & c & R & m & Cells & G1 & G2 & G3 & G4 & G5 & G6 & Hm & HR & Ht & G7).
  destruct (@mirrored_place _ _ _ i dyv dy Mdy Bi Hy Vy) as (dyv' & dy' & Ny' & Vy' & Ey). destruct (@mirrored_place _ _ _ j dxv dx Mdx Bj Hx Vx) as (dxv' & dx' & Nx' & Vx' & Ex).
  fold ly lx in Ey, Ex.
  assert (All : forall w, cell (2 * lx - 1) nr (p_data (cube_of w s)) i j k = Some (adjusted (match w with WTilt => true | _ => false end) ly lx i j (pick (determine_fx fyv dyv) fyv rv iv tv w))).
  { intros w. destruct (Hd w) as (data & Q1 & Q2). assert (Z := Tr _ _ Q1 Q2). rewrite (Cells w data Q1) in Z. exact Z. }
  assert (B48 := bpow_gt_0 radix2 (-48)). assert (B52 := bpow_gt_0 radix2 (-52)).
  assert (Z : e * R <= e * (R * R) / m). { apply Rmult_le_reg_r with m; [lra|]. replace (e * (R * R) / m * m) with (e * (R * R)) by (field; lra). assert (0 < e * R) by (apply Rmult_lt_0_compat; lra). nra. }
  assert (Rr : Rabs r <= 101 / 100 * R). { assert (0 < e * R <= / 1000000 * R) by (split; [apply Rmult_lt_0_compat; lra|apply Rmult_le_compat_r; lra]). apply Rabs_le_inv in HR. apply Rabs_le. lra. }
  set (d0 := 528 * e * (R * R) / m + bpow radix2 (-48) * (1 + Rabs dx) * R) in *.
  assert (Tilt : exists t', f64_val (adjusted true ly lx i j tv) = XFin t' /\
    casts_within (d0 + 24 * (e * R)) (if Nat.ltb j lx then - dx else dx) (if Nat.ltb i ly then - dy else dy) r ic t').
  { assert (P0 : 0 <= 24 * (e * R)) by (assert (0 < e * R) by (apply Rmult_lt_0_compat; lra); lra).
    assert (Wk : forall u v tt, casts_within d0 u v r ic tt -> casts_within (d0 + 24 * (e * R)) u v r ic tt) by (intros u v tt [W1 W2]; split; apply near_edge_le with d0; auto; lra).
    assert (Tn : forall u v tt tt', casts_within d0 u v r ic tt -> Rabs (degrees tt' - degrees tt) <= 6 * e -> casts_within (d0 + 24 * (e * R)) u v r ic tt').
    { intros u v tt tt' [W1 W2] Hd'. replace (24 * (e * R)) with (4 * (6 * e * R)) by ring. split; eapply near_turn; eauto. }
    unfold adjusted. cbn [andb]. destruct (turned_tilt _ G3 Ht) as (t' & Vt' & Et').
    destruct (Nat.ltb i ly), (Nat.ltb j lx); cbn [xorb].
    - exists t. split; auto. apply Wk. now apply casts_within_xy.
    - exists t'. split; auto. apply Tn with (180 - t); auto. now apply casts_within_y.
    - exists t'. split; auto. apply Tn with (180 - t); auto. now apply casts_within_x.
    - exists t. split; auto. }
  destruct Tilt as (t' & Vt' & Wt').
  exists dyv', dxv', dy', dx', rv, iv, (adjusted true ly lx i j tv), r, ic, t', c, R, m.
  split; [exact Ny'|]. split; [exact Nx'|]. split; [exact Vy'|]. split; [exact Vx'|]. split; [exact (All WRadius)|]. split; [exact (All WInclination)|]. split; [exact (All WTilt)|].
  split; [exact G1|]. split; [exact G2|]. split; [exact Vt'|]. split; [exact G4|]. split; [exact G5|]. split; [exact G6|].
  assert (Fin : d0 + 24 * (e * R) + (Rabs (dx' - (if Nat.ltb j lx then - dx else dx)) + Rabs (dy' - (if Nat.ltb i ly then - dy else dy))) <= 552 * e * (R * R) / m + bpow radix2 (-48) * ((1 + Rabs dx) * R + x1 + y1)).
  { unfold d0. replace (552 * e * (R * R) / m) with (528 * e * (R * R) / m + 24 * (e * (R * R) / m)) by (field; lra). lra. }
  destruct Wt' as [W1 W2]. split; (eapply near_edge_le; [exact Fin|]; now apply near_shift).
Qed.
End Grid.
