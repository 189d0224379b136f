(** Corollaries in the form used by the property theorems. *)
From Coq Require Import ZArith List Bool String Lia Reals Lra.
From Verif Require Import Num NumP Py SpecNum Validate ValidateP Ring RingP RingSystem XLibm FS FSP GridParams SpecGrid GridParamsP GridParamsXP GridDiag GridDiagP GridCrashP
  Names GridProp SpecProp GridPropP Geometry GeomP Build SpecBuild BuildP BuildQP StretchP BuildXP InterpP Shallot BuildGP BuildGridP BuildCP BuildDP BuildEP BuildFP BuildExP.
Import ListNotations.
Set Implicit Arguments.
Local Open Scope list_scope.

Section C.
Context {T : Type} {NT : Num T} {LT : NumLaws T}.
Notation pyval := (pyval T).

Theorem fill_cells (g : gparams T) (p : gprop T) t ny nx nr : p_shape p = [ny; nx; nr] -> List.length (p_data p) = ny * nx * nr ->
  1 <= ny -> 1 <= nx -> shape3 g = [2 * ny - 1; 2 * nx - 1; nr] ->
  exists q, fill_quadrants g p t = Ok q /\ p_shape q = [2 * ny - 1; 2 * nx - 1; nr] /\
    p_name q = p_name p /\ p_unit q = p_unit p /\ p_mask q = None /\ List.length (p_data q) = (2 * ny - 1) * (2 * nx - 1) * nr /\
    forall i j r v, i < 2 * ny - 1 -> j < 2 * nx - 1 -> r < nr ->
      cell nx nr (p_data p) (from_middle ny i) (from_middle nx j) r = Some v ->
      cell (2 * nx - 1) nr (p_data q) i j r =
      Some (if t && xorb (Nat.ltb i ny) (Nat.ltb j nx) then n_sub (n_ofZ 180) v else v).
Proof.
  intros Hs Hl Hy Hx Hg. destruct (@fill_ok T NT LT g p t ny nx nr) as (q & Hq & A1 & A2 & A3 & A4 & A5 & A6 & A7); auto; [rewrite Hs, volume3; auto|].
  exists q. split; auto. split; [congruence|]. split; auto. split; auto. split; auto. split; [rewrite A6, A4, Hg, volume3; auto|].
  intros i j r v Hi Hj Hr Hv. rewrite A7, Hv by auto. reflexivity.
Qed.

Theorem constructor_reflects (E : env T) (g : gparams T) nf ll keep inter og l s : reachable g -> g_ext g = true ->
  new_shallot E (EIs g) nf ll keep inter = (og, (l, Ok s)) ->
  let ny := List.length (g_dy g) in let nx := List.length (g_dx g) in let nr := List.length (g_rfa g) in
  extend_grid g = (s_params s, Ok tt) /\
  forall w, exists data, quadrant E g nf w data /\
    forall i j r v, i < 2 * ny - 1 -> j < 2 * nx - 1 -> r < nr ->
      cell nx nr data (from_middle ny i) (from_middle nx j) r = Some v ->
      cell (2 * nx - 1) nr (p_data (cube_of w s)) i j r =
      Some (match w with WTilt => if xorb (Nat.ltb i ny) (Nat.ltb j nx) then n_sub (n_ofZ 180) v else v | _ => v end).
Proof.
  intros Hr He H ny nx nr. apply constructor_result in H as (_ & [_ _ _ _ _ _ _ _ Hd] & _); [|now apply reachable_proper].
  destruct Hd as [[X _]|(_ & Hx & Hd)]; [congruence|]. split; auto. intros w. destruct (Hd w) as (data & Hq & _ & Hc). exists data. split; auto.
  intros i j r v Hi Hj Hr' Hv. rewrite Hc by auto. fold nx ny nr. rewrite Hv. destruct w; reflexivity.
Qed.

(** every point of the built quadrant *)
Theorem constructor_columns (E : env T) (g : gparams T) nf ll keep inter og l s : reachable g ->
  new_shallot E (EIs g) nf ll keep inter = (og, (l, Ok s)) ->
  (g_ext g = false -> s_params s = g) /\
  forall w, exists data, (g_ext g = false -> data = p_data (cube_of w s)) /\
    forall y x dy dx, nth_error (g_dy g) y = Some dy -> nth_error (g_dx g) x = Some dx ->
      let column := column_at (List.length (g_dx g)) (List.length (g_rfa g)) data y x in
      if n_isnan (shear_at dx dy) then column = repeat n_nan (List.length (g_rfa g))
      else exists col, grid_point E g nf dy (shear_at dx dy) (circular_radius (e_libm E) dy) = Ok col /\
        column = match w with WRadius => c_dr col | WInclination => c_inc col | WTilt => c_tilt col | WFx => c_fx col | WFy => c_fy col end.
Proof.
  intros Hr H. apply constructor_result in H as (_ & [_ _ _ _ _ _ _ _ Hd] & _); [|now apply reachable_proper].
  assert (Q : forall w, exists data, (g_ext g = false -> data = p_data (cube_of w s)) /\ quadrant E g nf w data).
  { intros w. destruct Hd as [(_ & _ & Hd)|(X & _ & Hd)]; [eauto|]. destruct (Hd w) as (data & Hq & _). exists data. split; auto. congruence. }
  split. { intros Hf. destruct Hd as [(_ & Hp & _)|(X & _)]; [auto|congruence]. }
  intros w. destruct (Q w) as (data & Hdat & _ & Hc). exists data. split; auto. intros y x dy dx Hy Hx column.
  specialize (Hc y x ltac:(apply nth_error_Some; congruence) ltac:(apply nth_error_Some; congruence)). unfold column_spec in Hc. cbn zeta in Hc.
  rewrite (nth_error_nth _ _ _ Hy), (nth_error_nth _ _ _ Hx) in Hc. fold column in Hc. destruct (n_isnan (shear_at dx dy)); auto.
Qed.

(** the loops with two amounts of fuel *)
Theorem fuel_irrelevant (E E' : env T) nf mx max_rf dy s c fys drs k : e_libm E' = e_libm E -> 1 <= k -> k <= e_fuel E -> k <= e_fuel E' ->
  n_gt (n_ofZ (1 + Z.of_nat k)) (n_mul (n_ofZ 100) mx) = true ->
  extend_horizontally E' nf mx max_rf dy s c fys drs = extend_horizontally E nf mx max_rf dy s c fys drs /\
  extend_vertically E' nf mx max_rf dy s c fys drs = extend_vertically E nf mx max_rf dy s c fys drs /\
  extend_horizontally E nf mx max_rf dy s c fys drs <> Err OutOfFuel /\ extend_vertically E nf mx max_rf dy s c fys drs <> Err OutOfFuel.
Proof.
  intros HL Hk Hf Hf' Hg. destruct (loops_end E nf mx max_rf dy s c fys drs Hk Hf Hg) as [H1 H2].
  set (Ek := mkEnv (e_libm E) (e_search E) (e_fmt E) k). destruct (@loops_end T NT Ek nf mx max_rf dy s c fys drs k Hk (le_n k) Hg) as [K1 K2].
  destruct E as [lm se fm fu], E' as [lm' se' fm' fu']. cbn [e_libm e_fuel] in *. subst lm'.
  unfold extend_horizontally, extend_vertically in *. cbn [Ek e_fuel] in K1, K2. cbn [e_fuel] in *.
  split; [|split; [|split; auto]].
  - etransitivity; [exact (@stretch_more T NT _ _ _ _ _ k fu' _ _ _ Hf' K1)|symmetry; exact (@stretch_more T NT _ _ _ _ _ k fu _ _ _ Hf K1)].
  - etransitivity; [exact (@stretch_more T NT _ _ _ _ _ k fu' _ _ _ Hf' K2)|symmetry; exact (@stretch_more T NT _ _ _ _ _ k fu _ _ _ Hf K2)].
Qed.
End C.

(** the diagnostic cube in binary64 *)
Section F.
Local Open Scope R_scope.
Theorem diagnostic_zero (E : env f64) (mnx mxx nx mny mxy ny mxr nr : pyval f64) g rm nf ll keep inter og l s :
  Forall small [mnx; mxx; nx; mny; mxy; ny; mxr; nr] -> new_params mnx mxx nx mny mxy ny mxr nr = Ok g -> value mxr = XFin rm ->
  new_shallot E (EIs g) nf ll keep inter = (og, (l, Ok s)) ->
  exists m, s_dmap s = Some m /\
    let p := s_params s in let mid := (List.length (g_rf p) - 1)%nat in
    forall y x d r, (y < List.length (g_dy p))%nat -> (x < List.length (g_dx p))%nat ->
      cell (List.length (g_dx p)) (List.length (g_rfa p)) (p_data (s_dr s)) y x mid = Some d -> f64_val d = XFin r -> r <> 0 ->
      exists v, cell (List.length (g_dx p)) (List.length (g_rfa p)) (p_data m) y x mid = Some v /\ f64_val v = XFin 0.
Proof.
  intros HS Hg Hv H. assert (Hpr := new_proper HS Hg). apply constructor_result in H as (_ & [_ _ _ _ _ _ (m & Hm & Hdm) _ Hd] & _); [|auto].
  exists m. split; auto. intros p mid y x d r Hy Hx Hc Hr Hr0. destruct Hdm as (_ & _ & _ & _ & _ & _ & Hdm).
  destruct (rfa_middle_f64 HS Hg Hv) as (e & He & Ve).
  assert (Same : g_rf p = g_rf g /\ g_rfa p = g_rfa g).
  { destruct Hd as [(_ & Hp & _)|(_ & Hp & _)]; [unfold p; rewrite Hp; auto|]. destruct (extended_sizes (pr_cons Hpr) Hp) as (_ & _ & _ & _ & _ & _ & A & B). auto. }
  destruct Same as [Sr Sa]. eexists. split; [apply (Hdm y x mid d d e); auto; subst p mid; rewrite Sa, Sr; exact He|].
  apply (@f64_sub_same _ _ 1); auto. exact (f64_div_self _ Hr Hr0).
Qed.
End F.

(** exact-arithmetic readings *)
Section X.
Local Open Scope R_scope.
Lemma gt100 k M : IZR k > 100 * M -> n_gt (n_ofZ k : xr) (n_mul (n_ofZ 100) (XFin M)) = true.
Proof.
  intros H. unfold n_gt. cbn [n_lt Num_xr n_mul n_ofZ x_mul x_lt]. now destruct (Rlt_dec (100 * M) (IZR k)).
Qed.
Theorem rounds_xr (E : env xr) nf M max_rf dy s c fys drs : 100 * M <= INR (e_fuel E) -> (1 <= e_fuel E)%nat ->
  extend_horizontally E nf (XFin M) max_rf dy s c fys drs <> Err OutOfFuel /\ extend_vertically E nf (XFin M) max_rf dy s c fys drs <> Err OutOfFuel.
Proof.
  intros H H1. apply loops_end with (k := e_fuel E); auto. apply gt100. rewrite plus_IZR. rewrite INR_IZR_INZ in H. lra.
Qed.
Theorem small_xr (E : env xr) (g : gparams xr) nf ll keep inter og l s M y x dy dx : reachable g ->
  amax (g_dx g) = XFin M \/ amax (g_dy g) = XFin M -> M < 1 / 100 ->
  nth_error (g_dy g) y = Some (XFin dy) -> nth_error (g_dx g) x = Some (XFin dx) -> dy <> 0 \/ dx = 0 ->
  new_shallot E (EIs g) nf ll keep inter <> (og, (l, Ok s)).
Proof.
  intros Hr HM Hs Hy Hx Hd. apply constructor_small with (y := y) (x := x); auto.
  - now apply reachable_proper.
  - destruct HM as [-> | ->]; [left|right]; apply gt100; lra.
  - apply nth_error_Some. congruence.
  - apply nth_error_Some. congruence.
  - rewrite (nth_error_nth _ _ _ Hy), (nth_error_nth _ _ _ Hx), shear_xr. destruct (Req_EM_T dy 0); [|reflexivity]. destruct (Req_EM_T dx 0); [reflexivity|]. destruct Hd; contradiction.
Qed.
Theorem degenerate_xr (E : env xr) (g : gparams xr) nf ll keep inter og l s : e_libm E = Libm_xr -> reachable g -> g_ext g = false ->
  new_shallot E (EIs g) nf ll keep inter = (og, (l, Ok s)) ->
  forall n Mx My y x dy dx, num_index nf = Ok n -> (2 <= n)%nat -> amax (g_dx g) = XFin Mx -> amax (g_dy g) = XFin My -> 1 <= Mx -> 1 <= My ->
  nth_error (g_dy g) y = Some (XFin dy) -> nth_error (g_dx g) x = Some (XFin dx) ->
  let v := cell (List.length (g_dx g)) (List.length (g_rfa g)) (p_data (s_dr s)) y x (List.length (g_rf g) - 1) in
  (dy = 0 /\ dx <> 0 /\ v = Some XNaN) \/ (~ (dy = 0 /\ dx <> 0) /\ exists r, v = Some (XFin r) /\ 0 < r).
Proof.
  intros HE Hr He H n Mx My y x dy dx Hn Hn2 Hx My' H1 H2 Hdy Hdx. assert (Hp := reachable_proper Hr).
  apply constructor_result in H as (_ & [_ _ _ _ _ _ _ _ Hd] & _); auto. destruct Hd as [(_ & _ & Hd)|(X & _)]; [|congruence].
  exact (@middle_of_quadrant E HE nf n Hn Hn2 g _ Mx My y x dy dx (Hd WRadius) Hp Hx My' H1 H2 Hdy Hdx).
Qed.
End X.
Section X.
Local Open Scope R_scope.
Theorem grid_succeeds (E : env xr) nf n (mnx mxx nx mny mxy ny mxr nr : pyval xr) g x0 x1 y0 y1 r1 ll inter :
  e_libm E = Libm_xr -> num_index nf = Ok n -> (2 <= n)%nat ->
  Forall small [mnx; mxx; nx; mny; mxy; ny; mxr; nr] ->
  value mnx = XFin x0 -> value mxx = XFin x1 -> value mny = XFin y0 -> value mxy = XFin y1 -> value mxr = XFin r1 ->
  new_params mnx mxx nx mny mxy ny mxr nr = Ok g ->
  (2 <= zof nx)%Z -> (2 <= zof ny)%Z -> (2 <= zof nr)%Z -> (2 * zof nx <= 2 ^ 53)%Z -> (2 * zof ny <= 2 ^ 53)%Z ->
  number ll true (PInt 10) (PInt 50) false = Ok ll -> number nf true (PInt 1) p_inf false = Ok nf ->
  (forall i j, (i < List.length (g_dy g))%nat -> (j < List.length (g_dx g))%nat ->
     let dy := spaced y0 y1 (Z.to_nat (zof ny)) i in let dx := spaced x0 x1 (Z.to_nat (zof nx)) j in
     dy <> 0 \/ dx = 0 -> 1 <= x1 /\ 1 <= y1 /\ r1 * (Rabs (dx / dy) + 1) <= (100 * x1 - 1) * x1 /\ r1 * (Rabs (dx / dy) + 1) <= (100 * y1 - 1) * y1) ->
  100 * x1 <= INR (e_fuel E) -> 100 * y1 <= INR (e_fuel E) ->
  exists og l s, new_shallot E (EIs g) nf ll (PBool false) (PBool inter) = (og, (l, Ok s)).
Proof.
  intros HE Hn H2 HS A1 A2 A3 A4 A5 Hg B1 B2 B3 B4 B5 Hl Hnf Hr F1 F2.
  apply (@grid_builds E HE nf n Hn H2 mnx mxx nx mny mxy ny mxr nr g x0 x1 y0 y1 r1 ll inter); auto.
  intros i j Hi Hj dy dx Hd. destruct (Hr i j Hi Hj Hd) as (C1 & C2 & C3 & C4). unfold room. auto.
Qed.
End X.
