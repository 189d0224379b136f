(** The grid a build leaves behind, and when the build succeeds. *)
From Coq Require Import ZArith List Bool String Lia Reals.
From Verif Require Import Num NumP Py SpecNum Validate ValidateP Ring RingP RingSystem FS FSP GridParams SpecGrid GridParamsP GridDiag GridDiagP
  Names GridProp SpecProp GridPropP Geometry Build SpecBuild BuildP BuildQP StretchP Shallot BuildGP.
Import ListNotations.
Set Implicit Arguments.
Local Open Scope string_scope.
Local Open Scope list_scope.

Section B.
Context {T : Type} {NT : Num T} {LT : NumLaws T} (E : env T).
Notation pyval := (pyval T).

Definition name_of (w : which) : pname := match w with WRadius => DISK_RADIUS | WInclination => INCLINATION | WTilt => TILT | WFx => FX_MAP | WFy => FY_MAP end.
Definition unit_of (w : which) : punit := match w with WRadius => ECLIPSE_DURATION | WInclination => DEGREE | WTilt => DEGREE | WFx => NONE | WFy => NONE end.
Definition cmap_of (w : which) : string := match w with WTilt => "twilight" | _ => "viridis" end.

Lemma consistent_shape3 (g : gparams T) : consistent g -> shape3 g = [List.length (g_dy g); List.length (g_dx g); List.length (g_rfa g)].
Proof. intros [H _]. unfold shape3. rewrite H. reflexivity. Qed.

Lemma flat_map_nth {A B} (f : A -> list B) (l : list A) n i j d : (forall a, List.length (f a) = n) -> j < n -> i < List.length l ->
  forall da, nth (i * n + j) (flat_map f l) d = nth j (f (nth i l da)) d.
Proof.
  intros Hf Hj. revert i; induction l as [|a l IH]; intros i Hi da; [cbn in Hi; lia|]. cbn [flat_map].
  destruct i; cbn [nth].
  - rewrite app_nth1 by (rewrite Hf; lia). reflexivity.
  - rewrite app_nth2 by (rewrite Hf; lia). rewrite Hf. replace (S i * n + j - n) with (i * n + j) by lia. apply IH. cbn in Hi; lia.
Qed.
Lemma shear_params (g : gparams T) y x : y < List.length (g_dy g) -> x < List.length (g_dx g) ->
  nth (y * List.length (g_dx g) + x) (shear_of_params g) n_nan = shear_at (nth x (g_dx g) n_nan) (nth y (g_dy g) n_nan).
Proof.
  intros Hy Hx. unfold shear_of_params. rewrite (@flat_map_nth T T _ (g_dy g) (List.length (g_dx g)) y x n_nan) with (da := n_nan); auto; [|intros; apply map_length].
  rewrite (nth_indep _ n_nan (shear_at n_nan (nth y (g_dy g) n_nan))) by now rewrite map_length.
  apply (map_nth (fun dx => shear_at dx (nth y (g_dy g) n_nan))).
Qed.
Lemma radius_params (g : gparams T) y : y < List.length (g_dy g) -> nth y (radius_of_params E g) n_nan = circular_radius (e_libm E) (nth y (g_dy g) n_nan).
Proof.
  intros Hy. unfold radius_of_params. rewrite (nth_indep _ n_nan (circular_radius (e_libm E) n_nan)) by now rewrite map_length. apply map_nth.
Qed.

Lemma number_start n : number (PInt 0 : pyval) true (PInt 0) (PInt (Z.of_nat n)) false = Ok (PInt 0).
Proof. replace (Z.of_nat n) with (Z.of_nat n + 1 - 1)%Z by lia. apply index_number. split; [constructor|]. cbn. lia. Qed.

Definition nan_cube (g : gparams T) (w : which) : gprop T := fresh (name_of w) (unit_of w) g (repeat (SF n_nan) (volume (shape3 g))).
Lemma empty_cube_ok (g : gparams T) n u : empty_cube g n u = Ok (fresh n u g (repeat (SF n_nan) (volume (shape3 g)))).
Proof. apply new_gprop_iff. exists n, u, g. eexists. repeat split; reflexivity. Qed.
Definition with_all (s : shallot T) (f : which -> gprop T) : shallot T := with_cubes s (f WRadius) (f WInclination) (f WTilt) (f WFx) (f WFy).
Lemma init_ok (s : shallot T) : init_props s = Ok (with_all s (nan_cube (s_params s))).
Proof. unfold init_props. rewrite !empty_cube_ok. reflexivity. Qed.
Lemma cube_with_all w s f : cube_of w (with_all s f) = f w.
Proof. destruct w; reflexivity. Qed.
Lemma others_with_all s f : others (with_all s f) = others s. Proof. reflexivity. Qed.

Lemma nan_cube_data (g : gparams T) w : p_data (nan_cube g w) = repeat n_nan (volume (shape3 g)).
Proof. unfold nan_cube, fresh. cbn [with_colors with_limits p_data]. induction (volume (shape3 g)); cbn [repeat map]; [reflexivity|]. cbn [num_scal]. now rewrite IHn. Qed.
Lemma nan_cube_shape (g : gparams T) w : p_shape (nan_cube g w) = shape3 g. Proof. reflexivity. Qed.

Lemma contrast_ok (p : gprop T) c : contrast p c = Ok (recoloured p c).
Proof. unfold contrast. now rewrite contrast_named. Qed.
Lemma set_contrasts_ok (s : shallot T) : s_dmap s = None -> s_grads s = None ->
  set_contrasts s = Ok (with_all s (fun w => recoloured (cube_of w s) (cmap_of w))).
Proof. intros H1 H2. unfold set_contrasts. rewrite !contrast_ok. cbn [bind]. rewrite H1, H2. cbn [opt_res bind]. destruct s; cbn in *; subst. reflexivity. Qed.

Lemma others_extra (s s' : shallot T) : others s' = others s -> s_dmap s' = s_dmap s /\ s_grads s' = s_grads s.
Proof. unfold others. intros H. inversion H. auto. Qed.

(** the columns of a finished cube *)
Definition column_spec (g : gparams T) (nf : pyval) (w : which) (y x : nat) (l : list T) : Prop :=
  let dy := nth y (g_dy g) n_nan in
  let sh := shear_at (nth x (g_dx g) n_nan) dy in
  if n_isnan sh then l = repeat n_nan (List.length (g_rfa g))
  else exists col, grid_point E g nf dy sh (circular_radius (e_libm E) dy) = Ok col /\ l = part_of w col.

Theorem built (g : gparams T) nf d inter l s : consistent g -> build_grid E (fresh_shallot E g nf d) inter (PInt 0) = (l, Ok s) ->
  others s = others (fresh_shallot E g nf d) /\ (d = None -> s_diag s = None) /\
  forall w, let p := cube_of w s in
    exists data, p = recoloured (with_data (nan_cube g w) data) (cmap_of w) /\
    List.length data = List.length (g_dy g) * List.length (g_dx g) * List.length (g_rfa g) /\
    forall y x, y < List.length (g_dy g) -> x < List.length (g_dx g) ->
      column_spec g nf w y x (column_at (List.length (g_dx g)) (List.length (g_rfa g)) data y x).
Proof.
  intros Hg H. unfold build_grid in H. change (s_params (fresh_shallot E g nf d)) with g in H. rewrite number_start in H. change (int_of (PInt 0 : pyval)) with 0%Z in H. cbn [Z.eqb] in H.
  rewrite init_ok in H. change (s_params (fresh_shallot E g nf d)) with g in H. change (Z.to_nat 0) with 0 in H.
  set (s0 := with_all (fresh_shallot E g nf d) (nan_cube g)) in *. change (s_params s0) with g in H. rewrite Nat.sub_0_r in H.
  destruct (build_rows E inter (seq 0 (List.length (g_dy g))) s0) as [l1 [s1|]] eqn:E1; [|discriminate].
  set (nr := List.length (g_rfa g)).
  assert (Hsh := consistent_shape3 Hg).
  assert (S0 : shapely nr s0).
  { intros w. unfold s0. rewrite cube_with_all, nan_cube_shape, nan_cube_data, repeat_length, Hsh, volume3. split; reflexivity. }
  assert (U := @rows_updated T NT E nr inter _ s0 l1 s1 S0 ltac:(intros y Hy; apply in_seq0 in Hy; exact Hy) E1).
  destruct U as (Ho & Hd & U). assert (Hm : s_dmap s1 = None /\ s_grads s1 = None).
  { exact (others_extra Ho). }
  rewrite (set_contrasts_ok _ (proj1 Hm) (proj2 Hm)) in H. injection H as _ <-.
  split; [rewrite others_with_all; exact Ho|]. split; [intros ->; cbn [with_all with_cubes s_diag]; apply Hd; reflexivity|].
  intros w. cbn zeta. rewrite cube_with_all. destruct (U w) as (data & -> & Hl & Hc). exists data.
  unfold s0 in Hl. rewrite cube_with_all, nan_cube_data, repeat_length, Hsh, volume3 in Hl.
  unfold s0 at 1. rewrite cube_with_all. split; auto. split; auto. intros y x Hy Hx. specialize (Hc y x Hy Hx).
  rewrite existsb_seq in Hc. cbn [Nat.leb Nat.add andb] in Hc. rewrite (proj2 (Nat.ltb_lt y (ny_of s0)) Hy) in Hc.
  unfold result_at, point_of, shear_of in Hc. change (nx_of s0) with (List.length (g_dx g)) in Hc. change (s_shear s0) with (shear_of_params g) in Hc.
  change (s_params s0) with g in Hc. change (s_nf s0) with nf in Hc. change (s_radius s0) with (radius_of_params E g) in Hc.
  rewrite shear_params, radius_params in Hc by auto. unfold column_spec. cbn zeta. revert Hc. destruct (n_isnan (shear_at (nth x (g_dx g) n_nan) (nth y (g_dy g) n_nan))); intros Hc; [|exact Hc].
  rewrite Hc. unfold s0. rewrite cube_with_all, nan_cube_data, Hsh, volume3. apply column_repeat; auto.
Qed.

(** *** success *)
Lemma Forall2_len {A B} (P : A -> B -> Prop) l m : Forall2 P l m -> List.length l = List.length m.
Proof. induction 1; cbn; auto. Qed.
Lemma grid_point_sizes (g : gparams T) nf dy s c col : g_rf g <> [] -> grid_point E g nf dy s c = Ok col ->
  forall w, List.length (part_of w col) = 2 * List.length (g_rf g) - 1.
Proof.
  intros Hrf H. unfold grid_point in H. destruct (last_opt (g_rf g)) as [m|]; cbn [bind] in H; [|discriminate].
  destruct (extend_horizontally _ _ _ _ _ _ _ _ _) as [h|] eqn:Eh; cbn [bind] in H; [|discriminate].
  destruct (extend_vertically _ _ _ _ _ _ _ _ _) as [v|] eqn:Ev; cbn [bind] in H; [|discriminate].
  destruct (interpolate _ _ _ _ _) as [[fx fy]|] eqn:Ei; cbn [bind fst snd] in H; [|discriminate].
  destruct (disk_arrays _ _ _ _ _) as [dk|] eqn:Ed; cbn [bind] in H; [|discriminate]. injection H as <-.
  assert (S := samples _ _ _ _ _ _ _ _ Eh Ev). apply Forall2_len in S.
  destruct (@interpolate_middle T NT LT E _ _ _ _ _ _ Hrf S Ei) as (Hfy & Hfx & _). apply disk_arrays_ok in Ed.
  assert (Hfx' : List.length fx = 2 * List.length (g_rf g) - 1) by (rewrite Hfx, map_length; auto).
  assert (Hd : List.length dk = 2 * List.length (g_rf g) - 1) by (rewrite Ed, map_length, combine_length; lia).
  intros []; cbn [part_of c_dr c_inc c_tilt c_fx c_fy]; unfold radii; rewrite ?map_length; auto.
Qed.

Lemma point_succeeds nr s y x : shapely nr s -> s_diag s = None -> y < ny_of s -> x < nx_of s ->
  (n_isnan (shear_of s y x) = false -> exists col, point_of E s y x = Ok col /\ forall w, List.length (part_of w col) = nr) ->
  exists s', build_point E y s x = Ok s'.
Proof.
  intros Hs Hd Hy Hx Hp. unfold build_point. fold (nx_of s) (shear_of s y x). destruct (n_isnan (shear_of s y x)); eauto.
  fold (point_of E s y x). destruct (Hp eq_refl) as (col & -> & Hl). cbn [bind].
  assert (P : forall w, put_column (cube_of w s) y x (part_of w col) = Ok (with_data (cube_of w s) (splice (p_data (cube_of w s)) ((y * nx_of s + x) * nr) (part_of w col)))).
  { intros w. apply (@put_column_some T _ (ny_of s)); auto. apply Hs. }
  assert (P1 := P WRadius). assert (P2 := P WInclination). assert (P3 := P WTilt). assert (P4 := P WFx). assert (P5 := P WFy). cbn [cube_of part_of] in *.
  rewrite P1. cbn [bind]. rewrite P2. cbn [bind]. rewrite P3. cbn [bind]. rewrite P4. cbn [bind]. rewrite P5. cbn [bind].
  cbn [with_cubes s_diag]. rewrite Hd. eauto.
Qed.

Definition good (nr : nat) (s : shallot T) : Prop := forall y x, y < ny_of s -> x < nx_of s -> n_isnan (shear_of s y x) = false ->
  exists col, point_of E s y x = Ok col /\ forall w, List.length (part_of w col) = nr.
Lemma good_updated nr D s s' : updated E nr D s s' -> good nr s -> good nr s'.
Proof. intros U G y x Hy Hx. destruct (others_sizes E (proj1 U)) as (Ey & Ex & Es & Ep). rewrite Es, Ep. apply G; congruence. Qed.

Lemma points_succeed nr y xs s : shapely nr s -> s_diag s = None -> good nr s -> y < ny_of s -> (forall x, In x xs -> x < nx_of s) ->
  exists s', fold_res (build_point E y) xs s = Ok s'.
Proof.
  revert s; induction xs as [|x xs IH]; intros s Hs Hd Hg Hy Hxs; cbn [fold_res]; eauto.
  destruct (point_succeeds Hs Hd Hy (Hxs x (or_introl eq_refl)) (Hg y x Hy (Hxs x (or_introl eq_refl)))) as [s1 H1]. rewrite H1. cbn [bind].
  assert (U := point_updated E Hs Hy (Hxs x (or_introl eq_refl)) H1). destruct (others_sizes E (proj1 U)) as (Ey & Ex & _).
  apply IH; [exact (updated_shapely U Hs)|apply U; auto|exact (good_updated U Hg)|congruence|]. intros z Hz. rewrite Ex. apply Hxs. now right.
Qed.
Lemma rows_succeed nr inter ys s : shapely nr s -> s_diag s = None -> good nr s -> (forall y, In y ys -> y < ny_of s) ->
  exists l s', build_rows E inter ys s = (l, Ok s').
Proof.
  revert s; induction ys as [|y ys IH]; intros s Hs Hd Hg Hys; cbn [build_rows]; [eauto|].
  destruct (@points_succeed nr y (seq 0 (nx_of s)) s Hs Hd Hg (Hys y (or_introl eq_refl))) as [s1 H1]; [intros x Hx; now apply in_seq0 in Hx|].
  unfold build_row. fold (nx_of s). rewrite H1.
  assert (U := row_updated E Hs (Hys y (or_introl eq_refl)) H1). destruct (others_sizes E (proj1 U)) as (Ey & Ex & _).
  destruct (IH s1 (updated_shapely U Hs)) as (l & s' & ->); [apply U; auto|exact (good_updated U Hg)|intros z Hz; rewrite Ey; apply Hys; now right|]. eauto.
Qed.

Theorem build_succeeds (g : gparams T) nf inter : consistent g -> g_rf g <> [] -> List.length (g_rfa g) = 2 * List.length (g_rf g) - 1 ->
  (forall y x, y < List.length (g_dy g) -> x < List.length (g_dx g) ->
    let dy := nth y (g_dy g) n_nan in let sh := shear_at (nth x (g_dx g) n_nan) dy in
    n_isnan sh = false -> exists col, grid_point E g nf dy sh (circular_radius (e_libm E) dy) = Ok col) ->
  exists l s, build_grid E (fresh_shallot E g nf None) inter (PInt 0) = (l, Ok s).
Proof.
  intros Hg Hrf Hrfa Hp. unfold build_grid. change (s_params (fresh_shallot E g nf None)) with g. rewrite number_start. change (int_of (PInt 0 : pyval)) with 0%Z. cbn [Z.eqb].
  rewrite init_ok. change (s_params (fresh_shallot E g nf None)) with g. change (Z.to_nat 0) with 0.
  set (s0 := with_all (fresh_shallot E g nf None) (nan_cube g)) in *. change (s_params s0) with g. rewrite Nat.sub_0_r.
  set (nr := List.length (g_rfa g)). assert (Hsh := consistent_shape3 Hg).
  assert (S0 : shapely nr s0).
  { intros w. unfold s0. rewrite cube_with_all, nan_cube_shape, nan_cube_data, repeat_length, Hsh, volume3. split; reflexivity. }
  destruct (@rows_succeed nr inter (seq 0 (List.length (g_dy g))) s0 S0 eq_refl) as (l & s & Hr).
  - intros y x Hy Hx. change (ny_of s0) with (List.length (g_dy g)) in Hy. change (nx_of s0) with (List.length (g_dx g)) in Hx.
    specialize (Hp y x Hy Hx). cbn zeta in Hp. unfold point_of, shear_of. change (nx_of s0) with (List.length (g_dx g)). change (s_shear s0) with (shear_of_params g).
    change (s_params s0) with g. change (s_nf s0) with nf. change (s_radius s0) with (radius_of_params E g). rewrite shear_params, radius_params by auto.
    intros Hn. destruct (Hp Hn) as [col Hc]. exists col. split; auto. intros w. unfold nr. rewrite Hrfa. eapply grid_point_sizes; eauto.
  - intros y Hy. apply in_seq0 in Hy; exact Hy.
  - rewrite Hr. assert (U := @rows_updated T NT E nr inter _ s0 l s S0 ltac:(intros y Hy; apply in_seq0 in Hy; exact Hy) Hr).
    destruct U as (Ho & _ & _). assert (Hm : s_dmap s = None /\ s_grads s = None).
    { exact (others_extra Ho). }
    rewrite (set_contrasts_ok _ (proj1 Hm) (proj2 Hm)). eauto.
Qed.

(** a failing grid point makes the build fail *)
Theorem build_needs (g : gparams T) nf d inter l s y x : consistent g -> build_grid E (fresh_shallot E g nf d) inter (PInt 0) = (l, Ok s) ->
  y < List.length (g_dy g) -> x < List.length (g_dx g) ->
  let dy := nth y (g_dy g) n_nan in let sh := shear_at (nth x (g_dx g) n_nan) dy in
  n_isnan sh = false -> exists col, grid_point E g nf dy sh (circular_radius (e_libm E) dy) = Ok col.
Proof.
  intros Hg H Hy Hx dy sh Hn. destruct (built _ _ _ Hg H) as (_ & _ & B). destruct (B WRadius) as (data & _ & _ & C).
  specialize (C y x Hy Hx). unfold column_spec in C. cbn zeta in C. fold dy in C. fold sh in C. rewrite Hn in C. destruct C as (col & Hc & _). eauto.
Qed.
End B.
