(** The constructor: the built quadrant, its extension and the diagnostic cube. *)
From Coq Require Import ZArith List Bool String Lia Reals.
From Verif Require Import Num NumP Py SpecNum Validate ValidateP Ring RingP RingSystem FS FSP GridParams SpecGrid GridParamsP GridDiag GridDiagP
  Names GridProp SpecProp GridPropP Geometry Build SpecBuild BuildP BuildQP StretchP Shallot BuildGP BuildGridP.
Import ListNotations.
Set Implicit Arguments.
Local Open Scope string_scope.
Local Open Scope list_scope.

Section C.
Context {T : Type} {NT : Num T} {LT : NumLaws T} (E : env T).
Notation pyval := (pyval T).

(** parameters as the constructor makes them: sizes that agree and an rf axis *)
Record proper (g : gparams T) : Prop := {
  pr_cons : consistent g;
  pr_rf : 1 <= List.length (g_rf g);
  pr_rfa : List.length (g_rfa g) = 2 * List.length (g_rf g) - 1 }.

Lemma number_same (v w : pyval) ci lo up ex : number v ci lo up ex = Ok w -> w = v.
Proof.
  unfold number. destruct (number_type ci v) as [v1|] eqn:E1; cbn [bind]; [|discriminate]. apply number_type_ok in E1 as [-> _].
  unfold number_bounds. destruct (number_type false lo); cbn [bind]; [|discriminate]. destruct (number_type false up); cbn [bind]; [|discriminate].
  destruct (v_cmp _ _ _); [discriminate|]. destruct (_ : bool); [discriminate|]. congruence.
Qed.
Lemma axis_length a b n (l : list T) : determine_axis a b (PInt n) = Ok l -> List.length l = Z.to_nat n.
Proof.
  unfold determine_axis. destruct (number a _ _ _ _); cbn [bind]; [|discriminate]. destruct (number b _ _ _ _); cbn [bind]; [|discriminate].
  destruct (v_cmp _ _ _); [discriminate|]. destruct (number (PInt n) _ _ _ _) as [m|] eqn:En; cbn [bind]; [|discriminate].
  apply number_same in En as ->. intros H; injection H as <-. apply linspace_length.
Qed.
Lemma extended_sizes (g g' : gparams T) u : consistent g -> extend_grid g = (g', Ok u) ->
  g_ext g = true /\ consistent g' /\ 1 <= List.length (g_dy g) /\ 1 <= List.length (g_dx g) /\
  List.length (g_dy g') = 2 * List.length (g_dy g) - 1 /\ List.length (g_dx g') = 2 * List.length (g_dx g) - 1 /\
  g_rf g' = g_rf g /\ g_rfa g' = g_rfa g.
Proof.
  intros [Hs He] H. unfold extend_grid in H. destruct (g_ext g) eqn:Eg; cbn [negb] in H; [|discriminate]. rewrite Hs in H. unfold shape_of_vectors in H.
  destruct (last_opt (g_dy g)) as [my|] eqn:E1; [|discriminate]. destruct (last_opt (g_dx g)) as [mx|] eqn:E2; [|discriminate].
  destruct (determine_axis _ _ (PInt (2 * Z.of_nat (List.length (g_dx g)) - 1))) as [dx|] eqn:E3; [|discriminate].
  destruct (determine_axis _ _ (PInt (2 * Z.of_nat (List.length (g_dy g)) - 1))) as [dy|] eqn:E4; [|discriminate].
  destruct (extendable_of dx dy) as [e|] eqn:E5; [|discriminate]. injection H as <- <-. apply axis_length in E3, E4.
  assert (1 <= List.length (g_dy g)) by (destruct (g_dy g); [discriminate|cbn; lia]).
  assert (1 <= List.length (g_dx g)) by (destruct (g_dx g); [discriminate|cbn; lia]).
  cbn [g_dx g_dy g_rf g_rfa]. split; auto. split; [split; auto|]. repeat split; auto; lia.
Qed.
Lemma extend_proper (g g' : gparams T) u : proper g -> extend_grid g = (g', Ok u) -> proper g'.
Proof.
  intros [A B C] H. destruct (extended_sizes A H) as (_ & Hc & _ & _ & _ & _ & Hr & Ha). split; auto; congruence.
Qed.

(** data of the built quadrant *)
Definition quadrant (g : gparams T) (nf : pyval) (w : which) (data : list T) : Prop :=
  List.length data = List.length (g_dy g) * List.length (g_dx g) * List.length (g_rfa g) /\
  forall y x, y < List.length (g_dy g) -> x < List.length (g_dx g) ->
    column_spec E g nf w y x (column_at (List.length (g_dx g)) (List.length (g_rfa g)) data y x).

(** [data'] is [data] reflected about both axes, with 180 - tilt in two quadrants *)
Definition reflected (ny nx nr : nat) (w : which) (data data' : list T) : Prop :=
  List.length data' = (2 * ny - 1) * (2 * nx - 1) * nr /\
  forall i j r, i < 2 * ny - 1 -> j < 2 * nx - 1 -> r < nr ->
    cell (2 * nx - 1) nr data' i j r =
    option_map (adjusted (match w with WTilt => true | _ => false end) ny nx i j) (cell nx nr data (from_middle ny i) (from_middle nx j) r).

Definition plain (g : gparams T) (w : which) (p : gprop T) : Prop :=
  p_name p = name_of w /\ p_unit p = unit_of w /\ p_params p = g /\ p_shape p = shape3 g /\ p_mask p = None /\
  List.length (p_data p) = volume (p_shape p).

(** the diagnostic cube of the radius cube *)
Definition diagnosed (g : gparams T) (dr m : gprop T) : Prop :=
  p_name m = DIAGNOSTIC_MAP /\ p_unit m = ECLIPSE_DURATION /\ p_params m = g /\ p_shape m = shape3 g /\ p_mask m = None /\
  List.length (p_data m) = volume (p_shape m) /\
  forall y x r d k e, y < List.length (g_dy g) -> x < List.length (g_dx g) ->
    cell (List.length (g_dx g)) (List.length (g_rfa g)) (p_data dr) y x r = Some d ->
    cell (List.length (g_dx g)) (List.length (g_rfa g)) (p_data dr) y x (List.length (g_rf g) - 1) = Some k ->
    nth_error (g_rfa g) r = Some e ->
    cell (List.length (g_dx g)) (List.length (g_rfa g)) (p_data m) y x r = Some (n_sub (n_div d k) e).

Lemma built_plain (g : gparams T) w data : consistent g -> List.length data = List.length (g_dy g) * List.length (g_dx g) * List.length (g_rfa g) ->
  plain g w (recoloured (with_data (nan_cube g w) data) (cmap_of w)).
Proof.
  intros Hg Hl. unfold plain, recoloured, with_colors, with_limits, with_data, nan_cube, fresh. cbn [p_name p_unit p_params p_shape p_mask p_data with_colors with_limits].
  repeat (split; [reflexivity|]). rewrite (consistent_shape3 Hg), volume3. exact Hl.
Qed.
Lemma recoloured_data (p : gprop T) l c : p_data (recoloured (with_data p l) c) = l. Proof. reflexivity. Qed.

Lemma diagnose_proper (g : gparams T) (p : gprop T) : proper g -> plain g WRadius p -> exists m, diagnose g p = Ok m /\ diagnosed g p m.
Proof.
  intros [Hc Hr Ha] (_ & _ & _ & Hs & _ & Hl). assert (H3 := consistent_shape3 Hc).
  destruct (@diagnose_ok T NT LT g p (List.length (g_dy g)) (List.length (g_dx g)) (List.length (g_rfa g))) as (m & Hm & A1 & A2 & A3 & A4 & A5 & A6 & A7); auto; [congruence|lia|].
  exists m. split; auto. unfold diagnosed. rewrite Hs in *. auto 10.
Qed.

(** _extend_grid on a finished build *)
Lemma extend_fill (g g' : gparams T) (s : shallot T) : consistent g -> s_params s = g -> (forall w, plain g w (cube_of w s)) -> extend_grid g = (g', Ok tt) ->
  exists s', extend_shallot E s = (g', Ok s') /\
    others s' = (g', s_nf s, (radius_of_params E g', shear_of_params g'), (s_dmap s, s_grads s, s_fit s), (s_ecl s, s_vel s, s_limb s)) /\
    s_diag s' = option_map (@diag_extend T) (s_diag s) /\
    forall w, plain g' w (cube_of w s') /\ reflected (List.length (g_dy g)) (List.length (g_dx g)) (List.length (g_rfa g)) w (p_data (cube_of w s)) (p_data (cube_of w s')).
Proof.
  intros Hc Hp Hw Hx. destruct (extended_sizes Hc Hx) as (_ & Hc' & Hy1 & Hx1 & Ly & Lx & Lr & La).
  assert (H3 := consistent_shape3 Hc). assert (H3' := consistent_shape3 Hc'). rewrite Ly, Lx, La in H3'.
  assert (F : forall w, exists q, fill_quadrants g' (cube_of w s) (match w with WTilt => true | _ => false end) = Ok q /\ plain g' w q /\
    reflected (List.length (g_dy g)) (List.length (g_dx g)) (List.length (g_rfa g)) w (p_data (cube_of w s)) (p_data q)).
  { intros w. destruct (Hw w) as (N & U & _ & S & _ & L).
    destruct (@fill_ok T NT LT g' (cube_of w s) (match w with WTilt => true | _ => false end) (List.length (g_dy g)) (List.length (g_dx g)) (List.length (g_rfa g))) as (q & Hq & A1 & A2 & A3 & A4 & A5 & A6 & A7); auto; [congruence|].
    exists q. split; auto. split; [unfold plain; repeat split; auto; congruence|]. split; auto. rewrite A6, A4, H3', volume3. reflexivity. }
  destruct (F WRadius) as (q1 & E1 & P1). destruct (F WInclination) as (q2 & E2 & P2). destruct (F WTilt) as (q3 & E3 & P3). destruct (F WFx) as (q4 & E4 & P4). destruct (F WFy) as (q5 & E5 & P5).
  cbn [cube_of] in E1, E2, E3, E4, E5.
  unfold extend_shallot. rewrite Hp, Hx, E1. cbn [bind]. rewrite E2. cbn [bind]. rewrite E3. cbn [bind]. rewrite E4. cbn [bind]. rewrite E5. cbn [bind].
  eexists; split; [reflexivity|]. split; [reflexivity|]. split; [reflexivity|]. intros []; cbn [cube_of]; assumption.
Qed.

(** extending and diagnosing *)
Lemma finish_ok (g : gparams T) (s : shallot T) : proper g -> s_params s = g -> (forall w, plain g w (cube_of w s)) ->
  (g_ext g = false \/ exists g', extend_grid g = (g', Ok tt)) ->
  exists g' s', finish_shallot E s = (g', Ok s') /\ s_params s' = g' /\ s_nf s' = s_nf s /\ s_grads s' = s_grads s /\ s_fit s' = s_fit s /\
    (s_ecl s', s_vel s', s_limb s') = (s_ecl s, s_vel s, s_limb s) /\ (s_diag s = None -> s_diag s' = None) /\
    (exists m, s_dmap s' = Some m /\ diagnosed g' (s_dr s') m) /\ (forall w, plain g' w (cube_of w s')) /\
    (g_ext g = false /\ g' = g /\ (s_radius s', s_shear s') = (s_radius s, s_shear s) /\ (forall w, cube_of w s' = cube_of w s) \/
     g_ext g = true /\ extend_grid g = (g', Ok tt) /\ (s_radius s', s_shear s') = (radius_of_params E g', shear_of_params g') /\
       forall w, reflected (List.length (g_dy g)) (List.length (g_dx g)) (List.length (g_rfa g)) w (p_data (cube_of w s)) (p_data (cube_of w s'))).
Proof.
  intros Hpr Hp Hw [Hx|[g' Hx]].
  - assert (Hr := extend_refused _ Hx). exists g. unfold finish_shallot, extend_shallot. rewrite Hp, Hr. unfold diagnose_shallot. rewrite Hp.
    destruct (diagnose_proper Hpr (Hw WRadius)) as (m & Hm & Hd). cbn [cube_of] in *. rewrite Hm. cbn [bind]. eexists. split; [reflexivity|].
    cbn [with_dmap s_params s_nf s_grads s_fit s_ecl s_vel s_limb s_diag s_dmap s_dr s_radius s_shear]. split; auto. split; auto. split; auto. split; auto. split; auto. split; auto.
    split; [exists m; auto|]. split; [intros w; specialize (Hw w); destruct w; exact Hw|]. left. split; auto.
  - destruct (@extend_fill g g' s (pr_cons Hpr) Hp Hw Hx) as (s1 & E1 & Ho & Hdg & Hw1). destruct (extended_sizes (pr_cons Hpr) Hx) as (He & _).
    unfold others in Ho. assert (Hpr' := extend_proper Hpr Hx). assert (Hs1 : s_params s1 = g') by congruence.
    destruct (diagnose_proper Hpr' (proj1 (Hw1 WRadius))) as (m & Hm & Hd). cbn [cube_of] in *.
    unfold finish_shallot. rewrite E1. unfold diagnose_shallot. rewrite Hs1, Hm. cbn [bind]. exists g'. eexists. split; [reflexivity|].
    cbn [with_dmap s_params s_nf s_grads s_fit s_ecl s_vel s_limb s_diag s_dmap s_dr s_radius s_shear].
    injection Ho as H1 H2 H3 H4 H5 H6 H7 H8 H9 H10. rewrite H1, H2, H3, H4, H6, H7, H8, H9, H10, Hdg. split; auto. split; auto. split; auto. split; auto. split; auto.
    split; [intros ->; reflexivity|]. split; [exists m; auto|]. split; [intros w; specialize (Hw1 w); destruct w; apply Hw1|].
    right. split; auto. split; auto. split; auto. intros w. specialize (Hw1 w). destruct w; apply Hw1.
Qed.

(** what a successful constructor call leaves *)
Record constructed (g : gparams T) (nf : pyval) (s : shallot T) : Prop := {
  cn_nf : s_nf s = nf;
  cn_radius : s_radius s = radius_of_params E (s_params s);
  cn_shear : s_shear s = shear_of_params (s_params s);
  cn_grads : s_grads s = None;
  cn_fit : s_fit s = None;
  cn_ecl : (s_ecl s, s_vel s, s_limb s) = (None, None, None);
  cn_dmap : exists m, s_dmap s = Some m /\ diagnosed (s_params s) (s_dr s) m;
  cn_plain : forall w, plain (s_params s) w (cube_of w s);
  cn_data : g_ext g = false /\ s_params s = g /\ (forall w, quadrant g nf w (p_data (cube_of w s))) \/
            g_ext g = true /\ extend_grid g = (s_params s, Ok tt) /\
            forall w, exists data, quadrant g nf w data /\
              reflected (List.length (g_dy g)) (List.length (g_dx g)) (List.length (g_rfa g)) w data (p_data (cube_of w s)) }.

Lemma extend_shallot_needs (s : shallot T) g' s' : extend_shallot E s = (g', Ok s') -> g_ext (s_params s) = false \/ extend_grid (s_params s) = (g', Ok tt).
Proof.
  unfold extend_shallot. destruct (g_ext (s_params s)) eqn:Eg; [|auto]. right. revert H. destruct (extend_grid (s_params s)) as [g1 [[]|e]] eqn:Ex.
  - intros H. injection H as -> _. reflexivity.
  - unfold extend_grid in Ex. rewrite Eg in Ex. cbn [negb] in Ex. destruct (g_shape (s_params s)) as [[ny nx] nr].
    destruct e; try discriminate. exfalso.
    assert (Hdet : forall a b c, determine_axis (T := T) a b c <> Err AttributeError).
    { intros a b c. unfold determine_axis.
      assert (Hnum : forall (v : pyval) ci lo up ex, number v ci lo up ex <> Err AttributeError).
      { intros v ci lo up ex. unfold number, number_bounds. destruct (number_type ci v) as [v1|e1] eqn:E1; cbn [bind].
        - destruct (number_type false lo) as [v2|e2] eqn:E2; cbn [bind].
          + destruct (number_type false up) as [v3|e3] eqn:E3; cbn [bind].
            * destruct (v_cmp _ _ _); [discriminate|]. destruct (_ || _); discriminate.
            * intros X; injection X as ->. destruct up; discriminate.
          + intros X; injection X as ->. destruct lo; discriminate.
        - intros X; injection X as ->. destruct ci, v; discriminate. }
      destruct (number a _ _ _ _) eqn:Ea; cbn [bind]; [|intros X; injection X as ->; exact (Hnum _ _ _ _ _ Ea)].
      destruct (number b _ _ _ _) eqn:Eb; cbn [bind]; [|intros X; injection X as ->; exact (Hnum _ _ _ _ _ Eb)].
      destruct (v_cmp _ _ _); [discriminate|].
      destruct (number c _ _ _ _) eqn:Ec; cbn [bind]; [discriminate|intros X; injection X as ->; exact (Hnum _ _ _ _ _ Ec)]. }
    destruct (last_opt (g_dy (s_params s))) as [|e1] eqn:E1; [destruct (last_opt (g_dx (s_params s))) as [|e2] eqn:E2|].
    + destruct (determine_axis _ _ (PInt (2 * Z.of_nat nx - 1))) eqn:E3; [|injection Ex as _ ->; exact (Hdet _ _ _ E3)].
      destruct (determine_axis _ _ (PInt (2 * Z.of_nat ny - 1))) eqn:E4; [|injection Ex as _ ->; exact (Hdet _ _ _ E4)].
      destruct (extendable_of _ _) as [|e5] eqn:E5; [discriminate|]. injection Ex as _ ->. unfold extendable_of in E5.
      repeat match goal with H : context [match ?l with [] => _ | _ :: _ => _ end] |- _ => destruct l end; try discriminate; destruct (n_eq _ _); discriminate.
    + injection Ex as _ ->. unfold last_opt in E2. destruct (rev _); discriminate.
    + injection Ex as _ ->. unfold last_opt in E1. destruct (rev _); discriminate.
Qed.

Theorem constructor_result (g : gparams T) nf ll keep inter og l s : proper g ->
  new_shallot E (EIs g) nf ll keep inter = (og, (l, Ok s)) -> og = Some (s_params s) /\ constructed g nf s /\ (keep = PBool false -> s_diag s = None).
Proof.
  intros Hpr H. unfold new_shallot in H.
  destruct (number ll _ _ _ _); cbn [bind class_arg] in H; [|discriminate].
  destruct (number nf true (PInt 1) p_inf false) as [nf'|] eqn:En; cbn [bind] in H; [|discriminate].
  assert (nf' = nf) as -> by exact (number_same _ _ _ _ _ En).
  destruct (boolean_v keep) as [k|] eqn:Ek; cbn [bind] in H; [|discriminate]. destruct (boolean_v inter) as [it|] eqn:Ei; cbn [bind] in H; [|discriminate].
  set (d := if k then Some (new_diag g) else None) in *.
  destruct (build_grid E (fresh_shallot E g nf d) it (PInt 0)) as [l1 [s1|]] eqn:Eb; [|discriminate].
  destruct (@built T NT LT E g nf d it l1 s1 (pr_cons Hpr) Eb) as (Ho & Hd & Hw).
  assert (Hp1 : s_params s1 = g /\ s_nf s1 = nf /\ s_radius s1 = radius_of_params E g /\ s_shear s1 = shear_of_params g /\ s_grads s1 = None /\ s_fit s1 = None /\ (s_ecl s1, s_vel s1, s_limb s1) = (None, None, None)).
  { unfold others in Ho. cbn [fresh_shallot s_params s_nf s_radius s_shear s_grads s_fit s_ecl s_vel s_limb s_dmap] in Ho. inversion Ho. auto 10. }
  destruct Hp1 as (Hg1 & Hnf1 & Hr1 & Hsh1 & Hgr1 & Hf1 & He1).
  assert (Hpl : forall w, plain g w (cube_of w s1)). { intros w. destruct (Hw w) as (data & -> & Hl & _). apply built_plain; auto. apply Hpr. }
  assert (Hq : forall w, quadrant g nf w (p_data (cube_of w s1))). { intros w. destruct (Hw w) as (data & -> & Hl & Hc). rewrite recoloured_data. split; auto. }
  destruct (finish_shallot E s1) as [g' r] eqn:Ef. injection H as <- <- ->.
  assert (Hx : g_ext g = false \/ exists g', extend_grid g = (g', Ok tt)).
  { unfold finish_shallot in Ef. destruct (extend_shallot E s1) as [g2 [s2|]] eqn:E2; [|discriminate]. apply extend_shallot_needs in E2. rewrite Hg1 in E2. destruct E2; eauto. }
  destruct (@finish_ok g s1 Hpr Hg1 Hpl Hx) as (g2 & s2 & Ef2 & A1 & A2 & A3 & A4 & A5 & A6 & A7 & A8 & A9).
  rewrite Ef in Ef2. injection Ef2 as <- <-. split; [congruence|]. split.
  - split; try congruence.
    + destruct A9 as [(_ & -> & X & _)|(_ & _ & X & _)]; injection X as X1 X2; congruence.
    + destruct A9 as [(_ & -> & X & _)|(_ & _ & X & _)]; injection X as X1 X2; congruence.
    + rewrite A1. exact A7.
    + rewrite A1. exact A8.
    + destruct A9 as [(X1 & X2 & _ & X3)|(X1 & X2 & _ & X3)].
      * left. split; auto. split; [congruence|]. intros w. rewrite X3. apply Hq.
      * right. split; auto. split; [congruence|]. intros w. exists (p_data (cube_of w s1)). split; auto.
  - intros ->. cbn in Ek. injection Ek as <-. apply A6, Hd. reflexivity.
Qed.

(** and when it succeeds *)
Theorem constructor_succeeds (g : gparams T) nf ll inter : proper g ->
  number ll true (PInt 10) (PInt 50) false = Ok ll -> number nf true (PInt 1) p_inf false = Ok nf ->
  (forall y x, y < List.length (g_dy g) -> x < List.length (g_dx g) ->
    let dy := nth y (g_dy g) n_nan in let sh := shear_at (nth x (g_dx g) n_nan) dy in
    n_isnan sh = false -> exists col, grid_point E g nf dy sh (circular_radius (e_libm E) dy) = Ok col) ->
  (g_ext g = false \/ exists g', extend_grid g = (g', Ok tt)) ->
  exists og l s, new_shallot E (EIs g) nf ll (PBool false) (PBool inter) = (og, (l, Ok s)).
Proof.
  intros Hpr Hll Hnf Hpt Hx. unfold new_shallot. rewrite Hll, Hnf. cbn [bind class_arg boolean_v].
  assert (Hrf : g_rf g <> []) by (intros X; assert (Y := pr_rf Hpr); rewrite X in Y; cbn in Y; lia).
  destruct (@build_succeeds T NT LT E g nf inter (pr_cons Hpr) Hrf (pr_rfa Hpr) Hpt) as (l & s1 & Eb). rewrite Eb.
  destruct (@built T NT LT E g nf None inter l s1 (pr_cons Hpr) Eb) as (Ho & Hd & Hw).
  assert (Hg1 : s_params s1 = g). { unfold others in Ho. inversion Ho. reflexivity. }
  assert (Hpl : forall w, plain g w (cube_of w s1)). { intros w. destruct (Hw w) as (data & -> & Hl & _). apply built_plain; auto. apply Hpr. }
  destruct (@finish_ok g s1 Hpr Hg1 Hpl Hx) as (g2 & s2 & Ef2 & _). rewrite Ef2. eauto.
Qed.

(** parameters made by the constructor are proper *)
Lemma new_proper mnx mxx nx mny mxy ny mxr nr (g : gparams T) :
  Forall small [mnx; mxx; nx; mny; mxy; ny; mxr; nr] -> new_params mnx mxx nx mny mxy ny mxr nr = Ok g -> proper g.
Proof.
  intros HS H. destruct (new_params_sizes HS H) as (_ & _ & Hr & Ha & _). assert (H2 := H). apply new_params_iff in H2 as (_ & _ & A3 & _); auto.
  destruct A3 as (_ & _ & Hc & Hp). split; [eapply new_consistent; eauto| |]; lia.
Qed.
Lemma number_least (v w : pyval) : number v true (PInt 1) p_inf false = Ok w -> (1 <= int_of v)%Z.
Proof.
  unfold number. destruct (number_type true v) as [v1|] eqn:E1; cbn [bind]; [|discriminate]. apply number_type_ok in E1 as [-> [Hi|[? _]]]; [|discriminate].
  unfold number_bounds. cbn [number_type bind]. destruct (v_cmp (@s_gt T _) (PInt 1) p_inf); [discriminate|].
  destruct Hi; cbn [v_cmp scal_of]; unfold s_lt, s_cmp, int_of; cbn.
  - destruct b; cbn; [lia|discriminate].
  - destruct (Z.ltb_spec z 1); cbn [orb]; [discriminate|]. intros _. lia.
  - destruct (Z.ltb_spec z 1); cbn [orb]; [discriminate|]. intros _. lia.
Qed.
Theorem reachable_proper (g : gparams T) : reachable g -> proper g.
Proof.
  induction 1 as [a b c d e f g h p H|p q Hr IH H]; [|eapply extend_proper; eauto].
  split; [eapply new_consistent; eauto| |]; unfold new_params in H; destruct (determine_axis a b c); cbn [bind] in H; try discriminate;
    destruct (determine_axis d e f); cbn [bind] in H; try discriminate; unfold determine_rf in H;
    destruct (number g false _ _ _); cbn [bind] in H; try discriminate; destruct (number h true _ _ _) as [k|] eqn:Ek; cbn [bind] in H; try discriminate;
    assert (Hk := number_least _ Ek); apply number_same in Ek as ->; unfold finish in H; cbn [fst snd] in H; destruct (extendable_of _ _); cbn [bind] in H; try discriminate;
    injection H as <-; cbn [g_rf g_rfa].
  - rewrite linspace_length. lia.
  - rewrite linspace_length. apply rfa_length; [apply linspace_length|lia].
Qed.
End C.
