(** The texts of grid parameters, properties, gradients and diagnostics. *)
From Coq Require Import ZArith Reals List Bool String Ascii Lia Lra.
From Verif Require Import Num Py Validate Ring RingSystem FS GridParams GridDiag Names GridProp Fmt Text Message NumP SpecNum ValidateP RingP FmtP SpecMsg SpecMsgGrid MessageP MessageSpecP MessageRingP SpecGrid SpecProp GridPropP.
Import ListNotations.
Set Implicit Arguments.
Local Open Scope string_scope.

Section G.
Context {T : Type} {NT : Num T} {LT : NumLaws T}.
Variable fmt : nat -> T -> string.
Notation pyval := (pyval T).

Ltac tame := solve [exact I | cbn; lia | (right; constructor) | (left; constructor) | assumption | cbn; exact I].
Lemma judges_iff c c' A (x : mres A) : (passes c <-> passes c') -> (forall e s, complains c e s <-> complains c' e s) -> judges c x -> judges c' x.
Proof.
  intros Hp Hc. destruct x as [a|e o]; cbn [judges].
  - intros [H1 H2]. split; [apply Hp, H1|]. intros e s X. apply Hc in X. exact (H2 _ _ X).
  - intros [H1 (s & -> & H2)]. split; [intros X; apply H1, Hp, X|]. exists s. split; [reflexivity|].
    intros e' s'. rewrite <- Hc. apply H2.
Qed.
Lemma int_pos (v : pyval) : number_passes true (PInt 1) p_inf false v -> (1 <= int_of v)%Z.
Proof.
  intros ([Hv|[X _]] & _ & Hr); [|discriminate X]. cbn [respects] in Hr.
  rewrite (proj2 (@index_int T NT LT v (int_of v) Hv) eq_refl) in Hr. cbn [value xlt] in Hr. destruct Hr as [H1 _].
  apply le_IZR. apply Rnot_lt_le. exact H1.
Qed.
Lemma ge_spec (a b : pyval) : small a -> small b -> numberlike a -> numberlike b ->
  v_cmp (@s_ge T _) a b = true <-> xle (value b) (value a).
Proof. intros. rewrite v_cmp_ge. apply v_cmp_le; assumption. Qed.
Lemma xle_dec a b : xle a b \/ ~ xle a b.
Proof. destruct (x_le a b) eqn:E; [left; apply x_le_iff, E | right; apply x_le_false, E]. Qed.

Lemma axis_follows x (mn mx n : pyval) : small mn -> small mx -> small n ->
  follows (axis_checks fmt x mn mx n) (determine_axis_m fmt x mn mx n) /\
  forall l, determine_axis_m fmt x mn mx n = MOk l -> l <> [].
Proof.
  intros S1 S2 S3.
  assert (J1 : judges (number_check (f4 fmt) ("min_" ++ x) mn false m_inf p_inf false) (number_m fmt ("min_" ++ x) mn false m_inf p_inf false)) by (apply number_judges; tame).
  assert (J2 : judges (number_check (f4 fmt) ("max_" ++ x) mx false m_inf p_inf false) (number_m fmt ("max_" ++ x) mx false m_inf p_inf false)) by (apply number_judges; tame).
  assert (J3 : judges (number_check (f4 fmt) ("num_" ++ x) n true (PInt 1) p_inf false) (number_m fmt ("num_" ++ x) n true (PInt 1) p_inf false)) by (apply number_judges; tame).
  unfold determine_axis_m, axis_checks. split.
  - apply follows_bind; [exact J1|]. intros a Ha. pose proof (proj1 (@judges_ok _ _ _ J1) (ex_intro _ a Ha)) as P1. apply number_valued in Ha. subst a.
    apply follows_bind; [exact J2|]. intros a Ha. pose proof (proj1 (@judges_ok _ _ _ J2) (ex_intro _ a Ha)) as P2. apply number_valued in Ha. subst a.
    destruct P1 as (P1 & _). destruct P2 as (P2 & _). apply typed_number in P1. apply typed_number in P2.
    pose proof (@ge_spec mn mx S1 S2 P1 P2) as G.
    apply own_judge.
    + rewrite G. destruct (xle_dec (value mx) (value mn)); tauto.
    + rewrite <- not_true_iff_false, G. tauto.
    + apply follows_bind; [exact J3|]. intros a _. apply follows_ok.
  - intros l H. destruct (number_m fmt ("min_" ++ x) mn false m_inf p_inf false) as [a|]; [|discriminate H]. cbn [mbind] in H.
    destruct (number_m fmt ("max_" ++ x) mx false m_inf p_inf false) as [b|]; [|discriminate H]. cbn [mbind] in H.
    destruct (v_cmp _ a b); [discriminate H|].
    destruct (number_m fmt ("num_" ++ x) n true (PInt 1) p_inf false) as [c|] eqn:E; [|discriminate H]. cbn [mbind] in H. injection H as <-.
    pose proof (proj1 (@judges_ok _ _ _ J3) (ex_intro _ c eq_refl)) as P3. apply number_valued in E. subst c. apply int_pos in P3.
    unfold linspace. destruct (Z.to_nat (int_of n)) eqn:Z; [lia|]. discriminate.
Qed.
Theorem params_follows (a b c d e f g h : pyval) : small a -> small b -> small c -> small d -> small e -> small f -> small g -> small h ->
  follows (params_checks fmt a b c d e f g h) (new_params_m fmt a b c d e f g h).
Proof.
  intros Sa Sb Sc Sd Se Sf Sg Sh. unfold new_params_m, params_checks.
  destruct (@axis_follows "x" a b c Sa Sb Sc) as [Fx Nx]. destruct (@axis_follows "y" d e f Sd Se Sf) as [Fy Ny].
  apply follows_app; [exact Fx|]. intros dx Hx. apply Nx in Hx. apply follows_app; [exact Fy|]. intros dy Hy. apply Ny in Hy.
  unfold determine_rf_m.
  replace (let! r := let! max_rf := number_m fmt "max_rf" g false (PInt 1) p_inf false in
             let! num_rf := number_m fmt "num_rf" h true (PInt 1) p_inf false in
             let rf := linspace n_one (num_of max_rf) (Z.to_nat (int_of num_rf)) in MOk (rf, (rev rf ++ tl rf)%list) in
           silent (finish dx dy (fst r) (snd r)))
   with (let! max_rf := number_m fmt "max_rf" g false (PInt 1) p_inf false in
             let! num_rf := number_m fmt "num_rf" h true (PInt 1) p_inf false in
             let rf := linspace n_one (num_of max_rf) (Z.to_nat (int_of num_rf)) in silent (finish dx dy rf (rev rf ++ tl rf)%list)).
  2:{ destruct (number_m fmt "max_rf" g false (PInt 1) p_inf false); [|reflexivity]. cbn [mbind].
      destruct (number_m fmt "num_rf" h true (PInt 1) p_inf false); reflexivity. }
  apply follows_bind; [apply number_judges; tame|]. intros m _. apply follows_bind; [apply number_judges; tame|]. intros n _. cbv zeta.
  destruct dx as [|x dx]; [contradiction Hx; reflexivity|]. destruct dy as [|y dy]; [contradiction Hy; reflexivity|].
  unfold finish, extendable_of. destruct (n_eq y n_zero); cbn [bind silent]; apply follows_ok.
Qed.

(** *** properties *)
Lemma arg_judge A name shown (e : earg A) : judges (kind_check (is_a e) name shown) (class_arg_m name shown e).
Proof. apply kind_judge. destruct e; cbn; [eexists; reflexivity|]. split; [intros [a X]; discriminate X | reflexivity]. Qed.
Lemma arg_value A name shown (e : earg A) a : class_arg_m name shown e = MOk a -> e = EIs a.
Proof. destruct e; cbn; [|discriminate]. intros H. injection H as <-. reflexivity. Qed.
(** only the shapes matter *)
Lemma shapes_only (l l' : list pyval) names : map (@Py.shape_of T) l = map (@Py.shape_of T) l' ->
  forall A (x : mres A), judges (shapes_check str_tuple l names) x -> judges (shapes_check str_tuple l' names) x.
Proof.
  intros H A x. apply judges_iff; cbn [shapes_check passes complains].
  - unfold equal_shapes. split; intros [sh X]; exists sh; intros v Hv; apply (in_map (@Py.shape_of T)) in Hv; [rewrite <- H in Hv | rewrite H in Hv];
      apply in_map_iff in Hv; destruct Hv as (w & <- & Hw); apply X, Hw.
  - assert (Q : equal_shapes l <-> equal_shapes l').
    { unfold equal_shapes. split; intros [sh X]; exists sh; intros v Hv; apply (in_map (@Py.shape_of T)) in Hv; [rewrite <- H in Hv | rewrite H in Hv];
      apply in_map_iff in Hv; destruct Hv as (w & <- & Hw); apply X, Hw. }
    intros e s. split; intros X; inversion X; subst; apply se_shapes; try congruence; tauto.
Qed.
Lemma data_judge name (v : pyval) (dt : string) nd : judges (array_check (f4 fmt) str_int name v None None false (Some dt) nd)
  (array_m fmt name v None None false (Some dt) nd).
Proof.
  (* without bounds the entries are not looked at *)
  unfold array_m. destruct v; try (apply (@not_arr_judge T NT LT fmt); intros ? ? ?; discriminate).
  cbn [mbind]. apply rest_judge; [apply none_none_entries|]. intros [X|X]; contradiction X; reflexivity.
Qed.
Lemma passes_array (v : pyval) lo up ex dt nd : array_passes v lo up ex dt nd -> exists d sh el, v = PArr d sh el.
Proof. intros (d & sh & el & E & _). exists d, sh, el. exact E. Qed.
Theorem property_follows n u (v : pyval) (g : earg (gparams T)) :
  follows (property_checks fmt str_int str_tuple n u v g) (new_gprop_m fmt n u v g).
Proof.
  unfold new_gprop_m, property_checks.
  apply follows_bind; [apply arg_judge|]. intros n' Hn.
  apply follows_bind; [apply arg_judge|]. intros u' Hu.
  apply follows_bind; [apply arg_judge|]. intros g' Hg. apply arg_value in Hg. subst g.
  pose proof (data_judge "data" v "float64" (Some 3%Z)) as J.
  apply follows_bind; [exact J|]. intros d Hd. pose proof (proj1 (@judges_ok _ _ _ J) (ex_intro _ d Hd)) as P.
  apply array_valued in Hd. subst d. destruct (passes_array P) as (d & sh & el & ->).
  apply follows_bind.
  - eapply shapes_only; [|apply shapes_judge]; [| cbn; lia | reflexivity |].
    + cbn [map Py.shape_of given_shape]. unfold shape3. destruct (g_shape g') as [[a b] c]. reflexivity.
    + intros w [<-|[<-|[]]]; do 3 eexists; reflexivity.
  - intros _ _. pose proof (contrast_out fmt (mkGPr n' u' g' sh (map (@num_scal T _) el) None None "" PNone None) None None None None) as E.
    destruct (default_limits (mkGPr n' u' g' sh (map (@num_scal T _) el) None None "" PNone None)) as (p' & E' & _).
    unfold set_contrast_default in E'. rewrite E' in E. destruct (set_contrast_m fmt _ _ _ _ _) as [q [x|]]; [|discriminate E]. apply follows_ok.
Qed.
Theorem gradient_follows (v : pyval) (g : earg (gparams T)) pos : small pos ->
  follows (gradient_checks fmt str_int str_tuple v g pos) (new_grad_m fmt v g pos).
Proof.
  intros Sp. unfold new_grad_m, gradient_checks. apply follows_app; [apply property_follows|]. intros p _.
  apply follows_bind; [apply number_judges; tame|]. intros w _. apply follows_ok.
Qed.
Theorem mask_follows (p : gprop T) (v : pyval) : follows (mask_checks fmt str_int str_tuple p v) (snd (set_mask_m fmt p v)).
Proof.
  unfold mask_checks.
  assert (E : snd (set_mask_m fmt p v) = let! _ := array_m fmt "mask" v None None false (Some "bool") None in
     let! _ := same_shape_m [v; data_arr p] ["mask"; "data"] in MOk tt).
  { unfold set_mask_m. destruct (array_m fmt "mask" v None None false (Some "bool") None) as [w|] eqn:X; [|reflexivity].
    pose proof (data_judge "mask" v "bool" None) as J. pose proof (proj1 (@judges_ok _ _ _ J) (ex_intro _ w X)) as P.
    destruct (passes_array P) as (d & sh & el & ->). apply array_valued in X. subst w. cbn [mbind].
    destruct (same_shape_m _ _); reflexivity. }
  rewrite E. pose proof (data_judge "mask" v "bool" None) as J.
  apply follows_bind; [exact J|]. intros w Hw. pose proof (proj1 (@judges_ok _ _ _ J) (ex_intro _ w Hw)) as P.
  destruct (passes_array P) as (d & sh & el & ->).
  apply follows_bind; [|intros _ _; apply follows_ok].
  eapply shapes_only; [|apply shapes_judge]; [| cbn; lia | reflexivity |]; [reflexivity|].
  intros x [<-|[<-|[]]]; do 3 eexists; reflexivity.
Qed.

(** *** contrast *)
Lemma guard_on (P : Prop) c A (x : mres A) : P -> judges c x -> judges (guarded P c) x.
Proof. intros H. apply judges_iff; cbn [guarded passes complains]; intros; tauto. Qed.
Lemma guard_off (P : Prop) c A (a : A) : ~ P -> judges (guarded P c) (MOk a).
Proof. intros H. cbn [judges guarded passes complains]. split; [intros X; contradiction|]. intros e s [X _]. contradiction. Qed.
Lemma has_iff (p : gprop T) : all_nans (p_data p) = false <-> has_number p.
Proof.
  rewrite <- not_true_iff_false, all_nans_iff. unfold has_number. split.
  - intros H. destruct (nanmin (p_data p)) as [m|] eqn:E; pose proof (nanmin_spec (p_data p)) as S; rewrite E in S.
    + exists m. split; apply S.
    + contradiction.
  - intros (x & Hx & Hn) H. apply Hn, H, Hx.
Qed.
Lemma np_number_m name (x : T) : exists w, number_m fmt name (PNpFloat x) false m_inf p_inf false = MOk w.
Proof.
  pose proof (number_out fmt name (PNpFloat x) false m_inf p_inf false) as E. rewrite number_np in E.
  destruct (number_m fmt name (PNpFloat x) false m_inf p_inf false) as [w|]; [exists w; reflexivity | discriminate E].
Qed.
Lemma limit_judge (p : gprop T) name (o : option pyval) (v : pyval) : osmall o -> has_number p ->
  match o with Some a => v = a | None => exists x, v = PNpFloat x end ->
  judges (limit_check fmt p name o) (number_m fmt name v false m_inf p_inf false).
Proof.
  intros So Hp Hv. unfold limit_check. destruct o as [a|].
  - subst v. apply guard_on; [split; [exact Hp | discriminate]|]. apply number_judges; tame.
  - destruct Hv as [x ->]. destruct (np_number_m name x) as [w ->]. apply guard_off. intros [_ X]. contradiction X. reflexivity.
Qed.
Lemma limits_follow (p : gprop T) a b : osmall a -> osmall b ->
  follows [limit_check fmt p "vmin" a; limit_check fmt p "vmax" b] (snd (set_limits_m fmt p a b)).
Proof.
  intros Sa Sb. unfold set_limits_m. destruct (all_nans (p_data p)) eqn:E.
  - assert (Hn : ~ has_number p) by (rewrite <- has_iff, E; discriminate). cbn [snd].
    change (MOk tt) with (let! _ := MOk tt in let! _ := MOk tt in MOk tt).
    apply follows_bind; [apply guard_off; tauto|]. intros _ _. apply follows_bind; [apply guard_off; tauto|]. intros _ _. apply follows_ok.
  - assert (Hp : has_number p) by (apply has_iff, E). cbv zeta.
    destruct (nanmin_some _ E) as [x Ex]. destruct (nanmax_some _ E) as [y Ey].
    set (v := match a with Some v => v | None => match nanmin (p_data p) with Some x0 => PNpFloat x0 | None => PNone end end).
    assert (Jv : judges (limit_check fmt p "vmin" a) (number_m fmt "vmin" v false m_inf p_inf false)).
    { apply limit_judge; auto. unfold v. destruct a; [reflexivity|]. rewrite Ex. exists x. reflexivity. }
    set (w := match b with Some v => v | None => match nanmax (p_data p) with Some x0 => PNpFloat x0 | None => PNone end end).
    assert (Jw : judges (limit_check fmt p "vmax" b) (number_m fmt "vmax" w false m_inf p_inf false)).
    { apply limit_judge; auto. unfold w. destruct b; [reflexivity|]. rewrite Ey. exists y. reflexivity. }
    match goal with |- follows _ (snd ?z) => replace (snd z) with
      (let! _ := number_m fmt "vmin" v false m_inf p_inf false in let! _ := number_m fmt "vmax" w false m_inf p_inf false in MOk tt) end.
    + apply follows_bind; [exact Jv|]. intros _ _. apply follows_bind; [exact Jw|]. intros _ _. apply follows_ok.
    + replace (match a with Some v0 => v0 | None => match nanmin (p_data p) with Some x0 => PNpFloat x0 | None => PNone end end) with v by reflexivity.
      unfold v. destruct a as [a|]; (destruct (number_m fmt "vmin" _ false m_inf p_inf false) as [lo|]; [|reflexivity]); cbn [mbind with_limits p_data];
       unfold w; destruct b as [b|]; (destruct (number_m fmt "vmax" _ false m_inf p_inf false) as [up|]; reflexivity).
Qed.
Lemma string_cases (v : pyval) : (exists s, v = PStr s /\ string_v v = Ok s) \/ ((forall s, v <> PStr s) /\ string_v v = Err TypeError).
Proof. destruct v; try (right; split; [discriminate | reflexivity]). left. exists s. split; reflexivity. Qed.
Lemma string_judge name (v : pyval) : judges (kind_check (exists s, v = PStr s) name "string") (string_m name v).
Proof.
  apply kind_judge. destruct (string_cases v) as [(s & E & ->)|(E & ->)]; [exists s; exact E|].
  split; [|reflexivity]. intros [s X]. exact (E s X).
Qed.
Theorem contrast_follows (p : gprop T) a b c d : osmall a -> osmall b -> osmall d ->
  follows (contrast_checks fmt p a b c d) (snd (set_contrast_m fmt p a b c d)).
Proof.
  intros Sa Sb Sd. unfold contrast_checks.
  assert (E : snd (set_contrast_m fmt p a b c d) = let! _ := snd (set_limits_m fmt p a b) in
     let! _ := string_m "color_map" (dflt (PStr "viridis") c) in
     let! _ := number_m fmt "num_colors" (dflt (PInt 11) d) true (PInt 2) p_inf false in MOk tt).
  { unfold set_contrast_m. destruct (set_limits_m fmt p a b) as [q [[]|]]; [|reflexivity]. cbn [snd mbind].
    destruct (string_m "color_map" _); [|reflexivity]. cbn [mbind]. destruct (number_m _ _ _ _ _ _ _); reflexivity. }
  rewrite E. apply (@follows_app [limit_check fmt p "vmin" a; limit_check fmt p "vmax" b]); [apply limits_follow; assumption|]. intros _ _.
  apply follows_bind.
  { apply string_judge. }
  intros _ _. apply follows_bind; [|intros _ _; apply follows_ok]. apply number_judges; try tame. destruct d; [exact Sd | cbn; lia].
Qed.

(** *** measurements *)
Lemma one_small : small (PInt 1 : pyval). Proof. cbn. lia. Qed.
Theorem measure_follows_np (g : ggrad T) m o t e : small m -> small o -> osmall t -> osmall e ->
  (value (or_else (PInt 1) t) <> XFin 0 \/ exists x, t = Some (PNpFloat x)) ->
  follows (measure_checks fmt m o t e) (snd (determine_mask_m fmt g m o t e)).
Proof.
  intros Sm So St Se Hz. unfold measure_checks.
  assert (St' : small (dflt (PInt 1) t)) by (destruct t; [exact St | exact one_small]).
  assert (Se' : small (dflt (PInt 1) e)) by (destruct e; [exact Se | exact one_small]).
  change (or_else (PInt 1) t) with (dflt (PInt 1) t) in *. change (or_else (PInt 1) e) with (dflt (PInt 1) e).
  set (t' := dflt (PInt 1) t) in *. set (e' := dflt (PInt 1) e) in *.
  assert (J3 : judges (number_check (f4 fmt) "transmission_change" t' false (PInt 0) (PInt 1) false) (number_m fmt "transmission_change" t' false (PInt 0) (PInt 1) false)) by (apply number_judges; tame).
  assert (E : snd (determine_mask_m fmt g m o t e) =
     let! _ := number_m fmt "measured_gradient" m false (PInt 0) p_inf false in
     let! _ := number_m fmt "orbital_scale" o false (PInt 0) p_inf false in
     let! _ := number_m fmt "transmission_change" t' false (PInt 0) (PInt 1) false in
     let! _ := number_m fmt "measured_error" e' false (PFloat n_zero) p_inf false in
     if n_gt (scaled_by m o t') n_one
     then raise ValueError "scaled gradient is greater than one, check the measured gradient, orbital scale and transmission change"
     else MOk tt).
  { unfold determine_mask_m. fold t' e'.
    destruct (number_m fmt "measured_gradient" m false (PInt 0) p_inf false) as [m'|] eqn:Em; [|reflexivity]. apply number_valued in Em. subst m'. cbv zeta. cbn [mbind].
    destruct (number_m fmt "orbital_scale" o false (PInt 0) p_inf false) as [o'|] eqn:Eo; [|reflexivity]. apply number_valued in Eo. subst o'. cbn [mbind].
    destruct (number_m fmt "transmission_change" t' false (PInt 0) (PInt 1) false) as [t''|] eqn:Et; [|reflexivity].
    pose proof (proj1 (@judges_ok _ _ _ J3) (ex_intro _ t'' eq_refl)) as P3. apply number_valued in Et. subst t''. cbn [mbind].
    destruct (number_m fmt "measured_error" e' false (PFloat n_zero) p_inf false) as [e''|]; [|reflexivity]. cbn [mbind].
    unfold scaled_gradient_m. cbn [gg_meas gg_trans gg_orb].
    assert (R : reciprocal t' = Ok (n_div n_one (num_of t'))).
    { destruct Hz as [Hz|[x Hx]]; [|unfold t'; rewrite Hx; reflexivity]. destruct P3 as (P3 & _). apply typed_number in P3.
      assert (Hn : n_eq (num_of t') n_zero = false).
      { destruct (proj1 (num_scal_of t') P3) as [q Eq]. destruct (scal_of_value _ Eq) as [Vq Sq].
        unfold num_of. rewrite Eq, l_eq, (@num_scal_value T NT LT q (Sq St')), Vq, val_zero. apply not_true_iff_false. rewrite x_eq_iff. tauto. }
      unfold reciprocal. rewrite Hn. destruct P3 as [P3|P3]; inversion P3; reflexivity. }
    rewrite R. cbn [silent mbind]. unfold scaled_by. destruct (n_gt _ n_one); reflexivity. }
  rewrite E.
  apply follows_bind; [apply number_judges; tame|]. intros _ _.
  apply follows_bind; [apply number_judges; tame|]. intros _ _.
  apply follows_bind; [exact J3|]. intros _ _.
  apply follows_bind; [apply number_judges; tame|]. intros _ _.
  assert (G : n_gt (scaled_by m o t') n_one = true <-> xlt (XFin 1) (val (scaled_by m o t'))).
  { change (n_gt (scaled_by m o t') n_one) with (n_lt n_one (scaled_by m o t')). rewrite lt_spec, val_one. reflexivity. }
  apply own_judge; [| | apply follows_ok].
  - rewrite G. destruct (n_gt (scaled_by m o t') n_one); [tauto|]. split; [tauto|]. intros H. exfalso. apply H. intros X. apply G in X. discriminate X.
  - rewrite <- not_true_iff_false, G. tauto.
Qed.

Theorem measure_follows (g : ggrad T) m o t e : small m -> small o -> osmall t -> osmall e ->
  value (or_else (PInt 1) t) <> XFin 0 ->
  follows (measure_checks fmt m o t e) (snd (determine_mask_m fmt g m o t e)).
Proof. intros A B C D H. apply measure_follows_np; auto. Qed.

(** *** diagnostics *)
Definition sizes_small (d : gdiag T) : Prop := (1 <= d_my d <= 2 ^ 50)%Z /\ (1 <= d_mx d <= 2 ^ 50)%Z.
Lemma index_follows (d : gdiag T) (y x : pyval) : small y -> small x -> sizes_small d -> follows (index_checks fmt d y x) (gen_key_m fmt d y x).
Proof.
  intros Sy Sx [Dy Dx]. unfold gen_key_m, index_checks. cbv zeta.
  apply follows_bind; [apply number_judges; try tame; destruct (d_ext d); cbn [small]; lia|]. intros a _.
  apply follows_bind; [apply number_judges; try tame; destruct (d_ext d); cbn [small]; lia|]. intros b _.
  destruct (d_ext d); apply follows_ok.
Qed.
Theorem keep_follows (d : gdiag T) (y x fy dr : pyval) : small y -> small x -> sizes_small d ->
  follows (keep_checks fmt str_int str_tuple d y x fy dr) (snd (save_diagnostic_m fmt d y x fy dr)).
Proof.
  intros Sy Sx Sd. unfold keep_checks.
  assert (E : snd (save_diagnostic_m fmt d y x fy dr) =
    if d_ext d then raise RuntimeError "diagnostics have been extended and can not be changed"
    else (let! fy := array_m fmt "fy" fy None None false (Some "float64") (Some 1%Z) in
       let! dr := array_m fmt "disk_radius" dr None None false (Some "float64") (Some 1%Z) in
       let! _ := same_shape_m [fy; dr] ["fy"; "disk_radius"] in
       let! k := gen_key_m fmt d y x in MOk tt)).
  { unfold save_diagnostic_m. destruct (d_ext d); [reflexivity|].
    destruct (array_m fmt "fy" fy None None false (Some "float64") (Some 1%Z)); [|reflexivity]. cbn [mbind].
    destruct (array_m fmt "disk_radius" dr None None false (Some "float64") (Some 1%Z)); [|reflexivity]. cbn [mbind].
    destruct (same_shape_m _ _); [|reflexivity]. cbn [mbind]. destruct (gen_key_m fmt d y x); reflexivity. }
  rewrite E. cbn [app]. apply own_judge; [destruct (d_ext d); intuition discriminate | reflexivity |].
  pose proof (data_judge "fy" fy "float64" (Some 1%Z)) as J1. pose proof (data_judge "disk_radius" dr "float64" (Some 1%Z)) as J2.
  apply follows_bind; [exact J1|]. intros a Ha. pose proof (proj1 (@judges_ok _ _ _ J1) (ex_intro _ a Ha)) as P1. apply array_valued in Ha. subst a.
  apply follows_bind; [exact J2|]. intros a Ha. pose proof (proj1 (@judges_ok _ _ _ J2) (ex_intro _ a Ha)) as P2. apply array_valued in Ha. subst a.
  destruct (passes_array P1) as (d1 & s1 & e1 & ->). destruct (passes_array P2) as (d2 & s2 & e2 & ->).
  apply follows_bind.
  { apply shapes_judge; [cbn; lia | reflexivity |]. intros w [<-|[<-|[]]]; do 3 eexists; reflexivity. }
  intros _ _. change (index_checks fmt d y x) with (index_checks fmt d y x ++ [])%list.
  pose proof (@index_follows d y x Sy Sx Sd) as F. unfold follows in *. destruct (gen_key_m fmt d y x); exact F.
Qed.
End G.
