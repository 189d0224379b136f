(** The texts of the exceptions of the constructor of a grid. *)
From Coq Require Import ZArith Reals List Bool String Lia.
From Verif Require Import Num NumP Py SpecNum Validate ValidateP Ring RingP RingSystem RingSystemP FS GridParams SpecGrid GridParamsP GridDiag GridDiagP Names GridProp SpecProp GridPropP
  Geometry Build SpecBuild BuildP BuildQP StretchP Shallot BuildGP BuildGridP BuildCP DiagBuildP AddLaws ShallotOps SpecOps Viewer Fmt Text Message SpecMsg SpecMsgGrid MessageP MessageSpecP MessageRingP MessageGridP MessageExP
  MessageOps SpecMsgOps MessageOpsP MessageTellP.
Import ListNotations.
Set Implicit Arguments.
Local Open Scope string_scope.
Local Open Scope list_scope.

(** what has a text is the complaint of the search for the disks *)
Definition only A (x : mres A) : Prop := forall e t, x = MErr e (Some t) -> e = AttributeError /\ t = "check code or user input".
Lemma only_ok A (a : A) : only (MOk a). Proof. intros e t X. discriminate X. Qed.
Lemma only_none A e : only (@MErr A e None). Proof. intros e' t X. discriminate X. Qed.
Lemma only_silent A (r : res A) : only (silent r). Proof. destruct r; [apply only_ok|apply only_none]. Qed.
Lemma only_bind A B (x : mres A) (f : A -> mres B) : only x -> (forall a, x = MOk a -> only (f a)) -> only (mbind x f).
Proof. intros Hx Hf. destruct x as [a|e t]; [exact (Hf a eq_refl)|]. intros e' t' X. cbn [mbind] in X. injection X as -> ->. exact (Hx _ _ eq_refl). Qed.

Section O.
Context {T : Type} {NT : Num T} {LT : NumLaws T} {AL : AddLaws T} (E : env T).
Variable fmt : nat -> T -> string.
Notation pyval := (pyval T).
Notation shallot := (shallot T).

Lemma disk_ok fx fy s c : ~ xlt (val c) (XFin 0) -> exists l, disk_arrays_m E fmt fx fy s c = MOk l.
Proof.
  intros Hc. unfold disk_arrays_m. destruct (np_number_m fmt "shear_value" s) as [w ->]. cbn [mbind].
  assert (J : judges (number_check (f4 fmt) "circular_radius_value" (PNpFloat c) false (PInt 0) p_inf false) (number_m fmt "circular_radius_value" (PNpFloat c) false (PInt 0) p_inf false)).
  { apply number_judges; [exact I|cbn; lia|exact I|left; constructor|right; constructor]. }
  destruct (proj2 (@judges_ok _ _ _ J)) as [w' Hw].
  - split; [right; split; [reflexivity|constructor]|]. cbn [value p_inf]. rewrite l_inf. split; [intros X; exact X|]. split; [exact Hc|]. destruct (val c); intros X; exact X.
  - rewrite Hw. eexists. reflexivity.
Qed.
Lemma only_stretch new join outer (mx rf : T) : (forall z, only (new z)) -> forall fuel shift fys drs, only (stretch_m fuel new join outer mx rf shift fys drs).
Proof.
  intros Hn. induction fuel as [|fuel IH]; intros shift fys drs; [apply only_none|]. cbn [stretch_m].
  apply only_bind; [apply Hn|]. intros fd _. apply only_bind; [apply only_silent|]. intros m _. destruct (outer (snd fd)) as [r|]; [|apply only_none]. cbv zeta.
  destruct (n_gt _ _); [intros e t X; injection X as <- <-; split; reflexivity|]. destruct (n_lt _ _); [apply IH|apply only_ok].
Qed.
Lemma only_point g nf dy s c : ~ xlt (val c) (XFin 0) -> only (grid_point_m E fmt g nf dy s c).
Proof.
  intros Hc. unfold grid_point_m. apply only_bind; [apply only_silent|]. intros rf _.
  apply only_bind.
  { apply only_stretch. intros z. unfold new_horizontal_m. apply only_bind; [apply only_silent|]. intros fx _. cbv zeta. destruct (@disk_ok (rev fx) (rev (map (fun x => determine_fy x dy) fx)) s c Hc) as [l ->]. apply only_ok. }
  intros h _. apply only_bind.
  { apply only_stretch. intros z. unfold new_vertical_m. apply only_bind; [apply only_silent|]. intros fy _. cbv zeta. destruct (@disk_ok (map (fun y => determine_fx y dy) fy) fy s c Hc) as [l ->]. apply only_ok. }
  intros v _. apply only_bind; [apply only_silent|]. intros i _. destruct (@disk_ok (fst i) (snd i) s c Hc) as [l ->]. apply only_ok.
Qed.

(** the diagnostics, if kept, hold the points built so far *)
Definition fits (s : shallot) : Prop := s_diag s = None \/ exists D d, s_diag s = Some d /\ holds E D s d.
Definition radii_ok (s : shallot) : Prop := forall y, ~ xlt (val (nth y (s_radius s) n_nan)) (XFin 0).
Lemma diag_none y s x s' : build_point E y s x = Ok s' -> s_diag s = None -> s_diag s' = None.
Proof.
  unfold build_point. cbv zeta. destruct (n_isnan _); [congruence|]. destruct (grid_point _ _ _ _ _ _) as [col|]; cbn [bind]; [|discriminate].
  do 5 (destruct (put_column _ _ _ _) as [?|]; cbn [bind]; [|discriminate]). cbn [with_cubes s_diag]. intros H Hd. rewrite Hd in H. injection H as <-. exact Hd.
Qed.
Lemma fits_point nr y s x s' : shapely nr s -> y < ny_of s -> x < nx_of s -> fits s -> build_point E y s x = Ok s' ->
  shapely nr s' /\ fits s' /\ ny_of s' = ny_of s /\ nx_of s' = nx_of s /\ s_radius s' = s_radius s.
Proof.
  intros Hs Hy Hx Hf H. assert (U := point_updated E Hs Hy Hx H). destruct (others_sizes E (proj1 U)) as (Ey & Ex & _).
  split; [exact (updated_shapely U Hs)|]. split; [|split; [exact Ey|split; [exact Ex|]]].
  - destruct Hf as [Hn|(D & d & Hd & Hh)]; [left; exact (diag_none _ _ _ H Hn)|]. right.
    destruct (@point_holds T NT E nr D s d y x s' Hs Hy Hx Hd Hh H) as (d' & A & B). do 2 eexists. split; [exact A|exact B].
  - destruct U as (Ho & _). unfold others in Ho. congruence.
Qed.
Lemma only_build_point nr y s x : shapely nr s -> y < ny_of s -> x < nx_of s -> fits s -> radii_ok s -> only (build_point_m E fmt y s x).
Proof.
  intros Hs Hy Hx Hf Hr. unfold build_point_m. cbv zeta. destruct (n_isnan _); [apply only_ok|].
  apply only_bind; [apply only_point, Hr|]. intros col Hcol.
  do 5 (apply only_bind; [apply only_silent|]; intros ? _).
  destruct Hf as [Hn|(D & d & Hd & A & B & C & O & _)]; [cbn [with_cubes s_diag]; rewrite Hn; apply only_ok|].
  cbn [with_cubes s_diag]. rewrite Hd.
  set (fy := PArr _ _ _). set (dr := PArr _ _ (map _ (c_drs col))).
  assert (S : exists d', save_diagnostic_m fmt d (PInt (Z.of_nat y)) (PInt (Z.of_nat x)) fy dr = (d', MOk tt)).
  { assert (Ep := point_out E fmt (s_params s) (s_nf s) (nth y (g_dy (s_params s)) n_nan) (nth (y * List.length (g_dx (s_params s)) + x) (s_shear s) n_nan) (nth y (s_radius s) n_nan)).
    rewrite Hcol in Ep. symmetry in Ep. cbn [outcome] in Ep.
    assert (Q := save_diag_out fmt d (PInt (Z.of_nat y)) (PInt (Z.of_nat x)) fy dr). rewrite save_ok in Q.
    - destruct (save_diagnostic_m fmt d _ _ fy dr) as [d' [[]|e t]]; [exists d'; reflexivity|]. unfold out2 in Q. cbn [fst snd outcome] in Q. discriminate Q.
    - exact C.
    - exists (List.length (c_fys col)), (map (@SF T) (c_fys col)), (map (@SF T) (c_drs col)). split; [reflexivity|]. unfold dr. rewrite (sampled_len _ _ _ _ _ _ Ep). reflexivity.
    - rewrite A. split; [constructor|]. cbn [zof]. lia.
    - rewrite B. split; [constructor|]. cbn [zof]. lia. }
  destruct S as [d' ->]. apply only_ok.
Qed.
Lemma only_points nr y xs : forall s, shapely nr s -> y < ny_of s -> (forall x, In x xs -> x < nx_of s) -> fits s -> radii_ok s ->
  only (fold_mres (build_point_m E fmt y) xs s) /\
  forall s', fold_mres (build_point_m E fmt y) xs s = MOk s' -> shapely nr s' /\ fits s' /\ ny_of s' = ny_of s /\ nx_of s' = nx_of s /\ s_radius s' = s_radius s.
Proof.
  induction xs as [|x xs IH]; intros s Hs Hy Hxs Hf Hr; cbn [fold_mres].
  - split; [apply only_ok|]. intros s' H. injection H as <-. auto.
  - assert (Hx := Hxs x (or_introl eq_refl)). assert (K := @only_build_point nr y s x Hs Hy Hx Hf Hr).
    assert (Next : forall s1, build_point_m E fmt y s x = MOk s1 -> shapely nr s1 /\ fits s1 /\ ny_of s1 = ny_of s /\ nx_of s1 = nx_of s /\ s_radius s1 = s_radius s).
    { intros s1 H1. assert (Q := build_point_out E fmt y s x). rewrite H1 in Q. symmetry in Q. exact (@fits_point nr y s x s1 Hs Hy Hx Hf Q). }
    assert (R : forall s1, build_point_m E fmt y s x = MOk s1 -> only (fold_mres (build_point_m E fmt y) xs s1) /\
      forall s', fold_mres (build_point_m E fmt y) xs s1 = MOk s' -> shapely nr s' /\ fits s' /\ ny_of s' = ny_of s /\ nx_of s' = nx_of s /\ s_radius s' = s_radius s).
    { intros s1 H1. destruct (Next s1 H1) as (A & B & C & D & F). destruct (IH s1 A) as [P Q]; [congruence|intros z Hz; rewrite D; apply Hxs; right; exact Hz|exact B|unfold radii_ok; rewrite F; exact Hr|].
      split; [exact P|]. intros s' H'. destruct (Q s' H') as (Q1 & Q2 & Q3 & Q4 & Q5). repeat split; congruence || assumption || apply Q1. }
    split.
    + apply only_bind; [exact K|]. intros s1 H1. exact (proj1 (R s1 H1)).
    + intros s' H. destruct (build_point_m E fmt y s x) as [s1|] eqn:E1; [|discriminate H]. exact (proj2 (R s1 eq_refl) s' H).
Qed.
Lemma only_rows nr inter ys : forall s, shapely nr s -> (forall y, In y ys -> y < ny_of s) -> fits s -> radii_ok s -> only (snd (build_rows_m E fmt inter ys s)).
Proof.
  induction ys as [|y ys IH]; intros s Hs Hys Hf Hr; cbn [build_rows_m snd]; [apply only_ok|].
  destruct (@only_points nr y (seq 0 (nx_of s)) s Hs (Hys y (or_introl eq_refl)) ltac:(intros x Hx; now apply in_seq in Hx) Hf Hr) as [K R].
  unfold build_row_m. fold (nx_of s). destruct (fold_mres _ _ _) as [s1|e t]; [|intros e' t' X; cbn [snd] in X; injection X as -> ->; exact (K _ _ eq_refl)].
  destruct (R s1 eq_refl) as (A & B & C & D & F). specialize (IH s1 A ltac:(intros z Hz; rewrite C; apply Hys; right; exact Hz) B ltac:(unfold radii_ok; rewrite F; exact Hr)).
  destruct (build_rows_m E fmt inter ys s1) as [l r]. exact IH.
Qed.

Lemma only_build (g : gparams T) nf (k inter : bool) : proper g -> (forall c, In c (radius_of_params E g) -> ~ xlt (val c) (XFin 0)) ->
  only (snd (build_grid_m E fmt (fresh_shallot E g nf (if k then Some (new_diag g) else None)) inter (PInt 0))).
Proof.
  intros Hpr Hr. set (dg := if k then Some (new_diag g) else None : option (gdiag T)). unfold build_grid_m. change (s_params (fresh_shallot E g nf dg)) with g.
  assert (N := number_out fmt "start_y" (PInt 0) true (PInt 0) (PInt (Z.of_nat (List.length (g_dy g)))) false). rewrite number_start in N.
  destruct (number_m fmt "start_y" _ _ _ _ _) as [v|e t]; [|cbn [outcome] in N; discriminate N]. cbn [outcome] in N. assert (v = PInt 0) as -> by congruence. clear N.
  change (int_of (PInt 0 : pyval)) with 0%Z. cbn [Z.eqb]. rewrite init_ok. change (s_params (fresh_shallot E g nf dg)) with g. change (Z.to_nat 0) with 0.
  set (s0 := with_all (fresh_shallot E g nf dg) (nan_cube g)) in *. change (s_params s0) with g. rewrite Nat.sub_0_r. cbv zeta.
  assert (Hsh := consistent_shape3 (pr_cons Hpr)). set (nr := List.length (g_rfa g)).
  assert (S0 : shapely nr s0).
  { intros w. unfold s0. rewrite cube_with_all, nan_cube_shape, nan_cube_data, repeat_length, Hsh, volume3. split; reflexivity. }
  assert (Y0 : forall y, In y (seq 0 (List.length (g_dy g))) -> y < ny_of s0) by (intros y Hy; apply in_seq in Hy; exact (proj2 Hy)).
  assert (F0 : fits s0).
  { unfold fits. change (s_diag s0) with dg. unfold dg. destruct k; [|left; reflexivity]. right. exists (fun _ _ => false), (new_diag g). split; [reflexivity|].
    assert (Hsize : g_shape g = (List.length (g_dy g), List.length (g_dx g), List.length (g_rfa g))).
    { unfold shape3 in Hsh. destruct (g_shape g) as [[a b] c]. injection Hsh as -> -> ->. reflexivity. }
    unfold holds, new_diag. rewrite Hsize. cbn [d_my d_mx d_ext]. split; [reflexivity|]. split; [reflexivity|]. split; [reflexivity|]. split; [reflexivity|]. intros y x _ _. cbn [andb]. reflexivity. }
  assert (R0 : radii_ok s0).
  { intros y. change (s_radius s0) with (radius_of_params E g). destruct (nth_in_or_default y (radius_of_params E g) n_nan) as [X| ->]; [exact (Hr _ X)|].
    rewrite l_nan. intros X. exact X. }
  assert (K := @only_rows nr inter (seq 0 (List.length (g_dy g))) s0 S0 Y0 F0 R0).
  destruct (build_rows_m E fmt inter (seq 0 (List.length (g_dy g))) s0) as [l [s1|e t]]; [|exact K].
  destruct (set_contrasts s1); [apply only_ok|apply only_none].
Qed.
Lemma checks_follow (parameters : earg (gparams T)) nf level keep inter : small nf -> small level ->
  follows (grid_checks fmt parameters nf level keep inter)
   (let! _ := number_m fmt "logging_level" level true (PInt 10) (PInt 50) false in
    let! g := class_arg_m "parameters" "GridParameters" parameters in
    let! nf := number_m fmt "num_fxfy" nf true (PInt 1) p_inf false in
    let! keep := boolean_m "keep_diagnostics" keep in
    let! inter := boolean_m "intermittent_saving" inter in
    MOk (fresh_shallot E g nf (if keep then Some (new_diag g) else None), inter)).
Proof.
  intros Sn Sl. unfold grid_checks. apply follows_bind; [apply number_judges; [exact Sl|cbn; lia|cbn; lia|left; constructor|left; constructor]|]. intros _ _.
  apply follows_bind; [apply arg_judge|]. intros g _. apply follows_bind; [apply number_judges; [exact Sn|cbn; lia|exact I|left; constructor|right; constructor]|]. intros n _.
  apply follows_bind; [apply bool_judge|]. intros k _. apply follows_bind; [apply bool_judge|]. intros i _. apply follows_ok.
Qed.
(** the checks of the arguments come first *)
Theorem construct_announces (parameters : earg (gparams T)) nf level keep inter e t : small nf -> small level ->
  first_error (grid_checks fmt parameters nf level keep inter) e t -> snd (snd (new_shallot_m E fmt parameters nf level keep inter)) = MErr e (Some t).
Proof.
  intros Sn Sl H. assert (F := @checks_follow parameters nf level keep inter Sn Sl). unfold new_shallot_m. cbv zeta.
  destruct (mbind _ _) as [[s i]|e' o]; cbn [follows judges in_turn passes complains] in F.
  - destruct (proj2 F _ _ H).
  - destruct F as [_ (x & -> & F)]. cbn [snd]. apply F in H. destruct H as [-> ->]. reflexivity.
Qed.
(** later only the search for the disks can complain *)
Theorem construct_complains (g : gparams T) nf level keep inter e t : small nf -> small level -> proper g ->
  Forall passes (grid_checks fmt (EIs g) nf level keep inter) ->
  (g_ext g = false \/ exists g', extend_grid g = (g', Ok tt)) -> (forall c, In c (radius_of_params E g) -> ~ xlt (val c) (XFin 0)) ->
  snd (snd (new_shallot_m E fmt (EIs g) nf level keep inter)) = MErr e (Some t) -> e = AttributeError /\ t = "check code or user input".
Proof.
  intros Sn Sl Hpr Hc Hx Hr. assert (F := @checks_follow (EIs g) nf level keep inter Sn Sl). unfold new_shallot_m. cbv zeta.
  destruct (number_m fmt "logging_level" _ _ _ _ _) as [lv|]; [|cbn [mbind] in F; destruct F as [F _]; contradiction].
  cbn [class_arg_m class_arg saying mbind] in *.
  destruct (number_m fmt "num_fxfy" nf _ _ _ _) as [nf'|]; cbn [mbind] in *; [|destruct F as [F _]; contradiction].
  destruct (boolean_m "keep_diagnostics" keep) as [k|]; cbn [mbind] in *; [|destruct F as [F _]; contradiction].
  destruct (boolean_m "intermittent_saving" inter) as [it|]; cbn [mbind] in *; [|destruct F as [F _]; contradiction].
  assert (K := @only_build g nf' k it Hpr Hr).
  assert (O := build_grid_out E fmt (fresh_shallot E g nf' (if k then Some (new_diag g) else None)) it (PInt 0)).
  destruct (build_grid_m E fmt _ it (PInt 0)) as [l [s1|e' t']]; [|exact (K e t)].
  symmetry in O. cbn [outs fst snd outcome] in O.
  destruct (@built T NT LT E g nf' _ it l s1 (pr_cons Hpr) O) as (Ho & _ & Hw).
  assert (Hg1 : s_params s1 = g). { unfold others in Ho. inversion Ho. reflexivity. }
  assert (Hpl : forall w, BuildCP.plain g w (cube_of w s1)). { intros w. destruct (Hw w) as (data & -> & Hl & _). apply built_plain; auto. apply Hpr. }
  destruct (@finish_ok T NT LT E g s1 Hpr Hg1 Hpl Hx) as (g2 & s2 & Ef2 & _).
  assert (Q := finish_out E fmt s1). rewrite Ef2 in Q. destruct (finish_shallot_m E fmt s1) as [g3 [s3|e3 t3]]; cbn [outs fst snd outcome] in Q; [|discriminate Q].
  cbn [snd]. discriminate.
Qed.
End O.
