(** An interrupted intermittent build, resumed from a copy of its temporary directory. *)
From Coq Require Import ZArith Lra Reals List Bool String Ascii Lia.
From Verif Require Import Num NumP Py SpecNum Validate ValidateP Ring RingP RingSystem FS FSP GridParams SpecGrid GridParamsP GridDiag GridDiagP Names GridProp SpecProp GridPropP GridGradP
  GridPropFSP Geometry Build SpecBuild BuildP BuildQP Shallot BuildGP BuildGridP BuildCP AddLaws ShallotOps SpecOps SpecSave SpecResume OpsP OpsReadP SaveFsP SaveP SaveLoadP.
Import ListNotations.
Set Implicit Arguments.
Local Open Scope string_scope.
Local Open Scope list_scope.

Section R.
Context {T : Type} {NT : Num T} {LT : NumLaws T} (E : env T).
Notation pyval := (pyval T).
Notation shallot := (shallot T).
Notation content := (content T).
Notation entry := (option (string * content)).

(** *** only the integer of num_fxfy matters *)
Lemma stretch_ext fuel (new new' : Z -> res (list T * list T)) join outer mx mr : (forall z, new z = new' z) ->
  forall shift a b, stretch fuel new join outer mx mr shift a b = stretch fuel new' join outer mx mr shift a b.
Proof.
  intros H. induction fuel as [|fuel IH]; intros shift a b; cbn [stretch]; auto. rewrite <- H. destruct (new shift) as [fd|]; cbn [bind]; auto.
  destruct (nan_min _); cbn [bind]; auto. destruct (outer (snd fd)); auto. cbn zeta. destruct (n_gt _ _); auto. destruct (n_lt _ _); auto.
Qed.
Lemma grid_point_nf (g : gparams T) nf nf' dy s c : num_index nf = num_index nf' -> grid_point E g nf dy s c = grid_point E g nf' dy s c.
Proof.
  intros H. assert (F : forall m z, fxy_array nf m z = fxy_array nf' m z) by (intros; unfold fxy_array; now rewrite H).
  assert (A : forall m dy s c z, new_horizontal E nf m dy s c z = new_horizontal E nf' m dy s c z) by (intros; unfold new_horizontal; now rewrite F).
  assert (B : forall m dy s c z, new_vertical E nf m dy s c z = new_vertical E nf' m dy s c z) by (intros; unfold new_vertical; now rewrite F).
  unfold grid_point. destruct (last_opt (g_rf g)); cbn [bind]; auto. unfold extend_horizontally, extend_vertically.
  rewrite (stretch_ext _ (new_horizontal E nf (amax (g_dx g)) dy s c) (new_horizontal E nf' (amax (g_dx g)) dy s c)) by auto.
  destruct (stretch _ _ _ _ _ _ _ _ _) as [h|]; cbn [bind]; auto.
  rewrite (stretch_ext _ (new_vertical E nf (amax (g_dy g)) dy s c) (new_vertical E nf' (amax (g_dy g)) dy s c)) by auto. reflexivity.
Qed.
Lemma column_spec_nf (g : gparams T) nf nf' w y x l : num_index nf = num_index nf' -> column_spec E g nf w y x l -> column_spec E g nf' w y x l.
Proof. intros H. unfold column_spec. cbn zeta. destruct (n_isnan _); auto. now rewrite (grid_point_nf g _ _ _ _ _ H). Qed.
Lemma column_spec_fun (g : gparams T) nf w y x l m : column_spec E g nf w y x l -> column_spec E g nf w y x m -> l = m.
Proof. unfold column_spec. cbn zeta. destruct (n_isnan _); [congruence|]. intros (c & H & ->) (c' & H' & ->). congruence. Qed.

(** *** cubes that are finished up to a row *)
Section G.
Context (g : gparams T) (Hg : proper g) (nf : pyval).
Notation ny := (List.length (g_dy g)).
Notation nx := (List.length (g_dx g)).
Notation nr := (List.length (g_rfa g)).
Notation shear y x := (shear_at (nth x (g_dx g) n_nan) (nth y (g_dy g) n_nan)).

Definition upto (u : nat) (w : which) (data : list T) : Prop :=
  List.length data = ny * nx * nr /\
  forall y x, y < ny -> x < nx -> (y < u \/ n_isnan (shear y x) = true) -> column_spec E g nf w y x (column_at nx nr data y x).
Lemma upto_less u u' w data : upto u w data -> u' <= u -> upto u' w data.
Proof. intros [A B] H. split; auto. intros y x Hy Hx [X|X]; apply B; auto. left. lia. Qed.
Lemma upto_nan w : upto 0 w (p_data (nan_cube g w)).
Proof.
  rewrite nan_cube_data, (consistent_shape3 (pr_cons Hg)), volume3. split; [apply repeat_length|]. intros y x Hy Hx [X|X]; [lia|].
  unfold column_spec. cbn zeta. rewrite X. now apply column_repeat.
Qed.
Lemma upto_quadrant w data : upto ny w data -> quadrant E g nf w data.
Proof. intros [A B]. split; auto. Qed.
Lemma quadrant_fun w a b : quadrant E g nf w a -> quadrant E g nf w b -> a = b.
Proof. intros [A B] [C D]. apply (@data_ext T ny nx nr); auto. intros y x Hy Hx. eapply column_spec_fun; eauto. Qed.

(** *** a grid under construction *)
Record stage (u : nat) (s : shallot) : Prop := {
  st_params : s_params s = g;
  st_nf : s_nf s = nf;
  st_radius : s_radius s = radius_of_params E g;
  st_shear : s_shear s = shear_of_params g;
  st_diag : s_diag s = None;
  st_grads : s_grads s = None;
  st_fit : s_fit s = None;
  st_ecl : (s_ecl s, s_vel s, s_limb s) = (None, None, None);
  st_plain : forall w, plain g w (cube_of w s);
  st_data : forall w, upto u w (p_data (cube_of w s)) }.

Lemma stage_shapely u s : stage u s -> shapely nr s.
Proof.
  intros S w. destruct (st_plain S w) as (_ & _ & _ & P & _ & L). unfold ny_of, nx_of. rewrite (st_params S), L, P, (consistent_shape3 (pr_cons Hg)), volume3. auto.
Qed.
Lemma stage_updated u v (D : nat -> bool) s s' : stage u s -> updated E nr (fun y _ => D y) s s' -> (forall y, y < v -> y < ny -> y < u \/ D y = true) -> stage v s'.
Proof.
  intros S (Ho & Hd & U) HD. unfold others in Ho. injection Ho as O1 O2 O3 O4 O5 O6 O7 O8 O9 O10.
  split; try (etransitivity; [eassumption|apply S]).
  - apply Hd, S.
  - rewrite O8, O9, O10. apply S.
  - intros w. destruct (U w) as (l & -> & Hl & _). destruct (st_plain S w) as (P1 & P2 & P3 & P4 & P5 & P6). unfold plain. cbn [with_data p_name p_unit p_params p_shape p_mask p_data]. repeat split; auto. congruence.
  - intros w. destruct (U w) as (l & -> & Hl & Hc). rewrite with_data_data. destruct (st_data S w) as [A B]. split; [congruence|]. intros y x Hy Hx Hor.
    unfold ny_of, nx_of in Hc. rewrite (st_params S) in Hc. specialize (Hc y x Hy Hx). unfold result_at, point_of, shear_of, nx_of in Hc.
    rewrite (st_params S), (st_nf S), (st_radius S), (st_shear S), shear_params, radius_params in Hc by auto.
    destruct (D y) eqn:Dy.
    + destruct (n_isnan (shear y x)) eqn:Es; [rewrite Hc; apply B; auto|]. unfold column_spec. cbn zeta. now rewrite Es.
    + rewrite Hc. apply B; auto. destruct Hor as [Hv|]; auto. destruct (HD y Hv Hy); auto. congruence.
Qed.

(** *** what is written during a row *)
Definition row_entries (y : nat) (s : shallot) : list entry :=
  None :: Some ("y_value.npy", np_array [Some (PInt (Z.of_nat y))]) :: save_entries s.
Lemma row_save u y s : stage u s -> y < ny -> shallot_save E s (PStr TEMP) (Some (PInt (Z.of_nat y))) = steps TEMP (row_entries y s).
Proof.
  intros S Hy. unfold shallot_save. cbn [string_v]. rewrite String.eqb_refl, (st_params S).
  replace (Z.of_nat ny) with (Z.of_nat ny + 1 - 1)%Z by lia. rewrite index_number by (split; [constructor|cbn; lia]).
  rewrite save_files_steps. unfold grads_steps, diag_steps. rewrite (st_grads S), (st_diag S), !app_nil_r. reflexivity.
Qed.

(** a file of the temporary directory, when all rows before [u] are finished *)
Definition ok_file (u : nat) (n : string) (c : content) : Prop :=
  (n = "y_value.npy" /\ exists a, a <= u /\ c = np_array [Some (PInt (Z.of_nat a))]) \/
  (n = "num_fxfy.npy" /\ c = np_array [Some nf]) \/ In (n, c) (params_files g) \/
  exists w data, n = dfile w /\ c = float_arr (shape3 g) data /\ upto u w data.
Definition sound (u : nat) (B : list (string * content)) : Prop := forall n c, found n B = Some c -> ok_file u n c.
Lemma stage_named u s : stage u s -> named s.
Proof. intros S w. destruct (st_plain S w) as (P1 & P2 & P3 & _). rewrite (st_params S). auto. Qed.
Lemma row_ok u v y s : stage u s -> v <= u -> y <= v -> forall n c, In (n, c) (files (row_entries y s)) -> ok_file v n c.
Proof.
  intros S Hv Hy n c H. unfold row_entries in H. change (files _) with (("y_value.npy", np_array [Some (PInt (Z.of_nat y) : pyval)]) :: files (save_entries s)) in H.
  destruct H as [H|H]; [injection H as <- <-; left; eauto|]. apply (save_entries_in _ _ (stage_named S)) in H.
  destruct H as [[-> ->]|[H|(w & [[-> ->]|(m & Hm & _)])]].
  - right. left. now rewrite (st_nf S).
  - right. right. left. now rewrite (st_params S) in H.
  - right. right. right. exists w, (p_data (cube_of w s)). destruct (st_plain S w) as (_ & _ & _ & P & _). rewrite P. split; auto. split; auto. apply (upto_less (st_data S w) Hv).
  - destruct (st_plain S w) as (_ & _ & _ & _ & P & _). congruence.
Qed.
Lemma sound_app u B l : sound u B -> (forall n c, In (n, c) l -> ok_file u n c) -> sound u (B ++ l).
Proof. intros H K n c. rewrite found_app. destruct (found n l) as [c'|] eqn:F; [|apply H]. intros X. injection X as <-. apply K, found_in, F. Qed.
Lemma row_has_data y s w u : stage u s -> exists c, found (dfile w) (files (row_entries y s)) = Some c.
Proof.
  intros S. change (files (row_entries y s)) with ([("y_value.npy", np_array [Some (PInt (Z.of_nat y) : pyval)])] ++ files (save_entries s)). rewrite found_app.
  rewrite (proj2 (saved_found (dfile w) (stage_named S) (float_arr (p_shape (cube_of w s)) (p_data (cube_of w s))))); [eauto|]. right. right. exists w. auto.
Qed.
Lemma sound_row y B s : sound y B -> stage (S y) s -> sound (S y) (B ++ files (row_entries y s)).
Proof.
  intros H S n c. rewrite found_app. destruct (found n (files (row_entries y s))) as [c'|] eqn:F.
  - intros X. injection X as <-. apply found_in in F. exact (@row_ok _ (Datatypes.S y) y s S (le_n _) ltac:(lia) _ _ F).
  - intros X. destruct (H n c X) as [(-> & a & Ha & ->)|[Y|[Y|(w & data & -> & _)]]].
    + left. split; auto. exists a. split; [lia|auto].
    + right. left. auto.
    + right. right. left. auto.
    + destruct (@row_has_data y s w (Datatypes.S y) S). congruence.
Qed.
Lemma files_firstn_incl k (es : list entry) x : In x (files (firstn k es)) -> In x (files es).
Proof. rewrite <- (firstn_skipn k es) at 2. rewrite files_app. intros H. apply in_or_app. auto. Qed.

(** *** all rows *)
Lemma rows_trace m : forall y s l s', stage y s -> y + m = ny -> build_rows E true (seq y m) s = (l, Ok s') ->
  exists es, l = steps TEMP es /\ stage ny s' /\
    (forall n c, In (n, c) (files es) -> exists u, ok_file u n c) /\
    (0 < m -> exists s1 rest, stage (S y) s1 /\ es = row_entries y s1 ++ rest) /\
    forall B, sound y B -> sound ny (B ++ files es) /\ forall j, exists u, u <= ny /\ sound u (B ++ files (firstn j es)).
Proof.
  induction m as [|m IH]; intros y s l s' S Hy H; cbn [seq build_rows] in H.
  - injection H as <- <-. exists []. split; [reflexivity|]. replace ny with y by lia. split; auto. split; [intros n c []|]. split; [lia|]. intros B HB. split; [cbn; now rewrite app_nil_r|]. intros j. exists y. split; [lia|].
    destruct j; cbn; now rewrite app_nil_r.
  - destruct (build_row E s y) as [s1|] eqn:H1; [|discriminate].
    assert (U := @row_updated T NT E nr y s s1 (stage_shapely S)). assert (Hy1 : y < ny_of s) by (unfold ny_of; rewrite (st_params S); lia).
    assert (S1 : stage (Datatypes.S y) s1).
    { apply (stage_updated (v := Datatypes.S y) _ S (U Hy1 H1)). intros y' Hv _. destruct (Nat.eqb_spec y' y); [auto|left; lia]. }
    destruct (build_rows E true (seq (Datatypes.S y) m) s1) as [l2 r2] eqn:H2. rewrite (row_save S1) in H by lia. apply pair_equal_spec in H as [<- ->].
    destruct (IH (Datatypes.S y) s1 l2 s' S1 ltac:(lia) H2) as (es & -> & S' & N & _ & K).
    exists (row_entries y s1 ++ es). rewrite steps_app. split; auto. split; auto. split; [|split].
    + intros n c Hn. rewrite files_app in Hn. apply in_app_or in Hn as [Hn|Hn]; [exists y; exact (@row_ok _ y y s1 S1 ltac:(lia) ltac:(lia) _ _ Hn)|eauto].
    + intros _. eauto.
    + intros B HB. split; [rewrite files_app, app_assoc; apply K; now apply sound_row|]. intros j. rewrite firstn_app. destruct (Nat.le_gt_cases (List.length (row_entries y s1)) j) as [Hj|Hj].
      * rewrite firstn_all2 by auto. rewrite files_app, app_assoc. apply K. now apply sound_row.
      * replace (j - List.length (row_entries y s1)) with 0 by lia. cbn [firstn]. rewrite app_nil_r. exists y. split; [lia|]. apply sound_app; auto.
        intros n c Hn. apply files_firstn_incl in Hn. exact (@row_ok _ y y s1 S1 ltac:(lia) ltac:(lia) _ _ Hn).
Qed.
End G.

(** *** which files are there *)
Definition required : list string := "y_value.npy" :: "num_fxfy.npy" :: param_files ++ map dfile all_which.
Lemma names_params (g : gparams T) : names (params_entries g) = param_files.
Proof. unfold names. rewrite files_params. apply params_files_names. Qed.
Lemma names_prop (g : gparams T) w p : plain g w p -> names (prop_entries p) = dfile w :: param_files.
Proof.
  intros (A & B & _ & _ & C & _). unfold names. rewrite files_prop, map_app, params_files_names. unfold gprop_files. rewrite A, B, C. reflexivity.
Qed.
Lemma first_present x (A P : list entry) e j : In x (names (firstn j (A ++ e :: P))) -> ~ In x (names A) -> exists i, firstn j (A ++ e :: P) = A ++ e :: firstn i P.
Proof.
  intros H N. destruct (Nat.le_gt_cases j (List.length A)) as [Hj|Hj].
  - exfalso. apply N. rewrite firstn_app in H. replace (j - List.length A) with 0 in H by lia. cbn [firstn] in H. rewrite app_nil_r in H.
    rewrite <- (firstn_skipn j A), names_app. apply in_or_app. auto.
  - exists (j - S (List.length A)). rewrite firstn_app, firstn_all2 by lia. replace (j - List.length A) with (S (j - S (List.length A))) by lia. reflexivity.
Qed.
Lemma required_there g nf u y s rest j : stage g nf u s -> In (dfile WFy) (names (firstn j (row_entries y s ++ rest))) ->
  forall n, In n required -> In n (names (firstn j (row_entries y s ++ rest))).
Proof.
  intros S H n Hn.
  set (A := None :: Some ("y_value.npy", np_array [Some (PInt (Z.of_nat y) : pyval)]) :: Some ("num_fxfy.npy", np_array [Some (s_nf s)]) :: params_entries (s_params s) ++
    prop_entries (s_dr s) ++ prop_entries (s_inc s) ++ prop_entries (s_tilt s) ++ prop_entries (s_fx s) ++ [None : entry]).
  set (e := Some (data_file (p_name (s_fy s)) (p_unit (s_fy s)), float_arr (p_shape (s_fy s)) (p_data (s_fy s))) : entry).
  destruct (st_plain S WFy) as (F1 & F2 & _ & _ & F5 & _). cbn [cube_of] in *.
  assert (R : row_entries y s ++ rest = A ++ e :: params_entries (p_params (s_fy s)) ++ rest).
  { unfold row_entries, save_entries, A. assert (X : prop_entries (s_fy s) = None :: e :: params_entries (p_params (s_fy s))) by (unfold prop_entries, gprop_files; rewrite F5; reflexivity). rewrite X.
    cbn [app]. repeat (rewrite <- !app_assoc; cbn [app]). reflexivity. }
  assert (N : names A = "y_value.npy" :: "num_fxfy.npy" :: param_files ++ (dfile WRadius :: param_files) ++ (dfile WInclination :: param_files) ++ (dfile WTilt :: param_files) ++ (dfile WFx :: param_files) ++ []).
  { unfold A. change (names (None :: Some ?a :: Some ?b :: ?l)) with (fst a :: fst b :: names l). cbn [fst]. rewrite !names_app, names_params.
    rewrite (@names_prop g WRadius (s_dr s) (st_plain S WRadius)), (@names_prop g WInclination (s_inc s) (st_plain S WInclination)), (@names_prop g WTilt (s_tilt s) (st_plain S WTilt)), (@names_prop g WFx (s_fx s) (st_plain S WFx)). reflexivity. }
  rewrite R in *. destruct (@first_present (dfile WFy) A _ e j H) as [i ->].
  - rewrite N. intros X. assert (Y : existsb (String.eqb (dfile WFy)) ("y_value.npy" :: "num_fxfy.npy" :: param_files ++ (dfile WRadius :: param_files) ++ (dfile WInclination :: param_files) ++ (dfile WTilt :: param_files) ++ (dfile WFx :: param_files) ++ []) = true).
    { apply existsb_exists. exists (dfile WFy). split; [exact X|apply String.eqb_refl]. }
    revert Y. clear. vm_compute. discriminate.
  - change (A ++ e :: ?l) with (A ++ [e] ++ l). rewrite app_assoc, names_app. apply in_or_app. left. rewrite names_app, N. unfold e. rewrite F1, F2. change (names [Some (?a, ?b)]) with [a]. change (data_file (name_of WFy) (unit_of WFy)) with (dfile WFy).
    revert Hn. clear. intros Hn. assert (Y : forallb (fun n => existsb (String.eqb n) (("y_value.npy" :: "num_fxfy.npy" :: param_files ++ (dfile WRadius :: param_files) ++ (dfile WInclination :: param_files) ++ (dfile WTilt :: param_files) ++ (dfile WFx :: param_files) ++ []) ++ [dfile WFy])) required = true) by (vm_compute; reflexivity).
    rewrite forallb_forall in Y. specialize (Y n Hn). apply existsb_exists in Y as (m & Hm & Ye). apply String.eqb_eq in Ye. now subst m.
Qed.
Lemma ok_own g nf u n c : ok_file g nf u n c -> own_name n /\ In n required.
Proof.
  intros [(-> & _)|[(-> & _)|[H|(w & data & -> & _)]]].
  - split; [left; cbn; tauto|left; auto].
  - split; [left; cbn; tauto|right; left; auto].
  - apply params_own in H. split; [left; now apply param_in_fixed|]. right. right. apply in_or_app. auto.
  - split; [right; eauto|]. right. right. apply in_or_app. right. apply in_map, in_which.
Qed.

(** *** the temporary directory *)
Lemma temp_run (f : fs T) es : (forall n, In n (names es) -> slashfree n = true) ->
  exists f', run f ([SRmtree TEMP; SMkdir TEMP] ++ steps TEMP es) = (f', Ok tt) /\ (forall n, fs_get f' (under TEMP n) = option_map (@NFile T) (found n (files es))) /\
    fs_get f' TEMP = Some NDir /\ forall p, below TEMP p = false -> fs_get f' p = fs_get f p.
Proof.
  intros H. set (f1 := fst (exec f (SRmtree TEMP))).
  assert (G : forall p, below TEMP p = true -> fs_get f1 p = None) by (intros p Hp; unfold f1; rewrite rmtree_get, Hp; reflexivity).
  assert (M : exec f1 (SMkdir TEMP) = ((TEMP, NDir) :: f1, Ok tt)).
  { cbn [exec]. unfold fs_mkdir, fs_exists. rewrite (G TEMP (below_self _)). reflexivity. }
  assert (N : forall n, fs_get ((TEMP, NDir) :: f1) (under TEMP n) = None).
  { intros n. rewrite get_other; [apply G, below_under_self|]. apply under_neq. }
  destruct (@steps_run T TEMP es ((TEMP, NDir) :: f1)) as (f' & R & D & V & O).
  - rewrite get_cons, String.eqb_refl. reflexivity.
  - intros n Hn. split; auto. rewrite N. discriminate.
  - exists f'. split.
    + change (run f ([SRmtree TEMP; SMkdir TEMP] ++ steps TEMP es)) with (match exec f1 (SMkdir TEMP) with (f', Ok _) => run f' (steps TEMP es) | r => r end). rewrite M. exact R.
    + split; [intros n; rewrite V, N; destruct (found n (files es)); reflexivity|]. split; [exact D|]. intros p Hp. rewrite O.
      * rewrite get_other; [unfold f1; rewrite rmtree_get, Hp; reflexivity|]. intros ->. rewrite below_self in Hp. discriminate.
      * intros ->. rewrite below_self in Hp. discriminate.
      * intros n _ ->. rewrite below_under_self in Hp. discriminate.
Qed.
Definition whole (es : list entry) : list (step T) := [SRmtree TEMP; SMkdir TEMP] ++ steps TEMP es ++ [SRmtree TEMP].
Lemma whole_run (f : fs T) es : (forall n, In n (names es) -> slashfree n = true) -> exists f', run f (whole es) = (f', Ok tt) /\ forall p, fs_get f' p = if below TEMP p then None else fs_get f p.
Proof.
  intros H. destruct (temp_run f es H) as (f' & R & _ & _ & O). exists (fst (exec f' (SRmtree TEMP))). unfold whole. rewrite app_assoc, (run_app _ _ _ R). split; [reflexivity|].
  intros p. rewrite rmtree_get. destruct (below TEMP p) eqn:B; auto.
Qed.
(** the files a crash leaves in the temporary directory: those written by the first [j] entries, possibly the
    next one unreadable; or some of all of them *)
Inductive left_over (es : list entry) : (string -> option content) -> Prop :=
  | lf_clean j : left_over es (fun n => found n (files (firstn j es)))
  | lf_torn j n0 c : In (n0, c) (files es) -> left_over es (fun n => if String.eqb n n0 then Some CBad else found n (files (firstn j es)))
  | lf_some (keep : string -> bool) : left_over es (fun n => if keep n then found n (files es) else None).
Lemma clean_view (f : fs T) es k : (forall n, In n (names es) -> slashfree n = true) -> (forall p, below TEMP p = true -> fs_get f p = None) ->
  exists V, left_over es V /\ forall n, fs_get (fst (run f (firstn k (whole es)))) (under TEMP n) = option_map (@NFile T) (V n).
Proof.
  intros H N. destruct k as [|[|k]].
  - exists (fun n => found n (files (firstn 0 es))). split; [constructor|]. intros n. change (fst (run f (firstn 0 (whole es)))) with f. rewrite N by apply below_under_self. reflexivity.
  - exists (fun n => found n (files (firstn 0 es))). split; [constructor|]. intros n. change (firstn 1 (whole es)) with [SRmtree (T := T) TEMP]. change (fst (run f [SRmtree TEMP])) with (fst (exec f (SRmtree TEMP))).
    rewrite rmtree_get, below_under_self. reflexivity.
  - change (firstn (S (S k)) (whole es)) with ([SRmtree (T := T) TEMP; SMkdir TEMP] ++ firstn k (steps TEMP es ++ [SRmtree TEMP])).
    destruct (Nat.le_gt_cases k (List.length es)) as [Hl|Hl].
    + exists (fun n => found n (files (firstn k es))). split; [constructor|]. rewrite firstn_app. unfold steps at 2. rewrite map_length. replace (k - List.length es) with 0 by lia. cbn [firstn]. rewrite app_nil_r, steps_firstn.
      destruct (temp_run f (firstn k es)) as (f' & R & V & _).
      * intros n Hn. apply H. rewrite <- (firstn_skipn k es), names_app. apply in_or_app. auto.
      * intros n. rewrite R. apply V.
    + exists (fun n => found n (files (firstn 0 es))). split; [constructor|]. rewrite firstn_all2 by (rewrite app_length; unfold steps; rewrite map_length; cbn; lia).
      destruct (whole_run f es H) as (f' & R & O). unfold whole in R. intros n. rewrite R. cbn [fst]. rewrite O, below_under_self. reflexivity.
Qed.
Lemma nth_steps es k : nth_error (steps TEMP es) k = option_map (@step_of T TEMP) (nth_error es k).
Proof. unfold steps. revert k; induction es as [|e es IH]; intros [|k]; cbn; auto. Qed.
Lemma crash_view (f f1 : fs T) es : (forall n, In n (names es) -> slashfree n = true) -> (forall p, below TEMP p = true -> fs_get f p = None) -> crash f (whole es) f1 ->
  exists V, left_over es V /\ forall n, fs_get f1 (under TEMP n) = option_map (@NFile T) (V n).
Proof.
  intros H N [k|k s s' Hk Ht]; [now apply clean_view|].
  destruct k as [|[|k]].
  - exists (fun n => found n (files (firstn 0 es))). split; [constructor|]. intros n. injection Hk as <-. inversion Ht; subst. cbn [firstn app run exec fst].
    rewrite (get_filter f (fun q => negb (below TEMP q) || keep q) (under TEMP n)). rewrite N by apply below_under_self. destruct (_ || _); reflexivity.
  - injection Hk as <-. inversion Ht.
  - change (nth_error (steps TEMP es ++ [SRmtree TEMP]) k = Some s) in Hk.
    change (firstn (S (S k)) (whole es)) with ([SRmtree (T := T) TEMP; SMkdir TEMP] ++ firstn k (steps TEMP es ++ [SRmtree TEMP])).
    assert (Hl : k < List.length (steps TEMP es ++ [SRmtree TEMP])) by (apply nth_error_Some; congruence). rewrite app_length in Hl. unfold steps in Hl at 1. rewrite map_length in Hl. cbn [List.length] in Hl.
    destruct (Nat.lt_ge_cases k (List.length es)) as [Hj|Hj].
    + rewrite nth_error_app1 in Hk by (unfold steps; now rewrite map_length). rewrite nth_steps in Hk. destruct (nth_error es k) as [e|] eqn:Ee; [|discriminate]. injection Hk as <-.
      destruct e as [[n0 c]|]; cbn [step_of] in Ht; [|inversion Ht]. inversion Ht; subst.
      exists (fun n => if String.eqb n n0 then Some CBad else found n (files (firstn k es))). split; [apply (@lf_torn es k n0 c), in_files, (nth_error_In _ _ Ee)|].
      rewrite firstn_app. unfold steps at 2. rewrite map_length. replace (k - List.length es) with 0 by lia. cbn [firstn]. rewrite app_nil_r, steps_firstn.
      assert (Hs : forall n, In n (names (firstn k es ++ [Some (n0, CBad)])) -> slashfree n = true).
      { intros n Hn. rewrite names_app in Hn. apply in_app_or in Hn as [Hn|[<-|[]]].
        - apply H. rewrite <- (firstn_skipn k es), names_app. apply in_or_app. auto.
        - apply H. unfold names. apply in_map_iff. exists (n0, c). split; auto. apply in_files, (nth_error_In _ _ Ee). }
      destruct (temp_run f (firstn k es ++ [Some (n0, CBad)]) Hs) as (f' & R & V & _). rewrite steps_app in R. rewrite <- app_assoc. change (steps TEMP [Some (n0, CBad)]) with [SWrite (T := T) (under TEMP n0) CBad] in R. rewrite R.
      intros n. cbn [fst]. rewrite V, files_app, found_app. change (files [Some (n0, CBad)]) with [(n0, CBad : content)]. rewrite found_cons. cbn [found fold_left fst snd]. destruct (String.eqb n n0); reflexivity.
    + assert (k = List.length es) as -> by lia. rewrite nth_error_app2 in Hk by (unfold steps; rewrite map_length; lia). unfold steps in Hk. rewrite map_length, Nat.sub_diag in Hk. injection Hk as <-. inversion Ht; subst.
      exists (fun n => if keep (under TEMP n) then found n (files es) else None). split; [apply (lf_some es (fun n => keep (under TEMP n)))|].
      rewrite firstn_app. unfold steps at 2. rewrite map_length, Nat.sub_diag. cbn [firstn]. rewrite app_nil_r, firstn_all2 by (unfold steps; rewrite map_length; lia).
      destruct (temp_run f es H) as (f' & R & V & _). intros n. rewrite (run_app _ _ _ R). cbn [run exec fst]. rewrite (get_filter f' (fun q => negb (below TEMP q) || keep q) (under TEMP n)).
      rewrite below_under_self. cbn [negb orb]. destruct (keep (under TEMP n)); [apply V|reflexivity].
Qed.

(** *** loading what is there *)
Definition alter (s : shallot) (v : pyval) (m : option (gprop T)) : shallot :=
  mkSh (s_params s) v (s_diag s) (s_radius s) (s_shear s) (s_dr s) (s_inc s) (s_tilt s) (s_fx s) (s_fy s) m (s_grads s) (s_fit s) (s_ecl s) (s_vel s) (s_limb s).
Lemma finish_alter s v m : snd (finish_shallot E (alter s v m)) = match snd (finish_shallot E s) with Ok a => Ok (alter a v (s_dmap a)) | Err e => Err e end.
Proof.
  unfold finish_shallot, extend_shallot. change (s_params (alter s v m)) with (s_params s). destruct (extend_grid (s_params s)) as [g' [[]|e]].
  - cbn [alter s_dr s_inc s_tilt s_fx s_fy s_nf s_diag s_dmap s_grads s_fit s_ecl s_vel s_limb].
    destruct (fill_quadrants g' (s_dr s) false); cbn [bind]; [|reflexivity]. destruct (fill_quadrants g' (s_inc s) false); cbn [bind]; [|reflexivity]. destruct (fill_quadrants g' (s_tilt s) true); cbn [bind]; [|reflexivity].
    destruct (fill_quadrants g' (s_fx s) false); cbn [bind]; [|reflexivity]. destruct (fill_quadrants g' (s_fy s) false); cbn [bind]; [|reflexivity].
    cbn [snd]. unfold diagnose_shallot. cbn [s_params s_dr]. destruct (diagnose _ _); reflexivity.
  - destruct e; try reflexivity. cbn [snd]. unfold diagnose_shallot. cbn [alter s_params s_dr]. destruct (diagnose _ _); reflexivity.
Qed.
Lemma alter_eq (s s' : shallot) v m : s_params s' = s_params s -> s_nf s' = v -> s_diag s' = s_diag s -> s_radius s' = s_radius s -> s_shear s' = s_shear s -> (forall w, cube_of w s' = cube_of w s) ->
  s_dmap s' = m -> s_grads s' = s_grads s -> s_fit s' = s_fit s -> (s_ecl s', s_vel s', s_limb s') = (s_ecl s, s_vel s, s_limb s) -> s' = alter s v m.
Proof.
  intros H1 H2 H3 H4 H5 C H7 H8 H9 H10. assert (C1 := C WRadius). assert (C2 := C WInclination). assert (C3 := C WTilt). assert (C4 := C WFx). assert (C5 := C WFy). cbn [cube_of] in *.
  injection H10 as A1 A2 A3. assert (Et : s' = mkSh (s_params s') (s_nf s') (s_diag s') (s_radius s') (s_shear s') (s_dr s') (s_inc s') (s_tilt s') (s_fx s') (s_fy s') (s_dmap s') (s_grads s') (s_fit s') (s_ecl s') (s_vel s') (s_limb s')) by (destruct s'; reflexivity).
  rewrite Et. unfold alter. clear Et C. rewrite H1, H2, H3, H4, H5, C1, C2, C3, C4, C5, H7, H8, H9, A1, A2, A3. reflexivity.
Qed.
Lemma recoloured_plain (g : gparams T) w p q c : plain g w p -> plain g w q -> p_data p = p_data q -> recoloured p c = recoloured q c.
Proof.
  intros (A1 & A2 & A3 & A4 & A5 & _) (B1 & B2 & B3 & B4 & B5 & _) H. unfold recoloured, limits_of. rewrite H. unfold with_colors, with_limits. cbn [p_name p_unit p_params p_shape p_data p_mask p_vmin p_vmax].
  rewrite A1, A2, A3, A4, A5, B1, B2, B3, B4, B5, H. reflexivity.
Qed.
Lemma set_contrasts_more (s : shallot) : s_grads s = None -> exists m, set_contrasts s = Ok (with_dmap (with_all s (fun w => recoloured (cube_of w s) (cmap_of w))) m).
Proof.
  intros H2. unfold set_contrasts. rewrite !contrast_ok. cbn [bind]. rewrite H2. cbn [opt_res].
  assert (X : exists m, opt_res contrast_plain (s_dmap s) = Ok m).
  { destruct (s_dmap s) as [d|]; cbn [opt_res]; [|eauto]. unfold contrast_plain. rewrite contrast_default. cbn [bind]. eauto. }
  destruct X as [m ->]. cbn [bind]. exists m. destruct s; cbn in *; subst. reflexivity.
Qed.
Lemma choose_data (P : which -> list T -> Prop) : (forall w, exists d, P w d) -> exists f, forall w, P w (f w).
Proof.
  intros H. destruct (H WRadius) as [a Ha]. destruct (H WInclination) as [b Hb]. destruct (H WTilt) as [c Hc]. destruct (H WFx) as [d Hd]. destruct (H WFy) as [e He].
  exists (fun w => match w with WRadius => a | WInclination => b | WTilt => c | WFx => d | WFy => e end). intros []; auto.
Qed.

(** *** loading from a view of the directory *)
Definition seen (f : fs T) (d : string) (V : string -> option content) : Prop := forall n, slashfree n = true -> fs_get f (under d n) = option_map (@NFile T) (V n).
Section L.
Context (g : gparams T) (Hg : proper g) (nf : pyval).
Notation ny := (List.length (g_dy g)).
Notation nx := (List.length (g_dx g)).
Notation nr := (List.length (g_rfa g)).
Definition sound_view (u : nat) (V : string -> option content) : Prop := forall n c, V n = Some c -> ok_file g nf u n c.

(** the grid the files describe *)
Definition described (data : which -> list T) : shallot := with_all (fresh_shallot E g nf None) (fun w => with_data (nan_cube g w) (data w)).
Lemma described_named data : named (described data).
Proof. intros w. unfold described. rewrite cube_with_all. repeat split. Qed.
Lemma described_plain data w : List.length (data w) = ny * nx * nr -> plain g w (cube_of w (described data)).
Proof.
  intros H. unfold described. rewrite cube_with_all. unfold plain. cbn [with_data p_name p_unit p_params p_shape p_mask p_data]. repeat (split; [reflexivity|]).
  change (p_shape (nan_cube g w)) with (shape3 g). rewrite (consistent_shape3 (pr_cons Hg)), volume3. exact H.
Qed.
Lemma described_kept f d V u : seen f d V -> sound_view u V -> (forall n, In n required -> n <> "y_value.npy" -> V n <> None) ->
  exists data, kept f d (described data) /\ forall w, upto g nf u w (data w).
Proof.
  intros S K R.
  assert (Q1 : forall w, ~ In (dfile w) param_files) by (intros w X; apply (dfile_fixed w), param_in_fixed; auto).
  assert (D : exists data, forall w, upto g nf u w (data w) /\ V (dfile w) = Some (float_arr (shape3 g) (data w))).
  { apply (@choose_data (fun w d => upto g nf u w d /\ V (dfile w) = Some (float_arr (shape3 g) d))). intros w. destruct (V (dfile w)) as [c|] eqn:Ev.
    - destruct (K _ _ Ev) as [(X & _)|[(X & _)|[X|(w' & data & X & -> & U)]]]; [destruct w; discriminate X|destruct w; discriminate X|apply params_own, Q1 in X; destruct X|].
      apply dfile_inj in X as ->. eauto.
    - exfalso. revert Ev. apply R; [right; right; apply in_or_app; right; apply in_map, in_which|destruct w; discriminate]. }
  destruct D as [data D]. exists data. split; [|intros w; apply D]. constructor.
  - intros n c H. assert (Sn : slashfree n = true) by (apply own_ok, (grid_file_own H)). rewrite (S n Sn). destruct H as [[-> ->]|[H|(w & [[-> ->]|(m & Hm & _)])]].
    + destruct (V "num_fxfy.npy") as [c|] eqn:Ev; [|exfalso; revert Ev; apply R; [right; left; auto|discriminate]].
      destruct (K _ _ Ev) as [(X & _)|[(_ & ->)|[X|(w' & data' & X & _)]]]; [discriminate X|reflexivity| |destruct w'; discriminate X]. apply params_own in X. exfalso. cbn in X. intuition discriminate.
    + change (s_params (described data)) with g in H. assert (Hn := params_own H). destruct (V n) as [c'|] eqn:Ev.
      * destruct (K _ _ Ev) as [(-> & _)|[(-> & _)|[X|(w' & data' & -> & _)]]]; [exfalso; cbn in Hn; intuition discriminate|exfalso; cbn in Hn; intuition discriminate| |destruct (Q1 _ Hn)].
        rewrite (@params_functional _ _ _ _ _ X H). reflexivity.
      * exfalso. revert Ev. apply R; [right; right; apply in_or_app; auto|]. intros ->. cbn in Hn. intuition discriminate.
    + rewrite (proj2 (D w)). unfold described. rewrite cube_with_all. reflexivity.
    + unfold described in Hm. rewrite cube_with_all in Hm. discriminate Hm.
  - intros w _. rewrite S by (apply own_ok; right; eauto). destruct (V (mfile w)) as [c|] eqn:Ev; auto. exfalso.
    destruct (K _ _ Ev) as [(X & _)|[(X & _)|[X|(w' & data' & X & _)]]]; [destruct w; discriminate X|destruct w; discriminate X| |symmetry in X; exact (dfile_mfile _ _ X)].
    apply params_own, param_in_fixed, mfile_fixed in X. exact X.
  - rewrite S by reflexivity. destruct (V "fy_dict.npy") as [c|] eqn:Ev; auto. exfalso. destruct (K _ _ Ev) as [(X & _)|[(X & _)|[X|(w' & data' & X & _)]]]; [discriminate X|discriminate X| |destruct w'; discriminate X].
    apply params_own in X. cbn in X. intuition discriminate.
Qed.
Lemma view_extended f d V u : seen f d V -> sound_view u V -> extended f d.
Proof.
  intros S K n Sn H. rewrite (S n Sn) in H. destruct (V n) as [c|] eqn:Ev; [|now destruct H]. destruct (ok_own (K _ _ Ev)) as [X _]. now apply own_ok.
Qed.
Lemma whole_int (v : pyval) : whole_number v -> int_like v. Proof. intros (z & [-> | ->]); constructor. Qed.
Lemma reread_whole (v : pyval) : whole_number v -> num_index (reread_nf v) = num_index v /\ whole_number (reread_nf v).
Proof. intros (z & [-> | ->]); (split; [reflexivity|exists z; right; reflexivity]). Qed.

(** the attributes load sets *)
Lemma load_view f d V u og l s0 : d <> "" -> below TEMP d = false -> dummy E = (og, (l, Ok s0)) -> whole_number nf ->
  seen f d V -> sound_view u V -> (forall n, In n required -> n <> "y_value.npy" -> V n <> None) ->
  exists data, (forall w, upto g nf u w (data w)) /\ load_attributes E (fst (exec f (SRmtree TEMP))) s0 d = Ok (restored E (described data) s0).
Proof.
  intros Hd Hb Hdum Hw S K R. destruct (described_kept S K R) as (data & Kd & U). exists data. split; auto.
  rewrite (@load_kept T NT LT E _ d (described data) s0 (kept_temp Hb Kd) (described_named data)); auto; [|apply Hg| |now apply whole_int].
  - now rewrite (proj2 (extended_list _ _) (extended_temp (view_extended S K))).
  - intros w. destruct (@described_plain data w) as (_ & _ & P3 & P4 & P5 & P6); [apply U|]. unfold prop_inv, mask_inv. rewrite P3, P4, P5. rewrite P4 in P6. split; [reflexivity|]. split; [exact P6|]. intros m X. discriminate X.
Qed.
Lemma restored_stage u data og l s0 : dummy E = (og, (l, Ok s0)) -> whole_number nf -> (forall w, upto g nf u w (data w)) ->
  stage g (reread_nf nf) u (restored E (described data) s0).
Proof.
  intros Hdum Hw U. destruct (dummy_ok E Hdum) as (_ & D1 & D2 & D3 & D4 & D5 & D6).
  assert (C : forall w, cube_of w (restored E (described data) s0) = fst (set_contrast_default (cube_of w (described data)))) by (intros []; reflexivity).
  split; auto.
  - cbn [restored s_ecl s_vel s_limb]. now rewrite D4, D5, D6.
  - intros w. rewrite C. destruct (@described_plain data w) as (P1 & P2 & P3 & P4 & P5 & P6); [apply U|]. destruct (default_same (cube_of w (described data))) as (S1 & S2 & S3 & S4 & S5 & S6).
    unfold plain. rewrite S1, S2, S3, S4, S5, S6, P1, P2, P3, P4, P5. rewrite P4 in P6. repeat split; auto.
  - intros w. rewrite C. destruct (default_same (cube_of w (described data))) as (_ & _ & _ & _ & S5 & _). rewrite S5. unfold described. rewrite cube_with_all, with_data_data.
    destruct (U w) as [A B]. split; auto. intros y x Hy Hx Ho. apply (@column_spec_nf g nf); [symmetry; now apply reread_whole|auto].
Qed.

(** the uninterrupted build *)
Context (ll0 : pyval) (og : option (gparams T)) (l : list (step T)) (s : shallot).
Context (Hnew : new_shallot E (EIs g) nf ll0 (PBool false) (PBool true) = (og, (l, Ok s))).
Lemma fresh_stage v : stage g v 0 (with_all (fresh_shallot E g v None) (nan_cube g)).
Proof.
  split; try reflexivity.
  - intros w. rewrite cube_with_all. unfold plain. rewrite nan_cube_data, nan_cube_shape, repeat_length. repeat split.
  - intros w. rewrite cube_with_all. now apply upto_nan.
Qed.
Lemma uninterrupted : exists es s1 m s2, l = whole es /\ stage g nf ny s1 /\ s2 = with_dmap (with_all s1 (fun w => recoloured (cube_of w s1) (cmap_of w))) m /\
  snd (finish_shallot E s2) = Ok s /\ (forall n c, In (n, c) (files es) -> exists u, ok_file g nf u n c) /\
  (In (dfile WFy) (names es) -> exists y s3 rest u, stage g nf u s3 /\ es = row_entries y s3 ++ rest) /\
  sound g nf ny (files es) /\ (forall j, exists u, u <= ny /\ sound g nf u (files (firstn j es))) /\
  forall y x, y < ny -> x < nx -> n_isnan (shear_at (nth x (g_dx g) n_nan) (nth y (g_dy g) n_nan)) = false ->
    exists col, grid_point E g nf (nth y (g_dy g) n_nan) (shear_at (nth x (g_dx g) n_nan) (nth y (g_dy g) n_nan)) (circular_radius (e_libm E) (nth y (g_dy g) n_nan)) = Ok col.
Proof.
  assert (H := Hnew). unfold new_shallot in H. destruct (number ll0 _ _ _ _); cbn [bind class_arg] in H; [|discriminate].
  destruct (number nf true (PInt 1) p_inf false) as [nf'|] eqn:En; cbn [bind boolean_v] in H; [|discriminate]. apply number_same in En as ->.
  destruct (build_grid E (fresh_shallot E g nf None) true (PInt 0)) as [l1 [s2|]] eqn:Eb; [|discriminate].
  assert (Hb := fun y x => @build_needs T NT LT E g nf None true l1 s2 y x (pr_cons Hg) Eb).
  destruct (finish_shallot E s2) as [g' r] eqn:Ef. assert (l1 = l /\ r = Ok s) as [-> ->] by (split; congruence). clear H.
  unfold build_grid in Eb. change (s_params (fresh_shallot E g nf None)) with g in Eb. rewrite number_start in Eb. change (int_of (PInt 0 : pyval)) with 0%Z in Eb. cbn [Z.eqb] in Eb.
  rewrite init_ok in Eb. change (s_params (fresh_shallot E g nf None)) with g in Eb. change (Z.to_nat 0) with 0 in Eb.
  assert (S0 := fresh_stage nf). set (sf := with_all (fresh_shallot E g nf None) (nan_cube g)) in *. change (s_params sf) with g in Eb. rewrite Nat.sub_0_r in Eb.
  destruct (build_rows E true (seq 0 ny) sf) as [l1 [s1|]] eqn:E1; [|discriminate].
  destruct (@rows_trace g Hg nf ny 0 sf l1 s1 S0 ltac:(lia) E1) as (es & -> & S1 & F & N & K).
  destruct (set_contrasts_more s1 (st_grads S1)) as [m Hm]. rewrite Hm in Eb. apply pair_equal_spec in Eb as [Hl Hs2]. assert (Hs2' : s2 = with_dmap (with_all s1 (fun w => recoloured (cube_of w s1) (cmap_of w))) m) by congruence.
  exists es, s1, m, s2. split; [symmetry; exact Hl|]. split; auto. split; auto. split; [rewrite Ef; reflexivity|]. split; auto. split; [|split; [|split]].
  - intros Hn. destruct (Nat.eq_dec ny 0) as [Z|Z]; [|destruct (N ltac:(lia)) as (s3 & rest & S3 & ->); eauto 6].
    exfalso. destruct es as [|e es]; [destruct Hn|]. clear -E1 Z. rewrite Z in E1. cbn [seq build_rows] in E1. apply pair_equal_spec in E1 as [X _]. discriminate X.
  - exact (proj1 (K [] ltac:(intros n c X; discriminate X))).
  - exact (proj2 (K [] ltac:(intros n c X; discriminate X))).
  - intros y x Hy Hx. exact (Hb y x Hy Hx).
Qed.

(** *** the build resumed *)
Definition resumed : shallot := alter s (reread_nf nf) (s_dmap s).
Lemma resume_build u v a s1 : whole_number nf -> stage g (reread_nf nf) u s1 -> a <= u -> u <= ny -> number v true (PInt 0) (PInt (Z.of_nat ny)) false = Ok v -> int_of v = Z.of_nat a ->
  exists es s2, build_grid E s1 true v = (whole es, Ok s2) /\ (forall n, In n (names es) -> slashfree n = true) /\ snd (finish_shallot E s2) = Ok resumed.
Proof.
  intros Hw S1 Ha Hu Hv Hi. destruct uninterrupted as (es0 & t1 & m0 & t2 & _ & T1 & Ht2 & Hf & _ & _ & _ & _ & Hp).
  assert (Hn := reread_whole Hw). destruct Hn as [Hn _].
  assert (X : exists s1', (if Z.eqb (int_of v) 0 then init_props s1 else Ok s1) = Ok s1' /\ stage g (reread_nf nf) a s1' /\ s_params s1' = g).
  { rewrite Hi. destruct (Z.eqb_spec (Z.of_nat a) 0) as [Z|Z].
    - rewrite init_ok, (st_params S1). eexists. split; [reflexivity|]. replace a with 0 by lia. split; [|apply S1]. split; try apply S1.
      + intros w. rewrite cube_with_all. unfold plain. rewrite nan_cube_data, nan_cube_shape, repeat_length. repeat split.
      + intros w. rewrite cube_with_all. now apply upto_nan.
    - exists s1. split; auto. split; [|apply S1]. split; try apply S1. intros w. exact (upto_less (st_data S1 w) Ha). }
  destruct X as (s1' & X1 & S1' & X2).
  destruct (@rows_succeed T NT E nr true (seq a (ny - a)) s1' (stage_shapely Hg S1') (st_diag S1')) as (lr & s2 & Hr).
  { intros y x Hy Hx. unfold ny_of, nx_of in Hy, Hx. rewrite X2 in Hy, Hx. unfold point_of, shear_of, nx_of. rewrite X2, (st_shear S1'), (st_nf S1'), (st_radius S1'), shear_params, radius_params by auto.
    intros Hs. destruct (Hp y x Hy Hx Hs) as [col Hc]. exists col. rewrite (grid_point_nf g _ _ _ _ _ Hn). split; [exact Hc|]. intros w. rewrite (pr_rfa Hg). eapply grid_point_sizes; eauto.
    intros Y. assert (Z := pr_rf Hg). rewrite Y in Z. cbn in Z. lia. }
  { intros y Hy. apply in_seq in Hy. unfold ny_of. rewrite X2. lia. }
  destruct (@rows_trace g Hg (reread_nf nf) (ny - a) a s1' lr s2 S1' ltac:(lia) Hr) as (es & -> & S2 & F & _ & _).
  destruct (set_contrasts_more s2 (st_grads S2)) as [m Hm]. exists es, (with_dmap (with_all s2 (fun w => recoloured (cube_of w s2) (cmap_of w))) m). split; [|split].
  - unfold build_grid. rewrite (st_params S1), Hv, X1, X2, Hi. rewrite Nat2Z.id. rewrite Hr, Hm. reflexivity.
  - intros n Hn'. unfold names in Hn'. apply in_map_iff in Hn' as ([n' c] & <- & Hn'). destruct (F _ _ Hn') as [u' Hu']. apply own_ok, (ok_own Hu').
  - rewrite (@alter_eq t2 _ (reread_nf nf) m).
    + rewrite finish_alter, Hf. reflexivity.
    + subst t2. cbn [with_dmap with_all with_cubes s_params]. rewrite (st_params S2), (st_params T1). reflexivity.
    + exact (st_nf S2).
    + subst t2. cbn [with_dmap with_all with_cubes s_diag]. rewrite (st_diag S2), (st_diag T1). reflexivity.
    + subst t2. cbn [with_dmap with_all with_cubes s_radius]. rewrite (st_radius S2), (st_radius T1). reflexivity.
    + subst t2. cbn [with_dmap with_all with_cubes s_shear]. rewrite (st_shear S2), (st_shear T1). reflexivity.
    + intros w. subst t2. assert (C : forall q mm, cube_of w (with_dmap (with_all q (fun w => recoloured (cube_of w q) (cmap_of w))) mm) = recoloured (cube_of w q) (cmap_of w)) by (intros; destruct w; reflexivity).
      rewrite !C. apply (@recoloured_plain g w); [apply S2|apply T1|]. apply (@quadrant_fun g nf w); [|apply upto_quadrant, T1].
      destruct (st_data S2 w) as [A B]. split; auto. intros y x Hy Hx. apply (@column_spec_nf g (reread_nf nf)); auto.
    + reflexivity.
    + subst t2. cbn [with_dmap with_all with_cubes s_grads]. rewrite (st_grads S2), (st_grads T1). reflexivity.
    + subst t2. cbn [with_dmap with_all with_cubes s_fit]. rewrite (st_fit S2), (st_fit T1). reflexivity.
    + subst t2. cbn [with_dmap with_all with_cubes s_ecl s_vel s_limb]. rewrite (st_ecl S2), (st_ecl T1). reflexivity.
Qed.
Lemma start_value f d V u : seen f d V -> sound_view u V -> below TEMP d = false -> V "y_value.npy" <> None -> u <= ny ->
  let f1 := fst (exec f (SRmtree TEMP)) in
  exists a, a <= u /\ fs_exists f1 (under d "y_value.npy") = true /\
    (let* x := np_load f1 (under d "y_value.npy") in match snd x with n :: _ => Ok (np_item n) | [] => Err IndexError end) = Ok (PNpInt (Z.of_nat a)) /\
    number (PNpInt (Z.of_nat a) : pyval) true (PInt 0) (PInt (Z.of_nat ny)) false = Ok (PNpInt (Z.of_nat a)).
Proof.
  intros S K Hb Hv Hu f1. destruct (V "y_value.npy") as [c|] eqn:Ev; [|now destruct Hv].
  destruct (K _ _ Ev) as [(_ & a & Ha & ->)|[(X & _)|[X|(w' & data' & X & _)]]]; [|discriminate X|apply params_own in X; exfalso; cbn in X; intuition discriminate|destruct w'; discriminate X].
  exists a. split; auto. assert (G : fs_get f1 (under d "y_value.npy") = Some (NFile (np_array [Some (PInt (Z.of_nat a))]))).
  { unfold f1. rewrite temp_own; [|auto|left; cbn; tauto]. rewrite S by reflexivity. now rewrite Ev. }
  split; [unfold fs_exists; now rewrite G|]. split; [unfold np_load; rewrite G; reflexivity|].
  replace (Z.of_nat ny) with (Z.of_nat ny + 1 - 1)%Z by lia. apply index_number. split; [constructor|]. cbn [zof]. lia.
Qed.

Theorem resume_view f d V u ll v og0 l0 s0 : d <> "" -> below TEMP d = false -> dummy E = (og0, (l0, Ok s0)) -> whole_number nf ->
  number ll true (PInt 10) (PInt 50) false = Ok v -> u <= ny ->
  seen f d V -> sound_view u V -> (forall n, In n required -> V n <> None) ->
  exists f', shallot_load E f (PStr d) ll = (f', Ok resumed) /\ forall p, fs_get f' p = if below TEMP p then None else fs_get f p.
Proof.
  intros Hd Hb Hdum Hw Hll Hu S K R. destruct (@load_view f d V u og0 l0 s0 Hd Hb Hdum Hw S K) as (data & U & La); [auto|].
  destruct (@start_value f d V u S K Hb (R _ (or_introl eq_refl)) Hu) as (a & Ha & Y1 & Y2 & Y3).
  destruct (@resume_build u (PNpInt (Z.of_nat a)) a _ Hw (restored_stage data Hdum Hw U) Ha Hu Y3 eq_refl) as (es & s2 & B & Hs & F).
  set (f1 := fst (exec f (SRmtree TEMP))) in *. destruct (whole_run f1 es Hs) as (f' & Rn & O). exists f'. split.
  - unfold shallot_load. cbn [string_v]. rewrite (perform_dummy E f Hdum). fold f1. unfold load_into. rewrite La, Hll, Y1, Y2. unfold perform. rewrite B. cbn [fst snd]. rewrite Rn, F. reflexivity.
  - intros p. rewrite O. destruct (below TEMP p) eqn:Bp; auto. unfold f1. now rewrite rmtree_get, Bp.
Qed.
End L.
End R.
