(** Keeping diagnostics together with intermittent saving; concrete interrupted builds. *)
From Coq Require Import ZArith Reals List Bool String Ascii Lia.
From Verif Require Import Ring RingSystem.
From Verif Require Import Num NumP Py SpecNum Validate ValidateP FS FSP GridParams SpecGrid GridDiag Names GridProp SpecProp Geometry Build SpecBuild Shallot AddLaws ShallotOps SpecOps SpecSave SpecResume
  BuildExP BuildCP BuildDP OpsExP SaveFsP SaveP SaveLoadP SaveExP ResumeP ResumeCP.
Import ListNotations.
Set Implicit Arguments.
Local Open Scope string_scope.
Local Open Scope list_scope.

Section D.
Context {T : Type} {NT : Num T} {LT : NumLaws T} (E : env T).
Notation pyval := (pyval T).
Notation shallot := (shallot T).

Lemma run_raises (f : fs T) l : In (SRaise TypeError) l -> snd (run f l) <> Ok tt.
Proof.
  revert f. induction l as [|a l IH]; intros f; [intros []|]. intros [->|H]; [cbn; discriminate|]. cbn [run]. destruct (exec f a) as [f' [[]|e]]; [now apply IH|discriminate].
Qed.
Lemma save_raises (s : shallot) v y dg : s_diag s = Some dg -> exists e, In (SRaise e) (shallot_save E s v y).
Proof.
  intros H. unfold shallot_save. destruct (string_v v) as [d|e]; [|exists e; now left].
  assert (X : In (SRaise TypeError) (save_files E s d)).
  { unfold save_files. rewrite H. repeat (apply in_or_app; right). now left. }
  destruct y as [y|]; [|exists TypeError; now right]. destruct (number y _ _ _ _) as [w|e]; [|exists e; right; now left]. exists TypeError. right. right. exact X.
Qed.
Lemma run_raises_any (f : fs T) l e : In (SRaise e) l -> snd (run f l) <> Ok tt.
Proof.
  revert f. induction l as [|a l IH]; intros f; [intros []|]. intros [->|H]; [cbn; discriminate|]. cbn [run]. destruct (exec f a) as [f' [[]|e']]; [now apply IH|discriminate].
Qed.
Definition kept (s : shallot) : bool := match s_diag s with Some _ => true | None => false end.
Lemma point_kept y s x s' : build_point E y s x = Ok s' -> kept s = true -> kept s' = true.
Proof.
  unfold build_point. destruct (n_isnan _); [intros H; injection H as <-; auto|]. destruct (grid_point _ _ _ _ _ _); cbn [bind]; [|discriminate].
  destruct (put_column (s_dr s) _ _ _); cbn [bind]; [|discriminate]. destruct (put_column (s_inc s) _ _ _); cbn [bind]; [|discriminate].
  destruct (put_column (s_tilt s) _ _ _); cbn [bind]; [|discriminate]. destruct (put_column (s_fx s) _ _ _); cbn [bind]; [|discriminate].
  destruct (put_column (s_fy s) _ _ _); cbn [bind]; [|discriminate]. unfold kept. cbn [with_cubes s_diag].
  destruct (s_diag s) as [d|] eqn:Ed; [|discriminate].
  destruct (save_diagnostic _ _ _ _ _) as [d' [[]|e]]; [|discriminate]. intros H _. injection H as <-. reflexivity.
Qed.
Lemma row_kept y s s' : build_row E s y = Ok s' -> kept s = true -> kept s' = true.
Proof.
  unfold build_row. generalize (seq 0 (List.length (g_dx (s_params s)))). intros xs. revert s. induction xs as [|x xs IH]; intros s; cbn [fold_res]; [congruence|].
  destruct (build_point E y s x) as [s1|] eqn:E1; cbn [bind]; [|discriminate]. intros H K. apply (IH s1 H). eapply point_kept; eauto.
Qed.
Lemma rows_raise y ys s l s' : build_rows E true (y :: ys) s = (l, Ok s') -> kept s = true -> exists e, In (SRaise e) l.
Proof.
  cbn [build_rows]. destruct (build_row E s y) as [s1|] eqn:E1; [|discriminate]. intros H K. apply (row_kept _ _ E1) in K. unfold kept in K. destruct (s_diag s1) as [dg|] eqn:Ed; [|discriminate].
  destruct (save_raises s1 (PStr TEMP) (Some (PInt (Z.of_nat y))) Ed) as [e He].
  destruct (build_rows E true ys s1) as [l2 r]. apply pair_equal_spec in H as [<- _]. exists e. apply in_or_app. now left.
Qed.
Lemma init_kept s s' : init_props s = Ok s' -> s_params s' = s_params s /\ s_diag s' = s_diag s.
Proof.
  unfold init_props. destruct (empty_cube _ DISK_RADIUS _); cbn [bind]; [|discriminate]. destruct (empty_cube _ INCLINATION _); cbn [bind]; [|discriminate].
  destruct (empty_cube _ TILT _); cbn [bind]; [|discriminate]. destruct (empty_cube _ FX_MAP _); cbn [bind]; [|discriminate]. destruct (empty_cube _ FY_MAP _); cbn [bind]; [|discriminate].
  intros H. injection H as <-. split; reflexivity.
Qed.
Lemma proper_rows (g : gparams T) : reachable g -> g_dy g <> [].
Proof. intros Hg X. apply reachable_proper in Hg as [[_ Hc] _ _]. unfold extendable_of in Hc. rewrite X in Hc. discriminate Hc. Qed.

(** diagnostics and intermittent saving together: the constructor never succeeds *)
Theorem never_both (f f' : fs T) g nf ll s : reachable g -> perform f (snd (new_shallot E (EIs g) nf ll (PBool true) (PBool true))) <> (f', Ok s).
Proof.
  intros Hg. apply proper_rows in Hg. unfold new_shallot. destruct (number ll _ _ _ _); cbn [bind]; [|discriminate]. cbn [class_arg bind].
  destruct (number nf _ _ _ _) as [w|]; cbn [bind]; [|discriminate]. cbn [boolean_v bind]. set (s0 := fresh_shallot E g w (Some (new_diag g))).
  assert (K0 : kept s0 = true) by reflexivity. assert (P0 : s_params s0 = g) by reflexivity. clearbody s0.
  unfold build_grid. destruct (number (PInt 0) _ _ _ _) as [v|] eqn:Ev; [|discriminate]. apply number_same in Ev. subst v. change (int_of (PInt (T := T) 0)) with 0%Z. cbn [Z.eqb].
  destruct (init_props s0) as [s1|] eqn:E1; [|discriminate]. apply init_kept in E1 as [P1 D1]. rewrite P1, P0. change (Z.to_nat 0) with 0. rewrite Nat.sub_0_r.
  assert (K1 : kept s1 = true) by (unfold kept in *; rewrite D1; exact K0).
  destruct (g_dy g) as [|y0 ys]; [now destruct Hg|]. change (seq 0 (List.length (y0 :: ys))) with (0 :: seq 1 (List.length ys)).
  destruct (build_rows E true (0 :: seq 1 (List.length ys)) s1) as [l [s2|e]] eqn:E2; [|cbn [snd]; unfold perform; destruct (run _ _) as [? [[]|]]; discriminate].
  destruct (rows_raise _ _ _ E2 K1) as [e He].
  destruct (set_contrasts s2) as [s3|]; [|cbn [snd]; unfold perform; destruct (run _ _) as [? [[]|]]; discriminate].
  destruct (finish_shallot E s3) as [g' r]. cbn [snd]. unfold perform. intros H.
  assert (X : snd (run f ([SRmtree TEMP; SMkdir TEMP] ++ l ++ [SRmtree TEMP])) <> Ok tt).
  { apply (@run_raises_any _ _ e). apply in_or_app. right. apply in_or_app. now left. }
  destruct (run f _) as [f1 [[]|e']]; [now apply X|discriminate H].
Qed.
End D.

(** *** a copy of the temporary directory *)
Section Copy.
Context {T : Type}.
Fixpoint strip (a p : string) : option string :=
  match a, p with
  | EmptyString, _ => Some p
  | String c a, String c' p => if Ascii.eqb c c' then strip a p else None
  | _, EmptyString => None
  end.
Lemma strip_some a p n : strip a p = Some n <-> p = (a ++ n)%string.
Proof.
  revert p. induction a as [|c a IH]; intros p; cbn [strip String.append]; [split; congruence|]. destruct p as [|c' p]; [split; discriminate|].
  destruct (Ascii.eqb_spec c c') as [->|Hc]; [rewrite IH; split; congruence|split; congruence].
Qed.
Definition copy_temp (f : fs T) (d : string) : fs T :=
  flat_map (fun qn => match strip (TEMP ++ "/")%string (fst qn) with Some n => [(under d n, snd qn)] | None => [] end) f.
Lemma under_app d n : under d n = ((d ++ "/") ++ n)%string.
Proof. unfold under. induction d as [|c d IH]; [reflexivity|]. cbn [String.append]. f_equal. exact IH. Qed.
Lemma copy_copied (f : fs T) d : copied f (copy_temp f d) d.
Proof.
  intros n _. induction f as [|[p x] f IH]; [reflexivity|]. cbn [copy_temp flat_map fst snd fs_get]. fold (copy_temp f d).
  assert (I : forall m, (under d n =? under d m) = (n =? m)).
  { intros m. rewrite !under_app. generalize (d ++ "/")%string. intros a. induction a as [|c a IHa]; [reflexivity|]. cbn [String.append String.eqb]. rewrite Ascii.eqb_refl. exact IHa. }
  destruct (strip (TEMP ++ "/")%string p) as [m|] eqn:Es.
  - apply strip_some in Es. subst p. cbn [app fs_get]. rewrite I, IH. rewrite under_app.
    assert (J : forall a, ((a ++ n)%string =? (a ++ m)%string) = (n =? m)). { induction a as [|c a IHa]; [reflexivity|]. cbn [String.append String.eqb]. rewrite Ascii.eqb_refl. exact IHa. }
    rewrite J. reflexivity.
  - cbn [app]. rewrite IH. destruct (String.eqb_spec (under TEMP n) p) as [Hp|Hp]; [|reflexivity].
    subst p. rewrite under_app in Es. assert (X : strip (TEMP ++ "/")%string ((TEMP ++ "/") ++ n)%string = Some n) by now apply strip_some. rewrite X in Es. discriminate.
Qed.
End Copy.

(** *** concrete interrupted builds *)
Definition interm (nf : pyval f64) : res (list (step f64) * shallot f64) :=
  let* g := grid_f64 in match snd (new_shallot env3 (EIs g) nf (PInt 50) (PBool false) (PBool true)) with (l, Ok s) => Ok (l, s) | (_, Err e) => Err e end.
Definition holds_i (nf : pyval f64) (t : list (step f64) -> shallot f64 -> bool) : Prop := match interm nf with Ok (l, s) => t l s = true | Err _ => False end.
Lemma holds_i_in nf t : holds_i nf t -> exists g og l s, reachable g /\ new_shallot env3 (EIs g) nf (PInt 50) (PBool false) (PBool true) = (og, (l, Ok s)) /\ t l s = true.
Proof.
  unfold holds_i, interm. destruct grid_f64 as [g|] eqn:Eg; cbn [bind]; [|intros []].
  destruct (new_shallot env3 (EIs g) nf (PInt 50) (PBool false) (PBool true)) as [og [l [s|e]]] eqn:En; cbn [snd]; [|intros []].
  intros H. exists g, og, l, s. split; [eapply rc_new; exact Eg|]. split; [exact En|exact H].
Qed.
(** the process stops in the middle of the saving of the second row *)
Definition stop : nat := 60.
Definition some_file (f : fs f64) (p : string) : bool := match fs_get f p with Some _ => true | None => false end.
Lemma stopped : exists g og l s f1 f2, reachable g /\ new_shallot env3 (EIs g) (PInt 4) (PInt 50) (PBool false) (PBool true) = (og, (l, Ok s)) /\
  f1 = fst (run [] (firstn stop l)) /\ fs_get f1 (under TEMP (dfile WFy)) <> None /\ copied f1 f2 "copy" /\ stop < List.length l.
Proof.
  destruct (@holds_i_in (PInt 4) (fun l _ => some_file (fst (run [] (firstn stop l))) (under TEMP (dfile WFy)) && (stop <? List.length l)%nat)) as (g & og & l & s & Hg & Hn & Ht).
  { lazy. reflexivity. }
  exists g, og, l, s, (fst (run [] (firstn stop l))), (copy_temp (fst (run [] (firstn stop l))) "copy"). split; [exact Hg|]. split; [exact Hn|]. split; [reflexivity|].
  apply andb_prop in Ht as [Ht Hk]. split; [unfold some_file in Ht; intros X; rewrite X in Ht; discriminate Ht|]. split; [apply copy_copied|]. apply Nat.ltb_lt. exact Hk.
Qed.
(** num_fxfy = True: the interrupted build cannot be resumed *)
Lemma bool_refuted : ~ (forall (E : env f64) g nf ll0 og l s (f f1 f2 : fs f64) k d ll v og0 l0 s0,
  reachable g -> new_shallot E (EIs g) nf ll0 (PBool false) (PBool true) = (og, (l, Ok s)) -> d <> "" -> below TEMP d = false -> dummy E = (og0, (l0, Ok s0)) ->
  number ll true (PInt 10) (PInt 50) false = Ok v -> 1 <= k -> f1 = fst (run f (firstn k l)) -> fs_get f1 (under TEMP (dfile WFy)) <> None -> copied f1 f2 d ->
  exists f' s', shallot_load E f2 (PStr d) ll = (f', Ok s')).
Proof.
  intros H.
  destruct (@holds_i_in (PBool true) (fun l _ => let f1 := fst (run [] (firstn stop l)) in some_file f1 (under TEMP (dfile WFy)) &&
    negb (is_ok (snd (shallot_load env3 (copy_temp f1 "copy") (PStr "copy") (PInt 50)))))) as (g & og & l & s & Hg & Hn & Ht).
  { lazy. reflexivity. }
  cbn zeta in Ht. apply andb_prop in Ht as [H1 H2]. destruct dummy3 as (og0 & l0 & s0 & Hdum).
  destruct (H env3 g (PBool true) (PInt 50) og l s [] _ _ stop "copy" level level og0 l0 s0 Hg Hn ltac:(discriminate) eq_refl Hdum level_ok ltac:(unfold stop; lia) eq_refl
    ltac:(unfold some_file in H1; intros X; rewrite X in H1; discriminate H1) (copy_copied _ _)) as (f' & s' & X).
  change level with (PInt (T := f64) 50) in X. rewrite X in H2. discriminate H2.
Qed.
