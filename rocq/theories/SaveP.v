(** Saving a grid and loading it again. *)
From Coq Require Import ZArith Lra Reals List Bool String Ascii Lia.
From Verif Require Import Num NumP Py SpecNum Validate ValidateP Ring RingP RingSystem FS FSP GridParams SpecGrid GridParamsP GridDiag Names GridProp SpecProp GridPropP GridGradP
  GridPropFSP Geometry Build SpecBuild BuildP BuildQP Shallot BuildGP BuildGridP BuildCP AddLaws ShallotOps SpecOps SpecSave OpsP OpsReadP SaveFsP.
Import ListNotations.
Set Implicit Arguments.
Local Open Scope string_scope.
Local Open Scope list_scope.

Definition all_which := [WRadius; WInclination; WTilt; WFx; WFy].
Lemma in_which w : In w all_which. Proof. destruct w; cbn; tauto. Qed.
Lemma dfile_inj w w' : dfile w = dfile w' -> w = w'. Proof. destruct w, w'; intros H; try discriminate H; reflexivity. Qed.
Lemma mfile_inj w w' : mfile w = mfile w' -> w = w'. Proof. destruct w, w'; intros H; try discriminate H; reflexivity. Qed.
Lemma dfile_mfile w w' : dfile w <> mfile w'. Proof. apply data_mask_neq. Qed.
Lemma dfile_fixed w : ~ In (dfile w) fixed_files. Proof. apply data_fixed. Qed.
Lemma mfile_fixed w : ~ In (mfile w) fixed_files. Proof. apply mask_fixed. Qed.
Lemma file_ext : forallb (fun n => negb (no_ext n) && slashfree n) (fixed_files ++ map dfile all_which ++ map mfile all_which) = true.
Proof. vm_compute. reflexivity. Qed.
(** the names a grid's own files have *)
Definition own_name (n : string) : Prop := In n fixed_files \/ exists w, n = dfile w \/ n = mfile w.
Lemma own_ok n : own_name n -> no_ext n = false /\ slashfree n = true.
Proof.
  intros H. assert (X : In n (fixed_files ++ map dfile all_which ++ map mfile all_which)).
  { destruct H as [H|(w & [->| ->])]; apply in_or_app; [left; auto|right; apply in_or_app; left; apply in_map, in_which|right; apply in_or_app; right; apply in_map, in_which]. }
  assert (Y := file_ext). rewrite forallb_forall in Y. specialize (Y n X). apply andb_prop in Y as [A B]. split; auto. now apply negb_true_iff in A.
Qed.

Section S.
Context {T : Type} {NT : Num T} {LT : NumLaws T} (E : env T).
Notation pyval := (pyval T).
Notation shallot := (shallot T).
Notation content := (content T).
Notation entry := (option (string * content)).

(** *** what save writes *)
Definition params_entries (g : gparams T) : list entry := None :: map Some (params_files g).
Definition prop_entries (p : gprop T) : list entry := None :: map Some (gprop_files p) ++ params_entries (p_params p).
Definition save_entries (s : shallot) : list entry :=
  Some ("num_fxfy.npy", np_array [Some (s_nf s)]) :: params_entries (s_params s) ++
  prop_entries (s_dr s) ++ prop_entries (s_inc s) ++ prop_entries (s_tilt s) ++ prop_entries (s_fx s) ++ prop_entries (s_fy s).
Lemma params_steps (g : gparams T) d : params_save g d = steps d (params_entries g). Proof. reflexivity. Qed.
Lemma prop_steps (p : gprop T) d : gprop_save p d = steps d (prop_entries p).
Proof. unfold gprop_save, prop_entries, steps. cbn [map step_of]. rewrite map_app, map_map. f_equal. f_equal. apply map_ext. intros []; reflexivity. Qed.
Definition grads_steps (s : shallot) (d : string) : list (step T) :=
  match s_grads s with None => [] | Some gs => flat_map (fun g => grad_save (e_fmt E) g d) gs end.
Definition diag_steps (s : shallot) : list (step T) := match s_diag s with None => [] | Some _ => [SRaise TypeError] end.
Lemma save_files_steps (s : shallot) d : save_files E s d = steps d (save_entries s) ++ grads_steps s d ++ diag_steps s.
Proof.
  unfold save_files, save_entries, grads_steps, diag_steps. rewrite !prop_steps, params_steps. cbn [app steps map step_of].
  unfold steps at 1 2 3 4 5 6. rewrite !map_app, <- !app_assoc. reflexivity.
Qed.

(** *** the contents *)
Lemma files_map l : files (map (@Some (string * content)) l) = l.
Proof. unfold files. induction l; cbn; congruence. Qed.
Lemma files_params (g : gparams T) : files (params_entries g) = params_files g. Proof. reflexivity. Qed.
Lemma files_prop (p : gprop T) : files (prop_entries p) = gprop_files p ++ params_files (p_params p).
Proof. unfold prop_entries. transitivity (files (map Some (gprop_files p) ++ params_entries (p_params p))); [reflexivity|]. rewrite files_app, files_map, files_params. reflexivity. Qed.

Definition named (s : shallot) : Prop := forall w, p_name (cube_of w s) = name_of w /\ p_unit (cube_of w s) = unit_of w /\ p_params (cube_of w s) = s_params s.
Lemma gprop_files_in w (s : shallot) n c : named s -> In (n, c) (gprop_files (cube_of w s)) <->
  (n = dfile w /\ c = float_arr (p_shape (cube_of w s)) (p_data (cube_of w s)) \/
   exists m, p_mask (cube_of w s) = Some m /\ n = mfile w /\ c = CNpy (ma_dtype m) (ma_shape m) (ma_elems m)).
Proof.
  intros H. destruct (H w) as (A & B & _). unfold gprop_files. rewrite A, B. fold (dfile w) (mfile w). cbn [In]. split.
  - intros [X|X]; [injection X as <- <-; auto|]. destruct (p_mask (cube_of w s)) as [m|]; [|destruct X]. destruct X as [X|[]]. injection X as <- <-. right. eauto.
  - intros [[-> ->]|(m & -> & -> & ->)]; [auto|]. right. now left.
Qed.
Lemma save_entries_in (s : shallot) n c : named s -> In (n, c) (files (save_entries s)) <-> grid_file s n c.
Proof.
  intros H. unfold save_entries. change (files (Some ?x :: ?l)) with (x :: files l). rewrite !files_app, !files_prop, files_params. cbn [In]. rewrite !in_app_iff.
  assert (P : forall w, In (n, c) (params_files (p_params (cube_of w s))) <-> In (n, c) (params_files (s_params s))) by (intros w; destruct (H w) as (_ & _ & ->); tauto).
  assert (P1 := P WRadius). assert (P2 := P WInclination). assert (P3 := P WTilt). assert (P4 := P WFx). assert (P5 := P WFy).
  assert (G1 := @gprop_files_in WRadius s n c H). assert (G2 := @gprop_files_in WInclination s n c H). assert (G3 := @gprop_files_in WTilt s n c H).
  assert (G4 := @gprop_files_in WFx s n c H). assert (G5 := @gprop_files_in WFy s n c H). cbn [cube_of] in *.
  rewrite P1, P2, P3, P4, P5, G1, G2, G3, G4, G5. unfold grid_file. split.
  - intros [X|X]; [injection X as <- <-; auto|]. destruct X as [X|X]; [auto|]. right.
    destruct X as [[X|X]|[[X|X]|[[X|X]|[[X|X]|[X|X]]]]]; auto; right; [exists WRadius|exists WInclination|exists WTilt|exists WFx|exists WFy]; exact X.
  - intros [[-> ->]|[X|[w X]]]; [auto|tauto|]. right. destruct w; cbn [cube_of] in X; tauto.
Qed.
Lemma params_own (g : gparams T) n c : In (n, c) (params_files g) -> In n param_files.
Proof. intros H. change n with (fst (n, c)). rewrite <- (params_files_names g). now apply in_map. Qed.
Lemma grid_file_own (s : shallot) n c : grid_file s n c -> own_name n /\ n <> "y_value.npy" /\ n <> "fy_dict.npy".
Proof.
  assert (D : forall w, dfile w <> "y_value.npy" /\ dfile w <> "fy_dict.npy" /\ mfile w <> "y_value.npy" /\ mfile w <> "fy_dict.npy") by (intros []; repeat split; discriminate).
  intros [[-> _]|[X|(w & [[-> _]|(m & _ & -> & _)])]].
  - split; [left; cbn; tauto|]. split; discriminate.
  - apply params_own in X. split; [left; now apply param_in_fixed|]. cbn in X. split; intros ->; intuition discriminate.
  - split; [right; exists w; auto|]. destruct (D w) as (? & ? & _); auto.
  - split; [right; exists w; auto|]. destruct (D w) as (_ & _ & ? & ?); auto.
Qed.
Lemma params_functional (g : gparams T) n c c' : In (n, c) (params_files g) -> In (n, c') (params_files g) -> c = c'.
Proof.
  cbn [params_files In]. intros [H|[H|[H|[H|[]]]]] [K|[K|[K|[K|[]]]]]; injection H as <- <-; injection K; intros; try discriminate; congruence.
Qed.
Lemma grid_file_functional (s : shallot) n c c' : grid_file s n c -> grid_file s n c' -> c = c'.
Proof.
  assert (Q1 : forall w, ~ In (dfile w) param_files) by (intros w X; apply (dfile_fixed w), param_in_fixed; auto).
  assert (Q2 : forall w, ~ In (mfile w) param_files) by (intros w X; apply (mfile_fixed w), param_in_fixed; auto).
  assert (Q3 : forall w, dfile w <> "num_fxfy.npy" /\ mfile w <> "num_fxfy.npy") by (intros []; split; discriminate).
  assert (Q4 : ~ In "num_fxfy.npy" param_files) by (cbn; intuition discriminate).
  intros [[-> ->]|[X|(w & [[-> ->]|(m & Hm & -> & ->)])]] [[Y ->]|[Y|(w' & [[Y ->]|(m' & Hm' & Y & ->)])]];
    try reflexivity; try (eapply params_functional; eassumption; fail); try (exfalso; apply params_own in X; rewrite Y in X; first [exact (Q4 X)|exact (Q1 _ X)|exact (Q2 _ X)]; fail);
    try (exfalso; apply params_own in Y; first [exact (Q4 Y)|exact (Q1 _ Y)|exact (Q2 _ Y)]; fail);
    try (destruct (Q3 w); congruence); try (destruct (Q3 w'); congruence); try (exfalso; revert Y; apply dfile_mfile); try (exfalso; symmetry in Y; revert Y; apply dfile_mfile).
  - apply dfile_inj in Y. now subst.
  - apply mfile_inj in Y. subst. congruence.
Qed.
Lemma saved_found (s : shallot) n : named s -> forall c, found n (files (save_entries s)) = Some c <-> grid_file s n c.
Proof.
  intros H c. split.
  - intros F. apply found_in in F. now apply save_entries_in in F.
  - intros G. apply found_one; [now apply save_entries_in|]. intros c' X. apply save_entries_in in X; auto. eapply grid_file_functional; eauto.
Qed.

(** *** what load reads *)
(** a saved number of samples comes back as a numpy scalar *)
(** directory [d] holds the grid [s] *)
Record kept (f : fs T) (d : string) (s : shallot) : Prop := {
  k_files : forall n c, grid_file s n c -> fs_get f (under d n) = Some (NFile c);
  k_masks : forall w, p_mask (cube_of w s) = None -> fs_get f (under d (mfile w)) = None;
  k_dict : fs_get f (under d "fy_dict.npy") = None }.
(** every name in [d] has an extension *)
Definition extended (f : fs T) (d : string) : Prop := forall n, slashfree n = true -> fs_get f (under d n) <> None -> no_ext n = false.
Lemma extended_list f d : existsb no_ext (listdir f d) = false <-> extended f d.
Proof.
  split.
  - intros X n Hn Hg. apply not_true_iff_false. intros Hx. apply not_true_iff_false in X. apply X. apply existsb_exists. exists n. split; auto. now apply listdir_in.
  - intros X. apply not_true_iff_false. intros Y. apply existsb_exists in Y as (nm & Hn & Hx). apply listdir_in in Hn as [Hs Hg]. rewrite (X nm Hs Hg) in Hx. discriminate.
Qed.

Definition restored (s s0 : shallot) : shallot :=
  let c w := fst (set_contrast_default (cube_of w s)) in
  mkSh (s_params s) (reread_nf (s_nf s)) (s_diag s0) (radius_of_params E (s_params s)) (shear_of_params (s_params s))
       (c WRadius) (c WInclination) (c WTilt) (c WFx) (c WFy) (s_dmap s0) None (s_fit s0) (s_ecl s0) (s_vel s0) (s_limb s0).

Lemma load_kept (f : fs T) d (s s0 : shallot) : kept f d s -> named s -> consistent (s_params s) -> (forall w, prop_inv (cube_of w s)) -> int_like (s_nf s) -> d <> "" ->
  load_attributes E f s0 d = if existsb no_ext (listdir f d) then Err AttributeError else Ok (restored s s0).
Proof.
  intros K N Hc Hi Hnf Hd. unfold load_attributes.
  assert (L : np_load f (under d "num_fxfy.npy") = match np_array [Some (s_nf s)] with CNpy a b c => Ok (a, b, c) | _ => Err ValueError end).
  { unfold np_load. rewrite (k_files K (n := "num_fxfy.npy") (c := np_array [Some (s_nf s)])); [|left; auto]. reflexivity. }
  rewrite L. assert (L2 : exists a b c, np_array [Some (s_nf s)] = CNpy a b [c] /\ np_item c = reread_nf (s_nf s)).
  { destruct Hnf; eexists _, _, _; (split; [reflexivity|]); cbn; auto. destruct b; reflexivity. }
  destruct L2 as (a & b & c & L2 & L3). rewrite L2. cbn [bind snd]. rewrite L3.
  rewrite (params_load_consistent f d Hc) by (intros n c' Hn; apply (k_files K); right; auto). cbn [bind].
  assert (G : forall w, gprop_load f (PStr d) (EIs (name_of w)) (EIs (unit_of w)) = Ok (fst (set_contrast_default (cube_of w s)))).
  { intros w. destruct (N w) as (N1 & N2 & N3). rewrite <- N1, <- N2. rewrite (@load_stored T NT LT f d (cube_of w s) (p_mask (cube_of w s))); auto.
    - destruct (cube_of w s); reflexivity.
    - rewrite N3. exact Hc.
    - unfold stored. rewrite N1, N2. fold (dfile w) (mfile w). split; [|split].
      + apply (k_files K). right. right. exists w. auto.
      + destruct (p_mask (cube_of w s)) as [m|] eqn:Em; [|now apply (k_masks K)]. apply (k_files K). right. right. exists w. right. exists m. auto.
      + rewrite N3. intros n c' Hn. apply (k_files K). right; auto. }
  assert (G1 := G WRadius). assert (G2 := G WInclination). assert (G3 := G WTilt). assert (G4 := G WFx). assert (G5 := G WFy). cbn [name_of unit_of cube_of] in *.
  rewrite G1. cbn [bind]. rewrite G2. cbn [bind]. rewrite G3. cbn [bind]. rewrite G4. cbn [bind]. rewrite G5. cbn [bind].
  assert (D : diag_load f d = Err LoadErr) by (unfold diag_load, np_load_dict; rewrite (k_dict K); reflexivity). rewrite D.
  destruct (String.eqb_spec d ""); [contradiction|].
  destruct (existsb no_ext (listdir f d)); reflexivity.
Qed.

(** *** the throw-away grid *)
Lemma rows_silent ys : forall (s : shallot), fst (build_rows E false ys s) = [].
Proof.
  induction ys as [|y ys IH]; intros s; cbn [build_rows]; auto. destruct (build_row E s y) as [s1|]; auto.
  specialize (IH s1). destruct (build_rows E false ys s1) as [l r]. cbn [fst] in *. now rewrite IH.
Qed.
Lemma new_shallot_steps (g : earg (gparams T)) nf ll keep b og l r : new_shallot E g nf ll keep (PBool b) = (og, (l, r)) ->
  (b = false -> l = [] \/ l = [SRmtree TEMP]) /\ (is_ok r = true -> exists l', l = (if b then [SRmtree TEMP; SMkdir TEMP] else []) ++ l' ++ [SRmtree TEMP]).
Proof.
  unfold new_shallot. destruct (number ll _ _ _ _); cbn [bind]; [|intros H; injection H as <- <- <-; split; [auto|discriminate]].
  destruct g as [g|]; cbn [class_arg bind]; [|intros H; injection H as <- <- <-; split; [auto|discriminate]].
  destruct (number nf _ _ _ _) as [nf'|]; cbn [bind]; [|intros H; injection H as <- <- <-; split; [auto|discriminate]].
  destruct (boolean_v keep) as [k|]; cbn [bind boolean_v]; [|intros H; injection H as <- <- <-; split; [auto|discriminate]].
  unfold build_grid. change (s_params (fresh_shallot E g nf' (if k then Some (new_diag g) else None))) with g. rewrite number_start. change (int_of (PInt 0 : pyval)) with 0%Z. cbn [Z.eqb].
  rewrite init_ok. set (s0 := with_all _ _).
  destruct (build_rows E b _ s0) as [l1 [s1|e]] eqn:Eb.
  - assert (Hl : b = false -> l1 = []). { intros ->. assert (X := rows_silent (seq (Z.to_nat 0) (List.length (g_dy (s_params s0)) - Z.to_nat 0)) s0). rewrite Eb in X. exact X. }
    destruct (set_contrasts s1) as [s2|e].
    + destruct (finish_shallot E s2) as [g' r']. intros H; injection H as <- <- <-. split; [intros ->; rewrite (Hl eq_refl); auto|eauto].
    + intros H; injection H as <- <- <-. split; [intros ->; rewrite (Hl eq_refl); auto|discriminate].
  - assert (Hl : b = false -> l1 = []). { intros ->. assert (X := rows_silent (seq (Z.to_nat 0) (List.length (g_dy (s_params s0)) - Z.to_nat 0)) s0). rewrite Eb in X. exact X. }
    intros H; injection H as <- <- <-. split; [intros ->; rewrite (Hl eq_refl); auto|discriminate].
Qed.
Lemma dummy_reachable g : new_params (T := T) (PInt 0) (PInt 1) (PInt 2) (PInt 0) (PInt 1) (PInt 2) (PInt 2) (PInt 2) = Ok g -> reachable g.
Proof. intros H. eapply rc_new. exact H. Qed.
Lemma dummy_ok og l s0 : dummy E = (og, (l, Ok s0)) -> l = [SRmtree TEMP] /\ s_diag s0 = None /\ s_grads s0 = None /\ s_fit s0 = None /\
  s_ecl s0 = None /\ s_vel s0 = None /\ s_limb s0 = None.
Proof.
  unfold dummy. destruct (new_params _ _ _ _ _ _ _ _) as [g|] eqn:Eg; [|discriminate]. intros H.
  destruct (constructor_result E _ _ _ _ (reachable_proper (dummy_reachable Eg)) H) as (_ & C & D).
  destruct (new_shallot_steps _ _ _ _ _ H) as [A B]. split.
  - destruct (A eq_refl) as [->|]; auto. destruct (B eq_refl) as [l' X]. destruct l'; discriminate.
  - split; [auto|]. split; [apply C|]. split; [apply C|]. assert (X := cn_ecl C). injection X as -> -> ->. auto.
Qed.
Lemma dummy_silent : fst (snd (dummy E)) = [] \/ fst (snd (dummy E)) = [SRmtree TEMP].
Proof.
  unfold dummy. destruct (new_params _ _ _ _ _ _ _ _) as [g|]; [|left; reflexivity].
  destruct (new_shallot E (EIs g) (PInt 100) (PInt 50) (PBool false) (PBool false)) as [og [l r]] eqn:H. exact (proj1 (new_shallot_steps _ _ _ _ _ H) eq_refl).
Qed.

(** *** the temporary directory (C59) *)
Lemma rmtree_get (f : fs T) D p : fs_get (fst (exec f (SRmtree D))) p = if below D p then None else fs_get f p.
Proof. cbn [exec fst]. rewrite (get_filter f (fun q => negb (below D q)) p). destruct (below D p); reflexivity. Qed.
Lemma run_last (f f' : fs T) l : run f (l ++ [SRmtree TEMP]) = (f', Ok tt) -> forall p, below TEMP p = true -> fs_get f' p = None.
Proof.
  intros H p Hp. apply run_app_ok in H as (g & _ & H). cbn [run] in H. assert (X := rmtree_get g TEMP p). rewrite Hp in X.
  cbn [exec] in *. injection H as <-. exact X.
Qed.
Theorem construct_deletes (g : earg (gparams T)) nf ll keep b (f f' : fs T) s :
  perform f (snd (new_shallot E g nf ll keep (PBool b))) = (f', Ok s) -> forall p, below TEMP p = true -> fs_get f' p = None.
Proof.
  unfold perform. destruct (new_shallot E g nf ll keep (PBool b)) as [og [l r]] eqn:H. cbn [fst snd]. destruct (run f l) as [f1 [[]|e]] eqn:R; [|discriminate].
  intros X. injection X as <- ->. destruct (proj2 (new_shallot_steps _ _ _ _ _ H) eq_refl) as [l' ->]. rewrite app_assoc in R. exact (run_last _ _ R).
Qed.
Lemma perform_dummy (f : fs T) og l s0 : dummy E = (og, (l, Ok s0)) -> perform f (snd (dummy E)) = (fst (exec f (SRmtree TEMP)), Ok s0).
Proof. intros H. destruct (dummy_ok H) as (-> & _). unfold perform. rewrite H. cbn [snd fst run]. reflexivity. Qed.
Theorem load_temp (f : fs T) ll : exists e, snd (shallot_load E f (PStr TEMP) ll) = Err e.
Proof.
  unfold shallot_load. cbn [string_v]. destruct (dummy E) as [og [l [s0|e]]] eqn:H.
  - assert (P := perform_dummy f H). rewrite H in P. rewrite P. unfold load_into, load_attributes, np_load.
    rewrite (rmtree_get f TEMP (under TEMP "num_fxfy.npy")), below_under_self. cbn. eauto.
  - unfold perform. cbn [snd fst]. destruct (run f l) as [f' [[]|e']]; cbn; eauto.
Qed.
Theorem load_temp_deletes (f : fs T) ll og l s0 : dummy E = (og, (l, Ok s0)) -> exists f', shallot_load E f (PStr TEMP) ll = (f', Err FileNotFound) /\
  forall p, fs_get f' p = if below TEMP p then None else fs_get f p.
Proof.
  intros H. exists (fst (exec f (SRmtree TEMP))). split; [|intros p; apply rmtree_get].
  unfold shallot_load. cbn [string_v]. rewrite (perform_dummy f H). unfold load_into, load_attributes, np_load.
  rewrite (rmtree_get f TEMP (under TEMP "num_fxfy.npy")), below_under_self. reflexivity.
Qed.
Theorem load_deletes (f f' : fs T) d ll s : shallot_load E f d ll = (f', Ok s) -> forall p, below TEMP p = true -> fs_get f' p = None.
Proof.
  unfold shallot_load. destruct (string_v d) as [dir|]; [|discriminate]. destruct (dummy E) as [og [l [s0|e]]] eqn:H.
  2:{ unfold perform. cbn [snd fst]. destruct (run f l) as [f1 [[]|e']]; discriminate. }
  assert (P := perform_dummy f H). rewrite H in P. rewrite P. set (f1 := fst _). assert (G : forall p, below TEMP p = true -> fs_get f1 p = None) by (intros p Hp; unfold f1; rewrite rmtree_get, Hp; reflexivity).
  unfold load_into. destruct (load_attributes E f1 s0 dir) as [s1|]; [|discriminate]. destruct (number ll _ _ _ _); [|discriminate].
  destruct (fs_exists f1 _); [|intros X; injection X as <- _; exact G].
  destruct (let* x := np_load f1 (under dir "y_value.npy") in _) as [v|]; [|discriminate].
  unfold perform. destruct (build_grid E s1 true v) as [l2 r2] eqn:B. cbn [fst snd]. destruct (run f1 l2) as [f2 [[]|]] eqn:R; [|discriminate].
  destruct r2 as [s2|]; [|discriminate]. intros X; injection X as <- _.
  unfold build_grid in B. destruct (number v _ _ _ _); [|discriminate]. destruct (if Z.eqb _ 0 then _ else _); [|discriminate].
  destruct (build_rows E true _ _) as [l3 [s3|]]; [|discriminate]. destruct (set_contrasts s3); [|discriminate]. injection B as <- _.
  exact (run_last _ ([SRmtree TEMP; SMkdir TEMP] ++ l3) R).
Qed.

(** *** a grid that has been extended is not extended again *)
Context {AL : AddLaws T}.
Lemma linspace_head (a b : T) n : exists z, (val z = XFin 0 \/ val z = XNaN) /\ linspace a b (S n) = n_add z a :: tl (linspace a b (S n)).
Proof.
  unfold linspace. cbn [seq map tl]. replace (Nat.ltb 1 (S n) && Nat.eqb 0 (S n - 1)) with false by (destruct n; reflexivity).
  assert (Z : val (n_ofnat 0 : T) = XFin 0) by exact val_zero.
  eexists. split; [|reflexivity]. destruct (S n - 1) eqn:En; [apply a_zero_mul; auto|]. destruct (n_eq _ _); apply a_zero_mul; auto. now apply a_zero_div.
Qed.
Lemma linspace_nonzero (a b x : T) n l : val a <> XFin 0 -> linspace a b n = x :: l -> n_eq x n_zero = false.
Proof.
  intros Ha H. destruct n as [|n]; [discriminate|]. destruct (linspace_head a b n) as (z & Hz & Hl). rewrite Hl in H. injection H as <- _.
  apply not_true_iff_false. rewrite neq_iff, val_zero. intros [X _]. destruct Hz as [Hz|Hz]; [rewrite (a_zero _ _ Hz) in X; auto|rewrite a_nan in X; [discriminate|auto]].
Qed.
Lemma extended_fixed (g g' : gparams T) u : extend_grid g = (g', Ok u) -> g_ext g' = false.
Proof.
  unfold extend_grid. destruct (negb (g_ext g)); [discriminate|]. destruct (g_shape g) as [[ny nx] k].
  destruct (last_opt (g_dy g)) as [my|]; [|destruct (last_opt (g_dx g)); discriminate]. destruct (last_opt (g_dx g)) as [mx|]; [|discriminate].
  destruct (determine_axis _ _ (PInt (2 * Z.of_nat nx - 1))) as [dx|] eqn:E3; [|discriminate].
  destruct (determine_axis _ _ (PInt (2 * Z.of_nat ny - 1))) as [dy|] eqn:E4; [|discriminate].
  destruct (extendable_of dx dy) as [e|] eqn:E5; [|discriminate]. intros H; injection H as <- _. cbn [g_ext].
  assert (Hm : val (n_neg my) <> XFin 0).
  { rewrite l_neg. intros X. assert (Y : val my = XFin 0) by (destruct (val my); cbn in X; try discriminate; injection X as X; f_equal; lra). rewrite (ext_axis_one my _ Y) in E4. discriminate. }
  unfold determine_axis in E4. destruct (number _ _ _ _ _) as [a|] eqn:N1; cbn [bind] in E4; [|discriminate]. destruct (number (PNpFloat my) _ _ _ _) as [b|] eqn:N2; cbn [bind] in E4; [|discriminate].
  apply number_same in N1 as ->. apply number_same in N2 as ->. destruct (v_cmp _ _ _); [discriminate|]. destruct (number (PInt _) _ _ _ _); cbn [bind] in E4; [|discriminate].
  injection E4 as <-. change (num_of (PNpFloat (n_neg my))) with (n_neg my) in E5. change (num_of (PNpFloat my)) with my in E5.
  unfold extendable_of in E5. destruct (linspace (n_neg my) my _) as [|y l] eqn:El; [discriminate|]. rewrite (linspace_nonzero _ _ _ Hm El) in E5. now injection E5 as <-.
Qed.

(** *** the grids a caller can have *)
Lemma reached_more (s : shallot) : sreach E s -> sinv s /\ g_ext (s_params s) = false /\ named s /\ int_like (s_nf s) /\ (1 <= int_of (s_nf s))%Z /\
  s_radius s = radius_of_params E (s_params s) /\ s_shear s = shear_of_params (s_params s).
Proof.
  induction 1 as [g nf ll keep inter og l s Hg H|s o Hw H IH].
  - assert (Hs : sinv s) by (apply (@reached_sinv _ _ _ _ E); eapply sr_new; eauto). split; auto. destruct (constructor_result E _ _ _ _ (reachable_proper Hg) H) as (_ & C & _). split.
    + destruct (cn_data C) as [(A & B & _)|(_ & A & _)]; [congruence|exact (extended_fixed _ A)].
    + split; [intros w; destruct (cn_plain C w) as (? & ? & ? & _); auto|]. rewrite <- and_assoc. split; [|split; apply C].
      rewrite (cn_nf C). unfold new_shallot in H. destruct (number ll _ _ _ _); [|discriminate]. cbn [bind class_arg] in H.
      destruct (number nf _ _ _ _) as [v|] eqn:En; [|discriminate]. split; [|exact (number_least _ En)]. unfold number in En. destruct (number_type true nf) as [v1|] eqn:E1; cbn [bind] in En; [|discriminate].
      apply number_type_ok in E1 as [_ [Hi|[X _]]]; [exact Hi|discriminate X].
  - destruct IH as (A & B & C & D & D' & F & G). destruct (do_op_keeps E o Hw A) as [A' Ha]. split; auto. rewrite (ag_params Ha), (ag_nf Ha), (ag_radius Ha), (ag_shear Ha). split; auto. split; auto.
    intros w. destruct (C w) as (C1 & C2 & C3). destruct (ag_cubes Ha w) as (W1 & W2 & W3 & _). change (the_cube w) with (@cube_of T w) in *. rewrite W1, W2, W3, (ag_params Ha). auto.
Qed.
End S.
