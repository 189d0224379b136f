(** What loading a copy of the temporary directory gives after any crash of an intermittent build. *)
From Coq Require Import ZArith Lra Reals List Bool String Ascii Lia.
From Verif Require Import Num NumP Py SpecNum Validate ValidateP Ring RingP RingSystem FS FSP GridParams SpecGrid GridParamsP GridDiag GridDiagP Names GridProp SpecProp GridPropP GridGradP
  GridPropFSP Geometry Build SpecBuild BuildP BuildQP Shallot BuildGP BuildGridP BuildCP AddLaws ShallotOps SpecOps SpecSave SpecResume OpsP OpsReadP SaveFsP SaveP SaveLoadP ResumeP.
Import ListNotations.
Set Implicit Arguments.
Local Open Scope string_scope.
Local Open Scope list_scope.

Section R.
Context {T : Type} {NT : Num T} {LT : NumLaws T} (E : env T).
Notation pyval := (pyval T).
Notation shallot := (shallot T).
Notation content := (content T).
Notation entry := (option (string * content)).

(** *** a load that succeeds has read every file *)
Definition readable (f : fs T) (p : string) : Prop := exists a b c, fs_get f p = Some (NFile (CNpy a b c)).
Lemma np_load_readable (f : fs T) p x : np_load f p = Ok x -> readable f p.
Proof. unfold np_load, readable. destruct (fs_get f p) as [[|[]]|]; try discriminate. eauto. Qed.
Lemma params_load_readable (f : fs T) d g : params_load f d = Ok g -> forall n, In n param_files -> readable f (under d n).
Proof.
  unfold params_load, load_floats. intros H n Hn.
  destruct (np_load f (under d "dx.npy")) eqn:E1; cbn [bind] in H; [|discriminate]. destruct (np_load f (under d "dy.npy")) eqn:E2; cbn [bind] in H; [|discriminate].
  destruct (np_load f (under d "rf.npy")) eqn:E3; cbn [bind] in H; [|discriminate]. destruct (np_load f (under d "rf_array.npy")) eqn:E4; cbn [bind] in H; [|discriminate].
  destruct Hn as [<-|[<-|[<-|[<-|[]]]]]; eapply np_load_readable; eauto.
Qed.
Lemma gprop_load_readable (f : fs T) d n u p : gprop_load f (PStr d) (EIs n) (EIs u) = Ok p -> readable f (under d (data_file n u)).
Proof. unfold gprop_load. cbn [string_v class_arg bind]. destruct (np_load f (under d (data_file n u))) eqn:E1; [|discriminate]. intros _. eapply np_load_readable; eauto. Qed.
Lemma load_readable (f : fs T) (s s' : shallot) d : load_attributes E f s d = Ok s' -> forall n, In n required -> n <> "y_value.npy" -> readable f (under d n).
Proof.
  unfold load_attributes. intros H n Hn Hy. destruct (np_load f (under d "num_fxfy.npy")) as [x|] eqn:E1; cbn [bind] in H; [|discriminate].
  destruct (snd x); cbn [bind] in H; [discriminate|]. destruct (params_load f d) as [g|] eqn:E2; cbn [bind] in H; [|discriminate].
  destruct (gprop_load f (PStr d) (EIs DISK_RADIUS) (EIs ECLIPSE_DURATION)) as [p1|] eqn:P1; cbn [bind] in H; [|discriminate].
  destruct (gprop_load f (PStr d) (EIs INCLINATION) (EIs DEGREE)) as [p2|] eqn:P2; cbn [bind] in H; [|discriminate].
  destruct (gprop_load f (PStr d) (EIs TILT) (EIs DEGREE)) as [p3|] eqn:P3; cbn [bind] in H; [|discriminate].
  destruct (gprop_load f (PStr d) (EIs FX_MAP) (EIs NONE)) as [p4|] eqn:P4; cbn [bind] in H; [|discriminate].
  destruct (gprop_load f (PStr d) (EIs FY_MAP) (EIs NONE)) as [p5|] eqn:P5; cbn [bind] in H; [|discriminate]. clear H.
  destruct Hn as [<-|[<-|Hn]]; [congruence|eapply np_load_readable; eauto|]. apply in_app_or in Hn as [Hn|Hn]; [eapply params_load_readable; eauto|].
  apply in_map_iff in Hn as (w & <- & _). unfold dfile. destruct w; cbn [name_of unit_of]; eapply gprop_load_readable; eassumption.
Qed.

(** *** equal cubes are finished alike *)
Lemma fill_same (g : gparams T) (p q : gprop T) t : same_cube p q -> fill_quadrants g q t = fill_quadrants g p t.
Proof. intros (A & B & _ & C & D & _). unfold fill_quadrants. rewrite A, B, C, D. reflexivity. Qed.
Lemma diagnose_same (g : gparams T) (p q : gprop T) : same_cube p q -> diagnose g q = diagnose g p.
Proof. intros (_ & _ & _ & C & D & _). unfold diagnose, diagnostic_values. rewrite C, D. reflexivity. Qed.
Lemma same_refl (p : gprop T) : same_cube p p. Proof. repeat split. Qed.
Lemma finish_same (s t a : shallot) : s_params t = s_params s -> s_nf t = reread_nf (s_nf s) -> s_diag t = s_diag s -> s_radius t = s_radius s -> s_shear t = s_shear s ->
  (forall w, same_cube (cube_of w s) (cube_of w t)) -> s_grads t = s_grads s -> s_fit t = s_fit s -> (s_ecl t, s_vel t, s_limb t) = (s_ecl s, s_vel s, s_limb s) ->
  snd (finish_shallot E s) = Ok a -> exists b, snd (finish_shallot E t) = Ok b /\ same_grid a b.
Proof.
  intros H1 H2 H3 H4 H5 C H6 H7 H8. injection H8 as H8 H9 H10.
  assert (C1 := C WRadius). assert (C2 := C WInclination). assert (C3 := C WTilt). assert (C4 := C WFx). assert (C5 := C WFy). cbn [cube_of] in *.
  assert (D : forall u v : shallot, s_params v = s_params u -> s_nf v = reread_nf (s_nf u) -> s_diag v = s_diag u -> s_radius v = s_radius u -> s_shear v = s_shear u -> (forall w, same_cube (the_cube w u) (the_cube w v)) ->
    s_grads v = s_grads u -> s_fit v = s_fit u -> s_ecl v = s_ecl u -> s_vel v = s_vel u -> s_limb v = s_limb u -> diagnose_shallot u = Ok a -> exists b, diagnose_shallot v = Ok b /\ same_grid a b).
  { intros u v U1 U2 U3 U4 U5 UC U6 U7 U8 U9 U10 Hu. unfold diagnose_shallot in *. rewrite U1. assert (X := diagnose_same (s_params u) (UC WRadius)). cbn [the_cube] in X. rewrite X.
    destruct (diagnose (s_params u) (s_dr u)) as [m|]; [|discriminate]. cbn [bind] in *. assert (a = with_dmap u (Some m)) as -> by congruence. eexists. split; [reflexivity|].
    unfold same_grid. cbn [with_dmap s_params s_nf s_diag s_radius s_shear s_dmap s_grads s_fit s_ecl s_vel s_limb]. do 5 (split; [assumption|]). split; [intros w; specialize (UC w); destruct w; exact UC|]. split; [reflexivity|]. auto 10. }
  unfold finish_shallot, extend_shallot. rewrite H1. destruct (extend_grid (s_params s)) as [g' [[]|e]].
  - rewrite (fill_same g' false C1), (fill_same g' false C2), (fill_same g' true C3), (fill_same g' false C4), (fill_same g' false C5).
    destruct (fill_quadrants g' (s_dr s) false) as [q1|]; cbn [bind]; [|discriminate]. destruct (fill_quadrants g' (s_inc s) false) as [q2|]; cbn [bind]; [|discriminate].
    destruct (fill_quadrants g' (s_tilt s) true) as [q3|]; cbn [bind]; [|discriminate]. destruct (fill_quadrants g' (s_fx s) false) as [q4|]; cbn [bind]; [|discriminate].
    destruct (fill_quadrants g' (s_fy s) false) as [q5|]; cbn [bind]; [|discriminate]. cbn [snd]. apply D; cbn [s_params s_nf s_diag s_radius s_shear s_dmap s_grads s_fit s_ecl s_vel s_limb]; try assumption; try reflexivity; [now rewrite H3|intros []; apply same_refl].
  - destruct e; try discriminate. cbn [snd]. apply D; assumption.
Qed.

Section L.
Context (g : gparams T) (Hg : proper g) (nf : pyval) (ll0 : pyval) (og : option (gparams T)) (l : list (step T)) (s : shallot).
Context (Hnew : new_shallot E (EIs g) nf ll0 (PBool false) (PBool true) = (og, (l, Ok s))) (Hw : whole_number nf).
Notation ny := (List.length (g_dy g)).

Theorem finished_view f d V ll v og0 l0 s0 : d <> "" -> below TEMP d = false -> dummy E = (og0, (l0, Ok s0)) ->
  number ll true (PInt 10) (PInt 50) false = Ok v ->
  seen f d V -> sound_view E g nf ny V -> V "y_value.npy" = None -> (forall n, In n required -> n <> "y_value.npy" -> V n <> None) ->
  exists f' b, shallot_load E f (PStr d) ll = (f', Ok b) /\ same_grid s b.
Proof.
  intros Hd Hb Hdum Hll S K Y R. destruct (load_view Hg Hd Hb Hdum Hw S K R) as (data & U & La).
  assert (S1 := restored_stage Hg data Hdum Hw U). set (t := restored E (described E g nf data) s0) in *.
  destruct (uninterrupted E Hg _ _ Hnew) as (es0 & t1 & m0 & t2 & _ & T1 & Ht2 & Hf & _).
  assert (Cr : forall w, cube_of w t2 = recoloured (cube_of w t1) (cmap_of w)) by (intros w; subst t2; destruct w; reflexivity).
  destruct (@finish_same t2 t s) as (b & Fb & G); auto; try (subst t2; cbn [with_dmap with_all with_cubes s_params s_nf s_diag s_radius s_shear s_grads s_fit s_ecl s_vel s_limb]).
  - rewrite (st_params S1), (st_params T1). reflexivity.
  - rewrite (st_nf S1), (st_nf T1). reflexivity.
  - rewrite (st_diag S1), (st_diag T1). reflexivity.
  - rewrite (st_radius S1), (st_radius T1). reflexivity.
  - rewrite (st_shear S1), (st_shear T1). reflexivity.
  - intros w. rewrite Cr. destruct (st_plain S1 w) as (A1 & A2 & A3 & A4 & A5 & _). destruct (st_plain T1 w) as (B1 & B2 & B3 & B4 & B5 & _).
    unfold same_cube, recoloured, with_colors, with_limits. cbn [p_name p_unit p_params p_shape p_data p_mask]. rewrite A1, A2, A3, A4, A5, B1, B2, B3, B4, B5. repeat (split; [reflexivity|]). split; [|reflexivity].
    apply (@quadrant_fun T NT E g nf w); [|apply upto_quadrant, T1]. destruct (st_data S1 w) as [A B]. split; auto. intros y x Hy Hx.
    apply (@column_spec_nf T NT E g (reread_nf nf)); [apply (reread_whole Hw)|auto].
  - rewrite (st_grads S1), (st_grads T1). reflexivity.
  - rewrite (st_fit S1), (st_fit T1). reflexivity.
  - rewrite (st_ecl S1), (st_ecl T1). reflexivity.
  - exists (fst (exec f (SRmtree TEMP))), b. split; auto. unfold shallot_load. cbn [string_v]. rewrite (perform_dummy E f Hdum). unfold load_into. rewrite La, Hll.
    assert (Y1 : fs_exists (fst (exec f (SRmtree TEMP))) (under d "y_value.npy") = false). { unfold fs_exists. rewrite temp_own; [|auto|left; cbn; tauto]. rewrite S by reflexivity. now rewrite Y. }
    rewrite Y1, Fb. reflexivity.
Qed.
Lemma load_needs (f f' : fs T) d ll og0 l0 s0 b : below TEMP d = false -> dummy E = (og0, (l0, Ok s0)) -> shallot_load E f (PStr d) ll = (f', Ok b) ->
  (forall n, In n required -> n <> "y_value.npy" -> readable f (under d n)) /\ (fs_get f (under d "y_value.npy") = None \/ readable f (under d "y_value.npy")).
Proof.
  intros Hb Hdum H. unfold shallot_load in H. cbn [string_v] in H. rewrite (perform_dummy E f Hdum) in H. unfold load_into in H.
  destruct (load_attributes E _ s0 d) as [s1|] eqn:La; [|discriminate].
  assert (Q : forall n, In n required -> own_name n).
  { intros n [<-|[<-|Hn]]; [left; cbn; tauto|left; cbn; tauto|]. apply in_app_or in Hn as [Hn|Hn]; [left; now apply param_in_fixed|]. apply in_map_iff in Hn as (w & <- & _). right. eauto. }
  split.
  - intros n Hn Hy. assert (X := load_readable _ _ _ La Hn Hy). unfold readable in *. rewrite temp_own in X; auto.
  - destruct (number ll _ _ _ _); [|discriminate]. assert (O : own_name "y_value.npy") by (left; cbn; tauto). destruct (fs_exists _ (under d "y_value.npy")) eqn:Ex.
    + right. destruct (np_load _ (under d "y_value.npy")) eqn:Ey; [|discriminate]. apply np_load_readable in Ey. unfold readable in *. rewrite temp_own in Ey; auto.
    + left. unfold fs_exists in Ex. rewrite temp_own in Ex; auto. destruct (fs_get f (under d "y_value.npy")); [discriminate|reflexivity].
Qed.
Lemma view_readable f d V n : seen f d V -> slashfree n = true -> readable f (under d n) -> exists a b c, V n = Some (CNpy a b c).
Proof. intros S Sn (a & b & c & H). rewrite (S n Sn) in H. destruct (V n) as [x|]; [|discriminate]. cbn in H. exists a, b, c. congruence. Qed.
Lemma resumed_grid : same_grid s (resumed nf s).
Proof.
  destruct (constructor_result E _ _ _ _ Hg Hnew) as (_ & C & _). unfold same_grid, resumed, alter. cbn [s_params s_nf s_diag s_radius s_shear s_dmap s_grads s_fit s_ecl s_vel s_limb]. rewrite (cn_nf C).
  repeat (split; [reflexivity|]). split; [intros []; apply same_refl|]. auto 10.
Qed.

(** C58 *)
Theorem resume_crash (f f1 f2 : fs T) d ll v og0 l0 s0 : d <> "" -> below TEMP d = false -> dummy E = (og0, (l0, Ok s0)) ->
  number ll true (PInt 10) (PInt 50) false = Ok v ->
  (forall p, below TEMP p = true -> fs_get f p = None) -> crash f l f1 -> (forall n, slashfree n = true -> fs_get f2 (under d n) = fs_get f1 (under TEMP n)) ->
  match snd (shallot_load E f2 (PStr d) ll) with Ok b => same_grid s b | Err _ => True end.
Proof.
  intros Hd Hb Hdum Hll N Hc Cp. destruct (shallot_load E f2 (PStr d) ll) as [f' [b|e]] eqn:Hl; [|exact I]. cbn [snd].
  destruct (uninterrupted E Hg _ _ Hnew) as (es & t1 & m0 & t2 & Hle & T1 & Ht2 & Hf & F & Hst & Kall & Kpre & _). rewrite Hle in Hc.
  assert (Hs : forall n, In n (names es) -> slashfree n = true). { intros n Hn. unfold names in Hn. apply in_map_iff in Hn as ([n' c] & <- & Hn). destruct (F _ _ Hn) as [u' Hu']. apply own_ok, (ok_own Hu'). }
  destruct (crash_view Hs N Hc) as (V & HV & Sv).
  assert (S : seen f2 d V) by (intros n Sn; rewrite Cp; auto).
  destruct (load_needs _ _ _ Hb Hdum Hl) as [R1 R2].
  assert (Q : forall n, In n required -> slashfree n = true).
  { intros n Hn. apply own_ok. destruct Hn as [<-|[<-|Hn]]; [left; cbn; tauto|left; cbn; tauto|]. apply in_app_or in Hn as [Hn|Hn]; [left; now apply param_in_fixed|]. apply in_map_iff in Hn as (w & <- & _). right. eauto. }
  assert (R : forall n, In n required -> n <> "y_value.npy" -> exists a b c, V n = Some (CNpy a b c)) by (intros n Hn Hy; apply (view_readable _ S (Q n Hn)), R1; auto).
  assert (R' : forall n, In n required -> n <> "y_value.npy" -> V n <> None) by (intros n Hn Hy; destruct (R n Hn Hy) as (? & ? & ? & ->); discriminate).
  assert (Hfy : In (dfile WFy) required) by (right; right; apply in_or_app; right; apply in_map, in_which).
  assert (Done : forall u, u <= ny -> sound_view E g nf u V -> V "y_value.npy" <> None -> same_grid s b).
  { intros u Hu K Y. destruct (resume_view Hg _ Hnew ll Hd Hb Hdum Hw Hll Hu S K) as (f3 & X & _).
    - intros n Hn. destruct (string_dec n "y_value.npy") as [->|Hx]; auto.
    - rewrite X in Hl. assert (b = resumed nf s) as -> by congruence. apply resumed_grid. }
  inversion HV as [j E1|j n0 c Hin E1|keep E1].
  - destruct (Kpre j) as (u & Hu & K). assert (Kv : sound_view E g nf u V) by (rewrite <- E1; exact K). apply (Done u Hu Kv).
    assert (Hj : In (dfile WFy) (names (firstn j es))).
    { assert (X := R' _ Hfy ltac:(discriminate)). rewrite <- E1 in X. destruct (in_dec string_dec (dfile WFy) (names (firstn j es))) as [I|I]; auto. apply found_none in I. contradiction. }
    destruct Hst as (y & s3 & rest & u3 & S3 & Hes). { unfold names in *. apply in_map_iff in Hj as (x & <- & Hj). apply in_map, (@files_firstn_incl T j), Hj. }
    rewrite Hes in Hj. assert (X := @required_there T NT E g nf u3 y s3 rest j S3 Hj _ (or_introl eq_refl)). rewrite <- E1, Hes. intros Y. apply found_none in Y. exact (Y X).
  - exfalso. destruct (F _ _ Hin) as [u0 Hok]. destruct (ok_own Hok) as [_ Hr]. destruct (string_dec n0 "y_value.npy") as [->|Hx].
    + destruct R2 as [R2|R2].
      * rewrite (S "y_value.npy" eq_refl), <- E1 in R2. cbn in R2. discriminate R2.
      * destruct (view_readable _ S (Q _ Hr) R2) as (? & ? & ? & X). rewrite <- E1 in X. cbn in X. discriminate X.
    + destruct (R n0 Hr Hx) as (? & ? & ? & X). rewrite <- E1, String.eqb_refl in X. discriminate X.
  - assert (Kv : sound_view E g nf ny V). { intros n c X. rewrite <- E1 in X. destruct (keep n); [apply Kall, X|discriminate X]. }
    destruct (V "y_value.npy") eqn:Ey; [apply (Done ny (le_n _) Kv); congruence|].
    destruct (finished_view ll Hd Hb Hdum Hll S Kv Ey R') as (f3 & b' & X & G). rewrite X in Hl. assert (b = b') as -> by congruence. exact G.
Qed.
Theorem resume_clean (f f1 f2 : fs T) k d ll v og0 l0 s0 : d <> "" -> below TEMP d = false -> dummy E = (og0, (l0, Ok s0)) ->
  number ll true (PInt 10) (PInt 50) false = Ok v ->
  1 <= k -> f1 = fst (run f (firstn k l)) -> fs_get f1 (under TEMP (dfile WFy)) <> None -> (forall n, slashfree n = true -> fs_get f2 (under d n) = fs_get f1 (under TEMP n)) ->
  exists f', shallot_load E f2 (PStr d) ll = (f', Ok (resumed nf s)) /\ forall p, fs_get f' p = if below TEMP p then None else fs_get f2 p.
Proof.
  intros Hd Hb Hdum Hll Hk -> Hfy Cp.
  destruct (uninterrupted E Hg _ _ Hnew) as (es & t1 & m0 & t2 & Hl & T1 & Ht2 & Hf & F & Hst & Kall & Kpre & _).
  assert (Hs : forall n, In n (names es) -> slashfree n = true). { intros n Hn. unfold names in Hn. apply in_map_iff in Hn as ([n' c] & <- & Hn). destruct (F _ _ Hn) as [u' Hu']. apply own_ok, (ok_own Hu'). }
  assert (J : exists j, forall n, fs_get (fst (run f (firstn k l))) (under TEMP n) = option_map (@NFile T) (found n (files (firstn j es)))).
  { rewrite Hl. destruct k as [|k]; [lia|]. set (f0 := fst (exec f (SRmtree TEMP))).
    assert (N : forall p, below TEMP p = true -> fs_get f0 p = None) by (intros p Hp; unfold f0; rewrite rmtree_get, Hp; reflexivity).
    destruct k as [|k].
    - exists 0. intros n. change (fst (run f (firstn 1 (whole es)))) with f0. rewrite N by apply below_under_self. reflexivity.
    - change (firstn (S (S k)) (whole es)) with ([SRmtree (T := T) TEMP; SMkdir TEMP] ++ firstn k (steps TEMP es ++ [SRmtree TEMP])).
      destruct (Nat.le_gt_cases k (List.length es)) as [Hj|Hj].
      + exists k. rewrite firstn_app. unfold steps at 2. rewrite map_length. replace (k - List.length es) with 0 by lia. cbn [firstn]. rewrite app_nil_r, steps_firstn.
        destruct (temp_run f (firstn k es)) as (f' & R & V & _).
        * intros n Hn. apply Hs. rewrite <- (firstn_skipn k es), names_app. apply in_or_app. auto.
        * intros n. rewrite R. apply V.
      + exists 0. rewrite firstn_all2 by (rewrite app_length; unfold steps; rewrite map_length; cbn; lia).
        destruct (whole_run f es Hs) as (f' & R & O). unfold whole in R. intros n. rewrite R. cbn [fst]. rewrite O, below_under_self. reflexivity. }
  destruct J as [j J]. destruct (Kpre j) as (u & Hu & K).
  assert (Hj : In (dfile WFy) (names (firstn j es))).
  { rewrite J in Hfy. destruct (in_dec string_dec (dfile WFy) (names (firstn j es))) as [I|I]; auto. apply found_none in I. rewrite I in Hfy. now destruct Hfy. }
  destruct Hst as (y & s3 & rest & u3 & S3 & Hes). { unfold names in *. apply in_map_iff in Hj as (x & <- & Hj). apply in_map, (@files_firstn_incl T j), Hj. }
  apply (@resume_view T NT LT E g Hg nf ll0 og l s Hnew f2 d (fun n => found n (files (firstn j es))) u ll v og0 l0 s0 Hd Hb Hdum Hw Hll Hu).
  - intros n Sn. rewrite Cp by auto. apply J.
  - exact K.
  - intros n Hn X. apply found_none in X. apply X. rewrite Hes in Hj |- *. exact (@required_there T NT E g nf u3 y s3 rest j S3 Hj _ Hn).
Qed.
End L.
End R.
