(** A saved grid: what is in the directory, and what load makes of it. *)
From Coq Require Import ZArith Lra Reals List Bool String Ascii Lia.
From Verif Require Import Num NumP Py SpecNum Validate ValidateP Ring RingP RingSystem FS FSP GridParams SpecGrid GridParamsP GridDiag Names GridProp SpecProp GridPropP GridGradP
  GridPropFSP Geometry Build SpecBuild BuildP BuildQP Shallot BuildGP BuildGridP BuildCP AddLaws ShallotOps SpecOps SpecSave OpsP OpsReadP SaveFsP SaveP LookP.
Import ListNotations.
Set Implicit Arguments.
Local Open Scope string_scope.
Local Open Scope list_scope.

Lemma under_both a b n m : slashfree n = true -> slashfree m = true -> under a n = under b m -> a = b /\ n = m.
Proof.
  intros Hn Hm H. assert (X := f_equal parent H). rewrite !parent_under in X by auto. injection X as ->. split; auto. now apply under_inj in H.
Qed.
Lemma below_deep d a n : below d (under (under d a) n) = true.
Proof.
  unfold below. apply orb_true_iff. right. unfold under. rewrite !append_assoc. cbn [append]. change (d ++ String "/" (a ++ String "/" n))%string with (d ++ "/" ++ (a ++ String "/" n))%string.
  rewrite <- append_assoc. apply prefix_app.
Qed.
Lemma app_has c a b : has_char c (a ++ b) = has_char c a || has_char c b.
Proof. induction a as [|x a IH]; cbn; auto. now rewrite IH, orb_assoc. Qed.
Lemma app_slashfree a b : slashfree (a ++ b) = slashfree a && slashfree b.
Proof. induction a as [|x a IH]; cbn; auto. now rewrite IH, andb_assoc. Qed.
Lemma own_not_gradient n x : own_name n -> n <> ("gradient_" ++ x)%string.
Proof.
  intros [H|(w & [-> | ->])].
  - cbn in H. repeat (destruct H as [<-|H]; [discriminate|]). destruct H.
  - destruct w; discriminate.
  - destruct w; discriminate.
Qed.
Lemma own_not_temp n : own_name n -> n <> ".temp_shallot".
Proof.
  intros [H|(w & [-> | ->])].
  - cbn in H. repeat (destruct H as [<-|H]; [discriminate|]). destruct H.
  - destruct w; discriminate.
  - destruct w; discriminate.
Qed.

Section S.
Context {T : Type} {NT : Num T} {LT : NumLaws T} {AL : AddLaws T} (E : env T).
Notation pyval := (pyval T).
Notation shallot := (shallot T).
Notation content := (content T).
Notation entry := (option (string * content)).
Notation gname := (gname E).
Notation printed := (printed E).
Notation pointed := (pointed E).
Notation on_disk := (on_disk E).

Lemma gname_ok g : printed g -> slashfree (gname g) = true.
Proof. intros A. unfold gname. rewrite app_slashfree, A. reflexivity. Qed.
Lemma gname_ext g : no_ext (gname g) = negb (pointed g).
Proof. reflexivity. Qed.

(** [d] holds the files of the grid, and nothing else but directories of its gradients *)
Record lodged (f : fs T) (d : string) (s : shallot) : Prop := {
  lo_dir : fs_get f d = Some NDir;
  lo_files : forall n c, grid_file s n c -> fs_get f (under d n) = Some (NFile c);
  lo_free : forall n, slashfree n = true -> fs_get f (under d n) <> None -> (exists c, grid_file s n c) \/ (exists g, In g (grads s) /\ n = gname g);
  lo_grad : forall g, In g (grads s) -> fs_get f (under d (gname g)) = None \/ fs_get f (under d (gname g)) = Some NDir;
  lo_sub : forall g n, In g (grads s) -> slashfree n = true -> fs_get f (under (under d (gname g)) n) <> Some NDir }.

Lemma unused_mkdir (f : fs T) d : unused f d -> forall p, exec f (if String.eqb p TEMP then SMkdirIf d else SMkdir d) = ((d, NDir) :: f, Ok tt).
Proof.
  intros (A & _ & B & C) p. assert (D := C d (below_self d)). destruct (String.eqb p TEMP); cbn [exec]; unfold fs_exists, fs_mkdir; try rewrite D;
    (destruct (String.eqb_spec d ""); [contradiction|]); unfold fs_exists; rewrite D, B; reflexivity.
Qed.

Lemma lodge (f : fs T) d (s : shallot) : unused f d -> named s -> Forall printed (grads s) ->
  exists f', run ((d, NDir) :: f) (steps d (save_entries s)) = (f', Ok tt) /\ lodged f' d s /\
    forall p, below d p = false -> fs_get f' p = fs_get f p.
Proof.
  intros (Hd & _ & Hp & Hn) N Hg. set (f0 := (d, NDir) :: f).
  assert (G0 : forall p, below d p = true -> p <> d -> fs_get f0 p = None).
  { intros p Hb Hpd. unfold f0. rewrite get_other by auto. now apply Hn. }
  assert (B0 : forall n, fs_get f0 (under d n) = None) by (intros n; apply G0; [apply below_under_self|apply under_neq]).
  assert (Hs : forall n, In n (names (save_entries s)) -> slashfree n = true /\ fs_get f0 (under d n) <> Some NDir).
  { intros n H. unfold names in H. apply in_map_iff in H as ([n' c] & <- & H). apply save_entries_in in H; auto. apply grid_file_own in H as (H & _). split; [now apply own_ok|]. cbn [fst]. rewrite B0. discriminate. }
  destruct (@steps_run T d (save_entries s) f0) as (f' & R & D & G & O); auto; [unfold f0; apply get_same|].
  assert (G' : forall n, match found n (files (save_entries s)) with Some c => grid_file s n c | None => True end).
  { intros n. destruct (found n _) as [c|] eqn:F; auto. now apply saved_found in F. }
  exists f'. split; auto. split.
  - constructor; auto.
    + intros n c H. rewrite G. apply saved_found in H; auto. now rewrite H.
    + intros n _ H. rewrite G in H. specialize (G' n). destruct (found n _) as [c|]; [left; eauto|]. rewrite B0 in H. now destruct H.
    + intros g Hgs. left. rewrite G. specialize (G' (gname g)). destruct (found _ _) as [c|]; [|apply B0]. apply grid_file_own in G' as (X & _). destruct (own_not_gradient X eq_refl).
    + intros g n Hgs Hsl. rewrite O.
      * rewrite G0; [discriminate|apply below_deep|].
        intros X. apply (f_equal String.length) in X. unfold under in X. rewrite !length_app in X. cbn in X. lia.
      * intros X. apply (f_equal String.length) in X. unfold under in X. rewrite !length_app in X. cbn in X. lia.
      * intros m Hm X. destruct (Hs m Hm) as [Sm _]. destruct (@under_both _ _ _ _ Hsl Sm X) as [Y _]. exact (@under_neq _ _ Y).
  - intros p Hb. rewrite O.
    + unfold f0. rewrite get_other; auto. intros ->. rewrite below_self in Hb. discriminate.
    + intros ->. rewrite below_self in Hb. discriminate.
    + intros n _ ->. rewrite below_under_self in Hb. discriminate.
Qed.

(** saving one gradient *)
Definition grad_entries (g : ggrad T) : list entry := prop_entries (gg_prop g) ++ map Some (grad_files g).
Lemma grad_save_steps (g : ggrad T) d : grad_save (e_fmt E) g d = SMkdirIf (under d (gname g)) :: steps (under d (gname g)) (grad_entries g) ++ steps d (params_entries (p_params (gg_prop g))).
Proof.
  rewrite grad_save_eq. change (gradient_dir (e_fmt E) g d) with (under d (gname g)). rewrite prop_steps, params_steps. cbn [app]. f_equal.
  unfold grad_entries. rewrite steps_app, <- app_assoc. f_equal. f_equal. unfold writes, steps. rewrite map_map. apply map_ext. intros []; reflexivity.
Qed.
Lemma grad_entries_own (g : ggrad T) n : In n (names (grad_entries g)) -> slashfree n = true.
Proof.
  unfold names, grad_entries. rewrite files_app, files_prop, files_map, !map_app, !in_app_iff. intros [[H|H]|H].
  - unfold gprop_files in H. destruct (p_mask (gg_prop g)); cbn in H; [destruct H as [<-|[<-|[]]]|destruct H as [<-|[]]]; apply file_slashfree.
  - rewrite params_files_names in H. apply own_ok. left. now apply param_in_fixed.
  - unfold grad_files in H. destruct (gg_meas g); cbn in H; [destruct H as [<-|[<-|[]]]|destruct H as [<-|[]]]; reflexivity.
Qed.
Lemma lodge_grad (f : fs T) d (s : shallot) g : d <> "" -> lodged f d s -> In g (grads s) -> Forall printed (grads s) -> p_params (gg_prop g) = s_params s ->
  exists f', run f (grad_save (e_fmt E) g d) = (f', Ok tt) /\ lodged f' d s /\
    fs_get f' (under d (gname g)) = Some NDir /\
    fs_get f' (under (under d (gname g)) "position.npy") = Some (NFile (np_array [Some (gg_pos g)])) /\
    (forall q n, q <> d -> q <> under d (gname g) -> slashfree n = true -> fs_get f' (under q n) = fs_get f (under q n)) /\
    (forall n, slashfree n = true -> n <> gname g -> fs_get f' (under d n) = fs_get f (under d n)) /\
    forall p, below d p = false -> fs_get f' p = fs_get f p.
Proof.
  intros Hd L Hg HD Hp. assert (Dg : printed g) by (rewrite Forall_forall in HD; auto). set (gd := under d (gname g)). assert (Sg := gname_ok Dg).
  assert (U : usable f gd). { destruct (lo_grad L g Hg) as [X|X]; [right|left; exact X]. split; [exact X|]. split; [apply under_nonempty|]. apply parent_ok_under; [exact Sg|apply L]. }
  destruct (mkdirif_usable U) as (f1 & X1 & D1 & O1).
  assert (Ngd : gd <> d) by apply under_neq.
  assert (Lgd : forall n, under gd n <> gd) by (intros n; apply under_neq).
  destruct (@steps_run T gd (grad_entries g) f1 D1) as (f2 & R2 & D2 & G2 & O2).
  { intros n Hn. assert (Sn := grad_entries_own Hn). split; auto. rewrite O1 by apply Lgd. apply (lo_sub L); auto. }
  assert (K : forall n m, slashfree n = true -> slashfree m = true -> under d n <> under gd m).
  { intros n m Hn Hm X. destruct (@under_both _ _ _ _ Hn Hm X) as [Y _]. symmetry in Y. contradiction. }
  assert (F2 : forall n, slashfree n = true -> n <> gname g -> fs_get f2 (under d n) = fs_get f (under d n)).
  { intros n Hn Hx. rewrite O2; [apply O1| |]. - intros X. apply under_inj in X. contradiction. - intros X. apply under_inj in X. contradiction.
    - intros m Hm. apply K; auto. eapply grad_entries_own; eauto. }
  assert (Fd : fs_get f2 d = Some NDir).
  { rewrite O2; [rewrite O1 by auto; apply L|auto|]. intros m Hm X. apply (f_equal String.length) in X. unfold gd, under in X. rewrite !length_app in X. cbn in X. lia. }
  destruct (@steps_run T d (params_entries (p_params (gg_prop g))) f2 Fd) as (f3 & R3 & D3 & G3 & O3).
  { intros n Hn. unfold names in Hn. rewrite files_params, params_files_names in Hn. assert (On : own_name n) by (left; now apply param_in_fixed). destruct (own_ok On) as [_ Sn]. split; auto.
    rewrite F2; auto; [|now apply own_not_gradient]. intros X. assert (Y : exists c, grid_file s n c).
    { rewrite <- (params_files_names (s_params s)) in Hn. apply in_map_iff in Hn as ([n' c] & <- & Hn). exists c. right. left. exact Hn. }
    destruct Y as [c Y]. rewrite (lo_files L Y) in X. discriminate. }
  assert (P3 : forall n, In n (names (params_entries (p_params (gg_prop g)))) -> own_name n).
  { intros n Hn. unfold names in Hn. rewrite files_params, params_files_names in Hn. left. now apply param_in_fixed. }
  assert (F3 : forall n, slashfree n = true -> n <> gname g -> fs_get f3 (under d n) = fs_get f (under d n)).
  { intros n Hn Hx. rewrite G3, F2 by auto. rewrite files_params. destruct (found n (params_files (p_params (gg_prop g)))) as [c|] eqn:F; auto.
    symmetry. apply (lo_files L). right. left. apply found_in in F. now rewrite <- Hp. }
  assert (Q3 : forall n, fs_get f3 (under d (gname g)) = Some NDir -> slashfree n = true -> fs_get f3 (under gd n) = fs_get f2 (under gd n)).
  { intros n _ Hn. apply O3. - intros X. apply (f_equal String.length) in X. unfold gd, under in X. rewrite !length_app in X. cbn in X. lia.
    - intros m Hm X. destruct (own_ok (P3 m Hm)) as [_ Sm]. symmetry in X. exact (K m n Sm Hn X). }
  assert (Dg3 : fs_get f3 gd = Some NDir).
  { rewrite O3; auto. intros m Hm X. apply under_inj in X. apply P3 in Hm. exact (own_not_gradient Hm (eq_sym X)). }
  assert (U3 : forall q n, q <> d -> q <> gd -> slashfree n = true -> fs_get f3 (under q n) = fs_get f (under q n)).
  { intros q n Hq1 Hq2 Hn. destruct (string_dec (under q n) d) as [X|X]; [rewrite X, D3; symmetry; apply L|].
    rewrite O3; auto; [|intros m Hm Y; destruct (own_ok (P3 m Hm)) as [_ Sm]; destruct (@under_both _ _ _ _ Hn Sm Y); contradiction].
    assert (X' : under q n <> gd) by (intros Y; destruct (@under_both _ _ _ _ Hn Sg Y); contradiction).
    rewrite O2; auto. intros m Hm Y. destruct (@under_both _ _ _ _ Hn (grad_entries_own Hm) Y). contradiction. }
  exists f3. split; [|split; [|split; [|split; [|split; [|split]]]]].
  - rewrite grad_save_steps. fold gd. cbn [run]. rewrite X1. rewrite (run_app _ _ _ R2). exact R3.
  - constructor; auto.
    + intros n c H. assert (On := proj1 (grid_file_own H)). rewrite F3; [apply (lo_files L H)|now apply own_ok|now apply own_not_gradient].
    + intros n Hn H. destruct (string_dec n (gname g)) as [->|Hx]; [right; eauto|]. rewrite F3 in H by auto. now apply (lo_free L).
    + intros g' Hg'. destruct (string_dec (gname g') (gname g)) as [->|Hx]; [right; exact Dg3|]. rewrite F3; auto; [apply (lo_grad L g' Hg')|]. rewrite Forall_forall in HD. apply gname_ok, HD, Hg'.
    + intros g' n Hg' Hn. destruct (string_dec (gname g') (gname g)) as [->|Hx].
      * fold gd. rewrite Q3, G2 by auto. destruct (found n _); [discriminate|]. rewrite O1 by apply Lgd. now apply (lo_sub L).
      * rewrite U3; auto; [now apply (lo_sub L)|intros X; exact (@under_neq _ _ X)|]. intros X. apply under_inj in X. contradiction.
  - exact Dg3.
  - rewrite Q3, G2 by auto. unfold grad_entries. rewrite files_app, files_map, found_app. unfold grad_files. destruct (gg_meas g); reflexivity.
  - exact U3.
  - exact F3.
  - intros p Hb. rewrite O3; [rewrite O2; [apply O1| |]| |].
    + intros ->. unfold gd in Hb. rewrite below_under_self in Hb. discriminate.
    + intros ->. unfold gd in Hb. rewrite below_under_self in Hb. discriminate.
    + intros m _ ->. revert Hb. unfold gd. rewrite below_deep. discriminate.
    + intros ->. rewrite below_self in Hb. discriminate.
    + intros m _ ->. rewrite below_under_self in Hb. discriminate.
Qed.

Lemma lodge_grads (s : shallot) d : d <> "" -> Forall printed (grads s) -> Forall (fun g => p_params (gg_prop g) = s_params s) (grads s) ->
  forall l f, incl l (grads s) -> lodged f d s ->
  exists f', run f (flat_map (fun g => grad_save (e_fmt E) g d) l) = (f', Ok tt) /\ lodged f' d s /\ on_disk f' d l /\
    (forall p, below d p = false -> fs_get f' p = fs_get f p) /\
    forall g, ~ In (gname g) (map gname l) -> In g (grads s) -> fs_get f' (under d (gname g)) = fs_get f (under d (gname g)) /\
      fs_get f' (under (under d (gname g)) "position.npy") = fs_get f (under (under d (gname g)) "position.npy").
Proof.
  intros Hd HD HP. induction l as [|g l IH]; intros f Hi L.
  - exists f. cbn. split; auto. split; auto. split; [intros [|? l1] ? ? H; discriminate|]. auto.
  - assert (Hg : In g (grads s)) by (apply Hi; now left).
    destruct (@lodge_grad f d s g Hd L Hg HD) as (f1 & R1 & L1 & A1 & B1 & C1 & N1 & O1); [rewrite Forall_forall in HP; auto|].
    destruct (IH f1) as (f2 & R2 & L2 & OD & O2 & K2); auto; [intros x Hx; apply Hi; now right|].
    exists f2. split; [cbn [flat_map]; rewrite (run_app _ _ _ R1); exact R2|]. split; auto. split; [|split].
    + intros [|g0 l1] g1 l2 Heq Hl.
      * injection Heq as <- <-. destruct (K2 g) as [K K']; auto; [|rewrite K, K'; auto]. intros X. apply in_map_iff in X as (g' & X & Hg'). exact (Hl g' Hg' X).
      * injection Heq as <- ->. now apply (OD l1 g1 l2).
    + intros p Hp. rewrite O2, O1; auto.
    + intros g1 Hn Hg1. cbn [map In] in Hn. apply Decidable.not_or in Hn as [Hn1 Hn2]. destruct (K2 g1 Hn2 Hg1) as [K K']. rewrite K, K'.
      assert (Sg : slashfree (gname g1) = true) by (rewrite Forall_forall in HD; apply gname_ok, HD, Hg1). split.
      * apply N1; auto.
      * apply C1; [intros X; exact (@under_neq _ _ X)|intros X; apply under_inj in X; congruence|reflexivity].
Qed.

(** *** loading it *)
Lemma file_masks (s : shallot) w c : grid_file s (mfile w) c -> p_mask (cube_of w s) <> None.
Proof.
  intros [[H _]|[H|(w' & [[H _]|(m & Hm & H & _)])]].
  - destruct w; discriminate.
  - apply params_own, param_in_fixed, mfile_fixed in H. destruct H.
  - symmetry in H. destruct (dfile_mfile _ _ H).
  - apply mfile_inj in H as ->. congruence.
Qed.
Lemma lodged_kept (f : fs T) d (s : shallot) : lodged f d s -> kept f d s /\ fs_get f (under d "y_value.npy") = None.
Proof.
  intros L. assert (X : forall n, slashfree n = true -> (forall c, ~ grid_file s n c) -> (forall x, n <> ("gradient_" ++ x)%string) -> fs_get f (under d n) = None).
  { intros n Hn H1 H2. destruct (fs_get f (under d n)) eqn:G; auto. exfalso. destruct (lo_free L n Hn) as [[c Hc]|(g & _ & ->)]; [congruence|exact (H1 c Hc)|exact (H2 _ eq_refl)]. }
  split; [|apply X; [reflexivity| |discriminate]; intros c Hc; apply grid_file_own in Hc; tauto]. constructor.
  - apply L.
  - intros w Hw. apply X; [apply own_ok; right; eauto|intros c Hc; exact (file_masks _ Hc Hw)|]. intros x. apply own_not_gradient. right; eauto.
  - apply X; [reflexivity| |discriminate]. intros c Hc. apply grid_file_own in Hc. tauto.
Qed.
Lemma lodged_extended (f : fs T) d (s : shallot) : lodged f d s -> Forall (fun g => pointed g = true) (grads s) -> extended f d.
Proof.
  intros L HD n Hn H. destruct (lo_free L n Hn H) as [[c Hc]|(g & Hg & ->)]; [apply own_ok, (grid_file_own Hc)|]. rewrite Forall_forall in HD. rewrite gname_ext, (HD g Hg). reflexivity.
Qed.
(** removing the temporary directory does not matter *)
Lemma temp_other (f : fs T) d n : below TEMP d = false -> slashfree n = true -> n <> ".temp_shallot" -> fs_get (fst (exec f (SRmtree TEMP))) (under d n) = fs_get f (under d n).
Proof.
  intros Hb Sn Hn. rewrite rmtree_get. destruct (below TEMP (under d n)) eqn:B; auto. exfalso. destruct (@below_under _ _ _ Sn B) as [Y|Y]; [|congruence].
  change TEMP with (under "." ".temp_shallot") in Y. destruct (@under_both d "." n ".temp_shallot" Sn eq_refl Y) as [_ Z]. exact (Hn Z).
Qed.
Lemma temp_own (f : fs T) d n : below TEMP d = false -> own_name n -> fs_get (fst (exec f (SRmtree TEMP))) (under d n) = fs_get f (under d n).
Proof. intros Hb Hn. apply temp_other; auto; [now apply own_ok|now apply own_not_temp]. Qed.
Lemma kept_temp (f : fs T) d (s : shallot) : below TEMP d = false -> kept f d s -> kept (fst (exec f (SRmtree TEMP))) d s.
Proof.
  intros Hb K. constructor.
  - intros n c H. rewrite temp_own; [apply (k_files K H)|auto|apply (grid_file_own H)].
  - intros w Hw. rewrite temp_own; [apply (k_masks K w Hw)|auto|right; eauto].
  - rewrite temp_own; [apply (k_dict K)|auto|left; cbn; tauto].
Qed.
Lemma extended_temp (f : fs T) d : extended f d -> extended (fst (exec f (SRmtree TEMP))) d.
Proof. intros K n Hn H. apply (K n Hn). intros Y. apply H. rewrite rmtree_get, Y. destruct (below TEMP (under d n)); reflexivity. Qed.

Lemma default_same (p : gprop T) : same_cube p (fst (set_contrast_default p)).
Proof. rewrite contrast_default. cbn. repeat split. Qed.

(** what load makes of a directory that holds a finished grid *)
Theorem load_finished (f : fs T) d ll v (s : shallot) og l s0 :
  sinv s -> named s -> int_like (s_nf s) -> g_ext (s_params s) = false ->
  s_radius s = radius_of_params E (s_params s) -> s_shear s = shear_of_params (s_params s) ->
  number ll true (PInt 10) (PInt 50) false = Ok v -> dummy E = (og, (l, Ok s0)) ->
  d <> "" -> below TEMP d = false -> kept f d s -> extended f d -> fs_get f (under d "y_value.npy") = None ->
  exists m s', shallot_load E f (PStr d) ll = (fst (exec f (SRmtree TEMP)), Ok s') /\
    s_params s' = s_params s /\ s_nf s' = reread_nf (s_nf s) /\ s_diag s' = None /\
    s_radius s' = s_radius s /\ s_shear s' = s_shear s /\
    (forall w, same_cube (the_cube w s) (the_cube w s') /\ looks (the_cube w s') "viridis") /\
    diagnose (s_params s) (s_dr s) = Ok m /\ s_dmap s' = Some m /\
    s_grads s' = None /\ s_fit s' = None /\ s_ecl s' = None /\ s_vel s' = None /\ s_limb s' = None.
Proof.
  intros Hs N Hnf Hx Hrad Hsh Hll Hdum Hd Hb K Kx Hy. set (f1 := fst (exec f (SRmtree TEMP))). destruct (dummy_ok E Hdum) as (_ & D1 & D2 & D3 & D4 & D5 & D6).
  assert (K1 := kept_temp Hb K). fold f1 in K1.
  assert (La : load_attributes E f1 s0 d = Ok (restored E s s0)).
  { rewrite (@load_kept T NT LT E f1 d s s0 K1 N); auto; [|apply Hs|intros w; apply (i_cubes Hs w)]. assert (Z := proj2 (extended_list _ _) (extended_temp Kx)). fold f1 in Z. now rewrite Z. }
  assert (Y1 : fs_exists f1 (under d "y_value.npy") = false) by (unfold fs_exists, f1; rewrite rmtree_get, Hy; destruct (below TEMP (under d "y_value.npy")); reflexivity).
  assert (Dg : exists m, diagnose (s_params s) (s_dr s) = Ok m).
  { destruct (i_cons Hs) as [Hc Hr Ha]. destruct (cube_shape (i_cubes Hs WRadius)) as [C1 C2]. cbn [the_cube] in *. assert (H3 := consistent_shape3 Hc).
    destruct (@diagnose_ok T NT LT (s_params s) (s_dr s) (List.length (g_dy (s_params s))) (List.length (g_dx (s_params s))) (List.length (g_rfa (s_params s)))) as (m & Hm & _); try congruence; [lia|eauto]. }
  destruct Dg as [m Dg]. exists m.
  assert (Dg' : diagnose (s_params s) (s_dr (restored E s s0)) = Ok m).
  { rewrite <- Dg. destruct (default_same (s_dr s)) as (_ & _ & _ & S4 & S5 & _). unfold diagnose, diagnostic_values. cbn [restored s_dr cube_of]. rewrite S4, S5. reflexivity. }
  exists (with_dmap (restored E s s0) (Some m)). split.
  - unfold shallot_load. cbn [string_v]. rewrite (perform_dummy E f Hdum). fold f1. unfold load_into. rewrite La, Hll, Y1.
    unfold finish_shallot, extend_shallot. change (s_params (restored E s s0)) with (s_params s). rewrite (extend_refused _ Hx). unfold diagnose_shallot.
    change (s_params (restored E s s0)) with (s_params s). rewrite Dg'. reflexivity.
  - cbn [with_dmap s_params s_nf s_diag s_radius s_shear s_dmap s_grads s_fit s_ecl s_vel s_limb restored]. do 5 (split; [auto; fail|]). split; [intros w; split; destruct w; first [apply default_same|apply look_default]|]. auto 12.
Qed.

(** *** save and load *)
Lemma save_run (f : fs T) d (s : shallot) : unused f d -> named s -> Forall printed (grads s) -> Forall (fun g => p_params (gg_prop g) = s_params s) (grads s) ->
  exists f1, run f (shallot_save E s (PStr d) None) = (f1, match s_diag s with None => Ok tt | Some _ => Err TypeError end) /\ lodged f1 d s /\ on_disk f1 d (grads s) /\
    forall p, below d p = false -> fs_get f1 p = fs_get f p.
Proof.
  intros U N HD HP. destruct (lodge U N HD) as (f1 & R1 & L1 & O1). assert (Hd := proj1 U).
  destruct (@lodge_grads s d Hd HD HP (grads s) f1) as (f2 & R2 & L2 & OD & O2 & _); auto; [apply incl_refl|].
  exists f2. split; [|split; auto; split; auto; intros p Hp; rewrite O2, O1; auto].
  unfold shallot_save. cbn [string_v]. rewrite save_files_steps. cbn [run]. rewrite (unused_mkdir U d). rewrite (run_app _ _ _ R1).
  assert (G : grads_steps E s d = flat_map (fun g => grad_save (e_fmt E) g d) (grads s)) by (unfold grads_steps, grads; destruct (s_grads s); reflexivity).
  rewrite G, (run_app _ _ _ R2). unfold diag_steps. destruct (s_diag s); reflexivity.
Qed.
Lemma grads_params (s : shallot) : sinv s -> Forall (fun g => p_params (gg_prop g) = s_params s) (grads s).
Proof. intros H. unfold grads. destruct (s_grads s) as [gs|] eqn:Eg; [|constructor]. eapply Forall_impl; [|exact (i_grads H Eg)]. intros g [_ X]. exact X. Qed.

(** C55, C56 *)
Theorem save_load (f : fs T) d ll v (s : shallot) og l s0 :
  sreach E s -> s_diag s = None -> Forall printed (grads s) -> Forall (fun g => pointed g = true) (grads s) ->
  number ll true (PInt 10) (PInt 50) false = Ok v -> dummy E = (og, (l, Ok s0)) ->
  unused f d -> below TEMP d = false ->
  exists f1 f2 m s', run f (shallot_save E s (PStr d) None) = (f1, Ok tt) /\ shallot_load E f1 (PStr d) ll = (f2, Ok s') /\
    s_params s' = s_params s /\ s_nf s' = reread_nf (s_nf s) /\ s_diag s' = None /\
    s_radius s' = s_radius s /\ s_shear s' = s_shear s /\
    (forall w, same_cube (the_cube w s) (the_cube w s') /\ looks (the_cube w s') "viridis") /\
    diagnose (s_params s) (s_dr s) = Ok m /\ s_dmap s' = Some m /\
    s_grads s' = None /\ s_fit s' = None /\ s_ecl s' = None /\ s_vel s' = None /\ s_limb s' = None /\
    on_disk f1 d (grads s).
Proof.
  intros Hr Hdg HD HP Hll Hdum U Hb. destruct (reached_more Hr) as (Hs & Hx & N & Hnf & _ & Hrad & Hsh).
  destruct (save_run U N HD (grads_params Hs)) as (f1 & R1 & L1 & OD & _). rewrite Hdg in R1. destruct (lodged_kept L1) as [K Y].
  destruct (load_finished ll Hs N Hnf Hx Hrad Hsh Hll Hdum (proj1 U) Hb K (lodged_extended L1 HP) Y) as (m & s' & A). exists f1, (fst (exec f1 (SRmtree TEMP))), m, s'. split; auto. tauto.
Qed.
(** a position without a decimal point *)
Theorem save_unpointed (f : fs T) d ll (s : shallot) og l s0 :
  sreach E s -> s_diag s = None -> Forall printed (grads s) -> Exists (fun g => pointed g = false) (grads s) ->
  dummy E = (og, (l, Ok s0)) -> unused f d -> below TEMP d = false ->
  exists f1 f2, run f (shallot_save E s (PStr d) None) = (f1, Ok tt) /\ shallot_load E f1 (PStr d) ll = (f2, Err AttributeError).
Proof.
  intros Hr Hdg HD HP Hdum U Hb. destruct (reached_more Hr) as (Hs & Hx & N & Hnf & _ & Hrad & Hsh).
  destruct (save_run U N HD (grads_params Hs)) as (f1 & R1 & L1 & OD & _). rewrite Hdg in R1. destruct (lodged_kept L1) as [K _].
  exists f1, (fst (exec f1 (SRmtree TEMP))). split; auto. unfold shallot_load. cbn [string_v]. rewrite (perform_dummy E f1 Hdum). set (f2 := fst (exec f1 (SRmtree TEMP))). unfold load_into.
  rewrite (@load_kept T NT LT E f2 d s s0 (kept_temp Hb K) N); auto; [|apply Hs|intros w; apply (i_cubes Hs w)|apply U].
  assert (Y : existsb no_ext (listdir f2 d) = true); [|now rewrite Y]. apply Exists_exists in HP as (g & Hg & Hp).
  assert (Y : exists l1 g' l2, grads s = l1 ++ g' :: l2 /\ gname g' = gname g /\ forall x, In x l2 -> gname x <> gname g').
  { clear -Hg. induction (grads s) as [|a r IH]; [destruct Hg|]. destruct (in_dec string_dec (gname g) (map gname r)) as [I|I].
    - apply in_map_iff in I as (g1 & E1 & I). assert (X : exists l1 g' l2, r = l1 ++ g' :: l2 /\ gname g' = gname g /\ forall x, In x l2 -> gname x <> gname g').
      { clear IH Hg. revert g1 E1 I. induction r as [|b r IH]; intros g1 E1 I; [destruct I|]. destruct (in_dec string_dec (gname g) (map gname r)) as [J|J].
        - apply in_map_iff in J as (g2 & E2 & J). destruct (IH g2 E2 J) as (l1 & g' & l2 & -> & A & B). exists (b :: l1), g', l2. auto.
        - destruct I as [->|I]; [|destruct J; rewrite <- E1; now apply in_map]. exists [], g1, r. split; auto. split; auto. intros x Hx Y. apply J. rewrite <- E1, <- Y. now apply in_map. }
      destruct X as (l1 & g' & l2 & -> & A & B). exists (a :: l1), g', l2. auto.
    - destruct Hg as [->|Hg]; [|destruct I; now apply in_map]. exists [], g, r. split; auto. split; auto. intros x Hx Y. apply I. rewrite <- Y. now apply in_map. }
  destruct Y as (l1 & g' & l2 & Eg & En & Hl). destruct (OD l1 g' l2 Eg Hl) as [Od _].
  assert (Sg : slashfree (gname g) = true) by (rewrite Forall_forall in HD; apply gname_ok, HD, Hg).
  apply existsb_exists. exists (gname g). split; [|now rewrite gname_ext, Hp]. apply listdir_in. split; auto.
  unfold f2. rewrite temp_other; auto; [|discriminate]. rewrite <- En, Od. discriminate.
Qed.

(** C56: of the gradients whose directories have the same name, the last one's is left *)
Theorem save_gradients (f f1 : fs T) d (s : shallot) l1 g l2 : sreach E s -> s_diag s = None -> Forall printed (grads s) -> unused f d ->
  run f (shallot_save E s (PStr d) None) = (f1, Ok tt) -> grads s = l1 ++ g :: l2 -> (forall g', In g' l2 -> gname g' <> gname g) ->
  fs_get f1 (under (under d (gname g)) "position.npy") = Some (NFile (np_array [Some (gg_pos g)])).
Proof.
  intros Hr Hdg HD U R Hg Hl. destruct (reached_more Hr) as (Hs & Hx & N & Hnf & _ & Hrad & Hsh).
  destruct (save_run U N HD (grads_params Hs)) as (f1' & R1 & L1 & OD & _). rewrite R in R1. injection R1 as <- _. exact (proj2 (OD l1 g l2 Hg Hl)).
Qed.

(** C56: a loaded grid has no gradients, whatever the directory holds *)
Lemma point_grads y (s s' : shallot) x : build_point E y s x = Ok s' -> s_grads s' = s_grads s.
Proof.
  unfold build_point. destruct (n_isnan _); [intros H; injection H as <-; reflexivity|].
  destruct (grid_point E _ _ _ _ _) as [c|]; [|discriminate]. cbn [bind].
  destruct (put_column (s_dr s) _ _ _); [|discriminate]. cbn [bind]. destruct (put_column (s_inc s) _ _ _); [|discriminate]. cbn [bind].
  destruct (put_column (s_tilt s) _ _ _); [|discriminate]. cbn [bind]. destruct (put_column (s_fx s) _ _ _); [|discriminate]. cbn [bind].
  destruct (put_column (s_fy s) _ _ _); [|discriminate]. cbn [bind with_cubes s_diag].
  destruct (s_diag s); [|intros H; injection H as <-; reflexivity]. destruct (save_diagnostic _ _ _ _ _) as [d' []]; [|discriminate]. intros H; injection H as <-; reflexivity.
Qed.
Lemma fold_grads y l : forall s s', fold_res (build_point E y) l s = Ok s' -> s_grads s' = s_grads s.
Proof.
  induction l as [|x l IH]; intros s s'; cbn [fold_res]; [intros H; injection H as <-; reflexivity|].
  destruct (build_point E y s x) as [s1|] eqn:H1; [|discriminate]. cbn [bind]. intros H. rewrite (IH _ _ H). exact (point_grads _ _ _ H1).
Qed.
Lemma rows_grads b ys : forall s s', snd (build_rows E b ys s) = Ok s' -> s_grads s' = s_grads s.
Proof.
  induction ys as [|y ys IH]; intros s s'; cbn [build_rows snd]; [intros H; injection H as <-; reflexivity|].
  destruct (build_row E s y) as [s1|] eqn:H1; [|discriminate]. specialize (IH s1). destruct (build_rows E b ys s1) as [l r]. cbn [snd] in *. intros ->.
  rewrite (IH _ eq_refl). exact (fold_grads _ _ _ H1).
Qed.
Lemma grid_no_grads b v l (s s' : shallot) : build_grid E s b v = (l, Ok s') -> s_grads s = None -> s_grads s' = None.
Proof.
  unfold build_grid. destruct (number v _ _ _ _) as [v'|]; [|discriminate].
  assert (X : forall s1, (if Z.eqb (int_of v') 0 then init_props s else Ok s) = Ok s1 -> s_grads s1 = s_grads s).
  { intros s1. destruct (Z.eqb _ _); [|congruence]. rewrite init_ok. intros H. injection H as <-. reflexivity. }
  destruct (if Z.eqb (int_of v') 0 then init_props s else Ok s) as [s1|]; [|discriminate]. specialize (X s1 eq_refl).
  match goal with |- context [build_rows E b ?ys s1] => assert (Y := rows_grads b ys s1); destruct (build_rows E b ys s1) as [l1 [s2|]]; [|discriminate] end.
  specialize (Y s2 eq_refl). destruct (set_contrasts s2) as [s3|] eqn:Es; [|discriminate]. intros H N. injection H as _ <-. rewrite X in Y. rewrite N in Y. revert Es. unfold set_contrasts. rewrite Y.
  destruct (contrast (s_dr s2) _); [|discriminate]. destruct (contrast (s_inc s2) _); [|discriminate]. destruct (contrast (s_tilt s2) _); [|discriminate].
  destruct (contrast (s_fx s2) _); [|discriminate]. destruct (contrast (s_fy s2) _); [|discriminate]. cbn [bind]. destruct (opt_res contrast_plain (s_dmap s2)); [|discriminate]. cbn [bind opt_res].
  intros H. injection H as <-. reflexivity.
Qed.
Lemma finish_grads (s s' : shallot) : snd (finish_shallot E s) = Ok s' -> s_grads s' = s_grads s.
Proof.
  unfold finish_shallot. assert (X : forall g s1, extend_shallot E s = (g, Ok s1) -> s_grads s1 = s_grads s).
  { intros g s1. unfold extend_shallot. destruct (extend_grid (s_params s)) as [g1 [|e]].
    - destruct (fill_quadrants g1 (s_dr s) _); [|discriminate]. destruct (fill_quadrants g1 (s_inc s) _); [|discriminate]. destruct (fill_quadrants g1 (s_tilt s) _); [|discriminate].
      destruct (fill_quadrants g1 (s_fx s) _); [|discriminate]. destruct (fill_quadrants g1 (s_fy s) _); [|discriminate]. cbn [bind]. intros H. injection H as _ <-. reflexivity.
    - destruct e; try discriminate. intros H. injection H as _ <-. reflexivity. }
  destruct (extend_shallot E s) as [g [s1|]]; [|discriminate]. specialize (X g s1 eq_refl). cbn [snd]. unfold diagnose_shallot. destruct (diagnose _ _); [|discriminate]. cbn [bind]. intros H. injection H as <-. exact X.
Qed.
Theorem load_no_gradients (f f' : fs T) d ll (s : shallot) : shallot_load E f d ll = (f', Ok s) -> s_grads s = None.
Proof.
  unfold shallot_load. destruct (string_v d) as [dir|]; [|discriminate]. destruct (perform f (snd (dummy E))) as [f1 [s0|]]; [|discriminate]. unfold load_into.
  assert (X : forall s1, load_attributes E f1 s0 dir = Ok s1 -> s_grads s1 = None).
  { intros s1. unfold load_attributes. destruct (np_load _ _) as [x|]; [|discriminate]. cbn [bind]. destruct (match snd x with n :: _ => Ok (np_item n) | [] => Err IndexError end); [|discriminate]. cbn [bind].
    destruct (params_load f1 dir); [|discriminate]. cbn [bind]. do 5 (destruct (gprop_load f1 _ _ _); [|discriminate]; cbn [bind]).
    destruct (String.eqb dir ""); [discriminate|]. destruct (existsb _ _); [discriminate|]. intros H. injection H as <-. reflexivity. }
  destruct (load_attributes E f1 s0 dir) as [s1|]; [|discriminate]. specialize (X s1 eq_refl). destruct (number ll _ _ _ _); [|discriminate].
  destruct (fs_exists f1 _); [|intros H; injection H as _ H; rewrite (finish_grads _ H); exact X].
  destruct (let* x := np_load f1 (under dir "y_value.npy") in _) as [v|]; [|discriminate].
  unfold perform. destruct (build_grid E s1 true v) as [l2 r2] eqn:B. cbn [fst snd]. destruct (run f1 l2) as [f2 [[]|]]; [|discriminate]. destruct r2 as [s2|]; [|discriminate].
  intros H; injection H as _ H. rewrite (finish_grads _ H). exact (grid_no_grads _ _ _ B X).
Qed.

(** C57 *)
Theorem save_diagnostics (f : fs T) d (s : shallot) dg : sreach E s -> s_diag s = Some dg -> Forall printed (grads s) -> unused f d ->
  exists f1, run f (shallot_save E s (PStr d) None) = (f1, Err TypeError) /\ fs_get f1 d = Some NDir /\ forall n c, grid_file s n c -> fs_get f1 (under d n) = Some (NFile c).
Proof.
  intros Hr Hdg HD U. destruct (reached_more Hr) as (Hs & Hx & N & _). destruct (save_run U N HD (grads_params Hs)) as (f1 & R1 & L1 & _). rewrite Hdg in R1. exists f1. split; auto. split; apply L1.
Qed.
Theorem save_diagnostics_fails (f : fs T) v y (s : shallot) dg : s_diag s = Some dg -> snd (run f (shallot_save E s v y)) <> Ok tt.
Proof.
  intros Hdg. assert (X : forall l, forall f : fs T, snd (run f (l ++ [SRaise TypeError])) <> Ok tt).
  { induction l as [|a l IH]; intros g; cbn [run app exec snd]; [discriminate|]. destruct (exec g a) as [g' [[]|e]]; [apply IH|discriminate]. }
  assert (Y : forall d, save_files E s d = (steps d (save_entries s) ++ grads_steps E s d) ++ [SRaise TypeError]).
  { intros d. rewrite save_files_steps. unfold diag_steps. rewrite Hdg, app_assoc. reflexivity. }
  unfold shallot_save. destruct (string_v v) as [d|e]; [|cbn; discriminate]. destruct y as [y|].
  - destruct (number y _ _ _ _); [|cbn [run]; destruct (exec f _) as [f' [[]|]]; cbn; discriminate]. rewrite Y. apply (X (_ :: _ :: _)).
  - rewrite Y. apply (X (_ :: _)).
Qed.
End S.
