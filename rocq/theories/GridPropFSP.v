(** Proofs about saving and loading of properties and gradients. *)
From Coq Require Import ZArith Reals List Bool String Lra Lia.
From Verif Require Import Num NumP Py Validate SpecNum ValidateP Ring RingP RingMoreP FS FSP GridParams GridDiag SpecGrid GridParamsP Names GridProp SpecProp GridPropP GridGradP.
Import ListNotations.
Set Implicit Arguments.
Local Open Scope string_scope.
Local Open Scope list_scope.

(** *** file names *)
Definition all_names := [DISK_RADIUS; INCLINATION; TILT; FX_MAP; FY_MAP; DIAGNOSTIC_MAP; GRADIENT; GRADIENT_FIT].
Definition all_units := [ECLIPSE_DURATION; DEGREE; NONE].
(** every file name the program uses besides the properties' *)
Definition fixed_files : list string :=
  ["dx.npy"; "dy.npy"; "rf.npy"; "rf_array.npy"; "fy_dict.npy"; "disk_radius_dict.npy"; "max_yx.npy";
   "num_fxfy.npy"; "y_value.npy"; "position.npy"; "mask_values.npy"].

Lemma data_file_inj n u n' u' : data_file n u = data_file n' u' -> n = n' /\ u = u'.
Proof. destruct n, u, n', u'; intros H; try discriminate H; auto. Qed.
Lemma mask_file_inj n u n' u' : mask_file n u = mask_file n' u' -> n = n' /\ u = u'.
Proof. destruct n, u, n', u'; intros H; try discriminate H; auto. Qed.
Lemma data_mask_neq n u n' u' : data_file n u <> mask_file n' u'.
Proof. destruct n, u, n', u'; discriminate. Qed.
Lemma data_fixed n u : ~ In (data_file n u) fixed_files.
Proof. destruct n, u; cbn; intuition discriminate. Qed.
Lemma mask_fixed n u : ~ In (mask_file n u) fixed_files.
Proof. destruct n, u; cbn; intuition discriminate. Qed.
Lemma fixed_nodup : NoDup fixed_files.
Proof. unfold fixed_files. repeat (constructor; [cbn; intuition discriminate|]). constructor. Qed.
Lemma file_slashfree n u : slashfree (data_file n u) = true /\ slashfree (mask_file n u) = true.
Proof. destruct n, u; split; reflexivity. Qed.

(** all names at once; [k] selects the data or the mask file *)
Definition prop_file (k : bool) (n : pname) (u : punit) : string := if k then mask_file n u else data_file n u.
Theorem names_distinct (k k' : bool) n u n' u' :
  (prop_file k n u = prop_file k' n' u' -> k = k' /\ n = n' /\ u = u') /\
  ~ In (prop_file k n u) fixed_files.
Proof.
  split.
  - intros H. destruct k, k'; cbn [prop_file] in H.
    + apply mask_file_inj in H. tauto.
    + symmetry in H. apply data_mask_neq in H. tauto.
    + apply data_mask_neq in H. tauto.
    + apply data_file_inj in H. tauto.
  - destruct k; [apply mask_fixed|apply data_fixed].
Qed.
(** also on file systems that ignore case *)
Lemma lower_fixed : forallb (fun n => forallb (fun u => forallb (fun k => forallb (fun s => negb (String.eqb (lower_str (prop_file k n u)) (lower_str s))) fixed_files) [true; false]) all_units) all_names = true.
Proof. vm_compute. reflexivity. Qed.
Theorem names_distinct_caseless (k k' : bool) n u n' u' :
  (lower_str (prop_file k n u) = lower_str (prop_file k' n' u') -> k = k' /\ n = n' /\ u = u') /\
  (forall s, In s fixed_files -> lower_str (prop_file k n u) <> lower_str s).
Proof.
  split.
  - destruct k, k', n, u, n', u'; intros H; try discriminate H; auto.
  - intros s Hs. assert (L := lower_fixed). rewrite forallb_forall in L. assert (In n all_names) by (destruct n; cbn; tauto).
    specialize (L n H). rewrite forallb_forall in L. assert (Hu : In u all_units) by (destruct u; cbn; tauto).
    specialize (L u Hu). rewrite forallb_forall in L. assert (Hk : In k [true; false]) by (destruct k; cbn; tauto). specialize (L k Hk).
    rewrite forallb_forall in L. specialize (L s Hs). destruct (String.eqb_spec (lower_str (prop_file k n u)) (lower_str s)); [discriminate|auto].
Qed.
Theorem display_names_distinct n n' : get_name n = get_name n' -> n = n'.
Proof. destruct n, n'; intros H; try discriminate H; auto. Qed.
Theorem display_units_distinct u u' : unit_display u = unit_display u' \/ get_unit u = get_unit u' -> u = u'.
Proof. destruct u, u'; intros [H|H]; try discriminate H; auto. Qed.

Section F.
Context {T : Type} {NT : Num T} {LT : NumLaws T}.
Notation pyval := (pyval T).

Definition params_files (g : gparams T) : list (string * content T) :=
  [("dx.npy", float_arr [1; List.length (g_dx g); 1] (g_dx g)); ("dy.npy", float_arr [List.length (g_dy g); 1; 1] (g_dy g));
   ("rf.npy", float_arr [List.length (g_rf g)] (g_rf g)); ("rf_array.npy", float_arr [List.length (g_rfa g)] (g_rfa g))].
Lemma params_save_eq (g : gparams T) d : params_save g d = SMkdirIf d :: writes d (params_files g).
Proof. reflexivity. Qed.

Lemma nodup_app A (a b : list A) : NoDup (a ++ b) -> NoDup a /\ NoDup b /\ forall x, In x a -> ~ In x b.
Proof.
  induction a as [|x a IH]; cbn; intros H; [repeat split; auto; constructor|]. inversion H; subst. destruct (IH H3) as (X & Y & Z).
  rewrite in_app_iff in H2. repeat split; auto.
  - constructor; tauto.
  - intros y [<-|Hy]; [tauto|auto].
Qed.

(** two batches of files written into one directory *)
Lemma two_batches (f f' : fs T) d l1 l2 : NoDup (map fst (l1 ++ l2)) ->
  run f (SMkdirIf d :: writes d l1 ++ SMkdirIf d :: writes d l2) = (f', Ok tt) ->
  (forall n c, In (n, c) (l1 ++ l2) -> fs_get f' (under d n) = Some (NFile c)) /\
  (forall p, p <> d -> (forall n, In n (map fst (l1 ++ l2)) -> p <> under d n) -> fs_get f' p = fs_get f p).
Proof.
  intros Hn H. change (SMkdirIf d :: writes d l1 ++ SMkdirIf d :: writes d l2) with ([SMkdirIf d] ++ (writes d l1 ++ SMkdirIf d :: writes d l2)) in H.
  apply run_app_ok in H. destruct H as (f1 & H1 & H). apply run_app_ok in H. destruct H as (f2 & H2 & H).
  change (SMkdirIf d :: writes d l2) with ([SMkdirIf d] ++ writes d l2) in H. apply run_app_ok in H. destruct H as (f3 & H3 & H4).
  rewrite map_app in Hn. destruct (nodup_app _ _ Hn) as (N1 & N2 & N12).
  destruct (writes_get d l1 f1 N1 H2) as [A1 B1]. destruct (writes_get d l2 f3 N2 H4) as [A2 B2].
  assert (O1 : forall p, p <> d -> fs_get f1 p = fs_get f p).
  { intros p Hp. replace f1 with (fst (run f [SMkdirIf d])) by now rewrite H1. apply run_other. intros s [<-|[]]. exact Hp. }
  assert (O3 : forall p, p <> d -> fs_get f3 p = fs_get f2 p).
  { intros p Hp. replace f3 with (fst (run f2 [SMkdirIf d])) by now rewrite H3. apply run_other. intros s [<-|[]]. exact Hp. }
  split.
  - intros n c Hi. apply in_app_or in Hi. destruct Hi as [Hi|Hi]; [|apply A2; auto]. rewrite B2.
    + rewrite O3 by apply under_neq. apply A1; auto.
    + intros m Hm E. apply under_inj in E. subst m. assert (Hnl : In n (map fst l1)) by (change n with (fst (n, c)); apply in_map; auto).
      exact (N12 _ Hnl Hm).
  - intros p Hp Hq. rewrite map_app in Hq. rewrite B2, O3, B1, O1; auto; intros n Hi; apply Hq; apply in_or_app; auto.
Qed.

Lemma gprop_save_eq (p : gprop T) d : gprop_save p d = SMkdirIf d :: writes d (gprop_files p) ++ SMkdirIf d :: writes d (params_files (p_params p)).
Proof. reflexivity. Qed.
Lemma param_in_fixed n : In n param_files -> In n fixed_files.
Proof. cbn. tauto. Qed.
Lemma params_files_names (g : gparams T) : map fst (params_files g) = param_files.
Proof. reflexivity. Qed.
Lemma files_nodup (p : gprop T) : NoDup (map fst (gprop_files p ++ params_files (p_params p))).
Proof.
  rewrite map_app, params_files_names. unfold gprop_files. destruct (p_mask p); cbn [map fst app].
  - constructor; [|constructor; [|exact param_nodup]].
    + intros [H|H]; [symmetry in H; eapply data_mask_neq; eauto|eapply data_fixed, param_in_fixed; eauto].
    + intros H; eapply mask_fixed, param_in_fixed; eauto.
  - constructor; [|exact param_nodup]. intros H; eapply data_fixed, param_in_fixed; eauto.
Qed.

Lemma params_load_consistent (g : gparams T) (f : fs T) d : consistent g ->
  (forall n c, In (n, c) (params_files g) -> fs_get f (under d n) = Some (NFile c)) -> params_load f d = Ok g.
Proof.
  intros [Hc He] H. unfold params_load.
  rewrite (load_floats_get _ _ (H "dx.npy" _ ltac:(cbn; eauto))), (load_floats_get _ _ (H "dy.npy" _ ltac:(cbn; eauto))),
    (load_floats_get _ _ (H "rf.npy" _ ltac:(cbn; eauto))), (load_floats_get _ _ (H "rf_array.npy" _ ltac:(cbn; eauto 6))).
  cbn [bind]. unfold finish. rewrite He. cbn [bind]. rewrite <- Hc. destruct g; reflexivity.
Qed.

(** contents of a directory from which property [p] is read back, with mask [m] *)
Definition stored (f : fs T) (d : string) (p : gprop T) (m : option (marr T)) : Prop :=
  fs_get f (under d (data_file (p_name p) (p_unit p))) = Some (NFile (float_arr (p_shape p) (p_data p))) /\
  fs_get f (under d (mask_file (p_name p) (p_unit p))) = match m with Some m => Some (NFile (CNpy (ma_dtype m) (ma_shape m) (ma_elems m))) | None => None end /\
  (forall n c, In (n, c) (params_files (p_params p)) -> fs_get f (under d n) = Some (NFile c)).

Lemma new_again (p : gprop T) : prop_inv p ->
  new_gprop (EIs (p_name p)) (EIs (p_unit p)) (PArr "float64" (p_shape p) (map (@SF T) (p_data p))) (EIs (p_params p)) =
  Ok (fst (set_contrast_default (with_mask p None))).
Proof.
  intros (H1 & _ & _). apply new_gprop_iff. exists (p_name p), (p_unit p), (p_params p), (map (@SF T) (p_data p)).
  rewrite H1. repeat (split; [reflexivity|]). rewrite contrast_default. cbn [fst]. unfold fresh. rewrite num_scal_SF. unfold limits_of.
  cbn [p_data with_mask]. rewrite <- H1. reflexivity.
Qed.

Lemma load_stored (f : fs T) d (p : gprop T) m : prop_inv p -> consistent (p_params p) -> stored f d p m ->
  gprop_load f (PStr d) (EIs (p_name p)) (EIs (p_unit p)) = Ok (fst (set_contrast_default (with_mask p m))).
Proof.
  intros Hi Hc (A & B & C). unfold gprop_load. cbn [string_v class_arg bind].
  assert (X : np_load f (under d (data_file (p_name p) (p_unit p))) = Ok ("float64", p_shape p, map (@SF T) (p_data p))) by (unfold np_load; rewrite A; reflexivity).
  rewrite X. cbn [bind]. rewrite (params_load_consistent f d Hc C). cbn [bind]. rewrite (new_again Hi). cbn [bind].
  unfold fs_exists, np_load. rewrite B. destruct m as [m|]; cbn [bind].
  - rewrite !contrast_default. cbn [fst]. destruct p, m; reflexivity.
  - rewrite !contrast_default. cbn [fst]. destruct p; reflexivity.
Qed.

Lemma save_stored (f f' : fs T) d (p : gprop T) : run f (gprop_save p d) = (f', Ok tt) ->
  (forall m, p_mask p = Some m -> stored f' d p (Some m)) /\
  (p_mask p = None -> fs_get f (under d (mask_file (p_name p) (p_unit p))) = None -> stored f' d p None) /\
  (p_mask p = None -> forall dt sh el, fs_get f (under d (mask_file (p_name p) (p_unit p))) = Some (NFile (CNpy dt sh el)) ->
     stored f' d p (Some (mkMarr dt sh el))).
Proof.
  rewrite gprop_save_eq. intros H. apply two_batches in H; [|apply files_nodup]. destruct H as [A B].
  assert (D : fs_get f' (under d (data_file (p_name p) (p_unit p))) = Some (NFile (float_arr (p_shape p) (p_data p)))) by (apply A; left; reflexivity).
  assert (P : forall n c, In (n, c) (params_files (p_params p)) -> fs_get f' (under d n) = Some (NFile c)) by (intros; apply A; apply in_or_app; auto).
  assert (O : p_mask p = None -> fs_get f' (under d (mask_file (p_name p) (p_unit p))) = fs_get f (under d (mask_file (p_name p) (p_unit p)))).
  { intros Hm. apply B; [apply under_neq|]. rewrite map_app, params_files_names. unfold gprop_files. rewrite Hm. cbn [map fst app].
    intros n [<-|Hn] E; apply under_inj in E; [symmetry in E; eapply data_mask_neq; eauto|]. subst n. eapply mask_fixed, param_in_fixed; eauto. }
  split; [|split].
  - intros m Hm. split; auto. split; auto. apply A. apply in_or_app. left. unfold gprop_files. rewrite Hm. cbn. auto.
  - intros Hm Hf. split; auto. split; auto. rewrite O; auto.
  - intros Hm dt sh el Hf. split; auto. split; auto. rewrite O; auto.
Qed.

Theorem prop_load_save (f f' : fs T) d (p : gprop T) : preach p -> reachable (p_params p) ->
  (p_mask p = None -> fs_get f (under d (mask_file (p_name p) (p_unit p))) = None) ->
  run f (gprop_save p d) = (f', Ok tt) ->
  gprop_load f' (PStr d) (EIs (p_name p)) (EIs (p_unit p)) = Ok (fst (set_contrast_default p)).
Proof.
  intros Hp Hr Hm H. destruct (save_stored _ _ _ H) as (A & B & _). destruct (p_mask p) as [m|] eqn:E.
  - rewrite (load_stored (preach_inv Hp) (reachable_consistent Hr) (A _ eq_refl)). rewrite <- E. destruct p; reflexivity.
  - rewrite (load_stored (preach_inv Hp) (reachable_consistent Hr) (B eq_refl (Hm eq_refl))). rewrite <- E. destruct p; reflexivity.
Qed.

(** an older mask of the same name comes back *)
Theorem prop_stale_mask (f f' : fs T) d (p : gprop T) dt sh el : preach p -> reachable (p_params p) -> p_mask p = None ->
  fs_get f (under d (mask_file (p_name p) (p_unit p))) = Some (NFile (CNpy dt sh el)) ->
  run f (gprop_save p d) = (f', Ok tt) ->
  gprop_load f' (PStr d) (EIs (p_name p)) (EIs (p_unit p)) = Ok (fst (set_contrast_default (with_mask p (Some (mkMarr dt sh el))))).
Proof.
  intros Hp Hr Hm Hf H. destruct (save_stored _ _ _ H) as (_ & _ & C).
  exact (load_stored (preach_inv Hp) (reachable_consistent Hr) (C Hm _ _ _ Hf)).
Qed.
Theorem prop_overwrite (f f1 f2 : fs T) d (p q : gprop T) m : preach p -> reachable (p_params p) -> p_mask p = None -> p_mask q = Some m ->
  p_name q = p_name p -> p_unit q = p_unit p ->
  run f (gprop_save q d) = (f1, Ok tt) -> run f1 (gprop_save p d) = (f2, Ok tt) ->
  exists r, gprop_load f2 (PStr d) (EIs (p_name p)) (EIs (p_unit p)) = Ok r /\ p_data r = p_data p /\ p_mask r = Some m.
Proof.
  intros Hp Hr Hm Hq Hn Hu H1 H2. destruct (save_stored _ _ _ H1) as (A & _). destruct (A _ Hq) as (_ & B & _). rewrite Hn, Hu in B.
  eexists. split; [eapply prop_stale_mask; eauto|]. rewrite contrast_default. destruct m. split; reflexivity.
Qed.

(** saving succeeds in every usable directory *)
Theorem prop_save_succeeds (f : fs T) d (p : gprop T) : usable f d ->
  (forall n, In n (map fst (gprop_files p ++ params_files (p_params p))) -> fs_get f (under d n) <> Some NDir) ->
  exists f', run f (gprop_save p d) = (f', Ok tt).
Proof.
  intros Hu Hn. rewrite gprop_save_eq. destruct (mkdirif_usable Hu) as (f1 & E1 & Hd & Ho).
  assert (R : exists f2, run f1 (writes d (gprop_files p)) = (f2, Ok tt)).
  { apply writes_run; auto.
    - unfold gprop_files. constructor; [apply file_slashfree|]. destruct (p_mask p); constructor; [apply file_slashfree|constructor].
    - intros n Hi. rewrite Ho by apply under_neq. apply Hn. rewrite map_app. apply in_or_app; auto. }
  destruct R as (f2 & E2).
  assert (Hd2 : fs_get f2 d = Some NDir).
  { replace f2 with (fst (run f1 (writes d (gprop_files p)))) by now rewrite E2. rewrite run_other; auto.
    intros s Hs. unfold writes in Hs. apply in_map_iff in Hs. destruct Hs as (x & <- & _). cbn. intros X. symmetry in X. eapply under_neq; eauto. }
  assert (X : exists f3, run f2 (params_save (p_params p) d) = (f3, Ok tt)).
  { apply params_save_succeeds; [left; auto|]. intros n Hi.
    replace f2 with (fst (run f1 (writes d (gprop_files p)))) by now rewrite E2. rewrite run_other.
    - rewrite Ho by apply under_neq. apply Hn. rewrite map_app. apply in_or_app. right. rewrite params_files_names. auto.
    - intros s Hs. unfold writes in Hs. apply in_map_iff in Hs. destruct Hs as (x & <- & Hx). cbn. intros E. apply under_inj in E.
      assert (In (fst x) (map fst (gprop_files p))) by (apply in_map; auto). unfold gprop_files in H.
      destruct (p_mask p); cbn [map fst In] in H; repeat (destruct H as [H|H]); try contradiction; rewrite <- H in E; subst n;
      first [exact (@data_fixed _ _ (@param_in_fixed _ Hi)) | exact (@mask_fixed _ _ (@param_in_fixed _ Hi))]. }
  destruct X as (f3 & E3). exists f3. cbn [run]. rewrite E1. rewrite (run_app _ _ _ E2). exact E3.
Qed.

(** *** interrupted saves *)
Lemma gprop_save_last (p : gprop T) d : exists l c, gprop_save p d = l ++ [SWrite (under d "rf_array.npy") c] /\
  forall s, In s l -> ~ touched s (under d "rf_array.npy").
Proof.
  exists (SMkdirIf d :: writes d (gprop_files p) ++ SMkdirIf d :: writes d (firstn 3 (params_files (p_params p)))).
  eexists. split; [rewrite gprop_save_eq; cbn [app]; rewrite <- app_assoc; reflexivity|].
  assert (Q : under d "rf_array.npy" <> d) by apply under_neq.
  intros s [<-|Hs]; [exact Q|]. apply in_app_or in Hs. destruct Hs as [Hs|[<-|Hs]]; [|exact Q|].
  - unfold writes in Hs. apply in_map_iff in Hs. destruct Hs as (x & <- & Hx). cbn. intros E. apply under_inj in E.
    assert (In (fst x) (map fst (gprop_files p))) by (apply in_map; auto). rewrite <- E in H. unfold gprop_files in H.
    destruct (p_mask p); cbn [map fst In] in H; repeat (destruct H as [H|H]); try contradiction;
    first [solve [eapply data_fixed; rewrite H; cbn; tauto] | solve [eapply mask_fixed; rewrite H; cbn; tauto]].
  - cbn in Hs. destruct Hs as [<-|[<-|[<-|[]]]]; cbn [touched]; intros E; apply under_inj in E; discriminate.
Qed.
Lemma params_load_unreadable (f : fs T) d : ~ readable f (under d "rf_array.npy") -> params_load f d = Err LoadErr.
Proof.
  intros H. destruct (params_load f d) as [g|e] eqn:E; [|now rewrite (params_load_err _ _ E)].
  destruct H. eapply params_load_needs; [exact E|]. cbn. tauto.
Qed.
Lemma gprop_load_err (f : fs T) d n u : params_load f d = Err LoadErr -> gprop_load f (PStr d) (EIs n) (EIs u) = Err LoadErr.
Proof.
  intros H. unfold gprop_load. cbn [string_v class_arg bind]. destruct (np_load f _) as [[[]]|]; cbn [bind]; auto. rewrite H. reflexivity.
Qed.
Theorem prop_interrupted (f f' : fs T) d (p : gprop T) : preach p -> reachable (p_params p) ->
  fs_get f (under d "rf_array.npy") = None ->
  (p_mask p = None -> fs_get f (under d (mask_file (p_name p) (p_unit p))) = None) ->
  crash f (gprop_save p d) f' ->
  gprop_load f' (PStr d) (EIs (p_name p)) (EIs (p_unit p)) = Err LoadErr \/
  gprop_load f' (PStr d) (EIs (p_name p)) (EIs (p_unit p)) = Ok (fst (set_contrast_default p)).
Proof.
  intros Hp Hr Hn Hm H. destruct (gprop_save_last p d) as (l & c & E & Ht). rewrite E in H.
  destruct (@crash_last T f f' l _ c H Ht Hn) as [X|[X|X]].
  - left. apply gprop_load_err, params_load_unreadable. intros (? & ? & ? & Y). congruence.
  - left. apply gprop_load_err, params_load_unreadable. intros (? & ? & ? & Y). congruence.
  - right. rewrite <- E in X. eapply prop_load_save; eauto.
Qed.

Lemma forall2_cons A B (R : A -> B -> Prop) a b l m : Forall2 R (a :: l) (b :: m) -> R a b /\ Forall2 R l m.
Proof. intros H. inversion H; auto. Qed.

Lemma forall2_length A B (R : A -> B -> Prop) l m : Forall2 R l m -> List.length l = List.length m.
Proof. induction 1; cbn; congruence. Qed.

(** *** gradients *)
(** a number read back from an .npy file *)
Definition reread (v w : pyval) : Prop :=
  numberlike w /\ num_of w = num_of v /\ value w = value v /\ small w /\ ~ py_zero w.
Lemma int_or_0_zof (v : pyval) : int_or_0 v = zof v.
Proof. destruct v; reflexivity. Qed.
Lemma reread_float (v : pyval) : numberlike v -> small v -> reread v (PNpFloat (num_of v)).
Proof.
  intros Hn Hs. repeat split; auto. right; constructor. cbn [value]. apply num_of_value; auto.
Qed.
Lemma reread_int (v : pyval) : int_like v -> small v -> reread v (PNpInt (int_or_0 v)).
Proof. intros Hi Hs. repeat split; auto; [left; constructor| | |]; inversion Hi; subst; cbn in *; try destruct b; auto; cbn; lia. Qed.

Lemma all_some_map (l : list pyval) : all_some (map Some l) = Some l.
Proof. unfold all_some. induction l; cbn [map fold_right]; auto. rewrite IHl. reflexivity. Qed.

Lemma np_array_reread (l : list pyval) : Forall numberlike l -> Forall (@small T) l -> forallb is_bool_v l = false ->
  exists dt el, np_array (map Some l) = CNpy dt [List.length l] el /\ Forall2 reread l (map np_item el).
Proof.
  intros Hn Hs Hb. unfold np_array. rewrite all_some_map, Hb. destruct (existsb is_float_v l) eqn:E.
  - eexists _, _. split; [reflexivity|]. clear Hb E. induction l as [|v l IH]; cbn; constructor; inversion Hn; inversion Hs; subst; auto. apply reread_float; auto.
  - eexists _, _. split; [reflexivity|]. clear Hb. induction l as [|v l IH]; cbn; constructor; inversion Hn; inversion Hs; subst.
    + apply reread_int; auto. destruct H1 as [X|X]; auto. cbn in E. inversion X; subst; cbn in E; discriminate.
    + apply IH; auto. cbn in E. apply orb_false_iff in E. tauto.
Qed.

Lemma reread_same (v w : pyval) : numberlike v -> reread v w -> same_number v w.
Proof. intros Hv (A & B & C & _). split; auto. Qed.

Definition grad_files (g : ggrad T) : list (string * content T) :=
  ("position.npy", np_array [Some (gg_pos g)]) ::
  match gg_meas g with None => [] | Some _ => [("mask_values.npy", np_array [gg_meas g; gg_orb g; gg_trans g; gg_err g])] end.
Lemma grad_save_eq fmt (g : ggrad T) d : let gd := gradient_dir fmt g d in
  grad_save fmt g d = [SMkdirIf gd] ++ gprop_save (gg_prop g) gd ++ writes gd (grad_files g) ++ params_save (p_params (gg_prop g)) d.
Proof. cbn zeta. unfold grad_save, grad_files. destruct (gg_meas g); reflexivity. Qed.

Lemma under_gradient fmt (g : ggrad T) d n : under (gradient_dir fmt g d) n = under d ("gradient_" ++ fmt (num_of (gg_pos g)) ++ "/" ++ n)%string.
Proof. unfold gradient_dir, under. rewrite !append_assoc. reflexivity. Qed.

(** what save_gradient leaves in the gradient's directory *)
Lemma grad_save_get fmt (g : ggrad T) d (f f' : fs T) : let gd := gradient_dir fmt g d in
  p_name (gg_prop g) = GRADIENT -> p_unit (gg_prop g) = NONE ->
  run f (grad_save fmt g d) = (f', Ok tt) ->
  fs_get f' (under gd (data_file GRADIENT NONE)) = Some (NFile (float_arr (p_shape (gg_prop g)) (p_data (gg_prop g)))) /\
  (forall n c, In (n, c) (params_files (p_params (gg_prop g))) -> fs_get f' (under gd n) = Some (NFile c)) /\
  (forall n c, In (n, c) (grad_files g) -> fs_get f' (under gd n) = Some (NFile c)) /\
  (gg_meas g = None -> fs_get f' (under gd "mask_values.npy") = fs_get f (under gd "mask_values.npy")).
Proof.
  cbn zeta. set (gd := gradient_dir fmt g d). intros Nn Nu H. rewrite grad_save_eq in H. fold gd in H.
  apply run_app_ok in H. destruct H as (f1 & H1 & H). apply run_app_ok in H. destruct H as (f2 & H2 & H). apply run_app_ok in H. destruct H as (f3 & H3 & H4).
  rewrite gprop_save_eq in H2. apply two_batches in H2; [|apply files_nodup]. destruct H2 as [A2 B2].
  assert (N3 : NoDup (map fst (grad_files g))).
  { unfold grad_files. destruct (gg_meas g); cbn; repeat constructor; cbn; intuition discriminate. }
  apply writes_get in H3; auto. destruct H3 as [A3 B3].
  assert (O4 : forall n, fs_get f' (under gd n) = fs_get f3 (under gd n)).
  { intros n. replace f' with (fst (run f3 (params_save (p_params (gg_prop g)) d))) by now rewrite H4. apply params_save_others.
    - unfold gd. rewrite under_gradient. apply under_neq.
    - intros m Hm E. unfold gd in E. rewrite under_gradient in E. apply under_inj in E. cbn in Hm. destruct Hm as [<-|[<-|[<-|[<-|[]]]]]; discriminate. }
  assert (G3 : forall n, In n (map fst (grad_files g)) -> n = "position.npy" \/ n = "mask_values.npy").
  { intros n Hn. unfold grad_files in Hn. destruct (gg_meas g); cbn in Hn; intuition. }
  assert (O3 : forall n, n <> "position.npy" -> n <> "mask_values.npy" -> fs_get f3 (under gd n) = fs_get f2 (under gd n)).
  { intros n X Y. apply B3. intros m Hm E. apply under_inj in E. subst m. destruct (G3 _ Hm); contradiction. }
  split; [|split; [|split]].
  - rewrite O4, O3 by discriminate. rewrite <- Nn, <- Nu at 1. apply A2. left. reflexivity.
  - intros n c Hi. assert (In n param_files) by (rewrite <- (params_files_names (p_params (gg_prop g))); change n with (fst (n, c)); apply in_map; auto).
    rewrite O4, O3 by (intros ->; cbn in H; intuition discriminate). apply A2. apply in_or_app. auto.
  - intros n c Hi. rewrite O4. apply A3; auto.
  - intros Hm. rewrite O4. rewrite B3, B2.
    + replace f1 with (fst (run f [SMkdirIf gd])) by now rewrite H1. apply run_other. intros s [<-|[]]. apply under_neq.
    + apply under_neq.
    + intros n Hn E. apply under_inj in E. subst n. rewrite map_app, params_files_names in Hn. apply in_app_or in Hn.
      destruct Hn as [Hn|Hn]; [|cbn in Hn; intuition discriminate]. unfold gprop_files in Hn. rewrite Nn, Nu in Hn.
      destruct (p_mask (gg_prop g)); cbn in Hn; intuition discriminate.
    + intros n Hn E. apply under_inj in E. subst n. unfold grad_files in Hn. rewrite Hm in Hn. cbn in Hn. intuition discriminate.
Qed.

Lemma scaled_of_reread (m s t m' s' t' : pyval) : reread m m' -> reread s s' -> reread t t' -> scaled_of m' s' t' = scaled_of m s t.
Proof. intros (_ & A & _) (_ & B & _) (_ & C & _). unfold scaled_of. rewrite A, B, C. reflexivity. Qed.

(** the gradient that a directory with these files gives, when no measurement is found *)
Definition unmeasured (g : ggrad T) (pos : pyval) : ggrad T :=
  mkGG (fst (set_contrast_default (with_mask (gg_prop g) None))) pos None None None None.

Lemma grad_load_pre (f : fs T) d (g : ggrad T) pos : prop_inv (gg_prop g) -> consistent (p_params (gg_prop g)) ->
  p_name (gg_prop g) = GRADIENT -> p_unit (gg_prop g) = NONE -> numberlike pos ->
  fs_get f (under d (data_file GRADIENT NONE)) = Some (NFile (float_arr (p_shape (gg_prop g)) (p_data (gg_prop g)))) ->
  (forall n c, In (n, c) (params_files (p_params (gg_prop g))) -> fs_get f (under d n) = Some (NFile c)) ->
  (exists dt el, fs_get f (under d "position.npy") = Some (NFile (CNpy dt [1] el)) /\ map np_item el = [pos]) ->
  grad_load f d = match
    (if fs_exists f (under d "mask_values.npy") then
      let* z := np_load f (under d "mask_values.npy") in
      let gr := unmeasured g pos in
      let '(gr', r) :=
        match snd z with
        | [m; o] => determine_mask gr (np_item m) (np_item o) None None
        | [m; o; t] => determine_mask gr (np_item m) (np_item o) (Some (np_item t)) None
        | [m; o; t; e] => determine_mask gr (np_item m) (np_item o) (Some (np_item t)) (Some (np_item e))
        | _ => (gr, Err TypeError)
        end in
      let* _ := r in Ok gr'
    else Ok (unmeasured g pos)) with Ok g => Ok g | Err _ => Err LoadErr end.
Proof.
  intros Hi Hc Nn Nu Hpos D P (dt & el & E & Em). unfold grad_load.
  assert (X : np_load f (under d (data_file GRADIENT NONE)) = Ok ("float64", p_shape (gg_prop g), map (@SF T) (p_data (gg_prop g)))) by (unfold np_load; rewrite D; reflexivity).
  rewrite X. cbn [bind]. rewrite (params_load_consistent f d Hc P). cbn [bind].
  assert (Y : np_load f (under d "position.npy") = Ok (dt, [1], el)) by (unfold np_load; rewrite E; reflexivity). rewrite Y. cbn [bind snd].
  destruct el as [|s el]; [discriminate|]. cbn [map] in Em. inversion Em as [[E1 E2]]. cbn [bind]. rewrite E1.
  unfold new_grad. rewrite <- Nn, <- Nu. rewrite (new_again Hi). cbn [bind]. rewrite (proj2 (number_default pos pos)) by auto. cbn [bind].
  reflexivity.
Qed.

Definition not_all_bool (l : list (option pyval)) : Prop := exists v, In (Some v) l /\ is_bool_v v = false.

(** the directory [gd] holds gradient [g] *)
Definition grad_stored (f : fs T) (gd : string) (g : ggrad T) : Prop :=
  fs_get f (under gd (data_file GRADIENT NONE)) = Some (NFile (float_arr (p_shape (gg_prop g)) (p_data (gg_prop g)))) /\
  (forall n c, In (n, c) (params_files (p_params (gg_prop g))) -> fs_get f (under gd n) = Some (NFile c)) /\
  (forall n c, In (n, c) (grad_files g) -> fs_get f (under gd n) = Some (NFile c)) /\
  (gg_meas g = None -> fs_get f (under gd "mask_values.npy") = None).
(** [g'] is [g], up to the types of its numbers and the contrast *)
Definition same_grad (g g' : ggrad T) : Prop :=
  p_data (gg_prop g') = p_data (gg_prop g) /\ p_shape (gg_prop g') = p_shape (gg_prop g) /\
  p_params (gg_prop g') = p_params (gg_prop g) /\ p_mask (gg_prop g') = p_mask (gg_prop g) /\
  same_number (gg_pos g) (gg_pos g') /\ same_onumber (gg_meas g) (gg_meas g') /\
  (gg_meas g <> None -> same_onumber (gg_orb g) (gg_orb g') /\ same_onumber (gg_trans g) (gg_trans g') /\ same_onumber (gg_err g) (gg_err g')).
(** what must hold of the numbers for .npy files to give them back *)
Definition storable (g : ggrad T) : Prop := small (gg_pos g) /\ is_bool_v (gg_pos g) = false /\
  (gg_meas g <> None -> not_all_bool [gg_meas g; gg_orb g; gg_trans g; gg_err g]).

Lemma grad_load_stored gd (g : ggrad T) (f' : fs T) : measured g -> reachable (p_params (gg_prop g)) -> storable g ->
  grad_stored f' gd g -> exists g', grad_load f' gd = Ok g' /\ same_grad g g'.
Proof.
  intros Hg Hr (Sp & Bp & Hnb) (A & B & C & D). assert (Hi := measured_inv Hg). destruct Hi as (I1 & I2 & I3 & I4 & I5). unfold same_grad.
  assert (Fb : forallb is_bool_v [gg_pos g] = false) by (cbn; rewrite Bp; reflexivity).
  destruct (@np_array_reread [gg_pos g] (Forall_cons _ I2 (Forall_nil _)) (Forall_cons _ Sp (Forall_nil _)) Fb) as (dt & el & Ea & Ef).
  cbn [map List.length] in Ea. inversion Ef as [|? pos ? l' Hpos Hnil Ex Ey]; subst. inversion Hnil; subst.
  assert (Cp := C "position.npy" _ (or_introl eq_refl)). rewrite Ea in Cp.
  assert (Npos : numberlike pos) by apply Hpos.
  erewrite (@grad_load_pre f' gd g pos I1 (reachable_consistent Hr) I3 I4 Npos A B); [|exists dt, el; split; [exact Cp|congruence]].
  destruct I5 as [[M1 M2]|(m & s & t & e & M1 & M2 & M3 & M4 & M5 & M6 & M7 & M8 & M9)].
  - assert (X : fs_exists f' (under gd "mask_values.npy") = false) by (unfold fs_exists; rewrite (D M1); reflexivity).
    rewrite X. eexists. split; [reflexivity|]. unfold unmeasured. cbn [gg_prop gg_pos gg_meas gg_orb gg_trans gg_err].
    rewrite contrast_default. cbn [fst with_colors with_limits with_mask p_data p_shape p_params p_mask]. rewrite M1, M2.
    repeat (split; [reflexivity|]). split; [apply reread_same; auto|]. split; [exact I|]. intros Q; congruence.
  - assert (Cm : fs_get f' (under gd "mask_values.npy") = Some (NFile (np_array [gg_meas g; gg_orb g; gg_trans g; gg_err g]))).
    { apply C. unfold grad_files. rewrite M1. right. left. reflexivity. }
    rewrite M1, M2, M3, M4 in Cm, Hnb. destruct Hnb as (v & Hv & Hvb); [discriminate|].
    assert (NN : Forall numberlike [m; s; t; e]).
    { destruct M6 as (Q1 & _ & Q2 & _ & Q3 & Q4). exact (Forall_cons _ Q1 (Forall_cons _ Q2 (Forall_cons _ (proj1 (Q3 t eq_refl)) (Forall_cons _ (proj1 (Q4 e eq_refl)) (Forall_nil _))))). }
    assert (FB : forallb is_bool_v [m; s; t; e] = false).
    { destruct (forallb is_bool_v [m; s; t; e]) eqn:Q; auto. rewrite forallb_forall in Q. rewrite <- Hvb. symmetry. apply Q.
      cbn in Hv |- *. intuition congruence. }
    destruct (@np_array_reread [m; s; t; e] NN M5 FB) as (dt2 & el2 & Ea2 & Ef2). cbn [map List.length] in Ea2. rewrite Ea2 in Cm.
    assert (X : fs_exists f' (under gd "mask_values.npy") = true) by (unfold fs_exists; rewrite Cm; reflexivity).
    assert (Y : np_load f' (under gd "mask_values.npy") = Ok (dt2, [4], el2)) by (unfold np_load; rewrite Cm; reflexivity).
    rewrite X, Y. cbn [bind snd].
    destruct el2 as [|a1 [|a2 [|a3 [|a4 [|a5 el2]]]]]; try (exfalso; apply forall2_length in Ef2; cbn in Ef2; discriminate).
    cbn [map] in Ef2. apply forall2_cons in Ef2. destruct Ef2 as [R1 Ef2]. apply forall2_cons in Ef2. destruct Ef2 as [R2 Ef2]. apply forall2_cons in Ef2. destruct Ef2 as [R3 Ef2]. apply forall2_cons in Ef2. destruct Ef2 as [R4 _].
    assert (MO : measure_ok (np_item a1) (np_item a2) (Some (np_item a3)) (Some (np_item a4))).
    { destruct M6 as (Q1 & Q1' & Q2 & Q2' & Q3 & Q4). destruct (Q3 t eq_refl) as (_ & Q5 & Q6). destruct (Q4 e eq_refl) as (_ & Q7).
      destruct R1 as (S1 & _ & V1 & _), R2 as (S2 & _ & V2 & _), R3 as (S3 & _ & V3 & _), R4 as (S4 & _ & V4 & _).
      unfold measure_ok. rewrite V1, V2. split; auto. split; auto. split; auto. split; auto. split.
      - intros w Hw; inversion Hw; subst. rewrite V3. auto.
      - intros w Hw; inversion Hw; subst. rewrite V4. auto. }
    destruct (@determine_cases T _ _ (unmeasured g pos) (np_item a1) (np_item a2) (Some (np_item a3)) (Some (np_item a4))) as (_ & _ & Z); auto.
    + apply R1. + apply R2. + apply R3. + apply R4.
    + cbn [transmission err_or_1] in Z. rewrite Z.
      2:{ apply R3. } 2:{ rewrite (scaled_of_reread R1 R2 R3). exact M8. }
      cbn [bind]. eexists. split; [reflexivity|]. rewrite (scaled_of_reread R1 R2 R3).
      unfold masked_with, unmeasured, set_fields. cbn [gg_prop with_prop gg_pos gg_meas gg_orb gg_trans gg_err]. rewrite contrast_default.
      cbn [fst with_colors with_limits with_mask p_data p_shape p_params p_mask]. rewrite M1, M2, M3, M4, M9.
      inversion NN as [|? ? N1 NN1]; subst. inversion NN1 as [|? ? N2 NN2]; subst. inversion NN2 as [|? ? N3 NN3]; subst. inversion NN3 as [|? ? N4 NN4]; subst.
      repeat (split; [reflexivity|]). split; [apply reread_same; auto|]. cbn [same_onumber].
      split; [apply reread_same; auto|]. intros _. split; [apply reread_same; auto|]. split; apply reread_same; auto.
Qed.

Theorem grad_load_save fmt (g : ggrad T) d (f f' : fs T) : measured g -> reachable (p_params (gg_prop g)) -> storable g ->
  (gg_meas g = None -> fs_get f (under (gradient_dir fmt g d) "mask_values.npy") = None) ->
  run f (grad_save fmt g d) = (f', Ok tt) ->
  exists g', grad_load f' (gradient_dir fmt g d) = Ok g' /\ same_grad g g'.
Proof.
  intros Hg Hr Hs Hm H. apply grad_load_stored; auto. assert (Hi := measured_inv Hg). destruct Hi as (I1 & I2 & I3 & I4 & I5).
  destruct (@grad_save_get fmt g d f f' I3 I4 H) as (A & B & C & D). split; auto. split; auto. split; auto. intros M. rewrite D; auto.
Qed.

(** an older measurement comes back when an unmeasured gradient is saved over a measured one *)
Theorem grad_stale_values fmt (g : ggrad T) d (f f' : fs T) dt sh el : measured g -> reachable (p_params (gg_prop g)) ->
  small (gg_pos g) -> is_bool_v (gg_pos g) = false -> gg_meas g = None ->
  fs_get f (under (gradient_dir fmt g d) "mask_values.npy") = Some (NFile (CNpy dt sh el)) ->
  run f (grad_save fmt g d) = (f', Ok tt) ->
  forall g', grad_load f' (gradient_dir fmt g d) = Ok g' -> gg_meas g' <> None.
Proof.
  intros Hg Hr Sp Bp M1 Hs H g'. assert (Hi := measured_inv Hg). destruct Hi as (I1 & I2 & I3 & I4 & _).
  destruct (@grad_save_get fmt g d f f' I3 I4 H) as (A & B & C & D). cbn zeta in *. set (gd := gradient_dir fmt g d) in *.
  assert (Fb : forallb is_bool_v [gg_pos g] = false) by (cbn; rewrite Bp; reflexivity).
  destruct (@np_array_reread [gg_pos g] (Forall_cons _ I2 (Forall_nil _)) (Forall_cons _ Sp (Forall_nil _)) Fb) as (dt1 & el1 & Ea & Ef).
  cbn [map List.length] in Ea. inversion Ef as [|? pos ? l' Hpos Hnil Ex Ey]; subst. inversion Hnil; subst.
  assert (Cp := C "position.npy" _ (or_introl eq_refl)). rewrite Ea in Cp.
  assert (Npos : numberlike pos) by apply Hpos.
  erewrite (@grad_load_pre f' gd g pos I1 (reachable_consistent Hr) I3 I4 Npos A B); [|exists dt1, el1; split; [exact Cp|congruence]].
  unfold fs_exists, np_load. rewrite (D M1), Hs. cbn [bind snd].
  assert (X : forall a b c d h r, determine_mask (unmeasured g pos) a b c d = (h, Ok r) -> gg_meas h <> None).
  { intros a b c d0 h r. unfold determine_mask.
    repeat (match goal with |- context [match ?a with Ok _ => _ | Err _ => _ end] => destruct a end; [|discriminate]).
    destruct a4; intros Q; inversion Q; cbn; discriminate. }
  destruct el as [|a1 [|a2 [|a3 [|a4 [|a5 el]]]]]; cbn [bind]; try discriminate.
  - destruct (determine_mask _ _ _ _ _) as [h [r|]] eqn:Q; cbn [bind]; [|discriminate]. intros W; inversion W; subst. eapply X; eauto.
  - destruct (determine_mask _ _ _ _ _) as [h [r|]] eqn:Q; cbn [bind]; [|discriminate]. intros W; inversion W; subst. eapply X; eauto.
  - destruct (determine_mask _ _ _ _ _) as [h [r|]] eqn:Q; cbn [bind]; [|discriminate]. intros W; inversion W; subst. eapply X; eauto.
Qed.
(** *** interrupted save_gradient *)
Lemma grad_load_no_position (f : fs T) gd : ~ readable f (under gd "position.npy") -> grad_load f gd = Err LoadErr.
Proof.
  intros H. unfold grad_load. destruct (np_load f (under gd (data_file GRADIENT NONE))) as [[[dt sh] el]|]; cbn [bind]; auto.
  destruct (params_load f gd); cbn [bind]; auto.
  destruct (np_load f (under gd "position.npy")) as [x|] eqn:E; cbn [bind]; auto. exfalso. apply H. unfold np_load in E.
  destruct (fs_get f (under gd "position.npy")) as [[|[]]|] eqn:Eg; try discriminate. red. eauto.
Qed.
Lemma grad_load_bad_values (f : fs T) gd : fs_get f (under gd "mask_values.npy") = Some (NFile CBad) -> grad_load f gd = Err LoadErr.
Proof.
  intros H. unfold grad_load. destruct (np_load f (under gd (data_file GRADIENT NONE))) as [[[dt sh] el]|]; cbn [bind]; auto.
  destruct (params_load f gd); cbn [bind]; auto. destruct (np_load f (under gd "position.npy")) as [x|] eqn:E; cbn [bind]; auto.
  destruct (snd x); cbn [bind]; auto. destruct (new_grad _ _ _); cbn [bind]; auto. unfold fs_exists, np_load. rewrite H. reflexivity.
Qed.

(** the same gradient before it was measured *)
Definition unmeasured_of (g : ggrad T) : ggrad T := mkGG (with_mask (gg_prop g) None) (gg_pos g) None None None None.

Lemma load_unmeasured gd (g : ggrad T) (f : fs T) : measured g -> reachable (p_params (gg_prop g)) -> storable g ->
  fs_get f (under gd (data_file GRADIENT NONE)) = Some (NFile (float_arr (p_shape (gg_prop g)) (p_data (gg_prop g)))) ->
  (forall n c, In (n, c) (params_files (p_params (gg_prop g))) -> fs_get f (under gd n) = Some (NFile c)) ->
  fs_get f (under gd "position.npy") = Some (NFile (np_array [Some (gg_pos g)])) ->
  fs_get f (under gd "mask_values.npy") = None ->
  exists g', grad_load f gd = Ok g' /\ same_grad (unmeasured_of g) g'.
Proof.
  intros Hg Hr (Sp & Bp & _) A B C D. assert (Hi := measured_inv Hg). destruct Hi as (I1 & I2 & I3 & I4 & I5).
  assert (Fb : forallb is_bool_v [gg_pos g] = false) by (cbn; rewrite Bp; reflexivity).
  destruct (@np_array_reread [gg_pos g] (Forall_cons _ I2 (Forall_nil _)) (Forall_cons _ Sp (Forall_nil _)) Fb) as (dt & el & Ea & Ef).
  cbn [map List.length] in Ea. inversion Ef as [|? pos ? l' Hpos Hnil Ex Ey]; subst. inversion Hnil; subst.
  rewrite Ea in C. assert (Npos : numberlike pos) by apply Hpos.
  erewrite (@grad_load_pre f gd g pos I1 (reachable_consistent Hr) I3 I4 Npos A B); [|exists dt, el; split; [exact C|congruence]].
  assert (X : fs_exists f (under gd "mask_values.npy") = false) by (unfold fs_exists; rewrite D; reflexivity).
  rewrite X. eexists. split; [reflexivity|]. unfold unmeasured, unmeasured_of, same_grad. cbn [gg_prop gg_pos gg_meas gg_orb gg_trans gg_err].
  rewrite contrast_default. cbn [fst with_colors with_limits with_mask p_data p_shape p_params p_mask].
  repeat (split; [reflexivity|]). split; [apply reread_same; auto|]. split; [exact I|]. intros Q; congruence.
Qed.

Lemma grad_prefix_get (g : ggrad T) gd (f f3 : fs T) c : p_name (gg_prop g) = GRADIENT -> p_unit (gg_prop g) = NONE ->
  run f (([SMkdirIf gd] ++ gprop_save (gg_prop g) gd) ++ [SWrite (under gd "position.npy") c]) = (f3, Ok tt) ->
  fs_get f3 (under gd (data_file GRADIENT NONE)) = Some (NFile (float_arr (p_shape (gg_prop g)) (p_data (gg_prop g)))) /\
  (forall n c, In (n, c) (params_files (p_params (gg_prop g))) -> fs_get f3 (under gd n) = Some (NFile c)) /\
  fs_get f3 (under gd "position.npy") = Some (NFile c) /\
  fs_get f3 (under gd "mask_values.npy") = fs_get f (under gd "mask_values.npy").
Proof.
  intros Nn Nu H. rewrite <- app_assoc in H. apply run_app_ok in H. destruct H as (f1 & H1 & H). apply run_app_ok in H. destruct H as (f2 & H2 & H3).
  rewrite gprop_save_eq in H2. apply two_batches in H2; [|apply files_nodup]. destruct H2 as [A2 B2].
  change [SWrite (under gd "position.npy") c] with (writes gd [("position.npy", c)]) in H3. apply writes_get in H3; [|repeat constructor; cbn; tauto].
  destruct H3 as [A3 B3].
  assert (O3 : forall n, n <> "position.npy" -> fs_get f3 (under gd n) = fs_get f2 (under gd n)).
  { intros n X. apply B3. intros m [<-|[]] E. apply under_inj in E. contradiction. }
  split; [|split; [|split]].
  - rewrite O3 by discriminate. rewrite <- Nn, <- Nu at 1. apply A2. left. reflexivity.
  - intros n c' Hi. assert (In n param_files) by (rewrite <- (params_files_names (p_params (gg_prop g))); change n with (fst (n, c')); apply in_map; auto).
    rewrite O3 by (intros ->; cbn in H; intuition discriminate). apply A2. apply in_or_app. auto.
  - apply A3. left. reflexivity.
  - rewrite O3, B2 by first [discriminate | apply under_neq |
      intros n Hn E; apply under_inj in E; subst n; rewrite map_app, params_files_names in Hn; apply in_app_or in Hn;
      destruct Hn as [Hn|Hn]; [|cbn in Hn; intuition discriminate]; unfold gprop_files in Hn; rewrite Nn, Nu in Hn;
      destruct (p_mask (gg_prop g)); cbn in Hn; intuition discriminate].
    replace f1 with (fst (run f [SMkdirIf gd])) by now rewrite H1. apply run_other. intros s [<-|[]]. apply under_neq.
Qed.

Lemma prefix_untouched (g : ggrad T) gd : p_name (gg_prop g) = GRADIENT -> p_unit (gg_prop g) = NONE ->
  forall s, In s ([SMkdirIf gd] ++ gprop_save (gg_prop g) gd) -> ~ touched s (under gd "position.npy").
Proof.
  intros Nn Nu s Hs. assert (Q : under gd "position.npy" <> gd) by apply under_neq.
  destruct Hs as [<-|Hs]; [exact Q|]. rewrite gprop_save_eq in Hs. destruct Hs as [<-|Hs]; [exact Q|].
  apply in_app_or in Hs. unfold writes in Hs. destruct Hs as [Hs|[<-|Hs]]; [|exact Q|]; apply in_map_iff in Hs; destruct Hs as (x & <- & Hx); cbn [touched]; intros E; apply under_inj in E;
  assert (Hf := in_map fst _ _ Hx); rewrite <- E in Hf.
  - unfold gprop_files in Hf. rewrite Nn, Nu in Hf. destruct (p_mask (gg_prop g)); cbn in Hf; intuition discriminate.
  - cbn in Hf. intuition discriminate.
Qed.

(** all outcomes of a crash during save_gradient into a new directory *)
Theorem grad_interrupted fmt (g : ggrad T) d (f f' : fs T) : measured g -> reachable (p_params (gg_prop g)) -> storable g ->
  let gd := gradient_dir fmt g d in
  fs_get f (under gd "position.npy") = None -> fs_get f (under gd "mask_values.npy") = None ->
  crash f (grad_save fmt g d) f' ->
  grad_load f' gd = Err LoadErr \/ (exists g', grad_load f' gd = Ok g' /\ (same_grad g g' \/ same_grad (unmeasured_of g) g')).
Proof.
  intros Hg Hr Hs gd Hp Hm H. assert (Hi := measured_inv Hg). destruct Hi as (I1 & I2 & I3 & I4 & I5).
  rewrite grad_save_eq in H. fold gd in H.
  assert (E : grad_files g = ("position.npy", np_array [Some (gg_pos g)]) :: tl (grad_files g)) by reflexivity.
  rewrite E in H. cbn [writes map fst snd app] in H.
  change (crash f (([SMkdirIf gd] ++ gprop_save (gg_prop g) gd) ++ SWrite (under gd "position.npy") (np_array [Some (gg_pos g)]) ::
    (writes gd (tl (grad_files g)) ++ params_save (p_params (gg_prop g)) d)) f') in H.
  apply crash_mid in H; [|apply prefix_untouched; auto|auto].
  destruct H as [X|[X|(h & X & H)]].
  - left. apply grad_load_no_position. intros (? & ? & ? & Y). congruence.
  - left. apply grad_load_no_position. intros (? & ? & ? & Y). congruence.
  - destruct (grad_prefix_get _ _ _ _ I3 I4 X) as (A & B & C & D). rewrite Hm in D.
    assert (O : forall f2 n, crash f2 (params_save (p_params (gg_prop g)) d) f' -> fs_get f' (under gd n) = fs_get f2 (under gd n)).
    { intros f2 n Hc. eapply crash_other; [exact Hc|]. intros s Hi. unfold gd. rewrite under_gradient. cbn in Hi.
      destruct Hi as [<-|[<-|[<-|[<-|[<-|[]]]]]]; cbn [touched]; [apply under_neq|..]; intros Q; apply under_inj in Q; discriminate. }
    unfold grad_files, writes in H. cbn [tl] in H. destruct (gg_meas g) as [m|] eqn:Em; cbn [map app fst snd] in H.
    + assert (H2 := H). rewrite <- Em in H2.
      change (crash h ([] ++ SWrite (under gd "mask_values.npy") (np_array [gg_meas g; gg_orb g; gg_trans g; gg_err g]) :: params_save (p_params (gg_prop g)) d) f') in H2.
      assert (OO : forall n, n <> "mask_values.npy" -> fs_get f' (under gd n) = fs_get h (under gd n)).
      { intros n Hn. eapply crash_other; [exact H2|]. intros s Hi. cbn in Hi. unfold gd in Hi |- *.
        destruct Hi as [<-|[<-|[<-|[<-|[<-|[<-|[]]]]]]]; cbn [touched].
        - intros Q. apply under_inj in Q. contradiction.
        - rewrite under_gradient. apply under_neq.
        - rewrite under_gradient. intros Q; apply under_inj in Q; discriminate.
        - rewrite under_gradient. intros Q; apply under_inj in Q; discriminate.
        - rewrite under_gradient. intros Q; apply under_inj in Q; discriminate.
        - rewrite under_gradient. intros Q; apply under_inj in Q; discriminate. }
      assert (PF : forall n c, In (n, c) (params_files (p_params (gg_prop g))) -> n <> "mask_values.npy").
      { intros n c Hi ->. cbn in Hi. intuition discriminate. }
      apply crash_mid in H2; [|intros s []|exact D]. destruct H2 as [Y|[Y|(h2 & Y & H2)]].
      * right. destruct (@load_unmeasured gd g f' Hg Hr Hs) as (g' & L & S).
        { rewrite OO by discriminate. exact A. } { intros n c Hi. rewrite OO by (eapply PF; eauto). apply B; auto. }
        { rewrite OO by discriminate. exact C. } { exact Y. }
        exists g'. auto.
      * left. apply grad_load_bad_values. exact Y.
      * right. destruct (@grad_load_stored gd g f' Hg Hr Hs) as (g' & L & S); [|exists g'; auto].
        split; [rewrite OO by discriminate; exact A|]. split; [intros n c Hi; rewrite OO by (eapply PF; eauto); apply B; auto|].
        split; [|intros Q; congruence]. intros n c Hi. unfold grad_files in Hi. rewrite Em in Hi. rewrite <- Em in Hi. destruct Hi as [Hi|[Hi|[]]]; inversion Hi; subst.
        { rewrite OO by discriminate. exact C. }
        { rewrite (O h2) by exact H2. cbn [app run] in Y. destruct (exec h _) as [h' [[]|]] eqn:E3; [|discriminate].
          apply write_ok in E3. inversion Y; subst. apply get_same. }
    + right. destruct (@load_unmeasured gd g f' Hg Hr Hs) as (g' & L & S).
      { rewrite (O h) by exact H. exact A. } { intros n c Hi. rewrite (O h) by exact H. apply B; auto. }
      { rewrite (O h) by exact H. exact C. } { rewrite (O h) by exact H. exact D. }
      exists g'. auto.
Qed.

(** and the middle one is possible for every measured gradient *)
Theorem grad_interrupted_loses fmt (g : ggrad T) d (f f' : fs T) : measured g -> reachable (p_params (gg_prop g)) -> storable g ->
  let gd := gradient_dir fmt g d in
  fs_get f (under gd "mask_values.npy") = None -> run f (grad_save fmt g d) = (f', Ok tt) ->
  exists f'' g', crash f (grad_save fmt g d) f'' /\ grad_load f'' gd = Ok g' /\ gg_meas g' = None /\ p_mask (gg_prop g') = None.
Proof.
  intros Hg Hr Hs gd Hm H. assert (Hi := measured_inv Hg). destruct Hi as (I1 & I2 & I3 & I4 & I5).
  assert (E : grad_save fmt g d = (([SMkdirIf gd] ++ gprop_save (gg_prop g) gd) ++ [SWrite (under gd "position.npy") (np_array [Some (gg_pos g)])]) ++
    (writes gd (tl (grad_files g)) ++ params_save (p_params (gg_prop g)) d)).
  { rewrite grad_save_eq. fold gd. rewrite <- !app_assoc. reflexivity. }
  rewrite E in H. apply run_app_ok in H. destruct H as (h & X & _).
  destruct (grad_prefix_get _ _ _ _ I3 I4 X) as (A & B & C & D). rewrite Hm in D.
  destruct (@load_unmeasured gd g h Hg Hr Hs A B C D) as (g' & L & S). exists h, g'. split.
  - rewrite E. set (l := _ ++ [_]) in *. replace h with (fst (run f (firstn (List.length l) (l ++ (writes gd (tl (grad_files g)) ++ params_save (p_params (gg_prop g)) d))))).
    + constructor.
    + rewrite firstn_app, Nat.sub_diag, firstn_all. cbn [firstn]. rewrite app_nil_r, X. reflexivity.
  - split; auto. destruct S as (_ & _ & _ & S1 & _ & S2 & _). cbn in S1, S2. rewrite S1. split; auto. destruct (gg_meas g'); [contradiction|auto].
Qed.

(** a property whose grid parameters changed under it does not survive *)
Theorem prop_mismatch (f f' : fs T) d (p : gprop T) : consistent (p_params p) -> p_shape p <> shape3 (p_params p) ->
  run f (gprop_save p d) = (f', Ok tt) -> gprop_load f' (PStr d) (EIs (p_name p)) (EIs (p_unit p)) = Err LoadErr.
Proof.
  intros Hc Hs H. rewrite gprop_save_eq in H. apply two_batches in H; [|apply files_nodup]. destruct H as [A _].
  unfold gprop_load. cbn [string_v class_arg bind].
  assert (X : np_load f' (under d (data_file (p_name p) (p_unit p))) = Ok ("float64", p_shape p, map (@SF T) (p_data p))).
  { unfold np_load. rewrite (A _ (float_arr (p_shape p) (p_data p))); [reflexivity|]. left. reflexivity. }
  rewrite X. cbn [bind]. rewrite (params_load_consistent f' d Hc); [|intros; apply A; apply in_or_app; auto]. cbn [bind].
  destruct (new_gprop _ _ _ _) as [q|] eqn:E; cbn [bind]; auto. apply new_gprop_iff in E. destruct E as (n & u & g & el & E1 & E2 & E3 & E4 & _).
  inversion E3; inversion E4; subst. congruence.
Qed.
End F.
