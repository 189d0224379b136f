(** Saving a grid, loading it again, and what becomes of the temporary directory.
    [sreach E s]: the grid [s] was built by the constructor and then changed by any calls. *)
From Coq Require Import ZArith List Bool String Reals Lra Lia.
From Verif Require Import Num NumP Py SpecNum Validate Ring RingSystem FS FSP GridParams SpecGrid GridDiag Names GridProp SpecProp Geometry Build SpecBuild Shallot AddLaws ShallotOps SpecOps SpecSave
  BuildExP BuildGP BuildDP LookP OpsExP SaveFsP SaveP SaveLoadP SaveExP.
Import ListNotations.
Local Open Scope string_scope.
Local Open Scope list_scope.

(** C55.  A grid without diagnostics, saved to a new directory outside the temporary one and loaded again: the
    parameters, num_fxfy, the circular radius and shear, and name, unit, shape, data and mask of the five
    cubes are the same, the resolution map is that of the saved radii; gradients, fit and eclipse parameters
    are gone.  [dummy]: the throw-away grid of load is built. *)
Theorem C55_save_load {T} {NT : Num T} {LT : NumLaws T} {AL : AddLaws T} (E : env T) (f : fs T) d ll v (s : shallot T) og l s0 :
  sreach E s -> s_diag s = None -> Forall (printed E) (grads s) -> Forall (fun g => pointed E g = true) (grads s) ->
  number ll true (PInt 10) (PInt 50) false = Ok v -> dummy E = (og, (l, Ok s0)) ->
  unused f d -> below TEMP d = false ->
  exists f1 f2 m s', run f (shallot_save E s (PStr d) None) = (f1, Ok tt) /\ shallot_load E f1 (PStr d) ll = (f2, Ok s') /\
    s_params s' = s_params s /\ s_nf s' = reread_nf (s_nf s) /\ s_diag s' = None /\
    s_radius s' = s_radius s /\ s_shear s' = s_shear s /\
    (forall w, same_cube (the_cube w s) (the_cube w s') /\ looks (the_cube w s') "viridis") /\
    diagnose (s_params s) (s_dr s) = Ok m /\ s_dmap s' = Some m /\
    s_grads s' = None /\ s_fit s' = None /\ s_ecl s' = None /\ s_vel s' = None /\ s_limb s' = None /\
    (on_disk E) f1 d (grads s).
Proof. exact (@save_load T NT LT AL E f d ll v s og l s0). Qed.
Print Assumptions C55_save_load.
Example C55_ex : exists s og l s0, sreach env3 s /\ s_diag s = None /\ grads s <> [] /\ Forall (printed env3) (grads s) /\ Forall (fun g => pointed env3 g = true) (grads s) /\
  number level true (PInt 10) (PInt 50) false = Ok level /\ dummy env3 = (og, (l, Ok s0)) /\ @unused f64 [] "out" /\ below TEMP "out" = false.
Proof.
  destruct grid3 as (s & Hs & Hd & Hp & Hq & Hn). destruct dummy3 as (og & l & s0 & H). exists s, og, l, s0. repeat (split; [assumption|]).
  split; [intros X; rewrite X in Hn; discriminate Hn|]. repeat (split; [assumption|]). split; [exact level_ok|]. split; [exact H|]. split; [exact (unused_out [] "out" eq_refl eq_refl)|reflexivity].
Qed.
(** in exact arithmetic the throw-away grid is built *)
Example C55_dummy : exists og l s, dummy env_xr = (og, (l, Ok s)).
Proof. destruct (@dummy_builds env_xr eq_refl) as (og & l & s & H); [vm_compute; discriminate|]. exists og, l, s. exact H. Qed.

(** C56.  A loaded grid has no gradients, whatever the directory holds *)
Theorem C56_no_gradients {T} {NT : Num T} {LT : NumLaws T} (E : env T) (f f' : fs T) d ll (s : shallot T) :
  shallot_load E f d ll = (f', Ok s) -> s_grads s = None.
Proof. exact (@load_no_gradients T NT LT E f f' d ll s). Qed.
Print Assumptions C56_no_gradients.
(** so the expectation that it has as many as the saved one is false. *)
Theorem C56_refuted  :
  ~ (forall (E : env f64) (f f1 f2 : fs f64) d ll s s', sreach E s -> s_diag s = None -> unused f d -> below TEMP d = false ->
  run f (shallot_save E s (PStr d) None) = (f1, Ok tt) -> shallot_load E f1 (PStr d) ll = (f2, Ok s') -> List.length (grads s') = List.length (grads s)).
Proof. exact (lost_refuted). Qed.
Print Assumptions C56_refuted.
(** The file of a position is that of the last of the gradients whose directories have the same name. *)
Theorem C56_overwritten {T} {NT : Num T} {LT : NumLaws T} {AL : AddLaws T} (E : env T) (f f1 : fs T) d (s : shallot T) l1 g l2 :
  sreach E s -> s_diag s = None -> Forall (printed E) (grads s) -> unused f d ->
  run f (shallot_save E s (PStr d) None) = (f1, Ok tt) -> grads s = l1 ++ g :: l2 -> (forall g', In g' l2 -> gname E g' <> gname E g) ->
  fs_get f1 (under (under d (gname E g)) "position.npy") = Some (NFile (np_array [Some (gg_pos g)])).
Proof. exact (@save_gradients T NT LT AL E f f1 d s l1 g l2). Qed.
Print Assumptions C56_overwritten.
(** If a formatted position has no decimal point (nan, inf), the directory cannot be loaded at all. *)
Theorem C56_not_finite {T} {NT : Num T} {LT : NumLaws T} {AL : AddLaws T} (E : env T) (f : fs T) d ll (s : shallot T) og l s0 :
  sreach E s -> s_diag s = None -> Forall (printed E) (grads s) -> Exists (fun g => pointed E g = false) (grads s) ->
  dummy E = (og, (l, Ok s0)) -> unused f d -> below TEMP d = false ->
  exists f1 f2, run f (shallot_save E s (PStr d) None) = (f1, Ok tt) /\ shallot_load E f1 (PStr d) ll = (f2, Err AttributeError).
Proof. exact (@save_unpointed T NT LT AL E f d ll s og l s0). Qed.
Print Assumptions C56_not_finite.
Example C56_ex : exists s l1 g l2 g' , sreach env3 s /\ s_diag s = None /\ Forall (printed env3) (grads s) /\ grads s = l1 ++ g :: l2 /\ (forall x, In x l2 -> gname env3 x <> gname env3 g) /\
  In g' l1 /\ gname env3 g' = gname env3 g.
Proof.
  destruct grid3 as (s & Hs & Hd & Hp & Hq & Hn). destruct (grads s) as [|g1 [|g2 [|g3 [|]]]] eqn:Eg; try discriminate Hn.
  exists s, [g1; g2], g3, [], g1. split; [exact Hs|]. split; [exact Hd|]. split; [rewrite Eg; exact Hp|]. split; [rewrite Eg; reflexivity|]. split; [intros g []|]. split; [left; reflexivity|].
  cbn [map] in Hn. assert (A := f_equal (hd "") Hn). assert (C := f_equal (fun l => nth 2 l "") Hn). cbn [hd nth] in A, C. rewrite A, C. reflexivity.
Qed.
Example C56_not_finite_ex : exists s, sreach env3 s /\ s_diag s = None /\ Forall (printed env3) (grads s) /\ Exists (fun g => pointed env3 g = false) (grads s).
Proof. exact grid3_nan. Qed.

(** C57.  save of a grid that keeps diagnostics, to a new directory: TypeError, after all files were written. *)
Theorem C57_files_written {T} {NT : Num T} {LT : NumLaws T} {AL : AddLaws T} (E : env T) (f : fs T) d (s : shallot T) dg :
  sreach E s -> s_diag s = Some dg -> Forall (printed E) (grads s) -> unused f d ->
  exists f1, run f (shallot_save E s (PStr d) None) = (f1, Err TypeError) /\ fs_get f1 d = Some NDir /\ forall n c, grid_file s n c -> fs_get f1 (under d n) = Some (NFile c).
Proof. exact (@save_diagnostics T NT LT AL E f d s dg). Qed.
Print Assumptions C57_files_written.
(** whatever the arguments, it never succeeds *)
Theorem C57_never {T} {NT : Num T} (E : env T) (f : fs T) v y (s : shallot T) dg :
  s_diag s = Some dg -> snd (run f (shallot_save E s v y)) <> Ok tt.
Proof. exact (@save_diagnostics_fails T NT E f v y s dg). Qed.
Print Assumptions C57_never.
Theorem C57_refuted  :
  ~ (forall (E : env f64) (f : fs f64) d s, sreach E s -> unused f d -> exists f1, run f (shallot_save E s (PStr d) None) = (f1, Ok tt)).
Proof. exact (diagnostics_refuted). Qed.
Print Assumptions C57_refuted.
Example C57_ex : exists s dg, sreach env3 s /\ s_diag s = Some dg /\ Forall (printed env3) (grads s).
Proof. destruct grid3_diag as (s & dg & A & B & C). exists s, dg. rewrite C. auto. Qed.

(** C59.  Loading the temporary directory fails in every state of the file system *)
Theorem C59_load_temp {T} {NT : Num T} {LT : NumLaws T} (E : env T) (f : fs T) ll :
  exists e, snd (shallot_load E f (PStr TEMP) ll) = Err e.
Proof. exact (@load_temp T NT LT E f ll). Qed.
Print Assumptions C59_load_temp.
(** and the directory is gone afterwards. *)
Theorem C59_load_temp_deletes {T} {NT : Num T} {LT : NumLaws T} (E : env T) (f : fs T) ll og l s0 :
  dummy E = (og, (l, Ok s0)) -> exists f', shallot_load E f (PStr TEMP) ll = (f', Err FileNotFound) /\
  forall p, fs_get f' p = if below TEMP p then None else fs_get f p.
Proof. exact (@load_temp_deletes T NT LT E f ll og l s0). Qed.
Print Assumptions C59_load_temp_deletes.
(** After any successful load the temporary directory is gone, *)
Theorem C59_load_deletes {T} {NT : Num T} {LT : NumLaws T} (E : env T) (f f' : fs T) d ll s :
  shallot_load E f d ll = (f', Ok s) -> forall p, below TEMP p = true -> fs_get f' p = None.
Proof. exact (@load_deletes T NT LT E f f' d ll s). Qed.
Print Assumptions C59_load_deletes.
(** and after any successful construction, intermittent or not. *)
Theorem C59_construct_deletes {T} {NT : Num T} {LT : NumLaws T} (E : env T) (g : earg (gparams T)) nf ll keep b (f f' : fs T) s :
  perform f (snd (new_shallot E g nf ll keep (PBool b))) = (f', Ok s) -> forall p, below TEMP p = true -> fs_get f' p = None.
Proof. exact (@construct_deletes T NT LT E g nf ll keep b f f' s). Qed.
Print Assumptions C59_construct_deletes.
(** So a grid that is not built intermittently does not leave the file system as it was. *)
Theorem C59_refuted  :
  ~ (forall (E : env f64) (f f' : fs f64) g nf ll keep s, reachable g -> perform f (snd (new_shallot E (EIs g) nf ll keep (PBool false))) = (f', Ok s) ->
  forall p, fs_get f' p = fs_get f p).
Proof. exact (untouched_refuted). Qed.
Print Assumptions C59_refuted.
Example C59_ex : exists og l s0, dummy env3 = (og, (l, Ok s0)) /\ fs_get progress "./.temp_shallot/y_value.npy" <> None /\
  fs_get (fst (shallot_load env3 progress (PStr TEMP) level)) "./.temp_shallot/y_value.npy" = None.
Proof.
  destruct dummy3 as (og & l & s0 & H). exists og, l, s0. split; [exact H|]. split; [discriminate|].
  destruct (@load_temp_deletes f64 _ _ env3 progress level og l s0 H) as (f' & A & B). rewrite A. exact (B _).
Qed.

(** C81.  A built grid is drawn with the colour map twilight for the tilt and viridis for the others, 11
    colours and the extrema of the values as limits; so is one whose building load has finished. *)
Theorem C81_built {T} {NT : Num T} {LT : NumLaws T} (E : env T) g nf ll keep inter og l (s : shallot T) :
  new_shallot E g nf ll keep inter = (og, (l, Ok s)) ->
  (forall w, looks (cube_of w s) (match w with WTilt => "twilight" | _ => "viridis" end)) /\ exists m, s_dmap s = Some m /\ looks m "viridis".
Proof. exact (@look_constructed T NT LT E g nf ll keep inter og l s). Qed.
Print Assumptions C81_built.
Theorem C81_loaded {T} {NT : Num T} {LT : NumLaws T} (E : env T) (f f' : fs T) d ll (s : shallot T) :
  shallot_load E f d ll = (f', Ok s) ->
  (exists m, s_dmap s = Some m /\ looks m "viridis") /\
  ((forall w, looks (cube_of w s) "viridis") \/ forall w, looks (cube_of w s) (match w with WTilt => "twilight" | _ => "viridis" end)).
Proof. exact (@look_loaded T NT LT E f f' d ll s). Qed.
Print Assumptions C81_loaded.
(** a saved and loaded grid (C55) shows its tilt with viridis *)
Theorem C81_refuted :
  ~ (forall (E : env f64) (f f1 f2 : fs f64) d ll s s', sreach E s -> s_diag s = None -> unused f d -> below TEMP d = false ->
  run f (shallot_save E s (PStr d) None) = (f1, Ok tt) -> shallot_load E f1 (PStr d) ll = (f2, Ok s') -> forall w, p_cmap (the_cube w s') = p_cmap (the_cube w s)).
Proof. exact (look_refuted). Qed.
Print Assumptions C81_refuted.
Example C81_ex : match built_f64 with Ok s => match p_vmin (s_tilt s), p_vmax (s_tilt s) with Some (PNpFloat a), Some (PNpFloat b) => n_lt a b = true | _, _ => False end | Err _ => False end.
Proof. vm_compute. exact eq_refl. Qed.
