(** The directories of saved gradients: named by the position to four decimals. *)
From Coq Require Import ZArith Reals List Bool String Ascii Lra Lia.
From Flocq Require Import Core BinarySingleNaN.
From Verif Require Import Num NumP Py Validate SpecNum ValidateP Ring RingP FS FSP GridParams GridDiag
  SpecGrid GridParamsP GridParamsXP Names GridProp SpecProp GridPropP GridGradP GridPropFSP GridPropExP
  Geometry Build Shallot ShallotOps SpecOps SpecSave SaveLoadP Fmt SpecFmt FmtP.
Import ListNotations.
Set Implicit Arguments.
Local Open Scope string_scope.
Local Open Scope list_scope.

(** *** what "{:.4f}" writes can be part of a file name *)
Lemma digit_in d : (0 <= d < 10)%Z -> In (digit d) ["0"; "1"; "2"; "3"; "4"; "5"; "6"; "7"; "8"; "9"]%char.
Proof.
  intros H. assert (E : In d [0; 1; 2; 3; 4; 5; 6; 7; 8; 9]%Z) by (cbn; lia).
  cbn [In] in E. repeat (destruct E as [<-|E]; [cbn; tauto|]). destruct E.
Qed.
Lemma digit_plain d : (0 <= d < 10)%Z -> Ascii.eqb (digit d) "/" = false /\ Ascii.eqb (digit d) "." = false.
Proof. intros H. apply digit_in in H. cbn [In] in H. repeat (destruct H as [<-|H]; [split; reflexivity|]). destruct H. Qed.
Lemma digits_plain k : forall n, slashfree (digits k n) = true /\ has_char "." (digits k n) = false.
Proof.
  induction k as [|k IH]; intros n; [split; reflexivity|]. cbn [digits]. rewrite app_slashfree, app_has.
  destruct (IH (n / 10)%Z) as [-> ->]. destruct (@digit_plain (n mod 10)) as [A B]; [apply Z.mod_pos_bound; lia|].
  cbn [slashfree has_char]. rewrite A, B. split; reflexivity.
Qed.
Lemma fixed_plain k n : slashfree (fixed_text k n) = true /\ has_char "." (fixed_text k n) = true.
Proof.
  unfold fixed_text, whole. rewrite !app_slashfree, !app_has. repeat rewrite (proj1 (digits_plain _ _)). split; [reflexivity|].
  cbn [has_char Ascii.eqb Bool.eqb orb]. apply orb_true_r.
Qed.
Theorem fmt_slashfree k (x : f64) : slashfree (fmt_fixed k x) = true.
Proof. destruct x as [[]|[]| |[] m e ?]; cbn [fmt_fixed]; try reflexivity; rewrite app_slashfree, (proj1 (fixed_plain _ _)); reflexivity. Qed.
Theorem fmt_pointed k (x : f64) : has_char "." (fmt_fixed k x) = is_finite x.
Proof. destruct x as [[]|[]| |[] m e ?]; cbn [fmt_fixed]; try reflexivity; rewrite app_has, (proj2 (fixed_plain _ _)); reflexivity. Qed.

Section D.
Context {T : Type} {NT : Num T} {LT : NumLaws T}.

Lemma params_names_slashfree n : In n param_files -> slashfree n = true.
Proof. cbn. intros [<-|[<-|[<-|[<-|[]]]]]; reflexivity. Qed.
Lemma gprop_names_slashfree (p : gprop T) n : In n (map fst (gprop_files p)) -> slashfree n = true.
Proof.
  unfold gprop_files. destruct (file_slashfree (p_name p) (p_unit p)) as [A B].
  intros H. apply in_map_iff in H. destruct H as ([m c] & <- & H). cbn [fst].
  destruct (p_mask p); cbn [In] in H; repeat (destruct H as [H|H]; [injection H as <- <-; assumption|]); destruct H.
Qed.

(** save_gradient writes only in its own directory and the one above *)
Lemma save_keeps_away fmt (g : ggrad T) d gd n (f : fs T) :
  gradient_dir fmt g d <> gd -> (exists q, gd = under d q) -> slashfree (fmt (num_of (gg_pos g))) = true -> slashfree n = true ->
  fs_get (fst (run f (grad_save fmt g d))) (under gd n) = fs_get f (under gd n).
Proof.
  intros Hne [q Hq] Hf Hn. apply run_other. intros s Hs. rewrite grad_save_eq in Hs.
  assert (Xd : under gd n <> d).
  { subst gd. unfold under. intros E. apply (f_equal String.length) in E. rewrite !length_app in E. cbn in E. lia. }
  assert (Xp : forall m, slashfree m = true -> under gd n <> under d m).
  { intros m Hm E. apply under_both in E; auto. destruct E as [E _]. subst gd. eapply under_neq; eauto. }
  assert (Xo : forall m, slashfree m = true -> under gd n <> under (gradient_dir fmt g d) m).
  { intros m Hm E. apply under_both in E; auto. destruct E as [E _]. auto. }
  assert (Xg : under gd n <> gradient_dir fmt g d).
  { unfold gradient_dir. apply Xp. rewrite app_slashfree, Hf. reflexivity. }
  apply in_app_or in Hs. destruct Hs as [[<-|[]]|Hs]; [exact Xg|].
  apply in_app_or in Hs. destruct Hs as [Hs|Hs].
  { apply gprop_save_steps in Hs. destruct Hs as [->|(m & c & -> & Hm)]; [exact Xg|]. apply Xo.
    rewrite map_app, params_files_names in Hm. apply in_app_or in Hm. destruct Hm as [Hm|Hm];
      [eapply gprop_names_slashfree; eauto|apply params_names_slashfree; auto]. }
  apply in_app_or in Hs. destruct Hs as [Hs|Hs].
  { unfold writes in Hs. apply in_map_iff in Hs. destruct Hs as (x & <- & Hx). apply Xo.
    unfold grad_files in Hx. destruct (gg_meas g); cbn [In] in Hx; repeat (destruct Hx as [<-|Hx]; [reflexivity|]); destruct Hx. }
  rewrite params_save_eq in Hs. destruct Hs as [<-|Hs]; [exact Xd|].
  unfold writes in Hs. apply in_map_iff in Hs. destruct Hs as (x & <- & Hx). apply Xp. apply params_names_slashfree.
  rewrite <- (params_files_names (p_params (gg_prop g))). apply in_map. exact Hx.
Qed.

Lemma save_holds fmt (g : ggrad T) d (f f' : fs T) : measured g -> run f (grad_save fmt g d) = (f', Ok tt) ->
  (gg_meas g = None -> fs_get f (under (gradient_dir fmt g d) "mask_values.npy") = None) -> grad_stored f' (gradient_dir fmt g d) g.
Proof.
  intros Hg H Hm. destruct (measured_inv Hg) as (_ & _ & I3 & I4 & _). destruct (@grad_save_get T _ fmt g d f f' I3 I4 H) as (A & B & C & D).
  split; [exact A|]. split; [exact B|]. split; [exact C|]. intros M. rewrite D by exact M. apply Hm. exact M.
Qed.

(** two gradients with different names: both can be loaded *)
Theorem both_load fmt (g1 g2 : ggrad T) d (f f1 f2 : fs T) :
  measured g1 -> reachable (p_params (gg_prop g1)) -> storable g1 ->
  measured g2 -> reachable (p_params (gg_prop g2)) -> storable g2 ->
  slashfree (fmt (num_of (gg_pos g1))) = true -> slashfree (fmt (num_of (gg_pos g2))) = true ->
  fmt (num_of (gg_pos g1)) <> fmt (num_of (gg_pos g2)) ->
  (gg_meas g1 = None -> fs_get f (under (gradient_dir fmt g1 d) "mask_values.npy") = None) ->
  (gg_meas g2 = None -> fs_get f (under (gradient_dir fmt g2 d) "mask_values.npy") = None) ->
  run f (grad_save fmt g1 d) = (f1, Ok tt) -> run f1 (grad_save fmt g2 d) = (f2, Ok tt) ->
  exists h1 h2, grad_load f2 (gradient_dir fmt g1 d) = Ok h1 /\ same_grad g1 h1 /\
    grad_load f2 (gradient_dir fmt g2 d) = Ok h2 /\ same_grad g2 h2.
Proof.
  intros M1 R1 S1 M2 R2 S2 F1 F2 Hne K1 K2 E1 E2.
  assert (G1 := save_holds fmt d f M1 E1 K1).
  assert (Hd : gradient_dir fmt g2 d <> gradient_dir fmt g1 d).
  { unfold gradient_dir. intros E. apply under_inj in E. apply append_inj in E. apply Hne. symmetry. exact E. }
  assert (Keep : forall n, slashfree n = true -> fs_get f2 (under (gradient_dir fmt g1 d) n) = fs_get f1 (under (gradient_dir fmt g1 d) n)).
  { intros n Hn. replace f2 with (fst (run f1 (grad_save fmt g2 d))) by now rewrite E2. apply save_keeps_away; auto. eexists. reflexivity. }
  assert (K2' : gg_meas g2 = None -> fs_get f1 (under (gradient_dir fmt g2 d) "mask_values.npy") = None).
  { intros M. replace f1 with (fst (run f (grad_save fmt g1 d))) by now rewrite E1. rewrite save_keeps_away; [exact (K2 M)|congruence|eexists; reflexivity|exact F1|reflexivity]. }
  assert (G2 := save_holds fmt d f1 M2 E2 K2').
  destruct G1 as (A & B & C & D).
  assert (G1' : grad_stored f2 (gradient_dir fmt g1 d) g1).
  { split; [rewrite Keep; [exact A|reflexivity]|]. split; [|split].
    - intros n c Hn. rewrite Keep; [apply B; exact Hn|]. apply params_names_slashfree. rewrite <- (params_files_names (p_params (gg_prop g1))).
      change n with (fst (n, c)). apply in_map. exact Hn.
    - intros n c Hn. rewrite Keep; [apply C; exact Hn|]. unfold grad_files in Hn.
      destruct (gg_meas g1); cbn [In] in Hn; repeat (destruct Hn as [Hn|Hn]; [injection Hn as <- _; reflexivity|]); destruct Hn.
    - intros M. rewrite Keep; [apply D; exact M|reflexivity]. }
  destruct (grad_load_stored M1 R1 S1 G1') as (h1 & L1 & Q1). destruct (grad_load_stored M2 R2 S2 G2) as (h2 & L2 & Q2).
  exists h1, h2. auto.
Qed.

(** two gradients with the same name: the second is loaded from the directory of either *)
Theorem last_loads fmt (g1 g2 : ggrad T) d (f f1 f2 : fs T) :
  measured g2 -> reachable (p_params (gg_prop g2)) -> storable g2 -> gg_meas g2 <> None ->
  fmt (num_of (gg_pos g1)) = fmt (num_of (gg_pos g2)) ->
  run f (grad_save fmt g1 d) = (f1, Ok tt) -> run f1 (grad_save fmt g2 d) = (f2, Ok tt) ->
  gradient_dir fmt g1 d = gradient_dir fmt g2 d /\
  exists h, grad_load f2 (gradient_dir fmt g1 d) = Ok h /\ same_grad g2 h.
Proof.
  intros M2 R2 S2 Hm He _ E2. assert (Ed : gradient_dir fmt g1 d = gradient_dir fmt g2 d) by (unfold gradient_dir; rewrite He; reflexivity).
  split; [exact Ed|]. rewrite Ed. apply grad_load_save with (f := f1); auto. intros Q. contradiction.
Qed.

(** ... and if the second has no measurement, it comes back with that of the first *)
Theorem first_measurement fmt (g1 g2 : ggrad T) d (f f1 f2 : fs T) m o t e :
  measured g1 -> storable g1 -> gg_meas g1 = Some m -> gg_orb g1 = Some o -> gg_trans g1 = Some t -> gg_err g1 = Some e ->
  measured g2 -> reachable (p_params (gg_prop g2)) -> storable g2 -> gg_meas g2 = None ->
  fmt (num_of (gg_pos g1)) = fmt (num_of (gg_pos g2)) ->
  run f (grad_save fmt g1 d) = (f1, Ok tt) -> run f1 (grad_save fmt g2 d) = (f2, Ok tt) ->
  exists gm h, determine_mask g2 m o (Some t) (Some e) = (gm, Ok tt) /\ grad_load f2 (gradient_dir fmt g2 d) = Ok h /\ same_grad gm h.
Proof.
  intros M1 S1 X1 X2 X3 X4 M2 R2 S2 Y1 He E1 E2.
  assert (Ed : gradient_dir fmt g1 d = gradient_dir fmt g2 d) by (unfold gradient_dir; rewrite He; reflexivity).
  destruct (measured_inv M1) as (_ & _ & I3 & I4 & [[I5 _]|(m' & o' & t' & e' & J1 & J2 & J3 & J4 & J5 & J6 & J7 & J8 & _)]); [rewrite X1 in I5; discriminate I5|].
  rewrite X1 in J1. injection J1 as <-. rewrite X2 in J2. injection J2 as <-. rewrite X3 in J3. injection J3 as <-. rewrite X4 in J4. injection J4 as <-.
  inversion J5 as [|? ? P1 J5a]; subst. inversion J5a as [|? ? P2 J5b]; subst. inversion J5b as [|? ? P3 J5c]; subst. inversion J5c as [|? ? P4 _]; subst.
  destruct (@determine_cases T _ _ g2 m o (Some t) (Some e)) as (_ & _ & Z); auto. cbn [transmission err_or_1] in Z. specialize (Z J7 J8).
  set (gm := masked_with (set_fields g2 m o t e) (scaled_of m o t)) in *.
  assert (Mm : measured gm) by exact (@ms_det T _ g2 m o (Some t) (Some e) gm M2 (Forall_cons _ P1 (Forall_cons _ P2 (Forall_nil _))) P3 P4 Z).
  assert (Rm : reachable (p_params (gg_prop gm))) by exact R2.
  assert (Sm : storable gm).
  { destruct S2 as (A & B & _). destruct S1 as (_ & _ & C). split; [exact A|]. split; [exact B|]. intros _.
    assert (N : gg_meas g1 <> None) by (rewrite X1; discriminate). specialize (C N). rewrite X1, X2, X3, X4 in C. exact C. }
  destruct (@grad_save_get T _ fmt g1 d f f1 I3 I4 E1) as (_ & _ & C1 & _).
  destruct (measured_inv M2) as (_ & _ & K3 & K4 & _). destruct (@grad_save_get T _ fmt g2 d f1 f2 K3 K4 E2) as (A2 & B2 & C2 & D2).
  assert (G : grad_stored f2 (gradient_dir fmt g2 d) gm).
  { split; [exact A2|]. split; [exact B2|]. split; [|intros Q; discriminate Q].
    intros n c Hn. unfold grad_files in Hn. cbn [gm gg_meas gg_pos gg_orb gg_trans gg_err masked_with set_fields with_prop In] in Hn.
    destruct Hn as [Hn|[Hn|[]]]; injection Hn as <- <-.
    - apply C2. left. reflexivity.
    - rewrite (D2 Y1), <- Ed. apply C1. unfold grad_files. rewrite X1. right. left. rewrite X2, X3, X4. reflexivity. }
  destruct (grad_load_stored Mm Rm Sm G) as (h & L & Q). exists gm, h. auto.
Qed.
End D.

(** *** Python's names *)
Lemma ten4 : IZR (10 ^ Z.of_nat 4) = 10000%R.
Proof. reflexivity. Qed.

Theorem dir_same (g1 g2 : ggrad f64) d : is_finite (num_of (gg_pos g1)) = true -> is_finite (num_of (gg_pos g2)) = true ->
  (gradient_dir (fmt_fixed 4) g1 d = gradient_dir (fmt_fixed 4) g2 d <->
   Bsign (num_of (gg_pos g1)) = Bsign (num_of (gg_pos g2)) /\
   exists n, decimals4 (num_of (gg_pos g1)) n /\ decimals4 (num_of (gg_pos g2)) n).
Proof.
  intros H1 H2. unfold decimals4. rewrite <- ten4, <- (fmt_same 4 _ _ H1 H2). unfold gradient_dir. split; intros E; [|rewrite E; reflexivity].
  apply under_inj in E. apply append_inj in E. exact E.
Qed.
Theorem dir_apart (g1 g2 : ggrad f64) d (f f1 f2 : fs f64) : let fmt := fmt_fixed 4 in
  measured g1 -> reachable (p_params (gg_prop g1)) -> storable g1 ->
  measured g2 -> reachable (p_params (gg_prop g2)) -> storable g2 ->
  is_finite (num_of (gg_pos g1)) = true -> is_finite (num_of (gg_pos g2)) = true ->
  (/ 10000 < Rabs (B2R (num_of (gg_pos g1)) - B2R (num_of (gg_pos g2))))%R ->
  (gg_meas g1 = None -> fs_get f (under (gradient_dir fmt g1 d) "mask_values.npy") = None) ->
  (gg_meas g2 = None -> fs_get f (under (gradient_dir fmt g2 d) "mask_values.npy") = None) ->
  run f (grad_save fmt g1 d) = (f1, Ok tt) -> run f1 (grad_save fmt g2 d) = (f2, Ok tt) ->
  exists h1 h2, grad_load f2 (gradient_dir fmt g1 d) = Ok h1 /\ same_grad g1 h1 /\
    grad_load f2 (gradient_dir fmt g2 d) = Ok h2 /\ same_grad g2 h2.
Proof.
  intros fmt M1 R1 S1 M2 R2 S2 F1 F2 Ha K1 K2 E1 E2. apply both_load with (f := f) (f1 := f1); auto; try apply fmt_slashfree.
  apply fmt_apart; auto.
Qed.

(** the names of a grid's gradients *)
Theorem python_printed (E : env f64) (l : list (ggrad f64)) : e_fmt E = fmt_fixed 4 ->
  Forall (printed E) l /\ Forall (fun g => pointed E g = is_finite (num_of (gg_pos g))) l.
Proof.
  intros He. split; apply Forall_forall; intros g _; unfold printed, pointed; rewrite He; [apply fmt_slashfree|apply fmt_pointed].
Qed.

(** *** positions that share a directory: 2^-20 and 2^-21 *)
Definition pos_a : f64 := @B754_finite 53 1024 false 4503599627370496 (-72) eq_refl.
Definition pos_b : f64 := @B754_finite 53 1024 false 4503599627370496 (-73) eq_refl.
Lemma pos_ab : fmt_fixed 4 pos_a = "0.0000" /\ fmt_fixed 4 pos_b = "0.0000" /\ B2R pos_a <> B2R pos_b.
Proof.
  split; [lazy; reflexivity|]. split; [lazy; reflexivity|]. cbn [B2R pos_a pos_b cond_Zopp]. unfold F2R. cbn [Fnum Fexp]. intros E.
  apply Rmult_eq_reg_l in E; [|apply not_0_IZR; discriminate]. assert (L := bpow_lt radix2 (-73) (-72) eq_refl). lra.
Qed.
Lemma val_pos_ab : val pos_a <> val pos_b.
Proof. destruct pos_ab as (_ & _ & H). cbn [val Laws_f64 f64_val pos_a pos_b]. intros E. apply H. injection E as E. exact E. Qed.

Lemma two_saves (g1 g2 : ggrad f64) : p_name (gg_prop g1) = GRADIENT -> p_unit (gg_prop g1) = NONE -> p_name (gg_prop g2) = GRADIENT -> p_unit (gg_prop g2) = NONE ->
  gg_pos g1 = PFloat pos_a -> gg_pos g2 = PFloat pos_b ->
  exists f1 f2, run [("d", NDir)] (grad_save (fmt_fixed 4) g1 "d") = (f1, Ok tt) /\ run f1 (grad_save (fmt_fixed 4) g2 "d") = (f2, Ok tt).
Proof.
  intros A1 A2 B1 B2 P1 P2. destruct pos_ab as (Qa & Qb & _).
  destruct g1 as [[n1 u1 gp1 sh1 d1 lo1 up1 c1 k1 ma1] po1 me1 er1 or1 tr1], g2 as [[n2 u2 gp2 sh2 d2 lo2 up2 c2 k2 ma2] po2 me2 er2 or2 tr2].
  cbn [gg_prop gg_pos p_name p_unit] in *. subst.
  set (g1 := mkGG _ (PFloat pos_a) _ _ _ _). set (g2 := mkGG _ (PFloat pos_b) _ _ _ _).
  assert (X : snd (run [("d", NDir)] (grad_save (fmt_fixed 4) g1 "d" ++ grad_save (fmt_fixed 4) g2 "d")) = Ok tt).
  { assert (E : forall h : ggrad f64, fmt_fixed 4 (num_of (gg_pos h)) = "0.0000" -> grad_save (fmt_fixed 4) h "d" = grad_save (fun _ => "0.0000") h "d").
    { intros h Eh. unfold grad_save, gradient_dir. rewrite Eh. reflexivity. }
    rewrite (E g1 Qa), (E g2 Qb). subst g1 g2. destruct ma1, ma2, me1, me2; lazy; reflexivity. }
  destruct (run _ _) as [f2 r] eqn:R. cbn [snd] in X. subst r. apply run_app_ok in R. destruct R as (f1 & R1 & R2). exists f1, f2. auto.
Qed.

(** the first of two gradients is lost *)
Theorem both_load_refuted :
  ~ (forall (g1 g2 : ggrad f64) d (f f1 f2 : fs f64), let fmt := fmt_fixed 4 in
     measured g1 -> reachable (p_params (gg_prop g1)) -> storable g1 ->
     measured g2 -> reachable (p_params (gg_prop g2)) -> storable g2 ->
     val (num_of (gg_pos g1)) <> val (num_of (gg_pos g2)) ->
     (forall n, fs_get f (under (gradient_dir fmt g1 d) n) = None) -> (forall n, fs_get f (under (gradient_dir fmt g2 d) n) = None) ->
     run f (grad_save fmt g1 d) = (f1, Ok tt) -> run f1 (grad_save fmt g2 d) = (f2, Ok tt) ->
     exists h, grad_load f2 (gradient_dir fmt g1 d) = Ok h /\ same_grad g1 h).
Proof.
  intros H.
  destruct (@grad_ex f64 _ _ pos_a pos_a (PFloat pos_a)) as (g1 & M1 & R1 & P1 & N1 & _); [right; constructor|].
  destruct (@grad_ex f64 _ _ pos_a pos_a (PFloat pos_b)) as (g2 & M2 & R2 & P2 & N2 & _); [right; constructor|].
  destruct (measured_inv M1) as (_ & _ & I1 & J1 & _). destruct (measured_inv M2) as (_ & _ & I2 & J2 & _).
  destruct (two_saves g1 g2 I1 J1 I2 J2 P1 P2) as (f1 & f2 & E1 & E2).
  assert (S1 : storable g1) by (split; [rewrite P1; exact I|split; [rewrite P1; reflexivity|intros Q; contradiction]]).
  assert (S2 : storable g2) by (split; [rewrite P2; exact I|split; [rewrite P2; reflexivity|intros Q; contradiction]]).
  destruct pos_ab as (Qa & Qb & _).
  assert (Da : gradient_dir (fmt_fixed 4) g1 "d" = "d/gradient_0.0000") by (unfold gradient_dir; rewrite P1; change (num_of (PFloat pos_a)) with pos_a; rewrite Qa; reflexivity).
  assert (Db : gradient_dir (fmt_fixed 4) g2 "d" = "d/gradient_0.0000") by (unfold gradient_dir; rewrite P2; change (num_of (PFloat pos_b)) with pos_b; rewrite Qb; reflexivity).
  assert (Z : forall n, fs_get ([("d", NDir)] : fs f64) (under "d/gradient_0.0000" n) = None) by (intros n; reflexivity).
  destruct (H g1 g2 "d" [("d", NDir)] f1 f2 M1 R1 S1 M2 R2 S2) as (h & L & Q); auto.
  { rewrite P1, P2. exact val_pos_ab. }
  destruct (@grad_load_save f64 _ _ (fmt_fixed 4) g2 "d" f1 f2 M2 R2 S2) as (h' & L' & Q'); [|exact E2|].
  { intros _. destruct (@grad_save_get f64 _ (fmt_fixed 4) g1 "d" _ f1 I1 J1 E1) as (_ & _ & _ & D). rewrite Db. rewrite <- Da. rewrite (D N1). rewrite Da. apply Z. }
  rewrite Da in L. rewrite Db in L'. rewrite L in L'. injection L' as <-.
  destruct Q as (_ & _ & _ & _ & (_ & _ & V1) & _). destruct Q' as (_ & _ & _ & _ & (_ & _ & V2) & _).
  rewrite P1 in V1. rewrite P2 in V2. cbn [value] in V1, V2. apply val_pos_ab. rewrite V1, V2. reflexivity.
Qed.

(** a measured gradient, and another without measurement in its directory *)
Lemma grad_zero_ex : exists g1 g2 : ggrad f64, measured g1 /\ reachable (p_params (gg_prop g1)) /\ storable g1 /\ gg_pos g1 = PFloat pos_a /\
  gg_meas g1 = Some (PInt 0) /\ gg_orb g1 = Some (PInt 1) /\ gg_trans g1 = Some (PInt 1) /\ gg_err g1 = Some (PInt 1) /\
  measured g2 /\ reachable (p_params (gg_prop g2)) /\ storable g2 /\ gg_pos g2 = PFloat pos_b /\ gg_meas g2 = None.
Proof.
  destruct (@grad_ex f64 _ _ pos_a pos_a (PFloat pos_a)) as (g1 & M1 & R1 & P1 & N1 & _); [right; constructor|].
  destruct (@grad_ex f64 _ _ pos_a pos_a (PFloat pos_b)) as (g2 & M2 & R2 & P2 & N2 & _); [right; constructor|].
  assert (Sc : scaled_of (PInt 0 : pyval f64) (PInt 1) (PInt 1) = B754_zero false) by (vm_compute; exact eq_refl).
  assert (Z : determine_mask g1 (PInt 0) (PInt 1) (Some (PInt 1)) (Some (PInt 1)) = (masked_with (set_fields g1 (PInt 0) (PInt 1) (PInt 1) (PInt 1)) (scaled_of (PInt 0) (PInt 1) (PInt 1)), Ok tt)).
  { destruct (@determine_cases f64 _ _ g1 (PInt 0) (PInt 1) (Some (PInt 1)) (Some (PInt 1))) as (_ & _ & C); try (cbn; lia).
    - split; [left; constructor|]. split; [cbn; lra|]. split; [left; constructor|]. split; [cbn; lra|].
      split; intros w Hw; injection Hw as <-; (split; [left; constructor|]); cbn; try split; lra.
    - cbn [transmission err_or_1] in C. apply C.
      + cbn. intros Q. injection Q as Q. lra.
      + rewrite Sc. cbn. lra. }
  exists (masked_with (set_fields g1 (PInt 0) (PInt 1) (PInt 1) (PInt 1)) (scaled_of (PInt 0) (PInt 1) (PInt 1))), g2.
  split. { eapply ms_det; [exact M1| | | |exact Z]; [constructor; [cbn; lia|constructor; [cbn; lia|constructor]]|cbn; lia|cbn; lia]. }
  split; [exact R1|]. split. { split; [change (small (gg_pos g1)); rewrite P1; exact I|]. split; [change (is_bool_v (gg_pos g1) = false); rewrite P1; reflexivity|]. intros _. exists (PInt 0). split; [left; reflexivity|reflexivity]. }
  split; [exact P1|]. do 4 (split; [reflexivity|]). split; [exact M2|]. split; [exact R2|]. split; [|split; [exact P2|exact N2]].
  split; [rewrite P2; exact I|split; [rewrite P2; reflexivity|intros Q; contradiction]].
Qed.
Theorem unmeasured_loads_refuted :
  ~ (forall (g1 g2 : ggrad f64) d (f f1 f2 : fs f64), let fmt := fmt_fixed 4 in
     measured g1 -> reachable (p_params (gg_prop g1)) -> storable g1 ->
     measured g2 -> reachable (p_params (gg_prop g2)) -> storable g2 ->
     val (num_of (gg_pos g1)) <> val (num_of (gg_pos g2)) ->
     (forall n, fs_get f (under (gradient_dir fmt g1 d) n) = None) -> (forall n, fs_get f (under (gradient_dir fmt g2 d) n) = None) ->
     run f (grad_save fmt g1 d) = (f1, Ok tt) -> run f1 (grad_save fmt g2 d) = (f2, Ok tt) ->
     exists h, grad_load f2 (gradient_dir fmt g2 d) = Ok h /\ same_grad g2 h).
Proof.
  intros H. destruct grad_zero_ex as (g1 & g2 & M1 & R1 & S1 & P1 & X1 & X2 & X3 & X4 & M2 & R2 & S2 & P2 & N2).
  destruct (measured_inv M1) as (_ & _ & I1 & J1 & _). destruct (measured_inv M2) as (_ & _ & I2 & J2 & _).
  destruct (two_saves g1 g2 I1 J1 I2 J2 P1 P2) as (f1 & f2 & E1 & E2). destruct pos_ab as (Qa & Qb & _).
  assert (Da : gradient_dir (fmt_fixed 4) g1 "d" = "d/gradient_0.0000") by (unfold gradient_dir; rewrite P1; change (num_of (PFloat pos_a)) with pos_a; rewrite Qa; reflexivity).
  assert (Db : gradient_dir (fmt_fixed 4) g2 "d" = "d/gradient_0.0000") by (unfold gradient_dir; rewrite P2; change (num_of (PFloat pos_b)) with pos_b; rewrite Qb; reflexivity).
  assert (Z : forall n, fs_get ([("d", NDir)] : fs f64) (under "d/gradient_0.0000" n) = None) by (intros n; reflexivity).
  destruct (H g1 g2 "d" [("d", NDir)] f1 f2 M1 R1 S1 M2 R2 S2) as (h & L & Q); auto.
  { rewrite P1, P2. exact val_pos_ab. }
  assert (En : fmt_fixed 4 (num_of (gg_pos g1)) = fmt_fixed 4 (num_of (gg_pos g2))) by (rewrite P1, P2; change (num_of (PFloat pos_a)) with pos_a; change (num_of (PFloat pos_b)) with pos_b; rewrite Qa, Qb; reflexivity).
  destruct (@first_measurement f64 _ _ (fmt_fixed 4) g1 g2 "d" _ f1 f2 _ _ _ _ M1 S1 X1 X2 X3 X4 M2 R2 S2 N2 En E1 E2) as (gm & h' & Dm & L' & Q').
  rewrite L in L'. injection L' as <-. destruct Q as (_ & _ & _ & _ & _ & V1 & _). destruct Q' as (_ & _ & _ & _ & _ & V2 & _).
  rewrite N2 in V1. apply determine_ok_fields in Dm; [|cbn; lia..]. destruct Dm as (_ & _ & _ & ->).
  cbn [gg_meas masked_with set_fields with_prop same_onumber] in V2. destruct (gg_meas h); [exact V1|exact V2].
Qed.
