(** The text of a grid, and of the changes of a ring system. *)
From Coq Require Import ZArith Reals List Bool String Ascii Lia.
From Verif Require Import Num NumP Py SpecNum SpecProp Validate Ring FS GridParams GridDiag Names GridProp Viewer ViewerDraw Fmt SpecFmt FmtP SpecText.
From Verif Require RingSystem.
From Verif Require Import Geometry Build Shallot ShallotOps SpecBuild SpecOps AddLaws OpsP OpsReadP OpsEditP GridPropP Text TextRingP SpecShow TextShowP.
Import ListNotations.
Set Implicit Arguments.
Local Open Scope string_scope.

(** *** the changes of a ring system *)
Lemma words_trailing a n : words (a ++ spaces n) = words a.
Proof.
  induction n as [|n IH]; [now rewrite app_empty_s|]. change (spaces (S n)) with (String " " (spaces n)). rewrite words_app.
  rewrite <- (app_empty_s (spaces n)), words_spaces. change (words "") with (@nil string). apply app_nil_r.
Qed.
Lemma center_words n s : words (center n s) = words s.
Proof. unfold center. now rewrite words_spaces, words_trailing. Qed.
Lemma center_single n s : lacks nl s = true -> lacks nl (center n s) = true.
Proof. intros H. unfold center. now rewrite !lacks_app, H, !lacks_spaces. Qed.
Lemma substring_whole s : String.substring 0 (String.length s) s = s.
Proof. induction s as [|c s IH]; cbn; [reflexivity|now rewrite IH]. Qed.
Lemma lines_single s : lines_of s = [s] -> lacks nl s = true.
Proof.
  unfold lines_of. induction s as [|c s IH]; [reflexivity|]. cbn [split lacks]. destruct (Ascii.eqb c nl); [discriminate|].
  destruct (split nl s) as [|w l] eqn:E; [discriminate|]. intros H. injection H as -> ->. now rewrite IH.
Qed.
Lemma repr_starts h (s : RingSystem.rsys f64) : exists r, rsys_repr fmt_fixed h s = String nl r.
Proof. eexists. reflexivity. Qed.
Theorem changes_text action (before : bool) h (s : RingSystem.rsys f64) : lines_of action = [action] ->
  let l := lines_of (print_changes fmt_fixed action before h s) in
  reads l (if before then 2 else 1) ((if before then "Before:" else "After:") :: words action) /\
  skipn (if before then 3 else 2) l = tl (lines_of (rsys_repr fmt_fixed h s)).
Proof.
  intros A. apply lines_single in A. cbv zeta. unfold print_changes. destruct (repr_starts h s) as [r ->]. cbn [String.length].
  replace (String.substring 1 (S (String.length r) - 1) (String nl r)) with r.
  2:{ cbn [Nat.sub String.substring]. rewrite Nat.sub_0_r. symmetry. apply substring_whole. }
  change (tl (lines_of (String nl r))) with (lines_of r).
  rewrite lines_flat by discriminate.
  assert (H : forall b : string, lacks nl b = true -> lines_of b = [b]) by (intros b Hb; unfold lines_of; now apply split_lacks).
  assert (W : forall pre, lacks nl pre = true -> lines_of (center 66 (pre ++ action)) = [center 66 (pre ++ action)]).
  { intros pre P. apply H, center_single. now rewrite lacks_app, P, A. }
  destruct before; cbn [app flat_map]; rewrite W by reflexivity; rewrite app_nil_r; split; try reflexivity; eexists; (split; [reflexivity|]); rewrite center_words.
  - change ("Before: " ++ action) with ("Before:" ++ String " " action). now rewrite words_app.
  - change ("After: " ++ action) with ("After:" ++ String " " action). now rewrite words_app.
Qed.

(** *** a grid *)
Lemma abs_nan (x : f64) : f64_val x <> XNaN <-> f64_val (n_abs x) <> XNaN.
Proof. cbn [n_abs Num_f64]. rewrite f64_abs. destruct (f64_val x); cbn; split; congruence. Qed.
Lemma nan_val : f64_val (n_nan : f64) = XNaN. Proof. reflexivity. Qed.
Lemma worst_largest (l : list f64) : largest_size l (dflt n_nan (nanmax (map n_abs l))).
Proof.
  assert (S := nanmax_spec (map n_abs l)). destruct (nanmax (map n_abs l)) as [m|]; cbn [dflt].
  - right. destruct S as (A & B & C). apply in_map_iff in A. destruct A as (y & <- & Hy). change (@val f64 _ _) with f64_val in *. split.
    + exists y. split; [exact Hy|]. split; [cbn [n_abs Num_f64]; apply f64_abs|exact B].
    + intros z Hz Nz. assert (D := C (n_abs z) (in_map _ _ _ Hz) (proj1 (abs_nan z) Nz)). cbn [n_abs Num_f64] in D. rewrite f64_abs in D. exact D.
  - left. split; [exact nan_val|]. intros y Hy. assert (D := S (n_abs y) (in_map _ _ _ Hy)).
    destruct (f64_val y) eqn:E; [reflexivity| | |]; exfalso; apply (proj1 (abs_nan y)); try exact D; rewrite E; discriminate.
Qed.
Lemma map_res_inv {A B} (f : A -> res B) l r : map_res f l = Ok r -> Forall2 (fun a b => f a = Ok b) l r.
Proof.
  revert r. induction l as [|a l IH]; intros r H; cbn [map_res] in H.
  - apply ok_inj in H. subst r. constructor.
  - destruct (f a) as [b|] eqn:E; [|discriminate H]. cbn [bind] in H. destruct (map_res f l) as [m|] eqn:M; [|discriminate H]. cbn [bind] in H. apply ok_inj in H. subst r. constructor; auto.
Qed.
Section Grid.
Variables (E : env f64) (mean median : list f64 -> f64).
Theorem grid_text (s : shallot f64) t : sreach E s -> shallot_repr fmt_fixed mean median s = Ok t -> grid_shown mean median s (lines_of t).
Proof.
  intros Rs H. assert (I := reached_sinv Rs). destruct (union_of_masks Rs) as (mk & Hmk & Lmk & Cmk). unfold shallot_repr in H.
  destruct (s_dmap s) as [dm|] eqn:Ed; [|discriminate H]. cbn [bind] in H. rewrite Hmk in H. cbn [bind] in H.
  destruct (params_repr fmt_fixed (s_params s)) as [g|] eqn:Eg; [|discriminate H]. cbn [bind] in H.
  destruct (gprop_repr fmt_fixed mean median (s_dr s)) as [a|] eqn:Ea; [|discriminate H]. cbn [bind] in H.
  destruct (gprop_repr fmt_fixed mean median (s_tilt s)) as [b|] eqn:Eb; [|discriminate H]. cbn [bind] in H.
  destruct (gprop_repr fmt_fixed mean median (s_inc s)) as [c|] eqn:Ec; [|discriminate H]. cbn [bind] in H.
  destruct (map_res (ggrad_repr fmt_fixed mean median) (dflt [] (s_grads s))) as [gr|] eqn:Er; [|discriminate H]. cbn [bind] in H.
  apply ok_inj in H. subst t. apply map_res_inv in Er.
  assert (Pg := params_text _ Eg).
  destruct (@prop_repr_shown mean median _ _ (proj1 (i_cubes I WRadius)) Ea) as (_ & Ha & Sa).
  destruct (@prop_repr_shown mean median _ _ (proj1 (i_cubes I WTilt)) Eb) as (_ & Hb & Sb).
  destruct (@prop_repr_shown mean median _ _ (proj1 (i_cubes I WInclination)) Ec) as (_ & Hc & Sc).
  assert (Ppos : (0 < points s)%nat).
  { destruct Pg as (_ & _ & (x0 & x1 & _ & _ & _ & (X & _) & _) & (y0 & y1 & _ & _ & _ & (Y & _) & _) & (r & _ & _ & R & _) & _). unfold points.
    destruct (g_dx (s_params s)); [discriminate X|]. destruct (g_dy (s_params s)); [discriminate Y|]. destruct (g_rfa (s_params s)); [discriminate R|]. cbn [List.length]. lia. }
  set (x := percent _ _). set (y := dflt n_nan _).
  exists (lines_of g), (lines_of a), (lines_of b), (lines_of c), (map lines_of gr), (match s_diag s with None => [] | Some d => lines_of (diag_repr d) end),
    ("percentage masked: " ++ fmt_fixed 2 x ++ "%"), ("worst interpolation fit: " ++ fmt_fixed 9 y).
  split.
  { rewrite lines_flat by discriminate. cbn [app flat_map]. rewrite !flat_map_app. rewrite (flat_map_concat_map lines_of gr).
    assert (Q : forall b : string, lacks nl b = true -> lines_of b = [b]) by (intros b' Hb'; unfold lines_of; now apply split_lacks).
    assert (Q1 : lines_of ("percentage masked: " ++ fmt_fixed 2 x ++ "%") = ["percentage masked: " ++ fmt_fixed 2 x ++ "%"]).
    { apply Q. rewrite !lacks_app. assert (Z := tidy_fmt 2 x). apply andb_prop in Z as [_ Z]. now rewrite Z. }
    assert (Q2 : lines_of ("worst interpolation fit: " ++ fmt_fixed 9 y) = ["worst interpolation fit: " ++ fmt_fixed 9 y]).
    { apply Q. rewrite !lacks_app. assert (Z := tidy_fmt 9 y). apply andb_prop in Z as [_ Z]. now rewrite Z. }
    cbn [flat_map]. rewrite Q1, Q2. destruct (s_diag s); cbn [flat_map app]; rewrite ?app_nil_r; reflexivity. }
  split; [exact Pg|]. split; [exact Sa|]. split; [exact Sb|]. split; [exact Sc|]. split; [exact Ha|]. split; [exact Hb|]. split; [exact Hc|]. split.
  { fold (dflt [] (s_grads s)).
    assert (G : Forall (fun g => prop_inv (gg_prop g)) (dflt [] (s_grads s))).
    { destruct (s_grads s) as [gs|] eqn:Egs; cbn [dflt]; [|constructor]. apply Forall_impl with (2 := i_grads I Egs). intros g0 [X _]. exact X. }
    clear - Er G. induction Er as [|g0 t0 l l' H0 Hl IH]; cbn [map]; [constructor|]. inversion G; subst. constructor; [now apply grad_repr_shown|now apply IH]. }
  split; [destruct (s_diag s); [apply diag_text|reflexivity]|]. split.
  - exists (fmt_fixed 2 x ++ "%"), x, (List.length (filter (fun b => b) mk)). split.
    { change ("percentage masked: " ++ fmt_fixed 2 x ++ "%") with ("percentage masked:" ++ String " " (fmt_fixed 2 x ++ "%")). rewrite words_end; [reflexivity| |apply app_nonempty; discriminate].
      rewrite tidy_app, tidy_fmt. reflexivity. }
    split; [exists (fmt_fixed 2 x); split; [reflexivity|apply writes_fmt]|].
    assert (F := filter_seq (fun b => b) mk (fun i => nth i mk false) 0 (fun i x H => nth_error_nth mk i false H)). rewrite F, Lmk. split.
    + destruct (counts_filter (fun i => nth i mk false) (points s)) as (l & N & In & L). exists l. split; [exact N|]. split; [|exact L].
      intros i. rewrite In. split; intros [P Q]; (split; [exact P|]); now apply Cmk.
    + intros Hz. unfold x. rewrite (points_volume I), F, Lmk. apply percent_share; auto.
      rewrite <- (seq_length (points s) 0) at 2. generalize (seq 0 (points s)). intros l. induction l as [|a0 l IH]; cbn [filter List.length]; [lia|]. destruct (nth a0 mk false); cbn [List.length]; lia.
  - exists (fmt_fixed 9 y), y, dm. split.
    { change ("worst interpolation fit: " ++ fmt_fixed 9 y) with ("worst interpolation fit:" ++ String " " (fmt_fixed 9 y)). rewrite words_end; [reflexivity|apply tidy_fmt|apply fmt_nonempty]. }
    split; [apply writes_fmt|]. split; [exact Ed|]. apply worst_largest.
Qed.
End Grid.
