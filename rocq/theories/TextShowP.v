(** Proofs about the texts of diagnostics, parameters, properties, gradients and grids. *)
From Coq Require Import ZArith Reals List Bool String Ascii Lia Lra.
From Flocq Require Import Core BinarySingleNaN.
From Verif Require Import Num NumP Py SpecNum SpecProp Validate Ring FS GridParams GridDiag Names GridProp Viewer ViewerDraw Fmt SpecFmt FmtP SpecText.
From Verif Require RingSystem.
From Verif Require Import Geometry Build Shallot ShallotOps GridPropP Text TextRingP SpecShow Round64P GeomF64P.
Import ListNotations.
Set Implicit Arguments.
Local Open Scope string_scope.

Notation nl := (ascii_of_nat 10).
Notation single := (fun s => lacks nl s = true).

Lemma app_empty_s (a : string) : a ++ "" = a.
Proof. induction a as [|c a IH]; cbn; [reflexivity|now rewrite IH]. Qed.
Lemma lines_join l : l <> [] -> Forall single l -> lines_of (join newline l) = l.
Proof. intros N F. unfold lines_of, newline. rewrite split_join by auto. now apply flat_single. Qed.
Lemma lines_flat l : l <> [] -> lines_of (join newline l) = flat_map lines_of l.
Proof. intros N. unfold lines_of, newline. now rewrite split_join. Qed.

(** *** diagnostics *)
Lemma words_end a w : tidy w = true -> w <> "" -> words (a ++ String " " w) = app (words a) [w].
Proof. intros A B. rewrite words_app. f_equal. exact (words_tidy A B). Qed.
Theorem diag_text (d : gdiag f64) : diag_shown d (lines_of (diag_repr d)).
Proof.
  unfold diag_shown, diag_repr. set (n := List.length (d_fy d)).
  rewrite lines_join; [|discriminate|].
  - split; [reflexivity|]. split; [eexists; split; reflexivity|]. exists (str_nat n). split; [|apply read_str_nat].
    eexists. split; [reflexivity|]. change ("diagnostics saved: " ++ str_nat n) with ("diagnostics saved:" ++ String " " (str_nat n)).
    rewrite words_end by (apply tidy_nat || apply nat_nonempty). reflexivity.
  - repeat constructor. rewrite lacks_app. assert (H := tidy_nat n). apply andb_prop in H as [_ H]. now rewrite H.
Qed.

(** *** parameters *)
Lemma ok_inj {A} (a b : A) : Ok a = Ok b -> a = b. Proof. now injection 1. Qed.
Lemma last_at {A} (l : list A) x r : rev l = x :: r -> nth_error l (List.length l - 1) = Some x.
Proof.
  intros H. rewrite <- (rev_involutive l), H. cbn [rev]. rewrite app_length, rev_length. cbn [List.length].
  rewrite nth_error_app2 by (rewrite rev_length; lia). rewrite rev_length. now replace (List.length r + 1 - 1 - List.length r) with 0 by lia.
Qed.
Lemma from_to_ends {T} {NT : Num T} (l : list T) a b : ends l = Ok (a, b) -> from_to l a b.
Proof.
  unfold ends, last_opt. destruct l as [|x l]; [discriminate|]. destruct (rev (x :: l)) as [|y r] eqn:E; cbn [bind]; [discriminate|].
  intros H. injection H as <- <-. split; [reflexivity|]. exact (last_at _ E).
Qed.
Definition paren (w : string) : string := "(" ++ w ++ ")".
Lemma tidy_paren n : tidy (paren (str_nat n)) = true.
Proof. unfold paren. rewrite !tidy_app, tidy_nat. reflexivity. Qed.
Lemma counted_paren n : counted n (paren (str_nat n)).
Proof. exists (str_nat n). split; [reflexivity|apply read_str_nat]. Qed.

Lemma range_words' label lo hi n : words (label ++ " " ++ rjust 6 (fmt_fixed 2 lo) ++ " -> " ++ rjust 6 (fmt_fixed 2 hi) ++ " (" ++ str_nat n ++ ")") =
  app (words label) [fmt_fixed 2 lo; "->"; fmt_fixed 2 hi; paren (str_nat n)].
Proof.
  cbn [append]. rewrite words_app. f_equal.
  rewrite words_rjust_then by (apply tidy_fmt || apply fmt_nonempty). f_equal.
  change ("-> " ++ rjust 6 (fmt_fixed 2 hi) ++ String " " ("(" ++ str_nat n ++ ")")) with ("->" ++ String " " (rjust 6 (fmt_fixed 2 hi) ++ String " " (paren (str_nat n)))).
  change (String "-" (String ">" (String " " (rjust 6 (fmt_fixed 2 hi) ++ String " " (String "(" (str_nat n ++ ")")))))) with ("->" ++ String " " (rjust 6 (fmt_fixed 2 hi) ++ String " " (paren (str_nat n)))).
  rewrite words_app. change (words "->") with ["->"]. cbn [app]. f_equal.
  rewrite words_rjust_then by (apply tidy_fmt || apply fmt_nonempty). f_equal. apply words_tidy; [apply tidy_paren|]. unfold paren. discriminate.
Qed.
Lemma tidy_lacks w : tidy w = true -> lacks nl w = true.
Proof. intros H. now apply andb_prop in H as [_ H]. Qed.
Lemma range_single name lo hi n : lacks nl name = true -> lacks nl (range_line fmt_fixed name lo hi n) = true.
Proof.
  intros H. unfold range_line. rewrite !lacks_app, H, !lacks_rjust by apply tidy_fmt. rewrite (tidy_lacks _ (tidy_nat n)). reflexivity.
Qed.

Definition rf_line (top : f64) (n : nat) : string :=
  "rf: " ++ rjust 6 (fmt_fixed 2 top) ++ " -> " ++ rjust 6 (fmt_fixed 2 n_one) ++ " -> " ++ rjust 6 (fmt_fixed 2 top) ++ " (" ++ str_nat n ++ ")".
Lemma rf_words top n : words (rf_line top n) = ["rf:"; fmt_fixed 2 top; "->"; fmt_fixed 2 n_one; "->"; fmt_fixed 2 top; paren (str_nat n)].
Proof.
  unfold rf_line. 
  change ("rf: " ++ ?x) with ("rf:" ++ String " " x).
  change (words ("rf:" ++ String " " (rjust 6 (fmt_fixed 2 top) ++ String " " ("->" ++ String " " (rjust 6 (fmt_fixed 2 n_one) ++ " -> " ++ rjust 6 (fmt_fixed 2 top) ++ " (" ++ str_nat n ++ ")")))) =
    ["rf:"; fmt_fixed 2 top; "->"; fmt_fixed 2 n_one; "->"; fmt_fixed 2 top; paren (str_nat n)]).
  rewrite words_app. change (words "rf:") with ["rf:"]. cbn [app]. f_equal.
  rewrite words_rjust_then by (apply tidy_fmt || apply fmt_nonempty). f_equal.
  rewrite words_app. change (words "->") with ["->"]. cbn [app]. f_equal.
  assert (W := range_words' "" n_one top n). rewrite <- words_space. exact W.
Qed.
Lemma rf_single top n : lacks nl (rf_line top n) = true.
Proof. unfold rf_line. rewrite !lacks_app, !lacks_rjust by apply tidy_fmt. rewrite (tidy_lacks _ (tidy_nat n)). reflexivity. Qed.

Lemma shape_words a b c : words ("grid_shape: " ++ str_shape (a, b, c)) = ["grid_shape:"; "(" ++ str_nat a ++ ","; str_nat b ++ ","; str_nat c ++ ")"].
Proof.
  unfold str_shape.
  replace ("grid_shape: " ++ "(" ++ str_nat a ++ ", " ++ str_nat b ++ ", " ++ str_nat c ++ ")") with
    ("grid_shape:" ++ String " " (("(" ++ str_nat a ++ ",") ++ String " " ((str_nat b ++ ",") ++ String " " (str_nat c ++ ")")))).
  2:{ cbn [append]. rewrite !app_assoc_s. reflexivity. }
  rewrite !words_app. change (words "grid_shape:") with ["grid_shape:"]. cbn [app]. f_equal.
  rewrite !words_tidy; try (rewrite !tidy_app, tidy_nat; reflexivity); [reflexivity| | |]; try (apply app_nonempty; discriminate). discriminate.
Qed.

Theorem params_text (g : gparams f64) t : params_repr fmt_fixed g = Ok t -> params_shown g (lines_of t).
Proof.
  intros H. unfold params_repr in H.
  destruct (ends (g_dx g)) as [[x0 x1]|] eqn:Ex; cbn [bind] in H; [|discriminate].
  destruct (ends (g_dy g)) as [[y0 y1]|] eqn:Ey; cbn [bind] in H; [|discriminate].
  destruct (ends (g_rfa g)) as [[r0 r1]|] eqn:Er; cbn [bind] in H; [|discriminate].
  apply ok_inj in H. subst t. cbv zeta. cbn [fst snd].
  unfold params_shown.
  change ("rf: " ++ ?x) with (rf_line r0 (List.length (g_rfa g))).
  apply from_to_ends in Ex, Ey, Er. destruct (g_shape g) as [[i j] k].
  rewrite lines_join; [|discriminate|].
  - split; [reflexivity|]. split; [eexists; split; reflexivity|]. split; [|split; [|split]].
    + exists x0, x1, (fmt_fixed 2 x0), (fmt_fixed 2 x1), (paren (str_nat (List.length (g_dx g)))). split; [exact Ex|].
      split; [eexists; split; [reflexivity|exact (range_words' "dx:" x0 x1 _)]|]. split; [apply writes_fmt|]. split; [apply writes_fmt|apply counted_paren].
    + exists y0, y1, (fmt_fixed 2 y0), (fmt_fixed 2 y1), (paren (str_nat (List.length (g_dy g)))). split; [exact Ey|].
      split; [eexists; split; [reflexivity|exact (range_words' "dy:" y0 y1 _)]|]. split; [apply writes_fmt|]. split; [apply writes_fmt|apply counted_paren].
    + exists r0, (fmt_fixed 2 r0), (paren (str_nat (List.length (g_rfa g)))). split; [exact (proj1 Er)|].
      split; [eexists; split; [reflexivity|]|split; [apply writes_fmt|apply counted_paren]]. rewrite rf_words. replace (fmt_fixed 2 n_one) with "1.00" by (vm_compute; exact eq_refl). reflexivity.
    + exists (str_nat i), (str_nat j), (str_nat k). split; [eexists; split; [reflexivity|apply shape_words]|]. exists i, j, k. now rewrite !read_str_nat.
  - repeat apply Forall_cons; try apply Forall_nil; [reflexivity|reflexivity|reflexivity|apply range_single; reflexivity|apply range_single; reflexivity|apply rf_single|]. unfold str_shape. rewrite !lacks_app, (tidy_lacks _ (tidy_nat i)), (tidy_lacks _ (tidy_nat j)), (tidy_lacks _ (tidy_nat k)). reflexivity.
Qed.

(** *** properties *)
Lemma label_words label n k (x : f64) : words (label ++ String " " (rjust n (fmt_fixed k x))) = app (words label) [fmt_fixed k x].
Proof. rewrite words_app. f_equal. apply words_rjust; [apply tidy_fmt|apply fmt_nonempty]. Qed.
Lemma label_single label n k (x : f64) : lacks nl label = true -> lacks nl (label ++ rjust n (fmt_fixed k x)) = true.
Proof. intros H. rewrite lacks_app, H, lacks_rjust by apply tidy_fmt. reflexivity. Qed.
Lemma reads_number l i label ws n k (x : f64) : nth_error l i = Some (label ++ String " " (rjust n (fmt_fixed k x))) -> words label = ws ->
  exists w, reads l i (app ws [w]) /\ writes k x w.
Proof. intros H <-. exists (fmt_fixed k x). split; [|apply writes_fmt]. eexists. split; [exact H|apply label_words]. Qed.
(** a number justified together with a percent sign *)
Lemma words_percent label n k (x : f64) : words (label ++ String " " (rjust n (fmt_fixed k x) ++ "%")) = app (words label) [fmt_fixed k x ++ "%"].
Proof.
  rewrite words_app. f_equal. unfold rjust. rewrite app_assoc_s, words_spaces. apply words_tidy.
  - rewrite tidy_app, tidy_fmt. reflexivity.
  - apply app_nonempty. discriminate.
Qed.

Lemma heading_single n u : lacks nl (get_name n ++ " [" ++ get_unit u ++ "]") = true.
Proof. destruct n, u; vm_compute; reflexivity. Qed.
Lemma fo_ok k o s : fo fmt_fixed k o = Ok s -> exists v, o = Some v /\ s = fmt_fixed k (num_of v).
Proof.
  unfold fo, fv. destruct o as [v|]; cbn [dflt]; [|discriminate]. intros H. exists v. split; [reflexivity|].
  destruct v; try discriminate H; now apply ok_inj in H.
Qed.
Section Stats.
Variables mean median : list f64 -> f64.
Definition prop_head (p : gprop f64) lo up : list string :=
  [""; get_name (p_name p) ++ " [" ++ get_unit (p_unit p) ++ "]"; copies 28 "-";
   "min value:    " ++ rjust 13 (fmt_fixed 4 lo); "max value:    " ++ rjust 13 (fmt_fixed 4 up);
   "mean value:   " ++ rjust 13 (fmt_fixed 4 (mean (p_data p))); "median value: " ++ rjust 13 (fmt_fixed 4 (median (p_data p)))].
Definition mask_lines (p : gprop f64) : list string :=
  match p_mask p with
  | None => []
  | Some m => [""; "mask [out]:  " ++ rjust 14 (fmt_fixed 4 (percent (count_true (ma_elems m)) (volume (ma_shape m)))) ++ "%"]
  end.
Lemma prop_lines_inv (p : gprop f64) l : gprop_lines fmt_fixed mean median p = Ok l ->
  exists lo up, p_vmin p = Some lo /\ p_vmax p = Some up /\ l = app (prop_head p (num_of lo) (num_of up)) (mask_lines p).
Proof.
  unfold gprop_lines. intros H. destruct (fo fmt_fixed 4 (p_vmin p)) as [a|] eqn:A; [|discriminate H]. cbn [bind] in H.
  destruct (fo fmt_fixed 4 (p_vmax p)) as [b|] eqn:B; [|discriminate H]. cbn [bind] in H.
  destruct (fo_ok _ _ A) as (lo & L & ->). destruct (fo_ok _ _ B) as (up & U & ->). apply ok_inj in H. exists lo, up. auto.
Qed.
Lemma head_single p lo up : Forall single (prop_head p lo up).
Proof.
  unfold prop_head. repeat apply Forall_cons; try apply Forall_nil; [reflexivity|apply heading_single|reflexivity| | | |]; apply label_single; reflexivity.
Qed.
Lemma mask_single p : Forall single (mask_lines p).
Proof.
  unfold mask_lines. destruct (p_mask p) as [m|]; [|constructor]. repeat apply Forall_cons; try apply Forall_nil; [reflexivity|].
  rewrite !lacks_app, lacks_rjust by apply tidy_fmt. reflexivity.
Qed.
Lemma prop_single p l : gprop_lines fmt_fixed mean median p = Ok l -> Forall single l.
Proof. intros H. destruct (prop_lines_inv _ H) as (lo & up & _ & _ & ->). apply Forall_app. split; [apply head_single|apply mask_single]. Qed.
End Stats.

(** counting *)
Lemma counts_filter (f : nat -> bool) n : counts (fun i => f i = true) n (List.length (filter f (seq 0 n))).
Proof.
  exists (filter f (seq 0 n)). split; [apply NoDup_filter, seq_NoDup|]. split; [|reflexivity].
  intros i. rewrite filter_In, in_seq. intuition lia.
Qed.
Lemma filter_seq {A} (g : A -> bool) (l : list A) : forall (f : nat -> bool) s, (forall i x, nth_error l i = Some x -> f (s + i) = g x) ->
  List.length (filter g l) = List.length (filter f (seq s (List.length l))).
Proof.
  induction l as [|a l IH]; intros f s H; [reflexivity|]. cbn [List.length seq filter].
  assert (H0 := H 0 a eq_refl). rewrite Nat.add_0_r in H0. rewrite H0.
  assert (IH' := IH f (S s) (fun i x Hx => eq_trans (f_equal f (Nat.add_succ_comm s i)) (H (S i) x Hx))).
  destruct (g a); cbn [List.length]; now rewrite IH'.
Qed.

Local Open Scope R_scope.
Lemma percent_share c v : (0 < v)%nat -> (c <= v)%nat -> (Z.of_nat v <= 2 ^ 53)%Z -> share c v (percent c v).
Proof.
  intros Pv Hc Hv. unfold share, percent.
  assert (V1 : f64_val (n_ofZ (Z.of_nat c) : f64) = XFin (INR c)) by (rewrite INR_IZR_INZ; apply of_Z; lia).
  assert (V2 : f64_val (n_ofZ (Z.of_nat v) : f64) = XFin (INR v)) by (rewrite INR_IZR_INZ; apply of_Z; lia).
  assert (V3 : f64_val (n_ofZ 100 : f64) = XFin 100) by (apply (of_Z 100); vm_compute; discriminate).
  assert (Rv : 1 <= INR v) by (apply (le_INR 1 v); lia). assert (Rc : 0 <= INR c <= INR v) by (split; [apply pos_INR|now apply le_INR]).
  assert (Rv2 : INR v <= B 53). { rewrite INR_IZR_INZ. change (B 53) with (IZR (2 ^ 53)). now apply IZR_le. }
  assert (U := ulp1_pos).
  assert (Q0 : 0 <= INR c / INR v <= 1).
  { split; [apply Rmult_le_pos; [lra|apply Rlt_le, Rinv_0_lt_compat; lra]|]. apply Rmult_le_reg_r with (INR v); [lra|]. unfold Rdiv. rewrite Rmult_assoc, Rinv_l by lra. lra. }
  assert (R1 : in_range (INR c / INR v) /\ (c <> 0%nat -> B (-53) <= INR c / INR v)).
  { assert (K : c <> 0%nat -> B (-53) <= INR c / INR v).
    { intros N. assert (1 <= INR c) by (apply (le_INR 1 c); lia). change (-53)%Z with (- (53))%Z. rewrite bpow_opp. unfold Rdiv. apply Rle_trans with (1 * / INR v).
      - rewrite Rmult_1_l. apply Rinv_le; lra.
      - apply Rmult_le_compat_r; [apply Rlt_le, Rinv_0_lt_compat; lra|lra]. }
    split; [|exact K]. destruct (Nat.eq_dec c 0) as [->|N]; [left; cbn [INR]; unfold Rdiv; ring|]. right. rewrite Rabs_pos_eq by lra. split.
    - apply Rle_trans with (B (-53)); [apply bpow_le; lia|auto].
    - apply Rle_trans with (B 0); [change (B 0) with 1; lra|apply bpow_le; lia]. }
  destruct R1 as [R1 K]. destruct (div64 _ _ V1 V2) as (d & Dd & V4); [lra|exact R1|]. apply Rabs_le_inv in Dd.
  destruct (mul64 _ _ V3 V4) as (d' & Dd' & V5).
  { destruct (Nat.eq_dec c 0) as [->|N]; [left; cbn [INR]; unfold Rdiv; ring|]. right. specialize (K N). assert (0 < B (-53)) by apply bpow_gt_0.
    assert (G : B (-53) <= 100 * (INR c / INR v * (1 + d)) <= 128). { split; nra. }
    rewrite Rabs_pos_eq by lra. split.
    - apply Rle_trans with (B (-53)); [apply bpow_le; lia|lra].
    - apply Rle_trans with (B 7); [change (B 7) with 128; lra|apply bpow_le; lia]. }
  exists (100 * (INR c / INR v * (1 + d)) * (1 + d')). split; [exact V5|]. apply Rabs_le_inv in Dd'.
  replace (100 * (INR c / INR v * (1 + d)) * (1 + d') - 100 * INR c / INR v) with ((d + d' + d * d') * (100 * INR c / INR v)) by (unfold Rdiv; ring).
  assert (Q1 : 0 <= 100 * INR c / INR v) by (unfold Rdiv in *; nra). rewrite Rabs_mult, (Rabs_pos_eq (100 * INR c / INR v)) by exact Q1.
  apply Rmult_le_compat_r; [exact Q1|]. assert (B (-51) = 4 * ulp1) by (unfold ulp1; change 4 with (B 2); rewrite <- bpow_plus; reflexivity).
  rewrite H. apply Rabs_le. nra.
Qed.
Local Close Scope R_scope.

Lemma mask_count (p : gprop f64) m : prop_inv p -> p_mask p = Some m ->
  counts (fun i => marked (p_mask p) i = true) (volume (p_shape p)) (count_true (ma_elems m)) /\ volume (ma_shape m) = volume (p_shape p) /\
  (count_true (ma_elems m) <= volume (p_shape p))%nat.
Proof.
  intros (_ & _ & I) Hm. destruct (I m Hm) as (_ & S & L & Fb). rewrite S, <- L. unfold count_true.
  rewrite (filter_seq (scal_true (T := f64)) (ma_elems m) (marked (p_mask p)) 0).
  - split; [apply counts_filter|]. split; [reflexivity|]. rewrite <- (seq_length (List.length (ma_elems m)) 0) at 2. generalize (seq 0 (List.length (ma_elems m))). intros l. induction l as [|a l IH]; cbn [filter List.length]; [lia|]. destruct (marked _ a); cbn [List.length]; lia.
  - intros i x Hx. cbn [Nat.add]. unfold marked. rewrite Hm, Hx. assert (Sb : is_SB x) by (apply (proj1 (Forall_forall _ _) Fb), nth_error_In with i; exact Hx).
    rewrite (scal_true_SB _ Sb). destruct x; reflexivity.
Qed.

Lemma heading_eq (p : gprop f64) : title_prefix p = heading p.
Proof. unfold title_prefix, heading. destruct (p_name p), (p_unit p); reflexivity. Qed.
Section Shown.
Variables mean median : list f64 -> f64.
Lemma shown_lines (p : gprop f64) lo up tail : prop_inv p -> p_vmin p = Some lo -> p_vmax p = Some up ->
  prop_shown mean median p (app (app (prop_head mean median p (num_of lo) (num_of up)) (mask_lines p)) tail).
Proof.
  intros I L U. unfold prop_shown, prop_head. cbn [app]. split; [|split; [|split; [|split]]].
  - destruct (@reads_number (app (app (prop_head mean median p (num_of lo) (num_of up)) (mask_lines p)) tail) 3 "min value:   " ["min"; "value:"] 13 4 (num_of lo) eq_refl eq_refl) as (w & R & W). exists lo, w. auto.
  - destruct (@reads_number (app (app (prop_head mean median p (num_of lo) (num_of up)) (mask_lines p)) tail) 4 "max value:   " ["max"; "value:"] 13 4 (num_of up) eq_refl eq_refl) as (w & R & W). exists up, w. auto.
  - destruct (@reads_number (app (app (prop_head mean median p (num_of lo) (num_of up)) (mask_lines p)) tail) 5 "mean value:  " ["mean"; "value:"] 13 4 (mean (p_data p)) eq_refl eq_refl) as (w & R & W). exists w. auto.
  - destruct (@reads_number (app (app (prop_head mean median p (num_of lo) (num_of up)) (mask_lines p)) tail) 6 "median value:" ["median"; "value:"] 13 4 (median (p_data p)) eq_refl eq_refl) as (w & R & W). exists w. auto.
  - intros Hm. destruct (p_mask p) as [m|] eqn:Em; [|contradiction]. unfold mask_lines. rewrite Em.
    set (x := percent (count_true (ma_elems m)) (volume (ma_shape m))). exists (fmt_fixed 4 x ++ "%"), x. split; [|split].
    + eexists. split; [reflexivity|]. change ("mask [out]:  " ++ rjust 14 (fmt_fixed 4 x) ++ "%") with ("mask [out]: " ++ String " " (rjust 14 (fmt_fixed 4 x) ++ "%")). now rewrite words_percent.
    + exists (fmt_fixed 4 x). split; [reflexivity|apply writes_fmt].
    + destruct (mask_count I Em) as (C & V & Le). exists (count_true (ma_elems m)). rewrite Em in C. rewrite Em. split; [exact C|]. intros P H. unfold x. rewrite V. now apply percent_share.
Qed.

Lemma prop_repr_shown (p : gprop f64) t : prop_inv p -> gprop_repr fmt_fixed mean median p = Ok t -> let l := lines_of t in
  List.length l = match p_mask p with None => 7 | Some _ => 9 end /\ nth_error l 1 = Some (heading p) /\ prop_shown mean median p l.
Proof.
  intros R H. unfold gprop_repr in H. destruct (gprop_lines fmt_fixed mean median p) as [l|] eqn:E; [|discriminate H]. cbn [bind] in H. apply ok_inj in H. subst t. cbv zeta.
  assert (S := prop_single _ _ _ E). destruct (prop_lines_inv _ _ _ E) as (lo & up & L & U & ->). rewrite lines_join; [|discriminate|exact S].
  split; [unfold mask_lines; destruct (p_mask p); reflexivity|]. split; [rewrite <- heading_eq; reflexivity|].
  rewrite <- (app_nil_r (app _ (mask_lines p))). now apply shown_lines.
Qed.
Theorem prop_text (p : gprop f64) t : preach p -> gprop_repr fmt_fixed mean median p = Ok t -> let l := lines_of t in
  List.length l = match p_mask p with None => 7 | Some _ => 9 end /\ nth_error l 1 = Some (heading p) /\ prop_shown mean median p l.
Proof. intros R. apply prop_repr_shown. now apply preach_inv. Qed.

(** *** gradients *)
Lemma fv_ok k v s : fv fmt_fixed k v = Ok s -> s = fmt_fixed k (num_of v).
Proof. unfold fv. destruct v; try discriminate; intros H; now apply ok_inj in H. Qed.
Definition grad_head (g : ggrad f64) : string := heading (gg_prop g) ++ " @ pos = " ++ rjust 7 (fmt_fixed 4 (num_of (gg_pos g))).
Lemma grad_head_words g : words (grad_head g) = app (words (heading (gg_prop g))) ["@"; "pos"; "="; fmt_fixed 4 (num_of (gg_pos g))].
Proof.
  unfold grad_head. change (" @ pos = " ++ ?x) with (String " " ("@ pos =" ++ String " " x)).
  change (heading (gg_prop g) ++ " @ pos = " ++ rjust 7 (fmt_fixed 4 (num_of (gg_pos g)))) with (title_prefix (gg_prop g) ++ String " " ("@ pos =" ++ String " " (rjust 7 (fmt_fixed 4 (num_of (gg_pos g)))))).
  rewrite words_app. f_equal. rewrite label_words. reflexivity.
Qed.
Definition grad_tail (g : ggrad f64) m e o t : list string :=
  ["measured gradient:   " ++ rjust 6 (fmt_fixed 4 (num_of m)); "measured error:      " ++ rjust 6 (fmt_fixed 4 (num_of e));
   "orbital scale:    " ++ rjust 9 (fmt_fixed 4 (num_of o)); "transmission change: " ++ rjust 6 (fmt_fixed 4 (num_of t))].
Lemma grad_lines_inv (g : ggrad f64) l : ggrad_lines fmt_fixed mean median g = Ok l ->
  exists lo up, p_vmin (gg_prop g) = Some lo /\ p_vmax (gg_prop g) = Some up /\
    exists body, app (prop_head mean median (gg_prop g) (num_of lo) (num_of up)) (mask_lines (gg_prop g)) = "" :: title_prefix (gg_prop g) :: body /\
    (p_mask (gg_prop g) = None /\ l = "" :: grad_head g :: body \/
     p_mask (gg_prop g) <> None /\ exists m e o t, gg_meas g = Some m /\ gg_err g = Some e /\ gg_orb g = Some o /\ gg_trans g = Some t /\
       l = app ("" :: grad_head g :: body) (grad_tail g m e o t)).
Proof.
  unfold ggrad_lines. intros H. destruct (gprop_lines fmt_fixed mean median (gg_prop g)) as [pl|] eqn:E; [|discriminate H]. cbn [bind] in H.
  destruct (prop_lines_inv _ _ _ E) as (lo & up & L & U & ->). exists lo, up. split; [exact L|]. split; [exact U|].
  destruct (fv fmt_fixed 4 (gg_pos g)) as [ps|] eqn:P; [|discriminate H]. cbn [bind] in H. apply fv_ok in P. subst ps.
  eexists. split; [reflexivity|]. cbn [prop_head app] in H.
  destruct (p_mask (gg_prop g)) as [mk|] eqn:Em.
  - right. split; [discriminate|].
    destruct (fo fmt_fixed 4 (gg_meas g)) as [a|] eqn:Ha; [|discriminate H]. cbn [bind] in H. destruct (fo fmt_fixed 4 (gg_err g)) as [b|] eqn:Hb; [|discriminate H]. cbn [bind] in H.
    destruct (fo fmt_fixed 4 (gg_orb g)) as [c|] eqn:Hc; [|discriminate H]. cbn [bind] in H. destruct (fo fmt_fixed 4 (gg_trans g)) as [d|] eqn:Hd; [|discriminate H]. cbn [bind] in H.
    destruct (fo_ok _ _ Ha) as (m & Hm & ->). destruct (fo_ok _ _ Hb) as (e & He & ->). destruct (fo_ok _ _ Hc) as (o & Ho & ->). destruct (fo_ok _ _ Hd) as (t & Ht & ->).
    exists m, e, o, t. repeat (split; [assumption|]). apply ok_inj in H. rewrite <- H. unfold grad_head. rewrite <- heading_eq. unfold title_prefix. rewrite !app_assoc_s. reflexivity.
  - left. split; [reflexivity|]. apply ok_inj in H. rewrite <- H. unfold grad_head. rewrite <- heading_eq. unfold title_prefix. rewrite !app_assoc_s. reflexivity.
Qed.

Lemma determine_prop (g : ggrad f64) a b c d : prop_inv (gg_prop g) -> prop_inv (gg_prop (fst (determine_mask g a b c d))).
Proof.
  intros H. unfold determine_mask. destruct (number a _ _ _ _); [|exact H]. destruct (number b _ _ _ _); [|exact H]. destruct (number _ _ _ _ _); [|exact H]. destruct (number _ _ _ _ _); [|exact H].
  destruct (scaled_gradient _) as [[s|]|]; try exact H. cbn [fst gg_prop with_prop]. destruct H as (A & B & _). split; [exact A|]. split; [exact B|].
  intros k Hk. cbn [p_mask with_mask] in Hk. injection Hk as <-. cbn [bool_marr ma_dtype ma_shape ma_elems with_mask p_shape]. split; [reflexivity|]. split; [reflexivity|].
  split; [unfold mask_of; rewrite !map_length; exact B|]. apply Forall_forall. intros x Hx. apply in_map_iff in Hx. destruct Hx as (y & <- & _). exact I.
Qed.
Lemma greach_prop (g : ggrad f64) : greach g -> prop_inv (gg_prop g).
Proof.
  induction 1 as [v p pos g Hw H|g o Hw H IH].
  - apply preach_inv. unfold new_grad in H. destruct (new_gprop _ _ v p) as [q|] eqn:E1; cbn [bind] in H; [|discriminate]. destruct (number pos _ _ _ _) as [x|] eqn:E2; cbn [bind] in H; [|discriminate].
    apply ok_inj in H. subst g. eapply pr_new; eauto.
  - destruct o as [o|m s t e]; cbn [do_gop]; [|now apply determine_prop]. cbn [gg_prop with_prop]. now apply do_pop_inv.
Qed.

Lemma other_head (p : gprop f64) h h' body : prop_shown mean median p ("" :: h :: body) -> prop_shown mean median p ("" :: h' :: body).
Proof. intros H. exact H. Qed.
Lemma grad_lines_shown (g : ggrad f64) l : prop_inv (gg_prop g) -> ggrad_lines fmt_fixed mean median g = Ok l -> Forall single l /\ grad_shown mean median g l.
Proof.
  intros I H. destruct (grad_lines_inv _ H) as (lo & up & L & U & body & B & C).
  assert (Sb : Forall single body). { assert (F : Forall single (app (prop_head mean median (gg_prop g) (num_of lo) (num_of up)) (mask_lines (gg_prop g)))) by (apply Forall_app; split; [apply head_single|apply mask_single]). rewrite B in F. apply Forall_inv_tail in F. now apply Forall_inv_tail in F. }
  assert (Lb : List.length (app (prop_head mean median (gg_prop g) (num_of lo) (num_of up)) (mask_lines (gg_prop g))) = S (S (List.length body))) by (rewrite B; reflexivity).
  assert (Sh : lacks nl (grad_head g) = true). { unfold grad_head. rewrite <- heading_eq. unfold title_prefix. rewrite !lacks_app, lacks_rjust by apply tidy_fmt. assert (X := heading_single (p_name (gg_prop g)) (p_unit (gg_prop g))). rewrite !lacks_app in X. rewrite X. reflexivity. }
  assert (Hd : forall r, exists w, reads ("" :: grad_head g :: r) 1 (app (words (heading (gg_prop g))) ["@"; "pos"; "="; w]) /\ writes 4 (num_of (gg_pos g)) w).
  { intros r. exists (fmt_fixed 4 (num_of (gg_pos g))). split; [|apply writes_fmt]. exists (grad_head g). split; [reflexivity|apply grad_head_words]. }
  assert (P : forall tl, prop_shown mean median (gg_prop g) ("" :: grad_head g :: app body tl)).
  { intros tl. apply (other_head (h := title_prefix (gg_prop g))). assert (X := shown_lines tl I L U). rewrite B in X. exact X. }
  destruct C as [[M ->]|[M (m & e & o & t & Hm & He & Ho & Ht & ->)]].
  - split; [repeat (apply Forall_cons; auto)|]. split; [apply Hd|]. split; [assert (X := P []); rewrite app_nil_r in X; exact X|]. split; [|contradiction].
    intros _. unfold mask_lines in Lb. rewrite M in Lb. cbn [app prop_head List.length] in Lb |- *. lia.
  - split.
    { cbn [app]. apply Forall_cons; [reflexivity|]. apply Forall_cons; [exact Sh|]. apply Forall_app. split; [exact Sb|].
      unfold grad_tail. repeat apply Forall_cons; try apply Forall_nil; apply label_single; reflexivity. }
    cbn [app]. split; [apply Hd|]. split; [apply P|]. split; [contradiction|]. intros _. destruct (p_mask (gg_prop g)) as [mk|] eqn:Em; [|contradiction].
    assert (Lb' : List.length body = 7). { unfold mask_lines in Lb. rewrite Em in Lb. cbn [app prop_head List.length] in Lb. lia. }
    split; [cbn [List.length]; rewrite app_length, Lb'; reflexivity|].
    assert (At : forall i, nth_error ("" :: grad_head g :: app body (grad_tail g m e o t)) (9 + i) = nth_error (grad_tail g m e o t) i).
    { intros i. change (nth_error (app body (grad_tail g m e o t)) (7 + i) = nth_error (grad_tail g m e o t) i). rewrite nth_error_app2 by lia. f_equal. lia. }
    split; [|split; [|split]].
    + destruct (@reads_number _ 9 "measured gradient:  " ["measured"; "gradient:"] 6 4 (num_of m) (At 0) eq_refl) as (w & R & W). exists m, w. auto.
    + destruct (@reads_number _ 10 "measured error:     " ["measured"; "error:"] 6 4 (num_of e) (At 1) eq_refl) as (w & R & W). exists e, w. auto.
    + destruct (@reads_number _ 11 "orbital scale:   " ["orbital"; "scale:"] 9 4 (num_of o) (At 2) eq_refl) as (w & R & W). exists o, w. auto.
    + destruct (@reads_number _ 12 "transmission change:" ["transmission"; "change:"] 6 4 (num_of t) (At 3) eq_refl) as (w & R & W). exists t, w. auto.
Qed.
Lemma grad_repr_shown (g : ggrad f64) t : prop_inv (gg_prop g) -> ggrad_repr fmt_fixed mean median g = Ok t -> grad_shown mean median g (lines_of t).
Proof.
  intros I H. unfold ggrad_repr in H. destruct (ggrad_lines fmt_fixed mean median g) as [l|] eqn:E; [|discriminate H]. cbn [bind] in H. apply ok_inj in H. subst t.
  destruct (grad_lines_shown _ I E) as [S G]. rewrite lines_join; [exact G| |exact S]. intros ->. destruct G as ((w & (s & X & _) & _) & _). discriminate X.
Qed.
Theorem grad_text (g : ggrad f64) t : greach g -> ggrad_repr fmt_fixed mean median g = Ok t -> grad_shown mean median g (lines_of t).
Proof. intros R. apply grad_repr_shown. now apply greach_prop. Qed.
End Shown.
