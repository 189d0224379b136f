(** Lemmas about Build.v that hold for all numbers: lists, the loops, interpolation, quadrants. *)
From Coq Require Import ZArith Reals List Bool String Lia Lra.
From Verif Require Import Num NumP Py SpecNum Validate ValidateP Ring RingSystem FS GridParams SpecGrid GridParamsP
  Names GridProp SpecProp GridPropP Geometry Build SpecBuild.
Import ListNotations.
Set Implicit Arguments.

(** *** lists *)
Section Lists.
Context {A : Type}.

Lemma chunk_length f n (l : list A) : List.length (chunk_f f n l) = f.
Proof. revert l; induction f; intros; cbn; auto. Qed.

Lemma skipn_skipn' (l : list A) a b : skipn a (skipn b l) = skipn (b + a) l.
Proof. revert l; induction b; intros; cbn; auto. destruct l; auto. now rewrite skipn_nil. Qed.

Lemma chunk_nth f n (l : list A) i : i < f -> nth_error (chunk_f f n l) i = Some (firstn n (skipn (i * n) l)).
Proof.
  revert l i; induction f; intros l i Hi; [lia|].
  destruct i; cbn [chunk_f nth_error]; auto.
  rewrite IHf by lia. rewrite skipn_skipn'. do 2 f_equal.
Qed.

Lemma chunk_concat f n (l : list A) : List.length l = f * n -> List.concat (chunk_f f n l) = l.
Proof.
  revert l; induction f; intros l H; cbn in *.
  - now destruct l.
  - rewrite IHf, firstn_skipn; auto. rewrite skipn_length. lia.
Qed.

Lemma chunk_sizes f n (l : list A) : List.length l = f * n -> Forall (fun c => List.length c = n) (chunk_f f n l).
Proof.
  revert l; induction f; intros l H; cbn in *; constructor.
  - rewrite firstn_length. lia.
  - apply IHf. rewrite skipn_length. lia.
Qed.

Lemma concat_length n (ls : list (list A)) : Forall (fun c => List.length c = n) ls -> List.length (List.concat ls) = List.length ls * n.
Proof. induction 1; cbn; auto. rewrite app_length. lia. Qed.

Lemma concat_nth n (ls : list (list A)) i j c : Forall (fun c => List.length c = n) ls ->
  nth_error ls i = Some c -> j < n -> nth_error (List.concat ls) (i * n + j) = nth_error c j.
Proof.
  intros H. revert i; induction H as [|x ls Hx H IH]; intros i Hc Hj; [destruct i; discriminate|].
  destruct i; cbn in *.
  - injection Hc as ->. rewrite nth_error_app1; auto. lia.
  - rewrite nth_error_app2 by lia. rewrite <- (IH i Hc Hj). f_equal. lia.
Qed.

Lemma nth_error_rev' (l : list A) i : i < List.length l -> nth_error (rev l) i = nth_error l (List.length l - 1 - i).
Proof.
  intros H. destruct l as [|d l']; [cbn in H; lia|]. set (l := d :: l') in *.
  rewrite (nth_error_nth' (rev l) d) by now rewrite rev_length.
  rewrite (nth_error_nth' l d) by lia. f_equal. rewrite rev_nth by auto. f_equal. lia.
Qed.

Lemma remove_at_nth n (l : list A) i : nth_error (remove_at n l) i = nth_error l (if Nat.ltb i n then i else S i) \/ List.length l < n.
Proof.
  destruct (Nat.leb_spec n (List.length l)) as [Hn|Hn]; [left|now right].
  unfold remove_at. assert (Hl : List.length (firstn n l) = n) by (rewrite firstn_length; lia).
  destruct (Nat.ltb_spec i n).
  - rewrite nth_error_app1 by lia. revert l Hn Hl i H. induction n; intros; [lia|].
    destruct l; [cbn in Hn; lia|]. destruct i; cbn; auto. apply IHn; cbn in *; try lia.
  - rewrite nth_error_app2 by lia. rewrite Hl.
    assert (forall m (l : list A) j, nth_error (skipn m l) j = nth_error l (m + j)) as HH.
    { induction m; intros; cbn; auto. destruct l0; auto. now destruct j. }
    rewrite HH. f_equal. lia.
Qed.
Lemma remove_at_length n (l : list A) : n < List.length l -> List.length (remove_at n l) = List.length l - 1.
Proof. intros H. unfold remove_at. rewrite app_length, firstn_length, skipn_length. lia. Qed.

Lemma nth_error_skipn' m (l : list A) j : nth_error (skipn m l) j = nth_error l (m + j).
Proof. revert l; induction m; intros; cbn; auto. destruct l; auto. now destruct j. Qed.
Lemma nth_error_firstn' m (l : list A) j : j < m -> nth_error (firstn m l) j = nth_error l j.
Proof. revert l j; induction m; intros; [lia|]. destruct l; cbn; auto. destruct j; cbn; auto. apply IHm. lia. Qed.

Lemma combine_nth_error {B} (a : list A) (b : list B) i x y : nth_error a i = Some x -> nth_error b i = Some y ->
  nth_error (combine a b) i = Some (x, y).
Proof. revert b i; induction a; intros b i Ha Hb; destruct i; cbn in *; try discriminate; destruct b; cbn in *; try discriminate.
  - congruence. - auto. Qed.

Lemma nth_error_Some' (l : list A) i : i < List.length l -> exists x, nth_error l i = Some x.
Proof. intros H. destruct (nth_error l i) eqn:E; eauto. apply nth_error_None in E. lia. Qed.

Lemma nth_error_ext' (l m : list A) : List.length l = List.length m -> (forall i, i < List.length l -> nth_error l i = nth_error m i) -> l = m.
Proof.
  revert m; induction l; intros [|b m] Hl H; cbn in *; try lia; auto.
  f_equal. - specialize (H 0 ltac:(lia)). cbn in H. congruence.
  - apply IHl; [lia|]. intros i Hi. apply (H (S i)). lia.
Qed.

End Lists.

Section Cubes.
Context {A : Type}.
Lemma cube_rows a b n (l : list A) : List.length l = a * b * n -> Forall (fun row => List.length row = b /\ Forall (fun c => List.length c = n) row) (cube a b n l).
Proof.
  intros H. unfold cube. assert (Hc := chunk_sizes (a * b) n l H).
  assert (Hr := chunk_sizes a b (chunk_f (a * b) n l) (chunk_length _ _ _)).
  apply Forall_forall. intros row Hin. split. - now apply (proj1 (Forall_forall _ _) Hr).
  - apply Forall_forall. intros c Hcin. apply (proj1 (Forall_forall _ _) Hc).
    rewrite <- (chunk_concat a b (chunk_f (a * b) n l)) by apply chunk_length.
    apply in_concat. eauto.
Qed.
Lemma cube_length a b n (l : list A) : List.length (cube a b n l) = a.
Proof. apply chunk_length. Qed.
Lemma cube_flat a b n (l : list A) : List.length l = a * b * n -> flat (cube a b n l) = l.
Proof. intros. unfold flat, cube. rewrite chunk_concat by apply chunk_length. now apply chunk_concat. Qed.

(** entry of a flattened cube *)
Lemma flat_cell b n (c : list (list (list A))) y x r row col :
  Forall (fun row => List.length row = b /\ Forall (fun c => List.length c = n) row) c ->
  nth_error c y = Some row -> nth_error row x = Some col -> x < b -> r < n ->
  cell b n (flat c) y x r = nth_error col r.
Proof.
  intros H Hy Hx Hb Hn. unfold cell, flat.
  assert (Hrows : Forall (fun row => List.length row = b) c) by (eapply Forall_impl; [|exact H]; cbn; tauto).
  assert (Hcols : Forall (fun c => List.length c = n) (List.concat c)).
  { apply Forall_forall. intros q Hq. apply in_concat in Hq as (row' & Hin & Hq).
    destruct (proj1 (Forall_forall _ _) H _ Hin) as [_ HF]. now apply (proj1 (Forall_forall _ _) HF). }
  apply (fun H1 H2 => @concat_nth _ n _ _ r col Hcols H1 H2); auto.
  rewrite <- Hx. apply (fun H1 H2 => @concat_nth _ b _ _ x row Hrows H1 H2); auto.
Qed.
Lemma cube_cell a b n (l : list A) y x r : List.length l = a * b * n -> y < a -> x < b -> r < n ->
  exists row col, nth_error (cube a b n l) y = Some row /\ nth_error row x = Some col /\ nth_error col r = cell b n l y x r.
Proof.
  intros H Hy Hx Hr. assert (HR := cube_rows a b n l H).
  destruct (nth_error_Some' (cube a b n l) (i := y)) as (row & Hrow); [now rewrite cube_length|].
  destruct (proj1 (Forall_forall _ _) HR row) as [Hl _]; [eapply nth_error_In; eauto|].
  destruct (nth_error_Some' row (i := x)) as (col & Hcol); [lia|].
  exists row, col. split; [auto|split; [auto|]].
  rewrite <- (@flat_cell b n _ y x r row col HR Hrow Hcol Hx Hr). now rewrite cube_flat.
Qed.

Lemma flat_length b n (c : list (list (list A))) :
  Forall (fun row => List.length row = b /\ Forall (fun c => List.length c = n) row) c -> List.length (flat c) = List.length c * b * n.
Proof.
  intros H. unfold flat. rewrite (concat_length (n := n)).
  - rewrite (concat_length (n := b)); auto. eapply Forall_impl; [|exact H]. cbn. tauto.
  - apply Forall_forall. intros q Hq. apply in_concat in Hq as (row' & Hin & Hq).
    destruct (proj1 (Forall_forall _ _) H _ Hin) as [_ HF]. now apply (proj1 (Forall_forall _ _) HF).
Qed.

Lemma column_cell b n (l : list A) y x r : r < n -> nth_error (column_at b n l y x) r = cell b n l y x r.
Proof. intros. unfold column_at, cell. now rewrite nth_error_firstn', nth_error_skipn' by auto. Qed.
End Cubes.

(** *** splice *)
Section Splice.
Context {T : Type} {NT : Num T}.
Lemma splice_length (l : list T) off row : off + List.length row <= List.length l -> List.length (splice l off row) = List.length l.
Proof. intros. unfold splice. rewrite !app_length, firstn_length, skipn_length. lia. Qed.
Lemma splice_nth (l : list T) off row i : off + List.length row <= List.length l ->
  nth_error (splice l off row) i = if Nat.leb off i && Nat.ltb i (off + List.length row) then nth_error row (i - off) else nth_error l i.
Proof.
  intros H. unfold splice. assert (Hf : List.length (firstn off l) = off) by (rewrite firstn_length; lia).
  destruct (Nat.leb_spec off i); cbn [andb].
  - rewrite nth_error_app2 by lia. rewrite Hf. destruct (Nat.ltb_spec i (off + List.length row)).
    + rewrite nth_error_app1; auto. lia.
    + rewrite nth_error_app2 by lia. rewrite nth_error_skipn'. f_equal. lia.
  - rewrite nth_error_app1 by lia. apply nth_error_firstn'. auto.
Qed.
End Splice.
