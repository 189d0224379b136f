(** Labels of pictures; witnesses and refuted expectations about the texts of grid objects. *)
From Coq Require Import ZArith Reals List Bool String Ascii Lia Lra.
From Flocq Require Import Core BinarySingleNaN.
From Verif Require Import Num NumP Py SpecNum Validate Ring FS GridParams SpecGrid GridDiag Names GridProp SpecProp GridPropP Viewer ViewerDraw Fmt SpecFmt FmtP SpecText.
From Verif Require RingSystem.
From Verif Require Import Geometry Build Shallot ShallotOps SpecBuild SpecOps AddLaws OpsExP SpecSave Text TextP TextGridP TextExP TextRingP SpecShow TextShowP TextShowMoreP.
Import ListNotations.
Set Implicit Arguments.
Local Open Scope string_scope.

Theorem labels_name (g : gparams f64) axis l r b t : extent g axis = Ok (l, r, b, t) ->
  axis_named g (fst (axis_labels axis)) l r /\ axis_named g (snd (axis_labels axis)) b t /\
  NoDup [slice_name axis; fst (axis_labels axis); snd (axis_labels axis)].
Proof.
  unfold extent. intros H. destruct (ends (g_dx g)) as [[x0 x1]|] eqn:Ex; [|discriminate H]. cbn [bind] in H. destruct (ends (g_dy g)) as [[y0 y1]|] eqn:Ey; [|discriminate H]. cbn [bind] in H.
  destruct (ends (g_rf g)) as [[r0 r1]|] eqn:Er; [|discriminate H]. cbn [bind] in H. apply ok_inj in H. cbn [fst snd] in H.
  apply from_to_ends in Ex, Ey, Er.
  apply pair_equal_spec in H as [H <-]. apply pair_equal_spec in H as [H <-]. apply pair_equal_spec in H as [<- <-].
  assert (N : forall a b c : string, a <> b -> a <> c -> b <> c -> NoDup [a; b; c]).
  { intros a b c A B C. constructor; [intros [X|[X|[]]]; congruence|]. constructor; [intros [X|[]]; congruence|]. constructor; [intros []|constructor]. }
  destruct axis as [|[|axis]]; cbn [axis_labels slice_name fst snd]; (split; [|split]); try (apply N; discriminate).
  - right; right. split; [reflexivity|]. split; [reflexivity|]. exists r0, r1. auto.
  - left. auto.
  - right; right. split; [reflexivity|]. split; [reflexivity|]. exists r0, r1. auto.
  - right; left. auto.
  - left. auto.
  - right; left. auto.
Qed.

Section R.
Variables mean median : list f64 -> f64.
Lemma writes_sign k (x : f64) w : is_finite x = true -> writes k x w -> exists n, read_number w = Some (Bsign x, n, k).
Proof. destruct x; try discriminate; cbn [writes]; intros _ (n & R & _); eauto. Qed.
Lemma reads_fun l i a b : reads l i a -> reads l i b -> a = b.
Proof. intros (s & A & B) (s' & A' & B'). congruence. Qed.
(** "min value" shows the limit of the colours, which need not be a value of the map *)
Theorem minimum_refuted : ~ (forall (p : gprop f64) t, preach p -> gprop_repr fmt_fixed mean median p = Ok t ->
  exists x w, In x (p_data p) /\ reads (lines_of t) 3 ["min"; "value:"; w] /\ writes 4 x w).
Proof.
  intros H. destruct (print_ex (n_one : f64) n_one) as (p & Hp & _ & Hd & _).
  set (q := do_pop p (PContrast (Some (PInt (-1))) (Some (PInt 2)) None None)).
  assert (Hq : preach q) by (apply pr_op; [exact I|exact Hp]).
  assert (Q : p_vmin q = Some (PInt (-1)) /\ p_vmax q = Some (PInt 2) /\ p_data q = p_data p).
  { unfold q. cbn [do_pop]. unfold set_contrast, set_limits. assert (A : all_nans (p_data p) = false) by (rewrite Hd; reflexivity). rewrite A.
    assert (B : number (PInt (-1) : pyval f64) false m_inf p_inf false = Ok (PInt (-1))) by (vm_compute; exact eq_refl).
    assert (C : number (PInt 2 : pyval f64) false m_inf p_inf false = Ok (PInt 2)) by (vm_compute; exact eq_refl).
    rewrite B, C. cbn [dflt string_v]. assert (D : number (PInt 11 : pyval f64) true (PInt 2) p_inf false = Ok (PInt 11)) by (vm_compute; exact eq_refl). rewrite D.
    split; [reflexivity|]. split; reflexivity. }
  destruct Q as (Q1 & Q2 & Q3).
  destruct (proj1 (prop_prints fmt_fixed mean median Hq)) as [t Ht]; [unfold limited; rewrite Q1, Q2; split; discriminate|].
  destruct (@prop_text mean median _ _ Hq Ht) as (_ & _ & (lo & w & L & R & W) & _). destruct (H q t Hq Ht) as (x & w' & Ix & R' & W').
  assert (w' = w) by (assert (E := reads_fun R R'); congruence). subst w'. rewrite Q1 in L. injection L as <-. rewrite Q3, Hd in Ix.
  assert (x = n_one) by (destruct Ix as [<-|[<-|[]]]; exact eq_refl). subst x.
  destruct (writes_sign 4 (n_one : f64) w) as (n & N); [vm_compute; exact eq_refl|exact W'|]. destruct (writes_sign 4 (num_of (PInt (-1) : pyval f64)) w) as (m & M); [vm_compute; exact eq_refl|exact W|].
  rewrite N in M. injection M as M _. revert M. vm_compute. discriminate.
Qed.
(** a share below one may be shown as 100.0000% *)
Theorem full_share_refuted : ~ (forall c v (x : f64), (c <= v)%nat -> share c v x -> fmt_fixed 4 x = "100.0000" -> c = v).
Proof.
  intros H. set (c := Z.to_nat 2999999). set (v := Z.to_nat 3000000).
  assert (L : (c < v)%nat) by (unfold c, v; rewrite <- Z2Nat.inj_lt; lia).
  assert (E : c = v).
  { apply (H c v (percent c v)); [lia|apply percent_share; [lia|lia|unfold v; rewrite Z2Nat.id by lia; vm_compute; discriminate]|].
    unfold percent, c, v. rewrite !Z2Nat.id by lia. vm_compute. exact eq_refl. }
  lia.
Qed.
(** a grid with three gradients is printed *)
Theorem grid_shown_ex : exists s t, sreach env2 s /\ shallot_repr fmt_fixed mean median s = Ok t /\ grads s <> [].
Proof.
  destruct grid_printable as (s & Hs & Hp & Hg). destruct (proj1 (grid_prints fmt_fixed mean median Hs) Hp) as [t Ht]. eauto.
Qed.
End R.
