(** Proofs about which objects can be printed. *)
From Coq Require Import ZArith List Bool String Ascii Lia.
From Verif Require Import Num Py SpecNum Validate ValidateP Ring FS GridParams GridDiag Names GridProp SpecGrid SpecProp GridPropP Fmt SpecText.
From Verif Require RingSystem.
From Verif Require Import Geometry Build Shallot ShallotOps SpecBuild BuildCP SpecOps Text.
Import ListNotations.
Set Implicit Arguments.

Section P.
Context {T : Type} {NT : Num T} {LT : NumLaws T}.
Variable fmt : nat -> T -> string.
Variables mean median : list T -> T.
Notation pyval := (pyval T).

(** *** numbers that passed validation *)
Definition numeric (v : pyval) : Prop := int_like v \/ float_like v.
Definition onumeric (o : option pyval) : Prop := match o with Some v => numeric v | None => True end.
Lemma number_numeric (v : pyval) ci lo up ex w : number v ci lo up ex = Ok w -> numeric w.
Proof.
  intros H. assert (w = v) as -> by exact (number_same _ _ _ _ _ H). unfold number in H. destruct (number_type ci v) as [x|] eqn:E1; [|discriminate].
  apply number_type_ok in E1. unfold numeric. tauto.
Qed.
Lemma fv_numeric k (v : pyval) : numeric v -> exists s, fv fmt k v = Ok s.
Proof. intros [H|H]; destruct v; inversion H; eexists; reflexivity. Qed.
Lemma fo_some k (o : option pyval) : onumeric o -> o <> None -> exists s, fo fmt k o = Ok s.
Proof. destruct o; intros H N; [exact (fv_numeric k H)|contradiction]. Qed.
Lemma fo_none k : fo fmt k None = Err TypeError. Proof. reflexivity. Qed.

(** *** limits *)
Definition lim_inv (p : gprop T) : Prop :=
  onumeric (p_vmin p) /\ onumeric (p_vmax p) /\ (p_vmin p = None <-> p_vmax p = None) /\ (p_vmin p = None -> all_nans (p_data p) = true).
Lemma limited_iff (p : gprop T) : lim_inv p -> limited p <-> p_vmin p <> None.
Proof. intros (_ & _ & H & _). unfold limited. tauto. Qed.
Lemma unlimited (p : gprop T) : lim_inv p -> ~ limited p -> p_vmin p = None.
Proof. intros (_ & _ & H & _) N. unfold limited in N. destruct (p_vmin p); auto. destruct (p_vmax p); [destruct N; split; discriminate|]. now apply H. Qed.
Lemma limits_of_inv (p : gprop T) : (p_vmin p, p_vmax p) = limits_of p -> lim_inv p.
Proof.
  intros H. unfold limits_of in H. assert (S1 := nanmin_spec (p_data p)). assert (S2 := nanmax_spec (p_data p)).
  destruct (nanmin (p_data p)) as [a|] eqn:E1, (nanmax (p_data p)) as [b|] eqn:E2; apply pair_equal_spec in H as [H1 H2]; unfold lim_inv; rewrite H1, H2.
  - cbn [onumeric]. split; [right; constructor|]. split; [right; constructor|]. split; [split; discriminate|discriminate].
  - destruct S1 as (A & B & _). destruct B. auto.
  - destruct S2 as (A & B & _). destruct B. auto.
  - cbn [onumeric]. split; auto. split; auto. split; [tauto|]. intros _. apply all_nans_iff. auto.
Qed.
Lemma fresh_limits n u (g : gparams T) el : (p_vmin (fresh n u g el), p_vmax (fresh n u g el)) = limits_of (fresh n u g el).
Proof. unfold fresh. cbn [with_colors with_limits p_vmin p_vmax]. rewrite <- surjective_pairing. reflexivity. Qed.
Lemma lim_same (p q : gprop T) : p_vmin q = p_vmin p -> p_vmax q = p_vmax p -> (all_nans (p_data p) = true -> all_nans (p_data q) = true) -> lim_inv p -> lim_inv q.
Proof. intros A B C (D & E & F & G). unfold lim_inv. rewrite A, B. repeat split; auto; apply F. Qed.
Lemma get_data_limits (p : gprop T) v : p_vmin (fst (get_data p v)) = p_vmin p /\ p_vmax (fst (get_data p v)) = p_vmax p.
Proof. unfold get_data. destruct (boolean_v v) as [b|]; [|auto]. destruct (if b then p_mask p else None); [|auto]. destruct (_ && _); auto. Qed.
Lemma blank_nans (l : list T) : forall m, all_nans l = true -> all_nans (blank l m) = true.
Proof.
  induction l as [|x l IH]; intros [|s m] H; auto. cbn [blank all_nans forallb] in *. apply andb_prop in H as [H1 H2]. apply andb_true_intro. split; [|now apply IH].
  destruct (scal_true s); auto. apply isnan_iff, l_nan.
Qed.
Lemma get_data_nans (p : gprop T) v : all_nans (p_data p) = true -> all_nans (p_data (fst (get_data p v))) = true.
Proof. intros H. unfold get_data. destruct (boolean_v v) as [b|]; [|auto]. destruct (if b then p_mask p else None); [|auto]. destruct (_ && _); auto. apply blank_nans, H. Qed.
Lemma set_mask_limits (p : gprop T) v : let q := fst (set_mask p v) in p_vmin q = p_vmin p /\ p_vmax q = p_vmax p /\ p_data q = p_data p.
Proof.
  cbn zeta. destruct (set_mask p v) as [q [[]|e]] eqn:E; cbn [fst]; [apply set_mask_ok in E; destruct E as (el & _ & ->); auto|]. apply set_mask_err in E. subst. auto.
Qed.
Lemma set_limits_inv (p : gprop T) a b : lim_inv p -> lim_inv (fst (set_limits p a b)).
Proof.
  intros H. unfold set_limits. destruct (all_nans (p_data p)) eqn:En.
  - unfold lim_inv. cbn [fst with_limits p_vmin p_vmax p_data onumeric]. tauto.
  - destruct H as (A & B & C & D).
    assert (N1 : p_vmin p <> None) by (intros X; apply D in X; congruence). assert (N2 : p_vmax p <> None) by tauto.
    destruct (number _ false m_inf p_inf false) as [lo|] eqn:E1; [|unfold lim_inv; cbn [fst]; tauto]. apply number_numeric in E1. cbn [with_limits p_data p_vmin p_vmax].
    destruct (number _ false m_inf p_inf false) as [up|] eqn:E2; unfold lim_inv; cbn [fst with_limits p_data p_vmin p_vmax onumeric].
    + apply number_numeric in E2. split; auto. split; auto. split; [split; discriminate|discriminate].
    + split; auto. split; auto. split; [split; [discriminate|tauto]|discriminate].
Qed.
Lemma set_contrast_inv (p : gprop T) a b c d : lim_inv p -> lim_inv (fst (set_contrast p a b c d)).
Proof.
  intros H. unfold set_contrast. assert (X := set_limits_inv a b H). destruct (set_limits p a b) as [q [[]|e]]; cbn [fst] in *; [|exact X].
  destruct (string_v _); [|exact X]. cbn zeta. destruct (number _ _ _ _ _); exact X.
Qed.
Lemma pop_lim (p : gprop T) o : lim_inv p -> lim_inv (do_pop p o).
Proof.
  intros H. destruct o as [v|v|a b c d]; cbn [do_pop].
  - destruct (get_data_limits p v) as [A B]. apply (@lim_same p); auto. apply get_data_nans.
  - destruct (set_mask_limits p v) as (A & B & C). apply (@lim_same p); auto. rewrite C. auto.
  - now apply set_contrast_inv.
Qed.
Theorem preach_lim (p : gprop T) : preach p -> lim_inv p.
Proof.
  induction 1 as [n u v g p Hw H|p o Hw H IH]; [|now apply pop_lim].
  apply new_gprop_iff in H. destruct H as (n' & u' & g' & el & -> & -> & -> & -> & ->). apply limits_of_inv, fresh_limits.
Qed.

(** *** properties *)
Notation lines := (gprop_lines fmt mean median).
Lemma lines_ok (p : gprop T) : lim_inv p -> limited p -> exists l, lines p = Ok l.
Proof.
  intros (A & B & _) [C D]. unfold gprop_lines. destruct (fo_some 4 A C) as [a ->]. destruct (fo_some 4 B D) as [b ->]. cbn [bind]. eauto.
Qed.
Lemma lines_none (p : gprop T) : p_vmin p = None -> lines p = Err TypeError.
Proof. intros H. unfold gprop_lines. rewrite H. reflexivity. Qed.
Lemma lines_iff (p : gprop T) : lim_inv p -> limited p /\ (exists l, lines p = Ok l) \/ ~ limited p /\ lines p = Err TypeError.
Proof.
  intros H. destruct (p_vmin p) eqn:E.
  - left. assert (L : limited p) by (apply limited_iff; auto; congruence). split; auto. now apply lines_ok.
  - right. split; [intros [X _]; congruence|now apply lines_none].
Qed.
Theorem prop_prints (p : gprop T) : preach p ->
  (limited p -> exists t, gprop_repr fmt mean median p = Ok t) /\ (~ limited p -> gprop_repr fmt mean median p = Err TypeError).
Proof.
  intros H. apply preach_lim in H. unfold gprop_repr. destruct (lines_iff H) as [[A [l ->]]|[A ->]]; cbn [bind]; split; intros B; eauto; contradiction.
Qed.
Lemma do_pops_lim l : forall p : gprop T, lim_inv p -> lim_inv (do_pops p l).
Proof. induction l as [|o l IH]; intros p H; [exact H|]. apply IH, pop_lim, H. Qed.
Lemma nans_pop (p : gprop T) o : all_nans (p_data p) = true -> all_nans (p_data (do_pop p o)) = true.
Proof. intros H. destruct o as [v|v|a b c d]; [apply get_data_nans, H|rewrite pop_data by discriminate; exact H..]. Qed.
Lemma limits_pop (p : gprop T) o : all_nans (p_data p) = true -> p_vmin p = None -> p_vmin (do_pop p o) = None.
Proof.
  intros H N. destruct o as [v|v|a b c d]; cbn [do_pop].
  - now rewrite (proj1 (get_data_limits p v)).
  - now rewrite (proj1 (set_mask_limits p v)).
  - unfold set_contrast, set_limits. rewrite H. destruct (string_v _); [|reflexivity]. cbn zeta. destruct (number _ _ _ _ _); reflexivity.
Qed.
Theorem fails_forever (p : gprop T) l : preach p -> ~ limited p -> gprop_repr fmt mean median (do_pops p l) = Err TypeError.
Proof.
  intros H N. assert (HI := preach_lim H). assert (Hn := unlimited HI N). assert (Ha : all_nans (p_data p) = true) by (apply HI; auto). clear H N HI.
  revert p Hn Ha. induction l as [|o l IH]; intros p Hn Ha; cbn [do_pops fold_left]; [unfold gprop_repr; now rewrite (lines_none _ Hn)|].
  apply IH; [now apply limits_pop|now apply nans_pop].
Qed.
(** an all-NaN property has no limits from its creation on *)
Theorem unprintable_new n u v g (p : gprop T) : arr_wf v -> new_gprop n u v g = Ok p ->
  (limited p <-> exists x, In x (p_data p) /\ val x <> XNaN).
Proof.
  intros Hw H. apply new_gprop_iff in H. destruct H as (n' & u' & g' & el & -> & -> & -> & -> & ->). set (p := fresh n' u' g' el).
  assert (L := fresh_limits n' u' g' el). fold p in L. unfold limits_of in L. assert (S1 := nanmin_spec (p_data p)). assert (S2 := nanmax_spec (p_data p)).
  unfold limited. destruct (nanmin (p_data p)) as [a|], (nanmax (p_data p)) as [b|]; apply pair_equal_spec in L as [L1 L2]; rewrite L1, L2.
  - destruct S1 as (A & B & _). split; [eauto|]. intros _. split; discriminate.
  - destruct S1 as (A & B & _). destruct B; auto.
  - destruct S2 as (A & B & _). destruct B; auto.
  - split; [tauto|]. intros (x & Hx & Hn). destruct Hn; auto.
Qed.
(** asking for contrast limits once nothing but NaN is left removes them *)
Theorem contrast_removes (p : gprop T) c d : (forall x, In x (p_data p) -> val x = XNaN) -> ~ limited (fst (set_contrast p None None c d)).
Proof.
  intros H. apply all_nans_iff in H. unfold limited, set_contrast, set_limits. rewrite H. destruct (string_v _); [|cbn; tauto]. cbn zeta. destruct (number _ _ _ _ _); cbn; tauto.
Qed.

(** *** gradients *)
Definition grad_inv (g : ggrad T) : Prop :=
  lim_inv (gg_prop g) /\ numeric (gg_pos g) /\ onumeric (gg_meas g) /\ onumeric (gg_err g) /\ onumeric (gg_orb g) /\ onumeric (gg_trans g).
Lemma determine_grad (g : ggrad T) a b c d : grad_inv g -> grad_inv (fst (determine_mask g a b c d)).
Proof.
  intros (A & B & C & D & F & G). unfold determine_mask.
  destruct (number a false (PInt 0) p_inf false) as [m|] eqn:E1; [|unfold grad_inv; cbn [fst]; tauto]. apply number_numeric in E1. cbn zeta. cbn [gg_prop gg_pos gg_err gg_orb gg_trans gg_meas].
  destruct (number b false (PInt 0) p_inf false) as [o|] eqn:E2; [|unfold grad_inv; cbn [fst gg_prop gg_pos gg_err gg_orb gg_trans gg_meas onumeric]; tauto]. apply number_numeric in E2.
  destruct (number (dflt (PInt 1) c) false (PInt 0) (PInt 1) false) as [t|] eqn:E3; [|unfold grad_inv; cbn [fst gg_prop gg_pos gg_err gg_orb gg_trans gg_meas onumeric]; tauto]. apply number_numeric in E3.
  destruct (number (dflt (PInt 1) d) false (PFloat n_zero) p_inf false) as [e|] eqn:E4; [|unfold grad_inv; cbn [fst gg_prop gg_pos gg_err gg_orb gg_trans gg_meas onumeric]; tauto]. apply number_numeric in E4.
  destruct (scaled_gradient _) as [[s|]|]; unfold grad_inv; cbn [fst with_prop gg_prop gg_pos gg_err gg_orb gg_trans gg_meas onumeric]; auto 10.
Qed.
Lemma grad_prop (g : ggrad T) p : lim_inv p -> grad_inv g -> grad_inv (with_prop g p).
Proof. intros H (_ & I). split; auto. Qed.
Theorem greach_inv (g : ggrad T) : greach g -> grad_inv g.
Proof.
  induction 1 as [v p pos g Hw H|g o Hw H IH].
  - unfold new_grad in H. destruct (new_gprop _ _ v p) as [q|] eqn:E1; cbn [bind] in H; [|discriminate]. destruct (number pos _ _ _ _) as [x|] eqn:E2; cbn [bind] in H; [|discriminate].
    injection H as <-. unfold grad_inv. cbn [gg_prop gg_pos gg_meas gg_err gg_orb gg_trans onumeric]. split; [|apply number_numeric in E2; auto 10].
    apply preach_lim. eapply pr_new; eauto.
  - destruct o as [o|m s t e]; cbn [do_gop]; [|now apply determine_grad]. apply grad_prop; auto. apply pop_lim, IH.
Qed.
Notation glines := (ggrad_lines fmt mean median).
Lemma glines_iff (g : ggrad T) : grad_inv g -> presentable g /\ (exists l, glines g = Ok l) \/ ~ presentable g /\ glines g = Err TypeError.
Proof.
  intros (A & B & C & D & F & G). unfold ggrad_lines, presentable. destruct (lines_iff A) as [[L [l ->]]|[L ->]]; cbn [bind]; [|right; split; [tauto|reflexivity]].
  destruct (fv_numeric 4 B) as [s ->]. cbn [bind]. destruct (p_mask (gg_prop g)) as [mk|]; [|left; eauto].
  unfold complete.
  destruct (gg_meas g) as [m|] eqn:E1; [destruct (fv_numeric 4 C) as [s1 H1]|right; split; [intros [_ [X|X]]; [discriminate|tauto]|reflexivity]].
  destruct (gg_err g) as [e|] eqn:E2; [destruct (fv_numeric 4 D) as [s2 H2]|right; split; [intros [_ [X|X]]; [discriminate|tauto]|unfold fo; cbn [dflt]; rewrite H1; reflexivity]].
  destruct (gg_orb g) as [o|] eqn:E3; [destruct (fv_numeric 4 F) as [s3 H3]|right; split; [intros [_ [X|X]]; [discriminate|tauto]|unfold fo; cbn [dflt]; rewrite H1; cbn [bind]; rewrite H2; reflexivity]].
  destruct (gg_trans g) as [t|] eqn:E4; [destruct (fv_numeric 4 G) as [s4 H4]|right; split; [intros [_ [X|X]]; [discriminate|tauto]|unfold fo; cbn [dflt]; rewrite H1; cbn [bind]; rewrite H2; cbn [bind]; rewrite H3; reflexivity]].
  left. split; [split; auto; right; repeat split; discriminate|]. unfold fo; cbn [dflt]. rewrite H1; cbn [bind]; rewrite H2; cbn [bind]; rewrite H3; cbn [bind]; rewrite H4. cbn [bind]. eauto.
Qed.
Lemma grad_repr_iff (g : ggrad T) : grad_inv g ->
  presentable g /\ (exists t, ggrad_repr fmt mean median g = Ok t) \/ ~ presentable g /\ ggrad_repr fmt mean median g = Err TypeError.
Proof. intros H. unfold ggrad_repr. destruct (glines_iff H) as [[A [l ->]]|[A ->]]; cbn [bind]; eauto. Qed.
Theorem grad_prints (g : ggrad T) : greach g ->
  (presentable g -> exists t, ggrad_repr fmt mean median g = Ok t) /\ (~ presentable g -> ggrad_repr fmt mean median g = Err TypeError).
Proof. intros H. apply greach_inv in H. destruct (grad_repr_iff H) as [[A B]|[A B]]; split; intros X; auto; contradiction. Qed.
End P.
