(** The texts are those of the first check that does not pass. *)
From Coq Require Import ZArith Reals List Bool String Ascii Lia.
From Verif Require Import Num Py Validate Ring RingSystem FS GridParams GridDiag Names GridProp Fmt Text Message NumP SpecNum ValidateP FmtP SpecMsg MessageP.
Import ListNotations.
Set Implicit Arguments.
Local Open Scope string_scope.

(** a computation whose error is that of one check *)
Definition judges (c : check) A (x : mres A) : Prop :=
  match x with
  | MOk _ => passes c /\ (forall e s, ~ complains c e s)
  | MErr e o => ~ passes c /\ exists s, o = Some s /\ forall e' s', complains c e' s' <-> e' = e /\ s' = s
  end.
(** a computation whose error is that of the first failing check *)
Definition in_turn (l : list check) : check := mkCheck (Forall passes l) (first_error l).
Definition follows (l : list check) A (x : mres A) : Prop := judges (in_turn l) x.

Lemma judges_err c A (x : mres A) : judges c x -> forall e o, x = MErr e o <-> exists s, o = Some s /\ complains c e s.
Proof.
  intros H e o. destruct x as [a|e0 o0]; cbn [judges] in H.
  - destruct H as [_ H]. split; [discriminate|]. intros (s & _ & X). destruct (H _ _ X).
  - destruct H as [_ (s0 & -> & H)]. split.
    + intros X. injection X as <- <-. exists s0. split; [reflexivity|]. apply H. split; reflexivity.
    + intros (s & -> & X). apply H in X. destruct X as [-> ->]. reflexivity.
Qed.
Lemma judges_ok c A (x : mres A) : judges c x -> (exists a, x = MOk a) <-> passes c.
Proof.
  intros H. destruct x as [a|e0 o0]; cbn [judges] in H.
  - split; [intros _; apply H | intros _; exists a; reflexivity].
  - split; [intros [a X]; discriminate X | intros X; destruct H as [H _]; contradiction].
Qed.
Lemma follows_ok A (a : A) : follows [] (MOk a).
Proof. split; [constructor|]. intros e s H. inversion H. Qed.
Lemma follows_bind c l A B (x : mres A) (f : A -> mres B) :
  judges c x -> (forall a, x = MOk a -> follows l (f a)) -> follows (c :: l) (mbind x f).
Proof.
  intros Hc Hf. destruct x as [a|e0 o0]; cbn [mbind judges] in *.
  - specialize (Hf a eq_refl). destruct Hc as [Hp Hn]. unfold follows in *. destruct (f a) as [b|e o]; cbn [judges] in *.
    + destruct Hf as [Fp Fn]. split; [constructor; assumption|]. intros e s H. inversion H; subst; [exact (Hn _ _ H4) | exact (Fn _ _ H5)].
    + destruct Hf as [Fp (s & -> & Fc)]. split; [intros X; inversion X; subst; contradiction|].
      exists s. split; [reflexivity|]. intros e' s'. split.
      * intros H. inversion H; subst; [destruct (Hn _ _ H4) | apply Fc; assumption].
      * intros X. apply fe_later; [assumption | apply Fc, X].
  - destruct Hc as [Hp (s0 & -> & Hc)]. split; [intros X; inversion X; subst; contradiction|].
    exists s0. split; [reflexivity|]. intros e' s'. split.
    + intros H. inversion H; subst; [apply Hc; assumption | contradiction].
    + intros X. apply fe_here, Hc, X.
Qed.
Lemma follows_tail c A (x : mres A) : judges c x -> follows [c] x.
Proof.
  intros H. assert (E : x = mbind x (@MOk A)) by (destruct x; reflexivity). rewrite E.
  apply follows_bind; [exact H|]. intros a _. apply follows_ok.
Qed.
Lemma first_app l1 l2 e s : first_error (l1 ++ l2) e s <-> first_error l1 e s \/ (Forall passes l1 /\ first_error l2 e s).
Proof.
  split.
  - induction l1 as [|c l IH]; intros H; [right; split; [constructor|exact H]|].
    cbn in H. inversion H; subst; [left; apply fe_here; assumption|].
    destruct (IH H5) as [X|[X Y]]; [left; apply fe_later; assumption | right; split; [constructor|]; assumption].
  - intros [H|[H1 H2]].
    + induction H; [apply fe_here | apply fe_later]; assumption.
    + induction H1; [assumption|]. apply fe_later; auto.
Qed.
Lemma follows_app l1 l2 A B (x : mres A) (f : A -> mres B) :
  follows l1 x -> (forall a, x = MOk a -> follows l2 (f a)) -> follows (l1 ++ l2) (mbind x f).
Proof.
  intros Hc Hf. unfold follows in *. destruct x as [a|e0 o0]; cbn [mbind judges] in *.
  - specialize (Hf a eq_refl). destruct Hc as [Hp Hn]. destruct (f a) as [b|e o]; cbn [judges in_turn passes complains] in *.
    + destruct Hf as [Fp Fn]. split; [apply Forall_app; split; assumption|].
      intros e s H. apply first_app in H. destruct H as [H|[_ H]]; [exact (Hn _ _ H) | exact (Fn _ _ H)].
    + destruct Hf as [Fp (s & -> & Fc)]. split; [intros X; apply Forall_app in X; destruct X; contradiction|].
      exists s. split; [reflexivity|]. intros e' s'. rewrite first_app, <- Fc. split.
      * intros [H|[_ H]]; [destruct (Hn _ _ H) | exact H].
      * intros H. right. split; assumption.
  - cbn [judges in_turn passes complains] in *. destruct Hc as [Hp (s0 & -> & Hc)].
    split; [intros X; apply Forall_app in X; destruct X; contradiction|].
    exists s0. split; [reflexivity|]. intros e' s'. rewrite first_app, <- Hc. split; [|tauto].
    intros [H|[H _]]; [exact H | contradiction].
Qed.

Section N.
Context {T : Type} {NT : Num T} {LT : NumLaws T}.
Variable fmt : nat -> T -> string.
Notation pyval := (pyval T).
Notation show := (f4 fmt).

Lemma typed_dec ci (v : pyval) : {typed ci v} + {~ typed ci v}.
Proof.
  unfold typed. destruct v; destruct ci; try (left; left; constructor); try (left; right; split; [reflexivity|constructor]);
    right; intros [H|[H1 H2]]; try discriminate H1; try inversion H; inversion H2.
Defined.
Lemma typed_number ci (v : pyval) : typed ci v -> numberlike v.
Proof. intros [H|[_ H]]; [left|right]; exact H. Qed.
Lemma number_typed (v : pyval) : numberlike v -> typed false v.
Proof. intros [H|H]; [left; exact H | right; split; [reflexivity|exact H]]. Qed.
Lemma type_judge ci name (v : pyval) : typed ci v -> number_type_m ci name v = MOk v.
Proof. intros H. unfold number_type_m. rewrite (proj2 (number_type_ok ci v v) (conj eq_refl H)). reflexivity. Qed.
Lemma type_error ci name (v : pyval) : ~ typed ci v -> number_type_m ci name v = raise TypeError (type_text ci name).
Proof. intros H. unfold number_type_m. rewrite (proj2 (number_type_err ci v TypeError) (conj eq_refl H)). reflexivity. Qed.
Lemma type_text_eq ci name : type_text ci name = name ++ " is not of type " ++ (if ci then "integer" else "'number'").
Proof. destruct ci; reflexivity. Qed.

Lemma low_spec (ex : bool) (v lo : pyval) : small v -> small lo -> numberlike v -> numberlike lo ->
  (if ex then v_cmp (@s_le T _) v lo else v_cmp (@s_lt T _) v lo) = true <-> low ex (value lo) (value v).
Proof. intros. destruct ex; cbn [low]; [apply v_cmp_le | apply v_cmp_lt]; assumption. Qed.
Lemma high_spec (ex : bool) (v up : pyval) : small v -> small up -> numberlike v -> numberlike up ->
  (if ex then v_cmp (@s_ge T _) v up else v_cmp (@s_gt T _) v up) = true <-> high ex (value up) (value v).
Proof. intros. destruct ex; cbn [high]; rewrite ?v_cmp_ge, ?v_cmp_gt; [apply v_cmp_le | apply v_cmp_lt]; assumption. Qed.
Lemma respects_low (ex : bool) lo up v : respects ex lo up v <-> ~ low ex lo v /\ ~ high ex up v.
Proof. destruct ex; reflexivity. Qed.

Lemma text_both name (ex : bool) a b :
  (("The " ++ name ++ " argument must be ") ++ "greater " ++ (if ex then "than" else "than or equal to") ++ " " ++ a) ++
    "less " ++ (if ex then "than" else "than or equal to") ++ " " ++ b =
  "The " ++ name ++ " argument must be " ++ at_least ex a ++ at_most ex b.
Proof. rewrite !app_assoc_s. destruct ex; reflexivity. Qed.
Lemma text_low name (ex : bool) a : ("The " ++ name ++ " argument must be ") ++ "greater " ++ (if ex then "than" else "than or equal to") ++ " " ++ a =
  "The " ++ name ++ " argument must be " ++ at_least ex a.
Proof. rewrite !app_assoc_s. destruct ex; reflexivity. Qed.
Lemma text_high name (ex : bool) a : ("The " ++ name ++ " argument must be ") ++ "less " ++ (if ex then "than" else "than or equal to") ++ " " ++ a =
  "The " ++ name ++ " argument must be " ++ at_most ex a.
Proof. rewrite !app_assoc_s. destruct ex; reflexivity. Qed.

Theorem number_judges name (v : pyval) ci lo up ex : small v -> small lo -> small up -> numberlike lo -> numberlike up ->
  judges (number_check show name v ci lo up ex) (number_m fmt name v ci lo up ex).
Proof.
  intros Sv Sl Su Nl Nu. unfold number_m.
  destruct (typed_dec ci v) as [Hv|Hv].
  2:{ rewrite (type_error name Hv), type_text_eq. cbn [mbind judges raise number_check passes complains].
      split. { intros (H & _). contradiction. }
      eexists. split; [reflexivity|]. intros e s. split.
      - inversion 1; subst; try contradiction. split; reflexivity.
      - intros [-> ->]. apply ne_type. exact Hv. }
  rewrite (type_judge name Hv). cbn [mbind]. unfold number_bounds_m.
  rewrite (type_judge "lower_bound" (number_typed Nl)), (type_judge "upper_bound" (number_typed Nu)). cbn [mbind].
  pose proof (typed_number Hv) as Nv.
  pose proof (@v_cmp_lt T NT LT up lo Su Sl Nu Nl) as R. rewrite <- v_cmp_gt in R.
  destruct (v_cmp (@s_gt T _) lo up) eqn:E.
  { assert (Hr : xlt (value up) (value lo)) by (apply R; reflexivity).
    cbn [judges raise number_check passes complains]. split; [intros (_ & X & _); contradiction|].
    eexists. split; [reflexivity|]. intros e s. split.
    - inversion 1; subst; try contradiction. split; reflexivity.
    - intros [-> ->]. apply ne_reversed; assumption. }
  assert (Hr : ~ xlt (value up) (value lo)) by (intros X; apply R in X; discriminate X).
  pose proof (@low_spec ex v lo Sv Sl Nv Nl) as L. pose proof (@high_spec ex v up Sv Su Nv Nu) as U.
  cbv zeta.
  destruct (if ex then v_cmp (s_le (T:=T)) v lo else v_cmp (s_lt (T:=T)) v lo) eqn:EL;
  destruct (if ex then v_cmp (s_ge (T:=T)) v up else v_cmp (s_gt (T:=T)) v up) eqn:EU;
  (assert (HL : low ex (value lo) (value v)) by (apply L; reflexivity)) || (assert (HL : ~ low ex (value lo) (value v)) by (intros X; apply L in X; discriminate X));
  (assert (HU : high ex (value up) (value v)) by (apply U; reflexivity)) || (assert (HU : ~ high ex (value up) (value v)) by (intros X; apply U in X; discriminate X));
  cbn [orb judges raise number_check passes complains].
  - split; [intros (_ & _ & X); apply respects_low in X; tauto|]. eexists. split; [reflexivity|].
    rewrite text_both. intros e s. split.
    + inversion 1; subst; try contradiction. split; reflexivity.
    + intros [-> ->]. apply ne_both; assumption.
  - split; [intros (_ & _ & X); apply respects_low in X; tauto|]. eexists. split; [reflexivity|].
    rewrite text_low. intros e s. split.
    + inversion 1; subst; try contradiction. split; reflexivity.
    + intros [-> ->]. apply ne_low; assumption.
  - split; [intros (_ & _ & X); apply respects_low in X; tauto|]. eexists. split; [reflexivity|].
    rewrite text_high. intros e s. split.
    + inversion 1; subst; try contradiction. split; reflexivity.
    + intros [-> ->]. apply ne_high; assumption.
  - split; [split; [assumption|]; split; [assumption|]; apply respects_low; split; assumption|].
    intros e s X. inversion X; subst; contradiction.
Qed.
Theorem number_valued name (v : pyval) ci lo up ex w : number_m fmt name v ci lo up ex = MOk w -> w = v.
Proof.
  intros H. pose proof (number_out fmt name v ci lo up ex) as E. rewrite H in E. cbn [outcome] in E. symmetry in E.
  unfold number in E. destruct (number_type ci v) as [v'|] eqn:Et; [|discriminate E].
  apply number_type_ok in Et. destruct Et as [-> _]. cbn [bind] in E. unfold number_bounds in E.
  destruct (number_type false lo); [|discriminate E]. destruct (number_type false up); [|discriminate E]. cbn [bind] in E.
  destruct (v_cmp _ lo up); [discriminate E|].
  cbv zeta in E. match type of E with (if ?b then _ else _) = _ => destruct b end; [discriminate E|].
  injection E as <-. reflexivity.
Qed.

(** *** arrays *)
Lemma drop_app a b : drop_last (String.length b) (a ++ b) = a.
Proof.
  unfold drop_last. assert (E : String.length (a ++ b) - String.length b = String.length a).
  { induction a as [|c a IH]; cbn [append String.length] in *; [apply PeanoNat.Nat.sub_diag|].
    rewrite PeanoNat.Nat.sub_succ_l; [f_equal; exact IH|]. clear. induction a; cbn; lia. }
  rewrite E. clear E. induction a as [|c a IH]; cbn; [destruct b; reflexivity|]. f_equal. exact IH.
Qed.
Lemma drop_and a b : a = b ++ " and " -> drop_last 5 a = b.
Proof. intros ->. apply (drop_app b " and "). Qed.
Lemma atext_both name (ex : bool) a b :
  drop_last 5 ((("The " ++ name ++ " argument must contain solely values ") ++
     "greater " ++ (if ex then "than" else "than or equal to") ++ " " ++ a ++ " and ") ++
     "less " ++ (if ex then "than" else "than or equal to") ++ " " ++ b ++ " and ") =
  "The " ++ name ++ " argument must contain solely values " ++ at_least ex a ++ " and " ++ at_most ex b.
Proof.
  apply drop_and. unfold at_least, at_most, than. rewrite !app_assoc_s. destruct ex; reflexivity.
Qed.
Lemma atext_low name (ex : bool) a :
  drop_last 5 (("The " ++ name ++ " argument must contain solely values ") ++
     "greater " ++ (if ex then "than" else "than or equal to") ++ " " ++ a ++ " and ") =
  "The " ++ name ++ " argument must contain solely values " ++ at_least ex a.
Proof.
  apply drop_and. unfold at_least, at_most, than. rewrite !app_assoc_s. destruct ex; reflexivity.
Qed.
Lemma atext_high name (ex : bool) a :
  drop_last 5 (("The " ++ name ++ " argument must contain solely values ") ++
     "less " ++ (if ex then "than" else "than or equal to") ++ " " ++ a ++ " and ") =
  "The " ++ name ++ " argument must contain solely values " ++ at_most ex a.
Proof.
  apply drop_and. unfold at_least, at_most, than. rewrite !app_assoc_s. destruct ex; reflexivity.
Qed.

Lemma some_spec (P : scal T -> Prop) (f : scal T -> bool) el : (forall s, In s el -> f s = true <-> P s) ->
  existsb f el = true <-> exists s, In s el /\ P s.
Proof.
  intros H. rewrite existsb_exists. split; intros (s & Hs & X); exists s; (split; [exact Hs|]); apply (H s Hs); exact X.
Qed.
Lemma lo_value (lo : option pyval) : value (lo_of lo) = eff_lo lo.
Proof. destruct lo; [reflexivity|]. apply val_ninf. Qed.
Lemma up_value (up : option pyval) : value (up_of up) = eff_up up.
Proof. destruct up; [reflexivity|]. apply l_inf. Qed.
Lemma lo_number (lo : option pyval) : onum lo -> numberlike (lo_of lo). Proof. destruct lo; [auto|]. right. constructor. Qed.
Lemma up_number (lo : option pyval) : onum lo -> numberlike (up_of lo). Proof. destruct lo; [auto|]. right. constructor. Qed.
Lemma lo_small (lo : option pyval) : osmall lo -> small (lo_of lo). Proof. destruct lo; [auto|]. cbn. auto. Qed.
Lemma up_small (lo : option pyval) : osmall lo -> small (up_of lo). Proof. destruct lo; [auto|]. cbn. auto. Qed.

(** the bounds of an array: the text, or the entries are fine *)
Lemma bounds_judge name (el : list (scal T)) lo up ex : osmall lo -> osmall up -> onum lo -> onum up -> (forall s, In s el -> ssmall s) ->
  (lo <> None \/ up <> None) ->
  match array_bounds_m fmt name el (lo_of lo) (up_of up) ex with
  | MOk _ => ~ xlt (eff_up up) (eff_lo lo) /\ ~ some_low ex lo el /\ ~ some_high ex up el
  | MErr e o => e = ValueError /\ exists t, o = Some t /\
      ((xlt (eff_up up) (eff_lo lo) /\ t = reversed_text show (lo_of lo) (up_of up)) \/
       (~ xlt (eff_up up) (eff_lo lo) /\
        ((some_low ex lo el /\ ~ some_high ex up el /\ t = "The " ++ name ++ " argument must contain solely values " ++ at_least ex (show (lo_of lo))) \/
         (~ some_low ex lo el /\ some_high ex up el /\ t = "The " ++ name ++ " argument must contain solely values " ++ at_most ex (show (up_of up))) \/
         (some_low ex lo el /\ some_high ex up el /\ t = "The " ++ name ++ " argument must contain solely values " ++ at_least ex (show (lo_of lo)) ++ " and " ++ at_most ex (show (up_of up))))))
  end.
Proof.
  intros Sl Su Nl Nu Se Hb. rewrite <- lo_value, <- up_value. unfold some_low, some_high. rewrite <- lo_value, <- up_value.
  apply lo_small in Sl. apply up_small in Su. apply lo_number in Nl. apply up_number in Nu.
  generalize dependent (lo_of lo). generalize dependent (up_of up). clear lo up Hb. intros up Su Nu lo Sl Nl.
  unfold array_bounds_m. rewrite (type_judge "lower_bound" (number_typed Nl)), (type_judge "upper_bound" (number_typed Nu)). cbn [mbind].
  pose proof (@v_cmp_lt T NT LT up lo Su Sl Nu Nl) as R. rewrite <- v_cmp_gt in R.
  destruct (v_cmp (@s_gt T _) lo up) eqn:E.
  { cbn [raise]. split; [reflexivity|]. eexists. split; [reflexivity|]. left. split; [apply R|]; reflexivity. }
  assert (Hr : ~ xlt (value up) (value lo)) by (intros X; apply R in X; discriminate X).
  destruct (proj1 (num_scal_of lo) Nl) as [l El]. destruct (proj1 (num_scal_of up) Nu) as [u Eu]. rewrite El, Eu.
  destruct (scal_of_value _ El) as [Vl Pl]. destruct (scal_of_value _ Eu) as [Vu Pu]. rewrite <- Vl, <- Vu in *.
  specialize (Pl Sl). specialize (Pu Su).
  pose proof (@some_spec (fun s => low ex (svalue l) (svalue s)) (fun e => if ex then s_le e l else s_lt e l) el) as L.
  pose proof (@some_spec (fun s => high ex (svalue u) (svalue s)) (fun e => if ex then s_ge e u else s_gt e u) el) as U.
  specialize (L (fun s Hs => ltac:(destruct ex; [apply s_le_spec | apply s_lt_spec]; auto))).
  specialize (U (fun s Hs => ltac:(destruct ex; [apply s_le_spec | apply s_lt_spec]; auto))).
  cbv zeta.
  destruct (existsb (fun e => if ex then s_le e l else s_lt e l) el);
  destruct (existsb (fun e => if ex then s_ge e u else s_gt e u) el); cbn [orb].
  - split; [reflexivity|]. eexists. split; [reflexivity|]. right. split; [exact Hr|]. right. right.
    split; [apply L; reflexivity|]. split; [apply U; reflexivity|]. apply atext_both.
  - split; [reflexivity|]. eexists. split; [reflexivity|]. right. split; [exact Hr|]. left.
    split; [apply L; reflexivity|]. split; [intros X; apply U in X; discriminate X|]. apply atext_low.
  - split; [reflexivity|]. eexists. split; [reflexivity|]. right. split; [exact Hr|]. right. left.
    split; [intros X; apply L in X; discriminate X|]. split; [apply U; reflexivity|]. apply atext_high.
  - split; [exact Hr|]. split; [intros X; apply L in X; discriminate X | intros X; apply U in X; discriminate X].
Qed.

Lemma entries_iff lo up ex (el : list (scal T)) : (lo <> None \/ up <> None) ->
  entries_ok lo up ex el <-> ~ xlt (eff_up up) (eff_lo lo) /\ ~ some_low ex lo el /\ ~ some_high ex up el.
Proof.
  intros Hb. unfold entries_ok, some_low, some_high. split.
  - intros [[-> ->]|[H1 H2]]; [destruct Hb as [Hb|Hb]; contradiction Hb; reflexivity|]. split; [exact H1|].
    split; intros (s & Hs & X); specialize (H2 s Hs); apply respects_low in H2; tauto.
  - intros (H1 & H2 & H3). right. split; [exact H1|]. intros s Hs. apply respects_low.
    split; intros X; [apply H2 | apply H3]; exists s; split; assumption.
Qed.
Lemma bounds_form lo up (el : list (scal T)) ex name :
  (match lo, up with
   | None, None => MOk tt
   | _, _ => array_bounds_m fmt name el (match lo with Some l => l | None => m_inf end) (match up with Some u => u | None => p_inf end) ex
   end) = (match lo, up with None, None => MOk tt | _, _ => array_bounds_m fmt name el (lo_of lo) (up_of up) ex end).
Proof. destruct lo, up; reflexivity. Qed.
Notation acheck := (array_check show str_int).

Lemma str_len (sh : list nat) : str_int (Z.of_nat (List.length sh)) = str_nat (List.length sh).
Proof. unfold str_int, str_nat. destruct (Z.ltb_spec (Z.of_nat (List.length sh)) 0); [lia | reflexivity]. Qed.
Lemma not_arr_judge name (v : pyval) lo up ex dt nd : not_array v ->
  judges (acheck name v lo up ex dt nd) (array_m fmt name v lo up ex dt nd).
Proof.
  intros H. assert (E : array_m fmt name v lo up ex dt nd = raise TypeError (name ++ " is not of type " ++ "np.ndarray")).
  { destruct v; try reflexivity. exfalso. eapply H. reflexivity. }
  rewrite E. cbn [judges raise array_check passes complains]. split.
  - intros (d & sh & el & -> & _). eapply H. reflexivity.
  - eexists. split; [reflexivity|]. intros e s. split.
    + intros X. inversion X; subst; [split; reflexivity|]. exfalso. eapply H. reflexivity.
    + intros [-> ->]. apply ge_kind. exact H.
Qed.
(** after the bounds *)
Lemma rest_judge name d sh (el : list (scal T)) lo up ex dt nd :
  entries_ok lo up ex el -> ((lo <> None \/ up <> None) -> ~ xlt (eff_up up) (eff_lo lo) /\ ~ some_low ex lo el /\ ~ some_high ex up el) ->
  judges (acheck name (PArr d sh el) lo up ex dt nd)
   (let! _ := match nd with Some n => saying (dims_text name sh n) (array_dimensions sh n) | None => MOk tt end in
    let! _ := match dt with Some t => saying (name ++ " (" ++ d ++ ") is not of type " ++ t) (array_type d t) | None => MOk tt end in
    MOk (PArr d sh el)).
Proof.
  intros He Hb.
  assert (Ni : forall e s, argument_error show str_int name (PArr d sh el) lo up ex dt nd e s ->
    (exists n, nd = Some n /\ Z.of_nat (List.length sh) <> n /\ e = InvalidDims /\ s = dims_text name sh n) \/
    (exists t, dims_ok sh nd /\ dt = Some t /\ d <> t /\ e = TypeError /\ s = name ++ " (" ++ d ++ ") is not of type " ++ t)).
  { intros e s X. inversion X; subst; [exfalso; eapply H; reflexivity|]. injection H as <- <- <-.
    inversion H0; subst; try (specialize (Hb H); tauto).
    - left. exists n. repeat split; auto. unfold dims_text. rewrite str_len. reflexivity.
    - right. exists t. repeat split; auto. }
  destruct nd as [n|].
  - unfold array_dimensions. destruct (Z.eqb_spec (Z.of_nat (List.length sh)) n) as [En|En]; cbn [saying mbind].
    + assert (Hd : dims_ok sh (Some n)) by (intros m Hm; injection Hm as <-; exact En).
      destruct dt as [t|].
      * unfold array_type. destruct (String.eqb_spec d t) as [Et|Et]; cbn [saying mbind judges raise].
        -- split.
           { exists d, sh, el. repeat split; auto. intros x Hx. injection Hx as <-. exact Et. }
           intros e s X. apply Ni in X. destruct X as [(m & Hm & X & _)|(t' & _ & Ht & X & _)].
           { injection Hm as <-. contradiction. } { injection Ht as <-. contradiction. }
        -- split.
           { intros (d' & sh' & el' & E & _ & _ & X). injection E as <- <- <-. apply Et. apply X. reflexivity. }
           eexists. split; [reflexivity|]. intros e s. split.
           { intros X. apply Ni in X. destruct X as [(m & Hm & X & _)|(t' & _ & Ht & X & -> & ->)].
             - injection Hm as <-. contradiction.
             - injection Ht as <-. split; reflexivity. }
           { intros [-> ->]. eapply ge_array; [reflexivity|]. apply ae_type; auto. }
      * cbn [saying mbind judges raise]. split.
        { exists d, sh, el. repeat split; auto. intros x Hx. discriminate Hx. }
        intros e s X. apply Ni in X. destruct X as [(m & Hm & X & _)|(t' & _ & Ht & X & _)].
        { injection Hm as <-. contradiction. } { discriminate Ht. }
    + cbn [judges raise]. split.
      { intros (d' & sh' & el' & E & _ & X & _). injection E as <- <- <-. apply En. apply X. reflexivity. }
      eexists. split; [reflexivity|]. intros e s. split.
      { intros X. apply Ni in X. destruct X as [(m & Hm & X & -> & ->)|(t' & X & _)].
        - injection Hm as <-. split; reflexivity.
        - exfalso. apply En. apply X. reflexivity. }
      { intros [-> ->]. eapply ge_array; [reflexivity|]. unfold dims_text. rewrite <- str_len. apply ae_dims; auto. }
  - cbn [mbind]. assert (Hd : dims_ok sh None) by (intros m Hm; discriminate Hm).
      destruct dt as [t|].
      * unfold array_type. destruct (String.eqb_spec d t) as [Et|Et]; cbn [saying mbind judges raise].
        -- split.
           { exists d, sh, el. repeat split; auto. intros x Hx. injection Hx as <-. exact Et. }
           intros e s X. apply Ni in X. destruct X as [(m & Hm & X & _)|(t' & _ & Ht & X & _)].
           { discriminate Hm. } { injection Ht as <-. contradiction. }
        -- split.
           { intros (d' & sh' & el' & E & _ & _ & X). injection E as <- <- <-. apply Et. apply X. reflexivity. }
           eexists. split; [reflexivity|]. intros e s. split.
           { intros X. apply Ni in X. destruct X as [(m & Hm & X & _)|(t' & _ & Ht & X & -> & ->)].
             - discriminate Hm.
             - injection Ht as <-. split; reflexivity. }
           { intros [-> ->]. eapply ge_array; [reflexivity|]. apply ae_type; auto. }
      * cbn [saying mbind judges raise]. split.
        { exists d, sh, el. repeat split; auto. intros x Hx. discriminate Hx. }
        intros e s X. apply Ni in X. destruct X as [(m & Hm & X & _)|(t' & _ & Ht & X & _)].
        { discriminate Hm. } { discriminate Ht. }
Qed.
Lemma none_none_entries ex (el : list (scal T)) : entries_ok None None ex el. Proof. left. split; reflexivity. Qed.

Theorem array_judges name (v : pyval) lo up ex dt nd : osmall lo -> osmall up -> onum lo -> onum up ->
  (forall d sh el s, v = PArr d sh el -> In s el -> ssmall s) ->
  judges (acheck name v lo up ex dt nd) (array_m fmt name v lo up ex dt nd).
Proof.
  intros Sl Su Nl Nu Se.
  destruct v; try (apply not_arr_judge; intros ? ? ?; discriminate).
  assert (Se' : forall s, In s elems -> ssmall s) by (intros s Hs; exact (Se _ _ _ _ eq_refl Hs)). clear Se.
  unfold array_m. rewrite bounds_form.
  assert (G : (lo <> None \/ up <> None) -> judges (acheck name (PArr dtype shape elems) lo up ex dt nd)
     (let! _ := array_bounds_m fmt name elems (lo_of lo) (up_of up) ex in
      let! _ := match nd with Some n => saying (dims_text name shape n) (array_dimensions shape n) | None => MOk tt end in
      let! _ := match dt with Some t => saying (name ++ " (" ++ dtype ++ ") is not of type " ++ t) (array_type dtype t) | None => MOk tt end in
      MOk (PArr dtype shape elems))).
  { intros Hb. pose proof (@bounds_judge name elems lo up ex Sl Su Nl Nu Se' Hb) as B.
    destruct (array_bounds_m fmt name elems (lo_of lo) (up_of up) ex) as [[]|e o]; cbn [mbind].
    - apply rest_judge; [|intros _; exact B]. apply entries_iff; assumption.
    - destruct B as (-> & t & -> & B).
      assert (Hne : ~ entries_ok lo up ex elems). { rewrite entries_iff by exact Hb. tauto. }
      cbn [judges array_check passes complains]. split.
      { intros (d & sh & el & E & X & _). injection E as <- <- <-. contradiction. }
      exists t. split; [reflexivity|]. intros e s. split.
      + intros X. inversion X; subst; [exfalso; eapply H; reflexivity|]. injection H as <- <- <-.
        destruct B as [[B ->]|[B [(B1 & B2 & ->)|[(B1 & B2 & ->)|(B1 & B2 & ->)]]]];
          inversion H0; subst; try contradiction; split; reflexivity.
      + intros [-> ->]. eapply ge_array; [reflexivity|].
        destruct B as [[B ->]|[B [(B1 & B2 & ->)|[(B1 & B2 & ->)|(B1 & B2 & ->)]]]];
          [apply ae_reversed | apply ae_low | apply ae_high | apply ae_both]; assumption. }
  destruct lo as [lo|]; [apply G; left; discriminate|]. destruct up as [up|]; [apply G; right; discriminate|].
  cbn [mbind]. apply rest_judge; [apply none_none_entries|]. intros [X|X]; contradiction X; reflexivity.
Qed.
Theorem array_valued name (v : pyval) lo up ex dt nd w : array_m fmt name v lo up ex dt nd = MOk w -> w = v.
Proof.
  unfold array_m. destruct v; try discriminate. intros H.
  match type of H with mbind ?x _ = _ => destruct x end; [|discriminate H]. cbn [mbind] in H.
  match type of H with mbind ?x _ = _ => destruct x end; [|discriminate H]. cbn [mbind] in H.
  match type of H with mbind ?x _ = _ => destruct x end; [|discriminate H]. cbn [mbind] in H.
  injection H as <-. reflexivity.
Qed.

(** *** shapes *)
Lemma concat_cons sep a b l : String.concat sep (a :: b :: l) = a ++ sep ++ String.concat sep (b :: l).
Proof. reflexivity. Qed.
Lemma drop_comma a b : a = b ++ ", " -> drop_last 2 a = b.
Proof. intros ->. apply (drop_app b ", "). Qed.
Lemma concat_sep (l : list string) : l <> [] -> String.concat "" (map (fun s => s ++ ", ") l) = String.concat ", " l ++ ", ".
Proof.
  induction l as [|a [|b l] IH]; intros H; [contradiction H; reflexivity | reflexivity |].
  cbn [map] in *. rewrite concat_cons. rewrite concat_cons, app_assoc_s, app_assoc_s.
  rewrite IH by discriminate. cbn [append]. rewrite ?app_assoc_s. reflexivity.
Qed.
Lemma shape_text_eq names shapes : combine names shapes <> [] -> shape_text names shapes = shapes_text str_tuple names shapes.
Proof.
  intros H. unfold shape_text, shapes_text. cbv zeta. f_equal. apply drop_comma.
  rewrite <- concat_sep.
  - rewrite map_map. f_equal. apply map_ext. intros [n sh]. cbn [fst snd]. rewrite !app_assoc_s. reflexivity.
  - intros X. apply H. destruct (combine names shapes); [reflexivity | discriminate X].
Qed.
Lemma loop_spec sh : forall (l : list pyval) names b, List.length l = List.length names -> all_arrays l ->
  exists c, same_shape_loop_m sh (combine l names) b = MOk c /\
    (c = false <-> b = false /\ forall v, In v l -> Py.shape_of v = Some sh).
Proof.
  induction l as [|v l IH]; intros [|n names] b Hl Ha; try discriminate Hl.
  - exists b. split; [reflexivity|]. split; [intros ->; split; [reflexivity|intros ? []] | intros [H _]; exact H].
  - destruct (Ha v (or_introl eq_refl)) as (d & s & el & ->). cbn [combine same_shape_loop_m].
    destruct (IH names (b || negb (shape_eqb s sh))) as (c & Hc & Ic).
    { injection Hl as Hl. exact Hl. } { intros v Hv. apply Ha. right. exact Hv. }
    exists c. split; [exact Hc|]. rewrite Ic. rewrite orb_false_iff, negb_false_iff, shape_eqb_spec. split.
    + intros [[-> ->] H]. split; [reflexivity|]. intros v [<-|Hv]; [reflexivity | apply H, Hv].
    + intros [-> H]. split; [split; [reflexivity|]|].
      * specialize (H _ (or_introl eq_refl)). cbn in H. injection H as H. exact H.
      * intros v Hv. apply H. right. exact Hv.
Qed.
Lemma shapes_of (l : list pyval) : all_arrays l -> map (@Py.shape_of T) l = map Some (map (@shape_or_nil T) l).
Proof.
  intros H. induction l as [|v l IH]; [reflexivity|]. cbn [map]. f_equal; [|apply IH; intros w Hw; apply H; right; exact Hw].
  destruct (H v (or_introl eq_refl)) as (d & s & el & ->). reflexivity.
Qed.
Lemma some_inj A : forall l m : list A, map Some l = map Some m -> l = m.
Proof. induction l as [|a l IH]; intros [|b m] H; try discriminate H; [reflexivity|]. cbn in H. injection H as <- H. f_equal. apply IH, H. Qed.
Theorem shapes_judge (l : list pyval) names : 2 <= List.length l -> List.length l = List.length names -> all_arrays l ->
  judges (shapes_check str_tuple l names) (same_shape_m l names).
Proof.
  intros H2 Hn Ha. unfold same_shape_m.
  rewrite (proj2 (PeanoNat.Nat.ltb_ge (List.length l) 2) H2). rewrite (proj2 (PeanoNat.Nat.eqb_eq _ _) Hn). cbn [negb].
  destruct l as [|a l]; [cbn in H2; lia|]. destruct (Ha a (or_introl eq_refl)) as (d & sh & el & ->).
  cbn [Py.shape_of]. destruct (@loop_spec sh (PArr d sh el :: l) names false Hn Ha) as (c & Hc & Ic). rewrite Hc. cbn [mbind].
  assert (Eq : c = false <-> equal_shapes (PArr d sh el :: l)).
  { rewrite Ic. unfold equal_shapes. split.
    - intros [_ H]. exists sh. exact H.
    - intros [sh' H]. split; [reflexivity|]. assert (sh' = sh) as -> by (specialize (H _ (or_introl eq_refl)); cbn in H; injection H as H; symmetry; exact H).
      exact H. }
  destruct c; cbn [judges raise shapes_check passes complains].
  - assert (Nq : ~ equal_shapes (PArr d sh el :: l)) by (intros X; apply Eq in X; discriminate X).
    split; [exact Nq|]. eexists. split; [reflexivity|].
    assert (Et : shape_text names (map (@shape_or_nil T) (PArr d sh el :: l)) = shapes_text str_tuple names (map (@shape_or_nil T) (PArr d sh el :: l))).
    { apply shape_text_eq. destruct names; [cbn in Hn; discriminate Hn|]. discriminate. }
    rewrite Et. intros e s. split.
    + intros X. inversion X; subst. split; [reflexivity|]. f_equal. apply some_inj. rewrite <- shapes_of by exact Ha. symmetry. assumption.
    + intros [-> ->]. apply se_shapes; [apply shapes_of; exact Ha | exact Nq].
  - split; [apply Eq; reflexivity|]. intros e s X. inversion X; subst. apply H0. apply Eq. reflexivity.
Qed.
(** *** the others *)
Lemma kind_judge A (ok : Prop) name shown (x : res A) : (match x with Ok _ => ok | Err e => ~ ok /\ e = TypeError end) ->
  judges (kind_check ok name shown) (saying (class_text name shown) x).
Proof.
  destruct x as [a|e]; cbn [saying judges raise kind_check passes complains].
  - intros H. split; [exact H|]. intros e s (X & _). contradiction.
  - intros [H ->]. split; [exact H|]. eexists. split; [reflexivity|]. intros e s. split; [intros (_ & -> & ->); split; reflexivity|].
    intros [-> ->]. split; [exact H|]. split; reflexivity.
Qed.
Lemma own_judge A (b : bool) (ok : Prop) e s (x : mres A) l : (b = true <-> ~ ok) -> (b = false <-> ok) -> follows l x ->
  follows (own_check ok e s :: l) (if b then raise e s else x).
Proof.
  intros Hb Hb' Hx. set (y := if b then raise e s else MOk tt : mres unit).
  replace (if b then raise e s else x) with (mbind y (fun _ => x)) by (unfold y; destruct b; reflexivity).
  apply follows_bind; [|intros; exact Hx]. unfold y. destruct b; cbn [judges raise own_check passes complains].
  - assert (H : ~ ok) by (apply Hb; reflexivity). split; [exact H|]. exists s. split; [reflexivity|].
    intros e' s'. split; [intros (_ & X); exact X | intros X; split; assumption].
  - assert (H : ok) by (apply Hb'; reflexivity). split; [exact H|]. intros e' s' (X & _). contradiction.
Qed.
End N.
