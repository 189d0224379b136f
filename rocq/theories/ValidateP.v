(** Proofs about validate.py. *)
From Coq Require Import ZArith Reals List Bool String Lra Lia.
From Verif Require Import Num NumP Py Validate SpecNum.
Import ListNotations.
Set Implicit Arguments.

Lemma x_lt_iff a b : x_lt a b = true <-> xlt a b.
Proof.
  destruct a, b; cbn; try (split; intros; try discriminate; tauto).
  destruct (Rlt_dec r r0); split; intros; try discriminate; auto; tauto.
Qed.
Lemma x_eq_iff a b : x_eq a b = true <-> a = b /\ a <> XNaN.
Proof.
  destruct a, b; cbn; try (split; [intros; try discriminate; split; try reflexivity; discriminate
    |intros [? ?]; try discriminate; congruence]).
  destruct (Req_EM_T r r0); split; intros; try discriminate.
  - subst; split; congruence.
  - reflexivity.
  - destruct H; congruence.
Qed.
Lemma x_le_iff a b : x_le a b = true <-> xle a b.
Proof. unfold x_le, xle. rewrite orb_true_iff, x_lt_iff, x_eq_iff. tauto. Qed.
Lemma x_lt_false a b : x_lt a b = false <-> ~ xlt a b.
Proof. rewrite <- x_lt_iff. destruct (x_lt a b); split; congruence. Qed.
Lemma x_le_false a b : x_le a b = false <-> ~ xle a b.
Proof. rewrite <- x_le_iff. destruct (x_le a b); split; congruence. Qed.

Lemma xle_total a b : a <> XNaN -> b <> XNaN -> xle a b \/ xlt b a.
Proof.
  unfold xle; destruct a as [| | |r], b as [| | |s]; cbn; intros Ha Hb; try congruence; try tauto;
    try (left; right; split; congruence).
  destruct (Rtotal_order r s) as [|[|]]; subst; try tauto.
Qed.
Lemma not_both a b : xle a b -> xlt b a -> False.
Proof.
  unfold xle; destruct a as [| | |r], b as [| | |s]; cbn; intros [H|[H H']] H2; try tauto; try congruence; try lra.
  inversion H; lra.
Qed.
Lemma not_xlt a b : a <> XNaN -> b <> XNaN -> (~ xlt a b <-> xle b a).
Proof.
  intros Ha Hb. destruct (xle_total Hb Ha) as [H|H].
  - split; auto. intros _ H'. eapply not_both; eauto.
  - split; [tauto|]. intros H'. exfalso; eapply not_both; eauto.
Qed.
Lemma not_xle a b : a <> XNaN -> b <> XNaN -> (~ xle a b <-> xlt b a).
Proof.
  intros Ha Hb. destruct (xle_total Ha Hb) as [H|H].
  - split; [tauto|]. intros H'. exfalso; eapply not_both; eauto.
  - split; auto. intros _ H'. eapply not_both; eauto.
Qed.
Lemma xlt_trans a b c : xlt a b -> xlt b c -> xlt a c.
Proof. destruct a, b, c; cbn; try tauto. lra. Qed.
Lemma xle_trans a b c : xle a b -> xle b c -> xle a c.
Proof.
  unfold xle. intros [H|[H HN]] [H'|[H' HN']]; subst; auto. left; eapply xlt_trans; eauto.
Qed.
Lemma xlt_le_trans a b c : xlt a b -> xle b c -> xlt a c.
Proof. unfold xle. intros H [H'|[H' HN']]; subst; auto. eapply xlt_trans; eauto. Qed.
Lemma xle_lt_trans a b c : xle a b -> xlt b c -> xlt a c.
Proof. unfold xle. intros [H'|[H' HN']] H; subst; auto. eapply xlt_trans; eauto. Qed.
Lemma xlt_irrefl a : ~ xlt a a.
Proof. destruct a; cbn; try tauto. lra. Qed.
Lemma xlt_xle a b : xlt a b -> xle a b.
Proof. now left. Qed.
Lemma xle_refl a : a <> XNaN -> xle a a.
Proof. intros; right; auto. Qed.
Lemma xlt_nan a b : xlt a b -> a <> XNaN /\ b <> XNaN.
Proof. destruct a, b; cbn; intros; split; try congruence; tauto. Qed.
Arguments xlt_nan {a b} _.
Lemma xle_nan a b : xle a b -> a <> XNaN /\ b <> XNaN.
Proof. intros [H|[-> H]]; auto using xlt_nan. Qed.
Arguments xle_nan {a b} _.
Lemma xle_antisym a b : xle a b -> xle b a -> a = b.
Proof. intros [H|[-> H]] [H'|[H' ?]]; auto. exfalso. eapply xlt_irrefl, xlt_trans; eauto. Qed.

Section V.
Context {T : Type} {NT : Num T} {LT : NumLaws T}.
Notation pyval := (pyval T).

Lemma Zltb_R x y : Z.ltb x y = true <-> (IZR x < IZR y)%R.
Proof. rewrite Z.ltb_lt. split; [apply IZR_lt | apply lt_IZR]. Qed.
Lemma Zleb_R x y : Z.leb x y = true <-> (IZR x <= IZR y)%R.
Proof. rewrite Z.leb_le. split; [apply IZR_le | apply le_IZR]. Qed.

Lemma num_scal_value (s : scal T) : ssmall s -> val (num_scal s) = svalue s.
Proof.
  destruct s as [[]|z|x]; cbn; intros; auto.
  - rewrite l_ofZ; [reflexivity|lia].
  - rewrite l_ofZ; [reflexivity|lia].
  - now rewrite l_ofZ.
Qed.
Lemma int_scal_value (s : scal T) z : int_scal s = Some z -> svalue s = XFin (IZR z).
Proof. destruct s as [[]|z'|x]; cbn; intros E; inversion E; reflexivity. Qed.

Lemma s_lt_spec a b : ssmall a -> ssmall b -> s_lt a b = true <-> xlt (svalue a) (svalue b).
Proof.
  intros Ha Hb. unfold s_lt, s_cmp.
  destruct (int_scal a) eqn:Ea; [destruct (int_scal b) eqn:Eb|].
  - rewrite (int_scal_value a Ea), (int_scal_value b Eb). cbn. apply Zltb_R.
  - rewrite l_lt, x_lt_iff, !num_scal_value by assumption. tauto.
  - rewrite l_lt, x_lt_iff, !num_scal_value by assumption. tauto.
Qed.
Lemma s_le_spec a b : ssmall a -> ssmall b -> s_le a b = true <-> xle (svalue a) (svalue b).
Proof.
  intros Ha Hb. unfold s_le, s_cmp.
  destruct (int_scal a) eqn:Ea; [destruct (int_scal b) eqn:Eb|].
  - rewrite (int_scal_value a Ea), (int_scal_value b Eb). unfold xle; cbn. rewrite Zleb_R.
    split; [intros [H|H]; [left; auto|right; split; congruence]|intros [H|[H _]]; [lra|inversion H; lra]].
  - rewrite l_le, x_le_iff, !num_scal_value by assumption. tauto.
  - rewrite l_le, x_le_iff, !num_scal_value by assumption. tauto.
Qed.
Lemma scal_of_value (v : pyval) s : scal_of v = Some s -> svalue s = value v /\ (small v -> ssmall s).
Proof. destruct v; cbn; intros E; inversion E; subst; cbn; auto. Qed.

Lemma number_type_ok ci (v w : pyval) :
  number_type ci v = Ok w <-> w = v /\ (int_like v \/ (ci = false /\ float_like v)).
Proof.
  destruct ci, v; cbn; split; intros H; try discriminate;
   try (inversion H; subst; split; [reflexivity|]; (left; constructor) || (right; split; [reflexivity|constructor]));
   destruct H as [-> [H|[H H']]]; try discriminate; try inversion H; try inversion H'; reflexivity.
Qed.
Lemma number_type_err ci (v : pyval) e :
  number_type ci v = Err e <-> e = TypeError /\ ~ (int_like v \/ (ci = false /\ float_like v)).
Proof.
  destruct (number_type ci v) as [w|e'] eqn:E.
  - apply number_type_ok in E. split; intros H; [discriminate|tauto].
  - assert (e' = TypeError) as -> by (revert E; destruct ci, v; cbn; congruence).
    split; intros H.
    + inversion H; subst. split; [reflexivity|]. intros C.
      assert (number_type ci v = Ok v) as E' by (apply number_type_ok; auto). congruence.
    + destruct H as [-> _]; reflexivity.
Qed.
Lemma num_scal_of (v : pyval) : (int_like v \/ float_like v) <-> exists s, scal_of v = Some s.
Proof.
  split.
  - intros [H|H]; inversion H; eexists; reflexivity.
  - intros [s H]. destruct v; cbn in H; try discriminate;
      (left; constructor) || (right; constructor).
Qed.

Lemma v_cmp_lt a b : small a -> small b -> (int_like a \/ float_like a) -> (int_like b \/ float_like b) ->
  v_cmp (@s_lt T _) a b = true <-> xlt (value a) (value b).
Proof.
  intros Sa Sb Na Nb. apply num_scal_of in Na. apply num_scal_of in Nb.
  destruct Na as [x Ex], Nb as [y Ey]. unfold v_cmp. rewrite Ex, Ey.
  destruct (scal_of_value _ Ex) as [<- ?]. destruct (scal_of_value _ Ey) as [<- ?].
  apply s_lt_spec; auto.
Qed.
Lemma v_cmp_le a b : small a -> small b -> (int_like a \/ float_like a) -> (int_like b \/ float_like b) ->
  v_cmp (@s_le T _) a b = true <-> xle (value a) (value b).
Proof.
  intros Sa Sb Na Nb. apply num_scal_of in Na. apply num_scal_of in Nb.
  destruct Na as [x Ex], Nb as [y Ey]. unfold v_cmp. rewrite Ex, Ey.
  destruct (scal_of_value _ Ex) as [<- ?]. destruct (scal_of_value _ Ey) as [<- ?].
  apply s_le_spec; auto.
Qed.
Lemma v_cmp_gt a b : v_cmp (@s_gt T _) a b = v_cmp (@s_lt T _) b a.
Proof. unfold v_cmp, s_gt. destruct (scal_of a), (scal_of b); reflexivity. Qed.
Lemma v_cmp_ge a b : v_cmp (@s_ge T _) a b = v_cmp (@s_le T _) b a.
Proof. unfold v_cmp, s_ge. destruct (scal_of a), (scal_of b); reflexivity. Qed.

Lemma numberlike_dec (v : pyval) : {numberlike v} + {~ numberlike v}.
Proof. destruct v; try (left; (left; constructor) || (right; constructor));
  right; intros [H|H]; inversion H. Qed.

Lemma ntype_false_ok (v : pyval) : numberlike v -> number_type false v = Ok v.
Proof. intros [H|H]; apply number_type_ok; auto. Qed.
Lemma ntype_false_err (v : pyval) : ~ numberlike v -> number_type false v = Err TypeError.
Proof. intros H; apply number_type_err. split; auto. unfold numberlike in H. tauto. Qed.

(** [true] when the value is found outside of the bounds *)
Definition rejected (ex : bool) (v lo up : pyval) : bool :=
  (if ex then v_cmp (@s_le T _) v lo else v_cmp (@s_lt T _) v lo) ||
  (if ex then v_cmp (@s_le T _) up v else v_cmp (@s_lt T _) up v).

Lemma number_bounds_eq v lo up ex : numberlike lo -> numberlike up ->
  number_bounds v lo up ex =
  if v_cmp (@s_lt T _) up lo then Err ValueError
  else if rejected ex v lo up then Err ValueError else Ok v.
Proof.
  intros Hl Hu. unfold number_bounds. rewrite (ntype_false_ok Hl), (ntype_false_ok Hu). cbn [bind].
  rewrite v_cmp_gt. unfold rejected. destruct ex; rewrite ?v_cmp_gt, ?v_cmp_ge; reflexivity.
Qed.

Lemma rejected_spec ex v lo up : small v -> small lo -> small up ->
  numberlike v -> numberlike lo -> numberlike up ->
  rejected ex v lo up = false <-> respects ex (value lo) (value up) (value v).
Proof.
  intros. unfold rejected, respects.
  rewrite orb_false_iff. rewrite <- !not_true_iff_false.
  destruct ex; rewrite ?v_cmp_le, ?v_cmp_lt by assumption; tauto.
Qed.

Theorem number_ok v ci lo up ex w : small v -> small lo -> small up ->
  number v ci lo up ex = Ok w <->
  w = v /\ (int_like v \/ (ci = false /\ float_like v)) /\ numberlike lo /\ numberlike up /\
  ~ xlt (value up) (value lo) /\ respects ex (value lo) (value up) (value v).
Proof.
  intros Sv Sl Su. unfold number.
  destruct (number_type ci v) as [v'|e] eqn:E; cbn [bind].
  - apply number_type_ok in E. destruct E as [-> Hv].
    assert (Nv : numberlike v) by (unfold numberlike; tauto).
    destruct (numberlike_dec lo) as [Hl|Hl].
    2:{ unfold number_bounds. rewrite (ntype_false_err Hl). cbn. split; [discriminate|tauto]. }
    destruct (numberlike_dec up) as [Hu|Hu].
    2:{ unfold number_bounds. rewrite (ntype_false_ok Hl), (ntype_false_err Hu). cbn. split; [discriminate|tauto]. }
    rewrite number_bounds_eq by assumption.
    rewrite <- rejected_spec by assumption. rewrite <- v_cmp_lt by assumption.
    destruct (v_cmp (s_lt (T:=T)) up lo); [split; [discriminate|intros H; exfalso; tauto]|].
    destruct (rejected ex v lo up); split; intros H; try discriminate.
    + decompose [and] H; discriminate.
    + inversion H; subst. repeat split; auto.
    + destruct H as [-> _]. reflexivity.
  - apply number_type_err in E. split; [discriminate|tauto].
Qed.

Theorem number_err v ci lo up ex e : small v -> small lo -> small up ->
  number v ci lo up ex = Err e ->
  (e = TypeError /\ (~ (int_like v \/ (ci = false /\ float_like v)) \/ ~ numberlike lo \/ ~ numberlike up)) \/
  (e = ValueError /\ (int_like v \/ (ci = false /\ float_like v)) /\ numberlike lo /\ numberlike up /\
   (xlt (value up) (value lo) \/ ~ respects ex (value lo) (value up) (value v))).
Proof.
  intros Sv Sl Su. unfold number.
  destruct (number_type ci v) as [v'|e'] eqn:E; cbn [bind].
  - apply number_type_ok in E. destruct E as [-> Hv].
    assert (Nv : numberlike v) by (unfold numberlike; tauto).
    destruct (numberlike_dec lo) as [Hl|Hl].
    2:{ unfold number_bounds. rewrite (ntype_false_err Hl). cbn. intros H; inversion H. tauto. }
    destruct (numberlike_dec up) as [Hu|Hu].
    2:{ unfold number_bounds. rewrite (ntype_false_ok Hl), (ntype_false_err Hu). cbn. intros H; inversion H; tauto. }
    rewrite number_bounds_eq by assumption.
    rewrite <- rejected_spec by assumption. rewrite <- v_cmp_lt by assumption.
    destruct (v_cmp (s_lt (T:=T)) up lo); [intros H; inversion H; tauto|].
    destruct (rejected ex v lo up); intros H; inversion H. right. repeat split; auto. right; discriminate.
  - apply number_type_err in E. destruct E as [-> ?]. intros HE; inversion HE. tauto.
Qed.

Lemma respects_inside ex lo up v : lo <> XNaN -> up <> XNaN -> v <> XNaN ->
  respects ex lo up v <-> inside ex lo up v.
Proof.
  intros. unfold respects, inside. destruct ex.
  - rewrite !not_xle by assumption. tauto.
  - rewrite !not_xlt by assumption. tauto.
Qed.

Lemma respects_nan ex lo up : respects ex lo up XNaN.
Proof.
  unfold respects, xle. destruct ex; split; destruct lo, up; cbn; try tauto;
  intros [H|[H H']]; try tauto; try congruence.
Qed.

Theorem number_nan x lo up ex (mk : T -> pyval) : (mk = PFloat \/ mk = PNpFloat) ->
  val x = XNaN -> small lo -> small up -> numberlike lo -> numberlike up ->
  ~ xlt (value up) (value lo) ->
  number (mk x) false lo up ex = Ok (mk x).
Proof.
  intros Hmk Hx Sl Su Nl Nu Hb. apply number_ok; auto.
  { destruct Hmk; subst; cbn; auto. }
  assert (value (mk x) = XNaN) as E by (destruct Hmk; subst; exact Hx). rewrite E.
  split; [reflexivity|]. split.
  { right; split; [reflexivity|]. destruct Hmk; subst; constructor. }
  split; [assumption|]. split; [assumption|]. split; [assumption|].
  apply respects_nan.
Qed.

(** arrays *)
Lemma existsb_false A (f : A -> bool) l : existsb f l = false <-> forall x, In x l -> f x = false.
Proof.
  induction l as [|a l IH]; cbn; [split; [intros _ x []|reflexivity]|].
  rewrite orb_false_iff, IH. split.
  - intros [H1 H2] x [<-|Hx]; auto.
  - intros H; split; auto.
Qed.

Theorem array_bounds_ok el lo up ex : small lo -> small up -> (forall s, In s el -> ssmall s) ->
  array_bounds el lo up ex = Ok tt <->
  numberlike lo /\ numberlike up /\ ~ xlt (value up) (value lo) /\
  forall s, In s el -> respects ex (value lo) (value up) (svalue s).
Proof.
  intros Sl Su Se. unfold array_bounds.
  destruct (numberlike_dec lo) as [Hl|Hl].
  2:{ rewrite (ntype_false_err Hl). cbn. split; [discriminate|tauto]. }
  destruct (numberlike_dec up) as [Hu|Hu].
  2:{ rewrite (ntype_false_ok Hl), (ntype_false_err Hu). cbn. split; [discriminate|tauto]. }
  rewrite (ntype_false_ok Hl), (ntype_false_ok Hu). cbn [bind].
  rewrite v_cmp_gt. rewrite <- v_cmp_lt by assumption.
  destruct (v_cmp (s_lt (T:=T)) up lo); [split; [discriminate|intros H; exfalso; tauto]|].
  destruct (proj1 (num_scal_of lo) Hl) as [l El]. destruct (proj1 (num_scal_of up) Hu) as [u Eu].
  rewrite El, Eu.
  destruct (scal_of_value _ El) as [Vl Ssl]. destruct (scal_of_value _ Eu) as [Vu Ssu].
  rewrite <- Vl, <- Vu. specialize (Ssl Sl). specialize (Ssu Su).
  set (A := existsb _ el). set (B := existsb _ el).
  assert (HA : A || B = false <-> forall s, In s el -> respects ex (svalue l) (svalue u) (svalue s)).
  { rewrite orb_false_iff. unfold A, B. rewrite !existsb_false. unfold respects, s_ge, s_gt. destruct ex.
    - split.
      + intros [H1 H2] s Hs. rewrite <- !s_le_spec by auto. rewrite H1, H2 by assumption. split; discriminate.
      + intros H. split; intros s Hs; apply not_true_iff_false; rewrite s_le_spec by auto; apply H; auto.
    - split.
      + intros [H1 H2] s Hs. rewrite <- !s_lt_spec by auto. rewrite H1, H2 by assumption. split; discriminate.
      + intros H. split; intros s Hs; apply not_true_iff_false; rewrite s_lt_spec by auto; apply H; auto. }
  destruct (A || B); split; intros H; try discriminate; auto.
  - decompose [and] H. destruct HA as [_ HA]. discriminate HA; auto.
  - repeat split; auto. apply HA; auto.
Qed.

Lemma array_bounds_err el lo up ex e : array_bounds el lo up ex = Err e ->
  numberlike lo -> numberlike up -> e = ValueError.
Proof.
  unfold array_bounds. intros H Hl Hu. rewrite (ntype_false_ok Hl), (ntype_false_ok Hu) in H. cbn [bind] in H.
  destruct (v_cmp _ lo up); [congruence|].
  destruct (proj1 (num_scal_of lo) Hl) as [l El]. destruct (proj1 (num_scal_of up) Hu) as [u Eu].
  rewrite El, Eu in H. destruct (_ || _); congruence.
Qed.
End V.

Section V2.
Context {T : Type} {NT : Num T} {LT : NumLaws T}.
Notation pyval := (pyval T).

Lemma val_ninf : val (n_ninf : T) = XNInf.
Proof. unfold n_ninf. rewrite l_neg, l_inf. reflexivity. Qed.

Definition bounds_step (el : list (scal T)) (lo up : option pyval) ex : res unit :=
  match lo, up with
  | None, None => Ok tt
  | _, _ => array_bounds el (match lo with Some l => l | None => m_inf end)
              (match up with Some u => u | None => p_inf end) ex
  end.

Lemma bounds_step_ok el lo up ex : osmall lo -> osmall up -> onum lo -> onum up ->
  (forall s, In s el -> ssmall s) ->
  bounds_step el lo up ex = Ok tt <-> entries_ok lo up ex el.
Proof.
  intros Sl Su Nl Nu Se. unfold bounds_step, entries_ok.
  assert (G : forall l u : pyval, small l -> small u -> numberlike l -> numberlike u ->
     value l = eff_lo lo -> value u = eff_up up ->
     array_bounds el l u ex = Ok tt <->
     (~ xlt (eff_up up) (eff_lo lo) /\ forall s, In s el -> respects ex (eff_lo lo) (eff_up up) (svalue s))).
  { intros l u ? ? ? ? <- <-. rewrite array_bounds_ok by assumption. tauto. }
  destruct lo as [l|], up as [u|]; cbn [eff_lo eff_up onum osmall] in *.
  - rewrite G; auto. split; auto. intros [[? ?]|?]; [discriminate|auto].
  - rewrite G; auto. 2:(right; constructor). 2:(cbn; apply l_inf).
    split; auto. intros [[? ?]|?]; [discriminate|auto].
  - rewrite G; auto. 2:(right; constructor). 2:(cbn; apply val_ninf).
    split; auto. intros [[? ?]|?]; [discriminate|auto].
  - split; auto.
Qed.
Lemma bounds_step_err el lo up ex e : onum lo -> onum up -> bounds_step el lo up ex = Err e -> e = ValueError.
Proof.
  intros Nl Nu. unfold bounds_step.
  destruct lo as [l|], up as [u|]; cbn [onum] in *; intros H; try discriminate;
   eapply array_bounds_err; eauto; solve [right; constructor].
Qed.

Lemma array_eq (d : string) sh (el : list (scal T)) lo up ex dt nd :
  array (PArr d sh el) lo up ex dt nd =
  let* _ := bounds_step el lo up ex in
  let* _ := match nd with Some n => array_dimensions sh n | None => Ok tt end in
  let* _ := match dt with Some d' => array_type d d' | None => Ok tt end in
  Ok (PArr d sh el).
Proof. reflexivity. Qed.

Lemma dims_dec sh nd : (match nd with Some n => array_dimensions sh n | None => Ok tt end) =
  match nd with
  | Some n => if Z.eq_dec (Z.of_nat (List.length sh)) n then Ok tt else Err InvalidDims
  | None => Ok tt end.
Proof.
  destruct nd as [n|]; auto. unfold array_dimensions.
  destruct (Z.eqb_spec (Z.of_nat (List.length sh)) n), (Z.eq_dec (Z.of_nat (List.length sh)) n); congruence.
Qed.

Lemma dims_step sh nd : (dims_ok sh nd /\ (match nd with Some n => array_dimensions sh n | None => Ok tt end) = Ok tt)
  \/ (~ dims_ok sh nd /\ (match nd with Some n => array_dimensions sh n | None => Ok tt end) = Err InvalidDims).
Proof.
  rewrite dims_dec. unfold dims_ok. destruct nd as [n|]; [|left; split; [discriminate|auto]].
  destruct (Z.eq_dec _ _); [left|right]; split; auto; congruence.
Qed.
Lemma type_step d dt : (type_ok d dt /\ (match dt with Some d' => array_type d d' | None => Ok tt end) = Ok tt)
  \/ (~ type_ok d dt /\ (match dt with Some d' => array_type d d' | None => Ok tt end) = Err TypeError).
Proof.
  unfold type_ok, array_type. destruct dt as [s|]; [|left; split; [discriminate|auto]].
  destruct (String.eqb_spec d s); [left|right]; split; auto; congruence.
Qed.

(** complete description of validate.array on an ndarray *)
Theorem array_ndarray d sh (el : list (scal T)) lo up ex dt nd :
  osmall lo -> osmall up -> onum lo -> onum up -> (forall s, In s el -> ssmall s) ->
  (entries_ok lo up ex el -> dims_ok sh nd -> type_ok d dt -> array (PArr d sh el) lo up ex dt nd = Ok (PArr d sh el)) /\
  (~ entries_ok lo up ex el -> array (PArr d sh el) lo up ex dt nd = Err ValueError) /\
  (entries_ok lo up ex el -> ~ dims_ok sh nd -> array (PArr d sh el) lo up ex dt nd = Err InvalidDims) /\
  (entries_ok lo up ex el -> dims_ok sh nd -> ~ type_ok d dt -> array (PArr d sh el) lo up ex dt nd = Err TypeError).
Proof.
  intros Sl Su Nl Nu Se. rewrite !array_eq.
  destruct (bounds_step el lo up ex) as [[]|e] eqn:E.
  - apply bounds_step_ok in E; auto. cbn [bind].
    destruct (dims_step sh nd) as [[Hd ->]|[Hd ->]], (type_step d dt) as [[Ht ->]|[Ht ->]]; cbn; tauto.
  - cbn [bind]. pose proof (bounds_step_err _ _ _ _ Nl Nu E) as ->.
    assert (~ entries_ok lo up ex el) by (rewrite <- bounds_step_ok by auto; congruence). tauto.
Qed.

Theorem array_not_ndarray (v : pyval) lo up ex dt nd :
  (forall d sh el, v <> PArr d sh el) -> array v lo up ex dt nd = Err TypeError.
Proof. intros H. destruct v; try reflexivity. exfalso; eapply H; eauto. Qed.

(** same shape *)
Lemma shape_eqb_spec a b : shape_eqb a b = true <-> a = b.
Proof. unfold shape_eqb. destruct (list_eq_dec Nat.eq_dec a b); split; congruence. Qed.

Lemma same_shape_loop_ok sh (l : list pyval) er : (forall v, In v l -> exists d s el, v = PArr d s el) ->
  exists er', same_shape_loop sh l er = Ok er' /\
   (er' = false <-> er = false /\ forall v, In v l -> shape_of v = Some sh).
Proof.
  revert er. induction l as [|v l IH]; intros er H; cbn.
  - exists er; split; auto. split; [intros ->; split; auto; intros v []|tauto].
  - destruct (H v) as (d & s & el & ->); [now left|].
    destruct (IH (er || negb (shape_eqb s sh))) as (er' & -> & Her'); [intros; apply H; now right|].
    exists er'; split; auto. rewrite Her', orb_false_iff, negb_false_iff, shape_eqb_spec.
    split.
    + intros [[-> ->] Hl]. split; auto. intros v [<-|Hv]; auto.
    + intros [-> Hl]. assert (shape_of (PArr d s el) = Some sh) as Hv by (apply Hl; now left). cbn in Hv.
      split; [split; [auto|congruence]|]. intros; apply Hl; now right.
Qed.
Lemma same_shape_loop_type sh (l : list pyval) er :
  (exists v, In v l /\ forall d s el, v <> PArr d s el) -> same_shape_loop sh l er = Err TypeError.
Proof.
  revert er. induction l as [|v l IH]; intros er (w & Hin & Hw); [destruct Hin|].
  destruct v; try reflexivity. cbn. apply IH. destruct Hin as [<-|Hin]; [exfalso; eapply Hw; eauto|eauto].
Qed.

Theorem same_shape_spec (l : list pyval) n :
  (List.length l < 2 \/ List.length l <> n -> same_shape_arrays l n = Err AttributeError) /\
  (2 <= List.length l -> List.length l = n -> all_arrays l -> equal_shapes l -> same_shape_arrays l n = Ok tt) /\
  (2 <= List.length l -> List.length l = n -> all_arrays l -> ~ equal_shapes l -> same_shape_arrays l n = Err InvalidShape) /\
  (~ all_arrays l -> exists e, same_shape_arrays l n = Err e /\ (e = AttributeError \/ e = TypeError)).
Proof.
  unfold same_shape_arrays.
  destruct (Nat.ltb_spec (List.length l) 2) as [H2|H2].
  { repeat split; auto; try lia. intros _; eauto. }
  destruct (Nat.eqb_spec (List.length l) n) as [Hn|Hn]; cbn [negb].
  2:{ repeat split; auto; try lia; intuition. eauto. }
  split; [lia|].
  destruct l as [|a l]; [cbn in H2; lia|]. set (L := a :: l) in *.
  assert (Key : all_arrays L -> exists sh er, shape_of a = Some sh /\ same_shape_loop sh L false = Ok er /\
            (er = false <-> equal_shapes L)).
  { intros HA. destruct (HA a) as (d & s & el & ->); [now left|]. exists s.
    destruct (@same_shape_loop_ok s L false HA) as (er & Her & Hs). exists er. repeat split; auto.
    - intros ->. exists s. apply Hs; auto.
    - intros [sh Hsh]. apply Hs. split; auto. assert (Hq : shape_of (PArr d s el) = Some sh) by (apply Hsh; now left).
      cbn in Hq. inversion Hq; subst; auto. }
  split; [|split].
  - intros _ _ HA HE. destruct (Key HA) as (sh & er & -> & -> & Hq). cbn [bind].
    rewrite (proj2 Hq HE). reflexivity.
  - intros _ _ HA HE. destruct (Key HA) as (sh & er & -> & -> & Hq). cbn [bind].
    destruct er; auto. exfalso; tauto.
  - intros HA. destruct (shape_of a) as [sh|] eqn:Es; [|eauto].
    assert (HX : exists v, In v L /\ forall d s el, v <> PArr d s el).
    { clear -HA. induction L as [|v L IH]; [exfalso; apply HA; intros v []|].
      destruct v; try (eexists; split; [now left|]; discriminate).
      destruct IH as (v & Hv & Hn).
      - intros H. apply HA. intros v [<-|Hv]; [eauto|auto].
      - exists v; split; [now right|auto]. }
    rewrite (@same_shape_loop_type sh L false HX). cbn. eauto.
Qed.
End V2.

Section V3.
Context {T : Type} {NT : Num T} {LT : NumLaws T}.
Notation pyval := (pyval T).

Theorem number_only_nan (v lo up w : pyval) (ci ex : bool) :
  small v -> small lo -> small up -> value v <> XNaN -> value lo <> XNaN -> value up <> XNaN ->
  number v ci lo up ex = Ok w -> inside ex (value lo) (value up) (value v).
Proof.
  intros Sv Sl Su Nv Nl Nu H. apply number_ok in H; auto. apply respects_inside; tauto.
Qed.

Lemma entries_nan el1 el2 (x : T) lo up ex : val x = XNaN ->
  entries_ok lo up ex (el1 ++ SF x :: el2) <-> entries_ok lo up ex (el1 ++ el2).
Proof.
  intros Hx. unfold entries_ok. split; (intros [?|[H1 H2]]; [now left|right; split; auto]); intros s Hs.
  - apply H2. rewrite in_app_iff in *. cbn. tauto.
  - rewrite in_app_iff in Hs. cbn in Hs. destruct Hs as [Hs|[<-|Hs]].
    + apply H2, in_app_iff; auto.
    + cbn. rewrite Hx. apply respects_nan.
    + apply H2, in_app_iff; auto.
Qed.

Theorem array_ok_iff d sh (el : list (scal T)) lo up ex dt nd :
  osmall lo -> osmall up -> onum lo -> onum up -> (forall s, In s el -> ssmall s) ->
  is_ok (array (PArr d sh el) lo up ex dt nd) = true <-> entries_ok lo up ex el /\ dims_ok sh nd /\ type_ok d dt.
Proof.
  intros Sl Su Nl Nu Se. rewrite array_eq.
  destruct (bounds_step el lo up ex) as [[]|e] eqn:E; cbn [bind].
  - apply bounds_step_ok in E; auto.
    destruct (dims_step sh nd) as [[Hd ->]|[Hd ->]], (type_step d dt) as [[Ht ->]|[Ht ->]]; cbn; split; try tauto; discriminate.
  - assert (~ entries_ok lo up ex el) by (rewrite <- bounds_step_ok by auto; congruence). cbn. split; [discriminate|tauto].
Qed.

Theorem array_nan_invisible (d : string) (sh : list nat) (el1 el2 : list (scal T)) (x : T) lo up ex dt nd :
  val x = XNaN -> osmall lo -> osmall up -> onum lo -> onum up -> (forall s, In s (el1 ++ el2) -> ssmall s) ->
  (is_ok (array (PArr d sh (el1 ++ SF x :: el2)) lo up ex dt nd) = true <->
   is_ok (array (PArr d sh (el1 ++ el2)) lo up ex dt nd) = true).
Proof.
  intros Hx Sl Su Nl Nu Se. rewrite !array_ok_iff; auto.
  - rewrite entries_nan by assumption. tauto.
  - intros s Hs. rewrite in_app_iff in Hs. cbn in Hs. destruct Hs as [Hs|[<-|Hs]]; try exact I; apply Se, in_app_iff; auto.
Qed.

Theorem array_one_bad (d : string) (sh : list nat) (el : list (scal T))
    (s : scal T) (lo up : option pyval) (ex : bool) (dt : option string) (nd : option Z) :
  osmall lo -> osmall up -> onum lo -> onum up -> (forall s, In s el -> ssmall s) -> In s el ->
  (lo <> None \/ up <> None) -> ~ respects ex (eff_lo lo) (eff_up up) (svalue s) ->
  array (PArr d sh el) lo up ex dt nd = Err ValueError.
Proof.
  intros Sl Su Nl Nu Se Hs Hb Hr. apply array_ndarray; auto. intros [[? ?]|[_ H]]; [destruct Hb; congruence|auto].
Qed.
End V3.

Lemma accepted_inside_refuted :
  ~ (forall (v lo up w : pyval f64), number v false lo up false = Ok w ->
       xle (value lo) (value v) /\ xle (value v) (value up)).
Proof.
  intros H. specialize (H (PFloat n_nan) (PInt 0) (PInt 1) (PFloat n_nan) eq_refl). cbn in H.
  destruct H as [H _]. apply xle_nan in H. tauto.
Qed.
