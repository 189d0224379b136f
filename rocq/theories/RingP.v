(** Proofs about Ring.py (attributes). *)
From Coq Require Import ZArith Reals List Bool String Lra Lia.
From Verif Require Import Num NumP Py Validate SpecNum ValidateP Ring SpecRing.
Import ListNotations.
Set Implicit Arguments.

Section R.
Context {T : Type} {NT : Num T} {LT : NumLaws T}.
Notation pyval := (pyval T).

Lemma val_zero : val (n_zero : T) = XFin 0.
Proof. unfold n_zero. rewrite l_ofZ; [reflexivity|lia]. Qed.
Lemma val_one : val (n_one : T) = XFin 1.
Proof. unfold n_one. rewrite l_ofZ; [reflexivity|lia]. Qed.

Lemma v_cmp_lt_f (v : pyval) b : numberlike v -> v_cmp (@s_lt T _) v (PFloat b) = n_lt (num_of v) b.
Proof.
  intros Hv. apply num_scal_of in Hv. destruct Hv as [s Hs]. unfold v_cmp, num_of. rewrite Hs. cbn.
  unfold s_lt, s_cmp. cbn. destruct (int_scal s); reflexivity.
Qed.
Lemma v_cmp_le_f (v : pyval) b : numberlike v -> v_cmp (@s_le T _) v (PFloat b) = n_le (num_of v) b.
Proof.
  intros Hv. apply num_scal_of in Hv. destruct Hv as [s Hs]. unfold v_cmp, num_of. rewrite Hs. cbn.
  unfold s_le, s_cmp. cbn. destruct (int_scal s); reflexivity.
Qed.
Lemma v_cmp_f_lt (v : pyval) b : numberlike v -> v_cmp (@s_lt T _) (PFloat b) v = n_lt b (num_of v).
Proof.
  intros Hv. apply num_scal_of in Hv. destruct Hv as [s Hs]. unfold v_cmp, num_of. rewrite Hs. reflexivity.
Qed.
Lemma v_cmp_f_le (v : pyval) b : numberlike v -> v_cmp (@s_le T _) (PFloat b) v = n_le b (num_of v).
Proof.
  intros Hv. apply num_scal_of in Hv. destruct Hv as [s Hs]. unfold v_cmp, num_of. rewrite Hs. reflexivity.
Qed.

Lemma nlt_iff (a b : T) : n_lt a b = true <-> xlt (val a) (val b).
Proof. rewrite l_lt. apply x_lt_iff. Qed.
Lemma nle_iff (a b : T) : n_le a b = true <-> xle (val a) (val b).
Proof. rewrite l_le. apply x_le_iff. Qed.
Lemma nlt_false (a b : T) : n_lt a b = false <-> ~ xlt (val a) (val b).
Proof. rewrite l_lt. apply x_lt_false. Qed.
Lemma nle_false (a b : T) : n_le a b = false <-> ~ xle (val a) (val b).
Proof. rewrite l_le. apply x_le_false. Qed.
Lemma neq_iff (a b : T) : n_eq a b = true <-> val a = val b /\ val a <> XNaN.
Proof. rewrite l_eq. apply x_eq_iff. Qed.

(** validate.number with float bounds, no restriction on integers *)
Lemma number_fb v lo up ex w :
  number v false (PFloat lo) (PFloat up) ex = Ok w <->
  w = v /\ numberlike v /\ ~ xlt (val up) (val lo) /\ respects ex (val lo) (val up) (val (num_of v)).
Proof.
  unfold number. destruct (numberlike_dec v) as [Hv|Hv].
  - rewrite (ntype_false_ok Hv). cbn [bind].
    rewrite number_bounds_eq by (right; constructor).
    change (v_cmp (s_lt (T:=T)) (PFloat up) (PFloat lo)) with (n_lt up lo).
    destruct (n_lt up lo) eqn:E.
    + apply nlt_iff in E. split; [discriminate|tauto].
    + apply nlt_false in E. unfold rejected, respects.
      rewrite v_cmp_le_f, v_cmp_lt_f, v_cmp_f_le, v_cmp_f_lt by assumption.
      destruct ex.
      * destruct (n_le (num_of v) lo) eqn:E1; cbn.
        { apply nle_iff in E1. split; [discriminate|tauto]. }
        destruct (n_le up (num_of v)) eqn:E2; cbn.
        { apply nle_iff in E2. split; [discriminate|tauto]. }
        apply nle_false in E1. apply nle_false in E2.
        split; [intros H; inversion H; subst; tauto|intros [-> _]; reflexivity].
      * destruct (n_lt (num_of v) lo) eqn:E1; cbn.
        { apply nlt_iff in E1. split; [discriminate|tauto]. }
        destruct (n_lt up (num_of v)) eqn:E2; cbn.
        { apply nlt_iff in E2. split; [discriminate|tauto]. }
        apply nlt_false in E1. apply nlt_false in E2.
        split; [intros H; inversion H; subst; tauto|intros [-> _]; reflexivity].
  - rewrite (ntype_false_err Hv). cbn. split; [discriminate|tauto].
Qed.

Lemma num_of_value (v : pyval) : numberlike v -> small v -> val (num_of v) = value v.
Proof.
  intros Hv Sv. apply num_scal_of in Hv. destruct Hv as [s Hs]. unfold num_of. rewrite Hs.
  destruct (scal_of_value _ Hs) as [<- Hsm]. apply num_scal_value; auto.
Qed.

Lemma number_ib v a b w : (Z.abs a <= 2 ^ 53)%Z -> (Z.abs b <= 2 ^ 53)%Z ->
  number v false (PInt a) (PInt b) false = Ok w ->
  w = v /\ numberlike v /\ respects false (XFin (IZR a)) (XFin (IZR b)) (val (num_of v)).
Proof.
  intros Ha Hb H.
  destruct (numberlike_dec v) as [Hv|Hv].
  2:{ unfold number in H. rewrite (ntype_false_err Hv) in H. discriminate. }
  assert (Sv : small v).
  { unfold number in H. rewrite (ntype_false_ok Hv) in H. cbn [bind] in H.
    rewrite number_bounds_eq in H by (left; constructor).
    destruct (v_cmp _ _ _); [discriminate|].
    unfold rejected, v_cmp in H.
    destruct v; try exact I; cbn in H; unfold s_lt, s_cmp in H; cbn in H; cbn [small];
     (destruct (Z.ltb_spec z a); [discriminate|]; destruct (Z.ltb_spec b z); [discriminate|]; lia). }
  apply number_ok in H; auto. destruct H as (-> & _ & _ & _ & _ & H).
  rewrite num_of_value by assumption. auto.
Qed.

Lemma respects_excl lo up v : lo <> XNaN -> v <> XNaN -> respects true lo up v -> xlt lo v.
Proof. intros Hl Hv [H _]. apply not_xle; auto. Qed.

(** what each check guarantees about the stored value *)
Lemma check_inner_ok up v x : check_inner up v = Ok x ->
  val x = XNaN \/ (xlt (XFin 0) (val x) /\ (val up = XNaN \/ xlt (val x) (val up))).
Proof.
  unfold check_inner. destruct (eq_zero v) as [z|]; cbn [bind]; [|discriminate].
  set (v' := if z then _ else _).
  destruct (number v' false (PFloat n_zero) (PFloat up) true) as [w|] eqn:E; cbn [bind]; [|discriminate].
  intros H; inversion H; subst x; clear H. apply number_fb in E. destruct E as (-> & Hv & _ & Hr).
  destruct (val (num_of v')) eqn:Ex; [left; reflexivity|right..];
   (split; [apply respects_excl with (val up); try congruence; rewrite <- val_zero; exact Hr|]);
   (destruct Hr as [_ Hr]; destruct (val up) eqn:Eu; [now left|right..]; apply not_xle in Hr; congruence).
Qed.
Lemma check_outer_ok inn v x : check_outer inn v = Ok x ->
  val x = XNaN \/ ((val inn = XNaN \/ xlt (val inn) (val x)) /\ xlt (val x) XPInf).
Proof.
  unfold check_outer. destruct (number v false (PFloat inn) p_inf true) as [w|] eqn:E; cbn [bind]; [|discriminate].
  intros H; inversion H; subst x; clear H. apply number_fb in E. destruct E as (-> & Hv & _ & [H1 H2]).
  rewrite l_inf in H2.
  destruct (val (num_of v)) eqn:Ex; [left; reflexivity|right..];
   (split; [destruct (val inn) eqn:Ei; [now left|right..]; apply not_xle in H1; congruence
          |apply not_xle in H2; congruence]).
Qed.
Lemma check_tr_ok v x : check_tr v = Ok x ->
  val x = XNaN \/ (xle (XFin 0) (val x) /\ xle (val x) (XFin 1)).
Proof.
  unfold check_tr. destruct (number _ _ _ _ _) as [w|] eqn:E; cbn [bind]; [|discriminate].
  intros H; inversion H; subst x; clear H. apply number_fb in E. destruct E as (-> & Hv & _ & H1).
  rewrite val_zero, val_one in H1.
  destruct (val (num_of v)) eqn:Ex; [left; reflexivity|right..]; apply (respects_inside false) in H1; try congruence; exact H1.
Qed.
Lemma check_inc_ok v x : check_inc v = Ok x ->
  val x = XNaN \/ (xle (XFin 0) (val x) /\ xle (val x) (XFin 90)).
Proof.
  unfold check_inc. destruct (number _ _ _ _ _) as [w|] eqn:E; cbn [bind]; [|discriminate].
  intros H; inversion H; subst x; clear H. apply number_ib in E; try lia. destruct E as (-> & Hv & H1).
  destruct (val (num_of v)) eqn:Ex; [left; reflexivity|right..]; apply (respects_inside false) in H1; try congruence; exact H1.
Qed.
Lemma check_tilt_ok v x : check_tilt v = Ok x ->
  val x = XNaN \/ (xle (XFin (-180)) (val x) /\ xle (val x) (XFin 180)).
Proof.
  unfold check_tilt. destruct (number _ _ _ _ _) as [w|] eqn:E; cbn [bind]; [|discriminate].
  intros H; inversion H; subst x; clear H. apply number_ib in E; try lia. destruct E as (-> & Hv & H1).
  destruct (val (num_of v)) eqn:Ex; [left; reflexivity|right..]; apply (respects_inside false) in H1; try congruence; exact H1.
Qed.

(** inductive invariant *)
Definition ring_inv (r : ring T) : Prop :=
  (val (r_in r) = XNaN \/ xlt (XFin 0) (val (r_in r))) /\
  (val (r_in r) = XNaN \/ val (r_out r) = XNaN \/ xlt (val (r_in r)) (val (r_out r))) /\
  (val (r_out r) = XNaN \/ xlt (val (r_out r)) XPInf) /\
  (val (r_tr r) = XNaN \/ (xle (XFin 0) (val (r_tr r)) /\ xle (val (r_tr r)) (XFin 1))) /\
  (val (r_inc r) = XNaN \/ (xle (XFin 0) (val (r_inc r)) /\ xle (val (r_inc r)) (XFin 90))) /\
  (val (r_tilt r) = XNaN \/ (xle (XFin (-180)) (val (r_tilt r)) /\ xle (val (r_tilt r)) (XFin 180))).

Lemma ring_inv_ranges r : ring_inv r -> ring_no_nan r -> ring_ranges r.
Proof. unfold ring_inv, ring_no_nan, ring_ranges, not_nan. intuition. Qed.

Lemma new_ring_inv i o t inc tilt r : new_ring i o t inc tilt = Ok r -> ring_inv r.
Proof.
  unfold new_ring.
  destruct (check_inner n_inf i) as [xi|] eqn:Ei; cbn [bind]; [|discriminate].
  destruct (check_outer xi o) as [xo|] eqn:Eo; cbn [bind]; [|discriminate].
  destruct (check_tr t) as [xt|] eqn:Et; cbn [bind]; [|discriminate].
  destruct (check_inc inc) as [xinc|] eqn:Einc; cbn [bind]; [|discriminate].
  destruct (check_tilt tilt) as [xtilt|] eqn:Etilt; cbn [bind]; [|discriminate].
  intros H; inversion H; subst; clear H.
  apply check_inner_ok in Ei. apply check_outer_ok in Eo. apply check_tr_ok in Et.
  apply check_inc_ok in Einc. apply check_tilt_ok in Etilt.
  unfold ring_inv; cbn. intuition.
Qed.

Lemma set_ring_inv r s : ring_inv r -> ring_inv (fst (set_ring r s)).
Proof.
  intros H. destruct s as [v|v|v|v|v]; cbn.
  - destruct (check_inner (r_out r) v) as [x|] eqn:E; cbn; auto. apply check_inner_ok in E.
    unfold ring_inv in *; cbn; intuition.
  - destruct (check_outer (r_in r) v) as [x|] eqn:E; cbn; auto. apply check_outer_ok in E.
    unfold ring_inv in *; cbn; intuition.
  - destruct (check_tr v) as [x|] eqn:E; cbn; auto. apply check_tr_ok in E.
    unfold ring_inv in *; cbn; intuition.
  - destruct (check_inc v) as [x|] eqn:E; cbn; auto. apply check_inc_ok in E.
    unfold ring_inv in *; cbn; intuition.
  - destruct (check_tilt v) as [x|] eqn:E; cbn; auto. apply check_tilt_ok in E.
    unfold ring_inv in *; cbn; intuition.
Qed.

Lemma set_rings_inv l : forall r, ring_inv r -> ring_inv (set_rings r l).
Proof. induction l as [|s l IH]; cbn; auto. intros r H. apply IH, set_ring_inv, H. Qed.

Theorem ring_history i o t inc tilt r l :
  new_ring i o t inc tilt = Ok r -> ring_no_nan (set_rings r l) -> ring_ranges (set_rings r l).
Proof. intros H Hn. apply ring_inv_ranges; auto. apply set_rings_inv. eapply new_ring_inv; eauto. Qed.

(** exact acceptance of numbers by the setters *)
Theorem set_ring_atomic r s r' e : set_ring r s = (r', Err e) -> r' = r.
Proof.
  destruct s as [v|v|v|v|v]; cbn;
  [destruct (check_inner (r_out r) v)|destruct (check_outer (r_in r) v)|destruct (check_tr v)
  |destruct (check_inc v)|destruct (check_tilt v)]; cbn; congruence.
Qed.

Lemma eq_zero_num (v : pyval) : numberlike v -> eq_zero v = Ok (n_eq (num_of v) n_zero).
Proof.
  intros [H|H]; inversion H; subst; unfold num_of; cbn; reflexivity.
Qed.

(** Successful iff in range, for numbers and rings without NaN *)
Theorem check_inner_iff (up : T) v : numberlike v -> not_nan (num_of v) -> not_nan up ->
  xlt (XFin 0) (val up) ->
  check_inner up v =
    if n_eq (num_of v) n_zero
    then (if n_lt (n_pow10m 16) up then Ok (n_pow10m 16) else Err ValueError)
    else (if n_lt n_zero (num_of v) && n_lt (num_of v) up then Ok (num_of v) else Err ValueError).
Proof.
  intros Hv Hn Hu Hp. unfold check_inner. rewrite eq_zero_num by assumption. cbn [bind].
  destruct (l_tiny (T:=T)) as (tr & Htr & Htr0).
  assert (G : forall w, numberlike w -> not_nan (num_of w) ->
    (let* w' := number w false (PFloat n_zero) (PFloat up) true in Ok (num_of w')) =
    if n_lt n_zero (num_of w) && n_lt (num_of w) up then Ok (num_of w) else Err ValueError).
  { intros w Hw Hwn. unfold number. rewrite (ntype_false_ok Hw). cbn [bind].
    rewrite number_bounds_eq by (right; constructor).
    change (v_cmp (s_lt (T:=T)) (PFloat up) (PFloat n_zero)) with (n_lt up n_zero).
    assert (n_lt up n_zero = false) as ->.
    { apply nlt_false. rewrite val_zero. intros H. eapply xlt_irrefl, xlt_trans; eauto. }
    unfold rejected. rewrite v_cmp_le_f, v_cmp_f_le by assumption.
    assert (D : forall a b : T, not_nan a -> not_nan b -> n_le a b = negb (n_lt b a)).
    { intros a b Ha Hb. destruct (n_lt b a) eqn:E; cbn.
      - apply nle_false. apply nlt_iff in E. apply not_xle; auto.
      - apply nle_iff. apply nlt_false in E. apply not_xlt; auto. }
    rewrite !D; auto; try (unfold not_nan; rewrite val_zero; discriminate).
    destruct (n_lt n_zero (num_of w)), (n_lt (num_of w) up); reflexivity. }
  destruct (n_eq (num_of v) n_zero) eqn:E.
  - rewrite G; [|right; constructor|unfold not_nan, num_of; cbn; congruence].
    unfold num_of; cbn [scal_of num_scal].
    assert (n_lt n_zero (n_pow10m 16 : T) = true) as ->.
    { apply nlt_iff. rewrite val_zero, Htr. cbn. lra. }
    reflexivity.
  - now apply G.
Qed.

(** NaN radii *)
Theorem nan_ring (x : T) (o t : T) : val x = XNaN -> xlt (val o) XPInf ->
  xle (XFin 0) (val t) -> xle (val t) (XFin 1) ->
  new_ring (PFloat x) (PFloat o) (PFloat t) (PInt 0) (PInt 0) =
  Ok (mkRing x o t (n_ofZ 0) (n_ofZ 0)).
Proof.
  intros Hx Ho Ht0 Ht1. unfold new_ring.
  assert (check_inner n_inf (PFloat x) = Ok x) as ->.
  { unfold check_inner. rewrite eq_zero_num by (right; constructor). cbn [bind].
    assert (n_eq (num_of (PFloat x)) n_zero = false) as ->.
    { destruct (n_eq _ _) eqn:E; auto. apply neq_iff in E. destruct E as [_ E]. elim E. exact Hx. }
    rewrite (proj2 (number_fb (PFloat x) n_zero n_inf true (PFloat x))); [reflexivity|].
    split; [reflexivity|]. split; [right; constructor|]. split.
    - rewrite l_inf, val_zero. cbn. tauto.
    - change (num_of (PFloat x)) with x. rewrite Hx. apply respects_nan. }
  cbn [bind].
  assert (check_outer x (PFloat o) = Ok o) as ->.
  { unfold check_outer, p_inf.
    rewrite (proj2 (number_fb (PFloat o) x n_inf true (PFloat o))); [reflexivity|].
    rewrite Hx, l_inf.
    split; [reflexivity|]. split; [right; constructor|]. split; [intros []|].
    change (num_of (PFloat o)) with o. split.
    - intros H. apply xle_nan in H. destruct H; congruence.
    - intros H. eapply not_both; [exact H|exact Ho]. }
  cbn [bind].
  assert (check_tr (PFloat t) = Ok t) as ->.
  { unfold check_tr.
    rewrite (proj2 (number_fb (PFloat t) n_zero n_one false (PFloat t))); [reflexivity|].
    rewrite val_zero, val_one.
    split; [reflexivity|]. split; [right; constructor|]. split; [cbn; lra|].
    change (num_of (PFloat t)) with t. destruct (xle_nan Ht0). apply respects_inside; try discriminate; auto.
    split; auto. }
  reflexivity.
Qed.
End R.
