(** Proofs about GridGradient: measurements and masks. *)
From Coq Require Import ZArith Reals List Bool String Lra Lia.
From Verif Require Import Num NumP Py Validate SpecNum ValidateP Ring RingP RingMoreP FS FSP GridParams SpecGrid GridParamsP Names GridProp SpecProp GridPropP.
Import ListNotations.
Set Implicit Arguments.

Section G.
Context {T : Type} {NT : Num T} {LT : NumLaws T}.
Notation pyval := (pyval T).

Lemma number_ge0 (v w : pyval) : small v -> number v false (PInt 0) p_inf false = Ok w <-> w = v /\ numberlike v /\ ~ xlt (value v) (XFin 0).
Proof.
  intros Hs. rewrite number_ok by (auto; cbn; lia). unfold p_inf. cbn [value]. rewrite l_inf. unfold respects, numberlike. split.
  - intros (-> & H & _ & _ & _ & Hr & _). repeat split; auto. intuition.
  - intros (-> & H & Hr). split; auto. split; [destruct H; auto|]. split; [left; constructor|]. split; [right; constructor|].
    split; [cbn; auto|]. split; [exact Hr|]. destruct (value v); cbn; tauto.
Qed.
Lemma number_ge0f (v w : pyval) : small v -> number v false (PFloat n_zero) p_inf false = Ok w <-> w = v /\ numberlike v /\ ~ xlt (value v) (XFin 0).
Proof.
  intros Hs. rewrite number_ok by (auto; cbn; auto). unfold p_inf. cbn [value]. rewrite l_inf, val_zero. unfold respects, numberlike. split.
  - intros (-> & H & _ & _ & _ & Hr & _). repeat split; auto. intuition.
  - intros (-> & H & Hr). split; auto. split; [destruct H; auto|]. split; [right; constructor|]. split; [right; constructor|].
    split; [cbn; auto|]. split; [exact Hr|]. destruct (value v); cbn; tauto.
Qed.
Lemma number_01 (v w : pyval) : small v -> number v false (PInt 0) (PInt 1) false = Ok w <->
  w = v /\ numberlike v /\ ~ xlt (value v) (XFin 0) /\ ~ xlt (XFin 1) (value v).
Proof.
  intros Hs. rewrite number_ok by (auto; cbn; lia). cbn [value]. unfold respects, numberlike. split.
  - intros (-> & H & _ & _ & _ & Hr & Hr'). repeat split; auto. intuition.
  - intros (-> & H & Hr & Hr'). split; auto. split; [destruct H; auto|]. split; [left; constructor|]. split; [left; constructor|].
    split; [cbn; lra|]. auto.
Qed.

Lemma dflt_transmission (t : option pyval) : dflt (PInt 1) t = transmission t.
Proof. destruct t; reflexivity. Qed.

(** the product the code forms *)
Definition scaled_of (m s t : pyval) : T := n_mul (num_of m) (n_mul (num_of s) (n_div n_one (num_of t))).

Lemma py_zero_dec (t : pyval) : numberlike t -> small t ->
  (py_zero t /\ reciprocal t = Err ZeroDivision) \/ (~ py_zero t /\ reciprocal t = Ok (n_div n_one (num_of t))).
Proof.
  intros Hn Hs. assert (V := num_of_value Hn Hs).
  assert (C : py_zero t \/ ~ py_zero t).
  { assert (D : value t = XFin 0 \/ value t <> XFin 0).
    { destruct (value t) as [| | |r]; try (right; discriminate). destruct (Req_EM_T r 0); [left; congruence|right; congruence]. }
    destruct t; cbn [py_zero]; tauto. }
  assert (E : val (num_of t) = XFin 0 <-> n_eq (num_of t) n_zero = true).
  { rewrite neq_iff, val_zero. split; [intros ->; split; [reflexivity|discriminate]|tauto]. }
  destruct C as [C|C]; [left|right]; split; auto.
  - destruct t; cbn [py_zero] in C; try contradiction; unfold reciprocal; rewrite (proj1 E) by congruence; reflexivity.
  - destruct Hn as [Hn|Hn]; destruct t; inversion Hn; subst; cbn [py_zero] in C; unfold reciprocal; try reflexivity;
    (destruct (n_eq _ n_zero) eqn:X; [destruct C; rewrite <- V; apply E; reflexivity|reflexivity]).
Qed.

Definition set_fields (g : ggrad T) (m s t e : pyval) : ggrad T := mkGG (gg_prop g) (gg_pos g) (Some m) (Some e) (Some s) (Some t).
Definition masked_with (g : ggrad T) (r : T) : ggrad T :=
  with_prop g (with_mask (gg_prop g) (Some (bool_marr (p_shape (gg_prop g)) (mask_of r (p_data (gg_prop g)))))).
Definition err_or_1 (e : option pyval) : pyval := match e with Some v => v | None => PInt 1 end.

Lemma dec_scaled (x : T) : {n_gt x n_one = true} + {n_gt x n_one = false}.
Proof. destruct (n_gt x n_one); auto. Qed.

(** all that can happen when the four values are within their documented limits *)
Theorem determine_cases (g : ggrad T) m s t e : small m -> small s -> osmall t -> osmall e -> measure_ok m s t e ->
  let tt' := transmission t in
  let g1 := set_fields g m s tt' (err_or_1 e) in
  (py_zero tt' -> determine_mask g m s t e = (g1, Err ZeroDivision)) /\
  (~ py_zero tt' -> xlt (XFin 1) (val (scaled_of m s tt')) -> determine_mask g m s t e = (g1, Err ValueError)) /\
  (~ py_zero tt' -> ~ xlt (XFin 1) (val (scaled_of m s tt')) ->
     determine_mask g m s t e = (masked_with g1 (scaled_of m s tt'), Ok tt)).
Proof.
  intros Sm Ss St Se (Nm & Bm & Ns & Bs & Ht & He) tv g1.
  assert (X1 : number m false (PInt 0) p_inf false = Ok m) by (apply number_ge0; auto).
  assert (X2 : number s false (PInt 0) p_inf false = Ok s) by (apply number_ge0; auto).
  assert (St' : small tv) by (destruct t; cbn in *; auto; lia).
  assert (Nt : numberlike tv /\ ~ xlt (value tv) (XFin 0) /\ ~ xlt (XFin 1) (value tv)).
  { destruct t; [apply Ht; auto|]. cbn. repeat split; try lra. left; constructor. }
  assert (X3 : number tv false (PInt 0) (PInt 1) false = Ok tv) by (apply number_01; tauto).
  assert (X4 : number (dflt (PInt 1) e) false (PFloat n_zero) p_inf false = Ok (err_or_1 e)).
  { destruct e as [v|]; cbn [dflt err_or_1]; apply number_ge0f; auto; [cbn; lia|].
    split; auto. split; [left; constructor|cbn; lra]. }
  unfold determine_mask. rewrite X1, X2, dflt_transmission. fold tv. rewrite X3, X4.
  cbn [gg_prop gg_pos gg_meas gg_err gg_orb gg_trans]. unfold scaled_gradient. cbn [gg_meas gg_trans gg_orb].
  destruct (py_zero_dec (proj1 Nt) St') as [[Hz ->]|[Hz ->]]; cbn [bind].
  - split; [reflexivity|]. split; intros Z; contradiction.
  - split; [intros Z; contradiction|]. unfold n_gt. change (n_mul (num_of m) (n_mul (num_of s) (n_div n_one (num_of tv)))) with (scaled_of m s tv).
    assert (Q : n_lt n_one (scaled_of m s tv) = true <-> xlt (XFin 1) (val (scaled_of m s tv))) by (rewrite nlt_iff, val_one; tauto).
    split; intros _ H.
    + rewrite (proj2 Q H). reflexivity.
    + destruct (n_lt n_one (scaled_of m s tv)); [destruct H; apply Q; auto|reflexivity].
Qed.

(** outside of the limits the property is untouched, whatever else happens *)
Theorem determine_err_prop (g g' : ggrad T) m s t e x : determine_mask g m s t e = (g', Err x) -> gg_prop g' = gg_prop g /\ gg_pos g' = gg_pos g.
Proof.
  unfold determine_mask.
  repeat (match goal with |- context [match ?a with Ok _ => _ | Err _ => _ end] => destruct a end; [|intros H; inversion H; auto]).
  destruct a3; intros H; inversion H; auto.
Qed.
Theorem determine_ok_fields (g g' : ggrad T) m s t e : determine_mask g m s t e = (g', Ok tt) -> small m -> small s -> osmall t -> osmall e ->
  measure_ok m s t e /\ ~ py_zero (transmission t) /\ ~ xlt (XFin 1) (val (scaled_of m s (transmission t))) /\
  g' = masked_with (set_fields g m s (transmission t) (err_or_1 e)) (scaled_of m s (transmission t)).
Proof.
  intros H Sm Ss St Se.
  assert (M : measure_ok m s t e).
  { unfold determine_mask in H.
    destruct (number m _ _ _ _) as [m'|] eqn:E1; [|discriminate]. apply number_ge0 in E1; auto.
    destruct (number s _ _ _ _) as [s'|] eqn:E2; [|discriminate]. apply number_ge0 in E2; auto.
    destruct (number (dflt (PInt 1) t) _ _ _ _) as [t'|] eqn:E3; [|discriminate].
    apply number_01 in E3; [|destruct t; cbn in *; auto; lia].
    destruct (number (dflt (PInt 1) e) _ _ _ _) as [e'|] eqn:E4; [|discriminate].
    apply number_ge0f in E4; [|destruct e; cbn in *; auto; lia].
    unfold measure_ok. destruct E1 as (_ & ? & ?), E2 as (_ & ? & ?), E3 as (_ & ? & ? & ?), E4 as (_ & ? & ?). repeat split; auto; subst; cbn in *; auto. }
  destruct (determine_cases g Sm Ss St Se M) as (A & B & C). split; auto.
  assert (Z : ~ py_zero (transmission t)) by (intros Z; rewrite (A Z) in H; discriminate).
  assert (Y : ~ xlt (XFin 1) (val (scaled_of m s (transmission t)))) by (intros Y; rewrite (B Z Y) in H; discriminate).
  rewrite (C Z Y) in H. inversion H. auto.
Qed.

Lemma scaled_set_fields (g : ggrad T) m s t e : numberlike t -> small t ->
  scaled_gradient (set_fields g m s t e) =
    match reciprocal t with Err x => Err x
    | Ok _ => if n_gt (scaled_of m s t) n_one then Err ValueError else Ok (Some (scaled_of m s t)) end.
Proof.
  intros Hn Hs. unfold scaled_gradient, set_fields. cbn [gg_meas gg_trans gg_orb].
  destruct (py_zero_dec Hn Hs) as [[_ ->]|[_ ->]]; reflexivity.
Qed.
Lemma scaled_with_prop (g : ggrad T) p : scaled_gradient (with_prop g p) = scaled_gradient g.
Proof. reflexivity. Qed.

Lemma trans_ok (t : option pyval) (m s : pyval) e : measure_ok m s t e -> numberlike (transmission t).
Proof. intros (_ & _ & _ & _ & Ht & _). destruct t; [apply Ht; auto|left; constructor]. Qed.
Lemma trans_small (t : option pyval) : osmall t -> small (transmission t).
Proof. destruct t; cbn; auto. lia. Qed.

Lemma nth_mask_of (r : T) l i x : nth_error l i = Some x -> nth_error (mask_of r l) i = Some (n_gt r x || n_isnan x).
Proof. intros H. unfold mask_of. rewrite nth_error_map, H. reflexivity. Qed.
Lemma marked_with (sh : list nat) (b : list bool) i : marked (T:=T) (Some (bool_marr sh b)) i = match nth_error b i with Some c => c | None => false end.
Proof. unfold marked, bool_marr. cbn [ma_elems]. rewrite nth_error_map. destruct (nth_error b i); reflexivity. Qed.

Theorem mask_exact (g g' : ggrad T) m s t e : small m -> small s -> osmall t -> osmall e ->
  determine_mask g m s t e = (g', Ok tt) ->
  exists r, scaled_gradient g' = Ok (Some r) /\ r = scaled_of m s (transmission t) /\ ~ xlt (XFin 1) (val r) /\
    p_data (gg_prop g') = p_data (gg_prop g) /\ p_shape (gg_prop g') = p_shape (gg_prop g) /\ gg_pos g' = gg_pos g /\
    gg_meas g' = Some m /\ gg_orb g' = Some s /\ gg_trans g' = Some (transmission t) /\
    forall i x, nth_error (p_data (gg_prop g)) i = Some x ->
      (marked (p_mask (gg_prop g')) i = false <-> val x <> XNaN /\ ~ xlt (val x) (val r)).
Proof.
  intros Sm Ss St Se H. destruct (determine_ok_fields g _ _ _ _ H Sm Ss St Se) as (M & Z & Y & ->).
  exists (scaled_of m s (transmission t)). split.
  - unfold masked_with. rewrite scaled_with_prop. rewrite scaled_set_fields; [|eapply trans_ok; eauto|apply trans_small; auto].
    destruct (py_zero_dec (trans_ok M) (trans_small _ St)) as [[X _]|[_ ->]]; [contradiction|].
    unfold n_gt. destruct (n_lt n_one _) eqn:X; auto. apply nlt_iff in X. rewrite val_one in X. contradiction.
  - split; auto. split; auto. repeat (split; [reflexivity|]). intros i x Hx. unfold masked_with, set_fields. cbn [gg_prop with_prop with_mask p_mask p_data].
    rewrite marked_with, (nth_mask_of _ _ _ Hx). rewrite orb_false_iff, isnan_false. unfold n_gt. rewrite nlt_false. tauto.
Qed.

(** *** rejected measurements *)
Theorem rejected_scaled (g g' : ggrad T) m s t e : small m -> small s -> osmall t -> osmall e -> measure_ok m s t e ->
  ~ py_zero (transmission t) -> xlt (XFin 1) (val (scaled_of m s (transmission t))) ->
  g' = fst (determine_mask g m s t e) ->
  snd (determine_mask g m s t e) = Err ValueError /\ gg_prop g' = gg_prop g /\
  gg_meas g' = Some m /\ gg_orb g' = Some s /\ gg_trans g' = Some (transmission t) /\
  forall l : list (pop T), scaled_gradient (do_gops g' (map GProp l)) = Err ValueError.
Proof.
  intros Sm Ss St Se M Z Y ->. destruct (determine_cases g Sm Ss St Se M) as (_ & B & _). rewrite (B Z Y).
  cbn [fst snd]. repeat (split; [reflexivity|]). intros l.
  assert (X : forall (h : ggrad T), scaled_gradient h = Err ValueError -> scaled_gradient (do_gops h (map GProp l)) = Err ValueError).
  { induction l as [|o l IH]; intros h Hh; [exact Hh|]. cbn [map do_gops fold_left]. apply IH. cbn [do_gop]. rewrite scaled_with_prop. exact Hh. }
  apply X. rewrite scaled_set_fields; [|eapply trans_ok; eauto|apply trans_small; auto].
  destruct (py_zero_dec (trans_ok M) (trans_small _ St)) as [[X' _]|[_ ->]]; [contradiction|].
  unfold n_gt. rewrite (proj2 (nlt_iff _ _)); auto. rewrite val_one. exact Y.
Qed.

(** the next valid measurement repairs the gradient completely *)
Theorem next_measurement (g h : ggrad T) m s t e : small m -> small s -> osmall t -> osmall e -> gg_prop g = gg_prop h -> gg_pos g = gg_pos h ->
  is_ok (snd (determine_mask g m s t e)) = true -> determine_mask g m s t e = determine_mask h m s t e.
Proof.
  intros Sm Ss St Se Hp Hq H. destruct (determine_mask g m s t e) as [g' [[]|x]] eqn:E; [|discriminate].
  assert (E' := E). apply determine_ok_fields in E; auto. destruct E as (M & Z & Y & ->).
  destruct (determine_cases h Sm Ss St Se M) as (_ & _ & C). rewrite (C Z Y). unfold masked_with, set_fields. cbn [gg_prop]. rewrite Hp, Hq. reflexivity.
Qed.

(** *** the invariant of measured gradients *)
Definition grad_inv (g : ggrad T) : Prop :=
  prop_inv (gg_prop g) /\ numberlike (gg_pos g) /\ p_name (gg_prop g) = GRADIENT /\ p_unit (gg_prop g) = NONE /\
  ((gg_meas g = None /\ p_mask (gg_prop g) = None) \/
   exists m s t e, gg_meas g = Some m /\ gg_orb g = Some s /\ gg_trans g = Some t /\ gg_err g = Some e /\
     Forall (@small T) [m; s; t; e] /\ measure_ok m s (Some t) (Some e) /\ ~ py_zero t /\ ~ xlt (XFin 1) (val (scaled_of m s t)) /\
     p_mask (gg_prop g) = Some (bool_marr (p_shape (gg_prop g)) (mask_of (scaled_of m s t) (p_data (gg_prop g))))).

Lemma mask_of_blank (r : T) l : mask_of r (blank l (map (@SB T) (mask_of r l))) = mask_of r l.
Proof.
  induction l as [|x l IH]; auto. cbn. f_equal; auto. destruct (n_gt r x || n_isnan x) eqn:E; auto.
  apply orb_true_iff. right. apply isnan_iff. apply l_nan.
Qed.

Lemma grad_new_iff v params pos g : new_grad v params pos = Ok g <->
  exists gp el, params = EIs gp /\ v = PArr "float64" (shape3 gp) el /\ numberlike pos /\ g = mkGG (fresh GRADIENT NONE gp el) pos None None None None.
Proof.
  unfold new_grad. split.
  - destruct (new_gprop _ _ _ _) as [p|] eqn:E; cbn [bind]; [|discriminate]. apply new_gprop_iff in E. destruct E as (n & u & gp & el & E1 & E2 & -> & -> & ->).
    inversion E1; inversion E2; subst. destruct (number pos _ _ _ _) as [w|] eqn:En; cbn [bind]; [|discriminate].
    apply number_default in En. destruct En as [-> En]. intros H; inversion H. eauto 8.
  - intros (gp & el & -> & -> & Hn & ->). rewrite (proj2 (new_gprop_iff _ _ _ _ (fresh GRADIENT NONE gp el))) by eauto 10. cbn [bind].
    rewrite (proj2 (number_default pos pos)) by auto. reflexivity.
Qed.

Theorem measured_inv (g : ggrad T) : measured g -> grad_inv g.
Proof.
  induction 1 as [v p pos g Hw H|g m s t e g' Hg IH HS St Se H|g v Hg IH|g a b c d Hg IH].
  - apply grad_new_iff in H. destruct H as (gp & el & -> & -> & Hn & ->). split; [apply fresh_inv; apply Hw|]. cbn. auto 10.
  - destruct IH as ((I1 & I2 & I3) & I4 & I5 & I6 & _). inversion HS as [|? ? Sm HS']; subst. inversion HS' as [|? ? Ss _]; subst.
    apply determine_ok_fields in H; auto. destruct H as (M & Z & Y & ->). unfold grad_inv, prop_inv, mask_inv, masked_with, set_fields.
    cbn [gg_prop with_prop with_mask p_mask p_data p_shape p_params gg_pos gg_meas gg_orb gg_trans gg_err p_name p_unit].
    split; [|split; [auto|split; [auto|split; [auto|]]]].
    + split; auto. split; auto. intros k Hk. inversion Hk; subst. cbn. unfold mask_of. rewrite !map_length.
      repeat split; auto. apply Forall_forall. intros x Hx. apply in_map_iff in Hx. destruct Hx as (y & <- & _). exact I.
    + right. exists m, s, (transmission t), (err_or_1 e). repeat (split; [reflexivity|]). split.
      * repeat constructor; auto. apply trans_small; auto. destruct e; cbn in *; auto. lia.
      * split; [|auto]. destruct M as (A & B & C & D & E & F). unfold measure_ok. split; auto. split; auto. split; auto. split; auto. split.
        { intros v Hv; inversion Hv; subst. destruct t; [apply E; auto|]. cbn. split; [left; constructor|split; lra]. }
        { intros v Hv; inversion Hv; subst. destruct e; [apply F; auto|]. cbn. split; [left; constructor|lra]. }
  - destruct IH as (I1 & I4 & I5 & I6 & I7). split; [|].
    + cbn [gg_prop with_prop]. exact (do_pop_inv (PRead v) I I1).
    + cbn [gg_prop with_prop gg_pos gg_meas gg_orb gg_trans gg_err].
      destruct v; try (rewrite get_data_bad by discriminate; cbn [fst]; auto; fail).
      destruct b; [|rewrite get_data_false; cbn [fst]; auto].
      destruct (p_mask (gg_prop g)) as [k|] eqn:Ek; [|rewrite get_data_nomask by auto; cbn [fst]; rewrite Ek; auto].
      destruct I7 as [[_ X]|(m & s & t & e & A1 & A2 & A3 & A4 & A5 & A6 & A7 & A8 & A9)]; [discriminate|].
      inversion A9; subst. rewrite (get_data_mask (proj2 (proj2 I1)) Ek). cbn [fst with_data p_name p_unit p_mask p_data p_shape bool_marr ma_elems].
      split; auto. split; auto. split; auto. right. exists m, s, t, e. rewrite mask_of_blank. rewrite Ek. auto 10.
  - destruct IH as (I1 & I4 & I5 & I6 & I7). split; [cbn [gg_prop with_prop]; exact (do_pop_inv (PContrast a b c d) I I1)|].
    cbn [gg_prop with_prop gg_pos gg_meas gg_orb gg_trans gg_err].
    destruct (set_contrast_frame (gg_prop g) a b c d) as (-> & -> & -> & _ & -> & ->). auto.
Qed.
End G.
