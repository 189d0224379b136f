(** Proofs about GridProperty: construction, masks, reads, contrast. *)
From Coq Require Import ZArith Reals List Bool String Lra Lia.
From Verif Require Import Num NumP Py Validate SpecNum ValidateP Ring RingP RingMoreP FS FSP GridParams SpecGrid GridParamsP Names GridProp SpecProp.
Import ListNotations.
Set Implicit Arguments.

Section P.
Context {T : Type} {NT : Num T} {LT : NumLaws T}.
Notation pyval := (pyval T).

Lemma isnan_iff (x : T) : n_isnan x = true <-> val x = XNaN.
Proof. rewrite l_isnan. destruct (val x); cbn; split; congruence. Qed.
Lemma isnan_false (x : T) : n_isnan x = false <-> val x <> XNaN.
Proof. rewrite l_isnan. destruct (val x); cbn; split; congruence. Qed.

(** *** nanmin, nanmax *)
Lemma nanmin_spec (l : list T) :
  match nanmin l with
  | None => forall x, In x l -> val x = XNaN
  | Some m => In m l /\ val m <> XNaN /\ forall x, In x l -> val x <> XNaN -> xle (val m) (val x)
  end.
Proof.
  induction l as [|x l IH]; cbn [nanmin]; [intros x []|].
  destruct (n_isnan x) eqn:E.
  - apply isnan_iff in E. destruct (nanmin l) as [m|].
    + destruct IH as (A & B & C). split; [now right|]. split; auto. intros y [<-|Hy] Hn; [congruence|auto].
    + intros y [<-|Hy]; auto.
  - apply isnan_false in E. destruct (nanmin l) as [m|].
    + destruct IH as (A & B & C). destruct (n_lt m x) eqn:El.
      * apply nlt_iff in El. split; [now right|]. split; auto. intros y [<-|Hy] Hn; [apply xlt_xle; auto|auto].
      * apply nlt_false in El. split; [now left|]. split; auto. apply not_xlt in El; auto.
        intros y [<-|Hy] Hn; [apply xle_refl; auto|eapply xle_trans; [exact El|auto]].
    + split; [now left|]. split; auto. intros y [<-|Hy] Hn; [apply xle_refl; auto|]. destruct Hn; auto.
Qed.
Lemma nanmax_spec (l : list T) :
  match nanmax l with
  | None => forall x, In x l -> val x = XNaN
  | Some m => In m l /\ val m <> XNaN /\ forall x, In x l -> val x <> XNaN -> xle (val x) (val m)
  end.
Proof.
  induction l as [|x l IH]; cbn [nanmax]; [intros x []|].
  destruct (n_isnan x) eqn:E.
  - apply isnan_iff in E. destruct (nanmax l) as [m|].
    + destruct IH as (A & B & C). split; [now right|]. split; auto. intros y [<-|Hy] Hn; [congruence|auto].
    + intros y [<-|Hy]; auto.
  - apply isnan_false in E. destruct (nanmax l) as [m|].
    + destruct IH as (A & B & C). destruct (n_lt x m) eqn:El.
      * apply nlt_iff in El. split; [now right|]. split; auto. intros y [<-|Hy] Hn; [apply xlt_xle; auto|auto].
      * apply nlt_false in El. split; [now left|]. split; auto. apply not_xlt in El; auto.
        intros y [<-|Hy] Hn; [apply xle_refl; auto|eapply xle_trans; [|exact El]; auto].
    + split; [now left|]. split; auto. intros y [<-|Hy] Hn; [apply xle_refl; auto|]. destruct Hn; auto.
Qed.
Lemma all_nans_iff (l : list T) : all_nans l = true <-> forall x, In x l -> val x = XNaN.
Proof. unfold all_nans. rewrite forallb_forall. split; intros H x Hx; apply isnan_iff; auto. Qed.
Lemma nanmin_some (l : list T) : all_nans l = false -> exists m, nanmin l = Some m.
Proof.
  intros H. assert (S := nanmin_spec l). destruct (nanmin l); eauto. apply all_nans_iff in S. congruence.
Qed.
Lemma nanmax_some (l : list T) : all_nans l = false -> exists m, nanmax l = Some m.
Proof.
  intros H. assert (S := nanmax_spec l). destruct (nanmax l); eauto. apply all_nans_iff in S. congruence.
Qed.

Lemma number_np (x : T) : number (PNpFloat x) false m_inf p_inf false = Ok (PNpFloat x).
Proof. apply number_default. split; auto. right; constructor. Qed.
Lemma number_colors : number (PInt 11 : pyval) true (PInt 2) p_inf false = Ok (PInt 11).
Proof.
  apply number_ok; [cbn; lia|cbn; lia|exact I|]. split; auto. split; [left; constructor|]. split; [left; constructor|]. split; [right; constructor|].
  cbn [value p_inf]. rewrite l_inf. unfold respects. cbn. repeat split; try tauto; lra.
Qed.

(** what the defaults give *)
Definition limits_of (p : gprop T) : option pyval * option pyval :=
  match nanmin (p_data p), nanmax (p_data p) with
  | Some a, Some b => (Some (PNpFloat a), Some (PNpFloat b))
  | _, _ => (None, None)
  end.
Lemma contrast_default (p : gprop T) : set_contrast_default p =
  (with_colors (with_limits p (fst (limits_of p)) (snd (limits_of p))) "viridis" (PInt 11), Ok tt).
Proof.
  unfold set_contrast_default, set_contrast, set_limits, limits_of.
  destruct (all_nans (p_data p)) eqn:E.
  - assert (X := proj1 (all_nans_iff _) E). assert (Sm := nanmin_spec (p_data p)).
    destruct (nanmin (p_data p)) as [m|] eqn:Em; [destruct Sm as (A & B & _); destruct B; auto|].
    cbn [dflt string_v]. rewrite number_colors. reflexivity.
  - destruct (nanmin_some _ E) as [a Ea]. rewrite Ea, number_np. cbn [with_limits p_data].
    destruct (nanmax_some _ E) as [b Eb]. rewrite Eb, number_np.
    cbn [dflt string_v]. rewrite number_colors. reflexivity.
Qed.

Theorem default_limits (p : gprop T) : exists p', set_contrast_default p = (p', Ok tt) /\
  p_data p' = p_data p /\ p_mask p' = p_mask p /\ p_shape p' = p_shape p /\
  ((forall x, In x (p_data p) -> val x = XNaN) -> p_vmin p' = None /\ p_vmax p' = None) /\
  ((exists x, In x (p_data p) /\ val x <> XNaN) ->
    exists a b, p_vmin p' = Some (PNpFloat a) /\ p_vmax p' = Some (PNpFloat b) /\ In a (p_data p) /\ In b (p_data p) /\
      forall x, In x (p_data p) -> val x <> XNaN -> xle (val a) (val x) /\ xle (val x) (val b)).
Proof.
  rewrite contrast_default. eexists; split; [reflexivity|]. cbn [with_colors with_limits p_data p_mask p_shape p_vmin p_vmax].
  repeat (split; [reflexivity|]). unfold limits_of. assert (S1 := nanmin_spec (p_data p)). assert (S2 := nanmax_spec (p_data p)). split.
  - intros H. destruct (nanmin (p_data p)) as [m|]; [destruct S1 as (A & B & _); destruct B; auto|]. split; reflexivity.
  - intros (x & Hx & Hn). destruct (nanmin (p_data p)) as [a|]; [|destruct Hn; auto].
    destruct (nanmax (p_data p)) as [b|]; [|destruct Hn; auto]. exists a, b. cbn [fst snd].
    destruct S1 as (A1 & _ & C1), S2 as (A2 & _ & C2). auto 10.
Qed.

(** set_contrast_parameters touches only its four attributes *)
Lemma set_limits_frame (p : gprop T) a b : let p' := fst (set_limits p a b) in
  p_data p' = p_data p /\ p_mask p' = p_mask p /\ p_shape p' = p_shape p /\ p_params p' = p_params p /\ p_name p' = p_name p /\ p_unit p' = p_unit p.
Proof.
  unfold set_limits. destruct (all_nans (p_data p)); cbn [fst with_limits p_data p_mask p_shape p_params p_name p_unit]; [repeat split|].
  destruct (number _ _ _ _ _); [|repeat split]. cbn [with_limits p_data].
  destruct (number _ _ _ _ _); repeat split.
Qed.
Lemma set_contrast_frame (p : gprop T) a b c d : let p' := fst (set_contrast p a b c d) in
  p_data p' = p_data p /\ p_mask p' = p_mask p /\ p_shape p' = p_shape p /\ p_params p' = p_params p /\ p_name p' = p_name p /\ p_unit p' = p_unit p.
Proof.
  cbn zeta. assert (H := set_limits_frame p a b). cbn zeta in H. unfold set_contrast. destruct (set_limits p a b) as [q [[]|e]]; cbn [fst] in *; auto.
  destruct (string_v _); cbn [fst]; auto. destruct (number _ _ _ _ _); cbn [fst with_colors p_data p_mask p_shape p_params p_name p_unit]; auto.
Qed.

Theorem few_colors (p : gprop T) a b c v e p' : small v -> int_like v -> (zof v < 2)%Z ->
  set_contrast p a b c (Some v) <> (p', Ok e).
Proof.
  intros Sv Iv Hv. unfold set_contrast. destruct (set_limits p a b) as [q [[]|e']]; [|discriminate].
  destruct (string_v _); [|discriminate]. cbn [dflt].
  destruct (number v true (PInt 2) p_inf false) as [w|] eqn:E; [|discriminate].
  apply number_ok in E; [|auto|cbn; lia|exact I]. destruct E as (_ & _ & _ & _ & _ & Hr & _). exfalso. apply Hr.
  inversion Iv; subst; cbn in Hv |- *; [destruct b0; lra| |]; apply IZR_lt; lia.
Qed.

(** *** construction and masks *)
Lemma class_ok A (e : earg A) a : class_arg e = Ok a <-> e = EIs a.
Proof. destruct e; cbn; split; congruence. Qed.

Lemma array3_ok (v w : pyval) : array v None None false (Some "float64"%string) (Some 3%Z) = Ok w <->
  w = v /\ exists a b c el, v = PArr "float64" [a; b; c] el.
Proof.
  destruct v as [| | | | | | | |dtype shape elems|]; try (split; [discriminate|intros (_ & ? & ? & ? & ? & H); discriminate]).
  cbn [array bind]. unfold array_dimensions. destruct (Z.eqb_spec (Z.of_nat (List.length shape)) 3); cbn [bind].
  - unfold array_type. destruct (String.eqb_spec dtype "float64"); cbn [bind].
    + subst. destruct shape as [|a [|b [|c [|]]]]; cbn [List.length] in e; try lia. split; [|intros [-> _]; reflexivity].
      intros H. split; [congruence|eauto 8].
    + split; [discriminate|]. intros (_ & ? & ? & ? & ? & H). congruence.
  - split; [discriminate|]. intros (_ & ? & ? & ? & ? & H). inversion H; subst. cbn in n. lia.
Qed.
Lemma bool_arr_ok (v w : pyval) : array v None None false (Some "bool"%string) None = Ok w <->
  w = v /\ exists sh el, v = PArr "bool" sh el.
Proof.
  destruct v as [| | | | | | | |dtype shape elems|]; try (split; [discriminate|intros (_ & ? & ? & H); discriminate]).
  cbn [array bind]. unfold array_type. destruct (String.eqb_spec dtype "bool"); cbn [bind].
  + subst. split; [|intros [-> _]; reflexivity]. intros H. split; [congruence|eauto 8].
  + split; [discriminate|]. intros (_ & ? & ? & H). congruence.
Qed.
Lemma same2 d1 s1 (e1 : list (scal T)) d2 s2 e2 r :
  same_shape_arrays [PArr d1 s1 e1; PArr d2 s2 e2] 2 = Ok r <-> s1 = s2.
Proof.
  unfold same_shape_arrays. cbn [List.length Nat.ltb Nat.leb negb Nat.eqb shape_of same_shape_loop bind orb]. unfold shape_eqb.
  destruct (list_eq_dec Nat.eq_dec s1 s1); [|congruence]. destruct (list_eq_dec Nat.eq_dec s2 s1); cbn [negb orb]; [destruct r; split; auto|]. split; [discriminate|congruence].
Qed.
Lemma same2_err d1 s1 (e1 : list (scal T)) d2 s2 e2 : s1 <> s2 ->
  same_shape_arrays [PArr d1 s1 e1; PArr d2 s2 e2] 2 = Err InvalidShape.
Proof.
  intros H. unfold same_shape_arrays. cbn [List.length Nat.ltb Nat.leb negb Nat.eqb shape_of same_shape_loop bind orb]. unfold shape_eqb.
  destruct (list_eq_dec Nat.eq_dec s1 s1); [|congruence]. destruct (list_eq_dec Nat.eq_dec s2 s1); [congruence|]. reflexivity.
Qed.

(** the property made from valid arguments *)
Definition fresh (n : pname) (u : punit) (g : gparams T) (el : list (scal T)) : gprop T :=
  let p := mkGPr n u g (shape3 g) (map (@num_scal T _) el) None None "" PNone None in
  with_colors (with_limits p (fst (limits_of p)) (snd (limits_of p))) "viridis" (PInt 11).

Theorem new_gprop_iff name unit data params p : new_gprop name unit data params = Ok p <->
  exists n u g el, name = EIs n /\ unit = EIs u /\ params = EIs g /\ data = PArr "float64" (shape3 g) el /\ p = fresh n u g el.
Proof.
  unfold new_gprop. split.
  - destruct name as [n|]; cbn [class_arg bind]; [|discriminate]. destruct unit as [u|]; cbn [class_arg bind]; [|discriminate].
    destruct params as [g|]; cbn [class_arg bind]; [|discriminate].
    destruct (array data _ _ _ _ _) as [d|] eqn:E; cbn [bind]; [|discriminate].
    apply array3_ok in E. destruct E as (-> & a & b & c & el & ->).
    destruct (same_shape_arrays _ 2) as [r|] eqn:Es; cbn [bind]; [|discriminate].
    apply same2 in Es. rewrite contrast_default. intros H; inversion H; subst. exists n, u, g, el. rewrite Es. repeat split; auto.
  - intros (n & u & g & el & -> & -> & -> & -> & ->). cbn [class_arg bind].
    assert (E : array (PArr "float64" (shape3 g) el) None None false (Some "float64"%string) (Some 3%Z) = Ok (PArr "float64" (shape3 g) el)).
    { apply array3_ok. split; auto. unfold shape3. destruct (g_shape g) as [[a b] c]. eauto. }
    rewrite E. cbn [bind]. rewrite (proj2 (same2 _ _ _ _ _ _ tt) eq_refl). cbn [bind]. rewrite contrast_default. reflexivity.
Qed.

(** shape agreement *)
Definition mask_inv (p : gprop T) : Prop := forall m, p_mask p = Some m ->
  ma_dtype m = "bool"%string /\ ma_shape m = p_shape p /\ List.length (ma_elems m) = volume (p_shape p) /\ Forall is_SB (ma_elems m).
Definition prop_inv (p : gprop T) : Prop :=
  p_shape p = shape3 (p_params p) /\ List.length (p_data p) = volume (p_shape p) /\ mask_inv p.

Lemma blank_length (l : list T) m : List.length (blank l m) = List.length l.
Proof. revert m; induction l; intros [|]; cbn; auto. Qed.
Lemma blank_nth (l : list T) m i x : nth_error l i = Some x ->
  nth_error (blank l m) i = Some (match nth_error m i with Some s => if scal_true s then n_nan else x | None => x end).
Proof.
  revert m i; induction l as [|a l IH]; intros [|s m] [|i] H; cbn in *; try discriminate; try congruence; auto.
  inversion H; reflexivity.
Qed.
Lemma scal_true_SB (s : scal T) : is_SB s -> scal_true s = match s with SB b => b | _ => false end.
Proof. destruct s; cbn; tauto. Qed.
Lemma blank_marked (p : gprop T) m i x : mask_inv p -> p_mask p = Some m -> nth_error (p_data p) i = Some x ->
  nth_error (blank (p_data p) (ma_elems m)) i = Some (if marked (p_mask p) i then n_nan else x).
Proof.
  intros Hm Em Hx. destruct (Hm _ Em) as (_ & _ & _ & Hb). rewrite (blank_nth _ _ _ Hx). rewrite Em. cbn [marked].
  destruct (nth_error (ma_elems m) i) as [s|] eqn:E; auto. rewrite Forall_forall in Hb.
  specialize (Hb s (nth_error_In _ _ E)). rewrite scal_true_SB by auto. destruct s; auto; contradiction.
Qed.

Lemma get_data_false (p : gprop T) : get_data p (PBool false) = (p, Ok (p_shape p, p_data p)).
Proof. reflexivity. Qed.
Lemma get_data_nomask (p : gprop T) b : p_mask p = None -> get_data p (PBool b) = (p, Ok (p_shape p, p_data p)).
Proof. intros H. unfold get_data. cbn [boolean_v]. rewrite H. destruct b; reflexivity. Qed.
Lemma get_data_mask (p : gprop T) m : mask_inv p -> p_mask p = Some m ->
  get_data p (PBool true) = (with_data p (blank (p_data p) (ma_elems m)), Ok (p_shape p, blank (p_data p) (ma_elems m))).
Proof.
  intros Hi H. unfold get_data. cbn [boolean_v]. rewrite H. destruct (Hi _ H) as (-> & -> & _). cbn [String.eqb Ascii.eqb Bool.eqb].
  rewrite (proj2 (shape_eqb_spec (p_shape p) (p_shape p)) eq_refl). reflexivity.
Qed.
Lemma get_data_bad (p : gprop T) v : (forall b, v <> PBool b) -> get_data p v = (p, Err TypeError).
Proof. intros H. unfold get_data. destruct v; auto. destruct (H b); auto. Qed.

Lemma set_mask_ok (p p' : gprop T) v : set_mask p v = (p', Ok tt) <->
  exists el, v = PArr "bool" (p_shape p) el /\ p' = with_mask p (Some (mkMarr "bool" (p_shape p) el)).
Proof.
  unfold set_mask. destruct (array v None None false (Some "bool"%string) None) as [w|] eqn:E.
  - apply bool_arr_ok in E. destruct E as (-> & sh & el & ->). unfold data_arr.
    destruct (list_eq_dec Nat.eq_dec sh (p_shape p)) as [->|Hn].
    + rewrite (proj2 (same2 _ _ _ _ _ _ tt) eq_refl). split.
      * intros H; inversion H. exists el; auto.
      * intros (el' & H & ->). inversion H; subst. reflexivity.
    + rewrite (same2_err _ _ _ _ Hn). split; [discriminate|]. intros (el' & H & _). inversion H; congruence.
  - split; [discriminate|]. intros (el & -> & ->). rewrite (proj2 (bool_arr_ok (PArr "bool" (p_shape p) el) (PArr "bool" (p_shape p) el))) in E; [discriminate|eauto 6].
Qed.
Lemma set_mask_err (p p' : gprop T) v e : set_mask p v = (p', Err e) -> p' = p.
Proof.
  unfold set_mask. destruct (array v None None false (Some "bool"%string) None) as [[]|]; try (intros H; inversion H; auto; fail).
  destruct (same_shape_arrays _ _); intros H; inversion H; auto.
Qed.

Lemma do_pop_inv (p : gprop T) o : pop_wf o -> prop_inv p -> prop_inv (do_pop p o).
Proof.
  intros Hw HH. assert (HH' := HH). destruct HH' as (H1 & H2 & H3). destruct o as [v|v|a b c d]; cbn [do_pop].
  - destruct v; try (rewrite get_data_bad by discriminate; exact HH; fail).
    destruct b; [|rewrite get_data_false; exact HH].
    destruct (p_mask p) as [m|] eqn:Em; [|rewrite get_data_nomask by auto; exact HH].
    rewrite (get_data_mask H3 Em). cbn [fst]. unfold prop_inv, mask_inv, with_data. cbn [p_shape p_params p_data p_mask]. rewrite blank_length. auto.
  - destruct (set_mask p v) as [p' [[]|e]] eqn:E; cbn [fst].
    + apply set_mask_ok in E. destruct E as (el & -> & ->). unfold prop_inv, mask_inv, with_mask. cbn [p_shape p_params p_data p_mask].
      split; auto. split; auto. intros m Hm; inversion Hm; subst. cbn. cbn in Hw. destruct Hw as (A & _ & B). auto.
    + apply set_mask_err in E. subst. exact HH.
  - destruct (set_contrast_frame p a b c d) as (A & B & C & D & _). unfold prop_inv, mask_inv in *. rewrite A, B, C, D. auto.
Qed.

Lemma map_num_length (el : list (scal T)) : List.length (map (@num_scal T _) el) = List.length el.
Proof. apply map_length. Qed.

Lemma fresh_inv n u g el : List.length el = volume (shape3 g) -> prop_inv (fresh n u g el).
Proof.
  intros H. unfold prop_inv, mask_inv, fresh. cbn [with_colors with_limits p_shape p_params p_data p_mask]. rewrite map_length.
  split; auto. split; auto. discriminate.
Qed.

Theorem preach_inv (p : gprop T) : preach p -> prop_inv p.
Proof.
  induction 1 as [n u v g p Hw H|p o Hw H IH].
  - apply new_gprop_iff in H. destruct H as (n' & u' & g' & el & -> & -> & -> & -> & ->). apply fresh_inv. apply Hw.
  - apply do_pop_inv; auto.
Qed.

(** *** reads *)
Theorem masked_read (p : gprop T) : preach p -> exists l,
  get_data p (PBool true) = (with_data p l, Ok (p_shape p, l)) /\ List.length l = List.length (p_data p) /\
  forall i x, nth_error (p_data p) i = Some x -> nth_error l i = Some (if marked (p_mask p) i then n_nan else x).
Proof.
  intros H. apply preach_inv in H. destruct H as (_ & _ & H3). destruct (p_mask p) as [m|] eqn:Em.
  - rewrite (get_data_mask H3 Em). eexists; split; [reflexivity|]. rewrite blank_length. split; auto.
    intros i x Hx. rewrite <- Em. apply blank_marked; auto.
  - exists (p_data p). rewrite get_data_nomask by auto. destruct p; cbn. auto.
Qed.
Theorem unmasked_read (p : gprop T) :
  get_data p (PBool false) = (p, Ok (p_shape p, p_data p)) /\
  (p_mask p = None -> get_data p (PBool true) = (p, Ok (p_shape p, p_data p))) /\
  (forall v, (forall b, v <> PBool b) -> get_data p v = (p, Err TypeError)).
Proof. split; [reflexivity|]. split; [apply get_data_nomask|apply get_data_bad]. Qed.

Definition nan_at (p : gprop T) (i : nat) : Prop := exists x, nth_error (p_data p) i = Some x /\ val x = XNaN.

Lemma get_data_nth (p : gprop T) v i x : nth_error (p_data p) i = Some x ->
  exists y, nth_error (p_data (fst (get_data p v))) i = Some y /\ (y = x \/ y = n_nan).
Proof.
  intros H. unfold get_data. destruct (boolean_v v) as [b|]; [|eauto]. destruct (if b then p_mask p else None); [|eauto].
  destruct (_ && _); [|eauto]. cbn [fst with_data p_data]. rewrite (blank_nth _ _ _ H). destruct (nth_error (ma_elems m) i); [destruct (scal_true s)|]; eauto.
Qed.
Lemma pop_data (p : gprop T) o : (forall v, o <> PRead v) -> p_data (do_pop p o) = p_data p.
Proof.
  intros H. destruct o as [v|v|a b c d]; [destruct (H v); auto|..]; cbn [do_pop].
  - destruct (set_mask p v) as [p' [[]|e]] eqn:E; cbn [fst].
    + apply set_mask_ok in E. destruct E as (el & _ & ->). reflexivity.
    + apply set_mask_err in E. subst. reflexivity.
  - apply set_contrast_frame.
Qed.
Lemma pop_nan (p : gprop T) o i : nan_at p i -> nan_at (do_pop p o) i.
Proof.
  intros (x & Hx & Hn). destruct o as [v|v|a b c d].
  - cbn [do_pop]. destruct (get_data_nth p v i Hx) as (y & Hy & [-> | ->]); eexists; split; eauto. apply l_nan.
  - exists x. rewrite pop_data by discriminate. auto.
  - exists x. rewrite pop_data by discriminate. auto.
Qed.
Theorem nan_forever (p : gprop T) l i : nan_at p i -> nan_at (do_pops p l) i.
Proof. revert p; induction l as [|o l IH]; intros p H; cbn; auto. apply IH, pop_nan, H. Qed.

Theorem masked_read_destroys (p : gprop T) i l : preach p -> i < List.length (p_data p) -> marked (p_mask p) i = true ->
  nan_at (do_pops (fst (get_data p (PBool true))) l) i.
Proof.
  intros Hp Hi Hm. apply nan_forever. destruct (masked_read Hp) as (d & E & Hl & Hd). rewrite E. cbn [fst].
  destruct (nth_error (p_data p) i) as [x|] eqn:Ex; [|apply nth_error_None in Ex; lia].
  exists n_nan. unfold with_data. cbn [p_data]. rewrite (Hd _ _ Ex), Hm. split; auto. apply l_nan.
Qed.

Definition clear_at (p : gprop T) (i : nat) : Prop := marked (p_mask p) i = false.
Lemma pop_spares (p : gprop T) o i : pop_wf o -> prop_inv p -> spares i o -> clear_at p i ->
  clear_at (do_pop p o) i /\ nth_error (p_data (do_pop p o)) i = nth_error (p_data p) i.
Proof.
  intros Hw (_ & _ & Hi) Hs Hc. unfold clear_at in *. destruct o as [v|v|a b c d].
  - cbn [do_pop]. destruct v; try (rewrite get_data_bad by discriminate; auto; fail).
    destruct b; [|cbn [get_data boolean_v fst]; auto]. destruct (p_mask p) as [m|] eqn:Em; [|rewrite get_data_nomask by auto; cbn [fst]; rewrite Em; auto].
    rewrite (get_data_mask Hi Em). cbn [fst with_data p_data p_mask]. rewrite Em. split; auto.
    destruct (nth_error (p_data p) i) as [x|] eqn:Ex.
    + rewrite (blank_marked i Hi Em Ex). rewrite Em, Hc. auto.
    + apply nth_error_None. rewrite blank_length. apply nth_error_None; auto.
  - rewrite pop_data by discriminate. split; auto. cbn [do_pop].
    destruct (set_mask p v) as [p' [[]|e]] eqn:E; cbn [fst].
    + apply set_mask_ok in E. destruct E as (el & -> & ->). cbn [with_mask p_mask marked ma_elems]. cbn in Hs.
      destruct (nth_error el i) as [[[]| |]|]; auto. congruence.
    + apply set_mask_err in E. subst. auto.
  - rewrite pop_data by discriminate. split; auto. cbn [do_pop]. destruct (set_contrast_frame p a b c d) as (_ & -> & _). auto.
Qed.
Theorem unmasked_kept (p : gprop T) l i : preach p -> Forall pop_wf l -> Forall (spares i) l -> marked (p_mask p) i = false ->
  nth_error (p_data (do_pops p l)) i = nth_error (p_data p) i.
Proof.
  intros Hp. revert p Hp. induction l as [|o l IH]; intros p Hp Hw Hs Hc; auto. inversion Hw; inversion Hs; subst. cbn [do_pops fold_left].
  destruct (@pop_spares p o i) as [A B]; auto; [apply preach_inv; auto|]. change (fold_left do_pop l (do_pop p o)) with (do_pops (do_pop p o) l).
  rewrite IH; auto. apply pr_op; auto.
Qed.

(** no call but a read changes the data *)
Theorem only_reads_change (p : gprop T) l : Forall (fun o => forall v, o <> PRead v) l -> p_data (do_pops p l) = p_data p.
Proof.
  revert p. induction l as [|o l IH]; intros p H; auto. inversion H; subst. cbn [do_pops fold_left].
  change (fold_left do_pop l (do_pop p o)) with (do_pops (do_pop p o) l). rewrite IH; auto. apply pop_data; auto.
Qed.

Theorem reach_shapes (p : gprop T) : preach p ->
  p_shape p = shape3 (p_params p) /\ List.length (p_data p) = volume (p_shape p) /\
  (forall m, p_mask p = Some m -> ma_dtype m = "bool"%string /\ ma_shape m = p_shape p /\
     List.length (ma_elems m) = volume (p_shape p)).
Proof.
  intros H. apply preach_inv in H. destruct H as (A & B & C). split; auto. split; auto. intros m Hm. destruct (C _ Hm) as (? & ? & ? & _). auto.
Qed.
Theorem set_mask_refused (p : gprop T) v : (forall el, v <> PArr "bool" (p_shape p) el) -> exists e, set_mask p v = (p, Err e).
Proof.
  intros H. destruct (set_mask p v) as [p' [[]|e]] eqn:E.
  - apply set_mask_ok in E. destruct E as (el & -> & _). destruct (H el); auto.
  - exists e. rewrite (set_mask_err _ _ E). auto.
Qed.
End P.
