(** Invariants of a grid under its methods. *)
From Coq Require Import ZArith Reals List Bool String Lia.
From Verif Require Import Num NumP Py SpecNum Validate ValidateP Ring RingP RingSystem FS GridParams SpecGrid GridParamsP GridDiag Names GridProp SpecProp GridPropP Geometry
  Build SpecBuild BuildP BuildQP Shallot BuildGP BuildGridP BuildCP AddLaws ShallotOps SpecOps.
Import ListNotations.
Set Implicit Arguments.
Local Open Scope list_scope.

Section O.
Context {T : Type} {NT : Num T} {LT : NumLaws T} {AL : AddLaws T} (E : env T).
Notation pyval := (pyval T).
Notation shallot := (shallot T).

Definition cube_inv (g : gparams T) (p : gprop T) : Prop := prop_inv p /\ p_params p = g.
Record sinv (s : shallot) : Prop := {
  i_cons : proper (s_params s);
  i_cubes : forall w, cube_inv (s_params s) (the_cube w s);
  i_dmap : exists m, s_dmap s = Some m /\ cube_inv (s_params s) m;
  i_grads : forall gs, s_grads s = Some gs -> Forall (fun g => cube_inv (s_params s) (gg_prop g)) gs;
  i_fit : forall p, s_fit s = Some p -> cube_inv (s_params s) p /\ s_grads s <> None;
  i_shear : s_shear s = shear_of_params (s_params s) }.

Lemma cube_shape g p : cube_inv g p -> p_shape p = shape3 g /\ List.length (p_data p) = volume (shape3 g).
Proof. intros [(A & B & _) <-]. split; congruence. Qed.
Lemma points_volume (s : shallot) : sinv s -> volume (shape3 (s_params s)) = points s.
Proof. intros H. destruct (i_cons H) as [[Hs _] _ _]. unfold shape3, points. rewrite Hs. unfold shape_of_vectors. rewrite volume3. reflexivity. Qed.

(** *** the combined mask *)
Lemma add_mask_ok sh acc (m : option (marr T)) :
  (forall m', m = Some m' -> ma_shape m' = sh /\ List.length (ma_elems m') = volume sh /\ Forall is_SB (ma_elems m')) ->
  List.length acc = volume sh -> (forall x, In x acc -> nonneg (val x)) ->
  exists acc', add_mask sh acc m = Ok acc' /\ List.length acc' = volume sh /\ (forall x, In x acc' -> nonneg (val x)) /\
    forall i x, nth_error acc i = Some x -> exists x', nth_error acc' i = Some x' /\
      (n_eq x' n_zero = n_eq x n_zero && negb (marked m i)).
Proof.
  intros Hm Hl Hn. destruct m as [m|]; cbn [add_mask]; [|exists acc; split; auto; split; auto; split; auto; intros i x Hx; exists x; split; auto; cbn [marked negb]; now rewrite andb_true_r].
  destruct (Hm m eq_refl) as (Hs & Hlm & Hb). rewrite (proj2 (shape_eqb_spec _ _) Hs). eexists. split; [reflexivity|].
  rewrite map_length, combine_length, Hl, Hlm, Nat.min_id. split; auto.
  assert (St : forall x s, nonneg (val x) -> is_SB s -> nonneg (val (n_add x (num_scal s))) /\
            (n_eq (n_add x (num_scal s)) n_zero = n_eq x n_zero && negb (match s with SB b => b | _ => false end))).
  { intros x s Hx Hs'. destruct s as [b| |]; try destruct Hs'. cbn [num_scal]. destruct b; cbn [negb].
    - assert (H1 : val (n_ofZ 1 : T) = XFin 1) by (rewrite l_ofZ; auto; lia).
      destruct (a_up x (n_ofZ 1 : T) Hx) as [A B]; [rewrite H1; apply nonneg_iff; right; exists 1%R; split; auto; apply Rle_0_1|].
      split; [exact (xle_trans Hx A)|]. rewrite andb_false_r. apply Bool.not_true_iff_false. intros X. apply neq_iff in X as [X _]. rewrite val_zero in X. rewrite H1, X in B.
      destruct B as [B|[B _]]; [cbn in B; exact (Rlt_irrefl _ (Rlt_trans _ _ _ B Rlt_0_1))|]. injection B as B. apply R1_neq_R0. exact B.
    - assert (H0 : val (n_ofZ 0 : T) = XFin 0) by (rewrite l_ofZ; auto; lia). assert (V := a_zero_r x (n_ofZ 0 : T) H0).
      rewrite V. split; auto. rewrite andb_true_r, !l_eq, V. reflexivity. }
  assert (G : forall acc el, Forall (@is_SB T) el -> (forall x, In x acc -> nonneg (val x)) ->
     (forall x, In x (map (fun p => n_add (fst p) (num_scal (snd p))) (combine acc el)) -> nonneg (val x)) /\
     forall i x, nth_error acc i = Some x -> List.length el = List.length acc -> exists x', nth_error (map (fun p => n_add (fst p) (num_scal (snd p))) (combine acc el)) i = Some x' /\
       (n_eq x' n_zero = n_eq x n_zero && negb (match nth_error el i with Some (SB b) => b | _ => false end))).
  { clear acc Hl Hn. induction acc as [|a acc IH]; intros [|e el] Hel Hacc; cbn [combine map].
    - split; [intros x []|]. intros [|i] x Hx; discriminate.
    - split; [intros x []|]. intros [|i] x Hx; discriminate.
    - split; [intros x []|]. intros i x Hx X; discriminate.
    - inversion Hel; subst. destruct (St a e) as [A B]; auto; [apply Hacc; now left|]. destruct (IH el) as [C D]; auto; [intros; apply Hacc; now right|]. split.
      + cbn [fst snd]. intros x [<-|Hx]; auto.
      + intros [|i] x Hx Hle; cbn [nth_error] in *; [injection Hx as <-; cbn [fst snd]; eexists; split; [reflexivity|]; rewrite B; destruct e; auto|].
        apply D; auto. }
  destruct (G acc (ma_elems m) Hb Hn) as [A B]. split; auto. intros i x Hx. destruct (B i x Hx) as (x' & Hx' & Hq); [congruence|]. exists x'. split; auto.
Qed.

Lemma masks_ok (s : shallot) : sinv s -> forall o, In o (all_masks s) -> forall m, o = Some m ->
  ma_shape m = shape3 (s_params s) /\ List.length (ma_elems m) = volume (shape3 (s_params s)) /\ Forall is_SB (ma_elems m).
Proof.
  intros H o Ho m ->. assert (K : forall p, cube_inv (s_params s) p -> p_mask p = Some m -> ma_shape m = shape3 (s_params s) /\ List.length (ma_elems m) = volume (shape3 (s_params s)) /\ Forall is_SB (ma_elems m)).
  { intros p ((A & B & C) & D) Hp. destruct (C m Hp) as (_ & X & Y & Z). rewrite X, Y, A, D. auto. }
  unfold all_masks in Ho. apply in_app_iff in Ho as [Ho|Ho].
  - cbn [In] in Ho. destruct Ho as [Ho|[Ho|[Ho|[]]]].
    + apply (K (s_dr s)); auto. apply (i_cubes H WRadius).
    + apply (K (s_inc s)); auto. apply (i_cubes H WInclination).
    + apply (K (s_tilt s)); auto. apply (i_cubes H WTilt).
  - destruct (s_grads s) as [gs|] eqn:Eg; [|destruct Ho]. apply in_map_iff in Ho as (g & Hg & Hin). assert (F := i_grads H Eg). rewrite Forall_forall in F. apply (K (gg_prop g)); auto.
Qed.

Lemma fold_masks sh l : forall acc,
  (forall o, In o l -> forall m, o = Some m -> ma_shape m = sh /\ List.length (ma_elems m) = volume sh /\ Forall is_SB (ma_elems m)) ->
  List.length acc = volume sh -> (forall x, In x acc -> nonneg (val x)) ->
  exists acc', fold_res (add_mask sh) l acc = Ok acc' /\ List.length acc' = volume sh /\
    forall i x, nth_error acc i = Some x -> exists x', nth_error acc' i = Some x' /\
      (n_eq x' n_zero = n_eq x n_zero && negb (existsb (fun o => marked o i) l)).
Proof.
  induction l as [|o l IH]; intros acc Hm Hl Hn; cbn [fold_res].
  - exists acc. split; auto. split; auto. intros i x Hx. exists x. split; auto. cbn. now rewrite andb_true_r.
  - destruct (@add_mask_ok sh acc o) as (a & -> & La & Na & Sa); auto; [intros m' Em; exact (Hm o (or_introl eq_refl) m' Em)|]. cbn [bind].
    destruct (IH a) as (b & Hb & Lb & Sb); auto; [intros o' Ho' m' Em; exact (Hm o' (or_intror Ho') m' Em)|]. exists b. split; auto. split; auto.
    intros i x Hx. destruct (Sa i x Hx) as (x' & Hx' & Hq). destruct (Sb i x' Hx') as (x'' & Hx'' & Hq'). exists x''. split; auto. rewrite Hq', Hq. cbn [existsb]. rewrite negb_orb. now rewrite andb_assoc.
Qed.

Lemma masked_at_dec (s : shallot) i : existsb (fun o => marked o i) (all_masks s) = true <-> masked_at s i.
Proof.
  rewrite existsb_exists. unfold all_masks, masked_at. split.
  - intros (o & Ho & Hm). apply in_app_iff in Ho as [Ho|Ho].
    + cbn [In] in Ho. destruct Ho as [<-|[<-|[<-|[]]]]; auto.
    + destruct (s_grads s) as [gs|]; [|destruct Ho]. apply in_map_iff in Ho as (g & <- & Hg). right. right. right. eauto.
  - intros [H|[H|[H|(gs & g & Hg & Hin & H)]]].
    + exists (p_mask (s_dr s)). split; auto. now left.
    + exists (p_mask (s_inc s)). split; auto. right. now left.
    + exists (p_mask (s_tilt s)). split; auto. right. right. now left.
    + exists (p_mask (gg_prop g)). split; auto. rewrite Hg. apply in_app_iff. right. apply in_map_iff. eauto.
Qed.

Lemma nth_error_repeat' A (a : A) n i : i < n -> nth_error (repeat a n) i = Some a.
Proof. revert i; induction n; intros [|i] H; cbn; auto; try lia. apply IHn. lia. Qed.
Lemma nth_error_seq' a n i : i < n -> nth_error (seq a n) i = Some (a + i).
Proof. revert a i; induction n; intros a [|i] H; cbn; auto; try lia. rewrite IHn by lia. f_equal. lia. Qed.
Definition masked_b (s : shallot) (i : nat) : bool := existsb (fun o => marked o i) (all_masks s).
Theorem combined_ok (s : shallot) : sinv s -> combined_mask s = Ok (map (masked_b s) (seq 0 (points s))).
Proof.
  intros H. unfold combined_mask.
  destruct (@fold_masks (shape3 (s_params s)) (all_masks s) (repeat n_zero (volume (shape3 (s_params s))))) as (acc & -> & La & Sa).
  - intros o Ho m Hm. exact (masks_ok H Ho Hm).
  - apply repeat_length.
  - intros x Hx. apply repeat_spec in Hx. subst. rewrite val_zero. apply nonneg_iff. right. exists 0%R. split; auto. apply Rle_refl.
  - cbn [bind]. f_equal. rewrite (points_volume H) in *. apply nth_error_ext'; [rewrite !map_length, seq_length; exact La|]. intros i Hi. rewrite map_length, La in Hi. rewrite !nth_error_map.
    destruct (Sa i n_zero) as (x' & Hx' & Hq); [now apply nth_error_repeat'|]. rewrite Hx'. rewrite nth_error_seq' by auto. cbn [option_map Nat.add]. f_equal. rewrite Hq.
      rewrite (proj2 (neq_iff n_zero n_zero)) by (rewrite val_zero; split; [auto|discriminate]). cbn [andb]. apply negb_involutive.
Qed.
End O.
