(** The texts of the exceptions of grids and viewers follow their checks. *)
From Coq Require Import ZArith Reals List Bool String Lia.
From Verif Require Import Num NumP Py SpecNum Validate ValidateP Ring RingP RingSystem FS GridParams SpecGrid GridParamsP GridDiag Names GridProp SpecProp GridPropP
  Geometry Build SpecBuild StretchP Shallot AddLaws ShallotOps SpecOps OpsP OpsReadP OpsPointP OpsEditP OpsFitP OpsExtractP Viewer Fmt Text Message SpecMsg SpecMsgGrid MessageP MessageSpecP MessageRingP MessageGridP MessageExP
  MessageOps SpecMsgOps MessageOpsP.
Import ListNotations.
Set Implicit Arguments.
Local Open Scope string_scope.
Local Open Scope list_scope.

(** [announces] as a case distinction *)
Definition heeds (l : list check) A (x : mres A) : Prop :=
  match x with
  | MOk _ | MErr _ None => Forall passes l /\ forall e s, ~ first_error l e s
  | MErr e (Some t) => ~ Forall passes l /\ forall e' s', first_error l e' s' <-> e' = e /\ s' = t
  end.
Lemma heeds_announces l A (x : mres A) : heeds l x -> announces x l.
Proof.
  unfold announces. destruct x as [a|e [t|]]; cbn [heeds]; intros [H1 H2]; split; try (intros e' s').
  - split; [discriminate|]. intros X. destruct (H2 _ _ X).
  - split; [intros _; exact H1|]. intros _. left. exists a. reflexivity.
  - rewrite H2. split; [intros X; injection X as -> ->; auto|]. intros [-> ->]. reflexivity.
  - split; [|intros X; contradiction]. intros [[a X]|[e' X]]; discriminate X.
  - split; [discriminate|]. intros X. destruct (H2 _ _ X).
  - split; [intros _; exact H1|]. intros _. right. exists e. reflexivity.
Qed.
Lemma heeds_follows l A (x : mres A) : follows l x -> heeds l x.
Proof.
  unfold follows. destruct x as [a|e o]; cbn [judges heeds in_turn passes complains]; [auto|].
  intros [H (s & -> & X)]. split; assumption.
Qed.
Lemma heeds_ok A (a : A) : heeds [] (MOk a). Proof. apply heeds_follows, follows_ok. Qed.
Lemma heeds_none A e : heeds [] (@MErr A e None).
Proof. split; [constructor|]. intros e' s H. inversion H. Qed.
Lemma heeds_silent A (r : res A) : heeds [] (silent r).
Proof. destruct r; [apply heeds_ok|apply heeds_none]. Qed.
Lemma heeds_iff l l' A (x : mres A) : (Forall passes l <-> Forall passes l') -> (forall e s, first_error l e s <-> first_error l' e s) -> heeds l x -> heeds l' x.
Proof.
  intros Hp Hf. destruct x as [a|e [t|]]; cbn [heeds]; rewrite Hp; intros [H1 H2]; (split; [exact H1|]).
  - intros e s X. apply Hf in X. exact (H2 _ _ X).
  - intros e' s'. rewrite <- Hf. apply H2.
  - intros e' s X. apply Hf in X. exact (H2 _ _ X).
Qed.
Lemma follows_heeds l1 l2 A B (x : mres A) (f : A -> mres B) :
  follows l1 x -> (forall a, x = MOk a -> heeds l2 (f a)) -> heeds (l1 ++ l2) (mbind x f).
Proof.
  intros Hc Hf. unfold follows in Hc. destruct x as [a|e0 o0]; cbn [mbind judges in_turn passes complains] in *.
  - specialize (Hf a eq_refl). destruct Hc as [Hp Hn].
    assert (P : Forall passes (l1 ++ l2) <-> Forall passes l2) by (rewrite Forall_app; tauto).
    assert (F : forall e s, first_error (l1 ++ l2) e s <-> first_error l2 e s).
    { intros e s. rewrite first_app. split; [intros [X|[_ X]]; [destruct (Hn _ _ X)|exact X]|auto]. }
    eapply heeds_iff; [| |exact Hf]; [now symmetry|]. intros; symmetry; apply F.
  - destruct Hc as [Hp (s & -> & X)]. cbn [heeds]. split; [rewrite Forall_app; tauto|].
    intros e' s'. rewrite first_app, X. split; [intros [Y|[Y _]]; [exact Y|contradiction]|auto].
Qed.
Lemma heeds_bind c l A B (x : mres A) (f : A -> mres B) :
  judges c x -> (forall a, x = MOk a -> heeds l (f a)) -> heeds (c :: l) (mbind x f).
Proof. intros H. apply (@follows_heeds [c]). apply follows_tail, H. Qed.
(** what Python itself raises says nothing *)
Lemma heeds_quiet l A B (r : res A) (f : A -> mres B) :
  (forall e, r = Err e -> Forall passes l /\ forall e s, ~ first_error l e s) -> (forall a, r = Ok a -> heeds l (f a)) -> heeds l (mbind (silent r) f).
Proof. intros He Hf. destruct r as [a|e]; [exact (Hf a eq_refl)|]. exact (He e eq_refl). Qed.
Lemma heeds_tail l A B (x : mres A) (f : A -> mres B) : heeds l x -> (forall a, x = MOk a -> heeds [] (f a)) -> heeds l (mbind x f).
Proof.
  intros H Hf. destruct x as [a|e t]; [|exact H]. cbn [mbind]. specialize (Hf a eq_refl). cbn [heeds] in H.
  destruct (f a) as [b|e [t|]]; [exact H| |exact H]. exfalso. apply (proj1 Hf). constructor.
Qed.
Lemma snd_match A B S (x : mres A) (s : S) (f : A -> S * mres B) :
  snd (match x with MErr e t => (s, MErr e t) | MOk a => f a end) = mbind x (fun a => snd (f a)).
Proof. destruct x; reflexivity. Qed.
Lemma no_first : forall e s, ~ first_error [] e s. Proof. intros e s H. inversion H. Qed.

Section O.
Context {T : Type} {NT : Num T} {LT : NumLaws T} {AL : AddLaws T} (E : env T).
Variable fmt : nat -> T -> string.
Notation pyval := (pyval T).
Notation shallot := (shallot T).
Ltac tame := solve [exact I | cbn; lia | (right; constructor) | (left; constructor) | assumption | cbn; exact I].

Lemma is_bool_dec (v : pyval) : {is_bool v} + {~ is_bool v}.
Proof. destruct v as [b| | | | | | | | |]; try (right; intros [? X]; discriminate X). left. exists b. reflexivity. Qed.
Lemma bool_judge name (v : pyval) : judges (bool_check name v) (boolean_m name v).
Proof.
  apply kind_judge. destruct v as [b| | | | | | | | |]; try (split; [intros [? X]; discriminate X|reflexivity]). exists b. reflexivity.
Qed.
Lemma bool_not name (v : pyval) : ~ is_bool v -> boolean_m name v = raise TypeError (class_text name "boolean").
Proof. intros H. destruct v as [b| | | | | | | | |]; try reflexivity. destruct H. exists b. reflexivity. Qed.

(** *** reading *)
Lemma outs_ok S A (x : S * mres A) (s : S) a : outs x = (s, Ok a) -> x = (s, MOk a).
Proof. destruct x as [s' [b|e t]]; intros H; [|discriminate H]. injection H as -> ->. reflexivity. Qed.
Theorem read_follows (s : shallot) p put m b : sinv s -> cube_inv (s_params s) p ->
  (forall q, s_params (put q) = s_params s) -> (forall q, p_mask q = p_mask p -> all_masks (put q) = all_masks s) ->
  follows (getter_checks m b) (snd (read_property_m p put m b)).
Proof.
  intros Hs Hp P1 P2. destruct (is_bool_dec b) as [[bb ->]|Hb].
  - assert (G : get_data_m p (PBool bb) = (with_data p (hidden (p_data p) (fun i => bb && marked (p_mask p) i)), MOk (p_shape p, hidden (p_data p) (fun i => bb && marked (p_mask p) i)))).
    { apply outs_ok. rewrite get_data_outs. apply get_data_hidden, Hp. }
    destruct (is_bool_dec m) as [[mm ->]|Hm].
    + pose proof (@read_bool T NT LT AL s p put mm bb Hs Hp P1 P2) as R. rewrite <- read_out in R. apply outs_ok in R. rewrite R. cbn [snd].
      split; [repeat constructor; eexists; reflexivity|]. intros e t X. inversion X; subst.
      * destruct H3 as [H3 _]. apply H3. eexists; reflexivity.
      * inversion H4; subst; [|inversion H6]. destruct H5 as [H5 _]. apply H5. eexists; reflexivity.
    + unfold read_property_m. rewrite G. rewrite bool_not by assumption. cbn [snd raise].
      pose proof (bool_judge "masked" m) as J. rewrite (bool_not "masked" Hm) in J.
      apply (@follows_bind (bool_check "masked" (PBool bb)) [bool_check "masked" m] bool (list nat * list T) (boolean_m "masked" (PBool bb : pyval)) (fun _ => raise TypeError (class_text "masked" "boolean"))); [apply bool_judge|].
      intros _ _. apply follows_tail. exact J.
  - unfold read_property_m, get_data_m. rewrite (bool_not "masked" Hb). cbn [raise snd].
    pose proof (bool_judge "masked" b) as J. rewrite (bool_not "masked" Hb) in J.
    apply (@follows_bind (bool_check "masked" b) [bool_check "masked" m] bool (list nat * list T) (raise TypeError (class_text "masked" "boolean")) (fun _ => MErr TypeError None)); [exact J|]. intros a X. discriminate X.
Qed.

(** a call that keeps the invariant and says nothing *)
Definition hush {A} (m : MM (T := T) A) : Prop := forall s, sinv s -> sinv (fst (m s)) /\ heeds [] (snd (m s)).
Lemma hush_of A (m : MM (T := T) A) (m' : M (T := T) A) : same m m' -> keeps m' -> (forall s, sinv s -> heeds [] (snd (m s))) -> hush m.
Proof. intros Hm K H s Hs. split; [|exact (H s Hs)]. destruct (K s Hs) as [K1 _]. rewrite <- (Hm s) in K1. exact K1. Qed.
Lemma hush_ret A (a : A) : hush (tret a). Proof. intros s H. split; [exact H|apply heeds_ok]. Qed.
Lemma hush_lift A (r : mres A) : heeds [] r -> hush (tlift r). Proof. intros R s H. split; [exact H|exact R]. Qed.
Lemma hush_bind A B (m : MM (T := T) A) (f : A -> MM B) : hush m -> (forall a, hush (f a)) -> hush (tbind m f).
Proof.
  intros Hm Hf s Hs. destruct (Hm s Hs) as [A1 A2]. unfold tbind. destruct (m s) as [s1 [a|e t]]; cbn [fst snd] in *; [apply Hf, A1|].
  split; [exact A1|]. exact A2.
Qed.
Lemma both_bool m b : forall A (x : mres A), follows (@getter_checks T (PBool m) (PBool b)) x -> heeds [] x.
Proof.
  intros A x H. apply heeds_follows in H. eapply heeds_iff; [| |exact H].
  - split; [constructor|]. intros _. repeat constructor; eexists; reflexivity.
  - intros e s. split; [|intros X; inversion X]. intros X. inversion X as [? ? ? ? Y|? ? ? ? _ Y]; subst.
    + destruct Y as [Y _]. destruct Y. eexists; reflexivity.
    + inversion Y as [? ? ? ? Z|? ? ? ? _ Z]; subst; [|inversion Z]. destruct Z as [Z _]. destruct Z. eexists; reflexivity.
Qed.
Definition get_cube_m w (m b : pyval) : MM (T := T) (list nat * list T) := fun s => read_property_m (the_cube w s) (put_cube w s) m b.
Lemma cube_same w m b : same (get_cube_m w m b) (get_cube w m b).
Proof. intros s. rewrite get_cube_read. apply read_out. Qed.
Lemma cube_follows (s : shallot) w m b : sinv s -> follows (getter_checks m b) (snd (get_cube_m w m b s)).
Proof. intros H. apply read_follows with (s := s); auto; [apply H|intros; apply put_params|intros; now apply put_masks]. Qed.
Lemma hush_cube w m b : hush (get_cube_m w (PBool m) (PBool b)).
Proof. eapply hush_of; [apply cube_same|apply keeps_cube|]. intros s H. apply (@both_bool m b), cube_follows, H. Qed.
Lemma dmap_follows (s : shallot) m b : sinv s -> follows (getter_checks m b) (snd (get_diagnostic_map_m m b s)).
Proof.
  intros H. unfold get_diagnostic_map_m. destruct (i_dmap H) as (p & Hp & Hc). rewrite Hp. apply read_follows with (s := s); auto.
Qed.
Lemma hush_dmap m b : hush (get_diagnostic_map_m (PBool m) (PBool b)).
Proof. eapply hush_of; [apply dmap_same|apply keeps_dmap|]. intros s H. apply (@both_bool m b), dmap_follows, H. Qed.
Lemma fit_follows (s : shallot) p m b : sinv s -> s_fit s = Some p -> follows (getter_checks m b) (snd (get_gradient_fit_m m b s)).
Proof.
  intros H Hp. unfold get_gradient_fit_m. rewrite Hp. destruct (i_fit H Hp) as [Hc _].
  assert (F : follows (getter_checks m b) (snd (read_property_m p (set_fit s) m b))) by (apply read_follows with (s := s); auto).
  destruct (read_property_m p (set_fit s) m b) as [q [d|e t]]; exact F.
Qed.
Lemma hush_fit m b : hush (get_gradient_fit_m (PBool m) (PBool b)).
Proof.
  eapply hush_of; [apply fit_same|apply keeps_fit|]. intros s H. destruct (s_fit s) as [p|] eqn:Hp.
  - apply (@both_bool m b), (@fit_follows s p); assumption.
  - unfold get_gradient_fit_m. rewrite Hp. apply heeds_ok.
Qed.

Lemma hill_follows (s : shallot) h : sinv s -> small h -> follows (hill_checks fmt h) (snd (generate_hill_radius_mask_m fmt h s)).
Proof.
  intros H Sh. unfold generate_hill_radius_mask_m. rewrite snd_match. apply follows_bind; [apply number_judges; tame|]. intros h' _.
  pose proof (mask_follows fmt (s_dr s) (PArr "bool" (shape3 (s_params s)) (map (@SB T) (hill_mask (num_of h') (p_data (s_dr s)))))) as F.
  destruct (set_mask_m fmt (s_dr s) _) as [q r]. cbn [snd] in *. unfold follows in *.
  assert (P : Forall passes (mask_checks fmt str_int str_tuple (s_dr s) (PArr "bool" (shape3 (s_params s)) (map (@SB T) (hill_mask (num_of h') (p_data (s_dr s))))))).
  { destruct (cube_shape (i_cubes H WRadius)) as [Hsh _]. cbn [the_cube] in Hsh. repeat constructor.
    - do 3 eexists. split; [reflexivity|]. split; [left; split; reflexivity|]. split; [intros ? X; discriminate X|]. intros ? X. injection X as <-. reflexivity.
    - exists (shape3 (s_params s)). intros v [<-|[<-|[]]]; cbn [Py.shape_of]; congruence. }
  destruct r as [[]|e t]; [apply follows_ok|]. destruct F as [F _]. contradiction.
Qed.

(** *** points of the grid *)
Lemma lift_snd A B (r : mres A) (f : A -> MM (T := T) B) s : snd (tbind (tlift r) f s) = mbind r (fun a => snd (f a s)).
Proof. destruct r; reflexivity. Qed.
Lemma heeds_pass c l A (x : mres A) : passes c -> (forall e s, ~ complains c e s) -> heeds l x -> heeds (c :: l) x.
Proof.
  intros Hp Hc. apply heeds_iff.
  - split; [intros H; constructor; assumption|]. intros H. inversion H; assumption.
  - intros e s. split; [intros H; apply fe_later; assumption|]. intros H. inversion H as [? ? ? ? Y|? ? ? ? _ Y]; subst; [destruct (Hc _ _ Y)|exact Y].
Qed.
Lemma bool_passes name b : passes (@bool_check T name (PBool b)) /\ forall e s, ~ complains (@bool_check T name (PBool b)) e s.
Proof. split; [exists b; reflexivity|]. intros e s [X _]. apply X. exists b. reflexivity. Qed.
Lemma ask w masked B (f : list nat * list T -> MM (T := T) B) (s : shallot) : sinv s ->
  (forall m a, masked = PBool m -> hush (f a)) -> heeds [bool_check "masked" masked] (snd (tbind (get_cube_m w masked (PBool true)) f s)).
Proof.
  intros Hs Hf. destruct (is_bool_dec masked) as [[m ->]|Hm].
  - apply heeds_pass; try apply bool_passes. refine (proj2 (@hush_bind _ _ _ _ (@hush_cube w m true) _ s Hs)). intros a. exact (Hf m a eq_refl).
  - pose proof (@cube_follows s w masked (PBool true) Hs) as F. apply heeds_follows in F.
    assert (X : exists t, snd (get_cube_m w masked (PBool true) s) = MErr TypeError (Some t)).
    { unfold get_cube_m, read_property_m, get_data_m. cbn [boolean_m boolean_v saying].
      destruct (get_data (the_cube w s) (PBool true)) as [q [d|e]] eqn:Eq; cbn [silent].
      - rewrite (bool_not "masked" Hm). eexists. reflexivity.
      - rewrite get_data_hidden in Eq by apply (i_cubes Hs w). discriminate Eq. }
    destruct X as [t X]. unfold tbind. destruct (get_cube_m w masked (PBool true) s) as [s1 r]. cbn [snd] in *. subst r. cbn [snd].
    eapply heeds_iff; [| |exact F]; unfold getter_checks.
    + split; intros Y; inversion Y; subst; [assumption|]. constructor; [apply bool_passes|exact Y].
    + intros e u. split; intros Y.
      * inversion Y as [? ? ? ? Z|? ? ? ? _ Z]; subst; [destruct (proj2 (bool_passes "masked" true) _ _ Z)|exact Z].
      * apply fe_later; [apply bool_passes|exact Y].
Qed.
Lemma each2_follows A B C (f : A -> B -> A * mres C) (c : A -> B -> list check) : forall l m, (forall a b, In a l -> In b m -> follows (c a b) (snd (f a b))) ->
  follows (flat_map (fun p => c (fst p) (snd p)) (combine l m)) (snd (each2_m f l m)).
Proof.
  induction l as [|a l IH]; intros [|b m] H; try apply follows_ok. cbn [each2_m combine flat_map fst snd].
  assert (F := H a b (or_introl eq_refl) (or_introl eq_refl)). assert (G := IH m (fun x y Hx Hy => H x y (or_intror Hx) (or_intror Hy))).
  destruct (f a b) as [a' r]. destruct (each2_m f l m) as [l' r']. cbn [snd] in *.
  replace (snd match r with MOk c0 => match r' with MOk cs => (a' :: l', MOk (c0 :: cs)) | MErr e t => (a' :: l', MErr e t) end | MErr e t => (a' :: l, MErr e t) end)
    with (mbind r (fun c0 => mbind r' (fun cs => MOk (c0 :: cs)))) by (destruct r; [destruct r'|]; reflexivity).
  apply follows_app; [exact F|]. intros c0 _. unfold follows in *. destruct r'; exact G.
Qed.
Lemma each2_quiet A B C (f : A -> B -> A * mres C) : forall l m, (forall a b, In a l -> heeds [] (snd (f a b))) -> heeds [] (snd (each2_m f l m)).
Proof.
  induction l as [|a l IH]; intros [|b m] H; try apply heeds_ok. cbn [each2_m].
  assert (F := H a b (or_introl eq_refl)). assert (G := IH m (fun x y Hx => H x y (or_intror Hx))).
  destruct (f a b) as [a' [c|e t]]; [|exact F]. destruct (each2_m f l m) as [l' [cs|e t]]; [apply heeds_ok|exact G].
Qed.
Lemma data_quiet (p : gprop T) b : heeds [] (snd (get_data_m p (PBool b))).
Proof. unfold get_data_m. cbn [boolean_m boolean_v saying]. destruct (get_data p (PBool b)) as [q r]. apply heeds_silent. Qed.
Lemma hush_point_gradients y x r m : hush (point_gradients_m y x r (PBool m)).
Proof.
  eapply hush_of; [apply point_gradients_same|apply keeps_point_gradients|]. intros s H. unfold point_gradients_m. destruct (s_grads s) as [gs|]; [|apply heeds_ok]. cbv zeta.
  match goal with |- context [each2_m ?f ?l ?m] => assert (Q := @each2_quiet _ _ _ f l m); destruct (each2_m f l m) as [gs' res] end. cbn [snd] in *.
  apply heeds_tail; [apply Q|intros; apply heeds_ok]. intros g [] _. assert (D := data_quiet (gg_prop g) m). destruct (get_data_m (gg_prop g) (PBool m)) as [p [d|e t]]; cbn [snd] in *; [|exact D].
  apply heeds_tail; [apply heeds_silent|intros; apply heeds_ok].
Qed.
Ltac hushing := repeat first [apply hush_ret | apply hush_lift, heeds_silent | apply (@hush_cube WRadius) | apply (@hush_cube WInclination) | apply (@hush_cube WTilt) | apply (@hush_cube WFx) | apply (@hush_cube WFy)
  | apply hush_dmap | apply hush_fit | apply hush_point_gradients | apply hush_bind; [|intros ?]].
Theorem point_heeds (s : shallot) y x r m : sinv s -> within (s_params s) -> small y -> small x -> small r ->
  heeds (point_checks fmt (s_params s) y x r m) (snd (get_grid_point_data_m fmt y x r m s)).
Proof.
  intros Hs (Wy & Wx & Wr) Sy Sx Sr. unfold get_grid_point_data_m. rewrite shape_of by assumption. unfold point_checks. cbv zeta.
  rewrite lift_snd. apply heeds_bind; [apply number_judges; try tame; cbn; lia|]. intros y' _.
  rewrite lift_snd. apply heeds_bind; [apply number_judges; try tame; cbn; lia|]. intros x' _.
  rewrite lift_snd. apply heeds_bind; [apply number_judges; try tame; cbn; lia|]. intros r' _.
  apply (@ask WRadius); [assumption|]. intros b a ->. hushing.
Qed.
Lemma hush_loop k : hush (extract_loop_m fmt k).
Proof.
  eapply hush_of; [apply loop_same|apply keeps_loop|]. induction k as [|k IH]; intros s H; [apply heeds_ok|]. cbn [extract_loop_m].
  destruct (s_fit s) as [p|] eqn:Hp; [|apply heeds_none]. destruct (nanargmin (p_data p)) as [i|e] eqn:Ei; [|apply heeds_none].
  destruct (i_fit H Hp) as [Hc _]. destruct (cube_shape Hc) as [Hsh _]. destruct (nanargmin_spec _ Ei) as (z & Hz & _).
  assert (Li : i < points s) by (rewrite <- (cube_points H Hc); apply nth_error_Some; congruence).
  assert (Q := spot_place H Li). rewrite Hsh. change (unravel (shape3 (s_params s)) i) with (spot s i). destruct (spot s i) as [[y x] r] eqn:Esp. destruct Q as [R _].
  assert (P := @point_ok T NT LT AL s (PNpInt (Z.of_nat y)) (PNpInt (Z.of_nat x)) (PNpInt (Z.of_nat r)) false y x r H R).
  specialize (P ltac:(constructor) eq_refl ltac:(constructor) eq_refl ltac:(constructor) eq_refl).
  rewrite <- (point_same fmt) in P. apply outs_ok in P. unfold tbind at 1. rewrite P.
  unfold tbind at 1. cbn [fst snd]. set (s1 := with_grads (settled s false) _ _).
  assert (H1 : sinv s1) by exact (proj1 (keeps_drop i (sinv_settled H))).
  unfold tbind. specialize (IH s1 H1). destruct (extract_loop_m fmt k s1) as [s2 [l|e t]]; [apply heeds_ok|exact IH].
Qed.
Theorem extract_heeds (s : shallot) v : sinv s -> (Z.of_nat (open_points s) <= 2 ^ 53)%Z -> osmall v ->
  heeds (extract_checks fmt (open_points s) v) (snd (extract_solutions_m fmt v s)).
Proof.
  intros H Hn Sv. unfold extract_solutions_m. rewrite combined_ok by assumption. cbn [silent mbind]. unfold count_unmasked. rewrite filter_map'.
  change (List.length (filter (fun a => negb (masked_b s a)) (seq 0 (points s)))) with (open_points s). rewrite snd_match.
  generalize dependent (open_points s). intros k Hk.
  apply heeds_bind; [apply number_judges; [destruct v; [exact Sv|]; cbn [dflt small]; lia|tame|cbn [small]; lia|left; constructor|left; constructor]|].
  intros n _. refine (proj2 (@hush_bind _ _ _ _ (@hush_fit true true) _ s H)). intros _. apply hush_loop.
Qed.
Theorem closest_heeds (s : shallot) a b c d m : sinv s -> small a -> small b -> small c -> small d ->
  heeds (closest_checks fmt a b c d m) (snd (determine_closest_m fmt a b c d m s)).
Proof.
  intros H Sa Sb Sc Sd. unfold determine_closest_m, closest_checks. cbv zeta.
  do 4 (rewrite lift_snd; apply heeds_bind; [apply number_judges; tame|]; intros ? _).
  rewrite lift_snd. apply heeds_bind; [apply bool_judge|]. intros b' _.
  match goal with |- heeds [] (snd (?f s)) => assert (K : hush f); [|exact (proj2 (K s H))] end.
  apply hush_bind; [apply (@hush_cube WRadius)|]. intros dr. apply hush_bind; [apply (@hush_cube WInclination)|]. intros inc. apply hush_bind; [apply (@hush_cube WTilt)|]. intros til.
  apply hush_bind; [apply hush_lift, heeds_silent|]. intros k. destruct (unravel (fst dr) k) as [[y x] q]. hushing.
Qed.

(** *** gradients *)
Theorem eclipse_follows (s : shallot) a b c : small a -> small b -> small c ->
  follows (eclipse_checks fmt a b c) (snd (set_eclipse_parameters_m fmt a b c s)).
Proof.
  intros Sa Sb Sc. unfold set_eclipse_parameters_m, eclipse_checks. cbv zeta.
  do 3 (rewrite snd_match; apply follows_bind; [apply number_judges; tame|]; intros ? _).
  match goal with |- context [match ?x with Some _ => _ | None => _ end] => destruct x end; apply follows_ok.
Qed.
Theorem removal_heeds (s : shallot) v : tame_array v -> (forall gs, s_grads s = Some gs -> (Z.of_nat (List.length gs) <= 2 ^ 53)%Z) ->
  heeds (removal_checks fmt str_int s v) (snd (remove_gradients_m fmt v s)).
Proof.
  intros Sv Sg. unfold remove_gradients_m, removal_checks. destruct (s_grads s) as [gs|] eqn:Eg; [|apply heeds_ok]. specialize (Sg gs eq_refl).
  rewrite snd_match. apply heeds_bind.
  - apply array_judges; [cbn; lia|cbn; lia|cbn; left; constructor|cbn; left; constructor|exact Sv].
  - intros w _. destruct (delete_all _ _) as [l [[]|e]]; [apply heeds_ok|apply heeds_none].
Qed.
Lemma flat_combine A B (c : B -> list check) : forall (l : list A) m, List.length m <= List.length l -> flat_map (fun p => c (snd p)) (combine l m) = flat_map c m.
Proof.
  induction l as [|a l IH]; intros [|b m] H; cbn [List.length combine flat_map fst snd] in *; try reflexivity; [lia|]. rewrite IH by lia. reflexivity.
Qed.

Lemma follows_skip (P : Prop) c l A (x : mres A) : ~ P -> follows l x -> follows (guarded P c :: l) x.
Proof. intros H F. apply (@follows_bind (guarded P c) l unit A (MOk tt) (fun _ => x)); [apply guard_off, H|]. intros _ _. exact F. Qed.
Lemma heeds_skip (P : Prop) c l A (x : mres A) : ~ P -> heeds l x -> heeds (guarded P c :: l) x.
Proof. intros H F. apply heeds_pass; [intros X; contradiction|intros e s [X _]; contradiction|exact F]. Qed.
(** an array of ones *)
Lemma ones_array name n (el : list (scal T)) up : up = None \/ up = Some (PInt 1) ->
  let v := ones_like (PArr "float64" [n] el) in
  array_m fmt name v (Some (PFloat n_zero)) up false (Some "float64") (Some 1%Z) = MOk v /\
  array_m fmt name v (Some (PInt 0)) up false (Some "float64") (Some 1%Z) = MOk v.
Proof.
  intros Hu v. assert (K : forall lo, value lo = XFin 0 -> numberlike lo -> small lo -> array_m fmt name v (Some lo) up false (Some "float64") (Some 1%Z) = MOk v).
  { intros lo Vl Nl Sl.
    assert (J : judges (array_check (f4 fmt) str_int name v (Some lo) up false (Some "float64") (Some 1%Z)) (array_m fmt name v (Some lo) up false (Some "float64") (Some 1%Z))).
    { apply array_judges; [exact Sl|destruct Hu as [->| ->]; cbn; [exact I|lia]|exact Nl|destruct Hu as [->| ->]; cbn; [exact I|left; constructor]|].
      unfold v, ones_like. intros d sh e s X Y. injection X as <- <- <-. apply in_map_iff in Y as (? & <- & _). exact I. }
    destruct (proj2 (@judges_ok _ _ _ J)) as [w Hw]; [|rewrite Hw; f_equal; exact (@array_valued T NT fmt _ _ _ _ _ _ _ _ Hw)].
    unfold v, ones_like. do 3 eexists. split; [reflexivity|]. split; [|split; [intros ? X; injection X as <-; reflexivity|intros ? X; injection X as <-; reflexivity]].
    right. cbn [eff_lo]. rewrite Vl. split.
    - destruct Hu as [->| ->]; cbn [eff_up value xlt]; [tauto|]. apply RIneq.Rle_not_lt. apply IZR_le. lia.
    - intros s Y. apply in_map_iff in Y as (? & <- & _). cbn [svalue]. rewrite val_one. split.
      + cbn [xlt]. apply RIneq.Rle_not_lt. apply IZR_le. lia.
      + destruct Hu as [->| ->]; cbn [eff_up value xlt]; [tauto|]. apply Rlt_irrefl. }
  split; apply K; try (cbn; exact I); try (right; constructor); try (left; constructor); try reflexivity; [apply val_zero|cbn; lia].
Qed.
Lemma orbital_small (s : shallot) o : determine_orbital_scale E s = Ok o -> small o.
Proof.
  unfold determine_orbital_scale. destruct (s_limb s) as [u|]; [|discriminate]. destruct (s_vel s) as [v|]; [|discriminate].
  destruct (_ && _); [|discriminate]. cbv zeta. destruct (_ && _); [discriminate|]. destruct (_ && _); [discriminate|].
  intros H. assert (o = if own_number u && own_number v then PFloat (orbital_scale_of (e_libm E) (num_of u) (num_of v)) else PNpFloat (orbital_scale_of (e_libm E) (num_of u) (num_of v))) as -> by congruence.
  destruct (_ && _); exact I.
Qed.
Lemma combine_map_l A B C (f : A -> B) : forall (l : list A) (m : list C), combine (map f l) m = map (fun p => (f (fst p), snd p)) (combine l m).
Proof. induction l as [|a l IH]; intros [|b m]; cbn; [reflexivity|reflexivity|reflexivity|]. rewrite IH. reflexivity. Qed.
Lemma flat_map_map A B C (f : A -> B) (g : B -> list C) l : flat_map g (map f l) = flat_map (fun a => g (f a)) l.
Proof. induction l as [|a l IH]; [reflexivity|]. cbn. rewrite IH. reflexivity. Qed.
Lemma measured_heeds (s : shallot) n el e tr : (forall v, e = Some v -> tame_array v) -> (forall v, tr = Some v -> tame_array v) ->
  List.length el <= List.length (dflt [] (s_grads s)) ->
  let lcg := PArr "float64" [n] el in
  heeds ([guarded (e <> None) (array_check (f4 fmt) str_int "light_curve_gradient_errors" (or_else lcg e) (Some (PFloat n_zero)) None false (Some "float64") (Some 1%Z));
    guarded (tr <> None) (array_check (f4 fmt) str_int "transmission_changes" (or_else lcg tr) (Some (PInt 0)) (Some (PInt 1)) false (Some "float64") (Some 1%Z));
    shapes_check str_tuple [lcg; or_else lcg e; or_else lcg tr] ["light_curve_gradients"; "light_curve_gradient_errors"; "transmission_changes"]] ++
    each_measure fmt (determine_orbital_scale E s)
     (map (fun v => (PNpFloat (n_abs (fst v)), Some (PNpFloat (snd (snd v))), Some (PNpFloat (fst (snd v)))))
        (combine (elems_of lcg) (combine (entries e (elems_of lcg)) (entries tr (elems_of lcg))))))
   (snd (set_measured_m E fmt lcg e tr s)).
Proof.
  intros Se St Hl lcg. unfold set_measured_m. rewrite snd_match.
  destruct (@ones_array "light_curve_gradient_errors" n el None (or_introl eq_refl)) as [O1 _]. destruct (@ones_array "transmission_changes" n el (Some (PInt 1)) (or_intror eq_refl)) as [_ O2]. fold lcg in O1, O2. cbv zeta in O1, O2.
  set (er := dflt (ones_like lcg) e). set (tm := dflt (ones_like lcg) tr).
  assert (Je : judges (guarded (e <> None) (array_check (f4 fmt) str_int "light_curve_gradient_errors" (or_else lcg e) (Some (PFloat n_zero)) None false (Some "float64") (Some 1%Z)))
    (array_m fmt "light_curve_gradient_errors" er (Some (PFloat n_zero)) None false (Some "float64") (Some 1%Z))).
  { unfold er. destruct e as [v|]; cbn [dflt or_else]; [|rewrite O1; apply guard_off; intros X; apply X; reflexivity].
    apply guard_on; [discriminate|]. apply array_judges; [exact I|exact I|cbn; right; constructor|exact I|exact (Se v eq_refl)]. }
  assert (Jt : judges (guarded (tr <> None) (array_check (f4 fmt) str_int "transmission_changes" (or_else lcg tr) (Some (PInt 0)) (Some (PInt 1)) false (Some "float64") (Some 1%Z)))
    (array_m fmt "transmission_changes" tm (Some (PInt 0)) (Some (PInt 1)) false (Some "float64") (Some 1%Z))).
  { unfold tm. destruct tr as [v|]; cbn [dflt or_else]; [|rewrite O2; apply guard_off; intros X; apply X; reflexivity].
    apply guard_on; [discriminate|]. apply array_judges; [cbn; lia|cbn; lia|cbn; left; constructor|cbn; left; constructor|exact (St v eq_refl)]. }
  match goal with |- heeds _ (mbind ?x ?f) => replace (mbind x f) with
    (mbind (let! er := array_m fmt "light_curve_gradient_errors" er (Some (PFloat n_zero)) None false (Some "float64") (Some 1%Z) in
            let! tm := array_m fmt "transmission_changes" tm (Some (PInt 0)) (Some (PInt 1)) false (Some "float64") (Some 1%Z) in
            let! _ := same_shape_m [lcg; er; tm] ["light_curve_gradients"; "light_curve_gradient_errors"; "transmission_changes"] in MOk (er, tm))
       (fun p => mbind (let! o := silent (determine_orbital_scale E s) in MOk (o, combine (map n_abs (elems_of lcg)) (combine (elems_of (fst p)) (elems_of (snd p))))) f)) end.
  2:{ destruct (array_m fmt "light_curve_gradient_errors" er _ _ _ _ _) as [er'|]; [|reflexivity]. cbn [mbind].
      destruct (array_m fmt "transmission_changes" tm _ _ _ _ _) as [tm'|]; [|reflexivity]. cbn [mbind].
      destruct (same_shape_m [lcg; er'; tm'] _); reflexivity. }
  apply follows_heeds.
  - apply follows_bind; [exact Je|]. intros er' He. apply follows_bind; [exact Jt|]. intros tm' Ht. apply follows_bind; [|intros _ _; apply follows_ok].
    assert (Pe : exists d sh l, er' = PArr d sh l).
    { unfold er in *. destruct e as [v|]; cbn [dflt or_else] in *; [|rewrite O1 in He; injection He as <-; do 3 eexists; reflexivity].
      pose proof (proj1 (@judges_ok _ _ _ Je) (ex_intro _ er' He) ltac:(discriminate)) as P. apply array_valued in He. subst er'. exact (passes_array P). }
    assert (Pt : exists d sh l, tm' = PArr d sh l).
    { unfold tm in *. destruct tr as [v|]; cbn [dflt or_else] in *; [|rewrite O2 in Ht; injection Ht as <-; do 3 eexists; reflexivity].
      pose proof (proj1 (@judges_ok _ _ _ Jt) (ex_intro _ tm' Ht) ltac:(discriminate)) as P. apply array_valued in Ht. subst tm'. exact (passes_array P). }
    apply array_valued in He. apply array_valued in Ht.
    eapply shapes_only; [|apply shapes_judge; [cbn; lia|reflexivity|intros w [<-|[<-|[<-|[]]]]; [do 3 eexists; reflexivity|exact Pe|exact Pt]]].
    subst er' tm'. unfold er, tm. destruct e, tr; reflexivity.
  - intros [er' tm'] Hp.
    assert (Q : er' = er /\ tm' = tm).
    { destruct (array_m fmt "light_curve_gradient_errors" er _ _ _ _ _) as [a|] eqn:Ea; [|discriminate Hp]. apply array_valued in Ea. subst a. cbn [mbind] in Hp.
      destruct (array_m fmt "transmission_changes" tm _ _ _ _ _) as [b|] eqn:Eb; [|discriminate Hp]. apply array_valued in Eb. subst b. cbn [mbind] in Hp.
      destruct (same_shape_m _ _); [|discriminate Hp]. cbn [mbind] in Hp. split; congruence. }
    destruct Q as [-> ->]. clear Hp. cbn [fst snd].
    destruct (determine_orbital_scale E s) as [o|x] eqn:Eo; cbn [silent mbind each_measure]; [|apply heeds_none].
    apply heeds_follows. rewrite flat_map_map. cbn [fst snd].
    assert (Ee : entries e (elems_of lcg) = elems_of er).
    { unfold er, entries. destruct e; [reflexivity|]. cbn [dflt lcg elems_of ones_like]. rewrite !map_map. apply map_ext. intros a. reflexivity. }
    assert (Et : entries tr (elems_of lcg) = elems_of tm).
    { unfold tm, entries. destruct tr; [reflexivity|]. cbn [dflt lcg elems_of ones_like]. rewrite !map_map. apply map_ext. intros a. reflexivity. }
    rewrite Ee, Et. set (vs := combine (elems_of er) (elems_of tm)).
    set (cm := fun v : T * (T * T) => measure_checks fmt (PNpFloat (fst v)) o (Some (PNpFloat (snd (snd v)))) (Some (PNpFloat (fst (snd v))))).
    match goal with |- context [each2_m ?f ?l ?m] => assert (F := @each2_follows _ _ _ f (fun _ v => cm v) l m) end. cbv beta in F.
    rewrite (@flat_combine _ _ cm) in F.
    2:{ rewrite combine_length, map_length, skipn_length.
        assert (List.length (elems_of lcg) = List.length el) as -> by (unfold lcg, elems_of; now rewrite map_length). lia. }
    rewrite combine_map_l, flat_map_map in F. cbn [fst snd] in F.
    rewrite combine_map_l. 
    destruct (each2_m _ _ _) as [new r]. cbn [snd] in *. 
    assert (G : follows (flat_map (fun a => measure_checks fmt (PNpFloat (n_abs (fst a))) o (Some (PNpFloat (snd (snd a)))) (Some (PNpFloat (fst (snd a))))) (combine (elems_of lcg) vs)) r).
    { apply F. intros g v _ _. apply measure_follows_np; try exact I; [exact (orbital_small _ Eo)|right; eexists; reflexivity]. }
    unfold follows in *. destruct r; exact G.
Qed.
Theorem addition_heeds (s : shallot) t l e tr : ready s -> arr_wf t -> arr_wf l -> tame_array l ->
  (forall v, e = Some v -> tame_array v) -> (forall v, tr = Some v -> tame_array v) ->
  heeds (addition_checks E fmt str_int str_tuple s t l e tr) (snd (add_gradients_m E fmt t l e tr s)).
Proof.
  intros (R1 & R2 & R3) Wt Wl Tl Te Ttr. unfold add_gradients_m, addition_checks.
  destruct (s_limb s) as [u|]; [|contradiction R1; reflexivity]. destruct (s_ecl s) as [ecl|]; [|contradiction R2; reflexivity]. destruct (s_vel s) as [v|]; [|contradiction R3; reflexivity].
  rewrite snd_match.
  set (c1 := array_check _ _ "times" _ _ _ _ _ _). set (c2 := array_check _ _ "light_curve_gradients" _ _ _ _ _ _). set (c3 := shapes_check _ [t; l] _).
  assert (J1 : judges c1 (array_m fmt "times" t None None false (Some "float64") (Some 1%Z))) by apply data_judge.
  assert (J2 : judges c2 (array_m fmt "light_curve_gradients" l (Some (PFloat n_zero)) None false (Some "float64") (Some 1%Z))).
  { apply array_judges; [exact I|exact I|cbn; right; constructor|exact I|exact Tl]. }
  cbn [app].
  match goal with |- heeds (?a :: ?b :: ?c :: ?r) _ => change (a :: b :: c :: r) with ([a; b; c] ++ r) end.
  assert (F : follows [c1; c2; c3] (let! t0 := array_m fmt "times" t None None false (Some "float64") (Some 1%Z) in
     let! l0 := array_m fmt "light_curve_gradients" l (Some (PFloat n_zero)) None false (Some "float64") (Some 1%Z) in
     let! _ := same_shape_m [t0; l0] ["times"; "light_curve_gradients"] in MOk (t0, l0))).
  { apply follows_bind; [exact J1|]. intros a Ha. apply follows_bind; [exact J2|]. intros b Hb.
    pose proof (passes_array (proj1 (@judges_ok _ _ _ J1) (ex_intro _ a Ha))) as P1. pose proof (passes_array (proj1 (@judges_ok _ _ _ J2) (ex_intro _ b Hb))) as P2.
    apply array_valued in Ha. apply array_valued in Hb. subst a b. apply follows_bind; [|intros _ _; apply follows_ok].
    apply shapes_judge; [cbn; lia|reflexivity|intros w [<-|[<-|[]]]; assumption]. }
  apply follows_heeds; [exact F|]. intros [a b] Hp.
  pose proof (proj1 (@judges_ok _ _ _ F) (ex_intro _ _ Hp)) as P. cbn [in_turn passes] in P. inversion P as [|? ? P1 P']; subst. inversion P' as [|? ? P2 P'']; subst. inversion P'' as [|? ? P3 _]; subst.
  assert (Q : a = t /\ b = l).
  { destruct (array_m fmt "times" t _ _ _ _ _) as [x|] eqn:Ea; [|discriminate Hp]. apply array_valued in Ea. subst x. cbn [mbind] in Hp.
    destruct (array_m fmt "light_curve_gradients" l _ _ _ _ _) as [x|] eqn:Eb; [|discriminate Hp]. apply array_valued in Eb. subst x. cbn [mbind] in Hp.
    destruct (same_shape_m _ _); [|discriminate Hp]. cbn [mbind] in Hp. split; congruence. }
  destruct Q as [-> ->]. clear Hp F J1 J2 P P' P''. subst c1 c2 c3. cbn [array_check shapes_check passes] in P1, P2, P3.
  destruct P1 as (d1 & sh1 & el1 & -> & _). destruct P2 as (d2 & sh2 & el2 & -> & _ & D2 & Y2).
  assert (Hd : d2 = "float64") by exact (Y2 _ eq_refl). subst d2.
  assert (Hn : exists n, sh2 = [n]). { specialize (D2 _ eq_refl). destruct sh2 as [|n [|? ?]]; cbn in D2; try lia. exists n. reflexivity. }
  destruct Hn as [n ->]. destruct P3 as [sh P3]. assert (S1 := P3 _ (or_introl eq_refl)). assert (S2 := P3 _ (or_intror (or_introl eq_refl))). cbn [Py.shape_of] in S1, S2.
  injection S1 as ->. injection S2 as <-. cbn [arr_wf] in Wt, Wl.
  assert (K := @disk_gradients_ok T NT LT E (map (fun x => n_div (n_neg x) (num_of ecl)) (elems_of (PArr d1 [n] el1))) s).
  rewrite <- (disk_same E fmt) in K. apply outs_ok in K. unfold tbind at 1. rewrite K.
  set (s1 := with_grads s _ _).
  assert (M := @measured_heeds s1 n el2 e tr Te Ttr). cbv zeta in M. unfold tbind.
  assert (M' : heeds ([guarded (e <> None) (array_check (f4 fmt) str_int "light_curve_gradient_errors" (or_else (PArr "float64" [n] el2) e) (Some (PFloat n_zero)) None false (Some "float64") (Some 1%Z));
    guarded (tr <> None) (array_check (f4 fmt) str_int "transmission_changes" (or_else (PArr "float64" [n] el2) tr) (Some (PInt 0)) (Some (PInt 1)) false (Some "float64") (Some 1%Z));
    shapes_check str_tuple [PArr "float64" [n] el2; or_else (PArr "float64" [n] el2) e; or_else (PArr "float64" [n] el2) tr] ["light_curve_gradients"; "light_curve_gradient_errors"; "transmission_changes"]] ++
    each_measure fmt (determine_orbital_scale E s)
     (map (fun v => (PNpFloat (n_abs (fst v)), Some (PNpFloat (snd (snd v))), Some (PNpFloat (fst (snd v)))))
        (combine (elems_of (PArr "float64" [n] el2)) (combine (entries e (elems_of (PArr "float64" [n] el2))) (entries tr (elems_of (PArr "float64" [n] el2)))))))
   (snd (set_measured_m E fmt (PArr "float64" [n] el2) e tr s1))).
  { apply M. unfold s1. cbn [with_grads s_grads dflt]. rewrite app_length, map_length, map_length. unfold elems_of. rewrite map_length. destruct Wt as [Wt _]. destruct Wl as [Wl _]. lia. }
  destruct (set_measured_m E fmt (PArr "float64" [n] el2) e tr s1) as [s2 [[]|x y]]; exact M'.
Qed.
End O.
