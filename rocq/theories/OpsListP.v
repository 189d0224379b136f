(** Reading the list of gradients, a failed add_gradients, and rescaling. *)
From Coq Require Import ZArith Reals List Bool String Lia Lra.
From Verif Require Import Num NumP Py SpecNum Validate ValidateP Ring RingP RingSystem FS GridParams SpecGrid GridDiag Names GridProp SpecProp GridPropP GridGradP Geometry
  Build SpecBuild BuildCP Shallot AddLaws ShallotOps SpecOps OpsP OpsReadP OpsEditP OpsFitP OpsPointP.
Import ListNotations.
Set Implicit Arguments.
Local Open Scope list_scope.

Section O.
Context {T : Type} {NT : Num T} {LT : NumLaws T} {AL : AddLaws T} (E : env T).
Notation pyval := (pyval T).
Notation shallot := (shallot T).

(** *** get_gradients *)
Definition out (s : shallot) (m b : bool) (g : ggrad T) : T * T * T * list T :=
  (num_of (gg_pos g), match scaled_gradient g with Ok o => dflt n_nan o | Err _ => n_nan end, num_of (dflt PNone (gg_err g)), hidden (p_data (gg_prop g)) (hid s (gg_prop g) m b)).
Definition fine (g : ggrad T) : Prop := exists o, scaled_gradient g = Ok o.
Lemma combined_if (s : shallot) (m : bool) : sinv s ->
  (let* b := boolean_v (PBool m : pyval) in if b then combined_mask s else Ok (repeat false (volume (shape3 (s_params s))))) = Ok (map (fun i => m && masked_b s i) (seq 0 (points s))).
Proof.
  intros H. cbn [boolean_v bind]. destruct m; [now rewrite combined_ok|]. cbn [andb]. rewrite points_volume by auto. f_equal. generalize (points s). intros n. generalize 0.
  induction n; intros k; cbn; [reflexivity|]. now rewrite <- (IHn (S k)).
Qed.
Definition reader (s : shallot) (m b : bool) (g : ggrad T) (_ : unit) : ggrad T * res (T * T * T * list T) :=
  match scaled_gradient g with
  | Err e => (g, Err e)
  | Ok sc =>
    match get_data (gg_prop g) (PBool b) with
    | (p, Err x) => (with_prop g p, Err x)
    | (p, Ok d) => (with_prop g p, Ok (num_of (gg_pos g), dflt n_nan sc, num_of (dflt PNone (gg_err g)), erase (snd d) (map (fun i => m && masked_b s i) (seq 0 (points s)))))
    end
  end.
Lemma gradients_read (s : shallot) gs m b : sinv s -> s_grads s = Some gs ->
  get_gradients (PBool m) (PBool b) s = let '(gs', r) := each2 (reader s m b) gs (repeat tt (List.length gs)) in (with_grads s (Some gs') (s_fit s), r).
Proof. intros H Hg. unfold get_gradients. rewrite Hg, combined_if by auto. reflexivity. Qed.
Lemma reader_ok (s : shallot) m b g : sinv s -> cube_inv (s_params s) (gg_prop g) -> fine g -> reader s m b g tt = (rdg b g, Ok (out s m b g)).
Proof.
  intros H Hg [o Ho]. unfold reader, out. rewrite Ho, get_data_hidden by apply Hg. cbn [snd]. f_equal. f_equal. f_equal.
  assert (L : List.length (hidden (p_data (gg_prop g)) (fun i => b && marked (p_mask (gg_prop g)) i)) = points s) by (rewrite hidden_length; now apply cube_points).
  rewrite <- L, erase_hidden, hidden_hidden. reflexivity.
Qed.
Lemma reader_err (s : shallot) m b g e : scaled_gradient g = Err e -> reader s m b g tt = (g, Err e).
Proof. intros H. unfold reader. now rewrite H. Qed.
Lemma fine_dec (g : ggrad T) : fine g \/ exists e, scaled_gradient g = Err e.
Proof. unfold fine. destruct (scaled_gradient g); eauto. Qed.

Lemma read_all (s : shallot) m b gs : sinv s -> Forall (fun g => cube_inv (s_params s) (gg_prop g)) gs -> Forall fine gs ->
  each2 (reader s m b) gs (repeat tt (List.length gs)) = (map (rdg b) gs, Ok (map (out s m b) gs)).
Proof.
  intros H Hi Hf. induction gs as [|g gs IH]; [reflexivity|]. inversion Hi; subst. inversion Hf; subst. cbn [List.length repeat each2 map]. rewrite reader_ok by auto. rewrite IH; auto.
Qed.
Lemma read_stops (s : shallot) m b pre g post e : sinv s -> Forall (fun g => cube_inv (s_params s) (gg_prop g)) pre -> Forall fine pre -> scaled_gradient g = Err e ->
  each2 (reader s m b) (pre ++ g :: post) (repeat tt (List.length (pre ++ g :: post))) = (map (rdg b) pre ++ g :: post, Err e).
Proof.
  intros H Hi Hf He. induction pre as [|a pre IH]; cbn [app List.length repeat each2 map]; [now rewrite reader_err with (e := e)|].
  inversion Hi; subst. inversion Hf; subst. rewrite reader_ok by auto. rewrite IH; auto.
Qed.
Lemma first_bad (gs : list (ggrad T)) : Forall fine gs \/ exists pre g post e, gs = pre ++ g :: post /\ Forall fine pre /\ scaled_gradient g = Err e.
Proof.
  induction gs as [|g gs IH]; [left; constructor|]. destruct (fine_dec g) as [F|[e He]].
  - destruct IH as [IH|(pre & a & post & e & -> & Hp & He)]; [left; constructor; auto|]. right. exists (g :: pre), a, post, e. split; [reflexivity|]. split; auto.
  - right. exists [], g, gs, e. auto.
Qed.

Theorem list_read (s s' : shallot) gs m b l : sreach E s -> s_grads s = Some gs -> get_gradients (PBool m) (PBool b) s = (s', Ok l) ->
  Forall2 (listed s m b) gs l /\ exists gs', s' = with_grads s (Some gs') (s_fit s) /\ Forall2 (once_read b) gs gs'.
Proof.
  intros Hr Hg HH. assert (H := reached_sinv Hr). rewrite (gradients_read m b H Hg) in HH. assert (Hi := i_grads H Hg).
  destruct (first_bad gs) as [Hf|(pre & g & post & e & -> & Hp & He)].
  2:{ apply Forall_app in Hi as [Hi _]. rewrite (read_stops m b g post H Hi Hp He) in HH. discriminate. }
  rewrite (read_all m b H Hi Hf) in HH. apply pair_equal_spec in HH as [<- HH]. injection HH as <-. split.
  - clear Hg. induction Hi as [|g gs Hc Hi IH]; [constructor|]. inversion Hf; subst. cbn [map]. constructor; [|auto].
    unfold listed, out. split; [reflexivity|]. split; [destruct H2 as [o ->]; exists o; auto|]. split; [destruct (gg_err g); reflexivity|].
    split; [rewrite hidden_length; now apply cube_points|]. intros i x Hx. rewrite (hidden_nth _ _ _ Hx). unfold hid. split.
    + intros K. replace (b && marked (p_mask (gg_prop g)) i || m && masked_b s i) with true; auto. symmetry. apply orb_true_iff. rewrite !andb_true_iff.
      destruct K as [[-> K]|[-> K]]; [left; auto|right; split; auto]. now apply masked_at_dec.
    + intros K1 K2. destruct (b && marked (p_mask (gg_prop g)) i) eqn:B; [apply andb_prop in B; tauto|]. destruct (m && masked_b s i) eqn:B2; [|reflexivity].
      apply andb_prop in B2 as [-> B2]. apply masked_at_dec in B2. tauto.
  - exists (map (rdg b) gs). split; [reflexivity|]. clear Hi Hf Hg. induction gs as [|g gs IH]; cbn [map]; constructor; auto.
    unfold once_read, rdg. split; [reflexivity|]. cbn [with_prop with_data gg_prop p_data]. rewrite hidden_length. split; auto. intros i x Hx. rewrite (hidden_nth _ _ _ Hx). destruct b; reflexivity.
Qed.
Theorem list_returns (s : shallot) gs m b : sreach E s -> s_grads s = Some gs ->
  (exists s' l, get_gradients (PBool m) (PBool b) s = (s', Ok l)) <-> forall g, In g gs -> exists o, scaled_gradient g = Ok o.
Proof.
  intros Hr Hg. assert (H := reached_sinv Hr). assert (Hi := i_grads H Hg). rewrite (gradients_read m b H Hg).
  destruct (first_bad gs) as [Hf|(pre & g & post & e & -> & Hp & He)].
  - rewrite (read_all m b H Hi Hf). rewrite Forall_forall in Hf. split; [intros _; exact Hf|]. intros _. eauto.
  - apply Forall_app in Hi as [Hi _]. rewrite (read_stops m b g post H Hi Hp He). split.
    + intros (s' & l & X). discriminate.
    + intros X. destruct (X g) as [o Ho]; [apply in_app_iff; right; left; reflexivity|congruence].
Qed.
Theorem list_raises (s s' : shallot) gs m b e : sreach E s -> s_grads s = Some gs -> get_gradients (PBool m) (PBool b) s = (s', Err e) ->
  exists pre g post, gs = pre ++ g :: post /\ scaled_gradient g = Err e /\ exists pre', s' = with_grads s (Some (pre' ++ g :: post)) (s_fit s) /\ Forall2 (once_read b) pre pre'.
Proof.
  intros Hr Hg HH. assert (H := reached_sinv Hr). assert (Hi := i_grads H Hg). rewrite (gradients_read m b H Hg) in HH.
  destruct (first_bad gs) as [Hf|(pre & g & post & e' & -> & Hp & He)].
  - rewrite (read_all m b H Hi Hf) in HH. discriminate.
  - apply Forall_app in Hi as [Hi _]. rewrite (read_stops m b g post H Hi Hp He) in HH. apply pair_equal_spec in HH as [<- HH]. injection HH as <-.
    exists pre, g, post. split; [reflexivity|]. split; [exact He|]. exists (map (rdg b) pre). split; [reflexivity|]. clear. induction pre as [|g pre IH]; cbn [map]; constructor; auto.
    unfold once_read, rdg. split; [reflexivity|]. cbn [with_prop with_data gg_prop p_data]. rewrite hidden_length. split; auto. intros i x Hx. rewrite (hidden_nth _ _ _ Hx). destruct b; reflexivity.
Qed.
Theorem list_none (s : shallot) m b : s_grads s = None -> get_gradients m b s = (s, Err TypeError).
Proof. intros H. unfold get_gradients. now rewrite H. Qed.

(** *** a failed add_gradients *)
Lemma each2_err A B C (f : A -> B -> A * res C) l : forall m l' e, each2 f l m = (l', Err e) ->
  List.length l' = List.length l /\ exists j a b a', nth_error l j = Some a /\ nth_error m j = Some b /\ f a b = (a', Err e) /\ nth_error l' j = Some a' /\
    (forall k, j < k -> nth_error l' k = nth_error l k) /\
    (forall k, k < j -> exists x y x' c, nth_error l k = Some x /\ nth_error m k = Some y /\ f x y = (x', Ok c) /\ nth_error l' k = Some x').
Proof.
  induction l as [|a l IH]; intros [|b m] l' e H; cbn [each2] in H; try discriminate.
  destruct (f a b) as [a' [c|x]] eqn:Ef.
  - destruct (each2 f l m) as [l1 [cs|x]] eqn:E1; [discriminate|]. injection H as <- ->. destruct (IH m l1 e E1) as (L & j & a1 & b1 & a1' & H1 & H2 & H3 & H4 & H5 & H6).
    split; [cbn; congruence|]. exists (S j), a1, b1, a1'. repeat (split; [assumption|]). split.
    + intros [|k] Hk; [lia|]. cbn. apply H5. lia.
    + intros [|k] Hk; cbn; [exists a, b, a', c; auto|]. apply H6. lia.
  - injection H as <- ->. split; [reflexivity|]. exists 0, a, b, a'. repeat (split; [reflexivity || assumption|]). split; [|intros k Hk; lia]. intros [|k] Hk; [lia|reflexivity].
Qed.

Definition no_scale (g : ggrad T) : Prop := forall y, scaled_gradient g <> Ok (Some y).
Lemma no_fit w (d : list T) g : no_scale g -> exists e, fit_term w d g = Err e.
Proof.
  intros H. unfold fit_term. destruct (if w then _ else _); cbn [bind]; [|eauto]. destruct (scaled_gradient g) as [[y|]|] eqn:Es; cbn [bind]; eauto. destruct (H y Es).
Qed.
Lemma no_fits w gs g : In g gs -> no_scale g -> forall d : list T, exists e, fold_res (fit_term w) gs d = Err e.
Proof.
  induction gs as [|a gs IH]; intros Hi Hn d; [destruct Hi|]. cbn [fold_res]. destruct (fit_term w d a) as [d'|e] eqn:Ea; cbn [bind]; [|eauto].
  destruct Hi as [<-|Hi]; [|now apply IH]. destruct (no_fit w d Hn). congruence.
Qed.
Lemma fit_refused (s : shallot) gs g w : s_grads s = Some gs -> In g gs -> no_scale g -> exists e, determine_gradient_fit w s = (s, Err e).
Proof. intros Hg Hi Hn. unfold determine_gradient_fit. rewrite Hg. cbn zeta. destruct (no_fits w gs Hi Hn (repeat n_zero (volume (shape3 (s_params s))))) as [e ->]. cbn [bind]. eauto. Qed.

Lemma blank_bare (s : shallot) p : bare E s p (blank_gradient E s p).
Proof. unfold bare. repeat split. cbn [blank_gradient gg_prop fresh with_colors with_limits p_data]. rewrite map_map. apply map_id. Qed.
Lemma determine_bad (g g' : ggrad T) m o t er x : gg_trans g = None -> gg_meas g = None -> small er -> numberlike er -> ~ xlt (value er) (XFin 0) ->
  determine_mask g m o t (Some er) = (g', Err x) -> no_scale g'.
Proof.
  intros Ht Hm Hs Hn Hv. unfold determine_mask.
  destruct (number m _ _ _ _) as [m'|]; [|intros X; injection X as <- _; intros y; unfold scaled_gradient; rewrite Hm; discriminate].
  destruct (number o _ _ _ _) as [o'|]; [|intros X; injection X as <- _; intros y; unfold scaled_gradient; cbn [gg_meas gg_trans]; rewrite Ht; discriminate].
  destruct (number (dflt _ t) _ _ _ _) as [t'|]; [|intros X; injection X as <- _; intros y; unfold scaled_gradient; cbn [gg_meas gg_trans]; rewrite Ht; discriminate].
  cbn [dflt]. rewrite (proj2 (number_ge0f er er Hs)) by auto. destruct (scaled_gradient _) as [[y|]|] eqn:Es; [discriminate| |]; intros X; apply pair_equal_spec in X as [<- _]; intros z; rewrite Es; discriminate.
Qed.
Lemma array1_ge0 (l : list T) w : array (farr l) (Some (PFloat n_zero)) None false (Some "float64"%string) (Some 1%Z) = Ok w -> Forall (fun x => ~ xlt (val x) (XFin 0)) l.
Proof.
  intros H. assert (A := array_ok_iff "float64" [List.length l] (map (@SF T) l) (Some (PFloat n_zero)) None false (Some "float64"%string) (Some 1%Z)).
  fold (farr l) in A. rewrite H in A. destruct (proj1 (A I I ltac:(right; constructor) I ltac:(intros x Hx; apply in_map_iff in Hx as (y & <- & _); exact I)) eq_refl) as [[[? _]|[_ B]] _]; [discriminate|].
  apply Forall_forall. intros x Hx. specialize (B (SF x) (in_map _ _ _ Hx)). unfold respects in B. cbn in B. rewrite val_zero in B. apply B.
Qed.
Lemma combine_nth A B (a : list A) : forall (b : list B) k x y, nth_error a k = Some x -> nth_error b k = Some y -> nth_error (combine a b) k = Some (x, y).
Proof. induction a as [|a0 a IH]; intros [|b0 b] [|k'] x' y' X Y; cbn in *; try discriminate; auto. congruence. Qed.
Lemma combine_nth_inv A B (a : list A) : forall (b : list B) k z, nth_error (combine a b) k = Some z -> nth_error a k = Some (fst z) /\ nth_error b k = Some (snd z).
Proof. induction a as [|a0 a IH]; intros [|b0 b] [|k'] z X; cbn in *; try discriminate; auto. injection X as <-. auto. Qed.

Theorem add_fails (s s' : shallot) t l e tr x : arr_wf t -> arr_wf l -> o_wf e -> o_wf tr -> add_gradients E t l e tr s = (s', Err x) ->
  s' = s \/
  exists ts d new j, t = farr ts /\ s_ecl s = Some d /\ s' = with_grads s (Some (dflt [] (s_grads s) ++ new)) (s_fit s) /\ List.length new = List.length ts /\
    (forall k time, nth_error ts k = Some time -> exists g, nth_error new k = Some g /\ gg_pos g = PNpFloat (n_div (n_neg time) (num_of d)) /\
       p_data (gg_prop g) = gradient_values E s (n_div (n_neg time) (num_of d)) /\
       (k < j -> p_mask (gg_prop g) <> None /\ exists y, scaled_gradient g = Ok (Some y)) /\
       (j <= k -> p_mask (gg_prop g) = None) /\
       (k = j -> forall y, scaled_gradient g <> Ok (Some y)) /\
       (j < k -> bare E s (n_div (n_neg time) (num_of d)) g)) /\
    (ts <> [] -> j < List.length ts).
Proof.
  intros Wt Wl We Wtr. unfold add_gradients. destruct (s_limb s) as [u|]; [|discriminate]. destruct (s_ecl s) as [d|] eqn:Ed; [|discriminate]. destruct (s_vel s) as [v|]; [|discriminate].
  destruct (array t _ _ _ _ _) as [t'|] eqn:At; cbn [bind]; [|intros X; injection X as <- _; auto]. destruct (array1_ok _ _ _ Wt At) as (-> & ts & ->).
  destruct (array l _ _ _ _ _) as [l'|] eqn:Al; cbn [bind]; [|intros X; injection X as <- _; auto]. destruct (array1_ok _ _ _ Wl Al) as (-> & ls & ->).
  destruct (same_shape_arrays _ _) as [z|] eqn:Ss; cbn [bind]; [|intros X; injection X as <- _; auto]. apply same_farr2 in Ss.
  unfold mbind at 1. rewrite disk_gradients_ok, !elems_farr. set (ps := map (fun x => n_div (n_neg x) (num_of d)) ts).
  set (s1 := with_grads s (Some (dflt [] (s_grads s) ++ map (blank_gradient E s) ps)) (s_fit s)).
  intros HH. right. exists ts, d.
  assert (Pk : forall k time, nth_error ts k = Some time -> nth_error (map (blank_gradient E s) ps) k = Some (blank_gradient E s (n_div (n_neg time) (num_of d)))) by (intros k time Hk; unfold ps; rewrite !nth_error_map, Hk; reflexivity).
  assert (Early : s' = s1 -> exists new j, farr ts = farr ts /\ Some d = Some d /\ s' = with_grads s (Some (dflt [] (s_grads s) ++ new)) (s_fit s) /\ List.length new = List.length ts /\
    (forall k time, nth_error ts k = Some time -> exists g, nth_error new k = Some g /\ gg_pos g = PNpFloat (n_div (n_neg time) (num_of d)) /\
       p_data (gg_prop g) = gradient_values E s (n_div (n_neg time) (num_of d)) /\
       (k < j -> p_mask (gg_prop g) <> None /\ exists y, scaled_gradient g = Ok (Some y)) /\
       (j <= k -> p_mask (gg_prop g) = None) /\
       (k = j -> forall y, scaled_gradient g <> Ok (Some y)) /\
       (j < k -> bare E s (n_div (n_neg time) (num_of d)) g)) /\
    (ts <> [] -> j < List.length ts)).
  { intros ->. exists (map (blank_gradient E s) ps), 0. repeat (split; [reflexivity|]). split; [unfold ps; now rewrite !map_length|]. split.
    - intros k time Hk. exists (blank_gradient E s (n_div (n_neg time) (num_of d))). split; [exact (Pk k time Hk)|]. destruct (blank_bare s (n_div (n_neg time) (num_of d))) as (B1 & B2 & B3 & B4). split; [exact B1|]. split; [exact B2|].
      split; [lia|]. split; [auto|]. split; [intros _ y; unfold scaled_gradient; rewrite (proj1 B4); discriminate|]. intros _. apply blank_bare.
    - intros Ht. destruct ts; [congruence|cbn; lia]. }
  revert HH. unfold mbind, set_measured.
  assert (We' : arr_wf (dflt (ones_like (farr ls)) e)) by (destruct e; cbn [dflt]; [exact We|rewrite ones_farr; apply farr_wf]).
  assert (Wtr' : arr_wf (dflt (ones_like (farr ls)) tr)) by (destruct tr; cbn [dflt]; [exact Wtr|rewrite ones_farr; apply farr_wf]).
  destruct (array (dflt _ e) _ _ _ _ _) as [er|] eqn:Ae; cbn [bind]; [|intros X; injection X as <- _; auto]. destruct (array1_ok _ _ _ We' Ae) as (-> & es & Ees).
  destruct (array (dflt _ tr) _ _ _ _ _) as [er|] eqn:Atr; cbn [bind]; [|intros X; injection X as <- _; auto]. destruct (array1_ok _ _ _ Wtr' Atr) as (-> & trs & Etrs).
  rewrite Ees in *. rewrite Etrs in *. assert (Ge := array1_ge0 _ Ae). destruct (same_shape_arrays _ 3) as [x3|] eqn:S3; cbn [bind]; [|intros X; injection X as <- _; auto]. apply same_farr3 in S3 as [L1 L2].
  change (determine_orbital_scale E s1) with (determine_orbital_scale E s).
  destruct (determine_orbital_scale E s) as [o|] eqn:Eo; cbn [bind]; [|intros X; injection X as <- _; auto]. rewrite !elems_farr. cbn [s1 with_grads s_grads dflt].
  assert (Lp : List.length ps = List.length ls) by (unfold ps; rewrite map_length; auto).
  rewrite app_length, map_length, Lp. replace (List.length (dflt [] (s_grads s)) + List.length ls - List.length ls) with (List.length (dflt [] (s_grads s))) by lia.
  rewrite firstn_app, Nat.sub_diag, firstn_all, firstn_O, app_nil_r. rewrite skipn_app, Nat.sub_diag, skipn_all. cbn [app skipn].
  destruct (each2 _ _ _) as [new [cs|xx]] eqn:Ee; cbn [bind]; [discriminate|]. intros HR. apply pair_equal_spec in HR as [<- _].
  destruct (each2_err _ _ _ Ee) as (Ln & j & a & b & a' & H1 & H2 & H3 & H4 & H5 & H6). rewrite map_length in Ln.
  exists new, j. split; [reflexivity|]. split; [reflexivity|]. split; [reflexivity|]. split; [unfold ps in Ln; now rewrite map_length in Ln|].
  destruct (orbital_small E s Eo) as [So _].
  assert (Hj : j < List.length ts). { assert (X : j < List.length (map (blank_gradient E s) ps)) by (apply nth_error_Some; congruence). unfold ps in X. now rewrite !map_length in X. }
  split; [|auto]. intros k time Hk. specialize (Pk k time Hk). set (pos := n_div (n_neg time) (num_of d)) in *. destruct (blank_bare s pos) as (B1 & B2 & B3 & B4 & B5 & B6 & B7).
  destruct (Nat.lt_trichotomy k j) as [Hlt|[-> |Hgt]].
  - destruct (H6 k Hlt) as (g0 & y & g1 & [] & G1 & G2 & G3 & G4). rewrite Pk in G1. injection G1 as <-. exists g1. split; [exact G4|].
    destruct y as [lc [er tm]]. cbn [fst snd] in G3. assert (G5 := G3). apply determine_ok_fields in G3; auto; try exact I. destruct G3 as (_ & _ & Hsc & ->).
    split; [exact B1|]. split; [exact B2|]. split; [|split; [lia|split; lia]]. intros _. split; [discriminate|]. eexists. unfold masked_with. rewrite scaled_with_prop. unfold scaled_gradient, set_fields.
    cbn [gg_meas gg_trans gg_orb transmission reciprocal bind]. cbn [transmission] in Hsc. unfold scaled_of in Hsc. cbn [num_of scal_of num_scal] in Hsc |- *.
    unfold n_gt. destruct (n_lt n_one _) eqn:Eg; [|reflexivity]. apply nlt_iff in Eg. rewrite val_one in Eg. contradiction.
  - rewrite Pk in H1. injection H1 as <-. exists a'. split; [exact H4|]. assert (H3' := H3). apply determine_err_prop in H3' as [Q1 Q2]. rewrite Q1, Q2. split; [exact B1|]. split; [exact B2|].
    split; [lia|]. split; [intros _; exact B3|]. split; [|lia]. intros _. destruct b as [lc [er tm]]. apply combine_nth_inv in H2 as [_ H2]. apply combine_nth_inv in H2 as [H2 _]. cbn [fst snd] in H2.
    apply nth_error_In in H2. rewrite Forall_forall in Ge. specialize (Ge _ H2). eapply determine_bad; [| | | | |exact H3]; auto; try exact I. right; constructor.
  - rewrite <- (H5 k Hgt) in Pk. eexists. split; [exact Pk|]. split; [exact B1|]. split; [exact B2|]. split; [lia|]. split; [intros _; exact B3|]. split; [lia|]. intros _. apply blank_bare.
Qed.
Theorem add_fails_fit (s s' : shallot) t l e tr x w : arr_wf t -> arr_wf l -> o_wf e -> o_wf tr -> add_gradients E t l e tr s = (s', Err x) ->
  s' = s \/ t = farr [] \/ exists y, determine_gradient_fit w s' = (s', Err y).
Proof.
  intros Wt Wl We Wtr HH. destruct (@add_fails s s' t l e tr x Wt Wl We Wtr HH) as [H|(ts & d & new & j & -> & _ & -> & L & P & Hj)]; [left; exact H|right].
  destruct ts as [|t0 ts]; [left; reflexivity|right]. specialize (Hj ltac:(discriminate)).
  destruct (nth_error (t0 :: ts) j) as [time|] eqn:Et; [|apply nth_error_None in Et; lia]. destruct (P j time Et) as (g & Hg & _ & _ & _ & _ & Hn & _).
  eapply fit_refused; [reflexivity| |exact (Hn eq_refl)]. apply in_app_iff. right. eapply nth_error_In; eauto.
Qed.

(** *** rescaling *)
Lemma determine_iff (g g' : ggrad T) m o t e : determine_mask g m o t e = (g', Ok tt) <->
  number m false (PInt 0) p_inf false = Ok m /\ number o false (PInt 0) p_inf false = Ok o /\ number (dflt (PInt 1) t) false (PInt 0) (PInt 1) false = Ok (dflt (PInt 1) t) /\
  number (dflt (PInt 1) e) false (PFloat n_zero) p_inf false = Ok (dflt (PInt 1) e) /\
  exists q, reciprocal (dflt (PInt 1) t) = Ok q /\ n_gt (n_mul (num_of m) (n_mul (num_of o) q)) n_one = false /\
    g' = mkGG (with_mask (gg_prop g) (Some (bool_marr (p_shape (gg_prop g)) (mask_of (n_mul (num_of m) (n_mul (num_of o) q)) (p_data (gg_prop g)))))) (gg_pos g) (Some m) (Some (dflt (PInt 1) e)) (Some o) (Some (dflt (PInt 1) t)).
Proof.
  unfold determine_mask.
  destruct (number m _ _ _ _) as [m'|] eqn:E1; [apply number_same in E1 as E1'; subst m'|split; [discriminate|intros (? & _); discriminate]].
  destruct (number o _ _ _ _) as [o'|] eqn:E2; [apply number_same in E2 as E2'; subst o'|split; [discriminate|intros (_ & ? & _); discriminate]].
  destruct (number (dflt _ t) _ _ _ _) as [t'|] eqn:E3; [apply number_same in E3 as E3'; subst t'|split; [discriminate|intros (_ & _ & ? & _); discriminate]].
  destruct (number (dflt _ e) _ _ _ _) as [e'|] eqn:E4; [apply number_same in E4 as E4'; subst e'|split; [discriminate|intros (_ & _ & _ & ? & _); discriminate]].
  unfold scaled_gradient. cbn [gg_meas gg_trans gg_orb gg_err gg_prop gg_pos with_prop].
  destruct (reciprocal (dflt (PInt 1) t)) as [q|]; cbn [bind]; [|split; [discriminate|intros (_ & _ & _ & _ & q & ? & _); discriminate]].
  destruct (n_gt _ n_one) eqn:Eg.
  - split; [discriminate|]. intros (_ & _ & _ & _ & q' & Q & Y & _). injection Q as ->. congruence.
  - split.
    + intros X. apply pair_equal_spec in X as [<- _]. repeat (split; [reflexivity|]). exists q. repeat (split; [reflexivity || exact Eg|]). reflexivity.
    + intros (_ & _ & _ & _ & q' & Q & Y & ->). injection Q as ->. reflexivity.
Qed.
Lemma determine_again (g g1 g2 : ggrad T) m o t e o' : determine_mask g m o t e = (g1, Ok tt) ->
  determine_mask g1 (dflt PNone (gg_meas g1)) o' (gg_trans g1) (gg_err g1) = (g2, Ok tt) -> determine_mask g m o' t e = (g2, Ok tt).
Proof.
  rewrite !determine_iff. intros (H1 & H2 & H3 & H4 & q & H5 & H6 & ->). cbn [gg_prop gg_pos gg_meas gg_trans gg_err dflt with_mask p_shape p_data].
  intros (G1 & G2 & G3 & G4 & q' & G5 & G6 & ->). repeat (split; [assumption|]). exists q'. split; [exact G5|]. split; [exact G6|]. reflexivity.
Qed.

Definition scaler (s : shallot) (sc : bool) (g : ggrad T) (t : option T) : ggrad T * res unit :=
  match (if sc then determine_orbital_scale E s else Ok (dflt PNone (gg_orb g))) with
  | Err e => (g, Err e)
  | Ok o => determine_mask g (dflt PNone (gg_meas g)) o (match t with Some t => Some (PNpFloat t) | None => gg_trans g end) (gg_err g)
  end.
Lemma eclipse_same (s : shallot) : with_eclipse s (s_ecl s) (s_vel s) (s_limb s) = s. Proof. destruct s; reflexivity. Qed.
Lemma scaling_eq (s : shallot) v u t : update_gradient_scaling E v u t s =
  let s1 := revalued s v u in
  match
    (match t with
     | None => Ok None
     | Some t =>
       let* t := array t (Some (PInt (-1))) (Some (PInt 1)) false (Some "float64"%string) (Some 1%Z) in
       let gs := match s_grads s with None => PArr "object" [] [] | Some gs => PArr "object" [List.length gs] [] end in
       let* _ := same_shape_arrays [t; gs] 2 in Ok (Some (elems_of t))
     end)
  with
  | Err e => (s1, Err e)
  | Ok tr =>
    match match v, u with None, None => false | _, _ => true end, tr with
    | false, None => (s1, Ok tt)
    | sc, _ =>
      match s_grads s with
      | None => (s1, Err TypeError)
      | Some gs =>
        let '(gs, r) := each2 (scaler s1 sc) gs (match tr with Some l => map Some l | None => repeat None (List.length gs) end) in
        match r with Err e => (with_grads s1 (Some gs) (s_fit s), Err e) | Ok _ => (with_grads s1 (Some gs) None, Ok tt) end
      end
    end
  end.
Proof.
  unfold update_gradient_scaling, revalued. cbn zeta.
  assert (S2 : match u with Some u0 => with_eclipse (match v with Some v0 => with_eclipse s (s_ecl s) (Some v0) (s_limb s) | None => s end) (s_ecl (match v with Some v0 => with_eclipse s (s_ecl s) (Some v0) (s_limb s) | None => s end)) (s_vel (match v with Some v0 => with_eclipse s (s_ecl s) (Some v0) (s_limb s) | None => s end)) (Some u0) | None => (match v with Some v0 => with_eclipse s (s_ecl s) (Some v0) (s_limb s) | None => s end) end
    = with_eclipse s (s_ecl s) (match v with Some v => Some v | None => s_vel s end) (match u with Some u => Some u | None => s_limb s end)).
  { destruct v, u; try reflexivity. now rewrite eclipse_same. }
  rewrite S2. set (s1 := with_eclipse s _ _ _). change (s_grads s1) with (s_grads s).
  match goal with |- match ?x with Ok _ => _ | Err _ => _ end = _ => destruct x as [tr|] end; [|reflexivity].
  destruct v, u; [| | |destruct tr; [|reflexivity]]; destruct (s_grads s) as [gs|]; try reflexivity; fold (scaler s1 true); fold (scaler s1 false); destruct (each2 _ _ _) as [gs' [?|?]]; reflexivity.
Qed.

Lemma determine_rescaled (g g' : ggrad T) o tv : determine_mask g (dflt PNone (gg_meas g)) o tv (gg_err g) = (g', Ok tt) -> rescaled o tv g g'.
Proof.
  intros H. apply determine_iff in H as (H1 & H2 & H3 & H4 & q & H5 & H6 & ->). destruct (gg_meas g) as [m|] eqn:Em; [|discriminate H1]. cbn [dflt] in H1, H6 |- *.
  assert (Q : q = n_div n_one (num_of (dflt (PInt 1) tv))) by (unfold reciprocal in H5; destruct (dflt (PInt 1) tv); try discriminate; try (destruct (n_eq _ _); [discriminate|]); congruence).
  rewrite Q in H6 |- *. clear Q H5. exists m. eexists. split; [exact Em|]. cbn zeta. fold (dflt (PInt 1) tv). set (r := n_mul (num_of m) _) in *.
  split; [unfold n_gt in H6; rewrite nlt_false in H6; now rewrite val_one in H6|]. split; [reflexivity|].
  intros i x Hx. change (marked (Some (@bool_marr T (p_shape (gg_prop g)) (mask_of r (p_data (gg_prop g))))) i = true <-> val x = XNaN \/ xlt (val x) (val r)). rewrite marked_with, (nth_mask_of _ _ _ Hx). rewrite orb_true_iff, isnan_iff. unfold n_gt. rewrite nlt_iff. tauto.
Qed.
Theorem scaling_done (s s' : shallot) gs v u t : s_grads s = Some gs -> o_wf t -> (v <> None \/ u <> None \/ t <> None) -> update_gradient_scaling E v u t s = (s', Ok tt) ->
  exists gs', s' = with_grads (revalued s v u) (Some gs') None /\ List.length gs' = List.length gs /\
  (match t with Some a => List.length (elems_of a) = List.length gs | None => True end) /\
  forall k g, nth_error gs k = Some g -> exists g' o, nth_error gs' k = Some g' /\
    (if match v, u with None, None => true | _, _ => false end then gg_orb g = Some o else determine_orbital_scale E (revalued s v u) = Ok o) /\
    rescaled o (match t with Some a => option_map (@PNpFloat T) (nth_error (elems_of a) k) | None => gg_trans g end) g g'.
Proof.
  intros Hg Ht Hsome. rewrite scaling_eq. cbn zeta. set (s1 := revalued s v u). rewrite Hg.
  set (body := fun tr => let '(gs', r) := each2 (scaler s1 (match v, u with None, None => false | _, _ => true end)) gs (match tr with Some l => map Some l | None => repeat None (List.length gs) end) in
    match r with Err e => (with_grads s1 (Some gs') (s_fit s), Err e) | Ok _ => (with_grads s1 (Some gs') None, Ok tt) end).
  assert (Body : forall tr, match tr with Some l => List.length l = List.length gs | None => True end -> body tr = (s', Ok tt) ->
    exists gs', s' = with_grads s1 (Some gs') None /\ List.length gs' = List.length gs /\
    forall k g, nth_error gs k = Some g -> exists g' o, nth_error gs' k = Some g' /\
      (if match v, u with None, None => true | _, _ => false end then gg_orb g = Some o else determine_orbital_scale E s1 = Ok o) /\
      rescaled o (match tr with Some l => option_map (@PNpFloat T) (nth_error l k) | None => gg_trans g end) g g').
  { intros tr Htr. unfold body. set (sc := match v, u with None, None => false | _, _ => true end).
    destruct (each2 _ _ _) as [gs' [cs|]] eqn:Ee; [|discriminate]. intros X. apply pair_equal_spec in X as [<- _]. exists gs'. split; [reflexivity|].
    apply each2_ok in Ee; [|destruct tr; [rewrite map_length; congruence|now rewrite repeat_length]]. destruct Ee as [Le Pe]. split; [exact Le|]. intros k g Hk.
    assert (exists b, nth_error (match tr with Some l => map Some l | None => repeat None (List.length gs) end) k = Some b /\
      (match b with Some t => Some (PNpFloat t) | None => gg_trans g end) = (match tr with Some l => option_map (@PNpFloat T) (nth_error l k) | None => gg_trans g end)) as (b & Hb & Eb).
    { assert (Lk : k < List.length gs) by (apply nth_error_Some; congruence). destruct tr as [l|].
      - destruct (nth_error l k) as [x|] eqn:Ex; [|apply nth_error_None in Ex; lia]. exists (Some x). rewrite nth_error_map, Ex. auto.
      - exists None. split; [|reflexivity]. now apply nth_error_repeat. }
    destruct (Pe k g b Hk Hb) as (g' & [] & Hd & Hn). exists g'. unfold scaler in Hd. rewrite Eb in Hd.
    assert (Fin : forall o tv, determine_mask g (dflt PNone (gg_meas g)) o tv (gg_err g) = (g', Ok tt) -> rescaled o tv g g') by (intros o tv; apply determine_rescaled).
    destruct v, u; cbn [sc] in Hd |- *; try (destruct (determine_orbital_scale E s1) as [o|] eqn:Eo; [|discriminate]; exists o; auto).
    assert (Eo : exists o, gg_orb g = Some o). { destruct (gg_orb g); eauto. cbn [dflt] in Hd. apply determine_iff in Hd as (_ & Hd & _). discriminate. }
    destruct Eo as [o Eo]. rewrite Eo in Hd. exists o. auto. }
  destruct t as [a|].
  - destruct (array a _ _ _ _ _) as [a'|] eqn:Ea; cbn [bind]; [|discriminate]. destruct (array1_ok _ _ _ Ht Ea) as (-> & l & ->).
    destruct (same_shape_arrays _ _) as [z|] eqn:Ss; cbn [bind]; [|discriminate]. rewrite !elems_farr. apply same2 in Ss. injection Ss as Ss.
    intros HH. destruct (Body (Some l) Ss) as (gs' & P1 & P2 & P3); [destruct v, u; exact HH|]. exists gs'. auto.
  - intros HH. destruct (Body None I) as (gs' & P1 & P2 & P3); [destruct v, u; try exact HH; destruct Hsome as [X|[X|X]]; congruence|]. exists gs'. auto.
Qed.

Lemma each2_compose A B C (f h : A -> B -> A * res unit) (k : A -> C -> A * res unit) l : 
  (forall a b a1 c a2, f a b = (a1, Ok tt) -> k a1 c = (a2, Ok tt) -> h a b = (a2, Ok tt)) ->
  forall m l1 cs c0 l2 cs2, List.length l = List.length m -> each2 f l m = (l1, Ok cs) -> each2 k l1 (repeat c0 (List.length l1)) = (l2, Ok cs2) -> exists cs', each2 h l m = (l2, Ok cs').
Proof.
  intros Hc. induction l as [|a l IH]; intros [|b m] l1 cs c0 l2 cs2 Hl H1 H2; try discriminate Hl; cbn [each2] in H1.
  - injection H1 as <- _. cbn in H2. injection H2 as <- _. eexists; reflexivity.
  - destruct (f a b) as [a1 [[]|]] eqn:Ef; [|discriminate]. destruct (each2 f l m) as [l1' [cs1|]] eqn:E1; [|discriminate]. injection H1 as <- _. cbn [List.length repeat each2] in H2.
    destruct (k a1 c0) as [a2 [[]|]] eqn:Ek; [|discriminate]. destruct (each2 k l1' _) as [l2' [cs3|]] eqn:E2; [|discriminate]. injection H2 as <- _.
    destruct (IH m l1' cs1 c0 l2' cs3) as [cs' E']; auto. cbn [each2]. rewrite (Hc _ _ _ _ _ Ef Ek), E'. eauto.
Qed.
Lemma each2_ext A B C (f h : A -> B -> A * res C) l : forall m, (forall a b, In b m -> f a b = h a b) -> each2 f l m = each2 h l m.
Proof.
  induction l as [|a l IH]; intros [|b m] H; cbn [each2]; try reflexivity. rewrite (H a b (or_introl eq_refl)). rewrite (IH m); [reflexivity|]. intros a' b' Hb. apply H. now right.
Qed.
(** rescaling the freshly added gradients gives those that the new values would have given at once *)
Theorem scaling_same (s s1 s2 : shallot) t l e tr v u d v' u' : s_grads s = None -> arr_wf t -> arr_wf l -> o_wf e -> o_wf tr ->
  s_ecl s = Some d -> s_vel s = Some v -> s_limb s = Some u -> elems_of t <> [] -> v' <> None \/ u' <> None ->
  add_gradients E t l e tr s = (s1, Ok tt) -> update_gradient_scaling E v' u' None s1 = (s2, Ok tt) ->
  add_gradients E t l e tr (revalued s v' u') = (s2, Ok tt).
Proof.
  intros Hg Wt Wl We Wtr Ed Ev Eu Hne Hsome. set (sn := revalued s v' u').
  assert (Fn : exists un vn, s_limb sn = Some un /\ s_vel sn = Some vn /\ s_ecl sn = Some d /\ s_grads sn = None).
  { unfold sn, revalued. cbn [with_eclipse s_limb s_vel s_ecl s_grads]. rewrite Ed, Ev, Eu, Hg. destruct u', v'; eauto 10. }
  destruct Fn as (un & vn & Fu & Fv & Fd & Fg). unfold add_gradients. rewrite Eu, Ed, Ev, Fu, Fv, Fd.
  destruct (array t _ _ _ _ _) as [t'|] eqn:At; cbn [bind]; [|discriminate]. destruct (array1_ok _ _ _ Wt At) as (-> & ts & ->).
  destruct (array l _ _ _ _ _) as [l'|] eqn:Al; cbn [bind]; [|discriminate]. destruct (array1_ok _ _ _ Wl Al) as (-> & ls & ->).
  destruct (same_shape_arrays _ _) as [z|] eqn:Ss; cbn [bind]; [|discriminate]. apply same_farr2 in Ss.
  unfold mbind at 1 3. rewrite !disk_gradients_ok, !elems_farr. rewrite Hg, Fg. cbn [dflt app]. set (ps := map (fun x => n_div (n_neg x) (num_of d)) ts).
  change (map (blank_gradient E sn) ps) with (map (blank_gradient E s) ps).
  unfold mbind, set_measured.
  assert (We' : arr_wf (dflt (ones_like (farr ls)) e)) by (destruct e; cbn [dflt]; [exact We|rewrite ones_farr; apply farr_wf]).
  assert (Wtr' : arr_wf (dflt (ones_like (farr ls)) tr)) by (destruct tr; cbn [dflt]; [exact Wtr|rewrite ones_farr; apply farr_wf]).
  destruct (array (dflt _ e) _ _ _ _ _) as [er|] eqn:Ae; cbn [bind]; [|discriminate]. destruct (array1_ok _ _ _ We' Ae) as (-> & es & Ees).
  destruct (array (dflt _ tr) _ _ _ _ _) as [er|] eqn:Atr; cbn [bind]; [|discriminate]. destruct (array1_ok _ _ _ Wtr' Atr) as (-> & trs & Etrs).
  rewrite Ees, Etrs. destruct (same_shape_arrays _ 3) as [x3|] eqn:S3; cbn [bind]; [|discriminate]. apply same_farr3 in S3 as [L1 L2].
  change (determine_orbital_scale E (with_grads s (Some (map (blank_gradient E s) ps)) (s_fit s))) with (determine_orbital_scale E s).
  change (determine_orbital_scale E (with_grads sn (Some (map (blank_gradient E s) ps)) (s_fit sn))) with (determine_orbital_scale E sn).
  destruct (determine_orbital_scale E s) as [o|] eqn:Eo; cbn [bind]; [|discriminate]. rewrite !elems_farr. cbn [with_grads s_grads dflt].
  assert (Lp : List.length ps = List.length ls) by (unfold ps; rewrite map_length; auto).
  rewrite map_length, Lp, Nat.sub_diag. cbn [firstn skipn app].
  destruct (each2 _ _ _) as [new [cs|xx]] eqn:Ee; cbn [bind]; [|discriminate]. intros HR. apply pair_equal_spec in HR as [<- _].
  rewrite scaling_eq. cbn zeta. cbn [with_grads s_grads]. set (s3 := revalued _ v' u').
  assert (Lv : List.length (map (blank_gradient E s) ps) = List.length (combine (map n_abs ls) (combine es trs))) by (rewrite !combine_length, !map_length; lia).
  assert (Os : determine_orbital_scale E s3 = determine_orbital_scale E sn) by reflexivity.
  match goal with |- context [each2 (scaler s3 ?b) new _] => replace (match v', u' with None, None => false | _, _ => true end) with true by (destruct v', u'; try reflexivity; destruct Hsome; congruence) end.
  destruct (each2 (scaler s3 true) new _) as [gs [cs2|]] eqn:E2; [|discriminate]. intros HR. apply pair_equal_spec in HR as [<- _].
  destruct (determine_orbital_scale E sn) as [o'|] eqn:Eo'.
  - cbn [bind].
    match type of Ee with each2 ?f _ _ = _ => destruct (each2_compose f (fun g v => determine_mask g (PNpFloat (fst v)) o' (Some (PNpFloat (snd (snd v)))) (Some (PNpFloat (fst (snd v))))) (fun g (_ : option T) => determine_mask g (dflt PNone (gg_meas g)) o' (gg_trans g) (gg_err g))) with (c0 := @None T) (2 := Lv) (3 := Ee) (l2 := gs) (cs2 := cs2) as [cs' E'] end.
    + intros a b a1 c a2. apply determine_again.
    + rewrite <- E2. apply each2_ext. intros a b Hb. apply repeat_spec in Hb as ->. unfold scaler. now rewrite Os.
    + rewrite E'. cbn [bind]. reflexivity.
  - exfalso. destruct new as [|g new]; [|cbn [each2 List.length repeat] in E2; unfold scaler at 1 in E2; rewrite Os in E2; discriminate].
    assert (Y := f_equal (fun p => List.length (fst p)) Ee). cbn beta in Y. rewrite each2_length in Y. unfold ps in Y. rewrite !map_length in Y. apply Hne. rewrite elems_farr. destruct ts; [reflexivity|discriminate].
Qed.
End O.
