(** What the methods of a grid keep. *)
From Coq Require Import ZArith Reals List Bool String Lia.
From Verif Require Import Num NumP Py SpecNum Validate ValidateP Ring RingP RingSystem FS GridParams SpecGrid GridParamsP GridDiag Names GridProp SpecProp GridPropP Geometry
  Build SpecBuild BuildP BuildQP Shallot BuildGP BuildGridP BuildCP AddLaws ShallotOps SpecOps OpsP.
Import ListNotations.
Set Implicit Arguments.
Local Open Scope list_scope.

Section O.
Context {T : Type} {NT : Num T} {LT : NumLaws T} {AL : AddLaws T} (E : env T).
Notation pyval := (pyval T).
Notation shallot := (shallot T).

Lemma Forall2_nth_error_iff A B (P : A -> B -> Prop) l m : Forall2 P l m <->
  List.length l = List.length m /\ forall i x y, nth_error l i = Some x -> nth_error m i = Some y -> P x y.
Proof.
  split.
  - intros H; induction H as [|a b l m Hab H [IH1 IH2]]; split; cbn; auto; [intros [|i] x y X Y; discriminate|].
    intros [|i] x y X Y; cbn in *; [congruence|eauto].
  - revert m; induction l as [|a l IH]; intros [|b m] [Hl H]; try discriminate; constructor.
    + apply (H 0); reflexivity.
    + apply IH. split; [cbn in Hl; congruence|]. intros i x y X Y. apply (H (S i)); auto.
Qed.
(** *** hidden *)
Lemma hidden_length (l : list T) f : List.length (hidden l f) = List.length l.
Proof. unfold hidden. now rewrite map_length, seq_length. Qed.
Lemma hidden_nth (l : list T) f i x : nth_error l i = Some x -> nth_error (hidden l f) i = Some (if f i then n_nan else x).
Proof.
  intros H. assert (Hi : i < List.length l) by (apply nth_error_Some; congruence). unfold hidden. rewrite nth_error_map, nth_error_seq' by auto. cbn [option_map Nat.add].
  rewrite (nth_error_nth _ _ n_nan H). reflexivity.
Qed.
Lemma hidden_none (l : list T) f : (forall i, i < List.length l -> f i = false) -> hidden l f = l.
Proof.
  intros H. apply nth_error_ext'; [apply hidden_length|]. intros i Hi. rewrite hidden_length in Hi. destruct (nth_error l i) eqn:Ex; [|apply nth_error_None in Ex; lia].
  rewrite (hidden_nth l f i Ex). rewrite H; auto.
Qed.
Lemma hidden_hidden (l : list T) f h : hidden (hidden l f) h = hidden l (fun i => f i || h i).
Proof.
  apply nth_error_ext'; [now rewrite !hidden_length|]. intros i Hi. rewrite !hidden_length in Hi. destruct (nth_error l i) eqn:Ex; [|apply nth_error_None in Ex; lia].
  rewrite (hidden_nth l _ i Ex). rewrite (hidden_nth (hidden l f) h i (hidden_nth l f i Ex)). destruct (f i), (h i); reflexivity.
Qed.
Lemma hidden_thinned (l : list T) f : thinned l (hidden l f).
Proof.
  apply Forall2_nth_error_iff. split; [now rewrite hidden_length|]. intros i x y Hx Hy. rewrite (hidden_nth l f i Hx) in Hy. injection Hy as <-. destruct (f i); auto.
Qed.

(** *** ageing is a preorder *)
Lemma thinned_refl (l : list T) : thinned l l.
Proof. induction l; constructor; auto. Qed.
Lemma thinned_trans (a b c : list T) : thinned a b -> thinned b c -> thinned a c.
Proof.
  intros H. revert c. induction H as [|x y a b Hx H IH]; intros c Hc; inversion Hc; subst; constructor; auto; [|apply IH; auto].
  destruct H2 as [-> | ->]; auto.
Qed.
Lemma worn_refl (p : gprop T) : worn p p.
Proof. unfold worn. repeat split; auto. apply thinned_refl. Qed.
Lemma worn_trans (a b c : gprop T) : worn a b -> worn b c -> worn a c.
Proof. unfold worn. intros (A1 & A2 & A3 & A4 & A5) (B1 & B2 & B3 & B4 & B5). repeat split; try congruence. exact (thinned_trans A5 B5). Qed.
Lemma aged_refl (s : shallot) : aged s s.
Proof. constructor; auto; [intros w; apply worn_refl|]. destruct (s_dmap s); auto. apply worn_refl. Qed.
Lemma aged_trans (a b c : shallot) : aged a b -> aged b c -> aged a c.
Proof.
  intros A B. constructor; try (destruct A, B; congruence).
  - intros w. exact (worn_trans (ag_cubes A w) (ag_cubes B w)).
  - assert (X := ag_dmap A). assert (Y := ag_dmap B). destruct (s_dmap a), (s_dmap b), (s_dmap c); try tauto. exact (worn_trans X Y).
Qed.

(** *** reading a property *)
Definition put_cube (w : which) (s : shallot) (p : gprop T) : shallot :=
  match w with WRadius => set_dr s p | WInclination => set_inc s p | WTilt => set_tilt s p | WFx => set_fx s p | WFy => set_fy s p end.
Lemma get_cube_read w m pm (s : shallot) : get_cube w m pm s = read_property (the_cube w s) (put_cube w s) m pm.
Proof. destruct w; reflexivity. Qed.
Lemma mask_cube_put w m (s : shallot) : mask_cube w m s = put_cube w s (fst (set_mask (the_cube w s) m)).
Proof. destruct w; reflexivity. Qed.
Lemma put_same w (s : shallot) p : the_cube w (put_cube w s p) = p.
Proof. destruct w; reflexivity. Qed.
Lemma put_other w w' (s : shallot) p : w <> w' -> the_cube w' (put_cube w s p) = the_cube w' s.
Proof. intros H. destruct w, w'; try reflexivity; destruct H; reflexivity. Qed.
Lemma put_params w (s : shallot) p : s_params (put_cube w s p) = s_params s. Proof. destruct w; reflexivity. Qed.
Lemma put_dmap w (s : shallot) p : s_dmap (put_cube w s p) = s_dmap s. Proof. destruct w; reflexivity. Qed.
Lemma put_grads w (s : shallot) p : s_grads (put_cube w s p) = s_grads s. Proof. destruct w; reflexivity. Qed.
Lemma put_fit w (s : shallot) p : s_fit (put_cube w s p) = s_fit s. Proof. destruct w; reflexivity. Qed.
Lemma put_shear w (s : shallot) p : s_shear (put_cube w s p) = s_shear s. Proof. destruct w; reflexivity. Qed.
Lemma put_masks w (s : shallot) p : p_mask p = p_mask (the_cube w s) -> all_masks (put_cube w s p) = all_masks s.
Proof. intros H. destruct w; unfold all_masks; cbn [put_cube the_cube set_dr set_inc set_tilt set_fx set_fy with_cubes s_dr s_inc s_tilt s_grads] in *; rewrite ?H; reflexivity. Qed.
Lemma put_id w (s : shallot) : put_cube w s (the_cube w s) = s.
Proof. destruct w, s; reflexivity. Qed.
Lemma which_eq (w w' : which) : {w = w'} + {w <> w'}. Proof. decide equality. Qed.

Lemma sinv_put w (s : shallot) p : sinv s -> cube_inv (s_params s) p -> sinv (put_cube w s p).
Proof.
  intros H Hp. constructor; rewrite ?put_params, ?put_dmap, ?put_grads, ?put_fit, ?put_shear; try apply H.
  intros w'. destruct (which_eq w w') as [<-|Hw]; [now rewrite put_same|]. rewrite put_other by auto. apply H.
Qed.
Lemma aged_put w (s : shallot) p : worn (the_cube w s) p -> aged s (put_cube w s p).
Proof.
  intros H. constructor; try (destruct w; reflexivity).
  - intros w'. destruct (which_eq w w') as [<-|Hw]; [now rewrite put_same|]. rewrite put_other by auto. apply worn_refl.
  - rewrite put_dmap. destruct (s_dmap s); auto. apply worn_refl.
Qed.

Lemma with_data_same (p : gprop T) : with_data p (p_data p) = p.
Proof. destruct p; reflexivity. Qed.
Lemma cube_data g (p : gprop T) l : cube_inv g p -> List.length l = List.length (p_data p) -> cube_inv g (with_data p l).
Proof. intros [(A & B & C) D] Hl. split; [|exact D]. split; [exact A|]. split; [cbn [with_data p_data p_shape]; congruence|exact C]. Qed.
Lemma worn_hidden (p : gprop T) f : worn p (with_data p (hidden (p_data p) f)).
Proof. unfold worn. repeat split; auto. apply hidden_thinned. Qed.

(** what a read leaves and gives *)
Definition hid (s : shallot) (p : gprop T) (m b : bool) (i : nat) : bool := (b && marked (p_mask p) i) || (m && masked_b s i).
Lemma blank_hidden (p : gprop T) m : mask_inv p -> p_mask p = Some m -> blank (p_data p) (ma_elems m) = hidden (p_data p) (marked (p_mask p)).
Proof.
  intros Hi Hm. apply nth_error_ext'; [now rewrite blank_length, hidden_length|]. intros i Hl. rewrite blank_length in Hl.
  destruct (nth_error (p_data p) i) eqn:Ex; [|apply nth_error_None in Ex; lia]. rewrite (hidden_nth _ _ _ Ex). now apply blank_marked.
Qed.
Lemma erase_hidden (l : list T) f : erase l (map f (seq 0 (List.length l))) = hidden l f.
Proof.
  unfold erase. apply nth_error_ext'; [now rewrite blank_length, hidden_length|]. intros i Hl. rewrite blank_length in Hl.
  destruct (nth_error l i) eqn:Ex; [|apply nth_error_None in Ex; lia]. rewrite (hidden_nth _ _ _ Ex), (blank_nth _ _ _ Ex).
  rewrite !nth_error_map, nth_error_seq' by auto. cbn [option_map Nat.add scal_true]. destruct (f i); reflexivity.
Qed.
Lemma get_data_hidden (p : gprop T) b : prop_inv p ->
  get_data p (PBool b) = (with_data p (hidden (p_data p) (fun i => b && marked (p_mask p) i)), Ok (p_shape p, hidden (p_data p) (fun i => b && marked (p_mask p) i))).
Proof.
  intros (A & B & C). destruct b; cbn [andb].
  - destruct (p_mask p) as [m|] eqn:Em.
    + rewrite (get_data_mask C Em). rewrite (blank_hidden C Em), Em. reflexivity.
    + rewrite get_data_nomask by auto. rewrite hidden_none by auto. now rewrite with_data_same.
  - rewrite get_data_false, hidden_none by auto. now rewrite with_data_same.
Qed.

Lemma combined_ext (s s' : shallot) : s_params s' = s_params s -> all_masks s' = all_masks s -> combined_mask s' = combined_mask s.
Proof. intros A B. unfold combined_mask. now rewrite A, B. Qed.

Theorem read_bool (s : shallot) p put m b : sinv s -> cube_inv (s_params s) p ->
  (forall q, s_params (put q) = s_params s) -> (forall q, p_mask q = p_mask p -> all_masks (put q) = all_masks s) ->
  read_property p put (PBool m) (PBool b) =
    (put (with_data p (hidden (p_data p) (hid s p m b))), Ok (shape3 (s_params s), hidden (p_data p) (hid s p m b))).
Proof.
  intros Hs Hp P1 P2. destruct (cube_shape Hp) as [Sh Le]. unfold read_property. rewrite get_data_hidden by apply Hp. cbn [boolean_v].
  set (l := hidden (p_data p) (fun i => b && marked (p_mask p) i)).
  assert (Hl : List.length l = points s) by (unfold l; rewrite hidden_length, Le; apply points_volume; auto).
  destruct m.
  - rewrite (@combined_ext s (put (with_data p l))) by auto. rewrite combined_ok by auto. cbn [fst]. rewrite P1, Sh, (proj2 (shape_eqb_spec _ _) eq_refl).
    rewrite <- Hl. cbn [with_data p_data]. rewrite erase_hidden. unfold l. rewrite hidden_hidden. unfold hid. cbn [andb]. reflexivity.
  - unfold l, hid. cbn [andb]. rewrite Sh.
    assert (Ex : hidden (p_data p) (fun i => b && marked (p_mask p) i || false) = hidden (p_data p) (fun i => b && marked (p_mask p) i)).
    { unfold hidden. apply map_ext. intros i. now rewrite orb_false_r. }
    rewrite Ex. reflexivity.
Qed.
Theorem read_refused (s : shallot) p put m b e : sinv s -> cube_inv (s_params s) p ->
  (forall x, m <> PBool x) -> snd (read_property p put m (PBool b)) = e -> e = Err TypeError /\
  fst (read_property p put m (PBool b)) = put (with_data p (hidden (p_data p) (fun i => b && marked (p_mask p) i))).
Proof.
  intros Hs Hp Hm <-. unfold read_property. rewrite get_data_hidden by apply Hp.
  assert (B : boolean_v m = Err TypeError) by (destruct m as [x| | | | | | | | |]; try reflexivity; destruct (Hm x); reflexivity). rewrite B. auto.
Qed.
Lemma read_bad (p : gprop T) put m b : (forall x, b <> PBool x) -> read_property p put m b = (put p, Err TypeError).
Proof. intros H. unfold read_property. now rewrite get_data_bad. Qed.

(** whatever the arguments, some values are hidden *)
Theorem read_any (s : shallot) p put m b : sinv s -> cube_inv (s_params s) p ->
  (forall q, s_params (put q) = s_params s) -> (forall q, p_mask q = p_mask p -> all_masks (put q) = all_masks s) ->
  exists f, fst (read_property p put m b) = put (with_data p (hidden (p_data p) f)).
Proof.
  intros Hs Hp P1 P2. assert (D : (exists x, b = PBool x) \/ forall x, b <> PBool x) by (destruct b; eauto; right; discriminate).
  destruct D as [[x ->]|D]; [|exists (fun _ => false); rewrite read_bad by auto; rewrite hidden_none, with_data_same by auto; reflexivity].
  assert (D : (exists y, m = PBool y) \/ forall y, m <> PBool y) by (destruct m; eauto; right; discriminate).
  destruct D as [[y ->]|D]; [rewrite (@read_bool s p put y x) by auto; cbn [fst]; eauto|]. eexists. eapply read_refused; eauto.
Qed.

(** *** methods that keep the invariant *)
Definition keeps {A} (m : M (T := T) A) : Prop := forall s, sinv s -> sinv (fst (m s)) /\ aged s (fst (m s)).
Lemma keeps_ret A (a : A) : keeps (ret a). Proof. intros s H. split; [exact H|apply aged_refl]. Qed.
Lemma keeps_lift A (a : res A) : keeps (lift a). Proof. intros s H. split; [exact H|apply aged_refl]. Qed.
Lemma keeps_bind A B (m : M A) (f : A -> M B) : keeps m -> (forall a, keeps (f a)) -> keeps (mbind m f).
Proof.
  intros Hm Hf s Hs. unfold mbind. destruct (Hm s Hs) as [A1 A2]. destruct (m s) as [s1 [a|e]]; cbn [fst] in *; [|auto].
  destruct (Hf a s1 A1) as [B1 B2]. split; auto. exact (aged_trans A2 B2).
Qed.
Lemma keeps_cube w m b : keeps (get_cube w m b).
Proof.
  intros s Hs. rewrite get_cube_read. destruct (@read_any s (the_cube w s) (put_cube w s) m b) as [f ->]; auto; [apply Hs|intros; apply put_params|intros; now apply put_masks|].
  split; [apply sinv_put; auto; apply cube_data; [apply Hs|apply hidden_length]|apply aged_put, worn_hidden].
Qed.
Lemma sinv_dmap (s : shallot) p : sinv s -> cube_inv (s_params s) p -> sinv (set_dmap s p).
Proof. intros H Hp. constructor; try apply H. exists p. split; auto. Qed.
Lemma keeps_dmap m b : keeps (get_diagnostic_map m b).
Proof.
  intros s Hs. unfold get_diagnostic_map. destruct (i_dmap Hs) as (p & Hp & Hc). rewrite Hp.
  destruct (@read_any s p (set_dmap s) m b) as [f ->]; auto.
  split; [apply sinv_dmap; auto; apply cube_data; [auto|apply hidden_length]|]. constructor; auto; [intros w; destruct w; apply worn_refl|].
  cbn [set_dmap with_dmap s_dmap]. rewrite Hp. apply worn_hidden.
Qed.
Lemma aged_grads (s : shallot) g f : aged s (with_grads s g f).
Proof. constructor; auto; [intros w; destruct w; apply worn_refl|]. cbn [with_grads s_dmap]. destruct (s_dmap s); auto. apply worn_refl. Qed.
Lemma aged_eclipse (s : shallot) a b c : aged s (with_eclipse s a b c).
Proof. constructor; auto; [intros w; destruct w; apply worn_refl|]. cbn [with_eclipse s_dmap]. destruct (s_dmap s); auto. apply worn_refl. Qed.
Lemma sinv_eclipse (s : shallot) a b c : sinv s -> sinv (with_eclipse s a b c).
Proof. intros H. constructor; apply H. Qed.
Lemma sinv_grads (s : shallot) gs f : sinv s -> (forall l, gs = Some l -> Forall (fun g => cube_inv (s_params s) (gg_prop g)) l) ->
  (forall p, f = Some p -> cube_inv (s_params s) p /\ gs <> None) -> sinv (with_grads s gs f).
Proof. intros H A B. constructor; try apply H; auto. Qed.
Lemma sinv_fit_kept (s : shallot) gs : sinv s -> Forall (fun g => cube_inv (s_params s) (gg_prop g)) gs -> sinv (with_grads s (Some gs) (s_fit s)).
Proof.
  intros H A. apply sinv_grads; auto; [intros l X; injection X as <-; auto|]. intros p Hp. split; [apply (i_fit H Hp)|discriminate].
Qed.
Lemma sinv_fit_none (s : shallot) gs : sinv s -> (forall l, gs = Some l -> Forall (fun g => cube_inv (s_params s) (gg_prop g)) l) -> sinv (with_grads s gs None).
Proof. intros H A. apply sinv_grads; auto. discriminate. Qed.
Lemma keeps_fit m b : keeps (get_gradient_fit m b).
Proof.
  intros s Hs. unfold get_gradient_fit. destruct (s_fit s) as [p|] eqn:Hp; [|split; [auto|apply aged_refl]].
  destruct (i_fit Hs Hp) as [Hc Hg].
  destruct (@read_any s p (set_fit s) m b) as [f Hf]; auto.
  assert (X : fst (let (s0, r) := read_property p (set_fit s) m b in match r with Ok d => (s0, Ok (Some d)) | Err e => (s0, Err e) end) = fst (read_property p (set_fit s) m b)).
  { destruct (read_property p (set_fit s) m b) as [s0 [d|e]]; reflexivity. }
  rewrite X, Hf. split; [|apply aged_grads]. apply sinv_grads; auto.
  - intros l Hl. apply (i_grads Hs Hl).
  - intros q Hq. injection Hq as <-. split; auto. apply cube_data; auto. apply hidden_length.
Qed.
Lemma sinv_reset (s : shallot) : sinv s -> sinv (with_grads s (s_grads s) None).
Proof. intros H. apply sinv_fit_none; auto. intros l. apply (i_grads H). Qed.
Lemma keeps_reset : keeps reset_fit.
Proof. intros s H. split; [apply sinv_reset; auto|apply aged_grads]. Qed.

(** *** loops *)
Lemma each2_forall A B C (P : A -> Prop) (f : A -> B -> A * res C) l : forall m, (forall a b, P a -> P (fst (f a b))) -> Forall P l -> Forall P (fst (each2 f l m)).
Proof.
  induction l as [|a l IH]; intros m Hf Hl; [exact Hl|]. destruct m as [|b m]; [exact Hl|]. inversion Hl; subst. cbn [each2].
  assert (Hab := Hf a b H1). destruct (f a b) as [a' [c|e]]; cbn [fst] in *; [|constructor; auto].
  assert (X := IH m Hf H2). destruct (each2 f l m) as [l' [cs|e]]; constructor; auto.
Qed.
Lemma each2_length A B C (f : A -> B -> A * res C) l : forall m, List.length (fst (each2 f l m)) = List.length l.
Proof.
  induction l as [|a l IH]; intros m; [reflexivity|]. destruct m as [|b m]; [reflexivity|]. cbn [each2]. destruct (f a b) as [a' [c|e]]; [|reflexivity].
  assert (X := IH m). destruct (each2 f l m) as [l' [cs|e]]; cbn [fst List.length] in *; congruence.
Qed.
Lemma mask_of_length s (l : list T) : List.length (mask_of s l) = List.length l. Proof. apply map_length. Qed.
Lemma determine_mask_inv g (gr : ggrad T) a b c d : cube_inv g (gg_prop gr) -> cube_inv g (gg_prop (fst (determine_mask gr a b c d))).
Proof.
  intros H. unfold determine_mask. repeat match goal with |- context [match ?x with _ => _ end] => destruct x; cbn [fst gg_prop with_prop]; auto end.
  destruct H as [(A & B & C) D]. split; [|exact D]. split; [exact A|]. split; [exact B|].
  intros m Hm. cbn [with_mask p_mask] in Hm. injection Hm as <-. cbn [bool_marr ma_dtype ma_shape ma_elems with_mask p_shape]. split; auto. split; auto.
  split; [rewrite map_length, mask_of_length; exact B|]. apply Forall_forall. intros x Hx. apply in_map_iff in Hx as (y & <- & _). exact I.
Qed.
Lemma set_mask_inv g (p : gprop T) v : arr_wf v -> cube_inv g p -> cube_inv g (fst (set_mask p v)).
Proof.
  intros Hw [H1 H2]. split; [exact (@do_pop_inv T NT p (PSetMask v) Hw H1)|].
  destruct (set_mask p v) as [p' [[]|e]] eqn:Em; cbn [fst]; [|now rewrite (set_mask_err _ _ Em)]. apply set_mask_ok in Em. destruct Em as (el & _ & ->). exact H2.
Qed.
Lemma set_mask_worn (p : gprop T) v : worn p (fst (set_mask p v)).
Proof.
  destruct (set_mask p v) as [p' [[]|e]] eqn:Em; cbn [fst]; [|rewrite (set_mask_err _ _ Em); apply worn_refl]. apply set_mask_ok in Em. destruct Em as (el & _ & ->). unfold worn. repeat split; auto. apply thinned_refl.
Qed.

Lemma gradient_values_length (s : shallot) p : List.length (gradient_values E s p) = volume (shape3 (s_params s)).
Proof. unfold gradient_values. now rewrite map_length, seq_length. Qed.
Definition blank_gradient (s : shallot) (p : T) : ggrad T :=
  mkGG (fresh GRADIENT NONE (s_params s) (map (@SF T) (gradient_values E s p))) (PNpFloat p) None None None None.
Lemma new_grad_ok (s : shallot) p :
  new_grad (PArr "float64" (shape3 (s_params s)) (map (@SF T) (gradient_values E s p))) (EIs (s_params s)) (PNpFloat p) = Ok (blank_gradient s p).
Proof.
  unfold new_grad. rewrite (proj2 (new_gprop_iff _ _ _ _ (fresh GRADIENT NONE (s_params s) (map (@SF T) (gradient_values E s p))))) by (do 4 eexists; eauto 10).
  cbn [bind]. rewrite number_np. reflexivity.
Qed.
Lemma blank_gradient_inv (s : shallot) p : cube_inv (s_params s) (gg_prop (blank_gradient s p)).
Proof. split; [|reflexivity]. cbn [blank_gradient gg_prop]. apply fresh_inv. now rewrite map_length, gradient_values_length. Qed.
Lemma append_ok ps : forall (s : shallot), append_gradients E ps s =
  match ps with [] => (s, Ok tt) | _ => (with_grads s (Some (dflt [] (s_grads s) ++ map (blank_gradient s) ps)) (s_fit s), Ok tt) end.
Proof.
  induction ps as [|p ps IH]; intros s; [reflexivity|]. cbn [append_gradients]. rewrite new_grad_ok, IH.
  assert (X : forall q, blank_gradient (with_grads s (Some (dflt [] (s_grads s) ++ [blank_gradient s p])) (s_fit s)) q = blank_gradient s q) by reflexivity.
  destruct ps as [|q ps]; [reflexivity|]. cbn [with_grads s_grads s_fit dflt]. unfold with_grads. cbn [s_params s_nf s_diag s_radius s_shear s_dr s_inc s_tilt s_fx s_fy s_dmap s_ecl s_vel s_limb].
  f_equal. f_equal. f_equal. cbn [map]. rewrite <- app_assoc. reflexivity.
Qed.
Lemma disk_gradients_ok ps (s : shallot) :
  determine_disk_gradients E ps s = (with_grads s (Some (dflt [] (s_grads s) ++ map (blank_gradient s) ps)) (s_fit s), Ok tt).
Proof.
  unfold determine_disk_gradients. rewrite append_ok. destruct ps; [cbn [map]; now rewrite app_nil_r|]. reflexivity.
Qed.
Lemma sinv_append (s : shallot) ps : sinv s -> sinv (with_grads s (Some (dflt [] (s_grads s) ++ map (blank_gradient s) ps)) (s_fit s)).
Proof.
  intros H. apply sinv_fit_kept; auto. apply Forall_app. split.
  - destruct (s_grads s) as [gs|] eqn:Eg; [exact (i_grads H Eg)|constructor].
  - apply Forall_forall. intros g Hg. apply in_map_iff in Hg as (p & <- & _). apply blank_gradient_inv.
Qed.
Lemma keeps_disk ps : keeps (determine_disk_gradients E ps).
Proof. intros s H. rewrite disk_gradients_ok. split; [now apply sinv_append|apply aged_grads]. Qed.
Lemma grads_dflt (s : shallot) : sinv s -> Forall (fun g => cube_inv (s_params s) (gg_prop g)) (dflt [] (s_grads s)).
Proof. intros H. destruct (s_grads s) as [gs|] eqn:Eg; [exact (i_grads H Eg)|constructor]. Qed.
Lemma Forall_firstn' A (P : A -> Prop) n l : Forall P l -> Forall P (firstn n l).
Proof. intros H. revert n; induction H; intros [|n]; cbn; constructor; auto. Qed.
Lemma Forall_skipn' A (P : A -> Prop) n l : Forall P l -> Forall P (skipn n l).
Proof. intros H. revert n; induction H; intros [|n]; cbn; auto. Qed.
Lemma keeps_measured l e t : keeps (set_measured E l e t).
Proof.
  intros s H. unfold set_measured. match goal with |- context [match ?x with Ok _ => _ | Err _ => _ end] => destruct x as [[o vs]|] end; [|split; [exact H|apply aged_refl]].
  cbn zeta. match goal with |- context [each2 ?f ?l ?m] => set (F := f); set (L := l); assert (X := @each2_forall _ _ _ (fun g => cube_inv (s_params s) (gg_prop g)) F L m) end.
  destruct (each2 F L _) as [new r]; cbn [fst] in *. split; [|apply aged_grads]. apply sinv_fit_kept; auto. apply Forall_app. split; [apply Forall_firstn', grads_dflt; auto|].
  apply X; [intros a b Ha; apply determine_mask_inv; auto|apply Forall_skipn', grads_dflt; auto].
Qed.
Lemma keeps_add t l e tr : keeps (add_gradients E t l e tr).
Proof.
  intros s H. unfold add_gradients. assert (R : sinv s /\ aged s s) by (split; [auto|apply aged_refl]).
  destruct (s_limb s); [|exact R]. destruct (s_ecl s) as [ecl|]; [|exact R]. destruct (s_vel s); [|exact R].
  match goal with |- context [match ?x with Ok _ => _ | Err _ => _ end] => destruct x as [[t' l']|] end; [|exact R].
  refine (@keeps_bind _ _ _ _ (keeps_disk _) _ s H). intros _. apply keeps_bind; [apply keeps_measured|]. intros _. apply keeps_reset.
Qed.
Lemma remove_at_forall A (P : A -> Prop) l n : Forall P l -> Forall P (remove_at n l).
Proof. unfold remove_at. intros H. apply Forall_app. split; [now apply Forall_firstn'|now apply Forall_skipn']. Qed.
Lemma delete_all_forall A (P : A -> Prop) is : forall l, Forall P l -> Forall P (fst (delete_all l is)).
Proof. induction is as [|i is IH]; intros l H; cbn [delete_all]; auto. destruct (_ || _); auto. apply IH, remove_at_forall, H. Qed.
Lemma keeps_remove i : keeps (remove_gradients i).
Proof.
  intros s H. unfold remove_gradients. destruct (s_grads s) as [gs|] eqn:Eg; [|split; [auto|apply aged_refl]].
  destruct (array i _ _ _ _ _) as [v|]; [|split; [auto|apply aged_refl]].
  assert (X := delete_all_forall (P := fun g => cube_inv (s_params s) (gg_prop g)) (sort_desc (ints_of v)) (i_grads H Eg)).
  destruct (delete_all gs _) as [gs' [[]|e]]; cbn [fst] in *.
  - split; [apply keeps_reset; apply sinv_fit_kept; auto|]. eapply aged_trans; [apply (aged_grads s (Some gs') (s_fit s))|apply aged_grads].
  - split; [apply sinv_fit_kept; auto|apply aged_grads].
Qed.
Lemma keeps_eclipse a b c : keeps (set_eclipse_parameters a b c).
Proof.
  intros s H. unfold set_eclipse_parameters. destruct (number a _ _ _ _) as [a'|]; [|split; [auto|apply aged_refl]]. cbn zeta.
  set (s1 := with_eclipse s (Some a') (s_vel s) (s_limb s)). assert (H1 : sinv s1) by now apply sinv_eclipse. assert (A1 : aged s s1) by apply aged_eclipse.
  destruct (number b _ _ _ _) as [b'|]; [|auto].
  set (s2 := with_eclipse s1 (s_ecl s1) (Some b') (s_limb s1)). assert (H2 : sinv s2) by now apply sinv_eclipse. assert (A2 : aged s s2) by exact (aged_trans A1 (aged_eclipse _ _ _ _)).
  destruct (number c _ _ _ _) as [c'|]; [|auto].
  set (s3 := with_eclipse s2 (s_ecl s2) (s_vel s2) (Some c')). assert (H3 : sinv s3) by now apply sinv_eclipse. assert (A3 : aged s s3) by exact (aged_trans A2 (aged_eclipse _ _ _ _)).
  destruct (s_grads s3); [|auto]. cbn [reset_fit fst]. split; [|exact (aged_trans A3 (aged_trans (aged_grads _ _ _) (aged_grads _ _ _)))].
  change (sinv (with_grads s3 None None)). apply sinv_fit_none; [auto|discriminate].
Qed.
Lemma keeps_scale v u t : keeps (update_gradient_scaling E v u t).
Proof.
  intros s H. unfold update_gradient_scaling. cbn zeta.
  set (s1 := match v with Some v => with_eclipse s (s_ecl s) (Some v) (s_limb s) | None => s end).
  assert (H1 : sinv s1 /\ aged s s1) by (unfold s1; destruct v; [split; [now apply sinv_eclipse|apply aged_eclipse]|split; [auto|apply aged_refl]]). clearbody s1.
  set (s2 := match u with Some u => with_eclipse s1 (s_ecl s1) (s_vel s1) (Some u) | None => s1 end).
  assert (H2 : sinv s2 /\ aged s s2).
  { unfold s2. destruct H1. destruct u; [split; [now apply sinv_eclipse|eapply aged_trans; [eauto|apply aged_eclipse]]|auto]. }
  clearbody s2. clear s1 H1.
  match goal with |- context [match ?x with Ok _ => _ | Err _ => _ end] => destruct x as [tr|] end; [|exact H2].
  match goal with |- context [if ?b then _ else _] => set (sc := b) end. clearbody sc.
  assert (G : forall (K : shallot * res unit), (K = (s2, Ok tt) \/ K =
     (match s_grads s2 with
      | Some gs =>
        let '(gs0, r) := each2 (fun (g : ggrad T) (t0 : option T) =>
             match (if sc then determine_orbital_scale E s2 else Ok (dflt PNone (gg_orb g))) with
             | Ok o => determine_mask g (dflt PNone (gg_meas g)) o match t0 with Some t1 => Some (PNpFloat t1) | None => gg_trans g end (gg_err g)
             | Err e => (g, Err e)
             end) gs match tr with Some l => map Some l | None => repeat None (List.length gs) end in
        match r with Ok _ => reset_fit (with_grads s2 (Some gs0) (s_fit s2)) | Err e => (with_grads s2 (Some gs0) (s_fit s2), Err e) end
      | None => (s2, Err TypeError)
      end)) -> sinv (fst K) /\ aged s (fst K)).
  { intros K [-> | ->]; [exact H2|]. destruct H2 as [H2 A2]. destruct (s_grads s2) as [gs|] eqn:Eg; [|auto].
    match goal with |- context [each2 ?f ?l ?m] => set (F := f); assert (X := @each2_forall _ _ _ (fun g => cube_inv (s_params s2) (gg_prop g)) F l m) end.
    destruct (each2 F gs _) as [gs' r]; cbn [fst] in X.
    assert (X' : Forall (fun g => cube_inv (s_params s2) (gg_prop g)) gs').
    { apply X; [|exact (i_grads H2 Eg)]. intros a b Ha. unfold F. match goal with |- context [match ?x with Ok _ => _ | Err _ => _ end] => destruct x end; [|exact Ha]. now apply determine_mask_inv. }
    assert (S3 := sinv_fit_kept H2 X'). destruct r; cbn [fst].
    - split; [now apply keeps_reset|]. exact (aged_trans A2 (aged_trans (aged_grads _ _ _) (aged_grads _ _ _))).
    - split; [auto|exact (aged_trans A2 (aged_grads _ _ _))]. }
  apply G. destruct sc; [right; reflexivity|]. destruct tr; [right; reflexivity|left; reflexivity].
Qed.
Lemma cube_inv_data g (gr : ggrad T) v : cube_inv g (gg_prop gr) -> cube_inv g (fst (get_data (gg_prop gr) v)).
Proof.
  intros H. destruct (get_data (gg_prop gr) v) as [q r] eqn:Eq. cbn [fst].
  assert (D : (exists x, v = PBool x) \/ forall x, v <> PBool x) by (destruct v; eauto; right; discriminate).
  destruct D as [[x ->]|D]; [rewrite get_data_hidden in Eq by apply H; injection Eq as <- _; apply cube_data; auto; apply hidden_length|].
  rewrite get_data_bad in Eq by auto. injection Eq as <- _. exact H.
Qed.
Lemma keeps_gradients m b : keeps (get_gradients m b).
Proof.
  intros s H. unfold get_gradients. destruct (s_grads s) as [gs|] eqn:Eg; [|split; [auto|apply aged_refl]].
  match goal with |- context [match ?x with Ok _ => _ | Err _ => _ end] => destruct x as [mk|] end; [|split; [auto|apply aged_refl]].
  cbn zeta. match goal with |- context [each2 ?f ?l ?m] => set (F := f); assert (X := @each2_forall _ _ _ (fun g => cube_inv (s_params s) (gg_prop g)) F l m) end.
  destruct (each2 F gs _) as [gs' r]; cbn [fst] in *. split; [|apply aged_grads]. apply sinv_fit_kept; auto. apply X; [|exact (i_grads H Eg)].
  intros a ? Ha. unfold F. destruct (scaled_gradient a); [|exact Ha]. assert (Y := cube_inv_data a b Ha). destruct (get_data (gg_prop a) b) as [q [d|e]]; exact Y.
Qed.
Lemma keeps_point_gradients y x r m : keeps (point_gradients y x r m).
Proof.
  intros s H. unfold point_gradients. destruct (s_grads s) as [gs|] eqn:Eg; [|split; [auto|apply aged_refl]].
  cbn zeta. match goal with |- context [each2 ?f ?l ?m] => set (F := f); assert (X := @each2_forall _ _ _ (fun g => cube_inv (s_params s) (gg_prop g)) F l m) end.
  destruct (each2 F gs _) as [gs' q]; cbn [fst] in *. split; [|apply aged_grads]. apply sinv_fit_kept; auto. apply X; [|exact (i_grads H Eg)].
  intros a ? Ha. unfold F. assert (Y := cube_inv_data a m Ha). destruct (get_data (gg_prop a) m) as [p [d|e]]; exact Y.
Qed.
Lemma fit_term_length w (d d' : list T) g : List.length d = List.length (p_data (gg_prop g)) -> fit_term w d g = Ok d' -> List.length d' = List.length d.
Proof.
  intros Hl. unfold fit_term. destruct (if w then _ else _); cbn [bind]; [|discriminate]. destruct (scaled_gradient g) as [[sc|]|]; cbn [bind]; try discriminate.
  intros H. injection H as <-. now rewrite map_length, combine_length, Hl, Nat.min_id.
Qed.
Lemma fit_fold_length w gs n : Forall (fun g => List.length (p_data (gg_prop g)) = n) gs -> forall d d', List.length d = n -> fold_res (fit_term w) gs d = Ok d' -> List.length d' = n.
Proof.
  induction 1 as [|g gs Hg H IH]; intros d d' Hd; cbn [fold_res]; [congruence|]. destruct (fit_term w d g) as [d1|] eqn:E1; cbn [bind]; [|discriminate].
  apply IH. rewrite <- Hd. apply (@fit_term_length w d d1 g); [congruence|exact E1].
Qed.
Lemma grads_lengths (s : shallot) gs : sinv s -> s_grads s = Some gs -> Forall (fun g => List.length (p_data (gg_prop g)) = volume (shape3 (s_params s))) gs.
Proof. intros H Eg. eapply Forall_impl; [|exact (i_grads H Eg)]. intros g Hg. apply (cube_shape Hg). Qed.

(** the fit that is stored *)
Definition fit_of (g : gparams T) (data : list T) : gprop T :=
  with_mask (fresh GRADIENT_FIT NONE g (map (@SF T) data)) (Some (mkMarr "bool" (shape3 g) (map (fun x => SB (n_isnan x)) data))).
Lemma fit_of_data g data : p_data (fit_of g data) = data.
Proof. cbn [fit_of with_mask fresh with_colors with_limits p_data]. rewrite map_map. cbn [num_scal]. apply map_id. Qed.
Lemma fit_of_inv g data : List.length data = volume (shape3 g) -> cube_inv g (fit_of g data).
Proof.
  intros Hl. split; [|reflexivity]. split; [reflexivity|]. split; [rewrite fit_of_data; exact Hl|]. intros m Hm. cbn [fit_of with_mask p_mask] in Hm. injection Hm as <-.
  cbn [ma_dtype ma_shape ma_elems]. split; auto. split; auto. split; [now rewrite map_length|]. apply Forall_forall. intros x Hx. apply in_map_iff in Hx as (y & <- & _). exact I.
Qed.
Theorem fit_ok (s : shallot) w gs : s_grads s = Some gs -> determine_gradient_fit w s =
  match fold_res (fit_term w) gs (repeat n_zero (volume (shape3 (s_params s)))) with
  | Ok data => (with_grads s (s_grads s) (Some (fit_of (s_params s) data)), Ok tt)
  | Err e => (s, Err e)
  end.
Proof.
  intros Eg. unfold determine_gradient_fit. rewrite Eg. destruct (fold_res _ _ _) as [data|e]; cbn [bind]; [|reflexivity].
  rewrite (proj2 (new_gprop_iff _ _ _ _ (fresh GRADIENT_FIT NONE (s_params s) (map (@SF T) data)))) by (do 4 eexists; eauto 10). cbn [bind].
  set (p0 := fresh GRADIENT_FIT NONE (s_params s) (map (@SF T) data)).
  assert (X := proj2 (set_mask_ok p0 (fit_of (s_params s) data) (PArr "bool" (shape3 (s_params s)) (map (fun x => SB (n_isnan x)) data)))). rewrite X; [reflexivity|].
  eexists. split; reflexivity.
Qed.
Lemma keeps_determine_fit w : keeps (determine_gradient_fit w).
Proof.
  intros s H. destruct (s_grads s) as [gs|] eqn:Eg; [|unfold determine_gradient_fit; rewrite Eg; split; [auto|apply aged_refl]].
  rewrite (fit_ok s w Eg). destruct (fold_res _ _ _) as [data|e] eqn:Ef; [|split; [auto|apply aged_refl]]. cbn [fst]. split; [|apply aged_grads].
  rewrite Eg. apply sinv_grads; auto; [intros l Hl; injection Hl as <-; exact (i_grads H Eg)|]. intros p Hp. injection Hp as <-. split; [|discriminate].
  apply fit_of_inv. eapply fit_fold_length; [exact (grads_lengths H Eg)| |exact Ef]. apply repeat_length.
Qed.
Lemma hill_wf sh (h : T) l : List.length l = volume sh -> arr_wf (PArr "bool" sh (map (@SB T) (hill_mask h l))).
Proof.
  intros Hl. split; [rewrite map_length; unfold hill_mask; now rewrite map_length|]. split; [discriminate|]. intros _. apply Forall_forall. intros x Hx. apply in_map_iff in Hx as (y & <- & _). exact I.
Qed.
Lemma keeps_hill h : keeps (generate_hill_radius_mask h).
Proof.
  intros s H. unfold generate_hill_radius_mask. destruct (number h _ _ _ _) as [h'|]; [|split; [auto|apply aged_refl]].
  destruct (cube_shape (i_cubes H WRadius)) as [_ Hl]. cbn [the_cube] in Hl.
  assert (X := set_mask_inv _ (hill_wf (shape3 (s_params s)) (num_of h') (p_data (s_dr s)) Hl) (i_cubes H WRadius)).
  assert (Y := set_mask_worn (s_dr s) (PArr "bool" (shape3 (s_params s)) (map (@SB T) (hill_mask (num_of h') (p_data (s_dr s)))))).
  cbn [the_cube] in X. destruct (set_mask _ _) as [p r]; cbn [fst] in *. split; [exact (@sinv_put WRadius s p H X)|exact (@aged_put WRadius s p Y)].
Qed.
Lemma keeps_point y x r m : keeps (get_grid_point_data y x r m).
Proof.
  intros s H. unfold get_grid_point_data. destruct (g_shape (s_params s)) as [[my mx] mr].
  match goal with |- sinv (fst (?f s)) /\ _ => enough (K : keeps f) by exact (K s H) end.
  repeat first [apply keeps_bind; [first [apply keeps_lift|apply (keeps_cube WRadius)|apply (keeps_cube WInclination)|apply (keeps_cube WTilt)|apply (keeps_cube WFx)|apply (keeps_cube WFy)|apply keeps_dmap|apply keeps_point_gradients]|intros] | apply keeps_ret].
Qed.
Lemma keeps_closest a b c d m : keeps (determine_closest a b c d m).
Proof.
  intros s H. unfold determine_closest.
  match goal with |- sinv (fst (?f s)) /\ _ => enough (K : keeps f) by exact (K s H) end.
  repeat first [apply keeps_bind; [first [apply keeps_lift|apply (keeps_cube WRadius)|apply (keeps_cube WInclination)|apply (keeps_cube WTilt)]|intros] | apply keeps_ret | match goal with |- keeps (let '(_, _) := ?x in _) => destruct x as [[? ?] ?] end].
Qed.
Lemma replace_nth_length A i (a : A) l : List.length (replace_nth i a l) = List.length l.
Proof. revert i; induction l; intros [|i]; cbn; auto. Qed.
Lemma keeps_drop i : keeps (fun s => (with_grads s (s_grads s) (option_map (fun p => with_data p (replace_nth i n_nan (p_data p))) (s_fit s)), Ok tt)).
Proof.
  intros s H. cbn [fst]. split; [|apply aged_grads]. apply sinv_grads; auto; [intros l; apply (i_grads H)|]. intros p Hp. destruct (s_fit s) as [q|] eqn:Eq; [|discriminate].
  cbn [option_map] in Hp. injection Hp as <-. destruct (i_fit H Eq) as [A B]. split; auto. apply cube_data; auto. apply replace_nth_length.
Qed.
Lemma keeps_loop k : keeps (extract_loop k).
Proof.
  induction k as [|k IH]; [apply keeps_ret|]. intros s H. cbn [extract_loop]. destruct (s_fit s) as [p|]; [|split; [auto|apply aged_refl]].
  destruct (nanargmin _) as [i|]; [|split; [auto|apply aged_refl]]. destruct (unravel _ _) as [[y x] r].
  match goal with |- sinv (fst (?f s)) /\ _ => enough (K : keeps f) by exact (K s H) end.
  apply keeps_bind; [apply keeps_point|]. intros d. apply keeps_bind; [apply keeps_drop|]. intros _. apply keeps_bind; [exact IH|]. intros l. apply keeps_ret.
Qed.
Lemma keeps_extract n : keeps (extract_solutions n).
Proof.
  intros s H. unfold extract_solutions. match goal with |- context [match ?x with Ok _ => _ | Err _ => _ end] => destruct x as [k|] end; [|split; [auto|apply aged_refl]].
  refine (@keeps_bind _ _ _ _ (keeps_fit _ _) _ s H). intros _. apply keeps_loop.
Qed.
Lemma replace_nth_forall A (P : A -> Prop) i a l : P a -> Forall P l -> Forall P (replace_nth i a l).
Proof. intros Ha H. revert i. induction H; intros [|i]; cbn; auto. Qed.

Theorem do_op_keeps (s : shallot) o : op_wf o -> sinv s -> sinv (do_op E s o) /\ aged s (do_op E s o).
Proof.
  intros Hw H. destruct o; cbn [do_op].
  - now apply keeps_add.
  - now apply keeps_remove.
  - now apply keeps_eclipse.
  - now apply keeps_scale.
  - now apply keeps_determine_fit.
  - now apply keeps_hill.
  - rewrite mask_cube_put. split; [apply sinv_put; auto; apply set_mask_inv; auto; apply H|apply aged_put, set_mask_worn].
  - unfold mask_gradient. destruct (s_grads s) as [gs|] eqn:Eg; [|split; [auto|apply aged_refl]]. destruct (nth_error gs k) as [g|] eqn:Ek; [|split; [auto|apply aged_refl]].
    split; [|apply aged_grads]. apply sinv_fit_kept; auto. assert (F := i_grads H Eg). apply replace_nth_forall; auto. cbn [with_prop gg_prop]. apply set_mask_inv; auto.
    rewrite Forall_forall in F. apply F. eapply nth_error_In; eauto.
  - now apply keeps_cube.
  - now apply keeps_dmap.
  - now apply keeps_fit.
  - now apply keeps_gradients.
  - now apply keeps_extract.
  - now apply keeps_closest.
  - now apply keeps_point.
Qed.
Theorem do_ops_keeps l : forall s : shallot, Forall (@op_wf T) l -> sinv s -> sinv (do_ops E s l) /\ aged s (do_ops E s l).
Proof.
  induction l as [|o l IH]; intros s Hw H; [split; [auto|apply aged_refl]|]. inversion Hw; subst. cbn [do_ops fold_left].
  destruct (do_op_keeps o H2 H) as [A B]. destruct (IH (do_op E s o) H3 A) as [C D]. split; auto. exact (aged_trans B D).
Qed.

Theorem constructed_sinv g nf (s : shallot) : proper (s_params s) -> constructed E g nf s -> sinv s.
Proof.
  intros Hp H. constructor; auto.
  - intros w. destruct (cn_plain H w) as (_ & _ & A & B & C & D). assert (X : cube_of w s = the_cube w s) by (destruct w; reflexivity). rewrite X in *.
    split; [|exact A]. split; [congruence|]. split; auto. intros m Hm. congruence.
  - destruct (cn_dmap H) as (m & Hm & _ & _ & A & B & C & D). exists m. split; auto. split; [|exact A]. split; [congruence|]. split; [apply D|]. intros m' Hm'. congruence.
  - rewrite (cn_grads H). discriminate.
  - rewrite (cn_fit H). discriminate.
  - apply H.
Qed.
Theorem reached_sinv (s : shallot) : sreach E s -> sinv s.
Proof.
  induction 1 as [g nf ll keep inter og l s Hg H|s o Hw H IH]; [|exact (proj1 (do_op_keeps o Hw IH))].
  apply reachable_proper in Hg. destruct (constructor_result E nf ll keep inter Hg H) as (_ & Hc & _). apply (@constructed_sinv g nf); auto.
  destruct (cn_data Hc) as [(_ & -> & _)|(_ & Hx & _)]; auto. exact (extend_proper Hg Hx).
Qed.
End O.
