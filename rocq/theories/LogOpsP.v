(** Proofs about the logs of grids. *)
From Coq Require Import ZArith Reals List Bool String Lia.
From Verif Require Import Num Py Validate Ring RingSystem FS GridParams GridDiag Names GridProp Geometry Build Shallot ShallotOps SpecOps Fmt Text Message Log LogOps.
From Verif Require Import SpecBuild NumP SpecNum RingP SpecFmt TextRingP SpecLogOps GridPropP OpsP OpsReadP OpsEditP OpsGradP OpsFitP OpsExtractP OpsWrapP OpsListP AddLaws SpecProp ShallotOps.
Import ListNotations.
Set Implicit Arguments.
Local Open Scope string_scope.
Local Open Scope list_scope.

Section O.
Context {T : Type} {NT : Num T} (E : env T).
Variable fmt : nat -> T -> string.
Notation pyval := (pyval T).
Notation shallot := (shallot T).

(** *** dropping the log *)
Definition drops {A} (l : L (T := T) A) (m : M (T := T) A) : Prop := forall s, fst (l s) = m s.
Lemma drops_quiet A (m : M A) : drops (quiet m) m. Proof. intros s. reflexivity. Qed.
Lemma drops_says A lg (l : L A) m : drops l m -> drops (says lg l) m.
Proof. intros H s. unfold says. rewrite <- H. destruct (l s). reflexivity. Qed.
Lemma drops_bind A B (l : L A) m (f : A -> L B) g : drops l m -> (forall a, drops (f a) (g a)) -> drops (lbind l f) (mbind m g).
Proof.
  intros H K s. unfold lbind, mbind. rewrite <- H. destruct (l s) as [[s1 [a|e]] lg]; cbn [fst]; [|reflexivity]. rewrite <- K. destruct (f a s1). reflexivity.
Qed.
Lemma drops_reset : drops reset_fit_l reset_fit.
Proof. intros s. unfold reset_fit_l, reset_fit. destruct s as [? ? ? ? ? ? ? ? ? ? ? ? [fit|] ? ? ?]; reflexivity. Qed.

Theorem add_drop t l e tr : drops (add_gradients_l E t l e tr) (add_gradients E t l e tr).
Proof.
  intros s. unfold add_gradients_l, add_gradients. destruct (s_limb s); [|reflexivity]. destruct (s_ecl s); [|reflexivity]. destruct (s_vel s); [|reflexivity].
  match goal with |- context [match ?x with Ok _ => _ | Err _ => _ end] => destruct x as [[t' l']|] end; [|reflexivity].
  refine (drops_says _ (drops_bind _ _ (drops_quiet _) _) s). intros _. apply drops_bind; [apply drops_quiet|]. intros _. apply drops_reset.
Qed.
Theorem remove_drop i : drops (remove_gradients_l i) (remove_gradients i).
Proof.
  intros s. unfold remove_gradients_l, remove_gradients. destruct (s_grads s) as [gs|]; [|reflexivity]. destruct (array _ _ _ _ _ _); [|reflexivity].
  destruct (delete_all _ _) as [gs' [u|e]]; [|reflexivity]. apply drops_reset.
Qed.
Theorem eclipse_drop a b c : drops (set_eclipse_parameters_l a b c) (set_eclipse_parameters a b c).
Proof.
  intros s. unfold set_eclipse_parameters_l, set_eclipse_parameters. destruct (number a _ _ _ _); [|reflexivity]. destruct (number b _ _ _ _); [|reflexivity].
  destruct (number c _ _ _ _); [|reflexivity]. cbn zeta. cbn [with_eclipse s_grads]. destruct (s_grads s); [|reflexivity]. apply (drops_says _ drops_reset).
Qed.
Theorem scale_drop v u t : drops (update_gradient_scaling_l E v u t) (update_gradient_scaling E v u t).
Proof.
  intros s. unfold update_gradient_scaling_l, update_gradient_scaling. cbn zeta.
  match goal with |- context [match ?x with Ok _ => _ | Err _ => _ end] => destruct x as [tr|] end; [|reflexivity].
  destruct (match v with Some _ => _ | None => _ end), tr; try reflexivity;
  (match goal with |- context [match s_grads ?q with _ => _ end] => destruct (s_grads q) end; [|reflexivity]);
  destruct (each2 _ _ _) as [gs [r|e]]; try reflexivity; apply drops_reset.
Qed.
Theorem fit_drop w : drops (determine_gradient_fit_l w) (determine_gradient_fit w).
Proof. intros s. unfold determine_gradient_fit_l. destruct (s_grads s) eqn:Eg; [apply (drops_says _ (drops_quiet _))|]. unfold determine_gradient_fit. now rewrite Eg. Qed.
Theorem getfit_drop m b : drops (get_gradient_fit_l m b) (get_gradient_fit m b).
Proof. intros s. unfold get_gradient_fit_l. destruct (s_fit s) eqn:Ef; [reflexivity|]. unfold get_gradient_fit. now rewrite Ef. Qed.
Theorem extract_drop n : drops (extract_solutions_l n) (extract_solutions n).
Proof.
  intros s. unfold extract_solutions_l, extract_solutions. destruct (combined_mask s); [|reflexivity]. cbn [bind]. cbn zeta. destruct (number _ _ _ _ _); [|reflexivity].
  refine (drops_says _ (drops_bind _ _ (getfit_drop _ _) _) s). intros _. apply drops_quiet.
Qed.
Theorem closest_drop a b c d m : drops (determine_closest_l fmt a b c d m) (determine_closest a b c d m).
Proof.
  intros s. unfold determine_closest_l, determine_closest.
  match goal with |- fst (?f s) = ?g s => enough (K : drops f g) by exact (K s) end.
  repeat first [apply drops_bind; [apply drops_quiet|intros]|apply drops_says, drops_quiet|match goal with |- drops (let '(_, _) := ?x in _) _ => destruct x as [[? ?] ?] end].
Qed.
Lemma rows_drop i n ys : forall s, fst (rows_l E i n ys s) = build_rows E i ys s.
Proof.
  induction ys as [|y ys IH]; intros s; [reflexivity|]. cbn [rows_l build_rows]. destruct (build_row E s y) as [s1|]; [|reflexivity]. rewrite <- IH.
  destruct (rows_l E i n ys s1) as [[l r] lg]. reflexivity.
Qed.
Theorem build_drop s i y : fst (build_grid_l E s i y) = build_grid E s i y.
Proof.
  unfold build_grid_l, build_grid. destruct (number _ _ _ _ _) as [v|]; [|reflexivity]. destruct (if Z.eqb _ _ then _ else _) as [s1|]; [|reflexivity]. cbn zeta.
  rewrite <- (rows_drop i (List.length (g_dy (s_params s1)))). destruct (rows_l _ _ _ _ _) as [[l [s2|e]] lg]; [|reflexivity]. cbn [fst]. destruct (set_contrasts s2); reflexivity.
Qed.
Theorem finish_drop s : fst (finish_l E fmt s) = finish_shallot E s.
Proof.
  unfold finish_l, finish_shallot. destruct (extend_shallot E s) as [g [s1|e]]; [|reflexivity]. unfold diagnose_shallot. destruct (diagnose _ _); reflexivity.
Qed.
Theorem new_drop g nf ll k i : fst (new_shallot_l E fmt g nf ll k i) = new_shallot E g nf ll k i.
Proof.
  unfold new_shallot_l, new_shallot. cbn zeta. match goal with |- context [match ?x with Ok _ => _ | Err _ => _ end] => destruct x as [[s b]|] end; [|reflexivity].
  rewrite <- build_drop. destruct (build_grid_l E s b (PInt 0)) as [[l [s1|e]] lg]; [|reflexivity]. cbn [fst]. rewrite <- finish_drop.
  destruct (finish_l E fmt s1) as [[g' r] lg']. reflexivity.
Qed.
(** the records come with the state that the call leaves *)
Definition raised {A} (x : shallot * res A) : option exn := match snd x with Ok _ => None | Err e => Some e end.
Lemma done_drop A (l : L (T := T) A) m s : drops l m -> fst (done (l s)) = raised (m s).
Proof. intros H. rewrite <- H. reflexivity. Qed.

(** *** which calls keep the fit and the gradients *)
Definition pres (s : shallot) : bool * bool := (match s_fit s with Some _ => true | None => false end, match s_grads s with Some _ => true | None => false end).
Definition still {A} (m : M (T := T) A) : Prop := forall s, pres (fst (m s)) = pres s.
Lemma still_bind A B (m : M A) (f : A -> M B) : still m -> (forall a, still (f a)) -> still (mbind m f).
Proof. intros Hm Hf s. unfold mbind. assert (X := Hm s). destruct (m s) as [s1 [a|e]]; cbn [fst] in *; [|exact X]. now rewrite Hf. Qed.
Lemma still_lift A (a : res A) : still (lift a). Proof. intros s. reflexivity. Qed.
Lemma still_ret A (a : A) : still (ret a). Proof. intros s. reflexivity. Qed.
Lemma pres_put w s p : pres (put_cube w s p) = pres s. Proof. destruct w; reflexivity. Qed.
Lemma still_cube w m b : still (get_cube w m b).
Proof. intros s. rewrite get_cube_read. destruct (read_put (the_cube w s) (put_cube w s) m b) as [q ->]. apply pres_put. Qed.
Lemma still_dr m b : still (get_disk_radius m b). Proof. exact (still_cube WRadius m b). Qed.
Lemma still_in m b : still (get_inclination m b). Proof. exact (still_cube WInclination m b). Qed.
Lemma still_ti m b : still (get_tilt m b). Proof. exact (still_cube WTilt m b). Qed.
Lemma still_fx m b : still (get_fx_map m b). Proof. exact (still_cube WFx m b). Qed.
Lemma still_fy m b : still (get_fy_map m b). Proof. exact (still_cube WFy m b). Qed.
Lemma still_dmap m b : still (get_diagnostic_map m b).
Proof. intros s. unfold get_diagnostic_map. destruct (s_dmap s) as [p|]; auto. destruct (read_put p (set_dmap s) m b) as [q ->]. reflexivity. Qed.
Lemma still_getfit m b : still (get_gradient_fit m b).
Proof.
  intros s. unfold get_gradient_fit. destruct (s_fit s) as [p|] eqn:Ef; [|reflexivity].
  assert (X : fst (let (s0, r) := read_property p (set_fit s) m b in match r with Ok d => (s0, Ok (Some d)) | Err e => (s0, Err e) end) = fst (read_property p (set_fit s) m b)).
  { destruct (read_property p (set_fit s) m b) as [s0 [d|e]]; reflexivity. }
  rewrite X. destruct (read_put p (set_fit s) m b) as [q ->]. unfold pres. rewrite Ef. reflexivity.
Qed.
Lemma still_points y x r m : still (point_gradients y x r m).
Proof. intros s. unfold point_gradients. destruct (s_grads s) eqn:Eg; auto. cbn zeta. destruct (each2 _ _ _). unfold pres. cbn [fst with_grads s_fit s_grads]. now rewrite Eg. Qed.
Lemma still_point y x r m : still (get_grid_point_data y x r m).
Proof.
  intros s. unfold get_grid_point_data. destruct (g_shape (s_params s)) as [[my mx] mr].
  match goal with |- pres (fst (?f s)) = _ => enough (K : still f) by exact (K s) end.
  repeat first [apply still_bind; [first [apply still_lift|apply still_dr|apply still_in|apply still_ti|apply still_fx|apply still_fy|apply still_dmap|apply still_points]|intros] | apply still_ret].
Qed.
Lemma still_closest a b c d m : still (determine_closest a b c d m).
Proof.
  intros s. unfold determine_closest.
  match goal with |- pres (fst (?f s)) = _ => enough (K : still f) by exact (K s) end.
  repeat first [apply still_bind; [first [apply still_lift|apply still_dr|apply still_in|apply still_ti]|intros] | apply still_ret | match goal with |- still (let '(_, _) := ?x in _) => destruct x as [[? ?] ?] end].
Qed.
Lemma still_loop k : still (extract_loop k).
Proof.
  induction k as [|k IH]; [apply still_ret|]. intros s. cbn [extract_loop]. destruct (s_fit s) as [p|]; [|reflexivity]. destruct (nanargmin _) as [i|]; [|reflexivity].
  destruct (unravel _ _) as [[y x] r]. match goal with |- pres (fst (?f s)) = _ => enough (K : still f) by exact (K s) end.
  apply still_bind; [apply still_point|]. intros d. apply still_bind. { intros s1. unfold pres. cbn [fst with_grads s_fit s_grads]. destruct (s_fit s1); reflexivity. }
  intros _. apply still_bind; [exact IH|]. intros. apply still_ret.
Qed.
Lemma still_extract n : still (extract_solutions n).
Proof.
  intros s. unfold extract_solutions. match goal with |- context [match ?x with Ok _ => _ | Err _ => _ end] => destruct x as [k|] end; [|reflexivity].
  refine (@still_bind _ _ _ _ (still_getfit _ _) _ s). intros _. apply still_loop.
Qed.
Lemma still_gradients m b : still (get_gradients m b).
Proof.
  intros s. unfold get_gradients. destruct (s_grads s) eqn:Eg; [|reflexivity].
  match goal with |- context [match ?x with Ok _ => _ | Err _ => _ end] => destruct x as [mk|] end; [|reflexivity]. cbn zeta. destruct (each2 _ _ _). unfold pres. cbn [fst with_grads s_fit s_grads]. now rewrite Eg.
Qed.
Lemma still_hill h : still (generate_hill_radius_mask h).
Proof. intros s. unfold generate_hill_radius_mask. destruct (number h _ _ _ _); [|reflexivity]. destruct (set_mask _ _). reflexivity. Qed.
Lemma still_mask w m s : pres (mask_cube w m s) = pres s.
Proof. destruct w; reflexivity. Qed.
Lemma still_maskgrad k m s : pres (mask_gradient k m s) = pres s.
Proof. unfold mask_gradient. destruct (s_grads s) as [gs|] eqn:Eg; [|reflexivity]. destruct (nth_error gs k); [|reflexivity]. unfold pres. cbn [with_grads s_fit s_grads]. now rewrite Eg. Qed.

(** *** the log of a call, whole *)
Lemma reset_log (s : shallot) lg s' r : reset_fit_l s = (s', r, lg) -> r = Ok tt /\ s' = with_grads s (s_grads s) None /\ clearing s lg.
Proof.
  intros H. assert (D := drops_reset s). rewrite H in D. cbn [fst] in D. unfold reset_fit in D. apply pair_equal_spec in D as [-> ->]. split; [reflexivity|]. split; [reflexivity|].
  unfold reset_fit_l in H. destruct (s_fit s) eqn:Ef; apply pair_equal_spec in H as [_ <-]; unfold clearing; rewrite Ef; [right; split; [discriminate|reflexivity]|left; auto].
Qed.
Lemma measured_fit l e tr s : s_fit (fst (set_measured E l e tr s)) = s_fit s.
Proof.
  unfold set_measured. match goal with |- context [match ?x with Ok _ => _ | Err _ => _ end] => destruct x as [[o vs]|] end; [|reflexivity]. cbn zeta. destruct (each2 _ _ _). reflexivity.
Qed.
Lemma measured_number l e tr s : number_of_gradients (fst (set_measured E l e tr s)) = number_of_gradients s /\ (s_grads s <> None -> s_grads (fst (set_measured E l e tr s)) <> None).
Proof.
  unfold set_measured. match goal with |- context [match ?x with Ok _ => _ | Err _ => _ end] => destruct x as [[o vs]|] end; [|split; auto]. cbn zeta.
  set (k := (_ - _)%nat). destruct (each2 _ _ _) as [new r] eqn:Ee. unfold number_of_gradients. cbn [fst with_grads s_grads]. split; [|discriminate].
  assert (X := f_equal (fun x => List.length (fst x)) Ee). cbn beta in X. rewrite each2_length in X. cbn [fst] in X. rewrite app_length, <- X, <- app_length, firstn_skipn.
  destruct (s_grads s); reflexivity.
Qed.
Lemma array_1d v lo up dt t : array v lo up false (Some dt) (Some 1%Z) = Ok t -> exists dt' n el, t = PArr dt' [n] el /\ v = t.
Proof.
  unfold array. destruct v as [| | | | | | | |dt' sh el|]; try discriminate.
  destruct (match lo with Some _ => _ | None => _ end); cbn [bind]; [|discriminate].
  unfold array_dimensions. destruct (Z.eqb _ _) eqn:Ed; cbn [bind]; [|discriminate]. intros H.
  destruct (array_type _ _); cbn [bind] in H; [|discriminate]. assert (PArr dt' sh el = t) as <- by congruence. destruct sh as [|n [|? ?]]; try (cbn in Ed; discriminate); eauto.
  exfalso. apply Z.eqb_eq in Ed. cbn [List.length] in Ed. lia.
Qed.

Context {LT : NumLaws T}.
Lemma add_cases t l e tr s s' r lg : add_gradients_l E t l e tr s = (s', r, lg) ->
  (~ eclipse_known s /\ s' = s /\ r = Ok tt /\ lg = [MISSING]) \/
  (eclipse_known s /\ s' = s /\ (exists x, r = Err x) /\ lg = []) \/
  (eclipse_known s /\ exists dt n el c, t = PArr dt [n] el /\ lg = info "add_gradients" ("adding " ++ str_nat n ++ " gradients")%string :: c /\
    number_of_gradients s' = number_of_gradients s + List.length el /\ s_grads s' <> None /\
    (((exists x, r = Err x) /\ c = [] /\ s_fit s' = s_fit s) \/ (r = Ok tt /\ clearing s c /\ s_fit s' = None))).
Proof.
  unfold add_gradients_l, eclipse_known. destruct (s_limb s) as [u|]; [|intros H; apply pair_equal_spec in H as [H <-]; apply pair_equal_spec in H as [<- <-]; left; repeat split; auto; intros (X & _); congruence].
  destruct (s_ecl s) as [ec|]; [|intros H; apply pair_equal_spec in H as [H <-]; apply pair_equal_spec in H as [<- <-]; left; repeat split; auto; intros (_ & X & _); congruence].
  destruct (s_vel s) as [vl|]; [|intros H; apply pair_equal_spec in H as [H <-]; apply pair_equal_spec in H as [<- <-]; left; repeat split; auto; intros (_ & _ & X); congruence].
  assert (K : Some u <> None /\ Some ec <> None /\ Some vl <> None) by (repeat split; discriminate).
  destruct (array t _ _ _ _ _) as [t'|] eqn:At; cbn [bind]; [|intros H; apply pair_equal_spec in H as [H <-]; apply pair_equal_spec in H as [<- <-]; right; left; repeat split; eauto; discriminate].
  destruct (array l _ _ _ _ _) as [l'|]; cbn [bind]; [|intros H; apply pair_equal_spec in H as [H <-]; apply pair_equal_spec in H as [<- <-]; right; left; repeat split; eauto; discriminate].
  destruct (same_shape_arrays _ _); cbn [bind]; [|intros H; apply pair_equal_spec in H as [H <-]; apply pair_equal_spec in H as [<- <-]; right; left; repeat split; eauto; discriminate].
  destruct (array_1d _ _ _ _ At) as (dt & n & el & -> & ->). unfold says, lbind, quiet. rewrite disk_gradients_ok.
  set (s1 := with_grads s _ _). assert (F := measured_fit l' e tr s1). assert (N := measured_number l' e tr s1). destruct (set_measured E l' e tr s1) as [s2 [[]|x]]; cbn [fst] in F, N.
  - destruct (reset_fit_l s2) as [[s3 r3] c] eqn:Er. destruct (reset_log _ Er) as (-> & -> & C). intros H. apply pair_equal_spec in H as [H <-]. apply pair_equal_spec in H as [<- <-].
    right. right. split; [exact K|]. exists dt, n, el, c. split; [reflexivity|]. split; [reflexivity|]. destruct N as [N1 N2]. split.
    + unfold number_of_gradients in *. cbn [with_grads s_grads]. rewrite N1. cbn [s1 with_grads s_grads]. rewrite app_length, !map_length. cbn [elems_of]. rewrite map_length. destruct (s_grads s); reflexivity.
    + split; [cbn [with_grads s_grads]; apply N2; cbn; discriminate|]. right. split; [reflexivity|]. split; [|reflexivity]. unfold clearing in *. rewrite F in C. exact C.
  - intros H. apply pair_equal_spec in H as [H <-]. apply pair_equal_spec in H as [<- <-]. right. right. split; [exact K|]. exists dt, n, el, []. split; [reflexivity|]. split; [reflexivity|]. destruct N as [N1 N2]. split.
    + unfold number_of_gradients in *. rewrite N1. cbn [s1 with_grads s_grads]. rewrite app_length, !map_length. cbn [elems_of]. rewrite map_length. destruct (s_grads s); reflexivity.
    + split; [apply N2; cbn; discriminate|]. left. split; [eauto|]. split; [reflexivity|exact F].
Qed.
Lemma remove_cases i s s' r lg : remove_gradients_l i s = (s', r, lg) ->
  (s_grads s = None /\ s' = s /\ r = Ok tt /\ lg = [NO_GRADIENTS]) \/
  (s_grads s <> None /\ s_grads s' <> None /\ (((exists x, r = Err x) /\ lg = [] /\ s_fit s' = s_fit s) \/ (r = Ok tt /\ clearing s lg /\ s_fit s' = None))).
Proof.
  unfold remove_gradients_l. destruct (s_grads s) as [gs|] eqn:Eg.
  - intros H. right. split; [discriminate|]. destruct (array _ _ _ _ _ _) as [v|x].
    + destruct (delete_all _ _) as [gs' [u|x]].
      * destruct (reset_log _ H) as (-> & -> & C). split; [cbn; discriminate|]. right. auto.
      * apply pair_equal_spec in H as [H <-]; apply pair_equal_spec in H as [<- <-]. split; [cbn; discriminate|]. left. eauto.
    + apply pair_equal_spec in H as [H <-]; apply pair_equal_spec in H as [<- <-]. split; [congruence|]. left. eauto.
  - intros H. apply pair_equal_spec in H as [H <-]; apply pair_equal_spec in H as [<- <-]. left. auto.
Qed.
Lemma eclipse_cases a b c s s' r lg : set_eclipse_parameters_l a b c s = (s', r, lg) ->
  ((exists x, r = Err x) /\ lg = [] /\ s_fit s' = s_fit s /\ s_grads s' = s_grads s) \/
  (r = Ok tt /\ s_grads s = None /\ lg = [] /\ s_fit s' = s_fit s /\ s_grads s' = None) \/
  (r = Ok tt /\ s_grads s <> None /\ (exists c, lg = DROPPED :: c /\ clearing s c) /\ s_fit s' = None /\ s_grads s' = None).
Proof.
  unfold set_eclipse_parameters_l. destruct (number a _ _ _ _) as [va|x]; [|intros H; apply pair_equal_spec in H as [H <-]; apply pair_equal_spec in H as [<- <-]; left; eauto].
  destruct (number b _ _ _ _) as [vb|x]; [|intros H; apply pair_equal_spec in H as [H <-]; apply pair_equal_spec in H as [<- <-]; left; eauto].
  destruct (number c _ _ _ _) as [vc|x]; [|intros H; apply pair_equal_spec in H as [H <-]; apply pair_equal_spec in H as [<- <-]; left; eauto].
  cbn zeta. cbn [with_eclipse s_grads]. destruct (s_grads s) as [gs|] eqn:Eg.
  - unfold says. match goal with |- context [reset_fit_l ?q] => destruct (reset_fit_l q) as [[s3 r3] cl] eqn:Er end. destruct (reset_log _ Er) as (-> & -> & C).
    intros H. apply pair_equal_spec in H as [H <-]; apply pair_equal_spec in H as [<- <-]. right. right. split; [reflexivity|]. split; [discriminate|]. split; [|auto]. exists cl. split; [reflexivity|exact C].
  - intros H; apply pair_equal_spec in H as [H <-]; apply pair_equal_spec in H as [<- <-]. right. left. auto.
Qed.
Lemma scale_cases v u t s s' r lg : update_gradient_scaling_l E v u t s = (s', r, lg) ->
  ((exists x, r = Err x) /\ lg = [] /\ s_fit s' = s_fit s /\ (s_grads s' = None <-> s_grads s = None)) \/
  (v = None /\ u = None /\ t = None /\ s' = s /\ r = Ok tt /\ lg = [NO_CHANGES]) \/
  (~ (v = None /\ u = None /\ t = None) /\ r = Ok tt /\ clearing s lg /\ s_fit s' = None /\ s_grads s <> None /\ s_grads s' <> None).
Proof.
  unfold update_gradient_scaling_l. cbn zeta. set (s2 := match u with Some _ => _ | None => _ end).
  assert (F2 : s_fit s2 = s_fit s) by (unfold s2; destruct u, v; reflexivity). assert (G2 : s_grads s2 = s_grads s) by (unfold s2; destruct u, v; reflexivity).
  assert (S2 : v = None -> u = None -> s2 = s) by (unfold s2; intros -> ->; reflexivity). clearbody s2. rewrite G2.
  destruct t as [tv|].
  - destruct (array _ _ _ _ _ _) as [t'|x]; cbn [bind]; [|intros H; apply pair_equal_spec in H as [H <-]; apply pair_equal_spec in H as [<- <-]; left; rewrite G2; repeat split; eauto].
    destruct (same_shape_arrays _ _); cbn [bind]; [|intros H; apply pair_equal_spec in H as [H <-]; apply pair_equal_spec in H as [<- <-]; left; rewrite G2; repeat split; eauto].
    destruct (match v with Some _ => _ | None => _ end); (destruct (s_grads s) as [gs|]; [|intros H; apply pair_equal_spec in H as [H <-]; apply pair_equal_spec in H as [<- <-]; left; rewrite G2; repeat split; eauto]);
    (destruct (each2 _ _ _) as [gs' [cs|x]]; [intros H; destruct (reset_log _ H) as (-> & -> & C); right; right; split; [intros (_ & _ & X); discriminate|]; split; [reflexivity|]; split; [|repeat split; discriminate]; unfold clearing in *; cbn [with_grads s_fit] in C; rewrite F2 in C; exact C
     |intros H; apply pair_equal_spec in H as [H <-]; apply pair_equal_spec in H as [<- <-]; left; split; [eauto|]; split; [reflexivity|]; split; [exact F2|]; cbn; split; discriminate]).
  - destruct v as [vv|], u as [uu|]; cbn iota;
    try ((destruct (s_grads s) as [gs|]; [|intros H; apply pair_equal_spec in H as [H <-]; apply pair_equal_spec in H as [<- <-]; left; rewrite G2; repeat split; eauto]);
    (destruct (each2 _ _ _) as [gs' [cs|x]]; [intros H; destruct (reset_log _ H) as (-> & -> & C); right; right; split; [intros (X & X2 & _); discriminate|]; split; [reflexivity|]; split; [|repeat split; discriminate]; unfold clearing in *; cbn [with_grads s_fit] in C; rewrite F2 in C; exact C
     |intros H; apply pair_equal_spec in H as [H <-]; apply pair_equal_spec in H as [<- <-]; left; split; [eauto|]; split; [reflexivity|]; split; [exact F2|]; cbn; split; discriminate])).
    intros H; apply pair_equal_spec in H as [H <-]; apply pair_equal_spec in H as [<- <-]. right. left. rewrite S2 by auto. auto 10.
Qed.
Lemma fit_cases w s s' r lg : determine_gradient_fit_l w s = (s', r, lg) ->
  (s_grads s = None /\ s' = s /\ r = Ok tt /\ lg = [NOTHING_TO_FIT]) \/
  (exists gs, s_grads s = Some gs /\ lg = [info "determine_gradient_fit" ("determining " ++ str_nat (List.length gs) ++ " gradient rms's")%string] /\ s_grads s' = s_grads s /\ (s_fit s' = None -> s' = s)).
Proof.
  unfold determine_gradient_fit_l. destruct (s_grads s) as [gs|] eqn:Eg.
  - unfold says, quiet. intros H. apply pair_equal_spec in H as [H <-]. right. exists gs. split; [reflexivity|]. split; [reflexivity|].
    unfold determine_gradient_fit in H. rewrite Eg in H. cbn zeta in H. destruct (bind _ _) as [[d p]|] in H; [|apply pair_equal_spec in H as [<- <-]; auto].
    destruct (set_mask _ _) as [p' r']. apply pair_equal_spec in H as [<- <-]. split; [reflexivity|]. cbn; discriminate.
  - intros H. apply pair_equal_spec in H as [H <-]. apply pair_equal_spec in H as [<- <-]. left. auto.
Qed.
Lemma getfit_cases m b s s' r lg : get_gradient_fit_l m b s = (s', r, lg) ->
  (s_fit s = None /\ s' = s /\ r = Ok None /\ lg = [NO_FIT]) \/ (s_fit s <> None /\ lg = []).
Proof.
  unfold get_gradient_fit_l. destruct (s_fit s) as [p|] eqn:Ef.
  - unfold quiet. intros H. apply pair_equal_spec in H as [H <-]. right. split; [discriminate|reflexivity].
  - intros H. apply pair_equal_spec in H as [H <-]. apply pair_equal_spec in H as [<- <-]. left. auto.
Qed.
Lemma extract_cases n s s' r lg : extract_solutions_l n s = (s', r, lg) ->
  ((exists x, r = Err x) /\ lg = [] /\ s' = s) \/
  (exists m v, combined_mask s = Ok m /\ number (dflt (PNpInt (Z.of_nat (count_unmasked m))) n) true (PInt 0) (PNpInt (Z.of_nat (count_unmasked m))) false = Ok v /\
    lg = info "extract_solutions" ("extracting " ++ str_index v ++ " out of " ++ str_nat (count_unmasked m) ++ " possible solutions")%string :: (match s_fit s with Some _ => [] | None => [NO_FIT] end)).
Proof.
  unfold extract_solutions_l. destruct (combined_mask s) as [m|x]; [|intros H; apply pair_equal_spec in H as [H <-]; apply pair_equal_spec in H as [<- <-]; left; eauto].
  cbn zeta. destruct (number _ _ _ _ _) as [v|x] eqn:Ev; [|intros H; apply pair_equal_spec in H as [H <-]; apply pair_equal_spec in H as [<- <-]; left; eauto].
  unfold says, lbind, quiet. destruct (get_gradient_fit_l _ _ s) as [[s1 [g|x]] l1] eqn:Eg; intros H; right; exists m, v; (split; [reflexivity|]; split; [exact Ev|]);
  apply pair_equal_spec in H as [_ <-]; destruct (getfit_cases _ _ _ Eg) as [(F & _ & _ & ->)|[F ->]]; (destruct (s_fit s); [try congruence|try congruence]); reflexivity.
Qed.
Definition brief {A} (l : L (T := T) A) (P : A -> log -> Prop) : Prop := forall s s' r lg, l s = (s', r, lg) -> match r with Ok a => P a lg | Err _ => lg = [] end.
Lemma brief_bind A B (m : M A) (f : A -> L B) P : (forall a, brief (f a) P) -> brief (lbind (quiet m) f) P.
Proof.
  intros H s s' r lg. unfold lbind, quiet. destruct (m s) as [s1 [a|e]]; [|intros X; apply pair_equal_spec in X as [X <-]; apply pair_equal_spec in X as [_ <-]; reflexivity].
  destruct (f a s1) as [[s2 r2] l2] eqn:Ef. cbn [app]. intros X. apply (H a s1 s' r lg). congruence.
Qed.
Lemma brief_says A (a : A) lg (P : A -> log -> Prop) : P a lg -> brief (says lg (quiet (ret a))) P.
Proof. intros H s s' r l X. unfold says, quiet, ret in X. apply pair_equal_spec in X as [X <-]. apply pair_equal_spec in X as [_ <-]. now rewrite app_nil_r. Qed.
Lemma closest_cases a b c d m s s' r lg : determine_closest_l fmt a b c d m s = (s', r, lg) ->
  match r with Ok _ => exists u v w z x1 x2 x3 x4 y, lg = closest_log fmt x1 x2 x3 x4 u v w z y | Err _ => lg = [] end.
Proof.
  unfold determine_closest_l.
  match goal with |- ?f s = _ -> _ => enough (K : brief f (fun _ lg => exists u v w z x1 x2 x3 x4 y, lg = closest_log fmt x1 x2 x3 x4 u v w z y)) by exact (K s s' r lg) end.
  repeat first [apply brief_bind; intros|match goal with |- brief (let '(_, _) := ?x in _) _ => destruct x as [[? ?] ?] end]. apply brief_says. repeat eexists.
Qed.

(** *** counting records *)
Lemma said_app t l l' : said t (l ++ l') = said t l + said t l'.
Proof. unfold said. rewrite filter_app, app_length. reflexivity. Qed.
Lemma begun_app t l l' : begun t (l ++ l') = begun t l + begun t l'.
Proof. unfold begun. rewrite filter_app, app_length. reflexivity. Qed.

(** the records a call writes about a lost fit and lost gradients *)
Definition C := "gradient fit has been cleared".
Definition D := "gradients set to None due to dependency on eclipse duration".
Definition b2n (b : bool) : nat := if b then 1 else 0.
Definition lost (f : shallot -> bool) (s s' : shallot) : nat := b2n (f s && negb (f s')).
Definition told (s s' : shallot) (lg : log) : Prop :=
  said C lg = lost (fun s => fst (pres s)) s s' /\ said D lg = lost (fun s => snd (pres s)) s s'.
Lemma told_same s s' lg : pres s' = pres s -> said C lg = 0 -> said D lg = 0 -> told s s' lg.
Proof. intros P A B. unfold told, lost. rewrite P, A, B. rewrite !andb_negb_r. split; reflexivity. Qed.
Lemma clearing_said s lg : clearing s lg -> said C lg = b2n (fst (pres s)) /\ said D lg = 0.
Proof. unfold clearing, pres. intros [[F ->]|[F ->]]; [rewrite F; split; reflexivity|]. destruct (s_fit s); [|congruence]. split; reflexivity. Qed.
Lemma pres_fit s : fst (pres s) = match s_fit s with Some _ => true | None => false end. Proof. reflexivity. Qed.
Lemma pres_grads s : snd (pres s) = match s_grads s with Some _ => true | None => false end. Proof. reflexivity. Qed.
Theorem op_told s o : told s (do_op E s o) (snd (op_log E fmt s o)).
Proof.
  destruct o; cbn [do_op op_log snd]; try (apply told_same; [first [apply still_hill|apply still_mask|apply still_maskgrad|apply still_cube|apply still_dmap|apply still_gradients|apply still_point]|reflexivity|reflexivity]).
  - rewrite <- (add_drop times lcg errors transmissions s). destruct (add_gradients_l _ _ _ _ _ s) as [[s' r] lg] eqn:Es. cbn [fst snd done].
    destruct (add_cases _ _ _ _ _ Es) as [(_ & -> & _ & ->)|[(_ & -> & _ & ->)|(_ & dt & n & el & c & _ & -> & _ & G & [(_ & -> & F)|(_ & Cl & F)])]];
      try (apply told_same; reflexivity).
    + unfold told, lost. rewrite !pres_fit, !pres_grads, F. destruct (s_fit s), (s_grads s'), (s_grads s); try congruence; split; reflexivity.
    + unfold told, lost. change (?a :: c) with ([a] ++ c). rewrite !said_app. destruct (clearing_said Cl) as [-> ->]. rewrite !pres_fit, !pres_grads, F. destruct (s_fit s), (s_grads s'), (s_grads s); try congruence; split; reflexivity.
  - rewrite <- (remove_drop indices s). destruct (remove_gradients_l _ s) as [[s' r] lg] eqn:Es. cbn [fst snd done].
    destruct (remove_cases _ _ Es) as [(_ & -> & _ & ->)|(G & G' & [(_ & -> & F)|(_ & Cl & F)])]; try (apply told_same; reflexivity).
    + unfold told, lost. rewrite !pres_fit, !pres_grads, F. destruct (s_fit s), (s_grads s'), (s_grads s); try congruence; split; reflexivity.
    + unfold told, lost. destruct (clearing_said Cl) as [-> ->]. rewrite !pres_fit, !pres_grads, F. destruct (s_fit s), (s_grads s'), (s_grads s); try congruence; split; reflexivity.
  - rewrite <- (eclipse_drop duration velocity limb s). destruct (set_eclipse_parameters_l _ _ _ s) as [[s' r] lg] eqn:Es. cbn [fst snd done].
    destruct (eclipse_cases _ _ _ _ Es) as [(_ & -> & F & G)|[(_ & G0 & -> & F & G)|(_ & G0 & (c & -> & Cl) & F & G)]]; unfold told, lost; rewrite !pres_fit, !pres_grads, F, G.
    + destruct (s_fit s), (s_grads s); split; reflexivity.
    + rewrite G0. destruct (s_fit s); split; reflexivity.
    + change (DROPPED :: c) with ([DROPPED] ++ c). rewrite !said_app. destruct (clearing_said Cl) as [-> ->]. rewrite pres_fit. destruct (s_fit s), (s_grads s); try congruence; split; reflexivity.
  - rewrite <- (scale_drop velocity limb transmissions s). destruct (update_gradient_scaling_l _ _ _ _ s) as [[s' r] lg] eqn:Es. cbn [fst snd done].
    destruct (scale_cases _ _ _ _ Es) as [(_ & -> & F & G)|[(_ & _ & _ & -> & _ & ->)|(_ & _ & Cl & F & G & G')]]; [|apply told_same; reflexivity|]; unfold told, lost; rewrite !pres_fit, !pres_grads, F.
    + destruct (s_fit s), (s_grads s), (s_grads s'); try (destruct G as [G1 G2]; try discriminate (G1 eq_refl); try discriminate (G2 eq_refl)); split; reflexivity.
    + destruct (clearing_said Cl) as [-> ->]. rewrite pres_fit. destruct (s_fit s), (s_grads s), (s_grads s'); try congruence; split; reflexivity.
  - rewrite <- (fit_drop weighted s). destruct (determine_gradient_fit_l _ s) as [[s' r] lg] eqn:Es. cbn [fst snd done].
    destruct (fit_cases _ _ Es) as [(_ & -> & _ & ->)|(gs & Eg & -> & G & F)]; [apply told_same; reflexivity|]. unfold told, lost. rewrite !pres_fit, !pres_grads, G.
    destruct (s_fit s') eqn:F'; [|rewrite F in F' by reflexivity; rewrite F']; destruct (s_fit s), (s_grads s); split; reflexivity.
  - rewrite <- (getfit_drop masked pm s). destruct (get_gradient_fit_l _ _ s) as [[s' r] lg] eqn:Es. cbn [fst snd done].
    assert (P := still_getfit masked pm s). rewrite <- (getfit_drop masked pm s), Es in P. cbn [fst] in P. apply told_same; auto; destruct (getfit_cases _ _ _ Es) as [(_ & _ & _ & ->)|[_ ->]]; reflexivity.
  - rewrite <- (extract_drop n s). destruct (extract_solutions_l _ s) as [[s' r] lg] eqn:Es. cbn [fst snd done].
    assert (P := still_extract n s). rewrite <- (extract_drop n s), Es in P. cbn [fst] in P. apply told_same; auto; destruct (extract_cases _ _ Es) as [(_ & -> & _)|(m & v & _ & _ & ->)]; try reflexivity; destruct (s_fit s); reflexivity.
  - rewrite <- (closest_drop radius inclination tilt impact masked s). destruct (determine_closest_l _ _ _ _ _ _ s) as [[s' r] lg] eqn:Es. cbn [fst snd done].
    assert (P := still_closest radius inclination tilt impact masked s). rewrite <- (closest_drop radius inclination tilt impact masked s), Es in P. cbn [fst] in P.
    apply told_same; auto; assert (X := closest_cases _ _ _ _ _ _ Es); destruct r; [destruct X as (u & v & w & z & x1 & x2 & x3 & x4 & y & ->)|subst lg|destruct X as (u & v & w & z & x1 & x2 & x3 & x4 & y & ->)|subst lg]; reflexivity.
Qed.
End O.
