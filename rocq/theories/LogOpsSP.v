(** Proofs about the logs of grids: histories, refusals, exceptions, the closest point, building. *)
From Coq Require Import ZArith Reals List Bool String Lia.
From Verif Require Import Num Py Validate Ring RingSystem FS GridParams GridDiag Names GridProp Geometry Build Shallot SpecOps Fmt Text Message Log LogOps.
From Verif Require Import SpecBuild NumP SpecNum RingP SpecFmt TextRingP SpecLogOps GridPropP OpsP OpsReadP OpsEditP OpsGradP OpsFitP OpsPointP OpsExtractP OpsWrapP OpsListP AddLaws SpecProp ValidateP RingSystemP GridParamsP GridDiagP GridGradP BuildP StretchP BuildQP BuildGP BuildGridP BuildCP ShallotOps LogOpsP.
Import ListNotations.
Set Implicit Arguments.
Local Open Scope string_scope.
Local Open Scope list_scope.

Section O.
Context {T : Type} {NT : Num T} {LT : NumLaws T} (E : env T).
Variable fmt : nat -> T -> string.
Notation pyval := (pyval T).
Notation shallot := (shallot T).
Notation logs s o := (snd (op_log E fmt s o)).

(** *** lost fits, lost gradients *)
Theorem fit_told (s : shallot) o : (fit_lost s (do_op E s o) -> said "gradient fit has been cleared" (logs s o) = 1) /\
  (~ fit_lost s (do_op E s o) -> said "gradient fit has been cleared" (logs s o) = 0).
Proof.
  destruct (op_told E fmt s o) as [H _]. unfold C in H. rewrite H. unfold lost, fit_lost. rewrite !pres_fit. destruct (s_fit s), (s_fit (do_op E s o)); cbn; split; intros X; try reflexivity; exfalso;
    try (destruct X; congruence); apply X; split; congruence.
Qed.
Theorem gradients_told (s : shallot) o : (gradients_lost s (do_op E s o) -> said "gradients set to None due to dependency on eclipse duration" (logs s o) = 1) /\
  (~ gradients_lost s (do_op E s o) -> said "gradients set to None due to dependency on eclipse duration" (logs s o) = 0).
Proof.
  destruct (op_told E fmt s o) as [_ H]. unfold D in H. rewrite H. unfold lost, gradients_lost. rewrite !pres_grads. destruct (s_grads s), (s_grads (do_op E s o)); cbn; split; intros X; try reflexivity; exfalso;
    try (destruct X; congruence); apply X; split; congruence.
Qed.

(** *** histories *)
Definition ops_log (s : shallot) (l : list (@op T)) : log := ops_log E fmt s l.
Lemma prefix_own a b : String.prefix a (a ++ b)%string = true.
Proof. induction a as [|c a IH]; cbn; [now destruct b|]. destruct (Ascii.ascii_dec c c); [exact IH|congruence]. Qed.
Lemma fit_made (s : shallot) o : s_fit s = None -> s_fit (do_op E s o) <> None -> 1 <= begun "determining " (logs s o).
Proof.
  intros F G. destruct o as [| | | |w| | | | | | | | | |]; try (destruct G; apply nofit_op; auto; discriminate). cbn [op_log snd done do_op] in *.
  rewrite <- (fit_drop w s) in G. destruct (determine_gradient_fit_l w s) as [[s' r] lg] eqn:Es. cbn [fst snd done] in *.
  destruct (fit_cases _ _ Es) as [(_ & -> & _)|(gs & _ & -> & _)]; [congruence|]. unfold begun. cbn [filter l_text info]. rewrite prefix_own. cbn. lia.
Qed.
Theorem history l : forall s : shallot, said "gradient fit has been cleared" (ops_log s l) + has_fit (do_ops E s l) <= begun "determining " (ops_log s l) + has_fit s.
Proof.
  induction l as [|o l IH]; intros s; [reflexivity|]. unfold ops_log in *. cbn [LogOps.ops_log do_ops fold_left]. rewrite said_app, begun_app.
  change (fold_left (do_op E) l (do_op E s o)) with (do_ops E (do_op E s o) l). specialize (IH (do_op E s o)).
  enough (said "gradient fit has been cleared" (logs s o) + has_fit (do_op E s o) <= begun "determining " (logs s o) + has_fit s) by lia.
  destruct (fit_told s o) as [A B]. unfold has_fit, fit_lost in *. destruct (s_fit s) eqn:F, (s_fit (do_op E s o)) eqn:G.
  - rewrite B by (intros [_ X]; discriminate). lia.
  - rewrite A by (split; [discriminate|reflexivity]). lia.
  - rewrite B by (intros [X _]; congruence). assert (X := fit_made s o F). rewrite G in X. specialize (X ltac:(discriminate)). lia.
  - rewrite B by (intros [X _]; congruence). lia.
Qed.

(** *** quiet calls, levels *)
Theorem quiet_calls (s : shallot) o : silent o = true -> logs s o = [].
Proof. destruct o; try discriminate; reflexivity. Qed.
Definition all_info (l : log) : Prop := Forall (fun r => l_level r = 20%Z) l.
Lemma clearing_info (s : shallot) l : clearing s l -> all_info l.
Proof. intros [[_ ->]|[_ ->]]; repeat constructor. Qed.
Lemma op_info (s : shallot) o : all_info (logs s o).
Proof.
  destruct o; cbn [op_log snd done quiet]; try constructor.
  - destruct (add_gradients_l _ _ _ _ _ s) as [[s' r] lg] eqn:Es. cbn [done snd].
    destruct (add_cases _ _ _ _ _ _ Es) as [(_ & -> & _ & ->)|[(_ & -> & _ & ->)|(_ & dt & n & el & c & _ & -> & _ & G & [(_ & -> & F)|(_ & Cl & F)])]]; repeat constructor. exact (clearing_info Cl).
  - destruct (remove_gradients_l _ s) as [[s' r] lg] eqn:Es. cbn [done snd].
    destruct (remove_cases _ _ Es) as [(_ & -> & _ & ->)|(G & G' & [(_ & -> & F)|(_ & Cl & F)])]; repeat constructor. exact (clearing_info Cl).
  - destruct (set_eclipse_parameters_l _ _ _ s) as [[s' r] lg] eqn:Es. cbn [done snd].
    destruct (eclipse_cases _ _ _ _ Es) as [(_ & -> & F & G)|[(_ & G0 & -> & F & G)|(_ & G0 & (c & -> & Cl) & F & G)]]; repeat constructor. exact (clearing_info Cl).
  - destruct (update_gradient_scaling_l _ _ _ _ s) as [[s' r] lg] eqn:Es. cbn [done snd].
    destruct (scale_cases _ _ _ _ _ Es) as [(_ & -> & F & G)|[(_ & _ & _ & -> & _ & ->)|(_ & _ & Cl & F & G & G')]]; repeat constructor. exact (clearing_info Cl).
  - destruct (determine_gradient_fit_l _ s) as [[s' r] lg] eqn:Es. cbn [done snd]. destruct (fit_cases _ _ Es) as [(_ & -> & _ & ->)|(gs & Eg & -> & G & F)]; repeat constructor.
  - destruct (get_gradient_fit_l _ _ s) as [[s' r] lg] eqn:Es. cbn [done snd]. destruct (getfit_cases _ _ _ Es) as [(_ & _ & _ & ->)|[_ ->]]; repeat constructor.
  - destruct (extract_solutions_l _ s) as [[s' r] lg] eqn:Es. cbn [done snd]. destruct (extract_cases _ _ Es) as [(_ & -> & _)|(m & v & _ & _ & ->)]; [constructor|]. destruct (s_fit s); repeat constructor.
  - destruct (determine_closest_l _ _ _ _ _ _ s) as [[s' r] lg] eqn:Es. cbn [done snd]. assert (X := closest_cases _ _ _ _ _ _ _ Es).
    destruct r; [destruct X as (u & v & w & z & x1 & x2 & x3 & x4 & y & ->)|subst lg]; repeat constructor.
Qed.
Lemma console_info level l : all_info l -> console level l = if Z.leb level 20 then l else [].
Proof.
  unfold console. induction 1 as [|r l H _ IH]; cbn [filter]; [destruct (Z.leb _ _); reflexivity|]. rewrite H, IH. destruct (Z.leb level 20); reflexivity.
Qed.
Theorem op_levels (s : shallot) o level : console level (logs s o) = if Z.leb level 20 then logs s o else [].
Proof. apply console_info, op_info. Qed.

(** *** what is refused without an exception *)
Theorem refusals (s : shallot) :
  (forall t l e tr, logs s (OAdd t l e tr) = [MISSING] <-> ~ eclipse_known s) /\
  (forall i, logs s (ORemove i) = [NO_GRADIENTS] <-> s_grads s = None) /\
  (forall v u t, logs s (OScale v u t) = [NO_CHANGES] <-> v = None /\ u = None /\ t = None) /\
  (forall w, logs s (OFit w) = [NOTHING_TO_FIT] <-> s_grads s = None) /\
  (forall m b, logs s (OGetFit m b) = [NO_FIT] <-> s_fit s = None).
Proof.
  assert (K : ~ ([CLEARED] = [NO_GRADIENTS]) /\ ~ ([CLEARED] = [NO_CHANGES])) by (split; discriminate).
  split; [|split; [|split; [|split]]]; intros; cbn [op_log].
  - destruct (add_gradients_l _ _ _ _ _ s) as [[s' r] lg] eqn:Es. cbn [done snd].
    destruct (add_cases _ _ _ _ _ _ Es) as [(N & -> & _ & ->)|[(N & -> & _ & ->)|(N & dt & n & el & c & _ & -> & _)]]; split; intros X; try tauto; try discriminate X; auto.
  - destruct (remove_gradients_l _ s) as [[s' r] lg] eqn:Es. cbn [done snd].
    destruct (remove_cases _ _ Es) as [(N & -> & _ & ->)|(G & G' & [(_ & -> & F)|(_ & [[_ ->]|[_ ->]] & F)])]; split; intros X; try tauto; try discriminate X; auto.
  - destruct (update_gradient_scaling_l _ _ _ _ s) as [[s' r] lg] eqn:Es. cbn [done snd].
    destruct (scale_cases _ _ _ _ _ Es) as [(R & -> & F & G)|[(N1 & N2 & N3 & -> & _ & ->)|(N & _ & [[_ ->]|[_ ->]] & F & G & G')]]; split; intros X; try tauto; try discriminate X; auto.
    destruct X as (-> & -> & ->). cbn in Es. destruct R as [x ->]. congruence.
  - destruct (determine_gradient_fit_l _ s) as [[s' r] lg] eqn:Es. cbn [done snd]. destruct (fit_cases _ _ Es) as [(N & -> & _ & ->)|(gs & Eg & -> & G & F)]; split; intros X; try tauto; try discriminate X; congruence.
  - destruct (get_gradient_fit_l _ _ s) as [[s' r] lg] eqn:Es. cbn [done snd]. destruct (getfit_cases _ _ _ Es) as [(N & _ & _ & ->)|[N ->]]; split; intros X; try tauto; discriminate X.
Qed.
(** such a call changes nothing and raises nothing *)
Theorem refused_still (s : shallot) o r : In r [MISSING; NO_GRADIENTS; NO_CHANGES; NOTHING_TO_FIT; NO_FIT] -> logs s o = [r] -> do_op E s o = s /\ fst (op_log E fmt s o) = None.
Proof.
  intros I H. destruct o; cbn [op_log do_op quiet done snd fst] in *; try discriminate H.
  - rewrite <- (add_drop E times lcg errors transmissions s). destruct (add_gradients_l _ _ _ _ _ s) as [[s' x] lg] eqn:Es. cbn [done fst snd] in *.
    destruct (add_cases _ _ _ _ _ _ Es) as [(N & -> & -> & ->)|[(N & -> & _ & ->)|(N & dt & n & el & c & _ & -> & _)]]; [auto|discriminate|].
    injection H as <- _. exfalso. destruct I as [I|[I|[I|[I|[I|[]]]]]]; discriminate I.
  - rewrite <- (remove_drop indices s). destruct (remove_gradients_l _ s) as [[s' x] lg] eqn:Es. cbn [done fst snd] in *.
    destruct (remove_cases _ _ Es) as [(N & -> & -> & ->)|(G & G' & [(_ & -> & F)|(_ & [[_ ->]|[_ ->]] & F)])]; auto; try discriminate H. injection H as <-. exfalso. destruct I as [I|[I|[I|[I|[I|[]]]]]]; discriminate I.
  - destruct (set_eclipse_parameters_l _ _ _ s) as [[s' x] lg] eqn:Es. cbn [done fst snd] in *.
    destruct (eclipse_cases _ _ _ _ Es) as [(_ & -> & F & G)|[(_ & G0 & -> & F & G)|(_ & G0 & (c & -> & Cl) & F & G)]]; try discriminate H. injection H as <- _. exfalso. destruct I as [I|[I|[I|[I|[I|[]]]]]]; discriminate I.
  - rewrite <- (scale_drop E velocity limb transmissions s). destruct (update_gradient_scaling_l _ _ _ _ s) as [[s' x] lg] eqn:Es. cbn [done fst snd] in *.
    destruct (scale_cases _ _ _ _ _ Es) as [(R & -> & F & G)|[(N1 & N2 & N3 & -> & -> & ->)|(N & _ & [[_ ->]|[_ ->]] & F & G & G')]]; auto; try discriminate H. injection H as <-. exfalso. destruct I as [I|[I|[I|[I|[I|[]]]]]]; discriminate I.
  - rewrite <- (fit_drop weighted s). destruct (determine_gradient_fit_l _ s) as [[s' x] lg] eqn:Es. cbn [done fst snd] in *.
    destruct (fit_cases _ _ Es) as [(N & -> & -> & ->)|(gs & Eg & -> & G & F)]; auto. injection H as <-. exfalso. destruct I as [I|[I|[I|[I|[I|[]]]]]]; discriminate I.
  - rewrite <- (getfit_drop masked pm s). destruct (get_gradient_fit_l _ _ s) as [[s' x] lg] eqn:Es. cbn [done fst snd] in *.
    destruct (getfit_cases _ _ _ Es) as [(N & -> & -> & ->)|[N ->]]; auto; discriminate H.
  - destruct (extract_solutions_l _ s) as [[s' x] lg] eqn:Es. cbn [done fst snd] in *.
    destruct (extract_cases _ _ Es) as [(_ & -> & _)|(m & v & _ & _ & ->)]; [discriminate|]. injection H as <- _. exfalso. destruct I as [I|[I|[I|[I|[I|[]]]]]]; discriminate I.
  - destruct (determine_closest_l _ _ _ _ _ _ s) as [[s' x] lg] eqn:Es. cbn [done fst snd] in *. assert (X := closest_cases _ _ _ _ _ _ _ Es).
    destruct x; [destruct X as (u & v & w & z & x1 & x2 & x3 & x4 & y & ->)|rewrite X in H]; discriminate H.
Qed.

(** *** calls that go through *)
Lemma ADDING_n n : ADDING n (info "add_gradients" ("adding " ++ str_nat n ++ " gradients")%string).
Proof. exists (str_nat n). split; [apply read_str_nat|reflexivity]. Qed.
Lemma FITTING_n n : FITTING n (info "determine_gradient_fit" ("determining " ++ str_nat n ++ " gradient rms's")%string).
Proof. exists (str_nat n). split; [apply read_str_nat|reflexivity]. Qed.
Theorem add_succeeds (s s' : shallot) t l e tr lg : arr_wf t -> eclipse_known s -> add_gradients_l E t l e tr s = (s', Ok tt, lg) ->
  exists n r c, lg = r :: c /\ ADDING n r /\ clearing s c /\ number_of_gradients s' = number_of_gradients s + n.
Proof.
  intros W K Es. destruct (add_cases _ _ _ _ _ _ Es) as [(N & _)|[(_ & _ & [x X] & _)|(_ & dt & n & el & c & -> & -> & N & _ & [([x X] & _)|(_ & Cl & _)])]]; try tauto; try discriminate X.
  exists n, (info "add_gradients" ("adding " ++ str_nat n ++ " gradients")%string), c. split; [reflexivity|]. split; [apply ADDING_n|]. split; [exact Cl|].
  destruct W as [W _]. rewrite N, W. cbn. lia.
Qed.
Theorem remove_succeeds (s s' : shallot) i lg : s_grads s <> None -> remove_gradients_l i s = (s', Ok tt, lg) -> clearing s lg.
Proof. intros K Es. destruct (remove_cases _ _ Es) as [(N & _)|(_ & _ & [([x X] & _)|(_ & Cl & _)])]; auto; try tauto; discriminate X. Qed.
Theorem eclipse_succeeds (s s' : shallot) a b c lg : set_eclipse_parameters_l a b c s = (s', Ok tt, lg) ->
  (s_grads s = None /\ lg = []) \/ (s_grads s <> None /\ exists c, lg = DROPPED :: c /\ clearing s c).
Proof. intros Es. destruct (eclipse_cases _ _ _ _ Es) as [([x X] & _)|[(_ & G & -> & _)|(_ & G & X & _)]]; auto. discriminate X. Qed.
Theorem scale_succeeds (s s' : shallot) v u t lg : ~ (v = None /\ u = None /\ t = None) -> update_gradient_scaling_l E v u t s = (s', Ok tt, lg) -> clearing s lg.
Proof. intros K Es. destruct (scale_cases _ _ _ _ _ Es) as [([x X] & _)|[(N1 & N2 & N3 & _)|(_ & _ & Cl & _)]]; auto; try tauto. discriminate X. Qed.
Theorem fit_says (s s' : shallot) w gs r lg : s_grads s = Some gs -> determine_gradient_fit_l w s = (s', r, lg) -> exists x, lg = [x] /\ FITTING (List.length gs) x.
Proof. intros K Es. destruct (fit_cases _ _ Es) as [(N & _)|(gs' & Eg & -> & _)]; [congruence|]. eexists. split; [reflexivity|]. assert (gs' = gs) as -> by congruence. apply FITTING_n. Qed.

(** *** calls that raise *)
Theorem error_says (s : shallot) o e lg : op_log E fmt s o = (Some e, lg) ->
  match o with
  | OAdd (PArr _ [n] _) _ _ _ => lg = [] \/ exists r, lg = [r] /\ ADDING n r
  | OFit _ => exists r, lg = [r] /\ FITTING (number_of_gradients s) r
  | OExtract _ => lg = [] \/ exists r, l_func r = "extract_solutions" /\ lg = r :: (match s_fit s with Some _ => [] | None => [NO_FIT] end)
  | _ => lg = []
  end.
Proof.
  destruct o; cbn [op_log]; try (intros H; apply pair_equal_spec in H as [_ <-]; reflexivity).
  - destruct (add_gradients_l _ _ _ _ _ s) as [[s' x] l0] eqn:Es. intros H. apply pair_equal_spec in H as [Hx <-]. cbn [fst snd] in Hx.
    destruct (add_cases _ _ _ _ _ _ Es) as [(_ & _ & -> & _)|[(_ & _ & _ & ->)|(_ & dt & n & el & c & -> & -> & _ & _ & [(_ & -> & _)|(-> & _)])]]; try discriminate Hx.
    + destruct times as [| | | | | | | |dt [|n [|? ?]] el|]; auto.
    + right. eexists. split; [reflexivity|apply ADDING_n].
  - destruct (remove_gradients_l _ s) as [[s' x] l0] eqn:Es. intros H. apply pair_equal_spec in H as [Hx <-]. cbn [fst snd] in Hx.
    destruct (remove_cases _ _ Es) as [(_ & _ & -> & _)|(_ & _ & [(_ & -> & _)|(-> & _)])]; try discriminate Hx; reflexivity.
  - destruct (set_eclipse_parameters_l _ _ _ s) as [[s' x] l0] eqn:Es. intros H. apply pair_equal_spec in H as [Hx <-]. cbn [fst snd] in Hx.
    destruct (eclipse_cases _ _ _ _ Es) as [(_ & -> & _)|[(-> & _)|(-> & _)]]; try discriminate Hx; reflexivity.
  - destruct (update_gradient_scaling_l _ _ _ _ s) as [[s' x] l0] eqn:Es. intros H. apply pair_equal_spec in H as [Hx <-]. cbn [fst snd] in Hx.
    destruct (scale_cases _ _ _ _ _ Es) as [(_ & -> & _)|[(_ & _ & _ & _ & -> & _)|(_ & -> & _)]]; try discriminate Hx; reflexivity.
  - destruct (determine_gradient_fit_l _ s) as [[s' x] l0] eqn:Es. intros H. apply pair_equal_spec in H as [Hx <-]. cbn [fst snd] in Hx.
    destruct (fit_cases _ _ Es) as [(_ & _ & -> & _)|(gs & Eg & -> & _)]; [discriminate Hx|]. unfold number_of_gradients. rewrite Eg. eexists. split; [reflexivity|apply FITTING_n].
  - destruct (get_gradient_fit_l _ _ s) as [[s' x] l0] eqn:Es. intros H. apply pair_equal_spec in H as [Hx <-]. cbn [fst snd] in Hx.
    destruct (getfit_cases _ _ _ Es) as [(_ & _ & -> & _)|[_ ->]]; [discriminate Hx|reflexivity].
  - destruct (extract_solutions_l _ s) as [[s' x] l0] eqn:Es. intros H. apply pair_equal_spec in H as [_ <-]. cbn [snd].
    destruct (extract_cases _ _ Es) as [(_ & -> & _)|(m & v & _ & _ & ->)]; auto. right. eexists. split; [|reflexivity]. reflexivity.
  - destruct (determine_closest_l _ _ _ _ _ _ s) as [[s' x] l0] eqn:Es. intros H. apply pair_equal_spec in H as [Hx <-]. cbn [fst snd] in *. assert (X := closest_cases _ _ _ _ _ _ _ Es). destruct x; [discriminate Hx|exact X].
Qed.

(** *** building *)
Lemma rows_says i n ys : forall s st r lg, rows_l E i n ys s = ((st, r), lg) -> exists k, k <= List.length ys /\ Forall2 (fun y x => ROW (S y) n x) (firstn k ys) lg /\
  match r with Ok s' => k = List.length ys | Err _ => True end.
Proof.
  induction ys as [|y ys IH]; intros s st r lg; cbn [rows_l].
  - intros H. apply pair_equal_spec in H as [H <-]. apply pair_equal_spec in H as [_ <-]. exists 0. repeat constructor.
  - assert (R : ROW (S y) n (info "_build_grid" ("building y = " ++ str_nat (y + 1) ++ "/" ++ str_nat n)%string)).
    { exists (str_nat (y + 1)), (str_nat n). rewrite !read_str_nat, Nat.add_1_r. auto. }
    destruct (build_row E s y) as [s1|x].
    + destruct (rows_l E i n ys s1) as [[st1 r1] lg1] eqn:Er. intros H. apply pair_equal_spec in H as [H <-]. apply pair_equal_spec in H as [_ <-].
      destruct (IH _ _ _ _ Er) as (k & Hk & F & X). exists (S k). cbn [firstn List.length]. split; [lia|]. split; [constructor; auto|]. destruct r1; auto.
    + intros H. apply pair_equal_spec in H as [H <-]. apply pair_equal_spec in H as [_ <-]. exists 1. cbn [firstn List.length]. split; [lia|]. split; [repeat constructor; auto|exact I].
Qed.
Lemma seq_shift_rows n k m : forall lg, Forall2 (fun y x => ROW (S y) n x) (seq k m) lg -> Forall2 (fun y x => ROW y n x) (seq (S k) m) lg.
Proof. revert k. induction m as [|m IH]; intros k lg H; inversion H; subst; constructor; auto. Qed.
Lemma firstn_seq k : forall a n, k <= n -> firstn k (seq a n) = seq a k.
Proof. induction k as [|k IH]; intros a [|n] H; cbn; try lia; auto. f_equal. apply IH. lia. Qed.
Lemma init_params (s s' : shallot) : init_props s = Ok s' -> s_params s' = s_params s.
Proof.
  unfold init_props. cbn zeta. repeat (destruct (empty_cube _ _ _); cbn [bind]; [|discriminate]). intros H. assert (X := f_equal (fun r => match r with Ok q => s_params q | Err _ => s_params s end) H). cbn in X. congruence.
Qed.
(** from row [start] on *)
Theorem build_says (s : shallot) i start st r lg : build_grid_l E s i start = ((st, r), lg) ->
  let n := List.length (g_dy (s_params s)) in let k := Z.to_nat (int_of start) in
  exists m, Forall2 (fun y x => ROW y n x) (seq (S k) m) lg /\ m <= n - k /\ match r with Ok _ => m = n - k | Err _ => True end.
Proof.
  unfold build_grid_l. destruct (number _ _ _ _ _) as [v|x] eqn:Ev; [|intros H; apply pair_equal_spec in H as [H <-]; apply pair_equal_spec in H as [_ <-]; exists 0; cbn; repeat constructor; lia].
  assert (v = start) as -> by exact (number_same _ _ _ _ _ Ev).
  destruct (if Z.eqb _ _ then _ else _) as [s1|x] eqn:Ei; [|intros H; apply pair_equal_spec in H as [H <-]; apply pair_equal_spec in H as [_ <-]; exists 0; cbn; repeat constructor; lia].
  assert (P : s_params s1 = s_params s). { destruct (Z.eqb _ _); [now apply init_params|]. assert (X := f_equal (fun r => match r with Ok q => s_params q | Err _ => s_params s end) Ei). cbn in X. congruence. }
  cbn zeta. rewrite P. set (n := List.length _). set (k := Z.to_nat _). destruct (rows_l _ _ _ _ s1) as [[st1 r1] lg1] eqn:Er. destruct (rows_says _ _ _ _ Er) as (m & Hm & F & X).
  rewrite seq_length in Hm, X. rewrite firstn_seq in F by auto. apply seq_shift_rows in F.
  destruct r1 as [s2|x]; [|intros H; apply pair_equal_spec in H as [H <-]; apply pair_equal_spec in H as [_ <-]; exists m; auto].
  destruct (set_contrasts s2); intros H; apply pair_equal_spec in H as [H <-]; apply pair_equal_spec in H as [_ <-]; exists m; auto.
Qed.
Lemma abs_nan (x : T) : val (n_abs x) = XNaN <-> val x = XNaN.
Proof. rewrite l_abs. destruct (val x); cbn; split; congruence. Qed.
Lemma greatest_max (l : list T) : greatest l (dflt n_nan (nanmax (map n_abs l))).
Proof.
  assert (S := nanmax_spec (map n_abs l)). destruct (nanmax _) as [m|]; cbn [dflt].
  - destruct S as (A & B & M). apply in_map_iff in A as (x & <- & Hx). right. exists x. split; [exact Hx|]. split; [now rewrite <- abs_nan|]. split; [reflexivity|].
    intros y Hy. destruct (val y) eqn:Ey; try (right; apply M; [now apply in_map|rewrite abs_nan, Ey; discriminate]). auto.
  - left. split; [reflexivity|]. intros x Hx. apply abs_nan. apply S. now apply in_map.
Qed.
Theorem new_says (g : gparams T) nf ll keep inter og st r lg : new_shallot_l E fmt (EIs g) nf ll keep inter = (og, (st, r), lg) ->
  let n := List.length (g_dy g) in
  match r with
  | Ok s => exists rows v m, lg = rows ++ [mkRec 20 "diagnose_fxfy_resolution" ("maximum deviation is " ++ fmt 4 v ++ " - explore by plotting")%string] /\
      Forall2 (fun y x => ROW y n x) (seq 1 n) rows /\ s_dmap s = Some m /\ greatest (p_data m) v
  | Err _ => exists k, k <= n /\ Forall2 (fun y x => ROW y n x) (seq 1 k) lg
  end.
Proof.
  unfold new_shallot_l. cbn zeta. match goal with |- context [match ?x with Ok _ => _ | Err _ => _ end] => destruct x as [[s b]|e] eqn:Ea end.
  2: { intros H. apply pair_equal_spec in H as [H <-]. apply pair_equal_spec in H as [_ H]. apply pair_equal_spec in H as [_ <-]. exists 0. split; [lia|constructor]. }
  assert (P : s_params s = g).
  { destruct (number ll _ _ _ _); cbn [bind class_arg] in Ea; [|discriminate]. destruct (number nf _ _ _ _); cbn [bind] in Ea; [|discriminate]. destruct (boolean_v keep); cbn [bind] in Ea; [|discriminate].
    destruct (boolean_v inter); cbn [bind] in Ea; [|discriminate]. assert (X := f_equal (fun r => match r with Ok q => s_params (fst q) | Err _ => g end) Ea). cbn in X. congruence. }
  destruct (build_grid_l E s b (PInt 0)) as [[st1 r1] lg1] eqn:Eb. destruct (build_says _ _ _ Eb) as (m & F & Hm & X). rewrite P in F, Hm, X. change (Z.to_nat (int_of (PInt 0 : pyval))) with 0 in F, Hm, X.
  destruct r1 as [s1|e].
  - rewrite Nat.sub_0_r in X. subst m. unfold finish_l. destruct (extend_shallot E s1) as [g' [s2|e]].
    + destruct (diagnose (s_params s2) (s_dr s2)) as [d|e]; intros H; apply pair_equal_spec in H as [H <-]; apply pair_equal_spec in H as [_ H]; apply pair_equal_spec in H as [_ <-].
      * exists lg1, (dflt n_nan (nanmax (map n_abs (p_data d)))), d. split; [reflexivity|]. split; [exact F|]. split; [reflexivity|]. apply greatest_max.
      * exists (List.length (g_dy g)). rewrite app_nil_r. auto.
    + intros H; apply pair_equal_spec in H as [H <-]; apply pair_equal_spec in H as [_ H]; apply pair_equal_spec in H as [_ <-]. exists (List.length (g_dy g)). rewrite app_nil_r. auto.
  - intros H; apply pair_equal_spec in H as [H <-]; apply pair_equal_spec in H as [_ H]; apply pair_equal_spec in H as [_ <-]. exists m. split; [lia|exact F].
Qed.

(** *** extracting *)
Lemma read_str_int z : (0 <= z)%Z -> read_count (str_int z) = Some z.
Proof. intros H. unfold str_int. rewrite (proj2 (Z.ltb_ge z 0)) by auto. rewrite <- (Z2Nat.id z) by auto. apply (read_str_nat (Z.to_nat z)). Qed.
Lemma loop_length k : forall s s' l, extract_loop k s = (s', Ok l) -> List.length l = k.
Proof.
  induction k as [|k IH]; intros s s' l; cbn [extract_loop].
  - intros H. apply pair_equal_spec in H as [_ H]. assert (l = []) as -> by congruence. reflexivity.
  - destruct (s_fit s) as [p|]; [|discriminate]. destruct (nanargmin _) as [i|]; [|discriminate]. destruct (unravel _ _) as [[y x] q]. unfold mbind at 1.
    destruct (get_grid_point_data _ _ _ _ s) as [s1 [d|]]; [|discriminate]. unfold mbind at 1. unfold mbind. destruct (extract_loop k _) as [s2 [l2|]] eqn:El; [|discriminate].
    intros H. apply pair_equal_spec in H as [_ H]. assert (l = (nth i (p_data p) n_nan, d) :: l2) as -> by congruence. cbn [List.length]. f_equal. exact (IH _ _ _ El).
Qed.
Context {AL : AddLaws T}.
Theorem extract_says (s s' : shallot) is n l lg : sreach E s -> unmasked s is -> n = None \/ (exists k, n = Some (PInt k) \/ n = Some (PNpInt k)) ->
  extract_solutions_l n s = (s', Ok l, lg) ->
  exists a b c, read_count a = Some (Z.of_nat (List.length l)) /\ read_count b = Some (Z.of_nat (List.length is)) /\ ((s_fit s <> None /\ c = []) \/ (s_fit s = None /\ c = [NO_FIT])) /\
    lg = mkRec 20 "extract_solutions" ("extracting " ++ a ++ " out of " ++ b ++ " possible solutions")%string :: c.
Proof.
  intros H Hu Hn Es. assert (Hi := reached_sinv H). assert (Dr := extract_drop n s). rewrite Es in Dr. cbn [fst] in Dr. symmetry in Dr.
  destruct (extract_cases _ _ Es) as [([x X] & _)|(m & v & Em & Ev & ->)]; [discriminate|].
  unfold extract_solutions in Dr. rewrite Em in Dr. cbn [bind] in Dr. cbn zeta in Dr. rewrite Ev in Dr. unfold mbind in Dr.
  destruct (get_gradient_fit _ _ s) as [s1 [f|]]; [|discriminate]. apply loop_length in Dr.
  rewrite combined_ok in Em by auto. assert (m = map (masked_b s) (seq 0 (points s))) as -> by congruence.
  assert (Cn : count_unmasked (map (masked_b s) (seq 0 (points s))) = List.length is).
  { unfold count_unmasked. rewrite filter_map'. symmetry. exact (unmasked_count Hu). }
  rewrite Cn in *. assert (N := number_same _ _ _ _ _ Ev). assert (Ev' : number v true (PInt 0) (PInt (Z.of_nat (List.length is))) false = Ok v).
  { rewrite <- N in Ev. rewrite <- Ev. unfold number. destruct (number_type true v); reflexivity. }
  apply number_index in Ev' as (_ & _ & R).
  exists (str_index v), (str_nat (List.length is)), (match s_fit s with Some _ => [] | None => [NO_FIT] end).
  rewrite read_str_nat, Dr. split; [|split; [reflexivity|]; split; [destruct (s_fit s); [left|right]; split; try reflexivity; discriminate|reflexivity]].
  rewrite Z2Nat.id by lia. subst v. destruct Hn as [->|[k [->| ->]]]; cbn [dflt str_index int_of] in *; apply read_str_int; lia.
Qed.

(** *** the closest point *)
Lemma lq_ok A B (m : M A) (f : A -> L (T := T) B) s s1 a : m s = (s1, Ok a) -> lbind (quiet m) f s = f a s1.
Proof. intros H. unfold lbind, quiet. rewrite H. destruct (f a s1). reflexivity. Qed.
Theorem closest_says (s s' : shallot) v1 v2 v3 v4 m cy cx cr y x q d lg : sreach E s ->
  determine_closest_l fmt v1 v2 v3 v4 (PBool m) s = (s', Ok ((cy, cx, cr), (y, x, q), d), lg) ->
  exists R I Ti, seen s m (s_dr s) (place s y x q) R /\ seen s m (s_inc s) (place s y x q) I /\ seen s m (s_tilt s) (place s y x q) Ti /\
    map l_func lg = repeat "determine_closest_grid_point" 6 /\
    map l_text lg = ["property_name: input_value --> grid_value";
      "disk_radius: " ++ fmt 2 (num_of v1) ++ " --> " ++ fmt 2 R; "inclination: " ++ fmt 2 (num_of v2) ++ " --> " ++ fmt 2 I;
      "tilt: " ++ fmt 2 (num_of v3) ++ " --> " ++ fmt 2 Ti; "impact_parameter: " ++ fmt 2 (num_of v4) ++ " --> " ++ fmt 2 (row_of s (num_of v4) y); "'fit': " ++ fmt 6 d]%string.
Proof.
  intros Hr Es. assert (H := reached_sinv Hr).
  destruct (number v1 false (PInt 0) p_inf false) as [w1|] eqn:N1; [|unfold determine_closest_l, lbind, quiet, lift in Es; rewrite N1 in Es; discriminate].
  destruct (number v2 false (PInt 0) (PInt 90) false) as [w2|] eqn:N2; [|unfold determine_closest_l, lbind, quiet, lift in Es; rewrite N1, N2 in Es; discriminate].
  destruct (number v3 false (PInt (-180)) (PInt 180) false) as [w3|] eqn:N3; [|unfold determine_closest_l, lbind, quiet, lift in Es; rewrite N1, N2, N3 in Es; discriminate].
  destruct (number v4 false m_inf p_inf false) as [w4|] eqn:N4; [|unfold determine_closest_l, lbind, quiet, lift in Es; rewrite N1, N2, N3, N4 in Es; discriminate].
  assert (w1 = v1) as -> by exact (number_same _ _ _ _ _ N1). assert (w2 = v2) as -> by exact (number_same _ _ _ _ _ N2). assert (w3 = v3) as -> by exact (number_same _ _ _ _ _ N3). assert (w4 = v4) as -> by exact (number_same _ _ _ _ _ N4).
  unfold determine_closest_l in Es.
  erewrite lq_ok in Es by (unfold lift; rewrite N1; reflexivity). erewrite lq_ok in Es by (unfold lift; rewrite N2; reflexivity). erewrite lq_ok in Es by (unfold lift; rewrite N3; reflexivity).
  erewrite lq_ok in Es by (unfold lift; rewrite N4; reflexivity). erewrite lq_ok in Es by (unfold lift; cbn [boolean_v]; reflexivity).
  rewrite (lq_ok _ _ _ (@cube_got _ _ _ _ WRadius s m H)) in Es. set (s1 := put_cube WRadius s _) in Es. assert (H1 : sinv s1) by now apply sinv_rd.
  rewrite (lq_ok _ _ _ (@cube_got _ _ _ _ WInclination s1 m H1)) in Es. set (s2 := put_cube WInclination s1 _) in Es. assert (H2 : sinv s2) by now apply sinv_rd.
  rewrite (lq_ok _ _ _ (@cube_got _ _ _ _ WTilt s2 m H2)) in Es. cbn [fst snd the_cube] in Es.
  change (p_data (rd s1 m true (s_inc s1))) with (p_data (rd s m true (s_inc s))) in Es. change (p_data (rd s2 m true (s_tilt s2))) with (p_data (rd s m true (s_tilt s))) in Es.
  match type of Es with lbind (quiet (lift (nanargmin ?l))) _ _ = _ => set (ds := l) in Es end.
  destruct (nanargmin ds) as [k|e] eqn:Ek; [|discriminate Es]. erewrite lq_ok in Es by reflexivity. destruct (nanargmin_spec _ Ek) as (w & Hw & _).
  assert (Lk : k < points s). { assert (X : k < List.length ds) by (apply nth_error_Some; congruence). unfold ds, distances in X. rewrite map_length, seq_length, rd_length in X. assert (Y := cube_points H (i_cubes H WRadius)). cbn [the_cube] in Y. rewrite Y in X. exact X. }
  change (unravel (shape3 (s_params s)) k) with (spot s k) in Es. assert (Q := spot_place H Lk). destruct (spot s k) as [[y0 x0] q0]. destruct Q as [Rg Q].
  destruct (item (g_dy (s_params s)) (Z.of_nat y0)) as [c1|]; [|discriminate Es]. erewrite lq_ok in Es by reflexivity.
  destruct (item (g_dx (s_params s)) (Z.of_nat x0)) as [c2|]; [|discriminate Es]. erewrite lq_ok in Es by reflexivity.
  destruct (item (g_rfa (s_params s)) (Z.of_nat q0)) as [c3|]; [|discriminate Es]. erewrite lq_ok in Es by reflexivity.
  destruct (nan_min ds) as [d0|]; [|discriminate Es]. erewrite lq_ok in Es by reflexivity.
  unfold says, quiet, ret in Es. rewrite app_nil_r in Es. apply pair_equal_spec in Es as [Es <-]. apply pair_equal_spec in Es as [_ Es].
  assert (y0 = y /\ x0 = x /\ q0 = q /\ d0 = d) as (-> & -> & -> & ->) by (repeat split; congruence). clear Es.
  assert (L : forall w, k < List.length (p_data (the_cube w s))) by (intros w'; rewrite (cube_points H (i_cubes H w')); exact Lk).
  exists (peek s m (s_dr s) k), (peek s m (s_inc s) k), (peek s m (s_tilt s) k). rewrite Q.
  split; [exact (peek_seen _ _ _ (L WRadius))|]. split; [exact (peek_seen _ _ _ (L WInclination))|]. split; [exact (peek_seen _ _ _ (L WTilt))|]. split; reflexivity.
Qed.
End O.
