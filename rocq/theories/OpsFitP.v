(** Adding gradients and the gradient fit. *)
From Coq Require Import ZArith Reals List Bool String Lia Lra.
From Verif Require Import Num NumP Py SpecNum Validate ValidateP Ring RingP RingSystem RingSystemP FS GridParams SpecGrid GridParamsP GridDiag Names GridProp SpecProp GridPropP GridGradP Geometry
  Build SpecBuild BuildP BuildQP Shallot BuildGP BuildGridP BuildCP AddLaws ShallotOps SpecOps OpsP OpsReadP OpsEditP OpsGradP.
Import ListNotations.
Set Implicit Arguments.
Local Open Scope list_scope.

Section O.
Context {T : Type} {NT : Num T} {LT : NumLaws T} {AL : AddLaws T} (E : env T).
Notation pyval := (pyval T).
Notation shallot := (shallot T).

(** *** arguments *)
Lemma volume1 n : volume [n] = n. Proof. unfold volume. cbn. lia. Qed.
Lemma array1_ok (v w : pyval) lo up : arr_wf v -> array v lo up false (Some "float64"%string) (Some 1%Z) = Ok w -> w = v /\ exists l, v = farr l.
Proof.
  destruct v as [| | | | | | | |dt sh el|]; try discriminate. intros (Hl & Hf & _). cbn [array].
  destruct (match lo, up with None, None => _ | _, _ => _ end); cbn [bind]; [|discriminate].
  unfold array_dimensions. destruct (Z.eqb_spec (Z.of_nat (List.length sh)) 1) as [Hs|]; cbn [bind]; [|discriminate].
  unfold array_type. destruct (String.eqb_spec dt "float64"%string) as [->|]; cbn [bind]; [|discriminate].
  intros H. split; [congruence|]. destruct sh as [|n [|]]; cbn in Hs; try lia. rewrite volume1 in Hl. specialize (Hf eq_refl).
  exists (map (@num_scal T _) el). unfold farr. rewrite map_length, Hl. f_equal. rewrite map_map. rewrite <- (map_id el) at 1. apply map_ext_in.
  intros s Hs'. rewrite Forall_forall in Hf. specialize (Hf s Hs'). destruct s; try destruct Hf. reflexivity.
Qed.
Lemma elems_farr (l : list T) : elems_of (farr l) = l.
Proof. unfold elems_of, farr. rewrite map_map. cbn [num_scal]. apply map_id. Qed.
Lemma ones_farr (l : list T) : ones_like (farr l) = farr (map (fun _ => n_one) l).
Proof. unfold ones_like, farr. rewrite !map_map, map_length. reflexivity. Qed.
Lemma same_farr2 (a b : list T) u : same_shape_arrays [farr a; farr b] 2 = Ok u -> List.length a = List.length b.
Proof. unfold farr. intros H. apply same2 in H. congruence. Qed.
Lemma same_farr3 (a b c : list T) u : same_shape_arrays [farr a; farr b; farr c] 3 = Ok u -> List.length b = List.length a /\ List.length c = List.length a.
Proof.
  unfold same_shape_arrays, farr. cbn [List.length Nat.ltb Nat.leb negb Nat.eqb shape_of same_shape_loop bind orb]. unfold shape_eqb.
  destruct (list_eq_dec Nat.eq_dec [List.length a] [List.length a]); [|congruence]. destruct (list_eq_dec Nat.eq_dec [List.length b] [List.length a]); cbn [negb orb]; [|destruct (list_eq_dec Nat.eq_dec [List.length c] [List.length a]); discriminate].
  destruct (list_eq_dec Nat.eq_dec [List.length c] [List.length a]); cbn [negb orb]; [|discriminate]. split; congruence.
Qed.
Lemma farr_wf (l : list T) : arr_wf (farr l).
Proof. split; [rewrite map_length, volume1; reflexivity|]. split; [|discriminate]. intros _. apply Forall_forall. intros x Hx. apply in_map_iff in Hx as (y & <- & _). exact I. Qed.

Lemma each2_ok A B C (f : A -> B -> A * res C) l : forall m l' cs, each2 f l m = (l', Ok cs) -> List.length l = List.length m ->
  List.length l' = List.length l /\ forall k a b, nth_error l k = Some a -> nth_error m k = Some b -> exists a' c, f a b = (a', Ok c) /\ nth_error l' k = Some a'.
Proof.
  induction l as [|a l IH]; intros [|b m] l' cs H Hl; try discriminate Hl; cbn [each2] in H.
  - injection H as <- _. split; auto. intros [|k] a b X; discriminate.
  - destruct (f a b) as [a' [c|e]] eqn:Ef; [|discriminate]. destruct (each2 f l m) as [l1 [cs1|e]] eqn:E1; [|discriminate]. injection H as <- _.
    destruct (IH m l1 cs1 E1) as [L1 P1]; [cbn in Hl; congruence|]. split; [cbn; congruence|]. intros [|k] x y X Y; cbn [nth_error] in *; [|eauto].
    injection X as <-. injection Y as <-. eauto.
Qed.

Lemma orbital_small (s : shallot) o : determine_orbital_scale E s = Ok o -> small o /\ float_like o.
Proof.
  unfold determine_orbital_scale. destruct (s_limb s) as [u|]; [|discriminate]. destruct (s_vel s) as [v|]; [|discriminate].
  destruct (_ && _); [|discriminate]. destruct (_ && n_eq _ _); [discriminate|]. destruct (_ && n_eq _ _); [discriminate|].
  intros H. injection H as <-. destruct (_ && _); split; try exact I; constructor.
Qed.

(** *** C45, adding *)
Theorem gradient_cell (s : shallot) p y x r dx dy fx fy : sinv s ->
  nth_error (g_dy (s_params s)) y = Some dy -> nth_error (g_dx (s_params s)) x = Some dx -> r < List.length (g_rfa (s_params s)) ->
  let nx := List.length (g_dx (s_params s)) in let nr := List.length (g_rfa (s_params s)) in
  cell nx nr (p_data (s_fx s)) y x r = Some fx -> cell nx nr (p_data (s_fy s)) y x r = Some fy ->
  cell nx nr (gradient_values E s p) y x r = Some (gradient_at (e_libm E) p dx dy (shear_at dx dy) fx fy).
Proof.
  intros H Hy Hx Hr nx nr Hfx Hfy. unfold cell in *. set (k := (y * nx + x) * nr + r) in *.
  assert (Lx : x < nx) by (apply nth_error_Some; congruence). assert (Ly : y < List.length (g_dy (s_params s))) by (apply nth_error_Some; congruence).
  assert (Hk : k < volume (shape3 (s_params s))).
  { assert (L := proj2 (cube_shape (i_cubes H WFx))). rewrite <- L. apply nth_error_Some. cbn [the_cube]. congruence. }
  unfold gradient_values. rewrite nth_error_map, nth_error_seq' by auto. cbn [option_map Nat.add].
  assert (D1 : k / nr = y * nx + x) by (unfold k; rewrite Nat.div_add_l by lia; rewrite (Nat.div_small r nr) by auto; lia).
  assert (D2 : k / (nx * nr) = y) by (rewrite Nat.mul_comm, <- Nat.div_div by lia; rewrite D1, Nat.div_add_l by lia; rewrite Nat.div_small by auto; lia).
  assert (D3 : k / nr mod nx = x) by (rewrite D1, Nat.add_comm, Nat.mod_add by lia; now apply Nat.mod_small).
  fold nx nr. rewrite D2, D3, (i_shear H). rewrite (shear_params (s_params s)) by auto.
  rewrite (nth_error_nth _ _ _ Hx), (nth_error_nth _ _ _ Hy), (nth_error_nth _ _ _ Hfx), (nth_error_nth _ _ _ Hfy). reflexivity.
Qed.

Theorem add_exact (s s' : shallot) t l e tr u d v : sinv s -> arr_wf t -> arr_wf l -> o_wf e -> o_wf tr ->
  s_limb s = Some u -> s_ecl s = Some d -> s_vel s = Some v -> add_gradients E t l e tr s = (s', Ok tt) ->
  exists ts ls es trs o new, t = farr ts /\ l = farr ls /\ given e ls es /\ given tr ls trs /\ List.length ls = List.length ts /\ List.length es = List.length ts /\ List.length trs = List.length ts /\
    determine_orbital_scale E s = Ok o /\
    s' = with_grads s (Some (dflt [] (s_grads s) ++ new)) None /\ List.length new = List.length ts /\
    forall k time lc er tm, nth_error ts k = Some time -> nth_error ls k = Some lc -> nth_error es k = Some er -> nth_error trs k = Some tm ->
      exists g, nth_error new k = Some g /\
        let pos := n_div (n_neg time) (num_of d) in
        let r := n_mul (n_abs lc) (n_mul (num_of o) (n_div n_one tm)) in
        g = mkGG (with_mask (fresh GRADIENT NONE (s_params s) (map (@SF T) (gradient_values E s pos)))
                            (Some (bool_marr (shape3 (s_params s)) (mask_of r (gradient_values E s pos)))))
                 (PNpFloat pos) (Some (PNpFloat (n_abs lc))) (Some (PNpFloat er)) (Some o) (Some (PNpFloat tm)) /\ ~ xlt (XFin 1) (val r).
Proof.
  intros H Wt Wl We Wtr Eu Ed Ev. unfold add_gradients. rewrite Eu, Ed, Ev.
  destruct (array t _ _ _ _ _) as [t'|] eqn:At; cbn [bind]; [|discriminate]. destruct (array1_ok _ _ _ Wt At) as (-> & ts & ->).
  destruct (array l _ _ _ _ _) as [l'|] eqn:Al; cbn [bind]; [|discriminate]. destruct (array1_ok _ _ _ Wl Al) as (-> & ls & ->).
  destruct (same_shape_arrays _ _) as [x|] eqn:Ss; cbn [bind]; [|discriminate]. apply same_farr2 in Ss.
  unfold mbind at 1. rewrite disk_gradients_ok, !elems_farr. set (ps := map (fun x => n_div (n_neg x) (num_of d)) ts).
  set (s1 := with_grads s (Some (dflt [] (s_grads s) ++ map (blank_gradient E s) ps)) (s_fit s)).
  unfold mbind, set_measured.
  assert (We' : arr_wf (dflt (ones_like (farr ls)) e)) by (destruct e; cbn [dflt]; [exact We|rewrite ones_farr; apply farr_wf]).
  assert (Wtr' : arr_wf (dflt (ones_like (farr ls)) tr)) by (destruct tr; cbn [dflt]; [exact Wtr|rewrite ones_farr; apply farr_wf]).
  destruct (array (dflt _ e) _ _ _ _ _) as [er|] eqn:Ae; cbn [bind]; [|discriminate]. destruct (array1_ok _ _ _ We' Ae) as (-> & es & Ees).
  destruct (array (dflt _ tr) _ _ _ _ _) as [er|] eqn:Atr; cbn [bind]; [|discriminate]. destruct (array1_ok _ _ _ Wtr' Atr) as (-> & trs & Etrs).
  rewrite Ees, Etrs. destruct (same_shape_arrays _ 3) as [x3|] eqn:S3; cbn [bind]; [|discriminate]. apply same_farr3 in S3 as [L1 L2].
  change (determine_orbital_scale E s1) with (determine_orbital_scale E s).
  destruct (determine_orbital_scale E s) as [o|] eqn:Eo; cbn [bind]; [|discriminate]. rewrite !elems_farr. cbn [s1 with_grads s_grads dflt].
  assert (Lp : List.length ps = List.length ls) by (unfold ps; rewrite map_length; auto).
  rewrite app_length, map_length, Lp. replace (List.length (dflt [] (s_grads s)) + List.length ls - List.length ls) with (List.length (dflt [] (s_grads s))) by lia.
  rewrite firstn_app, Nat.sub_diag, firstn_all, firstn_O, app_nil_r. rewrite skipn_app, Nat.sub_diag, skipn_all. cbn [app skipn].
  destruct (each2 _ _ _) as [new [cs|xx]] eqn:Ee; cbn [bind]; [|discriminate]. intros HR. injection HR as <-.
  assert (Lv : List.length (combine (map n_abs ls) (combine es trs)) = List.length ls) by (rewrite !combine_length, map_length; lia).
  apply each2_ok in Ee; [|rewrite map_length; congruence]. destruct Ee as [Ln Pn]. rewrite map_length in Ln.
  exists ts, ls, es, trs, o, new. split; auto. split; auto.
  assert (G : forall q qs, arr_wf (dflt (ones_like (farr ls)) q) -> dflt (ones_like (farr ls)) q = farr qs -> given q ls qs).
  { intros [q|] qs _; cbn [dflt given]; auto. rewrite ones_farr. unfold farr. intros X. injection X as _ X. symmetry.
    assert (Y := f_equal (map (@num_scal T _)) X). rewrite !map_map in Y. cbn [num_scal] in Y. rewrite map_id in Y. exact Y. }
  split; [now apply G|]. split; [now apply G|]. split; auto. split; [congruence|]. split; [congruence|]. split; auto. split; [reflexivity|]. split; [congruence|].
  intros k time lc er tm Ht Hlc Her Htm. cbn zeta.
  assert (Hb : nth_error (map (blank_gradient E s) ps) k = Some (blank_gradient E s (n_div (n_neg time) (num_of d)))) by (unfold ps; rewrite !nth_error_map, Ht; reflexivity).
  assert (Hv : nth_error (combine (map n_abs ls) (combine es trs)) k = Some (n_abs lc, (er, tm))).
  { assert (C : forall A B (a : list A) (b : list B) k x y, nth_error a k = Some x -> nth_error b k = Some y -> nth_error (combine a b) k = Some (x, y)).
    { intros A B a. induction a as [|a0 a IH]; intros [|b0 b] [|k'] x' y' X Y; cbn in *; try discriminate; auto. congruence. }
    apply C; [rewrite nth_error_map, Hlc; reflexivity|]. now apply C. }
  destruct (Pn k _ _ Hb Hv) as (g & [] & Hg & Hn). exists g. split; auto. cbn [fst snd] in Hg. destruct (orbital_small s Eo) as [So _].
  apply determine_ok_fields in Hg; auto; try exact I. destruct Hg as (_ & _ & Hsc & ->). cbn [transmission err_or_1] in *. unfold scaled_of in *. cbn [num_of scal_of num_scal] in *.
  cbn [masked_with set_fields blank_gradient with_prop gg_prop gg_pos gg_meas gg_err gg_orb gg_trans].
  split; [|exact Hsc].
  assert (Dp : forall gv, p_data (fresh GRADIENT NONE (s_params s) (map (@SF T) gv)) = gv) by (intros gv; cbn [fresh with_colors with_limits p_data]; rewrite map_map; apply map_id).
  unfold masked_with, set_fields, blank_gradient, with_prop. cbn [gg_prop gg_pos gg_meas gg_err gg_orb gg_trans]. rewrite Dp. reflexivity.
Qed.

(** without all three parameters nothing is done *)
Theorem add_without (s : shallot) t l e tr : s_limb s = None \/ s_ecl s = None \/ s_vel s = None -> add_gradients E t l e tr s = (s, Ok tt).
Proof.
  unfold add_gradients. destruct (s_limb s); [|auto]. destruct (s_ecl s); [|auto]. destruct (s_vel s); [|auto]. intros [X|[X|X]]; discriminate.
Qed.

(** C39: with a Python zero as the velocity, gradients cannot be added *)
Theorem add_still (s s' : shallot) t l e tr u d v x : s_limb s = Some u -> s_ecl s = Some d -> s_vel s = Some v -> py_zero v -> small v ->
  add_gradients E t l e tr s <> (s', Ok x).
Proof.
  intros Eu Ed Ev Hz Sv HH.
  assert (O : exists er, determine_orbital_scale E s = Err er).
  { unfold determine_orbital_scale. rewrite Eu, Ev. destruct (is_number u && is_number v) eqn:En; [|eauto]. destruct (own_number u && _); [eauto|].
    assert (Ow : own_number v = true) by (destruct v; try contradiction Hz; reflexivity). rewrite Ow. cbn [andb].
    assert (Nv : numberlike v) by (destruct v; try contradiction Hz; first [left; constructor|right; constructor]).
    assert (Vv : value v = XFin 0) by (destruct v; try contradiction Hz; exact Hz).
    assert (Q : n_eq (num_of v) n_zero = true) by (apply neq_iff; rewrite (num_of_value Nv Sv), Vv, val_zero; split; [auto|discriminate]). rewrite Q. eauto. }
  destruct O as [er O]. unfold add_gradients in HH. rewrite Eu, Ed, Ev in HH.
  destruct (let* _ := array t _ _ _ _ _ in _) as [[t' l']|]; [|discriminate]. unfold mbind in HH. rewrite disk_gradients_ok in HH. unfold set_measured in HH.
  destruct (array (dflt _ e) _ _ _ _ _); cbn [bind] in HH; [|discriminate]. destruct (array (dflt _ tr) _ _ _ _ _); cbn [bind] in HH; [|discriminate].
  destruct (same_shape_arrays _ 3); cbn [bind] in HH; [|discriminate].
  match type of HH with context [determine_orbital_scale E ?s1] => change (determine_orbital_scale E s1) with (determine_orbital_scale E s) in HH end. rewrite O in HH. discriminate.
Qed.

(** *** the fit *)
Lemma n_sq_eq (x : T) : n_sq x = n_mul x x. Proof. reflexivity. Qed.
Lemma term_sign w i g t : term_of w i g t -> val t = XNaN \/ nonneg (val t).
Proof.
  intros (v & sc & wt & _ & _ & Hw & ->). rewrite n_sq_eq. destruct (a_sq (n_sub v sc)) as [[_ Hn]|[_ Hn]]; [left; apply a_div_nan; auto|].
  destruct w.
  - destruct Hw as (e & _ & ->). rewrite n_sq_eq. now apply a_div_sq.
  - subst wt. right. now rewrite a_div_one.
Qed.
Lemma nonneg_not_nan v : nonneg v -> v <> XNaN.
Proof. intros H. apply nonneg_iff in H as [-> |(r & -> & _)]; discriminate. Qed.
Lemma fold_nan l : forall x : T, val x = XNaN -> val (fold_left n_add l x) = XNaN.
Proof. induction l as [|t l IH]; intros x H; cbn [fold_left]; auto. apply IH, a_nan; auto. Qed.
Lemma fold_sign (l : list T) : (forall t, In t l -> val t = XNaN \/ nonneg (val t)) -> forall x, nonneg (val x) ->
  (val (fold_left n_add l x) = XNaN <-> exists t, In t l /\ val t = XNaN) /\ (val (fold_left n_add l x) <> XNaN -> nonneg (val (fold_left n_add l x)) /\ xle (val x) (val (fold_left n_add l x))).
Proof.
  induction l as [|t l IH]; intros Hl x Hx; cbn [fold_left].
  - split; [split; [intros X; destruct (nonneg_not_nan Hx X)|intros (t & [] & _)]|]. intros X. split; auto. right. split; auto.
  - assert (Hl' : forall t, In t l -> val t = XNaN \/ nonneg (val t)) by (intros; apply Hl; now right).
    destruct (Hl t (or_introl eq_refl)) as [Ht|Ht].
    + assert (N : val (fold_left n_add l (n_add x t)) = XNaN) by (apply fold_nan, a_nan; auto). rewrite N. split; [|congruence]. split; auto. intros _. exists t. split; auto. now left.
    + destruct (a_up x t Hx Ht) as [U V]. assert (Hs : nonneg (val (n_add x t))) by (eapply xle_trans; [exact Hx|exact U]).
      destruct (IH Hl' _ Hs) as [A B]. split.
      * rewrite A. split; intros (t' & Ht' & Hn); exists t'; split; auto; [now right|]. destruct Ht' as [<-|]; auto. destruct (nonneg_not_nan Ht Hn).
      * intros X. destruct (B X) as [B1 B2]. split; auto. eapply xle_trans; eauto.
Qed.
Lemma fit_term_nth w (d d' : list T) g : fit_term w d g = Ok d' -> List.length d = List.length (p_data (gg_prop g)) ->
  forall i x, nth_error d i = Some x -> exists t, term_of w i g t /\ nth_error d' i = Some (n_add x t).
Proof.
  unfold fit_term. destruct (if w then _ else _) as [wt|] eqn:Ew; cbn [bind]; [|discriminate]. destruct (scaled_gradient g) as [[sc|]|] eqn:Es; cbn [bind]; try discriminate.
  intros H Hl i x Hx. injection H as <-. destruct (nth_error (p_data (gg_prop g)) i) as [v|] eqn:Ev; [|apply nth_error_None in Ev; assert (i < List.length d) by (apply nth_error_Some; congruence); lia].
  exists (n_div (n_sq (n_sub v sc)) wt). split.
  - exists v, sc, wt. split; auto. split; auto. split; auto. destruct w; [|congruence]. destruct (gg_err g) as [e|]; [|discriminate]. exists e. split; auto. congruence.
  - rewrite nth_error_map. assert (C : nth_error (combine d (p_data (gg_prop g))) i = Some (x, v)).
    { clear -Hx Ev. revert d i Hx Ev. generalize (p_data (gg_prop g)). intros m d. revert m. induction d as [|a d IH]; intros [|b m] [|i] X Y; cbn in *; try discriminate; auto. congruence. }
    rewrite C. reflexivity.
Qed.
Lemma fit_fold_nth w gs n : Forall (fun g => List.length (p_data (gg_prop g)) = n) gs -> forall d d', List.length d = n -> fold_res (fit_term w) gs d = Ok d' ->
  forall i x, nth_error d i = Some x -> exists ts, Forall2 (term_of w i) gs ts /\ nth_error d' i = Some (fold_left n_add ts x).
Proof.
  induction 1 as [|g gs Hg H IH]; intros d d' Hd HF i x Hx; cbn [fold_res] in HF.
  - injection HF as <-. exists []. split; [constructor|exact Hx].
  - destruct (fit_term w d g) as [d1|] eqn:E1; cbn [bind] in HF; [|discriminate].
    destruct (fit_term_nth w d g E1) with (i := i) (x := x) as (t & Ht & Hn); [congruence|auto|].
    destruct (IH d1 d') with (i := i) (x := n_add x t) as (ts & Hts & Hn'); auto; [rewrite <- Hd; apply (fit_term_length w d g); [congruence|auto]|].
    exists (t :: ts). split; [constructor; auto|exact Hn'].
Qed.

Theorem fit_exact (s s' : shallot) w gs : sinv s -> s_grads s = Some gs -> determine_gradient_fit w s = (s', Ok tt) ->
  exists p, s' = with_grads s (Some gs) (Some p) /\ p_name p = GRADIENT_FIT /\ p_params p = s_params s /\ p_shape p = shape3 (s_params s) /\ List.length (p_data p) = points s /\
  forall i, i < points s -> exists ts v, Forall2 (term_of w i) gs ts /\ nth_error (p_data p) i = Some v /\ v = fold_left n_add ts n_zero /\
    (val v = XNaN <-> exists t, In t ts /\ val t = XNaN) /\ (marked (p_mask p) i = true <-> val v = XNaN) /\ (val v <> XNaN -> xle (XFin 0) (val v)).
Proof.
  intros H Eg. rewrite (fit_ok s w Eg), Eg. destruct (fold_res _ _ _) as [data|] eqn:Ef; [|discriminate]. intros HR. injection HR as <-.
  assert (Hl : List.length data = points s).
  { rewrite <- (points_volume H). eapply fit_fold_length; [exact (grads_lengths H Eg)| |exact Ef]. apply repeat_length. }
  exists (fit_of (s_params s) data). split; [reflexivity|]. split; [reflexivity|]. split; [reflexivity|]. split; [reflexivity|]. rewrite fit_of_data. split; [exact Hl|].
  intros i Hi. assert (Z0 : nth_error (repeat (n_zero : T) (volume (shape3 (s_params s)))) i = Some n_zero) by (apply nth_error_repeat'; rewrite points_volume; auto).
  destruct (fit_fold_nth w (grads_lengths H Eg) _ (repeat_length _ _) Ef i Z0) as (ts & Hts & Hn). exists ts, (fold_left n_add ts n_zero). split; auto. split; auto. split; auto.
  assert (Hsg : forall t, In t ts -> val t = XNaN \/ nonneg (val t)).
  { intros t Ht. clear -Hts Ht AL. induction Hts as [|g t' gs ts Hg Hts IH]; [destruct Ht|]. destruct Ht as [<-|Ht]; [eapply term_sign; eauto|auto]. }
  destruct (fold_sign ts Hsg n_zero) as [A B]; [rewrite val_zero; apply nonneg_iff; right; exists 0%R; split; auto; lra|].
  split; auto. split.
  - cbn [fit_of with_mask p_mask marked ma_elems]. rewrite nth_error_map, Hn. cbn [option_map]. apply isnan_iff.
  - intros X. apply (B X).
Qed.
Theorem fit_failure (s s' : shallot) w e : determine_gradient_fit w s = (s', Err e) -> s' = s.
Proof.
  destruct (s_grads s) as [gs|] eqn:Eg; [|unfold determine_gradient_fit; rewrite Eg; discriminate]. rewrite (fit_ok s w Eg). destruct (fold_res _ _ _); congruence.
Qed.

(** *** C47 *)
Definition nofit {A} (m : M (T := T) A) : Prop := forall s, s_fit s = None -> s_fit (fst (m s)) = None.
Lemma nofit_bind A B (m : M A) (f : A -> M B) : nofit m -> (forall a, nofit (f a)) -> nofit (mbind m f).
Proof. intros Hm Hf s Hs. unfold mbind. assert (X := Hm s Hs). destruct (m s) as [s1 [a|e]]; cbn [fst] in *; auto. now apply Hf. Qed.
Lemma nofit_lift A (a : res A) : nofit (lift a). Proof. intros s H. exact H. Qed.
Lemma nofit_ret A (a : A) : nofit (ret a). Proof. intros s H. exact H. Qed.
Lemma read_put (p : gprop T) (put : gprop T -> shallot) m b : exists q, fst (read_property p put m b) = put q.
Proof.
  unfold read_property. destruct (get_data p b) as [p' [d|]]; [|cbn [fst]; eauto]. destruct (boolean_v m) as [[]|]; cbn [fst]; eauto. destruct (combined_mask _); cbn [fst]; eauto. destruct (shape_eqb _ _); cbn [fst]; eauto.
Qed.
Lemma nofit_cube w m b : nofit (get_cube w m b).
Proof. intros s H. rewrite get_cube_read. destruct (read_put (the_cube w s) (put_cube w s) m b) as [q ->]. now rewrite put_fit. Qed.
Lemma nofit_dmap m b : nofit (get_diagnostic_map m b).
Proof. intros s H. unfold get_diagnostic_map. destruct (s_dmap s) as [p|]; auto. destruct (read_put p (set_dmap s) m b) as [q ->]. exact H. Qed.
Lemma nofit_getfit m b : nofit (get_gradient_fit m b).
Proof. intros s H. unfold get_gradient_fit. rewrite H. exact H. Qed.
Lemma nofit_points y x r m : nofit (point_gradients y x r m).
Proof. intros s H. unfold point_gradients. destruct (s_grads s); auto. cbn zeta. destruct (each2 _ _ _). exact H. Qed.
Lemma nofit_point y x r m : nofit (get_grid_point_data y x r m).
Proof.
  intros s H. unfold get_grid_point_data. destruct (g_shape (s_params s)) as [[my mx] mr].
  match goal with |- s_fit (fst (?f s)) = None => enough (K : nofit f) by exact (K s H) end.
  repeat first [apply nofit_bind; [first [apply nofit_lift|apply (nofit_cube WRadius)|apply (nofit_cube WInclination)|apply (nofit_cube WTilt)|apply (nofit_cube WFx)|apply (nofit_cube WFy)|apply nofit_dmap|apply nofit_points]|intros] | apply nofit_ret].
Qed.
Lemma nofit_closest a b c d m : nofit (determine_closest a b c d m).
Proof.
  intros s H. unfold determine_closest.
  match goal with |- s_fit (fst (?f s)) = None => enough (K : nofit f) by exact (K s H) end.
  repeat first [apply nofit_bind; [first [apply nofit_lift|apply (nofit_cube WRadius)|apply (nofit_cube WInclination)|apply (nofit_cube WTilt)]|intros] | apply nofit_ret | match goal with |- nofit (let '(_, _) := ?x in _) => destruct x as [[? ?] ?] end].
Qed.
Lemma nofit_loop k : nofit (extract_loop k).
Proof. destruct k as [|k]; [apply nofit_ret|]. intros s H. cbn [extract_loop]. rewrite H. exact H. Qed.
Lemma nofit_extract n : nofit (extract_solutions n).
Proof.
  intros s H. unfold extract_solutions. match goal with |- context [match ?x with Ok _ => _ | Err _ => _ end] => destruct x as [k|] end; [|exact H].
  refine (@nofit_bind _ _ _ _ (nofit_getfit _ _) _ s H). intros _. apply nofit_loop.
Qed.
Lemma nofit_measured l e t : nofit (set_measured E l e t).
Proof.
  intros s H. unfold set_measured. match goal with |- context [match ?x with Ok _ => _ | Err _ => _ end] => destruct x as [[o vs]|] end; [|exact H].
  cbn zeta. destruct (each2 _ _ _). exact H.
Qed.
Theorem nofit_op (s : shallot) o : (forall w, o <> OFit w) -> s_fit s = None -> s_fit (do_op E s o) = None.
Proof.
  intros Ho H. destruct o; cbn [do_op].
  - unfold add_gradients. destruct (s_limb s); [|exact H]. destruct (s_ecl s); [|exact H]. destruct (s_vel s); [|exact H].
    match goal with |- context [match ?x with Ok _ => _ | Err _ => _ end] => destruct x as [[t' l']|] end; [|exact H].
    match goal with |- s_fit (fst (?f s)) = None => enough (K : nofit f) by exact (K s H) end.
    apply nofit_bind; [intros s1 H1; rewrite disk_gradients_ok; exact H1|]. intros _. apply nofit_bind; [apply nofit_measured|]. intros _ s1 _. reflexivity.
  - unfold remove_gradients. destruct (s_grads s) as [gs|]; [|exact H]. destruct (array _ _ _ _ _ _); [|exact H]. destruct (delete_all gs _) as [gs' [[]|e]]; [reflexivity|exact H].
  - unfold set_eclipse_parameters. destruct (number duration _ _ _ _); [|exact H]. destruct (number velocity _ _ _ _); [|exact H]. destruct (number limb _ _ _ _); [|exact H].
    cbn zeta. cbn [with_eclipse s_grads]. destruct (s_grads s); [reflexivity|exact H].
  - destruct (update_gradient_scaling E velocity limb transmissions s) as [s' [[]|e]] eqn:Es; cbn [fst].
    + revert Es. unfold update_gradient_scaling. cbn zeta. set (s2 := match limb with Some u => with_eclipse _ _ _ (Some u) | None => _ end).
      assert (H2 : s_fit s2 = None) by (unfold s2; destruct limb, velocity; exact H). clearbody s2.
      match goal with |- context [match ?x with Ok _ => _ | Err _ => _ end] => destruct x as [tr|] end; [|discriminate].
      destruct (match velocity with Some _ => _ | None => _ end), tr; try (intros X; injection X as <-; exact H2);
      (destruct (s_grads s2); [|discriminate]); destruct (each2 _ _ _) as [gs [r|]]; try discriminate; intros X; injection X as <-; reflexivity.
    + destruct (scale_stores E s _ _ _ Es) as (_ & _ & X). congruence.
  - destruct (Ho weighted eq_refl).
  - unfold generate_hill_radius_mask. destruct (number h _ _ _ _); [|exact H]. destruct (set_mask _ _). exact H.
  - rewrite mask_cube_put, put_fit. exact H.
  - unfold mask_gradient. destruct (s_grads s) as [gs|]; [|exact H]. destruct (nth_error gs k); exact H.
  - now apply nofit_cube.
  - now apply nofit_dmap.
  - now apply nofit_getfit.
  - unfold get_gradients. destruct (s_grads s); [|exact H].
    match goal with |- context [match ?x with Ok _ => _ | Err _ => _ end] => destruct x as [mk|] end; [|exact H]. cbn zeta. destruct (each2 _ _ _). exact H.
  - now apply nofit_extract.
  - now apply nofit_closest.
  - now apply nofit_point.
Qed.
Theorem fit_is_later l : forall s : shallot, s_fit s = None -> s_fit (do_ops E s l) <> None -> exists w, In (OFit w) l.
Proof.
  induction l as [|o l IH]; intros s H Hf; [destruct (Hf H)|]. cbn [do_ops fold_left] in Hf.
  assert (D : (exists w, o = OFit w) \/ forall w, o <> OFit w) by (destruct o; eauto; right; discriminate). destruct D as [[w ->]|D]; [exists w; now left|].
  destruct (IH (do_op E s o)) as [w Hw]; [now apply nofit_op|exact Hf|]. exists w. now right.
Qed.

(** a call that changes the gradients, and does *)
Theorem changes_clear (s s' : shallot) : sinv s ->
  (forall t l e tr, s_limb s <> None -> s_ecl s <> None -> s_vel s <> None -> add_gradients E t l e tr s = (s', Ok tt) -> s_fit s' = None) /\
  (forall i, s_grads s <> None -> remove_gradients i s = (s', Ok tt) -> s_fit s' = None) /\
  (forall a b c, set_eclipse_parameters a b c s = (s', Ok tt) -> s_fit s' = None) /\
  (forall v u t, (v <> None \/ u <> None \/ t <> None) -> update_gradient_scaling E v u t s = (s', Ok tt) -> s_fit s' = None).
Proof.
  intros H. split; [|split; [|split]].
  - intros t l e tr A1 A2 A3. unfold add_gradients. destruct (s_limb s); [|congruence]. destruct (s_ecl s); [|congruence]. destruct (s_vel s); [|congruence].
    match goal with |- context [match ?x with Ok _ => _ | Err _ => _ end] => destruct x as [[t' l']|] end; [|discriminate].
    unfold mbind, reset_fit. destruct (determine_disk_gradients _ _ _) as [s1 [[]|]]; [|discriminate]. destruct (set_measured _ _ _ _ _) as [s2 [[]|]]; [|discriminate].
    intros X. injection X as <-. reflexivity.
  - intros i Hg. unfold remove_gradients. destruct (s_grads s) as [gs|]; [|congruence]. destruct (array _ _ _ _ _ _); [|discriminate]. destruct (delete_all gs _) as [gs' [[]|e]]; [|discriminate].
    intros X. injection X as <-. reflexivity.
  - intros a b c. unfold set_eclipse_parameters. destruct (number a _ _ _ _); [|discriminate]. destruct (number b _ _ _ _); [|discriminate]. destruct (number c _ _ _ _); [|discriminate].
    cbn zeta. cbn [with_eclipse s_grads]. destruct (s_grads s) as [gs|] eqn:Eg; intros X; injection X as <-; [reflexivity|]. cbn [with_eclipse s_fit].
    destruct (s_fit s) as [p|] eqn:Ef; auto. destruct (i_fit H Ef) as [_ Y]. congruence.
  - intros v u t Hc. unfold update_gradient_scaling. cbn zeta. set (s2 := match u with Some u => with_eclipse _ _ _ (Some u) | None => _ end). clearbody s2.
    match goal with |- context [match ?x with Ok _ => _ | Err _ => _ end] => destruct x as [tr|] eqn:Et end; [|discriminate].
    assert (Hs : (match v with Some _ => true | None => match u with Some _ => true | None => false end end) = true \/ tr <> None).
    { destruct v; auto. destruct u; auto. right. destruct t as [t|]; [|destruct Hc as [X|[X|X]]; congruence]. intros ->. revert Et. destruct (array _ _ _ _ _ _); cbn [bind]; [|discriminate]. destruct (same_shape_arrays _ _); discriminate. }
    clear Hc Et. revert Hs. destruct (match v with Some _ => true | None => _ end), tr; intros [Hs|Hs]; try discriminate; try congruence;
      (destruct (s_grads s2); [|discriminate]); destruct (each2 _ _ _) as [gs [r|]]; try discriminate; intros X; injection X as <-; reflexivity.
Qed.
End O.
