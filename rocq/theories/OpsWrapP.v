(** The results on the methods of a grid, for reachable grids. *)
From Coq Require Import ZArith Reals List Bool String Lia Lra.
From Verif Require Import Num NumP Py SpecNum Validate ValidateP Ring RingP RingSystem FS GridParams SpecGrid GridDiag Names GridProp SpecProp GridPropP GridGradP Geometry
  Build SpecBuild Shallot AddLaws ShallotOps SpecOps OpsP OpsReadP OpsEditP OpsGradP OpsFitP OpsPointP OpsExtractP StretchP.
Import ListNotations.
Set Implicit Arguments.
Local Open Scope list_scope.

Section O.
Context {T : Type} {NT : Num T} {LT : NumLaws T} {AL : AddLaws T} (E : env T).
Notation pyval := (pyval T).
Notation shallot := (shallot T).

Theorem masked_read (s : shallot) w b : sreach E s -> exists s' l, get_cube w (PBool true) (PBool b) s = (s', Ok (shape3 (s_params s), l)) /\
  p_data (the_cube w s') = l /\ p_mask (the_cube w s') = p_mask (the_cube w s) /\ (forall w', w' <> w -> the_cube w' s' = the_cube w' s) /\ List.length l = points s /\
  forall i x, nth_error (p_data (the_cube w s)) i = Some x ->
    (masked_at s i \/ (b = true /\ marked (p_mask (the_cube w s)) i = true) -> nth_error l i = Some n_nan) /\
    (~ masked_at s i -> b = false \/ marked (p_mask (the_cube w s)) i = false -> nth_error l i = Some x).
Proof.
  intros H. destruct (masked_read_spec w b H) as (l & A & B). do 2 eexists. split; [exact A|]. rewrite put_same. split; [reflexivity|]. split; [reflexivity|]. split; auto.
  intros w' Hw. apply put_other. auto.
Qed.
Theorem hill_mask_exact (s : shallot) h : sreach E s -> small h -> numberlike h -> ~ xlt (value h) (XFin 0) ->
  exists s', generate_hill_radius_mask h s = (s', Ok tt) /\ p_data (s_dr s') = p_data (s_dr s) /\ (forall w, w <> WRadius -> the_cube w s' = the_cube w s) /\
  forall i x, nth_error (p_data (s_dr s)) i = Some x -> marked (p_mask (s_dr s')) i = true <-> val x = XNaN \/ xlt (value h) (val x).
Proof.
  intros H Sh Nh Hh. destruct (hill_exact H Sh Nh Hh) as (m & A & _ & B). eexists. split; [exact A|]. split; [reflexivity|]. split; [|exact B].
  intros [] Hw; try reflexivity. congruence.
Qed.

(** C39 *)
Theorem zero_velocity (s s' s2 : shallot) a v u t l e tr x : sreach E s -> small a -> small v -> small u -> py_zero v ->
  set_eclipse_parameters a v u s = (s', Ok tt) -> add_gradients E t l e tr s' <> (s2, Ok x).
Proof.
  intros H Sa Sv Su Hz HH. assert (X : s_limb s' = Some u /\ s_ecl s' = Some a /\ s_vel s' = Some v).
  { unfold set_eclipse_parameters in HH. destruct (number a _ _ _ _) as [a'|] eqn:Ea; [|discriminate]. destruct (number v _ _ _ _) as [v'|] eqn:Ev; [|discriminate].
    destruct (number u _ _ _ _) as [u'|] eqn:Eu; [|discriminate]. apply BuildCP.number_same in Ea, Ev, Eu. subst. cbn zeta in HH. cbn [with_eclipse s_grads] in HH. destruct (s_grads s); injection HH as <-; auto. }
  destruct X as (A & B & C). eapply add_still; eauto.
Qed.
Theorem zero_accepted (s : shallot) a u v : sreach E s -> small a -> small v -> small u -> py_zero v ->
  numberlike a -> ~ xlt (value a) (XFin 0) -> numberlike u -> ~ xlt (value u) (XFin 0) -> ~ xlt (XFin 1) (value u) ->
  exists s', set_eclipse_parameters a v u s = (s', Ok tt).
Proof.
  intros H Sa Sv Su Hz Na Ha Nu Hu1 Hu2. assert (Hi := reached_sinv H). destruct (@OpsEditP.eclipse_result _ _ _ s a v u Hi Sa Sv Su) as (_ & _ & _ & K). eexists. apply K; auto.
  assert (Nv : numberlike v) by (destruct v; try contradiction Hz; first [left; constructor|right; constructor]).
  assert (Vv : value v = XFin 0) by (destruct v; try contradiction Hz; exact Hz). split; auto. rewrite Vv. cbn [xlt]. lra.
Qed.

(** C47 *)
Theorem change_clears (s : shallot) o : sreach E s -> changes s o -> returns E s o -> s_fit (do_op E s o) = None.
Proof.
  intros H Hc Hr. assert (Hi := reached_sinv H).
  destruct o; cbn [changes returns do_op] in *; try contradiction.
  - destruct Hc as (A & B & C). destruct (add_gradients E times lcg errors transmissions s) as [s1 r] eqn:Eo. cbn [fst snd] in *. subst r. exact (proj1 (changes_clear E s1 Hi) _ _ _ _ A B C Eo).
  - destruct (remove_gradients indices s) as [s1 r] eqn:Eo. cbn [fst snd] in *. subst r. exact (proj1 (proj2 (changes_clear E s1 Hi)) _ Hc Eo).
  - destruct (set_eclipse_parameters duration velocity limb s) as [s1 r] eqn:Eo. cbn [fst snd] in *. subst r. exact (proj1 (proj2 (proj2 (changes_clear E s1 Hi))) _ _ _ Eo).
  - destruct (update_gradient_scaling E velocity limb transmissions s) as [s1 r] eqn:Eo. cbn [fst snd] in *. subst r. exact (proj2 (proj2 (proj2 (changes_clear E s1 Hi))) _ _ _ Hc Eo).
Qed.
Theorem fit_is_new (s : shallot) o l : sreach E s -> changes s o -> returns E s o -> s_fit (do_ops E (do_op E s o) l) <> None -> exists w, In (OFit w) l.
Proof. intros H Hc Hr. apply fit_is_later. now apply change_clears. Qed.
Theorem fit_needs_gradients (s : shallot) p : sreach E s -> s_fit s = Some p -> s_grads s <> None.
Proof. intros H Hp. exact (proj2 (i_fit (reached_sinv H) Hp)). Qed.

(** C48 *)
Theorem fit_sum (s s' : shallot) w gs : sreach E s -> s_grads s = Some gs -> determine_gradient_fit w s = (s', Ok tt) ->
  exists p, s' = with_grads s (Some gs) (Some p) /\ List.length (p_data p) = points s /\
  forall i, i < points s -> exists ts v, Forall2 (term_of w i) gs ts /\ nth_error (p_data p) i = Some v /\ v = fold_left n_add ts n_zero /\
    (val v = XNaN <-> exists t, In t ts /\ val t = XNaN) /\ (marked (p_mask p) i = true <-> val v = XNaN) /\ (val v <> XNaN -> xle (XFin 0) (val v)).
Proof.
  intros H Hg HH. destruct (fit_exact w (reached_sinv H) Hg HH) as (p & A & _ & _ & _ & B & C). exists p. auto.
Qed.
(** which gradients are refused *)
Lemma fit_fold_ok w gs : (forall g, In g gs -> (exists sc, scaled_gradient g = Ok (Some sc)) /\ (w = true -> gg_err g <> None)) -> forall d : list T, exists d', fold_res (fit_term w) gs d = Ok d'.
Proof.
  induction gs as [|g gs IH]; intros Hg d; cbn [fold_res]; [eauto|]. destruct (Hg g (or_introl eq_refl)) as [(sc & Es) He].
  assert (X : exists d1, fit_term w d g = Ok d1).
  { unfold fit_term. rewrite Es. destruct w; [destruct (gg_err g); [|destruct (He eq_refl eq_refl)]|]; cbn [bind]; eauto. }
  destruct X as [d1 ->]. cbn [bind]. apply IH. intros g' Hg'. apply Hg. now right.
Qed.
Theorem fit_total (s : shallot) w gs : sreach E s -> s_grads s = Some gs ->
  (forall g, In g gs -> (exists sc, scaled_gradient g = Ok (Some sc)) /\ (w = true -> gg_err g <> None)) -> exists s', determine_gradient_fit w s = (s', Ok tt).
Proof. intros H Hg Ha. rewrite (fit_ok s w Hg). destruct (fit_fold_ok _ Ha (repeat n_zero (volume (shape3 (s_params s))))) as [d ->]. eauto. Qed.

(** C49, C50 *)
Theorem extract_best_r (s : shallot) p is v k : sreach E s -> s_fit s = Some p -> fit_finite s p -> unmasked s is -> asks v (List.length is) k ->
  exists s' qs l, extract_solutions v s = (s', Ok l) /\ List.length l = k /\ NoDup qs /\ Forall2 (at_point s p) qs l /\
    (forall a b x y, a < b -> nth_error l a = Some x -> nth_error l b = Some y -> xle (val (fst x)) (val (fst y))) /\
    (forall z, In z l -> forall q z', at_point s p q z' -> ~ In q qs -> xle (val (fst z)) (val (fst z'))).
Proof. intros H. apply extract_best. exact (reached_sinv H). Qed.
Theorem extract_continues_r (s s2 : shallot) p is n m l : sreach E s -> s_fit s = Some p -> unmasked s is -> n + m <= List.length is ->
  extract_solutions (Some (PInt (Z.of_nat (n + m)))) s = (s2, Ok l) ->
  exists s1, extract_solutions (Some (PInt (Z.of_nat n))) s = (s1, Ok (firstn n l)) /\ extract_solutions (Some (PInt (Z.of_nat m))) s1 = (s2, Ok (skipn n l)).
Proof. intros H Hp Hu Hn. apply (@extract_continues T NT LT AL s s2 p n m l (reached_sinv H) Hp). rewrite <- (unmasked_count Hu). lia. Qed.
Theorem extract_all_again_r (s s1 : shallot) p is l : sreach E s -> s_fit s = Some p -> fit_finite s p -> unmasked s is -> is <> [] ->
  extract_solutions None s = (s1, Ok l) -> exists s2, extract_solutions None s1 = (s2, Err ValueError).
Proof. intros H. apply extract_all_again. exact (reached_sinv H). Qed.
Theorem extract_none_r (s : shallot) v is k : sreach E s -> s_fit s = None -> unmasked s is -> asks v (List.length is) k ->
  extract_solutions v s = (s, match k with O => Ok [] | S _ => Err AttributeError end).
Proof. intros H. apply extract_without. exact (reached_sinv H). Qed.
Theorem extract_refused_r (s : shallot) v is : sreach E s -> unmasked s is -> (forall k, ~ asks (Some v) (List.length is) k) ->
  exists e, extract_solutions (Some v) s = (s, Err e) /\ (e = TypeError \/ e = ValueError).
Proof. intros H. apply extract_refused. exact (reached_sinv H). Qed.
Lemma unmasked_exists (s : shallot) : exists is, unmasked s is.
Proof.
  exists (filter (fun i => negb (masked_b s i)) (seq 0 (points s))). split; [apply NoDup_filter, seq_NoDup|].
  intros i. rewrite filter_In, in_seq, negb_true_iff, masked_b_false. split; intros [A B]; split; auto; lia.
Qed.

(** C51 *)
Theorem closest_is_least (s s' : shallot) v1 v2 v3 v4 m cy cx cr y x q d : sreach E s ->
  determine_closest v1 v2 v3 v4 (PBool m) s = (s', Ok ((cy, cx, cr), (y, x, q), d)) ->
  nth_error (g_dy (s_params s)) y = Some cy /\ nth_error (g_dx (s_params s)) x = Some cx /\ nth_error (g_rfa (s_params s)) q = Some cr /\
  let far := away s m (num_of v1) (num_of v2) (num_of v3) (num_of v4) in
  exists w, far y x q w /\
    (val w = XNaN -> forall y' x' q' w', y' < List.length (g_dy (s_params s)) -> x' < List.length (g_dx (s_params s)) -> q' < List.length (g_rfa (s_params s)) -> far y' x' q' w' -> val w' = XNaN \/ val w' = XPInf) /\
    (val w <> XNaN -> val d = val w /\
       forall y' x' q' w', y' < List.length (g_dy (s_params s)) -> x' < List.length (g_dx (s_params s)) -> q' < List.length (g_rfa (s_params s)) -> far y' x' q' w' -> val w' = XNaN \/ xle (val w) (val w')).
Proof.
  intros H HH. destruct (closest_min v1 v2 v3 v4 m (reached_sinv H) HH) as (A & B & C & w & D & F & G). split; auto. split; auto. split; auto. exists w. split; auto. split.
  - intros N y' x' q' w' L1 L2 L3. apply (F N). split; auto.
  - intros N. destruct (G N) as [G1 G2]. split; auto. intros y' x' q' w' L1 L2 L3. apply G2. split; auto.
Qed.
(** whenever the arguments are accepted and some distance is a number *)
Theorem closest_total (s : shallot) v1 v2 v3 v4 m y x q w : sreach E s -> small v1 -> small v2 -> small v3 -> small v4 ->
  numberlike v1 -> numberlike v2 -> numberlike v3 -> numberlike v4 ->
  ~ xlt (value v1) (XFin 0) -> ~ xlt (value v2) (XFin 0) -> ~ xlt (XFin 90) (value v2) -> ~ xlt (value v3) (XFin (-180)) -> ~ xlt (XFin 180) (value v3) ->
  y < List.length (g_dy (s_params s)) -> x < List.length (g_dx (s_params s)) -> q < List.length (g_rfa (s_params s)) ->
  away s m (num_of v1) (num_of v2) (num_of v3) (num_of v4) y x q w -> val w <> XNaN -> exists s' r, determine_closest v1 v2 v3 v4 (PBool m) s = (s', Ok r).
Proof.
  intros H S1 S2 S3 S4 N1 N2 N3 N4 B1 B2 B3 B4 B5 L1 L2 L3 Aw Nw. assert (Hi := reached_sinv H).
  assert (I : value (p_inf : pyval) = XPInf /\ value (m_inf : pyval) = XNInf) by (unfold p_inf, m_inf; cbn [value]; split; [apply l_inf|unfold n_ninf; rewrite l_neg, l_inf; reflexivity]). destruct I as [Ip Im].
  assert (U : forall z, ~ xlt XPInf z) by (intros []; cbn; tauto). assert (D : forall z, ~ xlt z XNInf) by (intros []; cbn; tauto).
  assert (X1 : number v1 false (PInt 0) p_inf false = Ok v1).
  { apply number_ok; auto; try exact I; try (cbn [small]; lia). split; auto. split; [destruct N1; auto|]. split; [left; constructor|]. split; [right; constructor|]. rewrite Ip. cbn [value]. split; [apply U|]. split; auto. }
  assert (X2 : number v2 false (PInt 0) (PInt 90) false = Ok v2).
  { apply number_ok; auto; try exact I; try (cbn [small]; lia). split; auto. split; [destruct N2; auto|]. split; [left; constructor|]. split; [left; constructor|]. cbn [value]. split; [cbn; lra|]. split; auto. }
  assert (X3 : number v3 false (PInt (-180)) (PInt 180) false = Ok v3).
  { apply number_ok; auto; try exact I; try (cbn [small]; lia). split; auto. split; [destruct N3; auto|]. split; [left; constructor|]. split; [left; constructor|]. cbn [value]. split; [cbn; lra|]. split; auto. }
  assert (X4 : number v4 false m_inf p_inf false = Ok v4).
  { apply number_ok; auto; try exact I. split; auto. split; [destruct N4; auto|]. split; [right; constructor|]. split; [right; constructor|]. rewrite Ip, Im. split; [apply U|]. split; auto. }
  rewrite (closest_run m Hi X1 X2 X3 X4). cbn zeta. set (ds := distances _ _ _ _ _ _ _ _). assert (R : in_range s y x q) by (split; auto).
  destruct (@far_of T NT s m (num_of v1) (num_of v2) (num_of v3) (num_of v4) y x q Hi R) as (w0 & Hw0 & Aw0). fold ds in Hw0. rewrite <- (away_fun Aw Aw0) in Hw0.
  destruct (nanargmin_ok ds) as [k Ek]. { exists w. split; auto. exact (nth_error_In _ _ Hw0). }
  rewrite Ek. destruct (nanargmin_spec _ Ek) as (w1 & Hw1 & _).
  assert (Lk : k < points s). { assert (X : k < List.length ds) by (apply nth_error_Some; congruence). unfold ds, distances in X. rewrite map_length, seq_length, rd_length in X. assert (Y := cube_points Hi (i_cubes Hi WRadius)). cbn [the_cube] in Y. rewrite Y in X. exact X. }
  assert (Q := spot_place Hi Lk). destruct (spot s k) as [[y0 x0] q0]. destruct Q as [(A & B & C) Q].
  rewrite !item_ok by auto. cbn [bind]. destruct (@nan_min_total _ _ ds) as [d Ed]; [intros ->; destruct k; discriminate|]. rewrite Ed. cbn [bind]. eauto.
Qed.

(** C52 *)
Theorem point_data_in (s : shallot) vy vx vr m : sreach E s -> int_like vy -> int_like vx -> int_like vr ->
  (0 <= int_of vy < Z.of_nat (List.length (g_dy (s_params s))))%Z -> (0 <= int_of vx < Z.of_nat (List.length (g_dx (s_params s))))%Z -> (0 <= int_of vr < Z.of_nat (List.length (g_rfa (s_params s))))%Z ->
  exists s' d, get_grid_point_data vy vx vr (PBool m) s = (s', Ok d) /\ describes s m (Z.to_nat (int_of vy)) (Z.to_nat (int_of vx)) (Z.to_nat (int_of vr)) d.
Proof. intros H. apply point_in. exact (reached_sinv H). Qed.
Theorem point_data_out (s : shallot) vy vx vr m : sreach E s ->
  ~ (int_like vy /\ (0 <= int_of vy <= Z.of_nat (List.length (g_dy (s_params s))))%Z /\ int_like vx /\ (0 <= int_of vx <= Z.of_nat (List.length (g_dx (s_params s))))%Z /\
     int_like vr /\ (0 <= int_of vr <= Z.of_nat (List.length (g_rfa (s_params s))))%Z) ->
  exists e, get_grid_point_data vy vx vr m s = (s, Err e) /\ (e = TypeError \/ e = ValueError) /\ ((int_like vy /\ int_like vx /\ int_like vr) -> e = ValueError).
Proof. intros H N. apply point_refused; [exact (reached_sinv H)|]. unfold idx. tauto. Qed.
Theorem point_data_edge (s : shallot) vy vx vr m : sreach E s -> int_like vy -> int_like vx -> int_like vr ->
  (0 <= int_of vy <= Z.of_nat (List.length (g_dy (s_params s))))%Z -> (0 <= int_of vx <= Z.of_nat (List.length (g_dx (s_params s))))%Z -> (0 <= int_of vr <= Z.of_nat (List.length (g_rfa (s_params s))))%Z ->
  (int_of vy = Z.of_nat (List.length (g_dy (s_params s))) \/ int_of vx = Z.of_nat (List.length (g_dx (s_params s))) \/ int_of vr = Z.of_nat (List.length (g_rfa (s_params s)))) ->
  exists s', get_grid_point_data vy vx vr (PBool m) s = (s', Err IndexError).
Proof. intros H I1 I2 I3 R1 R2 R3 Re. apply point_edge; auto; [exact (reached_sinv H)|split|split|split]; auto. Qed.

(** C54 *)
Theorem eclipse_outcome (s : shallot) a b c : sreach E s -> small a -> small b -> small c ->
  let okn v := numberlike v /\ ~ xlt (value v) (XFin 0) in
  (~ okn a -> exists e, set_eclipse_parameters a b c s = (s, Err e)) /\
  (okn a -> ~ okn b -> exists e, set_eclipse_parameters a b c s = (with_eclipse s (Some a) (s_vel s) (s_limb s), Err e)) /\
  (okn a -> okn b -> ~ (okn c /\ ~ xlt (XFin 1) (value c)) ->
     exists e, set_eclipse_parameters a b c s = (with_eclipse s (Some a) (Some b) (s_limb s), Err e)) /\
  (okn a -> okn b -> okn c -> ~ xlt (XFin 1) (value c) ->
     set_eclipse_parameters a b c s = (with_grads (with_eclipse s (Some a) (Some b) (Some c)) None None, Ok tt)).
Proof. intros H. apply eclipse_result. exact (reached_sinv H). Qed.
(** C45 *)
Theorem added (s s' : shallot) t l e tr u d v : sreach E s -> arr_wf t -> arr_wf l -> o_wf e -> o_wf tr ->
  s_limb s = Some u -> s_ecl s = Some d -> s_vel s = Some v -> add_gradients E t l e tr s = (s', Ok tt) ->
  exists ts ls es trs o new, t = farr ts /\ l = farr ls /\ given e ls es /\ given tr ls trs /\ List.length ls = List.length ts /\ List.length es = List.length ts /\ List.length trs = List.length ts /\
    determine_orbital_scale E s = Ok o /\
    s' = with_grads s (Some (dflt [] (s_grads s) ++ new)) None /\ List.length new = List.length ts /\
    forall k time lc er tm, nth_error ts k = Some time -> nth_error ls k = Some lc -> nth_error es k = Some er -> nth_error trs k = Some tm ->
      exists g, nth_error new k = Some g /\
        let pos := n_div (n_neg time) (num_of d) in
        let r := n_mul (n_abs lc) (n_mul (num_of o) (n_div n_one tm)) in
        gg_pos g = PNpFloat pos /\ gg_meas g = Some (PNpFloat (n_abs lc)) /\ gg_err g = Some (PNpFloat er) /\ gg_orb g = Some o /\ gg_trans g = Some (PNpFloat tm) /\ scaled_gradient g = Ok (Some r) /\ ~ xlt (XFin 1) (val r) /\
        p_shape (gg_prop g) = shape3 (s_params s) /\
        forall y x q dx dy fx fy, nth_error (g_dy (s_params s)) y = Some dy -> nth_error (g_dx (s_params s)) x = Some dx -> q < List.length (g_rfa (s_params s)) ->
          nth_error (p_data (s_fx s)) (place s y x q) = Some fx -> nth_error (p_data (s_fy s)) (place s y x q) = Some fy ->
          exists gv, gv = gradient_at (e_libm E) pos dx dy (shear_at dx dy) fx fy /\ nth_error (p_data (gg_prop g)) (place s y x q) = Some gv /\
            (marked (p_mask (gg_prop g)) (place s y x q) = true <-> val gv = XNaN \/ xlt (val gv) (val r)).
Proof.
  intros H W1 W2 W3 W4 Eu Ed Ev HH. assert (Hi := reached_sinv H). destruct (add_exact E _ _ _ _ Hi W1 W2 W3 W4 Eu Ed Ev HH) as (ts & ls & es & trs & o & new & A1 & A2 & A3 & A4 & A5 & A6 & A7 & A8 & A9 & A10 & A11).
  exists ts, ls, es, trs, o, new. repeat (split; [assumption|]). intros k time lc er tm K1 K2 K3 K4. destruct (A11 k time lc er tm K1 K2 K3 K4) as (g & Hg & -> & Hr). exists (mkGG (with_mask (fresh GRADIENT NONE (s_params s) (map (@SF T) (gradient_values E s (n_div (n_neg time) (num_of d)))))
                            (Some (bool_marr (shape3 (s_params s)) (mask_of (n_mul (n_abs lc) (n_mul (num_of o) (n_div n_one tm))) (gradient_values E s (n_div (n_neg time) (num_of d)))))))
                 (PNpFloat (n_div (n_neg time) (num_of d))) (Some (PNpFloat (n_abs lc))) (Some (PNpFloat er)) (Some o) (Some (PNpFloat tm))).
  split; [exact Hg|]. cbn zeta. cbn [gg_pos gg_meas gg_err gg_orb gg_trans gg_prop]. do 5 (split; [reflexivity|]). split.
  { unfold scaled_gradient. cbn [gg_meas gg_trans gg_orb reciprocal bind num_of]. unfold n_gt. destruct (n_lt n_one _) eqn:X; [|reflexivity]. apply nlt_iff in X. rewrite val_one in X. contradiction. }
  split; [exact Hr|]. split; [reflexivity|].
  intros y x q dx dy fx fy Hy Hx Hq Hfx Hfy. set (pos := n_div (n_neg time) (num_of d)). set (r := n_mul (n_abs lc) _) in *.
  assert (C := @gradient_cell T NT E s pos y x q dx dy fx fy Hi Hy Hx Hq). cbn zeta in C. unfold cell in C. specialize (C Hfx Hfy). fold (place s y x q) in C.
  exists (gradient_at (e_libm E) pos dx dy (shear_at dx dy) fx fy). split; [reflexivity|].
  assert (D : p_data (fresh GRADIENT NONE (s_params s) (map (@SF T) (gradient_values E s pos))) = gradient_values E s pos).
  { unfold fresh. cbn [p_data]. rewrite map_map. cbn [num_scal]. apply map_id. }
  cbn [with_mask p_data p_mask]. rewrite D. split; [exact C|].
  rewrite marked_with, (nth_mask_of _ _ _ C). rewrite orb_true_iff. unfold n_gt. rewrite isnan_iff, nlt_iff. tauto.
Qed.
End O.

(** C48 over the reals *)
Lemma sum_xr rs : forall a, fold_left n_add (map XFin rs) (XFin a) = XFin (fold_left Rplus rs a).
Proof. induction rs as [|r rs IH]; intros a; [reflexivity|]. cbn [map fold_left]. apply IH. Qed.
Theorem fit_reals (E : env xr) (s s' : shallot xr) w gs : sreach E s -> s_grads s = Some gs -> determine_gradient_fit w s = (s', Ok tt) ->
  exists p, s_fit s' = Some p /\ forall i rs, i < points s -> Forall2 (fun g r => term_of w i g (XFin r)) gs rs ->
    nth_error (p_data p) i = Some (XFin (fold_left Rplus rs 0%R)) /\ marked (p_mask p) i = false.
Proof.
  intros H Hg HH. destruct (fit_sum w H Hg HH) as (p & -> & _ & A). exists p. split; [reflexivity|]. intros i rs Hi F. destruct (A i Hi) as (ts & v & F' & Hv & Ev & _ & M & _).
  assert (ts = map XFin rs) as ->.
  { clear - F F'. revert ts F'. induction F as [|g r gs rs Hr F IH]; intros ts F'; inversion F' as [|g' t gs' ts' Ht F2 E1 E2]; subst; [reflexivity|]. cbn [map]. f_equal; [|auto].
    destruct Hr as (v1 & s1 & w1 & A1 & B1 & C1 & D1). destruct Ht as (v2 & s2 & w2 & A2 & B2 & C2 & D2).
    assert (v1 = v2 /\ s1 = s2) as [<- <-] by (split; congruence). assert (w1 = w2) as <-. { destruct w; [|congruence]. destruct C1 as (e1 & X1 & ->). destruct C2 as (e2 & X2 & ->). congruence. } congruence. }
  change (@n_zero xr _) with (XFin 0) in Ev. rewrite sum_xr in Ev. subst v. split; auto. destruct (marked (p_mask p) i) eqn:Em; auto. destruct M as [M _]. specialize (M eq_refl). discriminate.
Qed.

(** C51: the row coordinate is not the dy of the row *)
Theorem row_shift (s : shallot xr) lo hi n y : equally_spaced (g_dy (s_params s)) lo hi n -> 2 <= n -> y < n -> (lo < hi)%R ->
  row_of s (XFin 0) y = XFin (lo + INR y / INR n * (hi - lo))%R /\
  (nth_error (g_dy (s_params s)) y = Some (row_of s (XFin 0) y) <-> y = 0).
Proof.
  intros [Hl Hs] Hn Hy Hd. assert (N0 : (0 < INR n)%R) by (apply lt_0_INR; lia). assert (N1 : (0 < INR (n - 1))%R) by (apply lt_0_INR; lia).
  assert (EQ : INR (n - 1) = (INR n - 1)%R) by (rewrite minus_INR by lia; reflexivity).
  assert (A : row_of s (XFin 0) y = XFin (lo + INR y / INR n * (hi - lo))).
  { unfold row_of. rewrite Hl. assert (L0 : 0 < n) by lia. assert (L1 : n - 1 < n) by lia. rewrite (nth_error_nth _ 0 (n_nan : xr) (Hs 0 L0)), (nth_error_nth _ (n - 1) (n_nan : xr) (Hs (n - 1) L1)).
    unfold spaced. change (INR 0) with 0%R. replace (lo + INR (n - 1) * ((hi - lo) / INR (n - 1)))%R with hi by (field; lra). rewrite Rmult_0_l, Rplus_0_r.
    unfold n_gt, n_zero, n_ofnat. cbn [n_lt n_add n_sub n_mul n_div n_ofZ Num_xr]. rewrite <- !INR_IZR_INZ.
    unfold x_div. destruct (Req_EM_T (INR n) 0); [exfalso; lra|]. replace (x_lt (XFin 0) (XFin 0)) with false by (symmetry; cbn [x_lt]; destruct (Rlt_dec 0 0); [exfalso; lra|reflexivity]).
    cbn [x_sub x_neg x_add x_mul]. f_equal. ring. }
  split; [exact A|]. rewrite A, (Hs y Hy). unfold spaced. split.
  - intros H. assert (H' : (INR y * ((hi - lo) / INR (n - 1)) = INR y / INR n * (hi - lo))%R) by (assert (X : forall a b : R, Some (XFin a) = Some (XFin b) -> a = b) by congruence; apply X in H; lra).
    assert (INR y = 0%R); [|apply INR_eq; auto].
    assert (K : (INR y * (hi - lo) * (INR n - INR (n - 1)) = 0)%R). { apply (f_equal (fun z => z * INR n * INR (n - 1))%R) in H'. unfold Rdiv in H'. replace (INR y * ((hi - lo) * / INR (n - 1)) * INR n * INR (n - 1))%R with (INR y * (hi - lo) * INR n)%R in H' by (field; lra). replace (INR y * / INR n * (hi - lo) * INR n * INR (n - 1))%R with (INR y * (hi - lo) * INR (n - 1))%R in H' by (field; lra). lra. }
    rewrite EQ in K. replace (INR n - (INR n - 1))%R with 1%R in K by ring. rewrite Rmult_1_r in K. apply Rmult_integral in K as [K|K]; auto. exfalso. lra.
  - intros ->. cbn [INR]. do 2 f_equal. unfold Rdiv. ring.
Qed.
