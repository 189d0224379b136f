(** Masks, gradients and the fit of a grid: what the methods do. *)
From Coq Require Import ZArith Reals List Bool String Lia Permutation Lra.
From Verif Require Import Num NumP Py SpecNum Validate ValidateP Ring RingP RingSystem RingSystemP FS GridParams SpecGrid GridParamsP GridDiag Names GridProp SpecProp GridPropP GridGradP Geometry
  Build SpecBuild BuildP BuildQP Shallot BuildGP BuildGridP BuildCP AddLaws ShallotOps SpecOps OpsP OpsReadP.
Import ListNotations.
Set Implicit Arguments.
Local Open Scope list_scope.

Section O.
Context {T : Type} {NT : Num T} {LT : NumLaws T} {AL : AddLaws T} (E : env T).
Notation pyval := (pyval T).
Notation shallot := (shallot T).

(** *** C43 *)
Theorem union_of_masks (s : shallot) : sreach E s -> exists m, combined_mask s = Ok m /\ List.length m = points s /\
  forall i, i < points s -> (nth i m false = true <-> masked_at s i).
Proof.
  intros H. apply reached_sinv in H. exists (map (masked_b s) (seq 0 (points s))). split; [now apply combined_ok|]. rewrite map_length, seq_length. split; auto.
  intros i Hi. rewrite <- masked_at_dec. fold (masked_b s i). assert (X : nth_error (map (masked_b s) (seq 0 (points s))) i = Some (masked_b s i)) by (rewrite nth_error_map, nth_error_seq' by auto; reflexivity).
  rewrite (nth_error_nth _ _ false X). tauto.
Qed.

(** *** thinning *)
Lemma thinned_nan (l l' : list T) i : thinned l l' -> nth_error l i = Some n_nan -> nth_error l' i = Some n_nan.
Proof.
  intros H Hi. apply Forall2_nth_error_iff in H as [Hl H]. destruct (nth_error l' i) as [y|] eqn:Ey.
  - destruct (H _ _ _ Hi Ey) as [-> | ->]; auto.
  - apply nth_error_None in Ey. assert (i < List.length l) by (apply nth_error_Some; congruence). lia.
Qed.
Lemma cube_read w m b (s : shallot) : sinv s -> get_cube w (PBool m) (PBool b) s =
  (put_cube w s (with_data (the_cube w s) (hidden (p_data (the_cube w s)) (hid s (the_cube w s) m b))),
   Ok (shape3 (s_params s), hidden (p_data (the_cube w s)) (hid s (the_cube w s) m b))).
Proof.
  intros H. rewrite get_cube_read. apply read_bool; auto; [apply H|intros; apply put_params|intros; now apply put_masks].
Qed.
Lemma cube_length w (s : shallot) : sinv s -> List.length (p_data (the_cube w s)) = points s.
Proof. intros H. rewrite (proj2 (cube_shape (i_cubes H w))). now apply points_volume. Qed.
Lemma cube_at w (s : shallot) i : sinv s -> i < points s -> exists x, nth_error (p_data (the_cube w s)) i = Some x.
Proof. intros H Hi. destruct (nth_error (p_data (the_cube w s)) i) eqn:Ex; eauto. apply nth_error_None in Ex. rewrite cube_length in Ex by auto. lia. Qed.

(** *** C53 *)
Theorem masked_read_spec (s : shallot) w b : sreach E s -> exists l, get_cube w (PBool true) (PBool b) s = (put_cube w s (with_data (the_cube w s) l), Ok (shape3 (s_params s), l)) /\
  List.length l = points s /\
  forall i x, nth_error (p_data (the_cube w s)) i = Some x ->
    (masked_at s i \/ (b = true /\ marked (p_mask (the_cube w s)) i = true) -> nth_error l i = Some n_nan) /\
    (~ masked_at s i -> b = false \/ marked (p_mask (the_cube w s)) i = false -> nth_error l i = Some x).
Proof.
  intros H. apply reached_sinv in H. eexists. split; [now apply cube_read|]. rewrite hidden_length, cube_length by auto. split; auto.
  intros i x Hx. rewrite (hidden_nth _ _ _ Hx). unfold hid. cbn [andb]. split.
  - intros [Hm|[-> Hm]]; [|rewrite Hm; reflexivity]. apply masked_at_dec in Hm. fold (masked_b s i) in Hm. rewrite Hm, orb_true_r. reflexivity.
  - intros Hm Hb. assert (Y : masked_b s i = false) by (apply not_true_iff_false; unfold masked_b; now rewrite masked_at_dec). rewrite Y, orb_false_r.
    destruct Hb as [-> | ->]; [reflexivity|]. now rewrite andb_false_r.
Qed.
Theorem getter_destroys (s : shallot) w b i l : sreach E s -> i < points s -> masked_at s i -> Forall (@op_wf T) l ->
  let s' := do_ops E (do_op E s (OGet w (PBool true) (PBool b))) l in
  nth_error (p_data (the_cube w s')) i = Some n_nan /\
  exists d, snd (get_cube w (PBool false) (PBool false) s') = Ok (shape3 (s_params s'), d) /\ nth_error d i = Some n_nan.
Proof.
  intros Hr Hi Hm Hw. cbn zeta. assert (H := reached_sinv Hr). set (s1 := do_op E s _).
  assert (H1 : sinv s1) by (apply do_op_keeps; [exact I|auto]).
  assert (D1 : nth_error (p_data (the_cube w s1)) i = Some n_nan).
  { unfold s1. cbn [do_op]. rewrite cube_read by auto. cbn [fst]. rewrite put_same. cbn [with_data p_data]. destruct (cube_at w H Hi) as [x Hx]. rewrite (hidden_nth _ _ _ Hx).
    apply masked_at_dec in Hm. fold (masked_b s i) in Hm. unfold hid. rewrite Hm. cbn [andb]. now rewrite orb_true_r. }
  destruct (do_ops_keeps E Hw H1) as [H2 A2]. assert (D2 := thinned_nan i (proj2 (proj2 (proj2 (proj2 (ag_cubes A2 w))))) D1). split; auto.
  eexists. rewrite cube_read by auto. cbn [snd]. split; [reflexivity|]. rewrite (hidden_nth _ _ _ D2). reflexivity.
Qed.
Theorem plain_read (s : shallot) w : sreach E s -> get_cube w (PBool false) (PBool false) s = (s, Ok (shape3 (s_params s), p_data (the_cube w s))).
Proof.
  intros H. apply reached_sinv in H. rewrite cube_read by auto. rewrite hidden_none by (intros; reflexivity). rewrite with_data_same, put_id. reflexivity.
Qed.
Theorem only_lost (s : shallot) l : sreach E s -> Forall (@op_wf T) l -> aged s (do_ops E s l).
Proof. intros H Hw. apply do_ops_keeps; auto. exact (reached_sinv H). Qed.

(** *** C44 *)
Lemma hill_marked (h : T) l i x sh : nth_error l i = Some x ->
  marked (Some (mkMarr "bool" sh (map (@SB T) (hill_mask h l)))) i = true <-> val x = XNaN \/ xlt (val h) (val x).
Proof.
  intros Hx. cbn [marked ma_elems]. rewrite nth_error_map. unfold hill_mask. rewrite nth_error_map, Hx. cbn [option_map]. rewrite orb_true_iff, isnan_iff. unfold n_gt. rewrite nlt_iff. tauto.
Qed.
Definition hill_result (s : shallot) (h : T) : shallot :=
  set_dr s (with_mask (s_dr s) (Some (mkMarr "bool" (shape3 (s_params s)) (map (@SB T) (hill_mask h (p_data (s_dr s))))))).
Lemma hill_ok (s : shallot) h : sinv s -> small h -> numberlike h -> ~ xlt (value h) (XFin 0) -> generate_hill_radius_mask h s = (hill_result s (num_of h), Ok tt).
Proof.
  intros H Sh Nh Bh. unfold generate_hill_radius_mask. rewrite (proj2 (number_ge0f h h Sh)) by auto.
  destruct (cube_shape (i_cubes H WRadius)) as [Hs _]. cbn [the_cube] in Hs.
  rewrite (proj2 (set_mask_ok (s_dr s) (s_dr (hill_result s (num_of h))) _)); [reflexivity|]. eexists. rewrite Hs. split; [reflexivity|]. reflexivity.
Qed.
Lemma hill_bad (s s' : shallot) h e : generate_hill_radius_mask h s = (s', Err e) -> sinv s -> s' = s.
Proof.
  unfold generate_hill_radius_mask. destruct (number h _ _ _ _) as [h'|]; [|congruence]. intros X H.
  destruct (cube_shape (i_cubes H WRadius)) as [Hs _]. cbn [the_cube] in Hs.
  rewrite (proj2 (set_mask_ok (s_dr s) (s_dr (hill_result s (num_of h'))) _)) in X; [discriminate|]. eexists. rewrite Hs. split; reflexivity.
Qed.
Theorem hill_exact (s : shallot) h : sreach E s -> small h -> numberlike h -> ~ xlt (value h) (XFin 0) ->
  exists m, generate_hill_radius_mask h s = (set_dr s (with_mask (s_dr s) (Some m)), Ok tt) /\ ma_shape m = shape3 (s_params s) /\
  forall i x, nth_error (p_data (s_dr s)) i = Some x -> marked (Some m) i = true <-> val x = XNaN \/ xlt (value h) (val x).
Proof.
  intros H Sh Nh Bh. apply reached_sinv in H. eexists. split; [now apply hill_ok|]. split; [reflexivity|]. intros i x Hx. rewrite (hill_marked (num_of h) (p_data (s_dr s)) i _ Hx).
  rewrite (num_of_value Nh Sh). tauto.
Qed.
Theorem hill_cannot_relax (s : shallot) b i l h : sreach E s -> i < points s -> masked_at s i -> Forall (@op_wf T) l ->
  small h -> numberlike h -> ~ xlt (value h) (XFin 0) ->
  let s' := do_ops E (do_op E s (OGet WRadius (PBool true) (PBool b))) l in
  marked (p_mask (s_dr (do_op E s' (OHill h)))) i = true.
Proof.
  intros Hr Hi Hm Hw Sh Nh Bh s'. destruct (@getter_destroys s WRadius b i l Hr Hi Hm Hw) as [Hn _]. fold s' in Hn. cbn [the_cube] in Hn.
  assert (H' : sinv s') by (apply do_ops_keeps; auto; apply do_op_keeps; [exact I|exact (reached_sinv Hr)]).
  cbn [do_op]. rewrite hill_ok by auto. cbn [fst hill_result set_dr with_cubes s_dr with_mask p_mask]. apply (hill_marked (num_of h) (p_data (s_dr s')) i _ Hn). left. apply l_nan.
Qed.

(** *** C54 *)
Theorem eclipse_result (s : shallot) a b c : sinv s -> small a -> small b -> small c ->
  let okn v := numberlike v /\ ~ xlt (value v) (XFin 0) in
  (~ okn a -> exists e, set_eclipse_parameters a b c s = (s, Err e)) /\
  (okn a -> ~ okn b -> exists e, set_eclipse_parameters a b c s = (with_eclipse s (Some a) (s_vel s) (s_limb s), Err e)) /\
  (okn a -> okn b -> ~ (okn c /\ ~ xlt (XFin 1) (value c)) ->
     exists e, set_eclipse_parameters a b c s = (with_eclipse s (Some a) (Some b) (s_limb s), Err e)) /\
  (okn a -> okn b -> okn c -> ~ xlt (XFin 1) (value c) ->
     set_eclipse_parameters a b c s = (with_grads (with_eclipse s (Some a) (Some b) (Some c)) None None, Ok tt)).
Proof.
  intros H Sa Sb Sc okn.
  assert (G : forall v : pyval, small v -> (okn v -> number v false (PFloat n_zero) p_inf false = Ok v) /\ (~ okn v -> exists e, number v false (PFloat n_zero) p_inf false = Err e)).
  { intros v Sv. split; intros Hv; [now apply number_ge0f|]. destruct (number v false (PFloat n_zero) p_inf false) as [w|e] eqn:Ev; eauto. apply number_ge0f in Ev; [|exact Sv]. destruct Hv. split; apply Ev. }
  assert (G3 : (okn c /\ ~ xlt (XFin 1) (value c) -> number c false (PFloat n_zero) (PFloat n_one) false = Ok c) /\ (~ (okn c /\ ~ xlt (XFin 1) (value c)) -> exists e, number c false (PFloat n_zero) (PFloat n_one) false = Err e)).
  { assert (V : number c false (PFloat n_zero) (PFloat n_one) false = Ok c <-> okn c /\ ~ xlt (XFin 1) (value c)).
    { rewrite number_fb. rewrite val_zero, val_one. unfold okn, respects. split.
      - intros (_ & N & _ & A & B). rewrite (num_of_value N Sc) in *. tauto.
      - intros ((N & A) & B). rewrite (num_of_value N Sc). repeat split; auto. cbn. intros X. lra. }
    split; [apply V|]. intros Hv. destruct (number c false (PFloat n_zero) (PFloat n_one) false) as [w|e] eqn:Ev; eauto. assert (w = c) as -> by (apply number_fb in Ev; apply Ev). tauto. }
  unfold set_eclipse_parameters. repeat split.
  - intros Ha. destruct (proj2 (G a Sa) Ha) as [e ->]. eauto.
  - intros Ha Hb. rewrite (proj1 (G a Sa) Ha). destruct (proj2 (G b Sb) Hb) as [e ->]. eauto.
  - intros Ha Hb Hc. rewrite (proj1 (G a Sa) Ha), (proj1 (G b Sb) Hb). destruct (proj2 G3 Hc) as [e ->]. eauto.
  - intros Ha Hb Hc Hc'. rewrite (proj1 (G a Sa) Ha), (proj1 (G b Sb) Hb), (proj1 G3 (conj Hc Hc')). cbn zeta. cbn [with_eclipse s_grads s_ecl s_vel s_limb].
    destruct (s_grads s) as [gs|] eqn:Eg; [reflexivity|]. f_equal. unfold with_grads, with_eclipse. cbn [s_params s_nf s_diag s_radius s_shear s_dr s_inc s_tilt s_fx s_fy s_dmap s_ecl s_vel s_limb].
    rewrite Eg. f_equal. destruct (s_fit s) as [p|] eqn:Ef; auto. destruct (i_fit H Ef) as [_ X]. congruence.
Qed.

(** the velocity and limb darkening are stored before anything is checked *)
Theorem scale_stores (s s' : shallot) v u t e : update_gradient_scaling E v u t s = (s', Err e) ->
  s_vel s' = (match v with Some v => Some v | None => s_vel s end) /\ s_limb s' = (match u with Some u => Some u | None => s_limb s end) /\ s_fit s' = s_fit s.
Proof.
  unfold update_gradient_scaling. cbn zeta.
  set (s2 := match u with Some u => with_eclipse _ _ _ (Some u) | None => _ end).
  assert (A : s_vel s2 = (match v with Some v => Some v | None => s_vel s end) /\ s_limb s2 = (match u with Some u => Some u | None => s_limb s end) /\ s_fit s2 = s_fit s)
    by (unfold s2; destruct u, v; auto). clearbody s2.
  match goal with |- context [match ?x with Ok _ => _ | Err _ => _ end] => destruct x as [tr|] end; [|intros H; injection H as <- _; auto].
  match goal with |- context [if ?b then _ else _] => set (sc := b) end. clearbody sc.
  assert (G : forall (K : shallot * res unit), (K = (s2, Ok tt) \/ K =
     (match s_grads s2 with
      | Some gs =>
        let '(gs0, r) := each2 (fun (g : ggrad T) (t0 : option T) =>
             match (if sc then determine_orbital_scale E s2 else Ok (dflt PNone (gg_orb g))) with
             | Ok o => determine_mask g (dflt PNone (gg_meas g)) o match t0 with Some t1 => Some (PNpFloat t1) | None => gg_trans g end (gg_err g)
             | Err e => (g, Err e)
             end) gs match tr with Some l => map Some l | None => repeat None (List.length gs) end in
        match r with Ok _ => reset_fit (with_grads s2 (Some gs0) (s_fit s2)) | Err e => (with_grads s2 (Some gs0) (s_fit s2), Err e) end
      | None => (s2, Err TypeError)
      end)) -> K = (s', Err e) -> s_vel s' = s_vel s2 /\ s_limb s' = s_limb s2 /\ s_fit s' = s_fit s2).
  { intros K [-> | ->]; [discriminate|]. destruct (s_grads s2); [|intros X; injection X as <- _; auto].
    destruct (each2 _ _ _) as [gs' [r|x]]; [discriminate|]. intros X; injection X as <- _. auto. }
  destruct A as (A1 & A2 & A3). rewrite <- A1, <- A2, <- A3. apply G. destruct sc; [right; reflexivity|]. destruct tr; [right; reflexivity|left; reflexivity].
Qed.
End O.
