(** The best solutions and the closest grid point. *)
From Coq Require Import ZArith Reals List Bool String Lia Permutation Lra Sorting.Sorted.
From Verif Require Import Num NumP Py SpecNum Validate ValidateP Ring RingP RingSystem RingSystemP FS GridParams SpecGrid GridParamsP GridDiag GridDiagP Names GridProp SpecProp GridPropP GridGradP Geometry
  Build SpecBuild BuildP StretchP BuildQP Shallot BuildGP BuildGridP BuildCP AddLaws ShallotOps SpecOps OpsP OpsReadP OpsEditP OpsPointP.
Import ListNotations.
Set Implicit Arguments.
Local Open Scope list_scope.

Section B.
Context {T : Type} {NT : Num T} {LT : NumLaws T}.

(** *** repeatedly taking the least *)
Fixpoint best (k : nat) (D : list T) : list T * res (list (nat * T)) :=
  match k with
  | O => (D, Ok [])
  | S k =>
    match nanargmin D with
    | Err e => (D, Err e)
    | Ok i => let '(D', r) := best k (replace_nth i n_nan D) in (D', let* l := r in Ok ((i, nth i D n_nan) :: l))
    end
  end.
Lemma best_app n m : forall D, best (n + m) D =
  match best n D with (D1, Err e) => (D1, Err e) | (D1, Ok l) => match best m D1 with (D2, Err e) => (D2, Err e) | (D2, Ok l') => (D2, Ok (l ++ l')) end end.
Proof.
  induction n as [|n IH]; intros D; cbn [Nat.add best].
  - destruct (best m D) as [D' [l|e]]; reflexivity.
  - destruct (nanargmin D) as [i|e]; [|reflexivity]. rewrite IH. destruct (best n _) as [D1 [l|e]]; cbn [bind]; [|reflexivity]. destruct (best m D1) as [D2 [l'|e]]; reflexivity.
Qed.
Definition alive (x : T) : bool := negb (n_isnan x).
Definition cnt (D : list T) : nat := List.length (filter alive D).
Definition tame (D : list T) : Prop := forall x, In x D -> val x <> XPInf.
Lemma alive_iff x : alive x = true <-> val x <> XNaN.
Proof. unfold alive. rewrite negb_true_iff. split; intros H; [now apply isnan_false|]. destruct (n_isnan x) eqn:Ex; auto. apply isnan_iff in Ex. contradiction. Qed.
Lemma alive_nan : alive n_nan = false.
Proof. destruct (alive n_nan) eqn:Ex; auto. apply alive_iff in Ex. rewrite l_nan in Ex. congruence. Qed.
Lemma cnt_zero D : cnt D = 0 -> forall x, In x D -> val x = XNaN.
Proof.
  unfold cnt. intros H x Hx. destruct (alive x) eqn:Ex.
  - assert (X : In x (filter alive D)) by (apply filter_In; auto). destruct (filter alive D); [destruct X|discriminate].
  - destruct (val x) eqn:Ev; auto; exfalso; rewrite (proj2 (alive_iff x)) in Ex by congruence; discriminate.
Qed.
Lemma cnt_pos D : 0 < cnt D -> exists x, In x D /\ val x <> XNaN.
Proof.
  unfold cnt. intros H. destruct (filter alive D) as [|x l] eqn:Ef; [cbn in H; lia|]. exists x. assert (X : In x (filter alive D)) by (rewrite Ef; now left).
  apply filter_In in X as [X1 X2]. split; auto. now apply alive_iff.
Qed.
Lemma nth_replace A (l : list A) : forall i j a, i < List.length l -> nth_error (replace_nth i a l) j = if Nat.eqb j i then Some a else nth_error l j.
Proof.
  induction l as [|b l IH]; intros [|i] [|j] a H; cbn in *; try lia; auto. apply IH. lia.
Qed.
Lemma cnt_replace D : forall i x, nth_error D i = Some x -> val x <> XNaN -> S (cnt (replace_nth i n_nan D)) = cnt D.
Proof.
  unfold cnt. induction D as [|y D IH]; intros [|i] x Hx Hv; cbn [nth_error replace_nth filter] in *; try discriminate.
  - injection Hx as ->. rewrite alive_nan, (proj2 (alive_iff x)) by auto. reflexivity.
  - assert (X := IH i x Hx Hv). destruct (alive y); cbn [List.length]; lia.
Qed.
Lemma in_replace (D : list T) : forall i x, In x (replace_nth i n_nan D) -> x = n_nan \/ In x D.
Proof. induction D as [|y D IH]; intros [|i] x Hx; cbn [replace_nth In] in *; auto; destruct Hx as [<-|Hx]; auto. destruct (IH _ _ Hx); auto. Qed.
Lemma tame_replace D i : tame D -> tame (replace_nth i n_nan D).
Proof. intros H x Hx. apply in_replace in Hx as [-> |Hx]; auto. rewrite l_nan. discriminate. Qed.
Lemma least D : tame D -> 0 < cnt D -> exists i x, nanargmin D = Ok i /\ nth_error D i = Some x /\ val x <> XNaN /\ forall y, In y D -> val y <> XNaN -> xle (val x) (val y).
Proof.
  intros Ht Hc. destruct (cnt_pos _ Hc) as (z & Hz & Nz). destruct (nanargmin_ok D) as [i Hi]; [eauto|].
  destruct (nanargmin_spec _ Hi) as (x & Hx & _ & A & B). exists i, x.
  assert (N : val x <> XNaN) by (intros X; apply (Ht z Hz); apply A; auto). auto.
Qed.

Theorem best_ok k : forall D, tame D -> k <= cnt D -> exists D' l, best k D = (D', Ok l) /\ List.length l = k /\ NoDup (map fst l) /\
  (forall i v, In (i, v) l -> nth_error D i = Some v /\ val v <> XNaN) /\
  StronglySorted (fun a b => xle (val (snd a)) (val (snd b))) l /\
  (forall i v, In (i, v) l -> forall j w, nth_error D j = Some w -> val w <> XNaN -> ~ In j (map fst l) -> xle (val v) (val w)) /\
  (forall j, nth_error D' j = match nth_error D j with Some w => Some (if in_dec Nat.eq_dec j (map fst l) then n_nan else w) | None => None end).
Proof.
  induction k as [|k IH]; intros D Ht Hk.
  - exists D, []. cbn [best map In List.length]. repeat split; auto; try constructor; try easy. intros j. destruct (nth_error D j); auto.
  - destruct (@least D Ht ltac:(lia)) as (i & x & Hi & Hx & Nx & Hm). cbn [best]. rewrite Hi.
    assert (Li : i < List.length D) by (apply nth_error_Some; congruence).
    destruct (IH (replace_nth i n_nan D)) as (D' & l & Eb & Hl & Hn & Hp & Hs & Hr & Hd); [now apply tame_replace|rewrite <- (cnt_replace _ _ Hx Nx) in Hk; lia|].
    rewrite Eb. cbn [bind]. rewrite (nth_error_nth _ _ n_nan Hx).
    assert (Hp' : forall j v, In (j, v) l -> j <> i /\ nth_error D j = Some v /\ val v <> XNaN).
    { intros j v Hj. destruct (Hp j v Hj) as [A B]. rewrite nth_replace in A by auto. destruct (Nat.eqb_spec j i) as [->|Hji]; [injection A as <-; rewrite l_nan in B; congruence|]. auto. }
    exists D', ((i, x) :: l). split; [reflexivity|]. split; [cbn; lia|]. split.
    { cbn [map fst]. constructor; auto. intros Hin. apply in_map_iff in Hin as ((j & v) & Ej & Hj). cbn [fst] in Ej. subst j. destruct (Hp' _ _ Hj). congruence. }
    split; [intros j v [Hj|Hj]; [injection Hj as <- <-; auto|apply Hp' in Hj; tauto]|]. split.
    { constructor; auto. apply Forall_forall. intros (j & v) Hj. cbn [snd]. destruct (Hp' _ _ Hj) as (_ & A & B). apply Hm; auto. exact (nth_error_In _ _ A). }
    split.
    { intros j v [Hj|Hj] j' w Hw Nw Hnot.
      - injection Hj as <- <-. apply Hm; auto. exact (nth_error_In _ _ Hw).
      - apply (Hr j v Hj j'); auto; [|intros X; apply Hnot; now right]. rewrite nth_replace by auto. destruct (Nat.eqb_spec j' i) as [->|_]; auto. destruct Hnot. now left. }
    intros j. rewrite Hd, nth_replace by auto. cbn [map fst].
    destruct (Nat.eqb_spec j i) as [->|Hji]; [rewrite Hx|destruct (nth_error D j); [|reflexivity]];
      destruct (in_dec Nat.eq_dec _ (map fst l)) as [A|A]; destruct (in_dec Nat.eq_dec _ (i :: map fst l)) as [B|B]; cbn [In] in B; try tauto; destruct B as [B|B]; congruence || tauto.
Qed.
Lemma best_cnt k : forall D, tame D -> k <= cnt D -> cnt (fst (best k D)) = cnt D - k.
Proof.
  induction k as [|k IH]; intros D Ht Hk; [cbn [best fst]; lia|]. cbn [best]. destruct (@least D Ht ltac:(lia)) as (i & x & -> & Hx & Nx & _).
  assert (Y := cnt_replace _ _ Hx Nx). assert (X := IH (replace_nth i n_nan D) (tame_replace i Ht) ltac:(lia)). destruct (best k _) as [D' r]. cbn [fst] in *. lia.
Qed.
Theorem best_over k : forall D, tame D -> cnt D < k -> snd (best k D) = Err ValueError.
Proof.
  induction k as [|k IH]; intros D Ht Hk; [lia|]. cbn [best]. destruct (cnt D) as [|c] eqn:Ec.
  - rewrite nanargmin_allnan by now apply cnt_zero. reflexivity.
  - destruct (@least D Ht ltac:(lia)) as (i & x & -> & Hx & Nx & _). assert (X := IH (replace_nth i n_nan D)). destruct (best k _) as [D' r]. cbn [snd] in *. rewrite X; [reflexivity|now apply tame_replace|].
    assert (Y := cnt_replace _ _ Hx Nx). lia.
Qed.
Lemma best_length k : forall D, List.length (fst (best k D)) = List.length D.
Proof.
  induction k as [|k IH]; intros D; [reflexivity|]. cbn [best]. destruct (nanargmin D) as [i|e]; [|reflexivity]. assert (X := IH (replace_nth i n_nan D)). destruct (best k _) as [D' r]. cbn [fst] in *. now rewrite X, replace_nth_length.
Qed.
Lemma best_count k : forall D D' l, best k D = (D', Ok l) -> List.length l = k.
Proof.
  induction k as [|k IH]; intros D D' l H; cbn [best] in H; [now inversion H|]. destruct (nanargmin D) as [i|]; [|discriminate].
  destruct (best k _) as [D1 [l1|]] eqn:Eb; [|discriminate]. cbn [bind] in H. inversion H; subst. cbn [List.length]. f_equal. exact (IH _ _ _ Eb).
Qed.
Lemma best_keeps_nan k (f : nat -> bool) : forall D, (forall i x, nth_error D i = Some x -> f i = true -> x = n_nan) -> forall i x, nth_error (fst (best k D)) i = Some x -> f i = true -> x = n_nan.
Proof.
  induction k as [|k IH]; intros D HD; [exact HD|]. cbn [best]. destruct (nanargmin D) as [j|e] eqn:Ej; [|exact HD].
  destruct (nanargmin_spec _ Ej) as (z & Hz & _). assert (Lj : j < List.length D) by (apply nth_error_Some; congruence).
  assert (X := IH (replace_nth j n_nan D)). destruct (best k _) as [D' r]. cbn [fst] in *. apply X. intros i x. rewrite nth_replace by auto. destruct (Nat.eqb_spec i j); [congruence|apply HD].
Qed.
End B.

Section O.
Context {T : Type} {NT : Num T} {LT : NumLaws T} {AL : AddLaws T} (E : env T).
Notation pyval := (pyval T).
Notation shallot := (shallot T).

Definition refit (s : shallot) (D : list T) : shallot := with_grads s (s_grads s) (option_map (fun p => with_data p D) (s_fit s)).
Lemma refit_id (s : shallot) p : s_fit s = Some p -> refit s (p_data p) = s.
Proof. intros H. unfold refit. rewrite H. cbn [option_map]. rewrite with_data_same, <- H. destruct s; reflexivity. Qed.
Lemma hidden_ext (l : list T) f h : (forall i, i < List.length l -> f i = h i) -> hidden l f = hidden l h.
Proof. intros H. unfold hidden. apply map_ext_in. intros i Hi. apply in_seq in Hi. rewrite H by lia. reflexivity. Qed.
Lemma hidden_twice (l : list T) f : hidden (hidden l f) f = hidden l f.
Proof. rewrite hidden_hidden. apply hidden_ext. intros i _. apply orb_diag. Qed.
Lemma rd_twice (s s' : shallot) m b p : all_masks s' = all_masks s -> rd s' m b (rd s m b p) = rd s m b p.
Proof.
  intros H. unfold rd. cbn [with_data p_data]. unfold with_data. cbn [p_name p_unit p_params p_shape p_data p_vmin p_vmax p_cmap p_ncol p_mask]. f_equal.
  rewrite (@hidden_ext _ _ (hid s p m b)); [apply hidden_twice|]. intros i _. unfold hid, masked_b. now rewrite H.
Qed.
Lemma rd_ext (s s' : shallot) m b p : all_masks s' = all_masks s -> rd s' m b p = rd s m b p.
Proof. intros H. unfold rd. f_equal. apply hidden_ext. intros i _. unfold hid, masked_b. now rewrite H. Qed.
Lemma rdg_false (g : ggrad T) : rdg false g = g.
Proof. unfold rdg. cbn [andb]. rewrite hidden_none by auto. rewrite with_data_same. destruct g; reflexivity. Qed.
Lemma map_rdg_false (l : option (list (ggrad T))) : option_map (map (rdg false)) l = l.
Proof. destruct l as [l|]; [|reflexivity]. cbn [option_map]. f_equal. rewrite <- (map_id l) at 2. apply map_ext. apply rdg_false. Qed.
Lemma settled_masks (s : shallot) m : all_masks (settled s m) = all_masks s.
Proof. unfold all_masks, settled, cubed. cbn. destruct (s_grads s) as [gs|]; [|reflexivity]. cbn [option_map]. rewrite map_map. reflexivity. Qed.
Lemma refit_masks (s : shallot) D : all_masks (refit s D) = all_masks s. Proof. reflexivity. Qed.
Lemma settled_refit (s : shallot) m D : settled (refit s D) m = refit (settled s m) D.
Proof. reflexivity. Qed.
Lemma refit_refit (s : shallot) D D' : refit (refit s D) D' = refit s D'.
Proof. unfold refit. cbn. destruct (s_fit s); reflexivity. Qed.
Lemma settled_twice (s : shallot) : settled (settled s false) false = settled s false.
Proof.
  unfold settled at 1. unfold cubed. rewrite map_rdg_false.
  change (s_dr (settled s false)) with (rd s false true (s_dr s)). change (s_inc (settled s false)) with (rd s false true (s_inc s)). change (s_tilt (settled s false)) with (rd s false true (s_tilt s)).
  change (s_fx (settled s false)) with (rd s false true (s_fx s)). change (s_fy (settled s false)) with (rd s false true (s_fy s)). change (s_dmap (settled s false)) with (option_map (rd s false true) (s_dmap s)).
  rewrite !(@rd_twice s (settled s false)) by apply settled_masks.
  replace (option_map (rd (settled s false) false true) (option_map (rd s false true) (s_dmap s))) with (option_map (rd s false true) (s_dmap s)).
  2:{ destruct (s_dmap s); [|reflexivity]. cbn [option_map]. now rewrite (@rd_twice s (settled s false)) by apply settled_masks. }
  reflexivity.
Qed.
Lemma view_settled (s : shallot) y x r : view (settled s false) false y x r = view s false y x r.
Proof.
  unfold view, peek. change (place (settled s false) y x r) with (place s y x r). change (s_params (settled s false)) with (s_params s).
  change (s_dr (settled s false)) with (rd s false true (s_dr s)). change (s_inc (settled s false)) with (rd s false true (s_inc s)). change (s_tilt (settled s false)) with (rd s false true (s_tilt s)).
  change (s_fx (settled s false)) with (rd s false true (s_fx s)). change (s_fy (settled s false)) with (rd s false true (s_fy s)). change (s_dmap (settled s false)) with (option_map (rd s false true) (s_dmap s)).
  rewrite !(@rd_twice s (settled s false)) by apply settled_masks.
  change (s_grads (settled s false)) with (option_map (map (rdg false)) (s_grads s)). rewrite map_rdg_false.
  f_equal. destruct (s_dmap s); [|reflexivity]. cbn [option_map]. now rewrite (@rd_twice s (settled s false)) by apply settled_masks.
Qed.
Lemma view_refit (s : shallot) D m y x r : view (refit s D) m y x r = view s m y x r.
Proof. reflexivity. Qed.

(** np.unravel_index *)
Definition spot (s : shallot) (i : nat) : nat * nat * nat := unravel (shape3 (s_params s)) i.
Lemma spot_place (s : shallot) i : sinv s -> i < points s -> let '(y, x, r) := spot s i in in_range s y x r /\ place s y x r = i.
Proof.
  intros H Hi. unfold spot. rewrite shape3_of by auto. unfold unravel, in_range, place. unfold points in Hi. revert Hi.
  generalize (List.length (g_dy (s_params s))) (List.length (g_dx (s_params s))) (List.length (g_rfa (s_params s))). intros a b c Hi.
  assert (Hb : b <> 0) by nia. assert (Hc : c <> 0) by nia. assert (B : i / c mod b < b) by now apply Nat.mod_upper_bound. assert (C : i mod c < c) by now apply Nat.mod_upper_bound.
  assert (Q : i / (b * c) = i / c / b) by (rewrite Nat.mul_comm, Nat.div_div by auto; reflexivity).
  assert (D1 := Nat.div_mod i c Hc). assert (D2 := Nat.div_mod (i / c) b Hb).
  split; [split; [|split; auto]|].
  - apply Nat.div_lt_upper_bound; nia.
  - rewrite Q. nia.
Qed.
Definition sol (s : shallot) (p : nat * T) : solution := (snd p, let '(y, x, r) := spot s (fst p) in view s false y x r).
Definition touched (k : nat) (D : list T) : bool := match k, nanargmin D with S _, Ok _ => true | _, _ => false end.

Lemma sinv_refit (s : shallot) p D : sinv s -> s_fit s = Some p -> List.length D = List.length (p_data p) -> sinv (refit s D).
Proof.
  intros H Hp Hl. unfold refit. apply sinv_grads; auto; [intros l; apply (i_grads H)|]. rewrite Hp. cbn [option_map]. intros q Hq. injection Hq as <-. destruct (i_fit H Hp). split; auto. now apply cube_data.
Qed.
Lemma sinv_settled (s : shallot) : sinv s -> sinv (settled s false).
Proof.
  intros H. assert (K : forall p, cube_inv (s_params s) p -> cube_inv (s_params s) (rd s false true p)) by (intros p Hp; apply cube_data; auto; apply hidden_length).
  constructor.
  - apply H.
  - intros []; [apply K, (i_cubes H WRadius)|apply K, (i_cubes H WInclination)|apply K, (i_cubes H WTilt)|apply K, (i_cubes H WFx)|apply K, (i_cubes H WFy)].
  - destruct (i_dmap H) as (q & Hq & Hc). exists (rd s false true q). change (s_dmap (settled s false)) with (option_map (rd s false true) (s_dmap s)). rewrite Hq. split; [reflexivity|]. now apply K.
  - change (s_grads (settled s false)) with (option_map (map (rdg false)) (s_grads s)). rewrite map_rdg_false. apply (i_grads H).
  - change (s_grads (settled s false)) with (option_map (map (rdg false)) (s_grads s)). rewrite map_rdg_false. apply (i_fit H).
  - apply (i_shear H).
Qed.

Theorem loop_exact k : forall (s : shallot) p, sinv s -> s_fit s = Some p ->
  extract_loop k s = (refit (if touched k (p_data p) then settled s false else s) (fst (best k (p_data p))), let* l := snd (best k (p_data p)) in Ok (map (sol s) l)).
Proof.
  induction k as [|k IH]; intros s p H Hp.
  - cbn [extract_loop touched best fst snd bind]. rewrite refit_id by auto. reflexivity.
  - cbn [extract_loop touched best]. rewrite Hp. destruct (nanargmin (p_data p)) as [i|e] eqn:Ei.
    2:{ cbn [fst snd bind]. rewrite refit_id by auto. reflexivity. }
    destruct (i_fit H Hp) as [Hc _]. destruct (cube_shape Hc) as [Hs _]. destruct (nanargmin_spec _ Ei) as (z & Hz & _).
    assert (Li : i < points s) by (rewrite <- (cube_points H Hc); apply nth_error_Some; congruence).
    assert (Q := spot_place H Li). rewrite Hs. change (unravel (shape3 (s_params s)) i) with (spot s i). destruct (spot s i) as [[y x] r] eqn:Esp. destruct Q as [R _].
    erewrite mbind_ok; [|apply (@point_ok T NT LT AL s (PNpInt (Z.of_nat y)) (PNpInt (Z.of_nat x)) (PNpInt (Z.of_nat r)) false y x r); auto; constructor].
    erewrite mbind_ok; [|reflexivity]. 
    change (with_grads (settled s false) (s_grads (settled s false)) (option_map (fun p0 => with_data p0 (replace_nth i n_nan (p_data p0))) (s_fit (settled s false))))
      with (with_grads (settled s false) (s_grads (settled s false)) (option_map (fun p0 => with_data p0 (replace_nth i n_nan (p_data p0))) (s_fit s))).
    rewrite Hp. cbn [option_map]. set (D1 := replace_nth i n_nan (p_data p)).
    set (s1 := with_grads (settled s false) (s_grads (settled s false)) (Some (with_data p D1))).
    assert (E1 : s1 = refit (settled s false) D1) by (unfold refit; change (s_fit (settled s false)) with (s_fit s); rewrite Hp; reflexivity).
    assert (H1 : sinv s1). { rewrite E1. apply sinv_refit with (p := p); [now apply sinv_settled|exact Hp|apply replace_nth_length]. }
    assert (L := IH s1 (with_data p D1) H1 eq_refl). cbn [with_data p_data] in L.
    assert (S1 : refit (if touched k D1 then settled s1 false else s1) (fst (best k D1)) = refit (settled s false) (fst (best k D1))).
    { rewrite E1, settled_refit, settled_twice. destruct (touched k D1); rewrite refit_refit; reflexivity. }
    rewrite S1 in L. destruct (best k D1) as [D2 r2]. cbn [fst snd] in *. unfold mbind. rewrite L. destruct r2 as [l|e]; [|reflexivity]. cbn [bind]. unfold ret. f_equal. f_equal. cbn [map]. f_equal.
    { unfold sol. cbn [fst snd]. rewrite Esp. reflexivity. }
    apply map_ext. intros (j & v). unfold sol. cbn [fst snd]. f_equal. rewrite E1. change (spot (refit (settled s false) D1) j) with (spot s j). destruct (spot s j) as [[y' x'] r']. rewrite view_refit. apply view_settled.
Qed.

Lemma fit_got (s : shallot) p : sinv s -> s_fit s = Some p ->
  get_gradient_fit (PBool true) (PBool true) s = (refit s (hidden (p_data p) (hid s p true true)), Ok (Some (shape3 (s_params s), hidden (p_data p) (hid s p true true)))).
Proof.
  intros H Hp. unfold get_gradient_fit. rewrite Hp. destruct (i_fit H Hp) as [Hc _].
  rewrite (@read_bool T NT LT AL s p (set_fit s) true true); auto. unfold refit. rewrite Hp. reflexivity.
Qed.
Definition fitted (s : shallot) (p : gprop T) : list T := hidden (p_data p) (hid s p true true).
Definition open_points (s : shallot) : nat := List.length (filter (fun i => negb (masked_b s i)) (seq 0 (points s))).
Lemma filter_map' A B (f : A -> B) (h : B -> bool) l : List.length (filter h (map f l)) = List.length (filter (fun a => h (f a)) l).
Proof. induction l as [|a l IH]; [reflexivity|]. cbn [map filter]. destruct (h (f a)); cbn [List.length]; congruence. Qed.
Definition asked (s : shallot) (n : option pyval) (k : nat) : Prop :=
  match n with None => k = open_points s | Some v => int_like v /\ int_of v = Z.of_nat k /\ k <= open_points s end.
Lemma number_index_np (v : pyval) n : int_like v -> (0 <= int_of v <= n)%Z -> number v true (PInt 0) (PNpInt n) false = Ok v.
Proof.
  intros Hi Hr. rewrite <- (proj2 (number_index v n v)); [|auto]. unfold number. destruct (number_type true v) as [w|]; [|reflexivity]. cbn [bind]. reflexivity.
Qed.
Lemma asked_ok (s : shallot) n k : sinv s -> asked s n k ->
  exists v, (let* m := combined_mask s in let mx := PNpInt (Z.of_nat (count_unmasked m)) in number (dflt mx n) true (PInt 0) mx false) = Ok v /\ Z.to_nat (int_of v) = k.
Proof.
  intros H Ha. rewrite combined_ok by auto. cbn [bind]. unfold count_unmasked. rewrite filter_map'. change (List.length (filter (fun a => negb (masked_b s a)) (seq 0 (points s)))) with (open_points s).
  cbn zeta. destruct n as [v|]; cbn [dflt asked] in *.
  - destruct Ha as (A & B & C). exists v. rewrite number_index_np by (auto; lia). split; auto. lia.
  - exists (PNpInt (Z.of_nat (open_points s))). subst k. rewrite number_index_np; [|constructor|cbn [int_of]; split; [apply Nat2Z.is_nonneg|apply Z.le_refl]]. split; auto. cbn [int_of]. apply Nat2Z.id.
Qed.
Theorem extract_exact (s : shallot) p n k : sinv s -> s_fit s = Some p -> asked s n k ->
  extract_solutions n s = (refit (if touched k (fitted s p) then settled s false else s) (fst (best k (fitted s p))), let* l := snd (best k (fitted s p)) in Ok (map (sol s) l)).
Proof.
  intros H Hp Ha. unfold extract_solutions. destruct (asked_ok n _ H Ha) as (v & Ev & Hv). cbn zeta in Ev |- *. rewrite Ev, Hv. erewrite mbind_ok; [|apply (fit_got H Hp)].
  assert (H1 : sinv (refit s (fitted s p))) by (apply sinv_refit with (p := p); auto; apply hidden_length).
  change (hidden (p_data p) (hid s p true true)) with (fitted s p). rewrite (@loop_exact k _ (with_data p (fitted s p)) H1) by (unfold refit; rewrite Hp; reflexivity). cbn [with_data p_data].
  f_equal. rewrite settled_refit. destruct (touched _ _); rewrite refit_refit; reflexivity.
Qed.

(** *** C50: a second call continues where the first ended *)
Lemma asked_masks (s s' : shallot) n k : s_params s' = s_params s -> all_masks s' = all_masks s -> asked s n k -> asked s' n k.
Proof. intros A B. assert (X : open_points s' = open_points s) by (unfold open_points, points, masked_b; now rewrite A, B). unfold asked. rewrite X. auto. Qed.
Lemma fitted_again (s s' : shallot) p D : all_masks s' = all_masks s -> List.length D = List.length (p_data p) ->
  (forall i x, nth_error D i = Some x -> hid s p true true i = true -> x = n_nan) -> fitted s' (with_data p D) = D.
Proof.
  intros Hm Hl HD. unfold fitted. cbn [with_data p_data]. apply nth_error_ext'; [apply hidden_length|]. intros i Hi. rewrite hidden_length in Hi.
  destruct (nth_error D i) as [x|] eqn:Ex; [|apply nth_error_None in Ex; lia]. rewrite (hidden_nth _ _ _ Ex).
  assert (Hh : hid s' (with_data p D) true true i = hid s p true true i) by (unfold hid, masked_b; rewrite Hm; reflexivity). rewrite Hh. destruct (hid s p true true i) eqn:Eh; auto. now rewrite (HD i x Ex Eh).
Qed.
Lemma hidden_at (l : list T) f i x : nth_error (hidden l f) i = Some x -> f i = true -> x = n_nan.
Proof.
  intros Hx Hf. assert (Li : i < List.length l) by (rewrite <- (hidden_length l f); apply nth_error_Some; congruence).
  rewrite (hidden_nth l f i (nth_nth_error l Li)), Hf in Hx. congruence.
Qed.
Theorem extract_continues (s s2 : shallot) p n m (l : list solution) : sinv s -> s_fit s = Some p ->
  (Z.of_nat (n + m) <= Z.of_nat (open_points s))%Z ->
  extract_solutions (Some (PInt (Z.of_nat (n + m)))) s = (s2, Ok l) ->
  exists s1, extract_solutions (Some (PInt (Z.of_nat n))) s = (s1, Ok (firstn n l)) /\ extract_solutions (Some (PInt (Z.of_nat m))) s1 = (s2, Ok (skipn n l)).
Proof.
  intros H Hp Hc HH. assert (An : forall j, j <= n + m -> asked s (Some (PInt (Z.of_nat j))) j) by (intros j Hj; split; [constructor|]; split; [reflexivity|lia]).
  rewrite (@extract_exact s p _ (n + m) H Hp) in HH by (apply An; lia). set (D := fitted s p) in *.
  rewrite best_app in HH. destruct (best n D) as [D1 [l1|e]] eqn:E1; [|cbn [snd bind] in HH; discriminate]. destruct (best m D1) as [D2 [l2|e]] eqn:E2; [|cbn [snd bind] in HH; discriminate].
  cbn [fst snd bind] in HH.
  set (s1 := refit (if touched n D then settled s false else s) D1).
  assert (X1 : extract_solutions (Some (PInt (Z.of_nat n))) s = (s1, Ok (map (sol s) l1))).
  { rewrite (@extract_exact s p _ n H Hp) by (apply An; lia). fold D. rewrite E1. reflexivity. }
  assert (LD : List.length D = List.length (p_data p)) by apply hidden_length.
  assert (LD1 : List.length D1 = List.length (p_data p)). { assert (X := best_length n D). rewrite E1 in X. cbn [fst] in X. congruence. }
  assert (F1 : s_fit s1 = Some (with_data p D1)). { unfold s1, refit. destruct (touched n D); cbn; rewrite Hp; reflexivity. }
  assert (H1 : sinv s1). { unfold s1. apply sinv_refit with (p := p); auto; destruct (touched n D); auto. now apply sinv_settled. }
  assert (M1 : all_masks s1 = all_masks s). { unfold s1. rewrite refit_masks. destruct (touched n D); [apply settled_masks|reflexivity]. }
  assert (P1 : s_params s1 = s_params s) by (unfold s1; destruct (touched n D); reflexivity).
  assert (FD : fitted s1 (with_data p D1) = D1).
  { apply fitted_again with (s := s); auto. intros i x Hx Hh. assert (X := @best_keeps_nan T NT LT n (hid s p true true) D). rewrite E1 in X. apply (X (fun i x A B => hidden_at _ _ _ A B) i x); auto. }
  assert (L1 : List.length l1 = n) by exact (best_count _ _ E1).
  assert (SL : forall z, sol s1 z = sol s z).
  { intros (j & v). unfold sol. cbn [fst snd]. f_equal. assert (Q : spot s1 j = spot s j) by (unfold spot; now rewrite P1). rewrite Q. destruct (spot s j) as [[y x] r]. unfold s1. rewrite view_refit. destruct (touched n D); [apply view_settled|reflexivity]. }
  assert (X2 : extract_solutions (Some (PInt (Z.of_nat m))) s1 = (s2, Ok (map (sol s) l2))).
  { rewrite (@extract_exact s1 (with_data p D1) _ m H1 F1) by (apply (@asked_masks s); auto; apply An; lia). rewrite FD, E2. cbn [fst snd bind]. f_equal.
    - assert (S2 : s2 = refit (if touched (n + m) D then settled s false else s) D2) by congruence. rewrite S2. unfold s1. rewrite settled_refit.
      destruct n as [|n].
      + cbn [best] in E1. assert (D1 = D) by congruence. subst D1. cbn [touched Nat.add]. destruct (touched m D); rewrite refit_refit; reflexivity.
      + assert (TT : touched (S n) D = true). { unfold touched. cbn [best] in E1. destruct (nanargmin D); [reflexivity|discriminate]. }
        assert (TT' : touched (S n + m) D = true) by exact TT. rewrite TT, TT', settled_twice. destruct (touched m D1); rewrite refit_refit; reflexivity.
    - f_equal. apply map_ext. exact SL. }
  exists s1. assert (EL : l = map (sol s) l1 ++ map (sol s) l2) by (rewrite <- map_app; congruence). subst l.
  rewrite X1, X2, firstn_app, skipn_app, !firstn_all2, !skipn_all2, map_length, L1, Nat.sub_diag by (rewrite map_length; lia). cbn [firstn skipn app]. rewrite app_nil_r. auto.
Qed.

(** *** C49 *)
Lemma masked_b_iff (s : shallot) i : masked_b s i = true <-> masked_at s i. Proof. apply masked_at_dec. Qed.
Lemma masked_b_false (s : shallot) i : masked_b s i = false <-> ~ masked_at s i.
Proof. rewrite <- masked_b_iff. destruct (masked_b s i); split; congruence. Qed.
Lemma unmasked_count (s : shallot) is : unmasked s is -> List.length is = open_points s.
Proof.
  intros [Hn Hi]. unfold open_points. apply Permutation_length, NoDup_Permutation; auto; [apply NoDup_filter, seq_NoDup|].
  intros i. rewrite Hi, filter_In, in_seq, negb_true_iff, masked_b_false. split; intros [A B]; split; auto; lia.
Qed.
Lemma asks_asked (s : shallot) is v k : unmasked s is -> asks v (List.length is) k -> asked s v k.
Proof. intros Hu. rewrite (unmasked_count Hu). destruct v; auto. Qed.
Lemma fitted_at (s : shallot) p : sinv s -> s_fit s = Some p -> fit_finite s p -> forall i x, nth_error (fitted s p) i = Some x ->
  i < points s /\ (masked_b s i = true /\ x = n_nan \/ masked_b s i = false /\ nth_error (p_data p) i = Some x /\ exists a, val x = XFin a).
Proof.
  intros H Hp Hf i x Hx. destruct (i_fit H Hp) as [Hc _]. assert (Lp := cube_points H Hc).
  assert (Li : i < points s) by (rewrite <- Lp, <- (hidden_length (p_data p) (hid s p true true)); apply nth_error_Some; unfold fitted in Hx; congruence).
  split; auto. unfold fitted in Hx. rewrite (hidden_nth _ _ _ (nth_nth_error (p_data p) (i := i) ltac:(lia))) in Hx. unfold hid in Hx. cbn [andb] in Hx.
  destruct (masked_b s i) eqn:Em; [left; rewrite orb_true_r in Hx; split; congruence|]. right. split; auto.
  destruct (Hf i Li) as (A & v & a & B & C); [now apply masked_b_false|]. rewrite A in Hx. cbn [orb] in Hx. rewrite (nth_error_nth _ _ n_nan B) in Hx. injection Hx as <-. eauto.
Qed.
Lemma fitted_tame (s : shallot) p : sinv s -> s_fit s = Some p -> fit_finite s p -> tame (fitted s p).
Proof.
  intros H Hp Hf x Hx. apply In_nth_error in Hx as [i Hx]. destruct (fitted_at H Hp Hf i Hx) as (_ & [(_ & ->)|(_ & _ & a & ->)]); [rewrite l_nan|]; discriminate.
Qed.
Lemma fitted_count (s : shallot) p : sinv s -> s_fit s = Some p -> fit_finite s p -> cnt (fitted s p) = open_points s.
Proof.
  intros H Hp Hf. destruct (i_fit H Hp) as [Hc _]. assert (Lp := cube_points H Hc). unfold cnt, open_points. unfold fitted, hidden. rewrite filter_map', Lp. f_equal. apply filter_ext_in. intros i Hi. apply in_seq in Hi.
  assert (Li : i < points s) by lia. assert (X := hidden_nth _ (hid s p true true) _ (nth_nth_error (p_data p) (i := i) ltac:(lia))). fold (fitted s p) in X.
  destruct (fitted_at H Hp Hf i X) as (_ & [(A & B)|(A & _ & a & B)]).
  - rewrite A, B. apply alive_nan.
  - rewrite A. cbn [negb]. apply alive_iff. rewrite B. discriminate.
Qed.
Lemma sol_at (s : shallot) p i v : sinv s -> s_fit s = Some p -> fit_finite s p -> nth_error (fitted s p) i = Some v -> val v <> XNaN -> at_point s p (spot s i) (sol s (i, v)).
Proof.
  intros H Hp Hf Hi Hv. destruct (fitted_at H Hp Hf i Hi) as (Li & [(_ & ->)|(A & B & _)]); [rewrite l_nan in Hv; congruence|]. apply masked_b_false in A.
  assert (Q := spot_place H Li). unfold sol. cbn [fst snd]. destruct (spot s i) as [[y x] r]. destruct Q as [R Q]. unfold at_point. cbn [fst snd]. rewrite Q. split; [exact R|]. split; [exact A|]. split; [exact B|].
  destruct (view_describes false H R) as (D1 & D2 & D3 & _ & _ & _ & D4 & D5 & _). rewrite Q in D1, D2, D3. unfold masked_at in A.
  split; [|split; [|split; [|split; auto]]].
  - destruct D1 as [[[X|[X _]] _]|(_ & _ & X)]; [tauto|discriminate|exact X].
  - destruct D2 as [[[X|[X _]] _]|(_ & _ & X)]; [tauto|discriminate|exact X].
  - destruct D3 as [[[X|[X _]] _]|(_ & _ & X)]; [tauto|discriminate|exact X].
Qed.
Lemma sorted_nth A (R : A -> A -> Prop) l : StronglySorted R l -> forall a b x y, a < b -> nth_error l a = Some x -> nth_error l b = Some y -> R x y.
Proof.
  induction 1 as [|z l S IH F]; intros a b x y Hab Ha Hb; [destruct a; discriminate|]. destruct b as [|b]; [lia|]. destruct a as [|a]; cbn [nth_error] in *.
  - injection Ha as <-. rewrite Forall_forall in F. apply F. exact (nth_error_In _ _ Hb).
  - apply (IH a b); auto. lia.
Qed.
Theorem extract_best (s : shallot) p is v k : sinv s -> s_fit s = Some p -> fit_finite s p -> unmasked s is -> asks v (List.length is) k ->
  exists s' qs l, extract_solutions v s = (s', Ok l) /\ List.length l = k /\ NoDup qs /\ Forall2 (at_point s p) qs l /\
    (forall a b x y, a < b -> nth_error l a = Some x -> nth_error l b = Some y -> xle (val (fst x)) (val (fst y))) /\
    (forall z, In z l -> forall q z', at_point s p q z' -> ~ In q qs -> xle (val (fst z)) (val (fst z'))).
Proof.
  intros H Hp Hf Hu Ha. assert (Ha' := asks_asked v k Hu Ha). rewrite (extract_exact v _ H Hp Ha').
  assert (Hk : k <= cnt (fitted s p)). { rewrite (fitted_count H Hp Hf), <- (unmasked_count Hu). destruct v; cbn [asks] in Ha; lia. }
  destruct (best_ok (fitted_tame H Hp Hf) Hk) as (D' & l & -> & Hl & Hn & Hs & Ho & Hr & _). cbn [fst snd bind].
  do 2 eexists. exists (map (sol s) l). split; [reflexivity|]. split; [now rewrite map_length|].
  assert (SP : forall i w, In (i, w) l -> i < points s) by (intros i w X; destruct (Hs i w X) as [A B]; apply (fitted_at H Hp Hf i A)).
  assert (INJ : forall i j, i < points s -> j < points s -> spot s i = spot s j -> i = j).
  { intros i j Li Lj Eq. assert (A := spot_place H Li). assert (B := spot_place H Lj). rewrite Eq in A. destruct (spot s j) as [[y x] r]. destruct A as [_ A], B as [_ B]. congruence. }
  split; [|split; [|split]].
  - instantiate (1 := map (fun z => spot s (fst z)) l). clear -Hn SP INJ. induction l as [|(i & w) l IH]; cbn [map fst] in *; constructor; inversion Hn as [|? ? Hn1 Hn2]; subst.
    + intros X. apply in_map_iff in X as ((j & u) & Ej & Hj). cbn [fst] in Ej. apply Hn1. apply in_map_iff. exists (j, u). split; auto. cbn [fst]. apply INJ; auto; [apply (SP j u); now right|apply (SP i w); now left].
    + apply IH; auto. intros j u X. apply (SP j u). now right.
  - clear -Hs H Hp Hf LT AL. induction l as [|(i & w) l IH]; cbn [map fst]; constructor.
    + destruct (Hs i w) as [A B]; [now left|]. apply sol_at; auto.
    + apply IH. intros j u X. apply Hs. now right.
  - intros a b x y Hab Hx Hy. rewrite nth_error_map in Hx, Hy. destruct (nth_error l a) as [za|] eqn:Ea; [|discriminate]. destruct (nth_error l b) as [zb|] eqn:Eb; [|discriminate].
    cbn [option_map] in Hx, Hy. injection Hx as <-. injection Hy as <-. exact (sorted_nth Ho Hab Ea Eb).
  - intros z Hz [[y x] r] z' (R & M & F & _) Hq. apply in_map_iff in Hz as ((i & w) & <- & Hz). unfold sol. cbn [fst snd].
    assert (P := place_range R). assert (M' := proj2 (masked_b_false s _) M). destruct (Hf _ P M) as (FM & v0 & a0 & V1 & V2).
    apply (Hr i w Hz (place s y x r)).
    + unfold fitted. rewrite (hidden_nth _ _ _ F). unfold hid. rewrite M', FM. reflexivity.
    + assert (v0 = fst z') by congruence. subst v0. rewrite V2. discriminate.
    + intros X. apply in_map_iff in X as ((j & u) & Ej & Hj). cbn [fst] in Ej. subst j. apply Hq. apply in_map_iff. exists (place s y x r, u). split; auto. cbn [fst].
      clear -R H. unfold spot. rewrite shape3_of by auto. unfold unravel, place. destruct R as (A & B & C). revert A B C. generalize (List.length (g_dy (s_params s))) (List.length (g_dx (s_params s))) (List.length (g_rfa (s_params s))). intros a b c A B C.
      assert (E1 : ((y * b + x) * c + r) / c = y * b + x) by (rewrite Nat.div_add_l by lia; rewrite (Nat.div_small r c) by lia; lia).
      assert (E2 : ((y * b + x) * c + r) mod c = r) by (rewrite Nat.add_comm, Nat.mod_add by lia; now apply Nat.mod_small).
      assert (E3 : (y * b + x) / b = y) by (rewrite Nat.div_add_l by lia; rewrite (Nat.div_small x b) by lia; lia).
      assert (E4 : (y * b + x) mod b = x) by (rewrite Nat.add_comm, Nat.mod_add by lia; now apply Nat.mod_small).
      rewrite (Nat.mul_comm b c), <- Nat.div_div, E1, E2, E3, E4 by lia. reflexivity.
Qed.

(** asking for everything once more *)
Theorem extract_all_again (s s1 : shallot) p is l : sinv s -> s_fit s = Some p -> fit_finite s p -> unmasked s is -> is <> [] ->
  extract_solutions None s = (s1, Ok l) -> exists s2, extract_solutions None s1 = (s2, Err ValueError).
Proof.
  intros H Hp Hf Hu He HH. assert (A : asked s None (open_points s)) by reflexivity. rewrite (extract_exact None _ H Hp A) in HH. set (D := fitted s p) in *. set (k := open_points s) in *.
  assert (Hk : 0 < k) by (unfold k; rewrite <- (unmasked_count Hu); destruct is; [congruence|cbn; lia]).
  assert (Tm : tame D) by now apply fitted_tame. assert (Ct : cnt D = k) by now apply fitted_count.
  destruct (best_ok (k := k) Tm ltac:(lia)) as (D1 & l1 & E1 & _). assert (Z1 := best_cnt (k := k) Tm ltac:(lia)). rewrite E1 in HH, Z1. cbn [fst snd bind] in HH, Z1.
  assert (S1 : s1 = refit (if touched k D then settled s false else s) D1) by congruence. clear HH.
  assert (LD1 : List.length D1 = List.length (p_data p)). { assert (X := best_length k D). rewrite E1 in X. cbn [fst] in X. rewrite X. apply hidden_length. }
  assert (F1 : s_fit s1 = Some (with_data p D1)). { rewrite S1. unfold refit. destruct (touched k D); cbn; rewrite Hp; reflexivity. }
  assert (H1 : sinv s1). { rewrite S1. apply sinv_refit with (p := p); auto; destruct (touched k D); auto. now apply sinv_settled. }
  assert (M1 : all_masks s1 = all_masks s). { rewrite S1. rewrite refit_masks. destruct (touched k D); [apply settled_masks|reflexivity]. }
  assert (P1 : s_params s1 = s_params s) by (rewrite S1; destruct (touched k D); reflexivity).
  assert (FD : fitted s1 (with_data p D1) = D1).
  { apply fitted_again with (s := s); auto. intros i x Hx Hh. assert (X := @best_keeps_nan T NT LT k (hid s p true true) D). rewrite E1 in X. apply (X (fun i x A B => hidden_at _ _ _ A B) i x); auto. }
  assert (A1 : asked s1 None k). { apply (@asked_masks s); auto. }
  rewrite (extract_exact None _ H1 F1 A1), FD. assert (O1 : snd (best k D1) = Err ValueError).
  { apply best_over; [|lia]. intros x Hx. assert (N : val x = XNaN) by (apply cnt_zero with (D := D1); auto; lia). rewrite N. discriminate. }
  rewrite O1. eexists. reflexivity.
Qed.

(** without a fit *)
Theorem extract_without (s : shallot) v is k : sinv s -> s_fit s = None -> unmasked s is -> asks v (List.length is) k ->
  extract_solutions v s = (s, match k with O => Ok [] | S _ => Err AttributeError end).
Proof.
  intros H Hp Hu Ha. unfold extract_solutions. destruct (asked_ok v _ H (asks_asked v k Hu Ha)) as (w & Ew & Hw). cbn zeta in Ew |- *. rewrite Ew, Hw.
  erewrite mbind_ok; [|unfold get_gradient_fit; rewrite Hp; reflexivity]. destruct k; [reflexivity|]. cbn [extract_loop]. rewrite Hp. reflexivity.
Qed.
(** asking for too many *)
Theorem extract_refused (s : shallot) v is : sinv s -> unmasked s is -> (forall k, ~ asks (Some v) (List.length is) k) -> exists e, extract_solutions (Some v) s = (s, Err e) /\ (e = TypeError \/ e = ValueError).
Proof.
  intros H Hu Ha. unfold extract_solutions. rewrite combined_ok by auto. cbn [bind]. unfold count_unmasked. rewrite filter_map'. change (List.length (filter (fun a => negb (masked_b s a)) (seq 0 (points s)))) with (open_points s).
  cbn [dflt]. rewrite (unmasked_count Hu) in Ha. set (n := open_points s) in *.
  assert (Q : number v true (PInt 0) (PNpInt (Z.of_nat n)) false = number v true (PInt 0) (PInt (Z.of_nat n)) false).
  { unfold number. destruct (number_type true v) as [w|]; reflexivity. }
  rewrite Q. destruct (idx_err (n := n) (v := v)) as (e & -> & Ee & _); [|eauto].
  intros [A B]. apply (Ha (Z.to_nat (int_of v))). split; [exact A|]. split; lia.
Qed.

(** *** C51 *)
Lemma distances_nth (s : shallot) dr inc tilt r i t b y x q : sinv s -> in_range s y x q -> List.length dr = points s ->
  nth_error (distances (s_params s) dr inc tilt r i t b) (place s y x q) =
  Some (distance (n_sub (nth (place s y x q) dr n_nan) r) (n_sub (nth (place s y x q) inc n_nan) i) (n_sub (nth (place s y x q) tilt n_nan) t) (n_sub (row_coordinate (s_params s) b y) b)).
Proof.
  intros H R Hl. assert (P := place_range R). unfold distances. rewrite nth_error_map, nth_error_seq' by (rewrite Hl; auto). cbn [option_map Nat.add]. do 5 f_equal.
  unfold place. destruct R as (A & B & C). revert A B C. generalize (List.length (g_dy (s_params s))) (List.length (g_dx (s_params s))) (List.length (g_rfa (s_params s))). intros a b' c A B C.
  rewrite (Nat.mul_comm b' c), <- Nat.div_div by lia. replace (((y * b' + x) * c + q) / c) with (y * b' + x) by (rewrite Nat.div_add_l by lia; rewrite (Nat.div_small q c) by lia; lia).
  rewrite Nat.div_add_l by lia. rewrite (Nat.div_small x b') by lia. lia.
Qed.
Lemma closest_run (s : shallot) v1 v2 v3 v4 m : sinv s ->
  number v1 false (PInt 0) p_inf false = Ok v1 -> number v2 false (PInt 0) (PInt 90) false = Ok v2 -> number v3 false (PInt (-180)) (PInt 180) false = Ok v3 -> number v4 false m_inf p_inf false = Ok v4 ->
  let ds := distances (s_params s) (p_data (rd s m true (s_dr s))) (p_data (rd s m true (s_inc s))) (p_data (rd s m true (s_tilt s))) (num_of v1) (num_of v2) (num_of v3) (num_of v4) in
  let s3 := with_cubes s (rd s m true (s_dr s)) (rd s m true (s_inc s)) (rd s m true (s_tilt s)) (s_fx s) (s_fy s) in
  determine_closest v1 v2 v3 v4 (PBool m) s =
  match nanargmin ds with
  | Err e => (s3, Err e)
  | Ok k => let '(y, x, q) := spot s k in
    (s3, let* cy := item (g_dy (s_params s)) (Z.of_nat y) in let* cx := item (g_dx (s_params s)) (Z.of_nat x) in let* cr := item (g_rfa (s_params s)) (Z.of_nat q) in
         let* d := nan_min ds in Ok ((cy, cx, cr), (y, x, q), d))
  end.
Proof.
  intros H N1 N2 N3 N4. cbn zeta. unfold determine_closest.
  rewrite (@lift_step _ _ _ _ _ s v1) by auto. rewrite (@lift_step _ _ _ _ _ s v2) by auto. rewrite (@lift_step _ _ _ _ _ s v3) by auto. rewrite (@lift_step _ _ _ _ _ s v4) by auto.
  rewrite (@lift_step _ _ _ _ _ s m) by reflexivity.
  etransitivity; [apply mbind_ok, (@cube_got _ _ _ _ WRadius s m H)|]. set (s1 := put_cube WRadius s _). assert (H1 : sinv s1) by now apply sinv_rd.
  etransitivity; [apply mbind_ok, (@cube_got _ _ _ _ WInclination s1 m H1)|]. set (s2 := put_cube WInclination s1 _). assert (H2 : sinv s2) by now apply sinv_rd.
  etransitivity; [apply mbind_ok, (@cube_got _ _ _ _ WTilt s2 m H2)|]. cbn [fst snd the_cube].
  set (s3 := put_cube WTilt s2 _). change (p_data (rd s1 m true (s_inc s1))) with (p_data (rd s m true (s_inc s))). change (p_data (rd s2 m true (s_tilt s2))) with (p_data (rd s m true (s_tilt s))).
  match goal with |- mbind (lift (nanargmin ?l)) _ _ = _ => set (ds := l) end. unfold mbind at 1. unfold lift at 1. destruct (nanargmin ds) as [k|e]; [|reflexivity].
  change (unravel (shape3 (s_params s)) k) with (spot s k). destruct (spot s k) as [[y x] q]. unfold mbind, lift, ret.
  destruct (item _ _); [|reflexivity]. cbn [bind]. destruct (item _ _); [|reflexivity]. cbn [bind]. destruct (item _ _); [|reflexivity]. cbn [bind]. destruct (nan_min ds); reflexivity.
Qed.
Lemma far_of (s : shallot) m v1 v2 v3 v4 y x q : sinv s -> in_range s y x q ->
  exists w, nth_error (distances (s_params s) (p_data (rd s m true (s_dr s))) (p_data (rd s m true (s_inc s))) (p_data (rd s m true (s_tilt s))) v1 v2 v3 v4) (place s y x q) = Some w /\
    away s m v1 v2 v3 v4 y x q w.
Proof.
  intros H R. assert (K : forall w, List.length (p_data (the_cube w s)) = points s) by (intros w; apply cube_points; auto; apply H).
  rewrite distances_nth; auto; [|rewrite rd_length; apply (K WRadius)]. eexists. split; [reflexivity|]. assert (P := place_range R).
  assert (K1 := K WRadius). assert (K2 := K WInclination). assert (K3 := K WTilt). cbn [the_cube] in K1, K2, K3.
  do 3 eexists. split; [apply peek_seen; rewrite K1; auto|]. split; [apply peek_seen; rewrite K2; auto|]. split; [apply peek_seen; rewrite K3; auto|].
  unfold distance, row_coordinate, row_of, n_sq. reflexivity.
Qed.
Lemma seen_fun (s : shallot) m p i u v : seen s m p i u -> seen s m p i v -> u = v.
Proof. unfold seen. intros [(A & ->)|(A1 & A2 & A3)] [(B & ->)|(B1 & B2 & B3)]; auto; try congruence.
  - destruct A as [A|A]; [congruence|tauto].
  - destruct B as [B|B]; [congruence|tauto].
Qed.
Lemma away_fun (s : shallot) m v1 v2 v3 v4 y x q u v : away s m v1 v2 v3 v4 y x q u -> away s m v1 v2 v3 v4 y x q v -> u = v.
Proof.
  intros (a & b & c & A & B & C & ->) (a' & b' & c' & A' & B' & C' & ->). rewrite (seen_fun A A'), (seen_fun B B'), (seen_fun C C'). reflexivity.
Qed.
Theorem closest_min (s s' : shallot) v1 v2 v3 v4 m cy cx cr y x q d : sinv s ->
  determine_closest v1 v2 v3 v4 (PBool m) s = (s', Ok ((cy, cx, cr), (y, x, q), d)) ->
  nth_error (g_dy (s_params s)) y = Some cy /\ nth_error (g_dx (s_params s)) x = Some cx /\ nth_error (g_rfa (s_params s)) q = Some cr /\
  exists w, away s m (num_of v1) (num_of v2) (num_of v3) (num_of v4) y x q w /\
    (val w = XNaN -> forall y' x' q' w', in_range s y' x' q' -> away s m (num_of v1) (num_of v2) (num_of v3) (num_of v4) y' x' q' w' -> val w' = XNaN \/ val w' = XPInf) /\
    (val w <> XNaN -> val d = val w /\ forall y' x' q' w', in_range s y' x' q' -> away s m (num_of v1) (num_of v2) (num_of v3) (num_of v4) y' x' q' w' -> val w' = XNaN \/ xle (val w) (val w')).
Proof.
  intros H HH.
  assert (N : exists w1 w2 w3 w4, number v1 false (PInt 0) p_inf false = Ok w1 /\ number v2 false (PInt 0) (PInt 90) false = Ok w2 /\ number v3 false (PInt (-180)) (PInt 180) false = Ok w3 /\ number v4 false m_inf p_inf false = Ok w4).
  { unfold determine_closest in HH. unfold mbind, lift in HH. destruct (number v1 _ _ _ _); [|discriminate]. destruct (number v2 _ _ _ _); [|discriminate]. destruct (number v3 _ _ _ _); [|discriminate]. destruct (number v4 _ _ _ _); [|discriminate]. eauto 10. }
  destruct N as (w1 & w2 & w3 & w4 & N1 & N2 & N3 & N4).
  assert (w1 = v1) by exact (number_same _ _ _ _ _ N1). assert (w2 = v2) by exact (number_same _ _ _ _ _ N2). assert (w3 = v3) by exact (number_same _ _ _ _ _ N3). assert (w4 = v4) by exact (number_same _ _ _ _ _ N4). subst.
  rewrite (closest_run m H N1 N2 N3 N4) in HH. set (ds := distances _ _ _ _ _ _ _ _) in HH.
  destruct (nanargmin ds) as [k|e] eqn:Ek; [|discriminate]. destruct (nanargmin_spec _ Ek) as (w & Hw & _ & K1 & K2).
  assert (Lk : k < points s). { assert (X : k < List.length ds) by (apply nth_error_Some; congruence). unfold ds, distances in X. rewrite map_length, seq_length, rd_length in X. assert (Y := cube_points H (i_cubes H WRadius)). cbn [the_cube] in Y. rewrite Y in X. exact X. }
  assert (Q := spot_place H Lk). destruct (spot s k) as [[y0 x0] q0]. destruct Q as [R Q]. assert (R' := R). destruct R' as (A & B & C).
  rewrite !item_ok in HH by auto. cbn [bind] in HH. destruct (nan_min ds) as [d0|] eqn:Ed; [|discriminate]. cbn [bind] in HH.
  assert (y0 = y /\ x0 = x /\ q0 = q /\ d0 = d /\ nth y0 (g_dy (s_params s)) n_nan = cy /\ nth x0 (g_dx (s_params s)) n_nan = cx /\ nth q0 (g_rfa (s_params s)) n_nan = cr) as (-> & -> & -> & -> & <- & <- & <-) by (repeat split; congruence).
  do 3 (split; [now apply nth_nth_error|]).
  destruct (@far_of s m (num_of v1) (num_of v2) (num_of v3) (num_of v4) y x q H R) as (w0 & Hw0 & Aw). fold ds in Hw0. rewrite Q, Hw in Hw0. injection Hw0 as <-.
  exists w. split; [exact Aw|].
  assert (IN : forall y' x' q' w', in_range s y' x' q' -> away s m (num_of v1) (num_of v2) (num_of v3) (num_of v4) y' x' q' w' -> In w' ds).
  { intros y' x' q' w' R' Aw'. destruct (@far_of s m (num_of v1) (num_of v2) (num_of v3) (num_of v4) y' x' q' H R') as (w1 & Hw1 & Aw1). fold ds in Hw1. rewrite (away_fun Aw' Aw1). exact (nth_error_In _ _ Hw1). }
  assert (ND : forall w' : T, val w' = XNaN \/ val w' <> XNaN) by (intros w'; destruct (val w'); auto; right; discriminate).
  split.
  - intros Nw y' x' q' w' R' Aw'. destruct (ND w') as [|N']; auto. right. apply (K1 Nw w'); eauto.
  - intros Nw. split.
    + destruct (nan_min_spec _ Ed) as (_ & [(An & _)|(Di & Dn & Dm)]); [destruct (Nw (An w (nth_error_In _ _ Hw)))|].
      assert (X1 := Dm w (nth_error_In _ _ Hw) Nw). assert (X2 := K2 Nw d Di Dn). exact (xle_antisym X1 X2).
    + intros y' x' q' w' R' Aw'. destruct (ND w') as [|N']; auto. right. apply K2; eauto.
Qed.
End O.
