(** A concrete binary64 grid with gradients and a fit, for the examples and refutations about the methods
    of a grid. *)
From Coq Require Import ZArith Reals List Bool String Lia Lra.
From Verif Require Import Ring RingSystem RingSystemP.
From Verif Require Import Num NumP Py SpecNum Validate ValidateP FS GridParams SpecGrid GridProp SpecProp Geometry Build SpecBuild Shallot AddLaws ShallotOps SpecOps InterpP BuildExP
  OpsP OpsReadP OpsEditP OpsGradP OpsFitP OpsPointP OpsExtractP OpsWrapP RingP RingMoreP StretchP BuildP.
Import ListNotations.
Local Open Scope list_scope.

(** crude elementary functions; the build goes through with them *)
Definition crude2 : Libm f64 :=
  {| m_pi := n_ofZ 3; m_sin := fun x => x; m_cos := fun _ => n_one; m_asin := fun x => x; m_acos := fun x => x;
     m_atan := fun x => x; m_atan2 := fun y x => y; m_hypot := fun x y => n_add (n_abs x) (n_abs y) |}.
Definition env2 : env f64 := mkEnv crude2 np_search (fun _ => "0.0000"%string) 100.
Definition built2 : res (shallot f64) :=
  let* g := grid_f64 in snd (snd (new_shallot env2 (EIs g) (PInt 4) (PInt 50) (PBool false) (PBool false))).
(** tenths *)
Definition F (l : list Z) : pyval f64 := farr (map (fun z => n_div (n_ofZ z) (n_ofZ 10) : f64) l).
Definition ops2 : list (@op f64) :=
  [OEclipse (PInt 2) (PInt 3) (PFloat (n_div (n_ofZ 1) (n_ofZ 2))); OAdd (F [10; -20; 5]%Z) (F [1; 2; 3]%Z) None None; OFit false].
(** [built2] after the calls [l] *)
Definition after (l : list (@op f64)) : res (shallot f64) := let* s := built2 in Ok (do_ops env2 s l).
Definition grid2 : res (shallot f64) := after ops2.

Lemma after_reach l : Forall (@op_wf f64) l -> forall s, after l = Ok s -> sreach env2 s.
Proof.
  intros Hl s. unfold after, built2. destruct grid_f64 as [g|] eqn:Eg; cbn [bind]; [|discriminate].
  destruct (new_shallot env2 _ _ _ _ _) as [og [lg [s0|]]] eqn:En; cbn [snd bind]; [|discriminate]. intros H. assert (s = do_ops env2 s0 l) as -> by congruence. clear H.
  assert (H0 : sreach env2 s0) by (eapply sr_new; [|exact En]; eapply rc_new; exact Eg). clear En Eg. revert s0 H0. induction Hl as [|o l Ho Hl IH]; intros s0 H0; [exact H0|].
  cbn [do_ops fold_left]. apply IH. now apply sr_op.
Qed.
Lemma ops2_wf : Forall (@op_wf f64) ops2. Proof. repeat constructor. Qed.
(** the truth of a boolean test on the grid after some calls *)
Definition holds (l : list (@op f64)) (t : shallot f64 -> bool) : Prop := match after l with Ok s => t s = true | Err _ => False end.
Lemma holds_in l t : Forall (@op_wf f64) l -> holds l t -> exists s, sreach env2 s /\ t s = true.
Proof. intros Hl. unfold holds. destruct (after l) as [s|] eqn:Ea; [|contradiction]. intros H. exists s. split; [exact (after_reach l Hl s Ea)|exact H]. Qed.

(** a number of a result *)
Definition num_at (l : list f64) (i : nat) : f64 := nth i l n_nan.
Definition exn_eq_dec (a b : exn) : {a = b} + {a <> b}. Proof. decide equality. Defined.
Definition is_err {A} (e : exn) (r : res A) : bool := match r with Err e' => if exn_eq_dec e e' then true else false | Ok _ => false end.
Lemma is_err_eq A e (r : res A) : is_err e r = true -> r = Err e.
Proof. unfold is_err. destruct r; [discriminate|]. destruct (exn_eq_dec e e0); [congruence|discriminate]. Qed.

Definition test_size (s : shallot f64) : bool :=
  Nat.eqb (points s) 75 && match s_grads s, s_fit s with Some gs, Some _ => Nat.eqb (List.length gs) 3 | _, _ => false end.
Lemma grid2_size : holds ops2 test_size. Proof. vm_compute. exact eq_refl. Qed.

Lemma xle_fin a b : (a <= b)%R -> xle (XFin a) (XFin b).
Proof. intros [H| ->]; [left; exact H|right; split; [reflexivity|discriminate]]. Qed.
(** *** C44 *)
Definition hills : list (@op f64) := [OHill (PInt 0); OGet WRadius (PBool true) (PBool true); OHill (PInt 1000)].
Lemma hill_refuted : ~ (forall (E : env f64) s b h k i x, sreach E s -> small h -> small k -> numberlike h -> numberlike k ->
  xle (XFin 0) (value h) -> xle (value h) (value k) -> nth_error (p_data (s_dr s)) i = Some x -> xle (val x) (value k) ->
  marked (p_mask (s_dr (do_ops E s [OHill h; OGet WRadius (PBool true) (PBool b); OHill k]))) i = false).
Proof.
  intros H. destruct (holds_in [] (fun s => match nth_error (p_data (s_dr s)) 38 with Some x => n_le x (n_ofZ 1000) && marked (p_mask (s_dr (do_ops env2 s hills))) 38 | None => false end)) as (s & Hs & Ht);
    [constructor|vm_compute; exact eq_refl|].
  destruct (nth_error (p_data (s_dr s)) 38) as [x|] eqn:Ex; [|discriminate]. apply andb_prop in Ht as [Hx Hm]. apply nle_iff in Hx. rewrite l_ofZ in Hx by lia.
  assert (X := H env2 s true (PInt 0) (PInt 1000) 38 x Hs). fold hills in X. rewrite Hm in X.
  enough (true = false) by discriminate. apply X; auto; try (cbn [small]; lia); try solve [left; constructor]; cbn [value]; apply xle_fin; lra.
Qed.

(** *** C46 *)
Lemma remove_refuted : ~ (forall (E : env f64) s gs is, sreach E s -> s_grads s = Some gs -> (forall z, In z is -> (0 <= z < Z.of_nat (List.length gs))%Z) ->
  remove_gradients (indices is) s = (with_grads s (Some (pick gs (without (List.length gs) is))) None, Ok tt)).
Proof.
  intros H. destruct (holds_in ops2 (fun s => match s_grads s, s_grads (fst (remove_gradients (indices [0; 0]%Z) s)) with Some gs, Some gs' => Nat.eqb (List.length gs) 3 && Nat.eqb (List.length gs') 1 | _, _ => false end)) as (s & Hs & Ht);
    [apply ops2_wf|vm_compute; exact eq_refl|].
  destruct (s_grads s) as [gs|] eqn:Eg; [|discriminate]. specialize (H env2 s gs [0; 0]%Z Hs Eg).
  destruct gs as [|a [|b [|c [|? ?]]]]; cbn [List.length Nat.eqb andb] in Ht; try (destruct (s_grads (fst _)); discriminate).
  rewrite H in Ht by (cbn; intros z [<-|[<-|[]]]; lia). discriminate Ht.
Qed.

(** *** C50 *)
Definition fit_ok_b (s : shallot f64) : bool :=
  match s_fit s with
  | Some p => forallb (fun i => masked_b s i || (negb (marked (p_mask p) i) && match nth_error (p_data p) i with Some v => BinarySingleNaN.is_finite v | None => false end)) (seq 0 (points s))
  | None => false
  end.
Lemma fit_ok_b_ok s p : s_fit s = Some p -> fit_ok_b s = true -> fit_finite s p.
Proof.
  intros Hp. unfold fit_ok_b. rewrite Hp, forallb_forall. intros H i Hi Hm. specialize (H i). rewrite in_seq in H. specialize (H ltac:(lia)).
  assert (masked_b s i = false) as Em by (apply masked_b_false; auto). rewrite Em in H. cbn [orb] in H. apply andb_prop in H as [A B]. apply negb_true_iff in A. split; [exact A|].
  destruct (nth_error (p_data p) i) as [v|]; [|discriminate]. exists v. destruct v; try discriminate; eexists; split; reflexivity.
Qed.
Lemma extract_refuted : ~ (forall (E : env f64) s p is k, sreach E s -> s_fit s = Some p -> fit_finite s p -> unmasked s is -> (0 <= k <= Z.of_nat (List.length is))%Z ->
  snd (extract_solutions (Some (PInt k)) (fst (extract_solutions (Some (PInt k)) s))) = snd (extract_solutions (Some (PInt k)) s)).
Proof.
  intros H. destruct (holds_in ops2 (fun s => fit_ok_b s && Nat.leb 2 (open_points s) &&
    match snd (extract_solutions (Some (PInt 2)) s), snd (extract_solutions (Some (PInt 2)) (fst (extract_solutions (Some (PInt 2)) s))) with Ok (z :: _), Ok (z' :: _) => n_lt (fst z) (fst z') | _, _ => false end)) as (s & Hs & Ht);
    [apply ops2_wf|vm_compute; exact eq_refl|].
  apply andb_prop in Ht as [Ht Hl]. apply andb_prop in Ht as [Ha Hb]. apply Nat.leb_le in Hb. destruct (s_fit s) as [p|] eqn:Ep; [|unfold fit_ok_b in Ha; rewrite Ep in Ha; discriminate].
  destruct (unmasked_exists s) as [is Hu]. specialize (H env2 s p is 2%Z Hs Ep (fit_ok_b_ok s p Ep Ha) Hu). rewrite (unmasked_count Hu) in H. rewrite H in Hl by lia.
  destruct (snd (extract_solutions (Some (PInt 2)) s)) as [[|z l]|]; try discriminate. apply nlt_iff in Hl. revert Hl. apply xlt_irrefl.
Qed.

(** *** C51 *)
Lemma closest_refuted : ~ (forall (E : env f64) s s' v1 v2 v3 v4 m c y x q d, sreach E s -> determine_closest v1 v2 v3 v4 (PBool m) s = (s', Ok (c, (y, x, q), d)) ->
  forall y' x' q' w, y' < List.length (g_dy (s_params s)) -> x' < List.length (g_dx (s_params s)) -> q' < List.length (g_rfa (s_params s)) ->
    documented s m (num_of v1) (num_of v2) (num_of v3) (num_of v4) y' x' q' w -> val w = XNaN \/ xle (val d) (val w)).
Proof.
  intros H. set (tenth := n_div (n_ofZ 1) (n_ofZ 10) : f64).
  pose (at38 := fun (p : gprop f64) => num_at (p_data p) 38).
  destruct (holds_in [] (fun s => negb (marked (p_mask (s_dr s)) 38) && negb (marked (p_mask (s_inc s)) 38) && negb (marked (p_mask (s_tilt s)) 38) && Nat.eqb (place s 1 2 3) 38
    && Nat.ltb 1 (List.length (g_dy (s_params s))) && Nat.ltb 2 (List.length (g_dx (s_params s))) && Nat.ltb 3 (List.length (g_rfa (s_params s)))
    && Nat.ltb 38 (List.length (p_data (s_dr s))) && Nat.ltb 38 (List.length (p_data (s_inc s))) && Nat.ltb 38 (List.length (p_data (s_tilt s)))
    && match snd (determine_closest (PFloat (at38 (s_dr s))) (PFloat (at38 (s_inc s))) (PFloat (at38 (s_tilt s))) (PFloat tenth) (PBool false) s) with
       | Ok (_, _, d) => n_lt (distance (n_sub (at38 (s_dr s)) (at38 (s_dr s))) (n_sub (at38 (s_inc s)) (at38 (s_inc s))) (n_sub (at38 (s_tilt s)) (at38 (s_tilt s))) (n_sub (num_at (g_dy (s_params s)) 1) tenth)) d
       | Err _ => false end)) as (s & Hs & Ht); [constructor|vm_compute; exact eq_refl|].
  repeat (apply andb_prop in Ht as [Ht ?]). apply negb_true_iff in Ht. repeat match goal with h : negb _ = true |- _ => apply negb_true_iff in h | h : Nat.ltb _ _ = true |- _ => apply Nat.ltb_lt in h | h : Nat.eqb _ _ = true |- _ => apply Nat.eqb_eq in h end.
  destruct (determine_closest _ _ _ _ _ s) as [s' [[[c [[y x] q]] d]|]] eqn:Ec; cbn [snd] in *; [|discriminate].
  assert (A : forall p, 38 < List.length (p_data p) -> marked (p_mask p) 38 = false -> seen s false p (place s 1 2 3) (at38 p)).
  { intros p Hp Hm. right. replace (place s 1 2 3) with 38. split; auto. split; [intros [? _]; discriminate|]. now apply nth_nth_error. }
  match goal with h : n_lt ?w d = true |- _ => assert (D : documented s false (at38 (s_dr s)) (at38 (s_inc s)) (at38 (s_tilt s)) tenth 1 2 3 w); [|apply nlt_iff in h; destruct (H _ _ _ _ _ _ _ _ _ _ _ _ _ Hs Ec 1 2 3 w) as [N|N]; auto] end.
  - do 4 eexists. split; [apply A; auto|]. split; [apply A; auto|]. split; [apply A; auto|]. split; [apply nth_nth_error; auto|]. cbn zeta. reflexivity.
  - match goal with h : xlt _ _ |- _ => rewrite N in h; exact h end.
  - eapply xlt_irrefl, xlt_le_trans; [exact H0|exact N].
Qed.

(** *** C52 *)
Lemma built_reach : exists s, sreach env2 s.
Proof. destruct (holds_in [] (fun _ => true)) as (s & Hs & _); [constructor|vm_compute; exact eq_refl|]. eauto. Qed.
Lemma point_refuted : ~ (forall (E : env f64) s vy vx vr m s' e, sreach E s -> get_grid_point_data vy vx vr (PBool m) s = (s', Err e) -> e = TypeError \/ e = ValueError).
Proof.
  intros H. destruct built_reach as [s Hs]. assert (I : forall z, int_like (PInt z : pyval f64)) by (intros; constructor).
  destruct (point_data_edge (vy := PInt (Z.of_nat (List.length (g_dy (s_params s))))) (vx := PInt 0) (vr := PInt 0) false Hs (I _) (I _) (I _)) as [s' E]; try (cbn; lia); try (left; reflexivity).
  destruct (H _ _ _ _ _ _ _ _ Hs E); discriminate.
Qed.

(** *** C53 *)
Lemma read_refuted : ~ (forall (E : env f64) s w, sreach E s -> snd (get_cube w (PBool false) (PBool false) (fst (get_cube w (PBool true) (PBool true) s))) = snd (get_cube w (PBool false) (PBool false) s)).
Proof.
  intros H. destruct (holds_in [OHill (PInt 0)] (fun s => match snd (get_cube WRadius (PBool false) (PBool false) s), snd (get_cube WRadius (PBool false) (PBool false) (fst (get_cube WRadius (PBool true) (PBool true) s))) with
    | Ok (_, l), Ok (_, l') => negb (n_isnan (num_at l 38)) && n_isnan (num_at l' 38) | _, _ => false end)) as (s & Hs & Ht); [repeat constructor|vm_compute; exact eq_refl|].
  rewrite (H env2 s WRadius Hs) in Ht. destruct (snd (get_cube WRadius (PBool false) (PBool false) s)) as [[sh l]|]; [|discriminate]. destruct (n_isnan (num_at l 38)); discriminate.
Qed.

(** *** C54 *)
Lemma eclipse_refuted : ~ (forall (E : env f64) s a b c s' e, sreach E s -> set_eclipse_parameters a b c s = (s', Err e) -> s' = s).
Proof.
  intros H. destruct (holds_in ops2 (fun s => match s_ecl s with Some (PInt z) => Z.eqb z 2 | _ => false end)) as (s & Hs & Ht); [apply ops2_wf|vm_compute; exact eq_refl|].
  destruct (@eclipse_outcome _ _ _ _ env2 s (PInt 5) PNone PNone Hs) as (_ & K & _); try (cbn [small]; lia); try exact I.
  destruct K as [e K]. { split; [left; constructor|cbn; lra]. } { intros [[X|X] _]; inversion X. }
  apply (H _ _ _ _ _ _ _ Hs) in K. rewrite <- K in Ht. cbn in Ht. discriminate.
Qed.
Lemma scale_refuted : ~ (forall (E : env f64) s v u t s' e, sreach E s -> update_gradient_scaling E v u t s = (s', Err e) -> s' = s).
Proof.
  intros H. destruct (holds_in ops2 (fun s => match s_vel s with Some (PInt z) => Z.eqb z 3 | _ => false end && negb (is_ok (snd (update_gradient_scaling env2 (Some PNone) None None s))))) as (s & Hs & Ht); [apply ops2_wf|vm_compute; exact eq_refl|].
  apply andb_prop in Ht as [A B]. destruct (update_gradient_scaling env2 (Some PNone) None None s) as [s' [x|e]] eqn:Eu; cbn [snd] in B; [discriminate|].
  destruct (scale_stores _ _ _ _ _ Eu) as [K _]. rewrite (H _ _ _ _ _ _ _ Hs Eu) in K. rewrite K in A. discriminate.
Qed.

(** *** C79: the second gradient is too steep *)
Definition steep : @op f64 := OAdd (F [10; 20; 30]%Z) (F [1; 100000000; 1]%Z) None None.
Lemma add_refuted : ~ (forall (E : env f64) s t l e tr s' x, sreach E s -> arr_wf t -> arr_wf l -> o_wf e -> o_wf tr -> add_gradients E t l e tr s = (s', Err x) -> s' = s).
Proof.
  intros H. destruct (holds_in ops2 (fun s => match add_gradients env2 (F [10; 20; 30]%Z) (F [1; 100000000; 1]%Z) None None s, s_grads s with (s', Err _), Some gs => match s_grads s' with Some gs' => Nat.eqb (List.length gs) 3 && Nat.eqb (List.length gs') 6 | None => false end | _, _ => false end)) as (s & Hs & Ht);
    [apply ops2_wf|vm_compute; exact eq_refl|].
  destruct (add_gradients env2 _ _ None None s) as [s' [u|x]] eqn:Ea; [discriminate|]. rewrite (H env2 s _ _ None None s' x Hs (farr_wf _) (farr_wf _) I I Ea) in Ht. destruct (s_grads s) as [gs|]; [|discriminate].
  apply andb_prop in Ht as [A B]. apply Nat.eqb_eq in A, B. congruence.
Qed.
