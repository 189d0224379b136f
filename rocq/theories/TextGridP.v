(** Proofs about which grids can be printed. *)
From Coq Require Import ZArith List Bool String Ascii Lia.
From Verif Require Import Num AddLaws Py SpecNum Validate ValidateP Ring FS GridParams GridDiag Names GridProp SpecGrid SpecProp GridPropP Fmt SpecText.
From Verif Require RingSystem.
From Verif Require Import Geometry Build Shallot ShallotOps SpecBuild GridParamsP BuildQP BuildGP BuildGridP BuildCP SpecOps OpsP OpsReadP Viewer ViewerDraw Text TextP.
Import ListNotations.
Set Implicit Arguments.

Section P.
Context {T : Type} {NT : Num T} {LT : NumLaws T} {AL : AddLaws T} (E : env T).
Variable fmt : nat -> T -> string.
Variables mean median : list T -> T.
Notation pyval := (pyval T).
Notation shallot := (shallot T).

(** *** what calls leave of limits *)
Definition kept (p q : gprop T) : Prop := p_vmin q = p_vmin p /\ p_vmax q = p_vmax p /\ (all_nans (p_data p) = true -> all_nans (p_data q) = true).
Lemma kept_refl p : kept p p. Proof. unfold kept. auto. Qed.
Lemma kept_trans p q r : kept p q -> kept q r -> kept p r.
Proof. intros (A & B & C) (D & F & G). unfold kept. rewrite D, F. auto. Qed.
Lemma kept_lim p q : kept p q -> lim_inv p -> lim_inv q.
Proof. intros (A & B & C). apply lim_same; auto. Qed.
Lemma kept_data (p : gprop T) v : kept p (fst (get_data p v)).
Proof. destruct (get_data_limits p v). split; auto. split; auto. apply get_data_nans. Qed.
Lemma kept_mask (p : gprop T) v : kept p (fst (set_mask p v)).
Proof. destruct (set_mask_limits p v) as (A & B & C). split; auto. split; auto. rewrite C. auto. Qed.
Lemma kept_erase (p : gprop T) m : kept p (with_data p (erase (p_data p) m)).
Proof. split; auto. split; auto. intros H. apply blank_nans, H. Qed.
Lemma read_kept p put m b : exists q, fst (read_property (T := T) p put m b) = put q /\ kept p q.
Proof.
  unfold read_property. assert (X := kept_data p b). destruct (get_data p b) as [q [d|e]]; cbn [fst] in X; [|exists q; auto].
  destruct (boolean_v m) as [[]|]; [|exists q; auto..]. destruct (combined_mask (put q)) as [l|]; [|exists q; auto]. destruct (shape_eqb _ _); [|exists q; auto].
  cbn zeta. cbn [fst]. eexists. split; [reflexivity|]. exact (kept_trans X (kept_erase q l)).
Qed.

Definition gradual (s : shallot) : Prop := forall gs, s_grads s = Some gs -> Forall (grad_inv (T := T)) gs.
Definition tstep (s s' : shallot) : Prop := (forall w, kept (the_cube w s) (the_cube w s')) /\ (gradual s -> gradual s').
Lemma tstep_refl s : tstep s s. Proof. split; auto. intros w. apply kept_refl. Qed.
Lemma tstep_trans a b c : tstep a b -> tstep b c -> tstep a c.
Proof. intros [A B] [C D]. split; auto. intros w. exact (kept_trans (A w) (C w)). Qed.
Lemma tstep_same (s s' : shallot) : (forall w, the_cube w s' = the_cube w s) -> s_grads s' = s_grads s -> tstep s s'.
Proof. intros A B. split; [intros w; rewrite A; apply kept_refl|]. unfold gradual. now rewrite B. Qed.
Lemma tstep_put w (s : shallot) q : kept (the_cube w s) q -> tstep s (put_cube w s q).
Proof.
  intros H. split; [|unfold gradual; now rewrite put_grads]. intros w'. destruct (which_eq w w') as [<-|N]; [now rewrite put_same|]. rewrite put_other by auto. apply kept_refl.
Qed.
Lemma tstep_grads (s : shallot) gs f : (gradual s -> forall l, gs = Some l -> Forall (grad_inv (T := T)) l) -> tstep s (with_grads s gs f).
Proof. intros H. split; [intros []; apply kept_refl|]. intros G l Hl. exact (H G l Hl). Qed.
Lemma tstep_each (s : shallot) B C (F : ggrad T -> B -> ggrad T * res C) gs l f :
  (forall g b, grad_inv g -> grad_inv (fst (F g b))) -> (gradual s -> Forall (grad_inv (T := T)) gs) -> tstep s (with_grads s (Some (fst (each2 F gs l))) f).
Proof. intros H H1. apply tstep_grads. intros G l' Hl. injection Hl as <-. apply each2_forall; auto. Qed.

Definition steps {A} (m : M (T := T) A) : Prop := forall s, tstep s (fst (m s)).
Lemma steps_ret A (a : A) : steps (ret a). Proof. intros s. apply tstep_refl. Qed.
Lemma steps_lift A (a : res A) : steps (lift a). Proof. intros s. apply tstep_refl. Qed.
Lemma steps_bind A B (m : M A) (f : A -> M B) : steps m -> (forall a, steps (f a)) -> steps (mbind m f).
Proof.
  intros Hm Hf s. unfold mbind. assert (X := Hm s). destruct (m s) as [s1 [a|e]]; cbn [fst] in *; [|auto]. exact (tstep_trans X (Hf a s1)).
Qed.
Lemma steps_cube w m b : steps (get_cube w m b).
Proof. intros s. rewrite get_cube_read. destruct (read_kept (the_cube w s) (put_cube w s) m b) as (q & -> & K). now apply tstep_put. Qed.
Lemma steps_dmap m b : steps (get_diagnostic_map m b).
Proof.
  intros s. unfold get_diagnostic_map. destruct (s_dmap s) as [p|]; [|apply tstep_refl]. destruct (read_kept p (set_dmap s) m b) as (q & -> & K).
  apply tstep_same; [intros []; reflexivity|reflexivity].
Qed.
Lemma steps_fit m b : steps (get_gradient_fit m b).
Proof.
  intros s. unfold get_gradient_fit. destruct (s_fit s) as [p|]; [|apply tstep_refl]. destruct (read_kept p (set_fit s) m b) as (q & H & K).
  assert (X : fst (let (s0, r) := read_property p (set_fit s) m b in match r with Ok d => (s0, Ok (Some d)) | Err e => (s0, Err e) end) = fst (read_property p (set_fit s) m b)).
  { destruct (read_property p (set_fit s) m b) as [s0 [d|e]]; reflexivity. }
  rewrite X, H. apply tstep_same; [intros []; reflexivity|reflexivity].
Qed.
Lemma steps_reset : steps (reset_fit (T := T)).
Proof. intros s. apply tstep_same; [intros []; reflexivity|reflexivity]. Qed.
Lemma blank_grad_inv (s : shallot) p : grad_inv (blank_gradient E s p).
Proof.
  unfold grad_inv, blank_gradient. cbn [gg_prop gg_pos gg_meas gg_err gg_orb gg_trans onumeric]. split; [apply limits_of_inv, fresh_limits|]. split; auto. right. constructor.
Qed.
Lemma dflt_grads (s : shallot) : gradual s -> Forall (grad_inv (T := T)) (dflt [] (s_grads s)).
Proof. intros H. destruct (s_grads s) eqn:Eg; [exact (H _ Eg)|constructor]. Qed.
Lemma steps_disk ps : steps (determine_disk_gradients E ps).
Proof.
  intros s. rewrite disk_gradients_ok. apply tstep_grads. intros G l Hl. injection Hl as <-. apply Forall_app. split; [now apply dflt_grads|].
  apply Forall_forall. intros g Hg. apply in_map_iff in Hg as (p & <- & _). apply blank_grad_inv.
Qed.
Lemma steps_measured l e t : steps (set_measured E l e t).
Proof.
  intros s. unfold set_measured. match goal with |- context [match ?x with Ok _ => _ | Err _ => _ end] => destruct x as [[o vs]|] end; [|apply tstep_refl].
  cbn zeta. match goal with |- context [each2 ?f ?l ?m] => set (F := f); set (L := l); set (V := m) end.
  assert (X : gradual s -> Forall (grad_inv (T := T)) (fst (each2 F L V))).
  { intros G. apply each2_forall; [intros; now apply determine_grad|]. unfold L. now apply Forall_skipn', dflt_grads. }
  destruct (each2 F L V) as [new r]; cbn [fst] in *. apply tstep_grads. intros G l' Hl. injection Hl as <-. apply Forall_app. split; auto. now apply Forall_firstn', dflt_grads.
Qed.
Lemma steps_add t l e tr : steps (add_gradients E t l e tr).
Proof.
  intros s. unfold add_gradients. destruct (s_limb s); [|apply tstep_refl]. destruct (s_ecl s); [|apply tstep_refl]. destruct (s_vel s); [|apply tstep_refl].
  match goal with |- context [match ?x with Ok _ => _ | Err _ => _ end] => destruct x as [[t' l']|] end; [|apply tstep_refl].
  refine (@steps_bind _ _ _ _ (steps_disk _) _ s). intros _. apply steps_bind; [apply steps_measured|]. intros _. apply steps_reset.
Qed.
Lemma steps_remove i : steps (remove_gradients (T := T) i).
Proof.
  intros s. unfold remove_gradients. destruct (s_grads s) as [gs|] eqn:Eg; [|apply tstep_refl]. destruct (array i _ _ _ _ _) as [v|]; [|apply tstep_refl].
  assert (X : gradual s -> Forall (grad_inv (T := T)) (fst (delete_all gs (sort_desc (ints_of v))))) by (intros G; apply delete_all_forall; exact (G _ Eg)).
  assert (Y : forall f, tstep s (with_grads s (Some (fst (delete_all gs (sort_desc (ints_of v))))) f)) by (intros f; apply tstep_grads; intros G l Hl; injection Hl as <-; auto).
  destruct (delete_all gs _) as [gs' [[]|e]]; cbn [fst] in *; [|apply Y]. eapply tstep_trans; [apply Y|apply steps_reset].
Qed.
Lemma tstep_ecl (s : shallot) a b c : tstep s (with_eclipse s a b c).
Proof. apply tstep_same; [intros []; reflexivity|reflexivity]. Qed.
Lemma steps_eclipse a b c : steps (set_eclipse_parameters (T := T) a b c).
Proof.
  intros s. unfold set_eclipse_parameters. destruct (number a _ _ _ _) as [a'|]; [|apply tstep_refl]. cbn zeta.
  destruct (number b _ _ _ _) as [b'|]; [|apply tstep_ecl].
  destruct (number c _ _ _ _) as [c'|]; [|eapply tstep_trans; apply tstep_ecl].
  match goal with |- tstep s (fst (match s_grads ?x with _ => _ end)) => set (s3 := x) end.
  assert (A : tstep s s3) by (eapply tstep_trans; [apply tstep_ecl|]; eapply tstep_trans; [apply tstep_ecl|]; apply tstep_ecl).
  destruct (s_grads s3) eqn:Eg; [|exact A]. cbn [reset_fit fst]. eapply tstep_trans; [exact A|]. change (tstep s3 (with_grads s3 None None)). apply tstep_grads. discriminate.
Qed.
Lemma steps_scale v u t : steps (update_gradient_scaling E v u t).
Proof.
  intros s. unfold update_gradient_scaling. cbn zeta.
  set (s1 := match v with Some v => with_eclipse s (s_ecl s) (Some v) (s_limb s) | None => s end).
  assert (H1 : tstep s s1) by (unfold s1; destruct v; [apply tstep_ecl|apply tstep_refl]). clearbody s1.
  set (s2 := match u with Some u => with_eclipse s1 (s_ecl s1) (s_vel s1) (Some u) | None => s1 end).
  assert (H2 : tstep s s2) by (eapply tstep_trans; [exact H1|]; unfold s2; destruct u; [apply tstep_ecl|apply tstep_refl]). clearbody s2. clear s1 H1.
  match goal with |- context [match ?x with Ok _ => _ | Err _ => _ end] => destruct x as [tr|] end; [|exact H2].
  match goal with |- context [if ?b then _ else _] => set (sc := b) end. clearbody sc.
  assert (G : forall (K : shallot * res unit), (K = (s2, Ok tt) \/ K =
     (match s_grads s2 with
      | Some gs =>
        let '(gs0, r) := each2 (fun (g : ggrad T) (t0 : option T) =>
             match (if sc then determine_orbital_scale E s2 else Ok (dflt PNone (gg_orb g))) with
             | Ok o => determine_mask g (dflt PNone (gg_meas g)) o match t0 with Some t1 => Some (PNpFloat t1) | None => gg_trans g end (gg_err g)
             | Err e => (g, Err e)
             end) gs match tr with Some l => map Some l | None => repeat None (List.length gs) end in
        match r with Ok _ => reset_fit (with_grads s2 (Some gs0) (s_fit s2)) | Err e => (with_grads s2 (Some gs0) (s_fit s2), Err e) end
      | None => (s2, Err TypeError)
      end)) -> tstep s (fst K)).
  { intros K [-> | ->]; [exact H2|]. destruct (s_grads s2) as [gs|] eqn:Eg; [|exact H2].
    match goal with |- context [each2 ?f ?l ?m] => set (F := f); set (L := m) end.
    assert (X : forall f, tstep s2 (with_grads s2 (Some (fst (each2 F gs L))) f)).
    { intros f. apply tstep_each; [|intros G; exact (G _ Eg)]. intros a b Ha. unfold F. match goal with |- context [match ?x with Ok _ => _ | Err _ => _ end] => destruct x end; [|exact Ha]. now apply determine_grad. }
    destruct (each2 F gs L) as [gs' [r|e]]; cbn [fst] in X.
    - eapply tstep_trans; [exact H2|]. eapply tstep_trans; [apply X|apply steps_reset].
    - eapply tstep_trans; [exact H2|apply X]. }
  apply G. destruct sc; [right; reflexivity|]. destruct tr; [right; reflexivity|left; reflexivity].
Qed.
Lemma grad_data (g : ggrad T) v : grad_inv g -> grad_inv (with_prop g (fst (get_data (gg_prop g) v))).
Proof. intros H. apply grad_prop; auto. apply (kept_lim (kept_data _ _)). apply H. Qed.
Lemma steps_gradients m b : steps (get_gradients (T := T) m b).
Proof.
  intros s. unfold get_gradients. destruct (s_grads s) as [gs|] eqn:Eg; [|apply tstep_refl].
  match goal with |- context [match ?x with Ok _ => _ | Err _ => _ end] => destruct x as [mk|] end; [|apply tstep_refl].
  cbn zeta. match goal with |- context [each2 ?f ?l ?m] => set (F := f); set (L := m) end.
  assert (X : tstep s (with_grads s (Some (fst (each2 F gs L))) (s_fit s))).
  { apply tstep_each; [|intros G; exact (G _ Eg)]. intros a ? Ha. unfold F. destruct (scaled_gradient a); [|exact Ha]. assert (Y := grad_data b Ha). destruct (get_data (gg_prop a) b) as [q [d|e]]; exact Y. }
  destruct (each2 F gs L) as [gs' r]; exact X.
Qed.
Lemma steps_point_gradients y x r m : steps (point_gradients (T := T) y x r m).
Proof.
  intros s. unfold point_gradients. destruct (s_grads s) as [gs|] eqn:Eg; [|apply tstep_refl].
  cbn zeta. match goal with |- context [each2 ?f ?l ?m] => set (F := f); set (L := m) end.
  assert (X : tstep s (with_grads s (Some (fst (each2 F gs L))) (s_fit s))).
  { apply tstep_each; [|intros G; exact (G _ Eg)]. intros a ? Ha. unfold F. assert (Y := grad_data m Ha). destruct (get_data (gg_prop a) m) as [q [d|e]]; exact Y. }
  destruct (each2 F gs L) as [gs' q]; exact X.
Qed.
Lemma steps_determine_fit w : steps (determine_gradient_fit (T := T) w).
Proof.
  intros s. unfold determine_gradient_fit. destruct (s_grads s) as [gs|] eqn:Eg; [|apply tstep_refl]. destruct (bind _ _) as [[data p]|]; [|apply tstep_refl].
  match goal with |- context [set_mask ?p ?v] => destruct (set_mask p v) as [q r] end. apply tstep_same; [intros []; reflexivity|]. cbn [fst with_grads s_grads]. auto.
Qed.
Lemma steps_hill h : steps (generate_hill_radius_mask (T := T) h).
Proof.
  intros s. unfold generate_hill_radius_mask. destruct (number h _ _ _ _) as [h'|]; [|apply tstep_refl].
  match goal with |- context [set_mask ?p ?v] => assert (X := kept_mask p v); destruct (set_mask p v) as [q r] end. cbn [fst] in *. exact (@tstep_put WRadius s q X).
Qed.
Lemma steps_point y x r m : steps (get_grid_point_data (T := T) y x r m).
Proof.
  intros s. unfold get_grid_point_data. destruct (g_shape (s_params s)) as [[my mx] mr].
  match goal with |- tstep s (fst (?f s)) => enough (K : steps f) by exact (K s) end.
  repeat first [apply steps_bind; [first [apply steps_lift|apply (steps_cube WRadius)|apply (steps_cube WInclination)|apply (steps_cube WTilt)|apply (steps_cube WFx)|apply (steps_cube WFy)|apply steps_dmap|apply steps_point_gradients]|intros] | apply steps_ret].
Qed.
Lemma steps_closest a b c d m : steps (determine_closest (T := T) a b c d m).
Proof.
  intros s. unfold determine_closest.
  match goal with |- tstep s (fst (?f s)) => enough (K : steps f) by exact (K s) end.
  repeat first [apply steps_bind; [first [apply steps_lift|apply (steps_cube WRadius)|apply (steps_cube WInclination)|apply (steps_cube WTilt)]|intros] | apply steps_ret | match goal with |- steps (let '(_, _) := ?x in _) => destruct x as [[? ?] ?] end].
Qed.
Lemma steps_loop k : steps (extract_loop (T := T) k).
Proof.
  induction k as [|k IH]; [apply steps_ret|]. intros s. cbn [extract_loop]. destruct (s_fit s) as [p|]; [|apply tstep_refl].
  destruct (nanargmin _) as [i|]; [|apply tstep_refl]. destruct (unravel _ _) as [[y x] r].
  match goal with |- tstep s (fst (?f s)) => enough (K : steps f) by exact (K s) end.
  apply steps_bind; [apply steps_point|]. intros d. apply steps_bind; [intros s'; apply tstep_same; [intros []; reflexivity|reflexivity]|]. intros _. apply steps_bind; [exact IH|]. intros l. apply steps_ret.
Qed.
Lemma steps_extract n : steps (extract_solutions (T := T) n).
Proof.
  intros s. unfold extract_solutions. match goal with |- context [match ?x with Ok _ => _ | Err _ => _ end] => destruct x as [k|] end; [|apply tstep_refl].
  refine (@steps_bind _ _ _ _ (steps_fit _ _) _ s). intros _. apply steps_loop.
Qed.
Theorem op_tstep (s : shallot) o : tstep s (do_op E s o).
Proof.
  destruct o; cbn [do_op].
  - apply steps_add.
  - apply steps_remove.
  - apply steps_eclipse.
  - apply steps_scale.
  - apply steps_determine_fit.
  - apply steps_hill.
  - rewrite mask_cube_put. apply tstep_put, kept_mask.
  - unfold mask_gradient. destruct (s_grads s) as [gs|] eqn:Eg; [|apply tstep_refl]. destruct (nth_error gs k) as [g|] eqn:Ek; [|apply tstep_refl].
    apply tstep_grads. intros G l Hl. injection Hl as <-. assert (F := G _ Eg). apply replace_nth_forall; auto. apply nth_error_In in Ek. rewrite Forall_forall in F.
    apply grad_prop; [apply (kept_lim (kept_mask _ _))|]; apply F; auto.
  - apply steps_cube.
  - apply steps_dmap.
  - apply steps_fit.
  - apply steps_gradients.
  - apply steps_extract.
  - apply steps_closest.
  - apply steps_point.
Qed.

(** *** built cubes *)
Definition measured_limits (p : gprop T) : Prop := (p_vmin p, p_vmax p) = limits_of p.
Lemma recoloured_limits (p : gprop T) c : measured_limits (recoloured p c).
Proof. unfold measured_limits, recoloured. cbn [with_colors with_limits p_vmin p_vmax]. rewrite <- surjective_pairing. reflexivity. Qed.
Lemma fill_limits (g : gparams T) p t q : fill_quadrants g p t = Ok q -> measured_limits q.
Proof.
  unfold fill_quadrants. destruct (p_shape p) as [|ny [|nx [|nr [|]]]]; try discriminate.
  match goal with |- context [if ?b then _ else _] => destruct b; [discriminate|] end.
  match goal with |- context [new_gprop ?a ?b ?c ?d] => destruct (new_gprop a b c d) as [r|] eqn:En end; cbn [bind]; [|discriminate].
  apply new_gprop_iff in En. destruct En as (n' & u' & g' & el & _ & _ & _ & _ & ->). destruct t.
  - rewrite contrast_named. intros H. injection H as <-. apply recoloured_limits.
  - intros H. injection H as <-. apply fresh_limits.
Qed.
Lemma extend_limits (s s' : shallot) g' : extend_shallot E s = (g', Ok s') -> (forall w, measured_limits (the_cube w s)) -> forall w, measured_limits (the_cube w s').
Proof.
  unfold extend_shallot. destruct (extend_grid (s_params s)) as [g1 [[]|e]].
  - destruct (fill_quadrants g1 (s_dr s) false) as [q1|] eqn:E1; cbn [bind]; [|discriminate].
    destruct (fill_quadrants g1 (s_inc s) false) as [q2|] eqn:E2; cbn [bind]; [|discriminate].
    destruct (fill_quadrants g1 (s_tilt s) true) as [q3|] eqn:E3; cbn [bind]; [|discriminate].
    destruct (fill_quadrants g1 (s_fx s) false) as [q4|] eqn:E4; cbn [bind]; [|discriminate].
    destruct (fill_quadrants g1 (s_fy s) false) as [q5|] eqn:E5; cbn [bind]; [|discriminate].
    intros H _ w. injection H as _ <-. destruct w; eapply fill_limits; eassumption.
  - destruct e; try discriminate. intros H L w. injection H as _ <-. apply L.
Qed.
Theorem new_limits g nf ll keep inter og l (s : shallot) : proper g -> new_shallot E (EIs g) nf ll keep inter = (og, (l, Ok s)) -> forall w, measured_limits (the_cube w s).
Proof.
  intros Hpr H. unfold new_shallot in H.
  destruct (number ll _ _ _ _); cbn [bind class_arg] in H; [|discriminate].
  destruct (number nf true (PInt 1) p_inf false) as [nf'|] eqn:En; cbn [bind] in H; [|discriminate].
  destruct (boolean_v keep) as [k|] eqn:Ek; cbn [bind] in H; [|discriminate]. destruct (boolean_v inter) as [it|] eqn:Ei; cbn [bind] in H; [|discriminate].
  set (d := if k then Some (new_diag g) else None) in *.
  destruct (build_grid E (fresh_shallot E g nf' d) it (PInt 0)) as [l1 [s1|]] eqn:Eb; [|discriminate].
  destruct (@built T NT LT E g nf' d it l1 s1 (pr_cons Hpr) Eb) as (_ & _ & Hw).
  assert (L1 : forall w, measured_limits (the_cube w s1)).
  { intros w. assert (X : the_cube w s1 = cube_of w s1) by (destruct w; reflexivity). rewrite X. destruct (Hw w) as (data & -> & _). apply recoloured_limits. }
  destruct (finish_shallot E s1) as [g' r] eqn:Ef. injection H as _ _ ->. unfold finish_shallot in Ef. destruct (extend_shallot E s1) as [g2 [s2|]] eqn:E2; [|discriminate].
  assert (L2 := extend_limits _ E2 L1). unfold diagnose_shallot in Ef. destruct (diagnose (s_params s2) (s_dr s2)) as [m|]; cbn [bind] in Ef; [|discriminate].
  injection Ef as _ <-. intros w. specialize (L2 w). destruct w; exact L2.
Qed.
Theorem reached_limits (s : shallot) : sreach E s -> (forall w, lim_inv (the_cube w s)) /\ gradual s.
Proof.
  induction 1 as [g nf ll keep inter og l s Hg H|s o Hw H [IH1 IH2]].
  - apply reachable_proper in Hg. split.
    + intros w. apply limits_of_inv. exact (new_limits _ _ _ _ Hg H w).
    + intros gs X. destruct (constructor_result E nf ll keep inter Hg H) as (_ & C & _). rewrite (cn_grads C) in X. discriminate.
  - destruct (op_tstep s o) as [A B]. split; auto. intros w. exact (kept_lim (A w) (IH1 w)).
Qed.

(** *** printing *)
Lemma ends_some (l : list T) : l <> [] -> exists p, ends l = Ok p.
Proof.
  intros H. unfold ends. destruct l as [|a l]; [contradiction|]. unfold last_opt. cbn [rev]. destruct (rev l ++ [a]) as [|b m] eqn:El; [destruct (rev l); discriminate|]. cbn [bind]. eauto.
Qed.
Lemma axis_nonempty a b n (l : list T) : determine_axis a b n = Ok l -> l <> [].
Proof.
  unfold determine_axis. destruct (number a _ _ _ _); cbn [bind]; [|discriminate]. destruct (number b _ _ _ _); cbn [bind]; [|discriminate].
  destruct (v_cmp _ _ _); [discriminate|]. destruct (number n _ _ _ _) as [m|] eqn:En; cbn [bind]; [|discriminate].
  assert (Hk := number_least _ En). apply number_same in En as ->. intros H X. injection H as <-. apply (f_equal (@List.length T)) in X. rewrite linspace_length in X. cbn [List.length] in X. lia.
Qed.
Lemma axes_nonempty (g : gparams T) : reachable g -> g_dx g <> [] /\ g_dy g <> [].
Proof.
  induction 1 as [a b c d e f g h p H|p q Hr IH H].
  - unfold new_params in H. destruct (determine_axis a b c) as [dx|] eqn:E1; cbn [bind] in H; [|discriminate]. destruct (determine_axis d e f) as [dy|] eqn:E2; cbn [bind] in H; [|discriminate].
    destruct (determine_rf g h) as [r|]; cbn [bind] in H; [|discriminate]. unfold finish in H. destruct (extendable_of dx dy); cbn [bind] in H; [|discriminate]. injection H as <-. cbn [g_dx g_dy].
    split; eapply axis_nonempty; eassumption.
  - destruct (extended_sizes (pr_cons (reachable_proper Hr)) H) as (_ & _ & Hy & Hx & Ly & Lx & _).
    split; intros X; rewrite X in *; cbn [List.length] in *; lia.
Qed.
Lemma reached_params (s : shallot) : sreach E s -> reachable (s_params s).
Proof.
  induction 1 as [g nf ll keep inter og l s Hg H|s o Hw H IH].
  - destruct (constructor_result E nf ll keep inter (reachable_proper Hg) H) as (_ & C & _). destruct (cn_data C) as [(_ & -> & _)|(_ & X & _)]; auto. exact (rc_ext Hg X).
  - destruct (do_op_keeps E o Hw (reached_sinv H)) as [_ A]. now rewrite (ag_params A).
Qed.
Lemma params_print (g : gparams T) : reachable g -> exists t, params_repr fmt g = Ok t.
Proof.
  intros Hr. unfold params_repr. destruct (axes_nonempty Hr) as [A B]. assert (H := reachable_proper Hr).
  assert (C : g_rfa g <> []) by (intros X; assert (Y := pr_rfa H); assert (Z := pr_rf H); rewrite X in Y; cbn in Y; lia).
  destruct (ends_some A) as [x ->]. destruct (ends_some B) as [y ->]. destruct (ends_some C) as [r ->]. cbn [bind]. eauto.
Qed.
Notation prepr := (gprop_repr fmt mean median).
Lemma prepr_iff (p : gprop T) : lim_inv p -> limited p /\ (exists t, prepr p = Ok t) \/ ~ limited p /\ prepr p = Err TypeError.
Proof. intros H. unfold gprop_repr. destruct (lines_iff fmt mean median H) as [[A [l ->]]|[A ->]]; cbn [bind]; eauto. Qed.
Lemma map_res_iff gs : Forall (grad_inv (T := T)) gs ->
  (forall g, In g gs -> presentable g) /\ (exists l, map_res (ggrad_repr fmt mean median) gs = Ok l) \/
  (exists g, In g gs /\ ~ presentable g) /\ map_res (ggrad_repr fmt mean median) gs = Err TypeError.
Proof.
  induction 1 as [|g gs Hg H IH]; cbn [map_res]; [left; split; [intros g []|eauto]|].
  destruct (grad_repr_iff fmt mean median Hg) as [[A [t ->]]|[A ->]]; cbn [bind]; [|right; split; [exists g; split; [now left|auto]|reflexivity]].
  destruct IH as [[B [l ->]]|[(g' & Hg' & B) ->]]; cbn [bind]; [left; split; [intros x [<-|Hx]; auto|eauto]|right; split; [exists g'; split; [now right|auto]|reflexivity]].
Qed.
Theorem grid_prints (s : shallot) : sreach E s ->
  (printable_grid s -> exists t, shallot_repr fmt mean median s = Ok t) /\ (~ printable_grid s -> shallot_repr fmt mean median s = Err TypeError).
Proof.
  intros H. assert (HI := reached_sinv H). destruct (reached_limits H) as [L G]. unfold shallot_repr. destruct (i_dmap HI) as (m & -> & _). cbn [bind].
  rewrite (combined_ok HI). cbn [bind]. destruct (params_print (reached_params H)) as [t ->]. cbn [bind]. unfold printable_grid.
  destruct (prepr_iff (L WRadius)) as [[A [ta Ha]]|[A Ha]]; cbn [the_cube] in *; rewrite Ha; cbn [bind]; [|split; [tauto|auto]].
  destruct (prepr_iff (L WTilt)) as [[B [tb Hb]]|[B Hb]]; cbn [the_cube] in *; rewrite Hb; cbn [bind]; [|split; [tauto|auto]].
  destruct (prepr_iff (L WInclination)) as [[C [tc Hc]]|[C Hc]]; cbn [the_cube] in *; rewrite Hc; cbn [bind]; [|split; [tauto|auto]].
  destruct (map_res_iff (dflt_grads G)) as [[D [l Hl]]|[(g & Hg & D) Hl]]; rewrite Hl; cbn [bind]; split; intros X; eauto.
  - destruct X. split; auto. split; auto. split; auto. intros gs g Hgs. specialize (D g). rewrite Hgs in D. exact D.
  - destruct X as (_ & _ & _ & X). destruct D. destruct (s_grads s) as [gs|] eqn:Eg; [exact (X gs g eq_refl Hg)|destruct Hg].
Qed.
(** the limits of the cubes are those of the construction for ever *)
Theorem limits_stay (s : shallot) l w : kept (the_cube w s) (the_cube w (do_ops E s l)).
Proof. revert s. induction l as [|o l IH]; intros s; [apply kept_refl|]. cbn [do_ops fold_left]. eapply kept_trans; [apply (op_tstep s o)|apply IH]. Qed.
Lemma measured_limited (p : gprop T) : measured_limits p -> (limited p <-> exists x, In x (p_data p) /\ val x <> XNaN).
Proof.
  intros L. unfold measured_limits, limits_of in L. assert (S1 := nanmin_spec (p_data p)). assert (S2 := nanmax_spec (p_data p)).
  unfold limited. destruct (nanmin (p_data p)) as [a|], (nanmax (p_data p)) as [b|]; apply pair_equal_spec in L as [L1 L2]; rewrite L1, L2.
  - destruct S1 as (A & B & _). split; [eauto|]. intros _. split; discriminate.
  - destruct S1 as (A & B & _). destruct B; auto.
  - destruct S2 as (A & B & _). destruct B; auto.
  - split; [tauto|]. intros (x & Hx & Hn). destruct Hn; auto.
Qed.
Theorem built_prints g nf ll keep inter og l (s : shallot) : reachable g -> new_shallot E (EIs g) nf ll keep inter = (og, (l, Ok s)) ->
  ((exists t, shallot_repr fmt mean median s = Ok t) <->
   forall p, In p [s_dr s; s_tilt s; s_inc s] -> exists x, In x (p_data p) /\ val x <> XNaN).
Proof.
  intros Hg H. assert (R : sreach E s) by (eapply sr_new; eauto). destruct (grid_prints R) as [A B]. apply reachable_proper in Hg.
  assert (L := new_limits _ _ _ _ Hg H). destruct (constructor_result E nf ll keep inter Hg H) as (_ & C & _). assert (N := cn_grads C).
  assert (M1 := measured_limited (L WRadius)). assert (M2 := measured_limited (L WTilt)). assert (M3 := measured_limited (L WInclination)). cbn [the_cube] in *.
  split.
  - intros [t Ht] p Hp. assert (P : limited (s_dr s) /\ limited (s_tilt s) /\ limited (s_inc s)).
    { destruct (L WRadius), (L WTilt), (L WInclination).
      assert (D : forall p : gprop T, limited p \/ ~ limited p) by (intros q; unfold limited; destruct (p_vmin q), (p_vmax q); (left; split; discriminate) || (right; tauto)).
      destruct (D (s_dr s)) as [D1|D1]; [destruct (D (s_tilt s)) as [D2|D2]; [destruct (D (s_inc s)) as [D3|D3]; [auto|]|]|]; rewrite B in Ht by (unfold printable_grid; tauto); discriminate. }
    destruct P as (P1 & P2 & P3). destruct Hp as [<-|[<-|[<-|[]]]]; tauto.
  - intros X. apply A. unfold printable_grid. rewrite N. split; [apply M1, X; cbn; auto|]. split; [apply M2, X; cbn; auto|]. split; [apply M3, X; cbn; auto|]. discriminate.
Qed.
Lemma reach_ops l : Forall (@op_wf T) l -> forall s : shallot, sreach E s -> sreach E (do_ops E s l).
Proof. induction 1 as [|o l Ho Hl IH]; intros s H; [exact H|]. cbn [do_ops fold_left]. apply IH. now apply sr_op. Qed.
(** an unprintable cube stays unprintable *)
Theorem grid_fails_forever (s : shallot) l p : sreach E s -> Forall (@op_wf T) l -> In p [s_dr s; s_tilt s; s_inc s] -> ~ limited p ->
  shallot_repr fmt mean median (do_ops E s l) = Err TypeError.
Proof.
  intros H Hw Hp N. assert (R := reach_ops Hw H).
  apply (grid_prints R). intros (A & B & C & _). assert (K := fun w => limits_stay s l w).
  destruct Hp as [<-|[<-|[<-|[]]]]; apply N; [specialize (K WRadius)|specialize (K WTilt)|specialize (K WInclination)]; cbn [the_cube] in K; destruct K as (K1 & K2 & _); unfold limited in *; rewrite <- K1, <- K2; auto.
Qed.
End P.
