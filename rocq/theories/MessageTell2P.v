(** The texts of the exceptions of grids and viewers follow their checks (continued). *)
From Coq Require Import ZArith Reals List Bool String Lia.
From Verif Require Import Num NumP Py SpecNum Validate ValidateP Ring RingP RingSystem RingSystemP FS GridParams SpecGrid GridParamsP GridDiag Names GridProp SpecProp GridPropP
  Geometry Build SpecBuild StretchP Shallot AddLaws ShallotOps SpecOps OpsP OpsReadP OpsPointP OpsEditP OpsFitP OpsExtractP Viewer Fmt Text Message SpecMsg SpecMsgGrid MessageP MessageSpecP MessageRingP MessageGridP MessageExP
  MessageOps SpecMsgOps MessageOpsP MessageTellP.
Import ListNotations.
Set Implicit Arguments.
Local Open Scope string_scope.
Local Open Scope list_scope.

Section O.
Context {T : Type} {NT : Num T} {LT : NumLaws T} {AL : AddLaws T} (E : env T).
Variable fmt : nat -> T -> string.
Notation pyval := (pyval T).
Notation shallot := (shallot T).
Ltac tame := solve [exact I | cbn; lia | (right; constructor) | (left; constructor) | assumption | cbn; exact I].

Lemma flat_repeat A B C (c : A -> list C) (b : B) : forall l, flat_map (fun p => c (fst p)) (combine l (repeat b (List.length l))) = flat_map c l.
Proof. induction l as [|a l IH]; [reflexivity|]. cbn. rewrite IH. reflexivity. Qed.
Lemma combine_map_r A B C (f : A -> B) : forall (m : list C) (l : list A), combine m (map f l) = map (fun p => (fst p, f (snd p))) (combine m l).
Proof. induction m as [|a m IH]; intros [|b l]; cbn; [reflexivity|reflexivity|reflexivity|]. rewrite IH. reflexivity. Qed.
Lemma tame_meas (g : ggrad T) : tame_gradient g -> small (dflt PNone (gg_meas g)) /\ small (dflt PNone (gg_orb g)).
Proof. intros (A & B & _). split; [destruct (gg_meas g)|destruct (gg_orb g)]; try assumption; exact I. Qed.
Theorem scaling_heeds (s : shallot) v u tr : (forall gs g, s_grads s = Some gs -> In g gs -> tame_gradient g) -> (forall t, tr = Some t -> tame_array t) ->
  heeds (scaling_checks E fmt str_int str_tuple s v u tr) (snd (update_gradient_scaling_m E fmt v u tr s)).
Proof.
  intros Hg Ht. unfold update_gradient_scaling_m, scaling_checks. cbv zeta.
  (* the scaled gradients with or without a new scale *)
  assert (New : forall (s1 : shallot) gs, s_grads s = Some gs -> forall m : list (option T),
    (m = repeat None (List.length gs) \/ exists l, m = map Some l) ->
    let update (g : ggrad T) (t : option T) :=
          match determine_orbital_scale E s1 with
          | Err e => (g, MErr e None)
          | Ok o => determine_mask_m fmt g (dflt PNone (gg_meas g)) o (match t with Some t => Some (PNpFloat t) | None => gg_trans g end) (gg_err g)
          end in
    heeds (each_measure fmt (determine_orbital_scale E s1) (map (fun p => (or_else PNone (gg_meas (fst p)), match snd p with Some t => Some (PNpFloat t) | None => gg_trans (fst p) end, gg_err (fst p))) (combine gs m)))
      (snd (each2_m update gs m))).
  { intros s1 gs Hs m Hm update. unfold update. destruct (determine_orbital_scale E s1) as [o|e] eqn:Eo; cbn [each_measure].
    - apply heeds_follows. rewrite flat_map_map. cbn [fst snd].
      apply (@each2_follows _ _ _ _ (fun g t => measure_checks fmt (or_else PNone (gg_meas g)) o (match t with Some t => Some (PNpFloat t) | None => gg_trans g end) (gg_err g))).
      intros g t Ig It. assert (Tg := Hg _ _ Hs Ig). destruct (tame_meas Tg) as [A _]. destruct Tg as (_ & _ & C & D & F).
      apply measure_follows_np; [exact A|exact (orbital_small _ _ Eo)|destruct t; [exact I|exact C]|exact D|destruct t; [right; eexists; reflexivity|left; exact F]].
    - apply each2_quiet. intros; apply heeds_none. }
  assert (Own : forall gs, s_grads s = Some gs -> forall l : list T,
    heeds (flat_map (fun p => measure_checks fmt (or_else PNone (gg_meas (fst p))) (or_else PNone (gg_orb (fst p))) (Some (PNpFloat (snd p))) (gg_err (fst p))) (combine gs l))
      (snd (each2_m (fun (g : ggrad T) (t : option T) => determine_mask_m fmt g (dflt PNone (gg_meas g)) (dflt PNone (gg_orb g)) (match t with Some t => Some (PNpFloat t) | None => gg_trans g end) (gg_err g)) gs (map Some l)))).
  { intros gs Hs l. apply heeds_follows.
    assert (F := @each2_follows _ _ _ (fun (g : ggrad T) (t : option T) => determine_mask_m fmt g (dflt PNone (gg_meas g)) (dflt PNone (gg_orb g)) (match t with Some t => Some (PNpFloat t) | None => gg_trans g end) (gg_err g))
      (fun g t => measure_checks fmt (or_else PNone (gg_meas g)) (or_else PNone (gg_orb g)) (match t with Some t => Some (PNpFloat t) | None => gg_trans g end) (gg_err g)) gs (map Some l)).
    cbv beta in F. rewrite combine_map_r, flat_map_map in F. cbn [fst snd] in F. apply F.
    intros g t Ig It. apply in_map_iff in It as (x & <- & _). assert (Tg := Hg _ _ Hs Ig). destruct (tame_meas Tg) as [A B]. destruct Tg as (_ & _ & C & D & _).
    apply measure_follows_np; [exact A|exact B|exact I|exact D|right; eexists; reflexivity]. }
  assert (Tail : forall l (s1 : shallot) (q : list (ggrad T) * mres (list unit)), heeds l (snd q) ->
    heeds l (snd (let '(gs, r) := q in let s := with_grads s1 (Some gs) (s_fit s1) in match r with MErr e t => (s, MErr e t) | MOk _ => reset_fit_m s end))).
  { intros l s1 [gs' [a|e t]] H; exact H. }
  assert (Arr : forall t shape, tr = Some t ->
    follows [guarded (tr <> None) (array_check (f4 fmt) str_int "transmission_changes" t (Some (PInt (-1))) (Some (PInt 1)) false (Some "float64") (Some 1%Z));
             guarded (tr <> None) (shapes_check str_tuple [t; PArr "object" shape []] ["transmission_changes"; "gradients"])]
      (let! t := array_m fmt "transmission_changes" t (Some (PInt (-1))) (Some (PInt 1)) false (Some "float64") (Some 1%Z) in
       let! _ := same_shape_m [t; PArr "object" shape []] ["transmission_changes"; "gradients"] in MOk (Some (elems_of t)))).
  { intros t shape Et. assert (Ne : tr <> None) by (rewrite Et; discriminate).
    assert (J : judges (array_check (f4 fmt) str_int "transmission_changes" t (Some (PInt (-1))) (Some (PInt 1)) false (Some "float64") (Some 1%Z))
      (array_m fmt "transmission_changes" t (Some (PInt (-1))) (Some (PInt 1)) false (Some "float64") (Some 1%Z))).
    { apply array_judges; [cbn; lia|cbn; lia|cbn; left; constructor|cbn; left; constructor|exact (Ht t Et)]. }
    apply follows_bind; [apply guard_on; assumption|]. intros w Hw. pose proof (passes_array (proj1 (@judges_ok _ _ _ J) (ex_intro _ w Hw))) as P.
    apply array_valued in Hw. subst w. apply follows_bind; [|intros _ _; apply follows_ok]. apply guard_on; [exact Ne|].
    apply shapes_judge; [cbn; lia|reflexivity|intros w [<-|[<-|[]]]; [exact P|do 3 eexists; reflexivity]]. }
  assert (Sh : forall s1 : shallot, s_grads s1 = s_grads s -> match s_grads s1 with None => PArr "object" [] [] | Some gs => PArr "object" [List.length gs] [] end
     = (PArr "object" (match s_grads s with Some gs => [List.length gs] | None => [] end) [] : pyval)).
  { intros s1 ->. destruct (s_grads s); reflexivity. }
  destruct tr as [t|].
  - cbn [or_else]. rewrite snd_match. rewrite Sh by (destruct v, u; reflexivity).
    apply follows_heeds; [apply (Arr t _ eq_refl)|]. intros w Hw.
    assert (w = Some (elems_of t)) as ->.
    { destruct (array_m _ _ _ _ _ _ _ _) as [a|] eqn:Ea; [|discriminate Hw]. apply array_valued in Ea. subst a. cbn [mbind] in Hw. destruct (same_shape_m _ _); [|discriminate Hw]. cbn [mbind] in Hw. congruence. }
    clear Hw. destruct v as [v|], u as [u|]; cbn [s_grads with_eclipse];
    (destruct (s_grads s) as [gs|] eqn:Hs; [|cbn [combine map flat_map]; try (destruct (determine_orbital_scale _ _); cbn [each_measure flat_map]); apply heeds_none]).
    4:{ apply Tail. exact (Own gs eq_refl _). }
    all: apply Tail.
    all: match goal with |- heeds (each_measure fmt (determine_orbital_scale E ?s1) _) _ => assert (N := New s1 gs eq_refl (map Some (elems_of t)) (or_intror (ex_intro _ _ eq_refl))) end.
    all: cbv zeta in N; rewrite combine_map_r, map_map in N; cbn [fst snd] in N; exact N.
  - cbn [or_else app]. apply heeds_skip; [intros X; apply X; reflexivity|]. apply heeds_skip; [intros X; apply X; reflexivity|].
    destruct v as [v|], u as [u|]; cbn [s_grads with_eclipse]; [| | |apply heeds_ok].
    all: (destruct (s_grads s) as [gs|] eqn:Hs; [|cbn [map]; destruct (determine_orbital_scale _ _); cbn [each_measure flat_map]; apply heeds_none]).
    all: apply Tail.
    all: match goal with |- heeds (each_measure fmt (determine_orbital_scale E ?s1) _) _ => assert (N := New s1 gs eq_refl (repeat None (List.length gs)) (or_introl eq_refl)) end.
    all: cbv zeta in N.
    all: assert (Q : forall l, map (fun p => (or_else PNone (gg_meas (fst p)), match snd p with Some t => Some (PNpFloat t) | None => gg_trans (fst p) end, gg_err (fst p))) (combine l (repeat (@None T) (List.length l)))
           = map (fun g : ggrad T => (or_else PNone (gg_meas g), gg_trans g, gg_err g)) l) by (induction l as [|a l IH]; [reflexivity|cbn; rewrite IH; reflexivity]).
    all: rewrite Q in N; exact N.
Qed.
Theorem addition_refused (s : shallot) t l e tr : ~ ready s -> add_gradients_m E fmt t l e tr s = (s, MOk tt).
Proof.
  intros H. unfold add_gradients_m. destruct (s_limb s) as [u|] eqn:E1; [|reflexivity]. destruct (s_ecl s) as [a|] eqn:E2; [|reflexivity]. destruct (s_vel s) as [v|] eqn:E3; [|reflexivity].
  contradiction H. unfold ready. rewrite E1, E2, E3. repeat split; discriminate.
Qed.
Theorem gradients_heeds (s : shallot) gs masked pm : sinv s -> s_grads s = Some gs -> (forall g, In g gs -> exists o, scaled_gradient g = Ok o) ->
  heeds (gradients_checks gs masked pm) (snd (get_gradients_m masked pm s)).
Proof.
  intros H Hs Hg. unfold get_gradients_m. rewrite Hs, snd_match. unfold gradients_checks. set (c2 := guarded _ _).
  change [bool_check "masked" masked; c2] with ([bool_check "masked" masked] ++ [c2]).
  apply follows_heeds.
  - apply follows_bind; [apply bool_judge|]. intros b _. destruct b; [rewrite combined_ok by assumption|]; apply follows_ok.
  - intros m _. subst c2. cbv zeta.
    match goal with |- context [each2_m ?f ?l ?r] => set (F := f); set (R := r) end.
    assert (K : heeds [guarded (gs <> []) (bool_check "masked" pm)] (snd (each2_m F gs R))).
    { assert (Fg : forall g, In g gs -> exists o, scaled_gradient_m g = MOk o).
      { intros g Ig. destruct (Hg g Ig) as [o Ho]. rewrite <- scaled_out in Ho. exists o. destruct (scaled_gradient_m g); cbn in Ho; congruence. }
      assert (Hi := i_grads H Hs). rewrite Forall_forall in Hi.
      destruct (is_bool_dec pm) as [[b ->]|Hb].
      - apply heeds_pass; [intros _; apply bool_passes|intros e x [_ X]; exact (proj2 (bool_passes "masked" b) e x X)|].
        apply each2_quiet. intros g [] Ig. unfold F. destruct (Fg g Ig) as [o ->].
        assert (D := @data_quiet T NT (gg_prop g) b). destruct (get_data_m (gg_prop g) (PBool b)) as [p [d|x t]]; [apply heeds_ok|exact D].
      - unfold R. destruct gs as [|g gs']; [apply heeds_skip; [intros X; apply X; reflexivity|apply heeds_ok]|].
        cbn [List.length repeat each2_m]. unfold F at 1. destruct (Fg g (or_introl eq_refl)) as [o ->].
        unfold get_data_m. rewrite (bool_not "masked" Hb). cbn [raise snd].
        apply heeds_follows. apply follows_tail. apply guard_on; [discriminate|].
        pose proof (bool_judge "masked" pm) as J. rewrite (bool_not "masked" Hb) in J. exact J. }
    destruct (each2_m F gs R) as [gs' r]. exact K.
Qed.

(** *** viewers *)
Lemma heeds_raise c l A B e s : judges c (@MErr B e (Some s)) -> heeds (c :: l) (@MErr A e (Some s)).
Proof. intros J. refine (@heeds_bind c l B A (MErr e (Some s)) (fun _ => MErr e None) J _). intros a X. discriminate X. Qed.
Lemma own_raise (ok : Prop) e s : ~ ok -> judges (own_check ok e s) (@MErr unit e (Some s)).
Proof. intros N. split; [exact N|]. exists s. split; [reflexivity|]. intros e' s'. cbn [own_check complains]. tauto. Qed.
Theorem viewer_heeds ax axis prop masked index frozen (co : coords T) : small axis -> osmall index ->
  (forall p, prop = EIs p -> prop_inv p /\ within (p_params p)) ->
  heeds (viewer_checks fmt ax axis prop masked index frozen co) (snd (new_viewer_m fmt ax axis prop masked index frozen co)).
Proof.
  intros Sa Si Hp. unfold new_viewer_m, viewer_checks. cbv zeta. rewrite snd_match.
  apply heeds_bind; [apply number_judges; tame|]. intros a Ha.
  assert (Hr : a = axis /\ int_like axis /\ (0 <= int_of axis <= 2)%Z).
  { assert (O := number_out fmt "axis" axis true (PInt 0) (PInt 2) false). rewrite Ha in O. symmetry in O. cbn [outcome] in O. exact (proj1 (number_index axis 2 a) O). }
  destruct Hr as (-> & _ & Hr). clear Ha. rewrite snd_match. apply heeds_bind; [apply arg_judge|]. intros u _. rewrite snd_match.
  apply heeds_bind; [apply arg_judge|]. intros p Ep. apply arg_value in Ep. subst prop. destruct (Hp p eq_refl) as [Ip Wp]. clear Hp u.
  assert (Al : vector_at (p_params p) (Z.to_nat (int_of axis)) = along (EIs p) axis).
  { unfold along. assert (int_of axis = 0 \/ int_of axis = 1 \/ int_of axis = 2)%Z as [->|[->| ->]] by lia; reflexivity. }
  assert (Ln : (Z.of_nat (List.length (along (EIs p) axis)) <= 2 ^ 53)%Z).
  { destruct Wp as (W1 & W2 & W3). unfold along. assert (int_of axis = 0 \/ int_of axis = 1 \/ int_of axis = 2)%Z as [->|[->| ->]] by lia; assumption. }
  destruct (is_bool_dec masked) as [[b ->]|Hb].
  2:{ unfold get_data_m. rewrite (bool_not "masked" Hb). cbn [raise snd].
      pose proof (bool_judge "masked" masked) as J. rewrite (bool_not "masked" Hb) in J.
      eapply heeds_raise. exact J. }
  apply heeds_pass; [apply bool_passes|apply bool_passes|].
  assert (G : get_data_m p (PBool b) = (with_data p (hidden (p_data p) (fun i => b && marked (p_mask p) i)), MOk (p_shape p, hidden (p_data p) (fun i => b && marked (p_mask p) i)))).
  { apply outs_ok. rewrite get_data_outs. apply get_data_hidden, Ip. }
  rewrite G. cbn [snd mbind with_data p_params fst]. rewrite Al. set (sl := along (EIs p) axis) in *. clearbody sl. clear Al G.
  assert (Hl : (0 <= Z.of_nat (List.length sl))%Z) by lia.
  assert (Hh : (0 <= Z.of_nat (List.length sl) / 2 <= Z.of_nat (List.length sl))%Z).
  { split; [apply Z.div_pos; lia|]. apply Z.div_le_upper_bound; lia. }
  apply heeds_bind; [apply number_judges; [destruct index; [exact Si|cbn [dflt or_else small]; lia]|tame|cbn [small]; lia|left; constructor|left; constructor]|].
  intros i Hi. apply number_valued in Hi. subst i.
  assert (Fr : forall (v0 : T -> viewer T) (c : mres T), c = match sl with a :: b0 :: _ => MOk (n_div (n_abs (n_sub b0 a)) (n_ofZ 3)) | _ => MErr IndexError None end ->
    heeds [guarded (drawable axis index (List.length sl)) (bool_check "frozen" (or_else (PBool false) frozen))]
     (let! tol := c in if is_bool_v (dflt (PInt (Z.of_nat (List.length sl) / 2)) index) || is_bool_v axis then MErr TypeError None
      else match frozen with None => MOk (v0 tol) | Some b => let! b := boolean_m "frozen" b in MOk (with_frozen (v0 tol) b) end)).
  { intros v0 c ->.
    assert (No : ~ drawable axis index (List.length sl) -> forall e, heeds [guarded (drawable axis index (List.length sl)) (bool_check "frozen" (or_else (PBool false) frozen))] (@MErr (viewer T) e None)).
    { intros N e. apply heeds_skip; [exact N|apply heeds_none]. }
    destruct sl as [|z0 [|z1 sl']]; cbn [mbind]; [apply No; intros (X & _); cbn in X; lia|apply No; intros (X & _); cbn in X; lia|].
    destruct (is_bool_v (dflt _ index) || is_bool_v axis) eqn:Eb.
    - apply No. intros (_ & X & Y). apply orb_true_iff in Eb as [Eb|Eb].
      + destruct index as [i|]; cbn [dflt] in Eb; [|discriminate Eb]. apply (Y i eq_refl). destruct i as [bb| | | | | | | | |]; try discriminate Eb. exists bb. reflexivity.
      + apply X. destruct axis as [bb| | | | | | | | |]; try discriminate Eb. exists bb. reflexivity.
    - apply orb_false_iff in Eb as [Eb1 Eb2].
      assert (D : drawable axis index (List.length (z0 :: z1 :: sl'))).
      { split; [cbn; lia|]. split; [intros [bb ->]; discriminate Eb2|]. intros w -> [bb ->]. discriminate Eb1. }
      destruct frozen as [w|]; cbn [or_else].
      + apply heeds_bind; [apply guard_on; [exact D|apply bool_judge]|]. intros bb _. apply heeds_ok.
      + apply heeds_pass; [intros _; apply bool_passes|intros e x [_ X]; exact (proj2 (bool_passes "frozen" false) e x X)|apply heeds_ok]. }
  destruct co as [|l|].
  - apply heeds_pass; [discriminate|intros e x [X _]; apply X; discriminate|]. apply heeds_pass; [intros l X; discriminate X|intros e x [X _]; apply X; intros l Y; discriminate Y|].
    cbn [mbind]. exact (Fr (fun tol => update (mkV (Z.to_nat (int_of axis)) (p_shape p) (hidden (p_data p) (fun i => b && marked (p_mask p) i)) sl (int_of (dflt (PInt (Z.of_nat (List.length sl) / 2)) index)) None tol false [] [])) _ eq_refl).
  - apply heeds_pass; [discriminate|intros e x [X _]; apply X; discriminate|].
    destruct (forallb (fun c => Nat.eqb (List.length c) 3) l) eqn:Ef.
    + assert (Fa : Forall (fun c => List.length c = 3) l). { apply Forall_forall. intros c Ic. rewrite forallb_forall in Ef. apply Nat.eqb_eq, Ef, Ic. }
      apply heeds_pass; [intros l0 X; injection X as <-; exact Fa|intros e x [X _]; apply X; intros l0 Y; injection Y as <-; exact Fa|].
      cbn [mbind]. exact (Fr (fun tol => update (mkV (Z.to_nat (int_of axis)) (p_shape p) (hidden (p_data p) (fun i => b && marked (p_mask p) i)) sl (int_of (dflt (PInt (Z.of_nat (List.length sl) / 2)) index)) (Some l) tol false [] [])) _ eq_refl).
    + cbn [raise mbind]. eapply heeds_raise, own_raise. intros X. specialize (X l eq_refl). apply not_true_iff_false in Ef. apply Ef.
      apply forallb_forall. intros c Ic. rewrite Forall_forall in X. apply Nat.eqb_eq, X, Ic.
  - cbn [raise mbind]. eapply (@heeds_raise _ _ _ unit). split; [intros X; apply X; reflexivity|]. eexists. split; [reflexivity|]. intros e s. cbn [kind_check complains].
    split; [intros (_ & -> & ->); split; reflexivity|intros [-> ->]; split; [intros X; apply X; reflexivity|split; reflexivity]].
Qed.

(** *** saving and loading *)
Theorem save_heeds (s : shallot) d y : within (s_params s) -> osmall y ->
  heeds (save_checks fmt (s_params s) d y) (snd (shallot_save_m E fmt s d y)).
Proof.
  intros [W _] Sy. unfold shallot_save_m, save_checks. cbv zeta.
  assert (En : heeds [] (match s_diag s with None => MOk tt | Some _ => MErr TypeError None end)) by (destruct (s_diag s); [apply heeds_none|apply heeds_ok]).
  rewrite snd_match. apply heeds_bind; [apply string_judge|]. intros dd _. destruct y as [v|]; [|apply heeds_skip; [intros X; apply X; reflexivity|exact En]].
  rewrite snd_match. apply heeds_bind; [apply guard_on; [discriminate|]; apply number_judges; [exact Sy|tame|cbn [small]; lia|left; constructor|left; constructor]|]. intros w _. exact En.
Qed.
Lemma params_load_errors (f : fs T) d e : params_load f d = Err e -> e = LoadErr.
Proof. unfold params_load. destruct (bind _ _); congruence. Qed.
Lemma gprop_load_errors (f : fs T) d n u e : gprop_load f (PStr d) (EIs n) (EIs u) = Err e -> e = LoadErr.
Proof. unfold gprop_load. cbn [string_v class_arg bind]. destruct (bind _ _); congruence. Qed.
Lemma saying_judge A (r : res A) e s : (forall e', r = Err e' -> e' = e) -> judges (own_check (exists a, r = Ok a) e s) (saying s r).
Proof.
  intros H. destruct r as [a|x]; cbn [saying raise].
  - split; [exists a; reflexivity|]. intros e' s' [X _]. apply X. exists a. reflexivity.
  - rewrite (H x eq_refl). split; [intros [a X]; discriminate X|]. exists s. split; [reflexivity|]. intros e' s'. cbn [own_check complains].
    split; [tauto|]. intros [-> ->]. split; [intros [a X]; discriminate X|split; reflexivity].
Qed.
Lemma part_judge f d n u shown : (get_name n ++ " [" ++ unit_display u ++ "]")%string = shown -> judges (part_check f d n u shown) (gprop_load_m (T := T) f (PStr d) (EIs n) (EIs u)).
Proof.
  intros <-. unfold gprop_load_m, part_check. cbn [string_m string_v class_arg_m class_arg saying mbind]. apply saying_judge. intros e. apply gprop_load_errors.
Qed.
Theorem load_heeds (f : fs T) (s : shallot) d : heeds (load_checks f d) (load_attributes_m E f s d).
Proof.
  unfold load_attributes_m, load_checks. cbn [map].
  assert (No : ~ numbered f d -> forall e, heeds (load_checks f d) (@MErr shallot e None)).
  { intros N e. unfold load_checks. cbn [map]. do 6 (apply heeds_skip; [exact N|]). apply heeds_none. }
  unfold load_checks in No. cbn [map] in No.
  destruct (np_load f (under d "num_fxfy.npy")) as [[[dt sh] el]|e] eqn:En; cbn [silent mbind snd].
  2:{ apply No. intros (? & ? & ? & ? & X). congruence. }
  destruct el as [|n el]; cbn [mbind].
  { apply No. intros (? & ? & ? & ? & X). congruence. }
  assert (N : numbered f d) by (do 4 eexists; exact En).
  apply heeds_bind; [apply guard_on; [exact N|]; apply saying_judge; intros e; apply params_load_errors|]. intros g _.
  do 5 (apply heeds_bind; [apply guard_on; [exact N|]; apply part_judge; reflexivity|]; intros ? _).
  cbv zeta. destruct (String.eqb d ""); [apply heeds_none|]. destruct (existsb _ _); [apply heeds_none|apply heeds_ok].
Qed.
Theorem quadrants_heeds (g : gparams T) (p : gprop T) t : heeds (quadrant_checks str_tuple g p) (fill_quadrants_m g p t).
Proof.
  unfold fill_quadrants_m, quadrant_checks. destruct (p_shape p) as [|ny [|nx [|nr [|? ?]]]]; try apply heeds_none. cbv zeta.
  change (given_shape (EIs g)) with (shape3 g).
  destruct (shape_eqb (shape3 g) _) eqn:Es; cbn [negb].
  - apply shape_eqb_spec in Es. apply heeds_pass; [exact Es|intros e x [X _]; exact (X Es)|apply heeds_silent].
  - eapply heeds_raise, own_raise. intros X. apply shape_eqb_spec in X. rewrite X in Es. discriminate Es.
Qed.
End O.
