(** A concrete binary64 grid for the examples and refutations about saving and loading. *)
From Coq Require Import ZArith Reals List Bool String Ascii Lia Lra.
From Verif Require Import Ring RingSystem RingSystemP LookP BuildGP BuildCP.
From Verif Require Import Num NumP Py SpecNum Validate ValidateP FS FSP GridParams SpecGrid GridProp SpecProp Geometry Build SpecBuild Shallot AddLaws ShallotOps SpecOps SpecSave InterpP BuildExP
  OpsP OpsReadP OpsExP SaveFsP SaveP SaveLoadP.
Import ListNotations.
Local Open Scope string_scope.
Local Open Scope list_scope.

(** elementary functions with which the dummy grid is quickly built *)
Definition quick : Libm f64 :=
  {| m_pi := n_ofZ 3; m_sin := fun x => x; m_cos := fun _ => n_one; m_asin := fun x => x; m_acos := fun x => x;
     m_atan := fun x => x; m_atan2 := fun y x => y; m_hypot := fun x y => n_inf |}.
(** the formatting of positions: positive ones give "1.0000", NaN gives "nan", all others "0.0000" *)
Definition fmt3 (x : f64) : string := if n_isnan x then "nan" else if n_lt n_zero x then "1.0000" else "0.0000".
Definition env3 : env f64 := mkEnv quick np_search fmt3 100.
Lemma dummy3 : exists og l s, dummy env3 = (og, (l, Ok s)).
Proof.
  assert (H : is_ok (snd (snd (dummy env3))) = true) by (lazy; reflexivity).
  destruct (dummy env3) as [og [l [s|]]]; [eauto|discriminate].
Qed.
Definition built3 (keep : bool) : res (shallot f64) :=
  let* g := grid_f64 in snd (snd (new_shallot env3 (EIs g) (PInt 4) (PInt 50) (PBool keep) (PBool false))).
Definition after3 (keep : bool) (l : list (@op f64)) : res (shallot f64) := let* s := built3 keep in Ok (do_ops env3 s l).
Lemma after3_reach k l : Forall (@op_wf f64) l -> forall s, after3 k l = Ok s -> sreach env3 s.
Proof.
  intros Hl s. unfold after3, built3. destruct grid_f64 as [g|] eqn:Eg; cbn [bind]; [|discriminate].
  destruct (new_shallot env3 _ _ _ _ _) as [og [lg [s0|]]] eqn:En; cbn [snd bind]; [|discriminate]. intros H. assert (s = do_ops env3 s0 l) as -> by congruence. clear H.
  assert (H0 : sreach env3 s0) by (eapply sr_new; [|exact En]; eapply rc_new; exact Eg). clear En Eg. revert s0 H0. induction Hl as [|o l Ho Hl IH]; intros s0 H0; [exact H0|].
  cbn [do_ops fold_left]. apply IH. now apply sr_op.
Qed.
Definition holds3 (k : bool) (l : list (@op f64)) (t : shallot f64 -> bool) : Prop := match after3 k l with Ok s => t s = true | Err _ => False end.
Lemma holds3_in k l t : Forall (@op_wf f64) l -> holds3 k l t -> exists s, sreach env3 s /\ t s = true.
Proof. intros Hl. unfold holds3. destruct (after3 k l) as [s|] eqn:Ea; [|contradiction]. intros H. exists s. split; [exact (after3_reach k l Hl s Ea)|exact H]. Qed.

Definition no_diag (s : shallot f64) : bool := match s_diag s with None => true | _ => false end.
Definition all_printed (s : shallot f64) : bool := forallb (fun g => slashfree (e_fmt env3 (num_of (gg_pos g)))) (grads s).
Definition some_grads (s : shallot f64) : bool := match grads s with [] => false | _ => true end.
Lemma all_printed_iff s : all_printed s = true -> Forall (printed env3) (grads s).
Proof. unfold all_printed. rewrite forallb_forall, Forall_forall. auto. Qed.
Lemma unused_out (f : fs f64) d : f = [] -> d = "out" -> unused f d.
Proof. intros -> ->. split; [discriminate|]. split; [discriminate|]. split; [reflexivity|]. intros p _. unfold fs_get. reflexivity. Qed.

Definition pos3 : pyval f64 := F [10; -20; 5]%Z.
Definition ops3 : list (@op f64) := [OEclipse (PInt 2) (PInt 3) (PFloat (n_div (n_ofZ 1) (n_ofZ 2))); OAdd pos3 (F [1; 2; 3]%Z) None None].
Lemma ops3_wf : Forall (@op_wf f64) ops3. Proof. repeat constructor. Qed.
(** a grid with three gradients, whose positions have the names 0.0000, 1.0000 and 0.0000 *)
Lemma grid3 : exists s, sreach env3 s /\ s_diag s = None /\ Forall (printed env3) (grads s) /\ Forall (fun g => pointed env3 g = true) (grads s) /\ map (gname env3) (grads s) = ["gradient_0.0000"; "gradient_1.0000"; "gradient_0.0000"].
Proof.
  destruct (@holds3_in false ops3 (fun s => no_diag s && all_printed s && forallb (pointed env3) (grads s) && if list_eq_dec string_dec (map (gname env3) (grads s)) ["gradient_0.0000"; "gradient_1.0000"; "gradient_0.0000"] then true else false)) as (s & Hs & Ht).
  - exact ops3_wf.
  - lazy. reflexivity.
  - exists s. apply andb_prop in Ht as [Ht H3]. apply andb_prop in Ht as [Ht H4]. apply andb_prop in Ht as [H1 H2]. split; [exact Hs|].
    split; [unfold no_diag in H1; destruct (s_diag s); [discriminate|reflexivity]|]. split; [exact (all_printed_iff s H2)|].
    split; [rewrite Forall_forall; rewrite forallb_forall in H4; exact H4|].
    destruct (list_eq_dec _ _ _) as [E|]; [exact E|discriminate].
Qed.
(** the same with a position that is not a number *)
Definition nan3 : pyval f64 := farr [n_nan].
Lemma grid3_nan : exists s, sreach env3 s /\ s_diag s = None /\ Forall (printed env3) (grads s) /\ Exists (fun g => pointed env3 g = false) (grads s).
Proof.
  destruct (@holds3_in false [OEclipse (PInt 2) (PInt 3) (PInt 0); OAdd nan3 (F [1]%Z) None None] (fun s => no_diag s && all_printed s && existsb (fun g => negb (pointed env3 g)) (grads s))) as (s & Hs & Ht).
  - repeat constructor.
  - lazy. reflexivity.
  - exists s. apply andb_prop in Ht as [Ht H4]. apply andb_prop in Ht as [H1 H2]. split; [exact Hs|].
    split; [unfold no_diag in H1; destruct (s_diag s); [discriminate|reflexivity]|]. split; [exact (all_printed_iff s H2)|].
    apply Exists_exists. apply existsb_exists in H4 as (g & Hg & Hp). exists g. split; [exact Hg|]. apply negb_true_iff in Hp. exact Hp.
Qed.
(** a grid that keeps diagnostics *)
Lemma grid3_diag : exists s dg, sreach env3 s /\ s_diag s = Some dg /\ grads s = [].
Proof.
  destruct (@holds3_in true [] (fun s => negb (no_diag s) && negb (some_grads s))) as (s & Hs & Ht).
  - constructor.
  - lazy. reflexivity.
  - apply andb_prop in Ht as [H1 H2]. unfold no_diag in H1. destruct (s_diag s) as [dg|] eqn:Ed; [|discriminate]. exists s, dg. split; [exact Hs|]. split; [exact Ed|].
    unfold some_grads in H2. destruct (grads s); [reflexivity|discriminate].
Qed.

(** *** expectations that fail *)
Definition level : pyval f64 := PInt 50.
Lemma level_ok : number level true (PInt 10) (PInt 50) false = Ok level. Proof. vm_compute. reflexivity. Qed.
Lemma lost_refuted : ~ (forall (E : env f64) (f f1 f2 : fs f64) d ll s s', sreach E s -> s_diag s = None -> unused f d -> below TEMP d = false ->
  run f (shallot_save E s (PStr d) None) = (f1, Ok tt) -> shallot_load E f1 (PStr d) ll = (f2, Ok s') -> List.length (grads s') = List.length (grads s)).
Proof.
  intros H. destruct grid3 as (s & Hs & Hd & Hp & Hq & Hn). destruct dummy3 as (og & l & s0 & Hdum).
  assert (U := unused_out [] "out" eq_refl eq_refl).
  destruct (@save_load f64 _ _ _ env3 [] "out" level level s og l s0 Hs Hd Hp Hq level_ok Hdum U eq_refl) as (f1 & f2 & m & s' & R & L & Hrest).
  specialize (H env3 [] f1 f2 "out" level s s' Hs Hd U eq_refl R L).
  assert (G : s_grads s' = None) by apply Hrest. unfold grads at 1 in H. rewrite G in H. apply (f_equal (@List.length string)) in Hn. rewrite map_length in Hn. rewrite Hn in H. discriminate H.
Qed.
Lemma diagnostics_refuted : ~ (forall (E : env f64) (f : fs f64) d s, sreach E s -> unused f d -> exists f1, run f (shallot_save E s (PStr d) None) = (f1, Ok tt)).
Proof.
  intros H. destruct grid3_diag as (s & dg & Hs & Hd & _). destruct (H env3 [] "out" s Hs (unused_out [] "out" eq_refl eq_refl)) as [f1 R].
  apply (@save_diagnostics_fails f64 _ env3 [] (PStr "out") None s dg Hd). rewrite R. reflexivity.
Qed.
Definition progress : fs f64 := [("./.temp_shallot/y_value.npy", NFile (np_array [Some (PInt 1)])); ("./.temp_shallot", NDir)].
Lemma built3_new k s : built3 k = Ok s -> exists g og l, reachable g /\ new_shallot env3 (EIs g) (PInt 4) (PInt 50) (PBool k) (PBool false) = (og, (l, Ok s)).
Proof.
  unfold built3. destruct grid_f64 as [g|] eqn:Eg; cbn [bind]; [|discriminate].
  destruct (new_shallot env3 _ _ _ _ _) as [og [lg r]] eqn:En; cbn [snd]. intros ->. exists g, og, lg. split; [|exact En]. eapply rc_new. exact Eg.
Qed.
Lemma built3_ok : exists s, built3 false = Ok s.
Proof. assert (X : is_ok (built3 false) = true) by (lazy; reflexivity). revert X. generalize (built3 false). intros [s|] X; [eauto|discriminate X]. Qed.
(** the tilt is drawn with another colour map after loading *)
Lemma look_refuted : ~ (forall (E : env f64) (f f1 f2 : fs f64) d ll s s', sreach E s -> s_diag s = None -> unused f d -> below TEMP d = false ->
  run f (shallot_save E s (PStr d) None) = (f1, Ok tt) -> shallot_load E f1 (PStr d) ll = (f2, Ok s') -> forall w, p_cmap (the_cube w s') = p_cmap (the_cube w s)).
Proof.
  intros H. destruct built3_ok as [s Hs]. destruct (built3_new _ _ Hs) as (g & og & l & Hg & En). assert (Hr : sreach env3 s) by (eapply sr_new; eauto).
  destruct (@constructor_result f64 _ _ env3 _ _ _ _ _ _ _ _ (reachable_proper Hg) En) as (_ & Hc & Hd). specialize (Hd eq_refl). assert (G := cn_grads Hc).
  assert (Gs : grads s = []) by (unfold grads; rewrite G; reflexivity). destruct dummy3 as (og' & l' & s0 & Hdum). assert (U := unused_out [] "out" eq_refl eq_refl).
  destruct (@save_load f64 _ _ _ env3 [] "out" level level s og' l' s0 Hr Hd) as (f1 & f2 & m & s' & R & L & Hrest); auto; try (rewrite Gs; constructor); try exact level_ok; try exact Hdum.
  specialize (H env3 [] f1 f2 "out" level s s' Hr Hd U eq_refl R L WTilt).
  assert (A : p_cmap (the_cube WTilt s') = "viridis") by apply Hrest. assert (B := proj1 (proj1 (look_constructed _ _ _ _ _ _ En) WTilt)). cbn [cube_of the_cube] in *. rewrite A, B in H. discriminate H.
Qed.
Lemma untouched_refuted : ~ (forall (E : env f64) (f f' : fs f64) g nf ll keep s, reachable g -> perform f (snd (new_shallot E (EIs g) nf ll keep (PBool false))) = (f', Ok s) ->
  forall p, fs_get f' p = fs_get f p).
Proof.
  intros H. destruct built3_ok as [s Hs]. destruct (built3_new _ _ Hs) as (g & og & l & Hg & En).
  destruct (new_shallot_steps env3 _ _ _ _ _ En) as [A B]. destruct (A eq_refl) as [->|Hl]; [destruct (B eq_refl) as [l' Hl']; destruct l'; discriminate Hl'|]. subst l.
  specialize (H env3 progress (fst (run progress [SRmtree TEMP])) g (PInt 4) (PInt 50) (PBool false) s Hg). rewrite En in H.
  specialize (H eq_refl TEMP). discriminate H.
Qed.
