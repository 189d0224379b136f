(** Interrupted saves, and witnesses for the refuted expectations about GridParameters and
    GridDiagnostics. *)
From Coq Require Import ZArith Reals List Bool String Lra Lia.
From Flocq Require Import BinarySingleNaN.
From Verif Require Import Num NumP Py Validate SpecNum ValidateP Ring RingP RingSystem RingSystemP RingMoreP FS FSP GridParams GridDiag SpecGrid GridParamsP GridParamsXP GridDiagP.
Import ListNotations.
Set Implicit Arguments.

Section C.
Context {T : Type} {NT : Num T}.

Theorem interrupted_save (g : gparams T) (f f' : fs T) d :
  reachable g -> fs_get f (under d "rf_array.npy") = None -> crash f (params_save g d) f' ->
  params_load f' d = Err LoadErr \/ params_load f' d = Ok g.
Proof.
  intros Hr Hn Hc.
  assert (E : params_save g d = removelast (params_save g d) ++ [SWrite (under d "rf_array.npy") (float_arr [List.length (g_rfa g)] (g_rfa g))]) by reflexivity.
  rewrite E in Hc. apply crash_last in Hc; auto.
  - destruct Hc as [Hc|[Hc|Hc]].
    + left. destruct (params_load f' d) as [h|e] eqn:L; [|f_equal; eapply params_load_err; eauto].
      exfalso. destruct (params_load_needs _ _ L (n:="rf_array.npy"%string)) as (dt & sh & el & X); [cbn; tauto|]. congruence.
    + left. destruct (params_load f' d) as [h|e] eqn:L; [|f_equal; eapply params_load_err; eauto].
      exfalso. destruct (params_load_needs _ _ L (n:="rf_array.npy"%string)) as (dt & sh & el & X); [cbn; tauto|]. congruence.
    + right. rewrite <- E in Hc. eapply params_load_save; eauto.
  - intros s Hs. cbn in Hs. destruct Hs as [<-|[<-|[<-|[<-|[]]]]]; cbn [touched]; intros X; try (apply under_inj in X; discriminate).
    eapply under_neq; eauto.
Qed.

Theorem params_load_missing (f : fs T) d n :
  In n ["dx.npy"; "dy.npy"; "rf.npy"; "rf_array.npy"]%string -> ~ readable f (under d n) -> params_load f d = Err LoadErr.
Proof.
  intros Hn Hr. destruct (params_load f d) as [g|e] eqn:E; [|f_equal; eapply params_load_err; eauto].
  exfalso. apply Hr. eapply params_load_needs; eauto.
Qed.
End C.

Section C2.
Context {T : Type} {NT : Num T} {LT : NumLaws T}.
Theorem new_params_accepted (mnx mxx nx mny mxy ny mxr nr : pyval T) :
  Forall small [mnx; mxx; nx; mny; mxy; ny; mxr; nr] ->
  (exists g, new_params mnx mxx nx mny mxy ny mxr nr = Ok g) <->
  axis_ok mnx mxx nx /\ axis_ok mny mxy ny /\ rf_ok mxr nr.
Proof.
  intros HS. split.
  - intros [g H]. apply new_params_iff in H; auto. tauto.
  - intros (A1 & A2 & A3).
    destruct (extendable_nonempty (dx:=linspace (num_of mnx) (num_of mxx) (Z.to_nat (zof nx))) (dy:=linspace (num_of mny) (num_of mxy) (Z.to_nat (zof ny)))) as [e E].
    + apply nonempty_length. rewrite linspace_length. destruct A1 as (_ & _ & _ & _ & H). lia.
    + apply nonempty_length. rewrite linspace_length. destruct A2 as (_ & _ & _ & _ & H). lia.
    + eexists. apply new_params_iff; auto. do 3 (split; [assumption|]). exists e. split; [exact E|reflexivity].
Qed.

Theorem extend_one_row_state (g : gparams T) m :
  reachable g -> g_ext g = true -> List.length (g_dy g) = 1 -> 2 <= List.length (g_dx g) ->
  (2 * Z.of_nat (List.length (g_dx g)) <= 2 ^ 53)%Z ->
  nth_error (g_dx g) (List.length (g_dx g) - 1) = Some m -> xlt (XFin 0) (val m) ->
  exists g', extend_grid g = (g', Err ValueError) /\ List.length (g_dx g') = 2 * List.length (g_dx g) - 1 /\
    g_shape g' = g_shape g /\ snd (fst (g_shape g')) <> List.length (g_dx g').
Proof.
  intros Hr He Hy Hx Hs Hm Hp. rewrite (extend_one_row Hr He Hy Hx Hs Hm Hp). eexists. split; [reflexivity|].
  cbn [g_dx g_shape]. rewrite linspace_length. split; auto. split; auto.
  destruct (reachable_consistent Hr) as [-> _]. cbn. lia.
Qed.

Theorem extend_refuses (d : gdiag T) (l1 l2 : list dop) y x fy dr :
  do_dops d (l1 ++ DExtend :: l2) = diag_extend (do_dops d l1) /\
  save_diagnostic (do_dops d (l1 ++ DExtend :: l2)) y x fy dr = (do_dops d (l1 ++ DExtend :: l2), Err RuntimeError).
Proof. rewrite extend_history. split; reflexivity. Qed.
End C2.

(** ** binary64 witnesses *)
Definition grid_of (nx ny : Z) : res (gparams f64) :=
  new_params (PInt 0) (PInt 2) (PInt nx) (PInt 0) (PInt 1) (PInt ny) (PInt 2) (PInt 3).
Lemma grid_of_3_1_b : match grid_of 3 1 with
  | Ok g => g_ext g && match extend_grid g with (g', Err ValueError) => Nat.eqb (List.length (g_dx g')) 5 && Nat.eqb (snd (fst (g_shape g'))) 3 && Nat.eqb (List.length (g_dy g')) 1 | _ => false end
  | Err _ => false end = true.
Proof. vm_compute. reflexivity. Qed.

Theorem extendable_refuted :
  ~ (forall g : gparams f64, reachable g -> g_ext g = true -> snd (extend_grid g) = Ok tt).
Proof.
  intros H. assert (B := grid_of_3_1_b). destruct (grid_of 3 1) as [g|] eqn:E; [|discriminate B].
  apply andb_prop in B. destruct B as [B1 B2]. assert (R : reachable g) by (eapply rc_new; exact E).
  specialize (H g R B1). destruct (extend_grid g) as [g' [u|e]]; [discriminate B2|discriminate H].
Qed.

Theorem half_extended_load :
  exists (g g' : gparams f64), reachable g /\ fst (extend_grid g) = g' /\
    forall f f' d, run f (params_save g' d) = (f', Ok tt) -> params_load f' d <> Ok g'.
Proof.
  assert (B := grid_of_3_1_b). destruct (grid_of 3 1) as [g|] eqn:E; [|discriminate B].
  apply andb_prop in B. destruct B as [B1 B2]. exists g. eexists. split; [eapply rc_new; exact E|]. split; [reflexivity|].
  destruct (extend_grid g) as [g' [u|e]]; [discriminate B2|]. cbn [fst].
  intros f f' d Hrun HL. assert (B3 : Nat.eqb (List.length (g_dx g')) 5 && Nat.eqb (snd (fst (g_shape g'))) 3 && Nat.eqb (List.length (g_dy g')) 1 = true) by (destruct e; try discriminate B2; exact B2).
  apply andb_prop in B3. destruct B3 as [B3 B5]. apply andb_prop in B3. destruct B3 as [B3 B4].
  apply Nat.eqb_eq in B3. apply Nat.eqb_eq in B4. apply Nat.eqb_eq in B5.
  destruct (@params_load_any f64 _ g' f f' d) as (h & Hh & Hx & _ & _ & _ & Hc).
  - intros X. rewrite X in B3. discriminate B3.
  - intros X. rewrite X in B5. discriminate B5.
  - exact Hrun.
  - rewrite HL in Hh. assert (h = g') by congruence. subst h. destruct Hc as [Hc _]. rewrite Hc in B4. cbn [fst snd shape_of_vectors] in B4. lia.
Qed.

Theorem no_zero_after_extend :
  exists g g' : gparams f64, reachable g /\ extend_grid g = (g', Ok tt) /\
    List.length (g_dx g') = 99 /\ (forall x, In x (g_dx g') -> val x <> XFin 0) /\
    exists x y, nth_error (g_dx g') 49 = Some x /\ nth_error (g_dy g') 49 = Some y /\ val (n_neg (n_div x y)) = XFin (-1).
Proof.
  assert (B := axis50_b). destruct (new_params _ _ _ _ _ _ _ _) as [g|] eqn:E; [|discriminate B].
  apply andb_prop in B. destruct B as [_ B]. exists g. assert (R : reachable g) by (eapply rc_new; exact E). clear E.
  destruct (extend_grid g) as [g' [[]|e]]; [|discriminate B]. exists g'. split; [exact R|]. split; [reflexivity|].
  apply andb_prop in B. destruct B as [B B4]. apply andb_prop in B. destruct B as [B1 B2].
  apply Nat.eqb_eq in B1. split; [exact B1|]. split.
  - intros x Hx V. rewrite forallb_forall in B4. specialize (B4 x Hx). apply negb_true_iff in B4.
    assert (X : n_eq x (n_zero : f64) = true).
    { apply (proj2 (neq_iff x (n_zero : f64))). split; [rewrite (val_zero (T:=f64)); exact V|rewrite V; discriminate]. }
    congruence.
  - destruct (nth_error (g_dx g') 49) as [x|]; [|discriminate B2]. destruct (nth_error (g_dy g') 49) as [y|]; [|discriminate B2].
    exists x, y. split; [reflexivity|]. split; [reflexivity|]. apply andb_prop in B2. destruct B2 as [_ B2].
    apply neq_iff in B2. destruct B2 as [B2 _]. rewrite B2. apply (l_ofZ (T:=f64)). lia.
Qed.

Fixpoint forallb2 {A B} (f : A -> B -> bool) (l : list A) (m : list B) : bool :=
  match l, m with [], [] => true | a :: l, b :: m => f a b && forallb2 f l m | _, _ => false end.

Lemma grid_xr_ex : exists g, new_params (T:=xr) (PInt 0) (PInt 2) (PInt 3) (PInt 0) (PInt 1) (PInt 2) (PInt 2) (PInt 3) = Ok g /\ g_ext g = true.
Proof.
  assert (S : Forall (@small xr) [PInt 0; PInt 2; PInt 3; PInt 0; PInt 1; PInt 2; PInt 2; PInt 3]).
  { repeat (apply Forall_cons; [cbn; lia|]). apply Forall_nil. }
  assert (N : forall z, numberlike (PInt z : pyval xr)) by (intros; left; constructor).
  destruct (proj2 (new_params_accepted S)) as [g Hg].
  { split; [|split]; unfold axis_ok, rf_ok, count; cbn [value zof].
    - split; [apply N|]. split; [apply N|]. split; [intros [X|[X _]]; [cbn in X; lra|inversion X; lra]|]. split; [constructor|lia].
    - split; [apply N|]. split; [apply N|]. split; [intros [X|[X _]]; [cbn in X; lra|inversion X; lra]|]. split; [constructor|lia].
    - split; [apply N|]. split; [cbn; lra|]. split; [constructor|lia]. }
  exists g. split; [exact Hg|].
  destruct (new_params_spaced (x0:=0) (x1:=2) (y0:=0) (y1:=1) (r1:=2) S eq_refl eq_refl eq_refl eq_refl eq_refl Hg) as (_ & _ & _ & _ & _ & _ & _ & _ & _ & X).
  apply X. auto.
Qed.

Lemma grid_ex_not_err e : new_params (T:=f64) (PInt 0) (PInt 2) (PInt 3) (PInt 0) (PInt 1) (PInt 2) (PInt 2) (PInt 3) = Err e -> False.
Proof.
  intros H. assert (X : is_ok (new_params (T:=f64) (PInt 0) (PInt 2) (PInt 3) (PInt 0) (PInt 1) (PInt 2) (PInt 2) (PInt 3)) = true) by (vm_compute; reflexivity).
  rewrite H in X. discriminate X.
Qed.

(** two rows, two columns *)
Definition diag_grid : gparams f64 := mkGP [] [] [] [] (2, 2, 1) true.
Definition sv (y x : pyval f64) (a b : scal f64) : dop := DSave y x (PArr "float64" [1] [a]) (PArr "float64" [1] [b]).
Definition diag_hist (a b c d : scal f64) : list dop :=
  [sv (PInt 1) (PInt 0) c d; sv (PInt 2) (PInt 0) c c; sv (PNpInt 1) (PInt 0) a b; DGet (PInt 0) (PInt 0); sv (PInt 1) (PInt 1) c d;
   DSave (PInt 1) (PInt 0) (PArr "float64" [1] [c]) (PArr "float64" [2] [c; d])].
Definition diag_full (a b c d : scal f64) : list dop :=
  [sv (PInt 0) (PInt 0) a b; sv (PInt 0) (PInt 1) a c; sv (PInt 1) (PInt 0) b d; sv (PInt 1) (PInt 1) c d].

Lemma bool_index_at (a b : scal f64) :
  get_diagnostic (do_dops (new_diag diag_grid) [sv (PBool true) (PInt 0) a b]) (PBool true) (PInt 0) = Ok ([a], [b]) /\
  get_diagnostic (do_dops (new_diag diag_grid) [sv (PBool true) (PInt 0) a b]) (PInt 1) (PInt 0) = Err KeyError.
Proof. split; vm_compute; reflexivity. Qed.
Theorem bool_index : exists (g : gparams f64) (l : list dop) a b,
  get_diagnostic (do_dops (new_diag g) l) (PBool true) (PInt 0) = Ok (a, b) /\
  get_diagnostic (do_dops (new_diag g) l) (PInt 1) (PInt 0) = Err KeyError.
Proof. exists diag_grid, [sv (PBool true) (PInt 0) (SI 1) (SI 2)], [SI 1], [SI 2]. exact (bool_index_at (SI 1) (SI 2)). Qed.

Theorem mirror_lookup_refuted :
  ~ (forall (g : gparams f64) (l : list dop) y x, Forall (fun o => o <> DExtend) l ->
      index_ok (2 * fst (diag_size g) - 1) y -> index_ok (2 * snd (diag_size g) - 1) x ->
      get_diagnostic (diag_extend (do_dops (new_diag g) l)) y x =
      get_diagnostic (do_dops (new_diag g) l) (PInt (Z.abs (zof y - (fst (diag_size g) - 1)))) (PInt (Z.abs (zof x - (snd (diag_size g) - 1))))).
Proof.
  intros H. specialize (H diag_grid [sv (PInt 0) (PInt 0) (SI 1) (SI 2)] (PInt 1) (PInt 1)).
  assert (X : is_ok (get_diagnostic (diag_extend (do_dops (new_diag diag_grid) [sv (PInt 0) (PInt 0) (SI 1) (SI 2)])) (PInt 1) (PInt 1)) = false) by (vm_compute; reflexivity).
  assert (Y : is_ok (get_diagnostic (do_dops (new_diag diag_grid) [sv (PInt 0) (PInt 0) (SI 1) (SI 2)]) (PInt 0) (PInt 0)) = true) by (vm_compute; reflexivity).
  assert (Z1 : Z.abs (zof (PInt 1 : pyval f64) - (fst (diag_size diag_grid) - 1)) = 0%Z) by reflexivity.
  assert (Z2 : Z.abs (zof (PInt 1 : pyval f64) - (snd (diag_size diag_grid) - 1)) = 0%Z) by reflexivity.
  rewrite Z1, Z2 in H. rewrite H in X.
  - rewrite Y in X. discriminate X.
  - apply Forall_cons; [discriminate|apply Forall_nil].
  - split; [constructor|]. cbn. lia.
  - split; [constructor|]. cbn. lia.
Qed.

Theorem diag_flag_lost :
  ~ (forall (d : gdiag f64) f f' dir, run f (diag_save d dir) = (f', Ok tt) -> diag_load f' dir = Ok d).
Proof.
  intros H. set (d := mkGD 2 2 [] [] true : gdiag f64).
  assert (U : exists f', run [] (diag_save d "d") = (f', Ok tt)).
  { apply diag_save_succeeds; [right; repeat split; discriminate|]. intros n Hn. cbn in Hn. destruct Hn as [<-|[<-|[<-|[]]]]; discriminate. }
  destruct U as [f' Hf]. assert (L := diag_load_save _ _ _ Hf). rewrite (H _ _ _ _ Hf) in L. discriminate L.
Qed.

Theorem interrupted_overwrite :
  ~ (forall (g h : gparams f64) f f1 f' d, reachable g -> reachable h -> run f (params_save h d) = (f1, Ok tt) ->
      crash f1 (params_save g d) f' ->
      params_load f' d = Err LoadErr \/ params_load f' d = Ok g \/ params_load f' d = Ok h).
Proof.
  intros H.
  assert (B : match grid_of 3 2, grid_of 2 3 with
    | Ok g, Ok h =>
      match run [] (params_save h "d") with
      | (f1, Ok _) => match params_load (fst (run f1 (firstn 2 (params_save g "d")))) "d" with
                      | Ok k => negb (Nat.eqb (List.length (g_dx k)) (List.length (g_dx h))) && negb (Nat.eqb (List.length (g_dy k)) (List.length (g_dy g)))
                      | _ => false end
      | _ => false end
    | _, _ => false end = true) by (vm_compute; reflexivity).
  destruct (grid_of 3 2) as [g|] eqn:Eg; [|discriminate B]. destruct (grid_of 2 3) as [h|] eqn:Eh; [|discriminate B].
  destruct (run [] (params_save h "d")) as [f1 [[]|]] eqn:Ef; [|discriminate B].
  specialize (H g h [] f1 (fst (run f1 (firstn 2 (params_save g "d")))) "d"%string).
  destruct (params_load (fst (run f1 (firstn 2 (params_save g "d")))) "d") as [k|]; [|discriminate B].
  apply andb_prop in B. destruct B as [B1 B2].
  destruct H as [H|[H|H]].
  - eapply rc_new; exact Eg.
  - eapply rc_new; exact Eh.
  - exact Ef.
  - apply cr_clean.
  - discriminate H.
  - assert (k = g) by congruence. subst. rewrite Nat.eqb_refl in B2. discriminate B2.
  - assert (k = h) by congruence. subst. rewrite Nat.eqb_refl in B1. discriminate B1.
Qed.
