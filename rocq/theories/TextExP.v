(** Witnesses and refuted expectations about the printed texts. *)
From Coq Require Import ZArith Reals List Bool String Lia Lra.
From Flocq Require Import BinarySingleNaN.
From Verif Require Import Ring RingP.
From Verif Require Import Num NumP Py SpecNum Validate ValidateP FS FSP GridParams SpecGrid GridProp SpecProp GridPropP GridGradP GridPropExP Names Geometry Build SpecBuild Shallot AddLaws
  ShallotOps SpecOps SpecSave InterpP BuildExP OpsP OpsReadP OpsExP SaveFsP SaveP SaveLoadP SaveExP Fmt Text SpecText TextP TextGridP.
Import ListNotations.
Set Implicit Arguments.
Local Open Scope list_scope.

Section X.
Context {T : Type} {NT : Num T} {LT : NumLaws T}.
Variable fmt : nat -> T -> string.
Variables mean median : list T -> T.

Lemma nan_nan : val (n_nan : T) = XNaN.
Proof. apply l_nan. Qed.

(** a property over two points, printable unless both values are NaN *)
Lemma print_ex (x y : T) : exists p : gprop T, preach p /\ reachable (p_params p) /\ p_data p = [x; y] /\ (limited p <-> val x <> XNaN \/ val y <> XNaN).
Proof.
  destruct small_grid as (g & Hr & Hs).
  assert (N : new_gprop (EIs DISK_RADIUS) (EIs DEGREE) (PArr "float64" [1; 2; 1] [SF x; SF y]) (EIs g) = Ok (fresh DISK_RADIUS DEGREE g [SF x; SF y])).
  { apply new_gprop_iff. exists DISK_RADIUS, DEGREE, g, [SF x; SF y]. rewrite Hs. auto 6. }
  exists (fresh DISK_RADIUS DEGREE g [SF x; SF y]). split; [eapply pr_new; [exact (data_wf x y)|exact N]|]. split; [exact Hr|].
  assert (D : p_data (fresh DISK_RADIUS DEGREE g [SF x; SF y]) = [x; y]) by reflexivity. split; [exact D|].
  rewrite (unprintable_new _ _ _ _ (data_wf x y) N), D. cbn [In]. split.
  - intros (z & [<-|[<-|[]]] & Hz); auto.
  - intros [H|H]; eauto.
Qed.
Theorem prop_prints_refuted : ~ (forall p : gprop T, preach p -> exists t, gprop_repr fmt mean median p = Ok t).
Proof.
  intros H. destruct (print_ex n_nan n_nan) as (p & Hp & _ & _ & Hl). destruct (H p Hp) as [t Ht].
  rewrite (proj2 (prop_prints fmt mean median Hp)) in Ht; [discriminate Ht|]. intros L. apply Hl in L. destruct L as [L|L]; apply L; exact nan_nan.
Qed.

(** __str__, which adds the parameters *)
Theorem str_prints (p : gprop T) : preach p -> reachable (p_params p) ->
  (limited p -> exists t, gprop_str fmt mean median p = Ok t) /\ (~ limited p -> gprop_str fmt mean median p = Err TypeError).
Proof.
  intros Hp Hr. destruct (prop_prints fmt mean median Hp) as [A B]. destruct (params_print fmt Hr) as [u Hu]. unfold gprop_repr in A, B. unfold gprop_str.
  split; intros L.
  - destruct (A L) as [t Ht]. destruct (gprop_lines fmt mean median p) as [l|]; [|discriminate Ht]. cbn [bind]. rewrite Hu. cbn [bind]. eauto.
  - specialize (B L). destruct (gprop_lines fmt mean median p) as [l|]; [discriminate B|]. exact B.
Qed.

(** a mask set on a gradient without measurement *)
Lemma mask_ex : exists g : ggrad T, greach g /\ limited (gg_prop g) /\ gg_meas g = None /\ p_mask (gg_prop g) <> None.
Proof.
  destruct small_grid as (gp & Hr & Hs). set (x := n_one : T).
  assert (N : new_grad (PArr "float64" [1; 2; 1] [SF x; SF x]) (EIs gp) (PInt 0) = Ok (mkGG (fresh GRADIENT NONE gp [SF x; SF x]) (PInt 0) None None None None)).
  { apply grad_new_iff. exists gp, [SF x; SF x]. rewrite Hs. split; [reflexivity|]. split; [reflexivity|]. split; [left; constructor|reflexivity]. }
  assert (N' : new_gprop (EIs GRADIENT) (EIs NONE) (PArr "float64" [1; 2; 1] [SF x; SF x]) (EIs gp) = Ok (fresh GRADIENT NONE gp [SF x; SF x])).
  { apply new_gprop_iff. exists GRADIENT, NONE, gp, [SF x; SF x]. rewrite Hs. auto 6. }
  assert (L : limited (fresh GRADIENT NONE gp [SF x; SF x])).
  { rewrite (unprintable_new _ _ _ _ (data_wf x x) N'). exists x. split; [left; reflexivity|]. unfold x. rewrite val_one. discriminate. }
  set (g0 := mkGG _ _ _ _ _ _) in N. set (v := PArr "bool" [1; 2; 1] [SB true; SB false] : pyval T).
  exists (do_gop g0 (GProp (PSetMask v))). split; [|split; [|split]].
  - apply gr_op; [|eapply gr_new; [exact (data_wf x x)|exact N]]. split; [reflexivity|]. split; [discriminate|intros _; repeat constructor].
  - cbn [do_gop with_prop gg_prop do_pop]. destruct (set_mask_limits (gg_prop g0) v) as (A & B & _). unfold limited. rewrite A, B. exact L.
  - reflexivity.
  - cbn [do_gop with_prop gg_prop do_pop]. rewrite (proj2 (set_mask_ok _ (with_mask (gg_prop g0) (Some (mkMarr "bool" [1; 2; 1] [SB true; SB false]))) _)).
    + discriminate.
    + exists [SB true; SB false]. unfold v, g0. cbn [gg_prop]. unfold fresh. cbn [with_mask with_colors with_limits p_shape]. rewrite Hs. auto.
Qed.
Theorem grad_prints_refuted : ~ (forall g : ggrad T, greach g -> limited (gg_prop g) -> exists t, ggrad_repr fmt mean median g = Ok t).
Proof.
  intros H. destruct mask_ex as (g & Hg & Hl & Hm & Hk). destruct (H g Hg Hl) as [t Ht].
  rewrite (proj2 (grad_prints fmt mean median Hg)) in Ht; [discriminate Ht|]. intros (_ & [P|(P & _)]); contradiction.
Qed.
End X.

(** a grid with a gradient at a position that is not a number *)
Lemma grid_unprintable : exists s, sreach env2 s /\ ~ printable_grid s /\ limited (s_dr s) /\ limited (s_tilt s) /\ limited (s_inc s).
Proof.
  set (has := fun p : gprop f64 => match p_vmin p, p_vmax p with Some _, Some _ => true | _, _ => false end).
  assert (Hh : forall p, has p = true -> limited p) by (intros p; unfold has, limited; destruct (p_vmin p), (p_vmax p); try discriminate; split; discriminate).
  destruct (@holds_in [OEclipse (PInt 2) (PInt 3) (PInt 0); OAdd nan3 (F [1]%Z) None None] (fun s => has (s_dr s) && has (s_tilt s) && has (s_inc s) && match s_grads s with Some [g] => negb (has (gg_prop g)) | _ => false end)) as (s & Hs & Ht).
  - repeat constructor.
  - vm_compute. exact eq_refl.
  - apply andb_prop in Ht as [Ht Hg]. apply andb_prop in Ht as [Ht H3]. apply andb_prop in Ht as [H1 H2].
    exists s. split; [exact Hs|]. split; [|auto]. intros (_ & _ & _ & H). destruct (s_grads s) as [[|g [|]]|] eqn:Eg; try discriminate Hg.
    destruct (H _ g eq_refl (or_introl eq_refl)) as [L _]. unfold limited in L. unfold has in Hg. destruct L as [A B]. destruct (p_vmin (gg_prop g)); [|contradiction]. destruct (p_vmax (gg_prop g)); [discriminate Hg|contradiction].
Qed.
Lemma grid_printable : exists s, sreach env2 s /\ printable_grid s /\ grads s <> [].
Proof.
  set (has := fun p : gprop f64 => match p_vmin p, p_vmax p with Some _, Some _ => true | _, _ => false end).
  assert (Hh : forall p, has p = true -> limited p) by (intros p; unfold has, limited; destruct (p_vmin p), (p_vmax p); try discriminate; split; discriminate).
  set (full := fun g : ggrad f64 => match gg_meas g, gg_err g, gg_orb g, gg_trans g with Some _, Some _, Some _, Some _ => true | _, _, _, _ => false end).
  destruct (@holds_in ops2 (fun s => has (s_dr s) && has (s_tilt s) && has (s_inc s) && some_grads s && forallb (fun g => has (gg_prop g) && (full g || match p_mask (gg_prop g) with None => true | _ => false end)) (grads s))) as (s & Hs & Ht).
  - exact ops2_wf.
  - vm_compute. exact eq_refl.
  - apply andb_prop in Ht as [Ht Hg]. apply andb_prop in Ht as [Ht Hn]. apply andb_prop in Ht as [Ht H3]. apply andb_prop in Ht as [H1 H2].
    exists s. split; [exact Hs|]. split; [|unfold some_grads in Hn; destruct (grads s); [discriminate Hn|discriminate]].
    split; [auto|]. split; [auto|]. split; [auto|]. intros gs g Eg Hi. unfold grads in Hg. rewrite Eg in Hg. rewrite forallb_forall in Hg. specialize (Hg g Hi).
    apply andb_prop in Hg as [A B]. split; [auto|]. apply orb_prop in B as [B|B].
    + right. unfold full in B. unfold complete. destruct (gg_meas g); [|discriminate B]. destruct (gg_err g); [|discriminate B]. destruct (gg_orb g); [|discriminate B]. destruct (gg_trans g); [|discriminate B]. repeat split; discriminate.
    + left. destruct (p_mask (gg_prop g)); [discriminate B|reflexivity].
Qed.
Theorem grid_prints_refuted fmt mean median : ~ (forall (E : env f64) (s : shallot f64), sreach E s -> exists t, shallot_repr fmt mean median s = Ok t).
Proof.
  intros H. destruct grid_unprintable as (s & Hs & Hn & _). destruct (H env2 s Hs) as [t Ht].
  rewrite (proj2 (grid_prints fmt mean median Hs)) in Ht; [discriminate Ht|exact Hn].
Qed.
