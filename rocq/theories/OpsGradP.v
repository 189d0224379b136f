(** Adding and removing gradients, and the gradient fit. *)
From Coq Require Import ZArith Reals List Bool String Lia Permutation Sorted Lra.
From Verif Require Import Num NumP Py SpecNum Validate ValidateP Ring RingP RingSystem RingSystemP FS GridParams SpecGrid GridParamsP GridDiag Names GridProp SpecProp GridPropP GridGradP Geometry
  Build SpecBuild BuildP BuildQP Shallot BuildGP BuildGridP BuildCP AddLaws ShallotOps SpecOps OpsP OpsReadP OpsEditP.
Import ListNotations.
Set Implicit Arguments.
Local Open Scope list_scope.

(** *** removing *)
Section R.
Context {A : Type}.
Implicit Type l : list A.
Fixpoint kept (k : nat) l (is : list Z) : list A :=
  match l with [] => [] | a :: l => if existsb (Z.eqb (Z.of_nat k)) is then kept (S k) l is else a :: kept (S k) l is end.
Lemma kept_app is l m : forall k, kept k (l ++ m) is = kept k l is ++ kept (k + List.length l) m is.
Proof.
  induction l as [|a l IH]; intros k; cbn [app kept List.length]; [now rewrite Nat.add_0_r|]. rewrite IH, Nat.add_succ_comm. destruct (existsb _ is); reflexivity.
Qed.
Lemma kept_all l is : forall k, (forall z, In z is -> (z < Z.of_nat k)%Z) -> kept k l is = l.
Proof.
  induction l as [|a l IH]; intros k H; cbn [kept]; auto. destruct (existsb _ is) eqn:Ex.
  - apply existsb_exists in Ex as (z & Hz & Ez). apply Z.eqb_eq in Ez. specialize (H z Hz). lia.
  - f_equal. apply IH. intros z Hz. specialize (H z Hz). lia.
Qed.
Lemma kept_ext l is is' : (forall z, In z is <-> In z is') -> forall k, kept k l is = kept k l is'.
Proof.
  intros H. induction l as [|a l IH]; intros k; cbn [kept]; auto. rewrite IH.
  replace (existsb (Z.eqb (Z.of_nat k)) is') with (existsb (Z.eqb (Z.of_nat k)) is); auto. apply eq_iff_eq_true. rewrite !existsb_exists.
  split; intros (z & Hz & Ez); exists z; split; auto; now apply H.
Qed.
Lemma kept_range l is is' : forall k, (forall z, (Z.of_nat k <= z < Z.of_nat (k + List.length l))%Z -> (In z is <-> In z is')) -> kept k l is = kept k l is'.
Proof.
  induction l as [|a l IH]; intros k H; cbn [kept]; auto. rewrite (IH (S k)) by (intros z Hz; apply H; cbn [List.length]; lia).
  replace (existsb (Z.eqb (Z.of_nat k)) is') with (existsb (Z.eqb (Z.of_nat k)) is); auto. apply eq_iff_eq_true. rewrite !existsb_exists.
  assert (HH := H (Z.of_nat k)). cbn [List.length] in HH. split; intros (z & Hz & Ez); exists z; split; auto; apply Z.eqb_eq in Ez as E'; subst z; apply HH; auto; lia.
Qed.
Lemma kept_prefix l is i : (forall z, In z is -> (z < Z.of_nat i)%Z) -> i <= List.length l -> kept 0 l is = kept 0 (firstn i l) is ++ skipn i l.
Proof.
  intros H Hi. rewrite <- (firstn_skipn i l) at 1. rewrite kept_app. f_equal. rewrite firstn_length, Nat.min_l by auto. cbn [Nat.add]. now apply kept_all.
Qed.
Lemma kept_delete l is i : (forall z, In z is -> (z < Z.of_nat i)%Z) -> i < List.length l -> kept 0 (remove_at i l) is = kept 0 l (Z.of_nat i :: is).
Proof.
  intros H Hi. assert (Hf : List.length (firstn i l) = i) by (rewrite firstn_length; lia).
  rewrite (@kept_prefix (remove_at i l) is i) by (auto; unfold remove_at; rewrite app_length, Hf; lia).
  unfold remove_at. rewrite <- Hf at 1. rewrite firstn_app, Nat.sub_diag, firstn_all, firstn_O, app_nil_r.
  rewrite skipn_app, Hf, Nat.sub_diag. rewrite (skipn_all2 (firstn i l)) by lia. cbn [app skipn].
  destruct (skipn i l) as [|x r] eqn:Es; [assert (L := f_equal (@List.length _) Es); rewrite skipn_length in L; cbn in L; lia|].
  rewrite <- (firstn_skipn i l) at 3. rewrite Es, kept_app, Hf. cbn [Nat.add kept existsb]. rewrite Z.eqb_refl. cbn [orb].
  rewrite (@kept_all r (Z.of_nat i :: is)) by (intros z [<-|Hz]; [lia|specialize (H z Hz); lia]).
  assert (X : skipn (S i) l = r).
  { replace (S i) with (i + 1) by lia. rewrite <- skipn_skipn'. rewrite Es. reflexivity. }
  change (kept 0 (firstn i l) is ++ skipn (S i) l = kept 0 (firstn i l) (Z.of_nat i :: is) ++ r). rewrite X. f_equal. apply kept_range. intros z Hz. rewrite Hf in Hz. cbn [In]. split; auto. intros [<-|]; auto. lia.
Qed.
Lemma delete_sorted is : forall l, StronglySorted Z.gt is -> (forall z, In z is -> (0 <= z < Z.of_nat (List.length l))%Z) -> delete_all l is = (kept 0 l is, Ok tt).
Proof.
  induction is as [|i is IH]; intros l Hs Hb; cbn [delete_all].
  - rewrite kept_all by (intros z []). reflexivity.
  - inversion Hs as [|? ? Hs' Hf]; subst. rewrite Forall_forall in Hf. assert (Hi := Hb i (or_introl eq_refl)).
    replace (Z.ltb i 0 || Z.leb (Z.of_nat (List.length l)) i) with false by (symmetry; apply orb_false_iff; split; [apply Z.ltb_ge|apply Z.leb_gt]; lia).
    assert (Hn : Z.to_nat i < List.length l) by lia.
    rewrite IH; auto.
    + rewrite kept_delete; auto; [rewrite Z2Nat.id by lia; reflexivity|]. intros z Hz. specialize (Hf z Hz). lia.
    + intros z Hz. specialize (Hf z Hz). assert (Hz' := Hb z (or_intror Hz)). rewrite remove_at_length by auto. lia.
Qed.
Lemma kept_pick l is : forall pre, pick (pre ++ l) (filter (fun k => negb (existsb (Z.eqb (Z.of_nat k)) is)) (seq (List.length pre) (List.length l))) = kept (List.length pre) l is.
Proof.
  induction l as [|a l IH]; intros pre; cbn [List.length seq filter kept]; [reflexivity|].
  assert (R : pick (pre ++ a :: l) (filter (fun k => negb (existsb (Z.eqb (Z.of_nat k)) is)) (seq (S (List.length pre)) (List.length l))) = kept (S (List.length pre)) l is).
  { assert (X := IH (pre ++ [a])). rewrite app_length, <- app_assoc in X. cbn [List.length app] in X. rewrite Nat.add_1_r in X. exact X. }
  destruct (existsb _ is); cbn [negb]; auto. cbn [pick flat_map]. rewrite nth_error_app2, Nat.sub_diag by lia. cbn [nth_error app]. f_equal. exact R.
Qed.
Lemma pick_without l is : pick l (without (List.length l) is) = kept 0 l is.
Proof. exact (kept_pick l is []). Qed.
Lemma delete_all_length is : forall l l' u, delete_all l is = (l', Ok u) -> List.length l' + List.length is = List.length l.
Proof.
  induction is as [|i is IH]; intros l l' u; cbn [delete_all List.length].
  - intros H. injection H as <- _. lia.
  - destruct (_ || _) eqn:Eb; [discriminate|]. apply orb_false_iff in Eb as [E1 E2]. apply Z.ltb_ge in E1. apply Z.leb_gt in E2. intros H. apply IH in H.
    rewrite remove_at_length in H by lia. lia.
Qed.
Lemma delete_all_err is : forall l l' e, delete_all l is = (l', Err e) -> e = IndexError.
Proof. induction is as [|i is IH]; intros l l' e; cbn [delete_all]; [discriminate|]. destruct (_ || _); [congruence|apply IH]. Qed.
Lemma remove_at_le n l : List.length (remove_at n l) <= List.length l.
Proof. unfold remove_at. rewrite app_length, firstn_length, skipn_length. lia. Qed.
Lemma delete_all_le is : forall l, List.length (fst (delete_all l is)) <= List.length l.
Proof.
  induction is as [|i is IH]; intros l; cbn [delete_all fst]; auto. destruct (_ || _); cbn [fst]; auto. etransitivity; [apply IH|apply remove_at_le].
Qed.
Lemma delete_all_lt i is l : (0 <= i < Z.of_nat (List.length l))%Z -> List.length (fst (delete_all l (i :: is))) < List.length l.
Proof.
  intros H. cbn [delete_all]. replace (Z.ltb i 0 || Z.leb (Z.of_nat (List.length l)) i) with false by (symmetry; apply orb_false_iff; split; [apply Z.ltb_ge|apply Z.leb_gt]; lia).
  assert (X := delete_all_le is (remove_at (Z.to_nat i) l)). rewrite remove_at_length in X by lia. lia.
Qed.
Lemma delete_all_sub is : forall l (P : A -> Prop), Forall P l -> Forall P (fst (delete_all l is)).
Proof. intros. now apply delete_all_forall. Qed.
End R.
Lemma remove_at_map A B (f : A -> B) n l : remove_at n (map f l) = map f (remove_at n l).
Proof. unfold remove_at. rewrite map_app, firstn_map, skipn_map. reflexivity. Qed.
Lemma delete_all_map A B (f : A -> B) is : forall l, delete_all (map f l) is = (map f (fst (delete_all l is)), snd (delete_all l is)).
Proof.
  induction is as [|i is IH]; intros l; cbn [delete_all]; [reflexivity|]. rewrite map_length. destruct (_ || _); [reflexivity|]. rewrite remove_at_map. apply IH.
Qed.
Lemma remove_at_NoDup A n (l : list A) : NoDup l -> NoDup (remove_at n l).
Proof.
  revert n; induction l as [|a l IH]; intros n H; [unfold remove_at; rewrite firstn_nil, skipn_nil; exact H|]. inversion H; subst. destruct n as [|n].
  - unfold remove_at. cbn [firstn skipn app]. destruct l; auto.
  - change (remove_at (S n) (a :: l)) with (a :: remove_at n l). constructor; [|now apply IH]. intros X. apply H2. unfold remove_at in X.
    rewrite <- (firstn_skipn n l). apply in_app_iff in X as [X|X]; apply in_app_iff; auto. right. replace (S n) with (n + 1) in X by lia. rewrite <- skipn_skipn' in X. destruct (skipn n l); [destruct X|]. right. exact X.
Qed.
Lemma delete_all_NoDup A is : forall l : list A, NoDup l -> NoDup (fst (delete_all l is)).
Proof. induction is as [|i is IH]; intros l H; cbn [delete_all]; auto. destruct (_ || _); auto. apply IH. now apply remove_at_NoDup. Qed.

(** descending order *)
Lemma insert_perm z l : Permutation (insert_desc z l) (z :: l).
Proof. induction l as [|a l IH]; cbn [insert_desc]; auto. destruct (Z.ltb z a); auto. rewrite IH. apply perm_swap. Qed.
Lemma sort_perm l : Permutation (sort_desc l) l.
Proof. induction l as [|a l IH]; cbn [sort_desc fold_right]; auto. rewrite insert_perm. now constructor. Qed.
Lemma insert_sorted z l : StronglySorted Z.ge l -> StronglySorted Z.ge (insert_desc z l).
Proof.
  induction 1 as [|a l Hs IH Hf]; cbn [insert_desc]; [constructor; constructor|]. destruct (Z.ltb_spec z a).
  - constructor; auto. rewrite Forall_forall in *. intros x Hx. apply (Permutation_in _ (insert_perm z l)) in Hx as [<-|Hx]; [lia|auto].
  - constructor; [constructor; auto|]. constructor; [lia|]. rewrite Forall_forall in *. intros x Hx. specialize (Hf x Hx). lia.
Qed.
Lemma sort_sorted l : StronglySorted Z.ge (sort_desc l).
Proof. induction l; cbn [sort_desc fold_right]; [constructor|]. now apply insert_sorted. Qed.
Lemma sort_strict l : NoDup l -> StronglySorted Z.gt (sort_desc l).
Proof.
  intros H. assert (N : NoDup (sort_desc l)) by (eapply Permutation_NoDup; [apply Permutation_sym, sort_perm|auto]). revert N. generalize (sort_sorted l). generalize (sort_desc l). clear.
  induction 1 as [|a l Hs IH Hf]; intros N; constructor; inversion N; subst; auto. rewrite Forall_forall in *. intros x Hx. specialize (Hf x Hx).
  assert (x <> a) by congruence. lia.
Qed.
Lemma filter_complement A (f : A -> bool) l : List.length (filter f l) + List.length (filter (fun x => negb (f x)) l) = List.length l.
Proof. induction l as [|a l IH]; cbn; auto. destruct (f a); cbn; lia. Qed.

(** too many removals: an index that was not named is lost *)
Lemma duplicates_lose n is ks u : ~ NoDup is -> (forall z, In z is -> (0 <= z < Z.of_nat n)%Z) -> delete_all (seq 0 n) (sort_desc is) = (ks, Ok u) ->
  exists k, k < n /\ ~ In (Z.of_nat k) is /\ ~ In k ks.
Proof.
  intros Hd Hb H. assert (Hlen := delete_all_length _ _ H). rewrite seq_length, (Permutation_length (sort_perm is)) in Hlen.
  assert (Nk : NoDup ks). { assert (X := delete_all_NoDup (sort_desc is) (seq_NoDup n 0)). rewrite H in X. exact X. }
  destruct (existsb (fun k => negb (existsb (Nat.eqb k) ks)) (without n is)) eqn:Ex.
  - apply existsb_exists in Ex as (k & Hk & Hn). unfold without in Hk. apply filter_In in Hk as [Hk Hm]. apply in_seq in Hk. exists k. split; [lia|]. split.
    + intros Hi. apply negb_true_iff in Hm. assert (X : existsb (Z.eqb (Z.of_nat k)) is = true) by (apply existsb_exists; exists (Z.of_nat k); split; auto; apply Z.eqb_refl). congruence.
    + intros Hi. apply negb_true_iff in Hn. assert (X : existsb (Nat.eqb k) ks = true) by (apply existsb_exists; exists k; split; auto; apply Nat.eqb_refl). congruence.
  - exfalso. assert (Hincl : incl (without n is) ks).
    { intros k Hk. destruct (existsb (Nat.eqb k) ks) eqn:Ek; [apply existsb_exists in Ek as (j & Hj & Ej); apply Nat.eqb_eq in Ej; congruence|].
      assert (X : existsb (fun k => negb (existsb (Nat.eqb k) ks)) (without n is) = true) by (apply existsb_exists; exists k; rewrite Ek; auto). congruence. }
    assert (Hw : List.length (without n is) <= List.length ks) by (apply NoDup_incl_length; auto; unfold without; apply NoDup_filter, seq_NoDup).
    assert (Hc := filter_complement (fun k => existsb (Z.eqb (Z.of_nat k)) is) (seq 0 n)). rewrite seq_length in Hc. fold (without n is) in Hc.
    set (named := filter (fun k => existsb (Z.eqb (Z.of_nat k)) is) (seq 0 n)) in *.
    assert (Hnamed : List.length is <= List.length named) by lia.
    (* the named positions are among the indices, each once *)
    assert (Nn : NoDup (map Z.of_nat named)) by (apply FinFun.Injective_map_NoDup; [intros a b X; lia|unfold named; apply NoDup_filter, seq_NoDup]).
    assert (In1 : incl (map Z.of_nat named) is).
    { intros z Hz. apply in_map_iff in Hz as (k & <- & Hk). unfold named in Hk. apply filter_In in Hk as [_ Hk]. apply existsb_exists in Hk as (z & Hz & Ez). apply Z.eqb_eq in Ez. congruence. }
    apply Hd. apply (NoDup_incl_NoDup Nn); [now rewrite map_length|auto].
Qed.

Section O.
Context {T : Type} {NT : Num T} {LT : NumLaws T} {AL : AddLaws T} (E : env T).
Notation pyval := (pyval T).
Notation shallot := (shallot T).

Lemma ints_indices is : ints_of (indices is : pyval) = is.
Proof. unfold ints_of, indices. rewrite map_map. cbn [int_scal]. apply map_id. Qed.
Lemma indices_accepted is n : (0 < n)%Z -> (Z.abs n <= 2 ^ 53)%Z -> (forall z, In z is -> (0 <= z < n)%Z) ->
  array (indices is : pyval) (Some (PInt 0)) (Some (PInt (n - 1))) false (Some "int64"%string) (Some 1%Z) = Ok (indices is).
Proof.
  intros Hn Hs H. unfold indices. apply array_ndarray; cbn [osmall small onum]; try lia; try solve [left; constructor].
  - intros s Hi. apply in_map_iff in Hi as (z & <- & Hz). specialize (H z Hz). cbn [ssmall]. lia.
  - right. cbn [eff_lo eff_up value xlt]. split; [intros X; apply lt_IZR in X; lia|]. intros s Hi. apply in_map_iff in Hi as (z & <- & Hz). specialize (H z Hz).
    cbn [respects svalue xlt]. split; intros X; apply lt_IZR in X; lia.
  - intros m Hm. injection Hm as <-. reflexivity.
  - intros d Hd. injection Hd as <-. reflexivity.
Qed.

(** C45, removing *)
Theorem remove_exact (s : shallot) gs is : s_grads s = Some gs -> (Z.of_nat (List.length gs) <= 2 ^ 53)%Z -> gs <> [] -> NoDup is ->
  (forall z, In z is -> (0 <= z < Z.of_nat (List.length gs))%Z) ->
  remove_gradients (indices is) s = (with_grads s (Some (pick gs (without (List.length gs) is))) None, Ok tt).
Proof.
  intros Eg Hs Hne Hd Hb. unfold remove_gradients. rewrite Eg.
  assert (0 < Z.of_nat (List.length gs))%Z by (destruct gs; [congruence|cbn [List.length]; lia]).
  rewrite indices_accepted by (auto; lia). rewrite ints_indices.
  assert (P := sort_perm is). rewrite delete_sorted; [|now apply sort_strict|intros z Hz; apply Hb; eapply Permutation_in; eauto].
  rewrite pick_without. rewrite (@kept_ext _ gs (sort_desc is) is) by (intros z; split; apply Permutation_in; auto; now apply Permutation_sym). reflexivity.
Qed.
(** C46 *)
Theorem remove_repeated (s s' : shallot) gs is r : s_grads s = Some gs -> (Z.of_nat (List.length gs) <= 2 ^ 53)%Z -> ~ NoDup is ->
  (forall z, In z is -> (0 <= z < Z.of_nat (List.length gs))%Z) ->
  remove_gradients (indices is) s = (s', r) ->
  exists ks, NoDup ks /\ Forall (fun k => k < List.length gs) ks /\
    ((r = Err IndexError /\ s' = with_grads s (Some (pick gs ks)) (s_fit s) /\ List.length ks < List.length gs) \/
     (r = Ok tt /\ s' = with_grads s (Some (pick gs ks)) None /\ List.length ks + List.length is = List.length gs /\
      exists k, k < List.length gs /\ ~ In (Z.of_nat k) is /\ ~ In k ks)).
Proof.
  intros Eg Hs Hd Hb. unfold remove_gradients. rewrite Eg.
  assert (Hne : is <> []) by (intros ->; apply Hd; constructor).
  assert (Hn : (0 < Z.of_nat (List.length gs))%Z) by (destruct is as [|z is]; [congruence|]; specialize (Hb z (or_introl eq_refl)); lia).
  rewrite indices_accepted by (auto; lia). rewrite ints_indices.
  set (lab := delete_all (seq 0 (List.length gs)) (sort_desc is)).
  assert (Hgs : delete_all gs (sort_desc is) = (pick gs (fst lab), snd lab)).
  { assert (G0 : exists g0 : ggrad T, True) by (clear -Hn; destruct gs; [cbn in Hn; lia|eauto]). destruct G0 as [g0 _].
    assert (M : map (fun k => nth k gs g0) (seq 0 (List.length gs)) = gs).
    { apply nth_error_ext'; [now rewrite map_length, seq_length|]. intros i Hi. rewrite map_length, seq_length in Hi. rewrite nth_error_map, nth_error_seq' by auto. cbn [option_map Nat.add].
      symmetry. now apply nth_error_nth'. }
    rewrite <- M at 1. rewrite delete_all_map. fold lab. f_equal.
    assert (F : Forall (fun k => k < List.length gs) (fst lab)) by (apply delete_all_forall, Forall_forall; intros k Hk; apply in_seq in Hk; lia).
    clear -F. induction F as [|k ks Hk F IH]; cbn [map pick flat_map]; auto. rewrite (nth_error_nth' gs g0 Hk). cbn [app]. f_equal. exact IH. }
  rewrite Hgs. intros HR. exists (fst lab). split; [apply delete_all_NoDup, seq_NoDup|].
  assert (F : Forall (fun k => k < List.length gs) (fst lab)) by (apply delete_all_forall, Forall_forall; intros k Hk; apply in_seq in Hk; lia).
  split; auto. destruct lab as [ks [[]|e]] eqn:El; cbn [fst snd] in *.
  - right. injection HR as <- <-. split; auto. split; auto. unfold lab in El. split; [|exact (duplicates_lose _ Hd Hb El)].
    assert (L := delete_all_length _ _ El). rewrite seq_length, (Permutation_length (sort_perm is)) in L. lia.
  - left. assert (e = IndexError) as -> by exact (delete_all_err _ _ El). injection HR as <- <-. split; auto. split; auto.
    assert (X : List.length (fst lab) < List.length gs); [|rewrite El in X; exact X].
    unfold lab. destruct (sort_desc is) as [|i is'] eqn:Ei; [assert (P := sort_perm is); rewrite Ei in P; apply Permutation_nil in P; congruence|].
    assert (P : In i is) by (apply (Permutation_in _ (sort_perm is)); rewrite Ei; now left).
    assert (Y := delete_all_lt is' (seq 0 (List.length gs)) (i := i)). rewrite seq_length in Y. apply Y. now apply Hb.
Qed.
End O.
