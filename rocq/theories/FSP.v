(** Facts about the file system model. *)
From Coq Require Import ZArith List Bool String Ascii Lia.
From Verif Require Import Num Py FS.
Import ListNotations.
Set Implicit Arguments.

Fixpoint slashfree (s : string) : bool :=
  match s with EmptyString => true | String c r => negb (Ascii.eqb c "/") && slashfree r end.

Lemma parent_slashfree s : slashfree s = true -> parent s = None.
Proof.
  induction s as [|c s IH]; cbn; auto. intros H. apply andb_prop in H. destruct H as [H1 H2].
  rewrite IH by auto. destruct (Ascii.eqb c "/"); [discriminate|reflexivity].
Qed.
Lemma parent_under d a : slashfree a = true -> parent (under d a) = Some d.
Proof.
  intros Ha. unfold under. induction d as [|c d IH]; cbn.
  - rewrite (parent_slashfree _ Ha). reflexivity.
  - cbn in IH. rewrite IH. reflexivity.
Qed.
Lemma length_app a b : String.length (a ++ b) = String.length a + String.length b.
Proof. induction a; cbn; auto. Qed.
Lemma append_inj a b c : (a ++ b = a ++ c)%string -> b = c.
Proof. induction a; cbn; auto. intros H; inversion H; auto. Qed.
Lemma append_assoc a b c : ((a ++ b) ++ c = a ++ (b ++ c))%string.
Proof. induction a; cbn; congruence. Qed.
Lemma under_inj d a b : under d a = under d b -> a = b.
Proof. unfold under. intros H. apply append_inj in H. cbn in H. congruence. Qed.
Lemma under_neq d a : under d a <> d.
Proof.
  unfold under. intros H. apply (f_equal String.length) in H. rewrite !length_app in H. cbn in H. lia.
Qed.
Lemma under_nonempty d a : under d a <> EmptyString.
Proof. unfold under. destruct d; cbn; discriminate. Qed.

Section F.
Context {T : Type}.
Notation fs := (fs T).

Lemma get_cons (f : fs) p q n : fs_get ((q, n) :: f) p = if String.eqb p q then Some n else fs_get f p.
Proof. reflexivity. Qed.
Lemma get_same (f : fs) p n : fs_get ((p, n) :: f) p = Some n.
Proof. cbn. now rewrite String.eqb_refl. Qed.
Lemma get_other (f : fs) p q n : p <> q -> fs_get ((q, n) :: f) p = fs_get f p.
Proof. intros H. cbn. destruct (String.eqb_spec p q); congruence. Qed.

(** what a step may change *)
Definition touched (s : step T) (p : string) : Prop :=
  match s with
  | SMkdir q | SMkdirIf q | SWrite q _ => p = q
  | SRmtree q | SRmSome q _ => below q p = true
  | SRaise _ => False
  end.

Lemma get_filter (f : fs) (g : string -> bool) p :
  fs_get (filter (fun qn => g (fst qn)) f) p = if g p then fs_get f p else None.
Proof.
  induction f as [|[q n] f IH]; cbn; [destruct (g p); auto|].
  destruct (g q) eqn:Eg; cbn; destruct (String.eqb_spec p q) as [->|]; rewrite ?Eg; auto.
  rewrite IH, Eg. reflexivity.
Qed.

Lemma mkdir_other (f : fs) q p : p <> q -> fs_get (fst (fs_mkdir f q)) p = fs_get f p.
Proof.
  intros H. unfold fs_mkdir. destruct (String.eqb q ""); auto. destruct (fs_exists f q); auto.
  destruct (parent_ok f q); auto. cbn [fst]. apply get_other; auto.
Qed.

Lemma exec_other (f : fs) s p : ~ touched s p -> fs_get (fst (exec f s)) p = fs_get f p.
Proof.
  destruct s; cbn [touched exec]; intros H.
  - apply mkdir_other; auto.
  - destruct (fs_exists f p0); auto. apply mkdir_other; auto.
  - destruct (fs_isdir f p0); auto. destruct (parent_ok f p0); auto. cbn [fst]. apply get_other; auto.
  - cbn [fst]. rewrite (get_filter f (fun q => negb (below p0 q)) p). destruct (below p0 p); [congruence|reflexivity].
  - cbn [fst]. rewrite (get_filter f (fun q => negb (below p0 q) || keep q) p). destruct (below p0 p); [congruence|reflexivity].
  - reflexivity.
Qed.

Lemma run_other l : forall (f : fs) p, (forall s, In s l -> ~ touched s p) -> fs_get (fst (run f l)) p = fs_get f p.
Proof.
  induction l as [|s l IH]; intros f p H; cbn; auto.
  assert (Hs := exec_other f s p (H s (or_introl eq_refl))).
  destruct (exec f s) as [f' [[]|e]]; cbn [fst] in *; auto.
  rewrite IH; auto. intros t Ht. apply H. now right.
Qed.

Lemma run_app l1 : forall l2 (f f' : fs), run f l1 = (f', Ok tt) -> run f (l1 ++ l2) = run f' l2.
Proof.
  induction l1 as [|s l IH]; intros l2 f f' H; cbn in *; [inversion H; auto|].
  destruct (exec f s) as [g [[]|e]]; [apply IH; auto|inversion H].
Qed.
Lemma run_app_err l1 : forall l2 (f f' : fs) e, run f l1 = (f', Err e) -> run f (l1 ++ l2) = (f', Err e).
Proof.
  induction l1 as [|s l IH]; intros l2 f f' e H; cbn in *; [inversion H|].
  destruct (exec f s) as [g [[]|e']]; [eapply IH; eauto|auto].
Qed.
Lemma run_app_ok l1 : forall l2 (f f' : fs), run f (l1 ++ l2) = (f', Ok tt) ->
  exists g, run f l1 = (g, Ok tt) /\ run g l2 = (f', Ok tt).
Proof.
  induction l1 as [|s l IH]; intros l2 f f' H; cbn in *; [eauto|].
  destruct (exec f s) as [g [[]|e']]; [apply IH; auto|inversion H].
Qed.

(** a directory, once there, stays while nothing is removed *)
Lemma exec_keeps_dir (f : fs) s d : (forall q, s <> SRmtree q) -> (forall q k, s <> SRmSome q k) -> fs_get f d = Some NDir -> fs_get (fst (exec f s)) d = Some NDir.
Proof.
  intros Hr Hr' Hd. destruct s; cbn [exec].
  - unfold fs_mkdir. destruct (String.eqb p ""); auto. destruct (fs_exists f p); auto. destruct (parent_ok f p); auto. cbn [fst]. rewrite get_cons.
    destruct (String.eqb d p); auto.
  - destruct (fs_exists f p) eqn:E; auto. unfold fs_mkdir. destruct (String.eqb p ""); auto. rewrite E. destruct (parent_ok f p); auto. cbn [fst]. rewrite get_cons.
    destruct (String.eqb d p); auto.
  - destruct (fs_isdir f p) eqn:E; auto. destruct (parent_ok f p); auto. cbn [fst]. rewrite get_cons.
    destruct (String.eqb_spec d p); auto. subst. unfold fs_isdir in E. rewrite Hd in E. discriminate.
  - now destruct (Hr p).
  - now destruct (Hr' p keep).
  - auto.
Qed.

(** directory [d] can be used: it exists, or can be made *)
Definition usable (f : fs) (d : string) : Prop :=
  fs_get f d = Some NDir \/ (fs_get f d = None /\ d <> EmptyString /\ parent_ok f d = true).

Lemma mkdirif_ok (f f' : fs) d : exec f (SMkdirIf d) = (f', Ok tt) ->
  (f' = f /\ fs_exists f d = true) \/ (f' = (d, NDir) :: f /\ fs_get f d = None).
Proof.
  cbn. destruct (fs_exists f d) eqn:E; [intros H; inversion H; auto|].
  unfold fs_mkdir. destruct (String.eqb d ""); [discriminate|]. rewrite E.
  destruct (parent_ok f d); intros H; inversion H. right. split; auto.
  unfold fs_exists in E. destruct (fs_get f d); congruence.
Qed.
Lemma mkdirif_usable (f : fs) d : usable f d -> exists f', exec f (SMkdirIf d) = (f', Ok tt) /\ fs_get f' d = Some NDir /\
  forall p, p <> d -> fs_get f' p = fs_get f p.
Proof.
  intros [H|(H & Hd & Hp)]; cbn; unfold fs_exists, fs_mkdir; rewrite H.
  - exists f. auto.
  - destruct (String.eqb_spec d ""); [congruence|]. unfold fs_exists. rewrite H, Hp. eexists; split; [reflexivity|]. split; [apply get_same|].
    intros p Hn. apply get_other; auto.
Qed.

(** a list of files written into one directory *)
Definition writes (d : string) (l : list (string * content T)) : list (step T) :=
  map (fun nc => SWrite (under d (fst nc)) (snd nc)) l.

Lemma write_ok (f f' : fs) p c : exec f (SWrite p c) = (f', Ok tt) -> f' = (p, NFile c) :: f.
Proof. cbn. destruct (fs_isdir f p); [discriminate|]. destruct (parent_ok f p); intros H; inversion H; auto. Qed.

Lemma parent_ok_under (f : fs) d a : slashfree a = true -> fs_get f d = Some NDir -> parent_ok f (under d a) = true.
Proof. intros Ha Hd. unfold parent_ok. rewrite (parent_under d a Ha). destruct d; auto. unfold fs_isdir. rewrite Hd. apply orb_true_r. Qed.

(** with distinct names every file written is found with its content *)
Lemma writes_get d l : forall (f f' : fs), NoDup (map fst l) -> run f (writes d l) = (f', Ok tt) ->
  (forall n c, In (n, c) l -> fs_get f' (under d n) = Some (NFile c)) /\
  (forall p, (forall n, In n (map fst l) -> p <> under d n) -> fs_get f' p = fs_get f p).
Proof.
  induction l as [|[n c] l IH]; intros f f' Hn H.
  - cbn in H. inversion H; subst. split; [intros ? ? []|auto].
  - cbn [writes map fst snd] in H. inversion Hn; subst. cbn [run] in H.
    destruct (exec f (SWrite (under d n) c)) as [g [[]|e]] eqn:E; [|discriminate]. apply write_ok in E. subst g.
    destruct (IH _ _ H3 H) as [A B]. split.
    + intros m c' [X|X]; [|apply A; auto]. inversion X; subst. rewrite B; [apply get_same|].
      intros k Hk Hc. apply under_inj in Hc. subst. contradiction.
    + intros p Hp. rewrite B; [|intros k Hk; apply Hp; now right]. apply get_other. apply Hp. now left.
Qed.

(** and writing succeeds in a directory in which none of the names is a directory *)
Lemma writes_run d l : forall (f : fs), fs_get f d = Some NDir -> Forall (fun nc => slashfree (fst nc) = true) l ->
  (forall n, In n (map fst l) -> fs_get f (under d n) <> Some NDir) -> exists f', run f (writes d l) = (f', Ok tt).
Proof.
  induction l as [|[n c] l IH]; intros f Hd Hs Hn; [eexists; reflexivity|].
  assert (Hs1 := Forall_inv Hs). assert (Hs2 := Forall_inv_tail Hs). cbn [fst] in Hs1.
  cbn [writes map run fst snd exec]. unfold fs_isdir.
  destruct (fs_get f (under d n)) as [[|]|] eqn:E; [destruct (Hn n); [now left|auto]|..];
  (rewrite (parent_ok_under f d n Hs1 Hd); apply IH; auto;
   [rewrite get_other; auto; intros X; eapply under_neq; symmetry; exact X
   |intros m Hm; rewrite get_cons; destruct (String.eqb (under d m) (under d n)); [discriminate|apply Hn; now right]]).
Qed.
End F.

Lemma firstn_In A (l : list A) n x : In x (firstn n l) -> In x l.
Proof. revert n; induction l as [|a l IH]; intros [|n]; cbn; try tauto. intros [H|H]; eauto. Qed.

(** *** interrupted programs *)
Section C.
Context {T : Type}.
Notation fs := (fs T).

Lemma torn_touched (s s' : step T) p : torn s s' -> (touched s' p <-> touched s p).
Proof. intros []; reflexivity. Qed.
Lemma crash_other (f f' : fs) l p : crash f l f' -> (forall s, In s l -> ~ touched s p) -> fs_get f' p = fs_get f p.
Proof.
  intros H Ht. destruct H as [k|k s s' Hk Hn].
  - apply run_other. intros s Hs. apply Ht. eapply firstn_In; eauto.
  - apply run_other. intros s2 Hs. apply in_app_or in Hs. destruct Hs as [Hs|[<-|[]]]; [apply Ht; eapply firstn_In; eauto|].
    rewrite (torn_touched p Hn). exact (Ht _ (nth_error_In _ _ Hk)).
Qed.

(** if the last step writes a file that was not there, then after a crash this file is missing,
    unreadable, or everything was done *)
Lemma crash_last (f f' : fs) l p c : crash f (l ++ [SWrite p c]) f' ->
  (forall s, In s l -> ~ touched s p) -> fs_get f p = None ->
  fs_get f' p = None \/ fs_get f' p = Some (NFile CBad) \/ run f (l ++ [SWrite p c]) = (f', Ok tt).
Proof.
  intros H Ht Hp.
  assert (W : forall c', (let f2 := fst (run f (l ++ [SWrite p c'])) in
    fs_get f2 p = None \/ (run f (l ++ [SWrite p c']) = (f2, Ok tt) /\ fs_get f2 p = Some (NFile c')))).
  { intros c'. destruct (run f l) as [g [[]|e]] eqn:E.
    - assert (Hg : fs_get g p = None). { replace g with (fst (run f l)) by now rewrite E. rewrite run_other; auto. }
      cbn zeta. rewrite (run_app _ _ _ E). cbn [run exec]. unfold fs_isdir. rewrite Hg.
      destruct (parent_ok g p); cbn [fst]; [right|left; auto]. split; auto. apply get_same.
    - cbn zeta. rewrite (run_app_err _ _ _ E). cbn [fst]. left. replace g with (fst (run f l)) by now rewrite E. rewrite run_other; auto. }
  destruct H as [k|k s s' Hk Hn].
  - destruct (Nat.le_gt_cases k (List.length l)) as [Hl|Hl].
    + left. rewrite firstn_app. replace (k - List.length l) with 0 by lia. cbn [firstn]. rewrite app_nil_r.
      rewrite run_other; auto. intros s Hs. apply Ht. eapply firstn_In. exact Hs.
    + rewrite firstn_all2 by (rewrite app_length; cbn; lia). destruct (W c) as [A|[A B]]; [left; exact A|right; right; exact A].
  - destruct (Nat.le_gt_cases (List.length l) k) as [Hl|Hl].
    + rewrite nth_error_app2 in Hk by lia. destruct (k - List.length l) as [|m] eqn:Em; [|destruct m; discriminate].
      cbn in Hk. inversion Hk; subst. inversion Hn; subst. rewrite firstn_app, Em. cbn [firstn]. rewrite app_nil_r, firstn_all2 by lia.
      destruct (W CBad) as [A|[A B]]; [left; exact A|right; left; exact B].
    + rewrite nth_error_app1 in Hk by lia. left.
      rewrite firstn_app. replace (k - List.length l) with 0 by lia. cbn [firstn]. rewrite app_nil_r.
      rewrite run_other; auto. intros s2 Hs. apply in_app_or in Hs. destruct Hs as [Hs|[<-|[]]].
      * apply Ht. eapply firstn_In. exact Hs.
      * rewrite (torn_touched p Hn). apply nth_error_In in Hk. exact (Ht _ Hk).
Qed.
(** a crash of a program that writes the new file [p] on its way: the file is missing or unreadable,
    or everything up to and including it was done and the crash happened in the rest *)
Lemma crash_mid (f f' : fs) l1 p c l2 : crash f (l1 ++ SWrite p c :: l2) f' ->
  (forall s, In s l1 -> ~ touched s p) -> fs_get f p = None ->
  fs_get f' p = None \/ fs_get f' p = Some (NFile CBad) \/
  exists g, run f (l1 ++ [SWrite p c]) = (g, Ok tt) /\ crash g l2 f'.
Proof.
  intros H Ht Hp.
  assert (W : forall c' l, (exists g, run f (l1 ++ [SWrite p c']) = (g, Ok tt) /\ run f (l1 ++ SWrite p c' :: l) = run g l) \/
     fs_get (fst (run f (l1 ++ SWrite p c' :: l))) p = None).
  { intros c' l. destruct (run f l1) as [h [[]|e]] eqn:E.
    - assert (Hh : fs_get h p = None). { replace h with (fst (run f l1)) by now rewrite E. rewrite run_other; auto. }
      rewrite !(run_app _ _ _ E). cbn [run exec]. unfold fs_isdir. rewrite Hh. destruct (parent_ok h p); [left; eauto|right; auto].
    - right. rewrite (run_app_err _ _ _ E). cbn [fst]. replace h with (fst (run f l1)) by now rewrite E. rewrite run_other; auto. }
  destruct H as [k|k s s' Hk Hn].
  - destruct (Nat.le_gt_cases k (List.length l1)) as [Hl|Hl].
    + left. rewrite firstn_app. replace (k - List.length l1) with 0 by lia. cbn [firstn]. rewrite app_nil_r.
      rewrite run_other; auto. intros s Hs. apply Ht. eapply firstn_In; eauto.
    + rewrite firstn_app, firstn_all2 by lia. destruct (k - List.length l1) as [|j] eqn:Ej; [lia|]. cbn [firstn].
      destruct (W c (firstn j l2)) as [(g & E1 & E2)|E]; [|left; auto]. right. right. exists g. split; auto. rewrite E2. constructor.
  - destruct (Nat.lt_trichotomy k (List.length l1)) as [Hl|[Hl|Hl]].
    + left. rewrite nth_error_app1 in Hk by lia. rewrite firstn_app. replace (k - List.length l1) with 0 by lia. cbn [firstn]. rewrite app_nil_r.
      rewrite run_other; auto. intros s2 Hs. apply in_app_or in Hs. destruct Hs as [Hs|[<-|[]]]; [apply Ht; eapply firstn_In; eauto|].
      rewrite (torn_touched p Hn). exact (Ht _ (nth_error_In _ _ Hk)).
    + rewrite nth_error_app2 in Hk by lia. replace (k - List.length l1) with 0 in Hk by lia. cbn in Hk. inversion Hk; subst. inversion Hn; subst.
      rewrite firstn_app, Nat.sub_diag, firstn_all. cbn [firstn]. rewrite app_nil_r.
      destruct (W CBad []) as [(g & E1 & E2)|E]; [|left; auto]. right. left. rewrite E1. cbn [fst].
      apply run_app_ok in E1. destruct E1 as (h & _ & E1). cbn [run] in E1. destruct (exec h _) as [h' [[]|]] eqn:E3; [|discriminate].
      apply write_ok in E3. inversion E1; subst. apply get_same.
    + rewrite nth_error_app2 in Hk by lia. destruct (k - List.length l1) as [|j] eqn:Ej; [lia|]. cbn [nth_error] in Hk.
      rewrite firstn_app, firstn_all2 by lia. rewrite Ej. cbn [firstn]. rewrite <- app_assoc. cbn [app].
      destruct (W c (firstn j l2 ++ [s'])) as [(g & E1 & E2)|E]; [|left; auto]. right. right. exists g. split; auto. rewrite E2. eapply cr_torn; eauto.
Qed.


(** nothing becomes a directory but by mkdir, and directories stay unless removed *)
Definition makes (s : step T) (p : string) : Prop := match s with SMkdir q | SMkdirIf q => p = q | _ => False end.
Definition removes (s : step T) (p : string) : Prop := match s with SRmtree q | SRmSome q _ => below q p = true | _ => False end.
Lemma exec_notdir (f : fs) s p : ~ makes s p -> fs_get f p <> Some NDir -> fs_get (fst (exec f s)) p <> Some NDir.
Proof.
  intros Hm Hp. destruct s as [q|q|q c|q|q k|e]; cbn [makes] in *.
  - rewrite exec_other; auto.
  - rewrite exec_other; auto.
  - cbn [exec]. destruct (fs_isdir f q); auto. destruct (parent_ok f q); auto. cbn [fst]. rewrite get_cons. destruct (String.eqb_spec p q); auto. discriminate.
  - cbn [exec fst]. rewrite (get_filter f (fun x => negb (below q x)) p). destruct (negb _); auto. discriminate.
  - cbn [exec fst]. rewrite (get_filter f (fun x => negb (below q x) || k x) p). destruct (_ || _); auto. discriminate.
  - auto.
Qed.
Lemma run_notdir l : forall (f : fs) p, (forall s, In s l -> ~ makes s p) -> fs_get f p <> Some NDir -> fs_get (fst (run f l)) p <> Some NDir.
Proof.
  induction l as [|s l IH]; intros f p Hm Hp; auto. cbn [run]. assert (X := exec_notdir f s p (Hm s (or_introl eq_refl)) Hp).
  destruct (exec f s) as [g [[]|e]]; auto. cbn [fst] in X. apply IH; auto. intros t Ht. apply Hm. now right.
Qed.
Lemma run_dir l : forall (f : fs) d, (forall s, In s l -> ~ removes s d) -> fs_get f d = Some NDir -> fs_get (fst (run f l)) d = Some NDir.
Proof.
  induction l as [|s l IH]; intros f d Hm Hp; auto. cbn [run].
  assert (X : fs_get (fst (exec f s)) d = Some NDir).
  { specialize (Hm s (or_introl eq_refl)). destruct s as [q|q|q c|q|q k|e]; cbn [removes] in Hm; try (apply exec_keeps_dir; auto; discriminate); try (rewrite exec_other; auto; fail). }
  destruct (exec f s) as [g [[]|e]]; auto. cbn [fst] in X. apply IH; auto. intros t Ht. apply Hm. now right.
Qed.
End C.
