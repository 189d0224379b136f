(** Files written into a directory one after the other, and what a listing then shows. *)
From Coq Require Import ZArith List Bool String Ascii Lia.
From Verif Require Import Num Py FS FSP.
Import ListNotations.
Set Implicit Arguments.
Local Open Scope string_scope.
Local Open Scope list_scope.

Section W.
Context {T : Type}.
Notation fs := (fs T).
Notation content := (content T).

(** an entry: make sure the directory is there, or write a file *)
Notation entry := (option (string * content)).
Definition step_of (d : string) (e : entry) : step T := match e with None => SMkdirIf d | Some (n, c) => SWrite (under d n) c end.
Definition steps (d : string) (es : list entry) : list (step T) := map (step_of d) es.
Definition files (es : list entry) : list (string * content) := flat_map (fun e => match e with None => [] | Some x => [x] end) es.
Definition names (es : list entry) : list string := map fst (files es).

Lemma steps_app d a b : steps d (a ++ b) = steps d a ++ steps d b. Proof. apply map_app. Qed.
Lemma files_app a b : files (a ++ b) = files a ++ files b. Proof. apply flat_map_app. Qed.
Lemma names_app a b : names (a ++ b) = names a ++ names b. Proof. unfold names. now rewrite files_app, map_app. Qed.
Lemma steps_firstn d k es : firstn k (steps d es) = steps d (firstn k es). Proof. apply firstn_map. Qed.
Lemma in_files es x : In x (files es) <-> In (Some x) es.
Proof.
  unfold files. rewrite in_flat_map. split.
  - intros ([y|] & H & Hx); [destruct Hx as [<-|[]]; exact H|destruct Hx].
  - intros H. exists (Some x). split; auto. now left.
Qed.

(** the last content written under a name *)
Definition found (n : string) (l : list (string * content)) : option content :=
  fold_left (fun o x => if String.eqb n (fst x) then Some (snd x) else o) l None.
Lemma found_from n (l : list (string * content)) o :
  fold_left (fun o x => if String.eqb n (fst x) then Some (snd x) else o) l o = match found n l with Some c => Some c | None => o end.
Proof.
  unfold found. revert o; induction l as [|x l IH]; intros o; cbn [fold_left]; auto.
  destruct (String.eqb n (fst x)); [|apply IH]. rewrite (IH (Some (snd x))). destruct (fold_left _ l None); auto.
Qed.
Lemma found_app n l m : found n (l ++ m) = match found n m with Some c => Some c | None => found n l end.
Proof. unfold found at 1. rewrite fold_left_app, found_from. reflexivity. Qed.
Lemma found_cons n x l : found n (x :: l) = match found n l with Some c => Some c | None => if String.eqb n (fst x) then Some (snd x) else None end.
Proof. unfold found at 1. cbn [fold_left]. apply found_from. Qed.
Lemma found_in n l c : found n l = Some c -> In (n, c) l.
Proof.
  induction l as [|[m c'] l IH]; [discriminate|]. rewrite found_cons. destruct (found n l) as [c2|].
  - intros H; injection H as <-. right; auto.
  - cbn [fst snd]. destruct (String.eqb_spec n m) as [->|]; [|discriminate]. intros H; injection H as <-. now left.
Qed.
Lemma found_none n l : found n l = None <-> ~ In n (map fst l).
Proof.
  induction l as [|[m c'] l IH]; [cbn; tauto|]. rewrite found_cons. cbn [map fst snd In]. destruct (found n l) as [c2|].
  - split; [discriminate|]. intros H. exfalso. apply H. right. destruct (in_dec string_dec n (map fst l)) as [X|X]; auto. apply IH in X. discriminate.
  - assert (N := proj1 IH eq_refl). destruct (String.eqb_spec n m) as [->|Hm].
    + split; [discriminate|]. intros H. exfalso. auto.
    + split; auto. intros _ [X|X]; auto.
Qed.
Lemma found_one n c l : In (n, c) l -> (forall c', In (n, c') l -> c' = c) -> found n l = Some c.
Proof.
  intros Hi Hu. destruct (found n l) as [c'|] eqn:E; [f_equal; apply Hu, found_in, E|].
  apply found_none in E. destruct E. change n with (fst (n, c)). now apply in_map.
Qed.

(** the directory, and what is in it, while files are written *)
Lemma steps_run d es : forall f : fs, fs_get f d = Some NDir ->
  (forall n, In n (names es) -> slashfree n = true /\ fs_get f (under d n) <> Some NDir) ->
  exists f', run f (steps d es) = (f', Ok tt) /\ fs_get f' d = Some NDir /\
    (forall n, fs_get f' (under d n) = match found n (files es) with Some c => Some (NFile c) | None => fs_get f (under d n) end) /\
    (forall p, p <> d -> (forall n, In n (names es) -> p <> under d n) -> fs_get f' p = fs_get f p).
Proof.
  induction es as [|[[n c]|] es IH]; intros f Hd Hn.
  - exists f. cbn. auto.
  - cbn [steps map step_of run].
    assert (X : exec f (SWrite (under d n) c) = ((under d n, NFile c) :: f, Ok tt)).
    { cbn [exec]. destruct (Hn n ltac:(now left)) as [S D]. rewrite (parent_ok_under f d n S Hd). unfold fs_isdir. destruct (fs_get f (under d n)) as [[|]|]; congruence. }
    rewrite X. destruct (IH ((under d n, NFile c) :: f)) as (f' & R & Hd' & G & O).
    + rewrite get_other; auto. intros Y. symmetry in Y. exact (@under_neq _ _ Y).
    + intros m Hm. destruct (Hn m ltac:(now right)) as [S D]. split; auto. rewrite get_cons. destruct (String.eqb _ _); [discriminate|auto].
    + exists f'. split; [exact R|]. split; auto. split.
      * intros m. rewrite G. cbn [files flat_map app]. fold (files es). rewrite found_cons. cbn [fst snd]. destruct (found m (files es)) as [c'|]; auto.
        rewrite get_cons. destruct (String.eqb_spec m n) as [->|Hmn]; [now rewrite String.eqb_refl|]. destruct (String.eqb_spec (under d m) (under d n)) as [Y|]; auto.
        apply under_inj in Y. contradiction.
      * intros p Hp Hq. rewrite O; auto; [|intros m Hm; apply Hq; now right]. apply get_other. apply Hq. now left.
  - cbn [steps map step_of run]. assert (X : exec f (SMkdirIf d) = (f, Ok tt)) by (cbn [exec]; unfold fs_exists; now rewrite Hd).
    rewrite X. destruct (IH f Hd Hn) as (f' & R & Hd' & G & O). exists f'. auto.
Qed.

(** *** listings *)
Lemma parent_some p q : parent p = Some q -> exists n, p = under q n /\ slashfree n = true.
Proof.
  revert q; induction p as [|c p IH]; intros q; cbn [parent]; [discriminate|]. destruct (parent p) as [q'|] eqn:Ep.
  - intros H; injection H as <-. destruct (IH q' eq_refl) as (n & -> & Hn). exists n. split; auto.
  - destruct (Ascii.eqb_spec c "/") as [->|]; [|discriminate]. intros H; injection H as <-. exists p. split; auto.
    clear IH. revert Ep. induction p as [|c p IH]; auto. cbn [parent slashfree]. destruct (parent p); [discriminate|]. destruct (Ascii.eqb c "/"); [discriminate|]. cbn. auto.
Qed.
Lemma substring_all s k : String.substring 0 (String.length s + k) s = s.
Proof. induction s as [|c s IH]; cbn; [destruct k; auto|]. now rewrite IH. Qed.
Lemma substring_skip a b k : String.substring (String.length a) k (a ++ b) = String.substring 0 k b.
Proof. induction a; cbn; auto. Qed.
Lemma substring_under d n : String.substring (S (String.length d)) (String.length (under d n)) (under d n) = n.
Proof.
  unfold under. replace (S (String.length d)) with (String.length (d ++ "/")%string) by (rewrite length_app; cbn; lia).
  rewrite <- append_assoc. rewrite substring_skip. rewrite (length_app (d ++ "/")). rewrite Nat.add_comm. apply substring_all.
Qed.
Lemma get_in (f : fs) p n : In (p, n) f -> fs_get f p <> None.
Proof. induction f as [|[q m] f IH]; [intros []|]. intros [H|H]; rewrite get_cons; destruct (String.eqb_spec p q); try discriminate; [inversion H; congruence|auto]. Qed.
Lemma in_get (f : fs) p n : fs_get f p = Some n -> In (p, n) f.
Proof. induction f as [|[q m] f IH]; [discriminate|]. rewrite get_cons. destruct (String.eqb_spec p q) as [->|]; [intros H; injection H as <-; now left|right; auto]. Qed.
Theorem listdir_in (f : fs) d n : In n (listdir f d) <-> slashfree n = true /\ fs_get f (under d n) <> None.
Proof.
  unfold listdir. rewrite nodup_In, in_flat_map. split.
  - intros ([p nd] & Hi & Hx). cbn [fst] in Hx. destruct (parent p) as [q|] eqn:Ep; [|destruct Hx].
    destruct (String.eqb_spec q d) as [->|]; [|destruct Hx]. destruct Hx as [Hx|[]]. destruct (parent_some _ Ep) as (m & -> & Hm). rewrite substring_under in Hx. subst m.
    split; auto. eapply get_in; eauto.
  - intros [Hs Hg]. destruct (fs_get f (under d n)) as [nd|] eqn:E; [|congruence]. exists (under d n, nd). split; [now apply in_get|].
    cbn [fst]. rewrite (parent_under d n Hs), String.eqb_refl. left. apply substring_under.
Qed.

(** *** paths below a directory *)
Lemma prefix_app a b : String.prefix a (a ++ b) = true.
Proof. induction a as [|c a IH]; cbn; [destruct b; auto|]. destruct (ascii_dec c c); [auto|congruence]. Qed.
Lemma prefix_split a : forall b, String.prefix a b = true -> exists c, b = (a ++ c)%string.
Proof.
  induction a as [|x a IH]; intros b H; [exists b; reflexivity|]. destruct b as [|y b]; [discriminate|]. cbn in H. destruct (ascii_dec x y) as [->|]; [|discriminate].
  destruct (IH b H) as [c ->]. exists c. reflexivity.
Qed.
Lemma below_self d : below d d = true. Proof. unfold below. now rewrite String.eqb_refl. Qed.
Lemma below_under_self d n : below d (under d n) = true.
Proof. unfold below, under. rewrite <- append_assoc, prefix_app. apply orb_true_r. Qed.
(** splitting a path at a slash in two ways *)
Lemma app_slash a : forall b x n, (a ++ "/" ++ x = b ++ "/" ++ n)%string -> slashfree n = true ->
  (a = b /\ x = n) \/ exists y, b = (a ++ "/" ++ y)%string.
Proof.
  induction a as [|c a IH]; intros b x n H Hn.
  - destruct b as [|c b]; cbn in H; [left; split; auto; congruence|]. injection H as -> H. right. exists b. reflexivity.
  - destruct b as [|c' b]; cbn in H.
    + injection H as -> H. exfalso. clear IH. subst n. revert Hn. induction a as [|c a IH]; cbn; [discriminate|]. intros Hn. apply andb_prop in Hn as [_ Hn]. auto.
    + injection H as -> H. destruct (IH b x n H Hn) as [[-> ->]|[y ->]]; [left; auto|right; exists y; reflexivity].
Qed.
Lemma below_under D d n : slashfree n = true -> below D (under d n) = true -> under d n = D \/ below D d = true.
Proof.
  intros Hn H. unfold below in *. apply orb_prop in H as [H|H]; [left; now apply String.eqb_eq|]. right.
  apply prefix_split in H as [c H]. unfold under in H. rewrite append_assoc in H. symmetry in H.
  destruct (app_slash D d c n H Hn) as [[-> _]|[y ->]]; [now rewrite String.eqb_refl|]. rewrite <- append_assoc, prefix_app. apply orb_true_r.
Qed.
End W.
