(** Proofs about the logs of ring systems. *)
From Coq Require Import ZArith Reals List Bool String Ascii Lia.
From Flocq Require Import Core BinarySingleNaN.
From Verif Require Import Num NumP Py Validate SpecNum ValidateP Ring RingSystem SpecRing RingP RingSystemP RingOrderP RingMergeP RingSplitP RingMoreP RingShareP.
From Verif Require Import Fmt SpecFmt FmtP Text TextRingP Message Log SpecLog.
Import ListNotations.
Set Implicit Arguments.
Local Open Scope string_scope.
Local Open Scope list_scope.

Section P.
Context {T : Type} {NT : Num T} {LT : NumLaws T}.
Variable fmt : nat -> T -> string.
Notation pyval := (pyval T).
Notation rsys := (rsys T).
Notation heap := (list (ring T)).

(** *** the log changes nothing *)
Lemma add_drop (h : heap) s i r : fst (add_ring_l fmt h s i r) = add_ring h s i r.
Proof. unfold add_ring_l, add_ring. destruct (prevent_overlap _ _ _ _ _) as [[? ?]|]; [|reflexivity]. destruct (override _ _ _) as [? []]; reflexivity. Qed.
Lemma remove_drop (h : heap) s i : fst (remove_ring_l fmt h s i) = remove_ring h s i.
Proof. unfold remove_ring_l, remove_ring. destruct (number _ _ _ _ _); reflexivity. Qed.
Lemma replace_drop (h : heap) s i r : fst (replace_ring_l fmt h s i r) = replace_ring h s i r.
Proof.
  unfold replace_ring_l, replace_ring. destruct (number _ _ _ _ _); [|reflexivity]. destruct (prevent_overlap _ _ _ _ _) as [[? ?]|]; [|reflexivity].
  destruct (override _ _ _) as [? []]; reflexivity.
Qed.
Lemma split_drop (h : heap) s nd : fst (split_rings_l fmt h s nd) = split_rings h s nd.
Proof. unfold split_rings_l, split_rings. destruct (divisions _ _); [|reflexivity]. cbn [bind]. destruct (make_rings _ _ _); reflexivity. Qed.
Lemma merge_drop (h : heap) s tol : fst (merge_rings_l fmt h s tol) = merge_rings h s tol.
Proof. unfold merge_rings_l, merge_rings. destruct (rings_of h s); [reflexivity|]. destruct (make_rings _ _ _); reflexivity. Qed.
Theorem op_drop (st : heap * rsys) o : fst (do_op_l fmt st o) = do_op st o.
Proof.
  destruct st as [h s], o; cbn [do_op_l do_op fst]; [reflexivity|apply add_drop|apply remove_drop|apply replace_drop|apply split_drop|apply merge_drop].
Qed.

(** *** texts *)
Lemma repr_break (h : heap) s : exists t, rsys_repr fmt h s = String (ascii_of_nat 10) t.
Proof. unfold rsys_repr. cbn [app]. eexists. reflexivity. Qed.
Lemma substring_all t : String.substring 0 (String.length t) t = t.
Proof. induction t; cbn; congruence. Qed.
Lemma story_of func (h : heap) s h' s' : changes fmt func h s h' s' = debug func (story (func ++ "()")%string (rsys_repr fmt h s) (rsys_repr fmt h' s')).
Proof.
  unfold changes, story, print_changes. f_equal. destruct (repr_break h s) as [t E], (repr_break h' s') as [t' E']. rewrite E, E'.
  cbn [String.length Nat.sub String.substring]. rewrite !Nat.sub_0_r, !substring_all. cbn [join app String.concat append].
  set (A := center 66 _). set (B := center 66 _). change (copies 70 "=") with bar70. unfold newline. repeat (cbn [append]; rewrite ?app_assoc_s). reflexivity.
Qed.

(** *** overriding leaves radii and transmission alone *)
Definition body (r : ring T) : T * T * T := (r_in r, r_out r, r_tr r).
Lemma lines_body rs : forall rs' n, map body rs = map body rs' -> ring_lines fmt n rs = ring_lines fmt n rs'.
Proof.
  induction rs as [|r rs IH]; intros [|r' rs'] n H; try discriminate; [reflexivity|]. cbn [map] in H. injection H as H1 H2 H3 H4. cbn [ring_lines].
  rewrite (IH rs' (S n) H4). unfold ring_line. now rewrite H1, H2, H3.
Qed.
Lemma repr_body (h h' : heap) s s' : s_planet s = s_planet s' -> s_inc s = s_inc s' -> s_tilt s = s_tilt s' ->
  map body (rings_of h s) = map body (rings_of h' s') -> rsys_repr fmt h s = rsys_repr fmt h' s'.
Proof. intros H1 H2 H3 H. unfold rsys_repr. now rewrite H1, H2, H3, (lines_body _ _ 1 H). Qed.
Lemma override_body (h : heap) s l h' e : override h s l = (h', e) -> forall m, body (deref h' m) = body (deref h m).
Proof.
  intros H m. assert (A : forall r, body r = body (deref h l) -> body (deref (replace_nth l r h) m) = body (deref h m)).
  { intros r Hr. unfold deref. destruct (Nat.eq_dec m l) as [->|N]; [|rewrite nth_replace_nth_ne by auto; reflexivity].
    destruct (Nat.lt_ge_cases l (List.length h)) as [L|L]; [rewrite nth_replace_nth_eq by auto; exact Hr|].
    rewrite !nth_overflow by (rewrite ?length_replace_nth; auto). reflexivity. }
  unfold override in H. cbn [set_ring] in H. destruct (check_inc _); cbn [upd] in H.
  - destruct (check_tilt _); cbn [upd] in H; injection H as <- <-; apply A; reflexivity.
  - injection H as <- <-. reflexivity.
Qed.
Lemma repr_heap (h h' : heap) s : (forall m, In m (s_rings s) -> body (deref h' m) = body (deref h m)) -> rsys_repr fmt h' s = rsys_repr fmt h s.
Proof.
  intros H. apply repr_body; try reflexivity. unfold rings_of. rewrite !map_map. apply map_ext_in. exact H.
Qed.

(** *** overridden attributes *)
Lemma same_eq (x y : T) : n_eq x y = true <-> same x y.
Proof. rewrite neq_iff. unfold same. tauto. Qed.
Lemma override_spec (h : heap) s l : exists a b, override_log fmt h s l = a ++ b /\
  overridden fmt "inclination" (r_inc (deref h l)) (s_inc s) a /\ overridden fmt "tilt" (r_tilt (deref h l)) (s_tilt s) b.
Proof.
  unfold override_log. eexists _, _. split; [reflexivity|]. split; unfold overridden; destruct (n_eq _ _) eqn:E.
  1,3: left; split; [now apply same_eq|reflexivity]. all: right; split; [rewrite <- same_eq; congruence|reflexivity].
Qed.

(** *** the log of each call *)
Definition silent_error (x : heap * rsys * res unit * log) : Prop := forall h s e l, x = (h, s, Err e, l) -> l = [].
Theorem add_log (h : heap) s index rg h' s' l : geo_ok s -> (forall c m, rg = PObj c m -> m < List.length h) ->
  add_ring_l fmt h s index rg = (h', s', Ok tt, l) -> exists m a b, rg = PObj "Ring" m /\
    overridden fmt "inclination" (r_inc (deref h m)) (s_inc s) a /\ overridden fmt "tilt" (r_tilt (deref h m)) (s_tilt s) b /\
    l = a ++ b ++ [debug "add_ring" (story "add_ring()" (rsys_repr fmt h s) (rsys_repr fmt h' s')); info "add_ring" ("added ring at index " ++ str_index index)].
Proof.
  intros G V H. unfold add_ring_l in H. destruct (prevent_overlap h s index rg false) as [[i m]|e] eqn:E; [|discriminate].
  pose proof (proj1 (prevent_overlap_ok _ _ _ _ _ _ _) E) as (_ & _ & -> & _).
  destruct (override h s m) as [h1 [[]|e]] eqn:O; [|discriminate]. injection H as <- <- <-.
  destruct (override_spec h s m) as (a & b & -> & A & B). exists m, a, b. split; [reflexivity|]. split; [exact A|]. split; [exact B|].
  rewrite <- app_assoc. do 2 f_equal. rewrite story_of. rewrite (@repr_heap h h1 s); [reflexivity|]. intros k _. exact (override_body _ _ _ O k).
Qed.
Theorem replace_log (h : heap) s index rg h' s' l : geo_ok s -> (forall c m, rg = PObj c m -> m < List.length h) ->
  replace_ring_l fmt h s index rg = (h', s', Ok tt, l) -> exists m a b, rg = PObj "Ring" m /\
    overridden fmt "inclination" (r_inc (deref h m)) (s_inc s) a /\ overridden fmt "tilt" (r_tilt (deref h m)) (s_tilt s) b /\
    l = a ++ b ++ [debug "replace_ring" (story "replace_ring()" (rsys_repr fmt h s) (rsys_repr fmt h' s')); info "replace_ring" ("replaced ring at index " ++ str_index index)].
Proof.
  intros G V H. unfold replace_ring_l in H. destruct (number index true _ _ _) as [w|e] eqn:N; [|discriminate]. apply number_index in N as (-> & _).
  destruct (prevent_overlap h s index rg true) as [[i m]|e] eqn:E; [|discriminate].
  pose proof (proj1 (prevent_overlap_ok _ _ _ _ _ _ _) E) as (_ & _ & -> & _).
  destruct (override h s m) as [h1 [[]|e]] eqn:O; [|discriminate]. injection H as <- <- <-.
  destruct (override_spec h s m) as (a & b & -> & A & B). exists m, a, b. split; [reflexivity|]. split; [exact A|]. split; [exact B|].
  rewrite <- app_assoc. do 2 f_equal. rewrite story_of. rewrite (@repr_heap h h1 s); [reflexivity|]. intros k _. exact (override_body _ _ _ O k).
Qed.
Theorem remove_log (h : heap) s index h' s' l : remove_ring_l fmt h s index = (h', s', Ok tt, l) ->
  l = [debug "remove_ring" (story "remove_ring()" (rsys_repr fmt h s) (rsys_repr fmt h' s')); info "remove_ring" ("removed ring at index " ++ str_index index)].
Proof.
  unfold remove_ring_l. destruct (number index true _ _ _) as [w|e] eqn:N; [|discriminate]. apply number_index in N as (-> & _). intros H. injection H as <- <- <-.
  now rewrite story_of.
Qed.
Theorem split_log (h : heap) s nd ds h' s' l : valid_divisions (List.length (s_rings s)) nd ds -> geo_ok s -> split_rings_l fmt h s nd = (h', s', Ok tt, l) ->
  exists a b, read_count a = Some (num_rings s) /\ read_count b = Some (num_rings s') /\
    l = [debug "split_rings" (story "split_rings()" (rsys_repr fmt h s) (rsys_repr fmt h' s')); info "split_rings" ("split rings from " ++ a ++ " to " ++ b)%string].
Proof.
  intros V G H. assert (D := f_equal fst H). cbn [fst] in D. rewrite split_drop in D. destruct (split_counts _ V G D) as (N & _).
  assert (C := divisions_ok _ V). unfold split_rings_l in H. rewrite C in H. destruct (make_rings _ _ _) as [rs|e]; [|discriminate].
  cbn [alloc] in H. injection H as <- <- <-. rewrite <- N. exists (str_nat (List.length ds)), (str_nat (List.length rs)).
  destruct (valid_divisions_shape V) as [L _]. split; [rewrite read_str_nat, L; reflexivity|].
  split; [rewrite read_str_nat; unfold num_rings; cbn [s_rings with_rings]; now rewrite seq_length|].
  rewrite story_of. unfold num_rings. cbn [s_rings with_rings]. rewrite seq_length. unfold str_int.
  destruct (Z.ltb_spec (Z.of_nat (List.length rs)) 0); [lia|]. reflexivity.
Qed.
Theorem merge_log (h : heap) s tol h' s' l : merge_rings_l fmt h s tol = (h', s', Ok tt, l) ->
  exists a b, read_count a = Some (num_rings s) /\ read_count b = Some (num_rings s') /\
    l = [debug "merge_rings" (story "merge_rings()" (rsys_repr fmt h s) (rsys_repr fmt h' s')); info "merge_rings" ("merged rings from " ++ a ++ " to " ++ b)%string].
Proof.
  intros H. unfold merge_rings_l in H. destruct (rings_of h s) as [|r0 rs0] eqn:R; [discriminate|]. destruct (make_rings _ _ _) as [rs|e]; [|discriminate].
  cbn [alloc] in H. injection H as <- <- <-. exists (str_nat (List.length (r0 :: rs0))), (str_nat (List.length (seq (List.length h) (List.length rs)))).
  split; [rewrite read_str_nat, <- R; unfold rings_of; rewrite map_length; reflexivity|]. split; [apply read_str_nat|]. now rewrite story_of.
Qed.
Theorem error_log (h : heap) s o : geo_ok s -> op_valid_obj h o -> silent_error (do_op_l fmt (h, s) o).
Proof.
  intros G V h' s' e l H. destruct o; cbn [do_op_l] in H.
  - now injection H as _ <-.
  - unfold add_ring_l in H. destruct (prevent_overlap h s index rg false) as [[i m]|e'] eqn:E; [|now injection H as _ _ _ <-].
    apply prevent_overlap_ok in E. destruct E as (_ & _ & -> & _). rewrite override_ok in H by assumption. discriminate.
  - unfold remove_ring_l in H. destruct (number _ _ _ _ _); [discriminate|]. now injection H as _ _ _ <-.
  - unfold replace_ring_l in H. destruct (number _ _ _ _ _); [|now injection H as _ _ _ <-].
    destruct (prevent_overlap h s index rg true) as [[i m]|e'] eqn:E; [|now injection H as _ _ _ <-].
    apply prevent_overlap_ok in E. destruct E as (_ & _ & -> & _). rewrite override_ok in H by assumption. discriminate.
  - unfold split_rings_l in H. destruct (divisions _ _); [|now injection H as _ _ _ <-]. destruct (make_rings _ _ _); [discriminate|]. now injection H as _ _ _ <-.
  - unfold merge_rings_l in H. destruct (rings_of h s); [now injection H as _ _ _ <-|]. destruct (make_rings _ _ _); [discriminate|]. now injection H as _ _ _ <-.
Qed.

(** *** histories *)
Lemma tells_overridden name (x y : T) l m a b : overridden fmt name x y l -> tells a m b -> tells a (l ++ m) b.
Proof. intros [[_ ->]|[_ ->]] H; [exact H|]. constructor. exact H. Qed.
Lemma op_tells (h : heap) s o h' s' e l : geo_ok s -> sys_wf h s -> op_valid_obj h o -> do_op_l fmt (h, s) o = (h', s', e, l) ->
  tells (rsys_repr fmt h s) l (rsys_repr fmt h' s').
Proof.
  intros G W V H. destruct e as [[]|e].
  - destruct o; cbn [do_op_l] in H.
    + injection H as D <-. cbn [do_op] in D. destruct (new_ring _ _ _ _ _); [|discriminate]. injection D as <- <-.
      rewrite (@repr_heap h (h ++ [_])); [constructor|]. intros m Hm. now rewrite deref_app_old by auto.
    + apply add_log in H; auto; [|intros c m ->; exact V]. destruct H as (m & a & b & _ & A & B & ->). apply (tells_overridden A), (tells_overridden B). repeat constructor.
    + apply remove_log in H as ->. repeat constructor.
    + apply replace_log in H; auto; [|intros c m ->; exact V]. destruct H as (m & a & b & _ & A & B & ->). apply (tells_overridden A), (tells_overridden B). repeat constructor.
    + unfold split_rings_l in H. destruct (divisions _ _); [|discriminate]. destruct (make_rings _ _ _); [|discriminate]. cbn [alloc] in H. injection H as <- <- <-.
      rewrite story_of. repeat constructor.
    + apply merge_log in H as (a & b & _ & _ & ->). repeat constructor.
  - rewrite (error_log _ _ G V H). assert (D := f_equal fst H). rewrite op_drop in D. cbn [fst] in D.
    enough (h' = h /\ s' = s) as [-> ->] by constructor. destruct o; cbn [do_op] in D.
    + destruct (new_ring _ _ _ _ _); [discriminate|]. now injection D as <- <- <-.
    + eapply add_ring_err; eauto. intros c m ->; exact V.
    + eapply remove_ring_err; eauto.
    + eapply replace_ring_err; eauto. intros c m ->; exact V.
    + eapply split_rings_err; eauto.
    + eapply merge_rings_err; eauto.
Qed.
Lemma tells_app a l b m c : tells a l b -> tells b m c -> tells a (l ++ m) c.
Proof. intros H K. induction H; cbn [app]; [exact K| |]; constructor; auto. Qed.

(** radii and transmissions of the rings there are never change *)
Lemma op_body (h : heap) s o m : m < List.length h -> body (deref (fst (fst (do_op (h, s) o))) m) = body (deref h m).
Proof.
  intros L. destruct o; cbn [do_op].
  - destruct (new_ring _ _ _ _ _); cbn [fst]; [now rewrite deref_app_old|reflexivity].
  - unfold add_ring. destruct (prevent_overlap _ _ _ _ _) as [[? ?]|]; [|reflexivity]. destruct (override _ _ _) as [h1 []] eqn:O; cbn [fst]; exact (override_body _ _ _ O m).
  - unfold remove_ring. destruct (number _ _ _ _ _); reflexivity.
  - unfold replace_ring. destruct (number _ _ _ _ _); [|reflexivity].
    destruct (prevent_overlap _ _ _ _ _) as [[? ?]|]; [|reflexivity]. destruct (override _ _ _) as [h1 []] eqn:O; cbn [fst]; exact (override_body _ _ _ O m).
  - unfold split_rings. destruct (bind _ _); cbn [alloc fst]; [now rewrite deref_app_old|reflexivity].
  - unfold merge_rings. destruct (rings_of h s); [reflexivity|]. destruct (make_rings _ _ _); cbn [alloc fst]; [now rewrite deref_app_old|reflexivity].
Qed.
Lemma op_world (h : heap) s o h' s' e : geo_ok s -> sys_wf h s -> op_valid_obj h o -> do_op (h, s) o = (h', s', e) ->
  List.length h <= List.length h' /\ geo_ok s' /\ sys_wf h' s'.
Proof.
  intros G W V H. assert (C : (exists a b c d f, o = OpNew a b c d f) \/ (forall a b c d f, o <> OpNew a b c d f)).
  { destruct o; [left; eauto 10|right; discriminate..]. }
  destruct C as [(a & b & c & d & f & ->)|N].
  - cbn [do_op] in H. destruct (new_ring _ _ _ _ _); injection H as <- <- <-; [|auto]. rewrite app_length. split; [lia|]. split; [exact G|].
    intros l Hl. rewrite app_length. specialize (W l Hl). lia.
  - destruct (op_touches G W V N H) as (A & B & C & _ & D). split; [exact A|]. split; [unfold geo_ok; now rewrite B, C|]. intros l Hl. apply (D l Hl).
Qed.
Lemma wop_ok w ko : world_ok w -> op_valid_obj (fst w) (snd ko) -> world_ok (do_wop w ko).
Proof.
  destruct w as [h ss], ko as [k o]. intros I V. unfold do_wop. cbn [fst snd] in *. destruct (nth_error ss k) as [s|] eqn:Ek; [|exact I].
  destruct (I k s Ek) as [G W]. destruct (do_op (h, s) o) as [[h' s'] e] eqn:E. destruct (op_world _ G W V E) as (L & G' & W').
  intros j q Hj. cbn [fst snd] in *. rewrite nth_error_replace in Hj. destruct (Nat.eqb_spec j k) as [->|].
  - destruct (Nat.ltb k _); [|discriminate]. injection Hj as <-. auto.
  - destruct (I j q Hj) as [G2 W2]. split; [exact G2|]. intros l Hl. specialize (W2 l Hl). cbn [fst] in W2. lia.
Qed.
Theorem history ops : forall w k s s', world_ok w -> objects_ok w ops -> nth_error (snd w) k = Some s -> nth_error (snd (do_wops w ops)) k = Some s' ->
  tells (rsys_repr fmt (fst w) s) (world_log fmt k w ops) (rsys_repr fmt (fst (do_wops w ops)) s').
Proof.
  induction ops as [|[j o] ops IH]; intros w k s s' I V Hs Hs'.
  - cbn in *. rewrite Hs in Hs'. injection Hs' as <-. constructor.
  - destruct V as [V1 V2]. cbn [do_wops fold_left] in Hs' |- *. cbn [world_log].
    change (fold_left do_wop ops (do_wop w (j, o))) with (do_wops (do_wop w (j, o)) ops) in *.
    assert (X : exists s1, nth_error (snd (do_wop w (j, o))) k = Some s1 /\
      tells (rsys_repr fmt (fst w) s) (match nth_error (snd w) j with Some s => if Nat.eqb j k then snd (do_op_l fmt (fst w, s) o) else [] | None => [] end)
        (rsys_repr fmt (fst (do_wop w (j, o))) s1)).
    { destruct w as [h ss]. unfold do_wop. cbn [fst snd] in *. destruct (nth_error ss j) as [q|] eqn:Ej.
      - destruct (I j q Ej) as [G W]. cbn [fst] in *. destruct (do_op (h, q) o) as [[h' q'] e] eqn:E. cbn [fst snd]. destruct (Nat.eqb_spec j k) as [->|N].
        + exists q'. rewrite nth_error_replace, Nat.eqb_refl. assert (L : k < List.length ss) by (apply nth_error_Some; congruence). apply Nat.ltb_lt in L. rewrite L. split; [reflexivity|].
          rewrite Hs in Ej. injection Ej as <-. destruct (do_op_l fmt (h, s) o) as [x l] eqn:X. assert (D := op_drop (h, s) o). rewrite X, E in D. cbn [fst] in D. subst x.
          cbn [snd]. exact (op_tells _ G W V1 X).
        + exists s. rewrite nth_error_replace. destruct (Nat.eqb_spec k j); [congruence|]. split; [exact Hs|].
          rewrite (@repr_heap h h'); [constructor|]. intros m Hm. assert (B := @op_body h q o m). rewrite E in B. apply B. destruct (I k s Hs) as [_ W2]. exact (W2 m Hm).
      - exists s. split; [exact Hs|constructor]. }
    destruct X as (s1 & H1 & X). apply (tells_app X). apply IH; auto. apply wop_ok; auto.
Qed.

(** *** levels *)
Definition leveled (r : record) : Prop := l_level r = 10%Z \/ l_level r = 20%Z.
Lemma tells_leveled a l b : tells a l b -> Forall leveled l.
Proof. induction 1; constructor; auto; [left|right]; reflexivity. Qed.
Theorem levels a l b level : tells a l b -> 
  ((level <= 10)%Z -> console level l = l) /\ ((20 < level)%Z -> console level l = []) /\
  ((10 < level <= 20)%Z -> console level l = filter (fun r => Z.eqb (l_level r) 20) l).
Proof.
  intros H. apply tells_leveled in H. unfold console. split; [|split]; intros L; induction H as [|r l [A|A] _ IH]; cbn [filter]; try reflexivity; rewrite ?A, IH;
    try (replace (level <=? 10)%Z with true by (symmetry; apply Z.leb_le; lia); reflexivity);
    try (replace (level <=? 20)%Z with true by (symmetry; apply Z.leb_le; lia); reflexivity);
    try (replace (level <=? 10)%Z with false by (symmetry; apply Z.leb_gt; lia); reflexivity);
    try (replace (level <=? 20)%Z with false by (symmetry; apply Z.leb_gt; lia); reflexivity).
Qed.
End P.
