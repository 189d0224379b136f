(** Proofs about RingSystem.py: list edits, ordering, atomicity, constructor. *)
From Coq Require Import ZArith Reals List Bool String Lra Lia.
From Verif Require Import Num NumP Py Validate SpecNum ValidateP Ring RingSystem SpecRing RingP.
Import ListNotations.
Set Implicit Arguments.

(** ** list lemmas *)
Lemma nth_replace_nth_eq A (d : A) n x l : n < List.length l -> nth n (replace_nth n x l) d = x.
Proof. revert n; induction l as [|a l IH]; intros [|n] H; cbn in *; try lia; auto. apply IH; lia. Qed.
Lemma nth_replace_nth_ne A (d : A) n m x l : n <> m -> nth m (replace_nth n x l) d = nth m l d.
Proof.
  revert n m; induction l as [|a l IH]; intros [|n] [|m] H; cbn; try congruence; auto.
Qed.
Lemma length_replace_nth A n (x : A) l : List.length (replace_nth n x l) = List.length l.
Proof. revert n; induction l as [|a l IH]; intros [|n]; cbn; auto. Qed.
Lemma replace_nth_split A n (x : A) l : n < List.length l ->
  replace_nth n x l = firstn n l ++ x :: skipn (S n) l.
Proof.
  revert n; induction l as [|a l IH]; intros [|n] H; cbn in *; try lia; auto.
  f_equal. apply IH. lia.
Qed.

Section P.
Context {T : Type} {NT : Num T} {LT : NumLaws T}.
Notation pyval := (pyval T).
Notation ring := (ring T).
Notation rsys := (rsys T).

(** ** re-creating rings from stored values *)
Lemma respects_range a b (x : T) : range_or_nan a b x -> respects false (XFin a) (XFin b) (val x).
Proof.
  intros [->|[H1 H2]]; [apply respects_nan|]. destruct (xle_nan H1), (xle_nan H2).
  apply respects_inside; try discriminate; auto. split; auto.
Qed.
Lemma check_tr_np (x : T) : range_or_nan 0 1 x -> check_tr (PNpFloat x) = Ok x.
Proof.
  intros H. unfold check_tr.
  rewrite (proj2 (number_fb (PNpFloat x) n_zero n_one false (PNpFloat x))); [reflexivity|].
  rewrite val_zero, val_one. split; [reflexivity|]. split; [right; constructor|]. split; [cbn; lra|].
  now apply respects_range.
Qed.
Lemma number_ib_f (mk : T -> pyval) x a b : (mk = PFloat \/ mk = PNpFloat) ->
  (Z.abs a <= 2 ^ 53)%Z -> (Z.abs b <= 2 ^ 53)%Z -> (a <= b)%Z ->
  respects false (XFin (IZR a)) (XFin (IZR b)) (val x) ->
  number (mk x) false (PInt a) (PInt b) false = Ok (mk x).
Proof.
  intros Hmk Ha Hb Hab Hr. apply number_ok; cbn; auto.
  - destruct Hmk; subst; exact I.
  - split; [reflexivity|]. split; [right; split; auto; destruct Hmk; subst; constructor|].
    split; [left; constructor|]. split; [left; constructor|].
    assert (value (mk x) = val x) as -> by (destruct Hmk; subst; reflexivity).
    split; auto. apply IZR_le in Hab. lra.
Qed.
Lemma check_inc_np (x : T) : range_or_nan 0 90 x -> check_inc (PNpFloat x) = Ok x.
Proof.
  intros H. unfold check_inc. rewrite (@number_ib_f PNpFloat); auto; try lia.
  now apply respects_range.
Qed.
Lemma check_tilt_np (x : T) : range_or_nan (-180) 180 x -> check_tilt (PNpFloat x) = Ok x.
Proof.
  intros H. unfold check_tilt. rewrite (@number_ib_f PNpFloat); auto; try lia.
  now apply (@respects_range (-180) 180).
Qed.

Lemma n_eq_sym0 (x : T) : n_eq x n_zero = true -> val x = XFin 0.
Proof. intros H. apply neq_iff in H. rewrite val_zero in H. tauto. Qed.

Lemma check_inner_np (x : T) : xlt (XFin 0) (val x) -> xlt (val x) XPInf ->
  check_inner n_inf (PNpFloat x) = Ok x.
Proof.
  intros H0 H1. destruct (xlt_nan H0) as [_ Hn]. rewrite check_inner_iff.
  - change (num_of (PNpFloat x)) with x. destruct (n_eq x n_zero) eqn:E.
    { apply n_eq_sym0 in E. rewrite E in H0. cbn in H0. lra. }
    assert (n_lt n_zero x = true) as -> by (apply nlt_iff; rewrite val_zero; auto).
    assert (n_lt x n_inf = true) as -> by (apply nlt_iff; rewrite l_inf; auto). reflexivity.
  - right; constructor.
  - exact Hn.
  - unfold not_nan. rewrite l_inf. discriminate.
  - rewrite l_inf. exact I.
Qed.
Lemma check_outer_np (i x : T) : xlt (val i) (val x) -> xlt (val x) XPInf ->
  check_outer i (PNpFloat x) = Ok x.
Proof.
  intros H0 H1. destruct (xlt_nan H0) as [Hni Hn]. unfold check_outer, p_inf.
  rewrite (proj2 (number_fb (PNpFloat x) i n_inf true (PNpFloat x))); [reflexivity|].
  rewrite l_inf. split; [reflexivity|]. split; [right; constructor|]. split; [destruct (val i); tauto|].
  change (num_of (PNpFloat x)) with x.
  apply (respects_inside true); try discriminate; auto. split; auto.
Qed.

Lemma new_ring_np i o t inc tilt : good_ring (mkRing i o t inc tilt) ->
  range_or_nan 0 90 inc -> range_or_nan (-180) 180 tilt ->
  new_ring (PNpFloat i) (PNpFloat o) (PNpFloat t) (PNpFloat inc) (PNpFloat tilt)
  = Ok (mkRing i o t inc tilt).
Proof.
  intros [[H0 [H1 H2]] Ht] Hinc Htilt. cbn in *. unfold new_ring.
  rewrite check_inner_np; auto; [|eapply xlt_trans; eauto]. cbn [bind].
  rewrite check_outer_np by auto. cbn [bind].
  rewrite check_tr_np by auto. cbn [bind].
  rewrite check_inc_np by auto. cbn [bind].
  rewrite check_tilt_np by auto. reflexivity.
Qed.

Definition triple_ring (inc tilt : T) (x : T * T * T) : ring :=
  mkRing (fst (fst x)) (snd (fst x)) (snd x) inc tilt.

Lemma make_rings_ok inc tilt l : range_or_nan 0 90 inc -> range_or_nan (-180) 180 tilt ->
  (forall x, In x l -> good_ring (triple_ring inc tilt x)) ->
  make_rings inc tilt l = Ok (map (triple_ring inc tilt) l).
Proof.
  intros Hi Ht. induction l as [|[[i o] t] l IH]; intros H; cbn [make_rings map]; auto.
  rewrite new_ring_np; auto; [|apply (H (i, o, t)); now left]. cbn [bind].
  rewrite IH by (intros; apply H; now right). reflexivity.
Qed.

(** ** override *)
Lemma override_ok h s l : geo_ok s -> l < List.length h ->
  override h s l = (replace_nth l (regeo s (deref h l)) h, Ok tt).
Proof.
  intros [Hi Ht] Hl. unfold override. cbn [set_ring]. rewrite check_inc_np by assumption. cbn [upd].
  rewrite check_tilt_np by assumption. reflexivity.
Qed.
Lemma deref_override h s l m : l < List.length h ->
  deref (replace_nth l (regeo s (deref h l)) h) m = if Nat.eqb m l then regeo s (deref h l) else deref h m.
Proof.
  intros Hl. unfold deref. destruct (Nat.eqb_spec m l) as [->|Hm].
  - now apply nth_replace_nth_eq.
  - apply nth_replace_nth_ne. auto.
Qed.

(** ** indices *)
Lemma number_index (v : pyval) n w : number v true (PInt 0) (PInt n) false = Ok w <->
  w = v /\ int_like v /\ (0 <= int_of v <= n)%Z.
Proof.
  unfold number. destruct (number_type true v) as [v'|e] eqn:E; cbn [bind].
  - apply number_type_ok in E. destruct E as [-> [Hi|[? ?]]]; [|discriminate].
    rewrite number_bounds_eq by (left; constructor).
    assert (G : forall z, (if (n <? 0)%Z then Err ValueError else
                 if ((z <? 0) || (n <? z))%Z then Err ValueError else Ok v) = Ok w <-> w = v /\ (0 <= z <= n)%Z).
    { intros z. destruct (Z.ltb_spec n 0); [split; [discriminate|intros [? ?]; lia]|].
      destruct (Z.ltb_spec z 0); cbn; [split; [discriminate|intros [? ?]; lia]|].
      destruct (Z.ltb_spec n z); cbn; [split; [discriminate|intros [? ?]; lia]|].
      split; [intros HH; inversion HH; subst; split; auto; lia|intros [-> _]; reflexivity]. }
    specialize (G (int_of v)).
    assert (Q : w = v /\ int_like v /\ (0 <= int_of v <= n)%Z <-> w = v /\ (0 <= int_of v <= n)%Z) by tauto.
    rewrite Q, <- G. clear G Q.
    inversion Hi; subst; reflexivity.
  - apply number_type_err in E. split; [discriminate|]. intros (_ & Hi & _). tauto.
Qed.

Lemma ring_at_ok h s z r : ring_at h s z = Ok r <->
  exists l, nth_error (s_rings s) (Z.to_nat z) = Some l /\ r = deref h l.
Proof.
  unfold ring_at. destruct (nth_error _ _) as [l|]; split.
  - intros H; inversion H; subst; eauto.
  - intros (l' & E & ->). congruence.
  - discriminate.
  - intros (l' & E & _). discriminate.
Qed.

Lemma nth_error_rings h s k : nth_error (rings_of h s) k = option_map (deref h) (nth_error (s_rings s) k).
Proof. unfold rings_of. apply nth_error_map. Qed.

Lemma fits_dec_low (r : ring) (p : T) : n_lt (r_in r) p = false <-> ~ xlt (val (r_in r)) (val p).
Proof. apply nlt_false. Qed.

(** the overlap check, for insertion ([rep = 0]) and replacement ([rep = 1]) *)
Lemma prevent_overlap_ok h s index rg (rep : bool) i l :
  prevent_overlap h s index rg rep = Ok (i, l) <->
  int_like index /\ i = int_of index /\ rg = PObj "Ring" l /\
  (0 <= i <= num_rings s - (if rep then 1 else 0))%Z /\
  fits (before (Z.to_nat i) (rings_of h s))
       (nth_error (rings_of h s) (Z.to_nat i + if rep then 1 else 0)) (deref h l).
Proof.
  unfold prevent_overlap. set (n := num_rings s).
  destruct (number index true (PInt 0) (PInt n) false) as [w|e] eqn:E; cbn [bind].
  2:{ split; [discriminate|]. intros (Hi & -> & _ & Hr & _).
      rewrite (proj2 (number_index index n index)) in E; [discriminate|].
      repeat split; auto. all: destruct rep; lia. }
  apply number_index in E. destruct E as (-> & Hi & Hr).
  destruct rg; cbn [class_object bind]; try (split; [discriminate|intros (_ & _ & ? & _); discriminate]).
  destruct (String.eqb_spec cls "Ring") as [->|Hc]; cbn [bind].
  2:{ split; [discriminate|intros (_ & _ & ? & _); congruence]. }
  set (z := int_of index) in *.
  assert (Hn : n = Z.of_nat (List.length (rings_of h s))) by (unfold n, num_rings, rings_of; rewrite map_length; auto).
  (* lower bound *)
  assert (LB : exists lower, (if Z.eqb z 0 then Ok n_ninf else let* p := ring_at h s (z - 1) in Ok (r_out p)) = Ok lower
     /\ (n_lt (r_in (deref h loc)) lower = false <->
         forall p, before (Z.to_nat z) (rings_of h s) = Some p -> ~ xlt (val (r_in (deref h loc))) (val (r_out p)))).
  { destruct (Z.eqb_spec z 0) as [Hz|Hz].
    - exists n_ninf. split; auto. rewrite Hz. cbn. rewrite nlt_false. unfold n_ninf. rewrite l_neg, l_inf.
      split; [discriminate|]. intros _. destruct (val (r_in (deref h loc))); cbn; tauto.
    - destruct (nth_error (s_rings s) (Z.to_nat (z - 1))) as [m|] eqn:Em.
      2:{ apply nth_error_None in Em. unfold n, num_rings in *. lia. }
      exists (r_out (deref h m)). split.
      + unfold ring_at. rewrite Em. reflexivity.
      + replace (Z.to_nat z) with (S (Z.to_nat (z - 1))) by lia. cbn [before].
        rewrite nth_error_rings, Em. cbn. rewrite nlt_false. split.
        * intros H p Hp. inversion Hp; subst; auto.
        * intros H. apply H; auto. }
  destruct LB as (lower & -> & HL). cbn [bind].
  destruct (n_lt (r_in (deref h loc)) lower) eqn:EL.
  { split; [discriminate|]. intros (_ & -> & Hl & _ & Hf & _). inversion Hl; subst. apply HL in Hf. discriminate. }
  assert (HL' := proj1 HL eq_refl). clear HL.
  set (j := if rep then (z + 1)%Z else z).
  assert (Ej : Z.to_nat j = Z.to_nat z + if rep then 1 else 0) by (unfold j; destruct rep; lia).
  destruct (Z.eqb_spec j n) as [Hj|Hj]; cbn [bind].
  - destruct (n_lt n_inf (r_out (deref h loc))) eqn:EU.
    { exfalso. apply nlt_iff in EU. rewrite l_inf in EU. destruct (val (r_out (deref h loc))); exact EU. }
    split.
    + intros H; inversion H; subst. repeat split; auto; try lia.
      * unfold j in Hj; destruct rep; lia.
      * rewrite <- Ej, Hj, Hn, Nat2Z.id. intros q Hq.
        rewrite (proj2 (nth_error_None _ _)) in Hq by lia. discriminate.
    + intros (_ & -> & Hl & _). inversion Hl; subst. reflexivity.
  - destruct (ring_at h s j) as [p|e] eqn:Ep; cbn [bind].
    + apply ring_at_ok in Ep. destruct Ep as (m & Em & ->).
      assert (Em' : nth_error (rings_of h s) (Z.to_nat j) = Some (deref h m)) by (rewrite nth_error_rings, Em; reflexivity).
      assert (Hjn : (j < n)%Z).
      { assert (Z.to_nat j < List.length (s_rings s)) by (apply nth_error_Some; congruence).
        unfold n, num_rings. lia. }
      destruct (n_lt (r_in (deref h m)) (r_out (deref h loc))) eqn:EU.
      * apply nlt_iff in EU. split; [discriminate|]. intros (_ & -> & Hl & _ & _ & Hf). inversion Hl; subst.
        exfalso. fold z in Hf. rewrite <- Ej in Hf. eapply Hf; eauto.
      * apply nlt_false in EU. split.
        -- intros H; inversion H; subst. repeat split; auto; try (unfold j in Hjn; destruct rep; lia).
           fold z. rewrite <- Ej, Em'. intros q Hq; inversion Hq; subst; auto.
        -- intros (_ & -> & Hl & _). inversion Hl; subst. reflexivity.
    + split; [discriminate|]. intros (_ & -> & _ & Hr' & _). exfalso.
      unfold ring_at in Ep. destruct (nth_error (s_rings s) (Z.to_nat j)) eqn:En; [discriminate|].
      apply nth_error_None in En. unfold n, num_rings, j in *. destruct rep; lia.
Qed.

(** ** the list edits *)
Theorem add_ring_iff h s index rg h' s' : geo_ok s ->
  (forall c l, rg = PObj c l -> l < List.length h) ->
  add_ring h s index rg = (h', s', Ok tt) <->
  exists l, rg = PObj "Ring" l /\ int_like index /\ (0 <= int_of index <= num_rings s)%Z /\
    let k := Z.to_nat (int_of index) in
    fits (before k (rings_of h s)) (nth_error (rings_of h s) k) (deref h l) /\
    h' = replace_nth l (regeo s (deref h l)) h /\
    s' = with_rings s (firstn k (s_rings s) ++ l :: skipn k (s_rings s)).
Proof.
  intros Hg Hl. unfold add_ring.
  destruct (prevent_overlap h s index rg false) as [[i l]|e] eqn:E.
  - pose proof (proj1 (prevent_overlap_ok _ _ _ _ _ _ _) E) as (Hi & -> & -> & Hr & Hf).
    rewrite Nat.add_0_r, Z.sub_0_r in *.
    rewrite override_ok by (eauto). split.
    + intros H; inversion H; subst. exists l. repeat split; auto; try apply Hf; lia.
    + intros (l' & Hl' & _ & _ & _ & -> & ->). inversion Hl'; subst. reflexivity.
  - split; [discriminate|]. intros (l & -> & Hi & Hr & Hf & _). exfalso.
    rewrite (proj2 (prevent_overlap_ok h s index (PObj "Ring" l) false (int_of index) l)) in E; [discriminate|].
    rewrite Nat.add_0_r, Z.sub_0_r. tauto.
Qed.

Theorem remove_ring_iff h s index h' s' :
  remove_ring h s index = (h', s', Ok tt) <->
  int_like index /\ (0 <= int_of index < num_rings s)%Z /\
    let k := Z.to_nat (int_of index) in
    h' = h /\ s' = with_rings s (firstn k (s_rings s) ++ skipn (S k) (s_rings s)).
Proof.
  unfold remove_ring. destruct (number _ _ _ _ _) as [w|e] eqn:E.
  - apply number_index in E. destruct E as (-> & Hi & Hr). cbv zeta. split.
    + intros H; inversion H; subst. repeat split; auto; lia.
    + intros (_ & _ & -> & ->). reflexivity.
  - split; [discriminate|]. intros (Hi & Hr & _).
    rewrite (proj2 (number_index index (num_rings s - 1) index)) in E; [discriminate|].
    repeat split; auto; lia.
Qed.

Theorem replace_ring_iff h s index rg h' s' : geo_ok s ->
  (forall c l, rg = PObj c l -> l < List.length h) ->
  replace_ring h s index rg = (h', s', Ok tt) <->
  exists l, rg = PObj "Ring" l /\ int_like index /\ (0 <= int_of index < num_rings s)%Z /\
    let k := Z.to_nat (int_of index) in
    fits (before k (rings_of h s)) (nth_error (rings_of h s) (S k)) (deref h l) /\
    h' = replace_nth l (regeo s (deref h l)) h /\
    s' = with_rings s (firstn k (s_rings s) ++ l :: skipn (S k) (s_rings s)).
Proof.
  intros Hg Hl. unfold replace_ring.
  destruct (number index true _ _ _) as [w|e0] eqn:E0.
  2:{ split; [discriminate|]. intros (l & -> & Hi & Hr & _).
      rewrite (proj2 (number_index index (num_rings s - 1) index)) in E0; [discriminate|].
      repeat split; auto; lia. }
  apply number_index in E0. destruct E0 as (-> & Hi0 & Hr0).
  destruct (prevent_overlap h s index rg true) as [[i l]|e] eqn:E.
  - pose proof (proj1 (prevent_overlap_ok _ _ _ _ _ _ _) E) as (Hi & -> & -> & Hr & Hf).
    rewrite Nat.add_1_r in *.
    rewrite override_ok by (eauto).
    assert (Hk : Z.to_nat (int_of index) < List.length (s_rings s)) by (unfold num_rings in *; lia).
    rewrite (@replace_nth_split _ (Z.to_nat (int_of index)) l (s_rings s)) by assumption. split.
    + intros H; inversion H; subst. exists l. repeat split; auto; try apply Hf; lia.
    + intros (l' & Hl' & _ & _ & _ & -> & ->). inversion Hl'; subst. reflexivity.
  - split; [discriminate|]. intros (l & -> & Hi & Hr & Hf & _). exfalso.
    rewrite (proj2 (prevent_overlap_ok h s index (PObj "Ring" l) true (int_of index) l)) in E; [discriminate|].
    rewrite Nat.add_1_r. repeat split; auto; try apply Hf; lia.
Qed.

(** ** atomicity *)
Theorem add_ring_err h s index rg h' s' e : geo_ok s -> (forall c l, rg = PObj c l -> l < List.length h) ->
  add_ring h s index rg = (h', s', Err e) -> h' = h /\ s' = s.
Proof.
  intros Hg Hl. unfold add_ring. destruct (prevent_overlap h s index rg false) as [[i l]|e'] eqn:E.
  - apply prevent_overlap_ok in E. destruct E as (_ & _ & -> & _). rewrite override_ok by eauto. discriminate.
  - intros H; inversion H; auto.
Qed.
Theorem replace_ring_err h s index rg h' s' e : geo_ok s -> (forall c l, rg = PObj c l -> l < List.length h) ->
  replace_ring h s index rg = (h', s', Err e) -> h' = h /\ s' = s.
Proof.
  intros Hg Hl. unfold replace_ring. destruct (number _ _ _ _ _); [|intros H; inversion H; auto].
  destruct (prevent_overlap h s index rg true) as [[i l]|e'] eqn:E.
  - apply prevent_overlap_ok in E. destruct E as (_ & _ & -> & _). rewrite override_ok by eauto. discriminate.
  - intros H; inversion H; auto.
Qed.
Theorem remove_ring_err h s index h' s' e : remove_ring h s index = (h', s', Err e) -> h' = h /\ s' = s.
Proof. unfold remove_ring. destruct (number _ _ _ _ _); intros H; inversion H; auto. Qed.
Theorem split_rings_err h s nd h' s' e : split_rings h s nd = (h', s', Err e) -> h' = h /\ s' = s.
Proof. unfold split_rings. destruct (bind _ _); intros H; inversion H; auto. Qed.
Theorem merge_rings_err h s tol h' s' e : merge_rings h s tol = (h', s', Err e) -> h' = h /\ s' = s.
Proof.
  unfold merge_rings. destruct (rings_of h s) eqn:E; [intros H; inversion H; auto|].
  destruct (make_rings _ _ _); intros H; inversion H; auto.
Qed.
End P.
