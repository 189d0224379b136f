(** Further proofs about rings and ring systems: successful assignments (C06), adding and
    removing (C10), binary64 splits (C14), shared rings (C18), plot limits (C19). *)
From Coq Require Import ZArith Reals List Bool String Lra Lia.
From Verif Require Import Num NumP Py Validate SpecNum ValidateP Ring RingSystem SpecRing RingP RingSystemP RingOrderP RingMergeP RingSplitP RingShareP.
Import ListNotations.
Set Implicit Arguments.

Section P.
Context {T : Type} {NT : Num T} {LT : NumLaws T}.
Notation ring := (ring T).
Notation rsys := (rsys T).

Lemma number_same (v lo up w : pyval T) ci ex : number v ci lo up ex = Ok w -> w = v.
Proof.
  unfold number. destruct (number_type ci v) as [x|] eqn:E; cbn [bind]; [|discriminate].
  apply number_type_ok in E. destruct E as [-> _]. unfold number_bounds.
  destruct (number_type false lo); cbn [bind]; [|discriminate]. destruct (number_type false up); cbn [bind]; [|discriminate].
  destruct (v_cmp _ lo up); [discriminate|]. destruct (_ || _); [discriminate|]. congruence.
Qed.

Lemma value_num_of (v : pyval T) : numberlike v -> small v -> value v = val (num_of v).
Proof.
  intros [[]|[]] Hs; cbn in *; auto; unfold num_of; cbn [scal_of num_scal]; try (rewrite l_ofZ; auto; fail).
  destruct b; rewrite l_ofZ; auto; cbn; lia.
Qed.

Lemma number_num lo up ex (v : pyval T) x : numberlike v -> small v -> small lo -> small up -> numberlike lo -> numberlike up ->
  ~ xlt (value up) (value lo) ->
  (let* w := number v false lo up ex in Ok (num_of w)) = Ok x <->
  x = num_of v /\ respects ex (value lo) (value up) (val (num_of v)).
Proof.
  intros Hv Hs Hl Hu Hnl Hnu Hb. rewrite <- (value_num_of Hv Hs).
  destruct (number v false lo up ex) as [w|e] eqn:E; cbn [bind].
  - apply number_ok in E; auto. destruct E as (-> & _ & _ & _ & _ & Hr). split.
    + intros H; inversion H; auto.
    + intros [-> _]; auto.
  - split; [discriminate|]. intros [-> Hr]. rewrite (proj2 (number_ok v false lo up ex v Hs Hl Hu)) in E; [discriminate|].
    split; auto. split; [|auto]. destruct Hv; auto.
Qed.

Lemma n_eq_zero_pow (x : T) : n_eq x n_zero = true -> n_eq (n_pow10m 16 : T) n_zero = false.
Proof.
  intros _. destruct (n_eq (n_pow10m 16) n_zero) eqn:E; auto. apply n_eq_sym0 in E.
  destruct (l_tiny (T:=T)) as (r & H & Hr). rewrite H in E. inversion E. lra.
Qed.

Theorem set_ring_ok r s r' : setter_ready r s -> numberlike (given s) -> small (given s) ->
  set_ring r s = (r', Ok tt) <-> within r s (stored_value s) /\ r' = assigned r s (stored_value s).
Proof.
  intros Hr Hv Hs.
  assert (V0 : value (PFloat (n_zero : T)) = XFin 0) by (cbn; apply val_zero).
  assert (V1 : value (PFloat (n_one : T)) = XFin 1) by (cbn; unfold n_one; apply l_ofZ; cbn; lia).
  assert (VI : value (p_inf (T:=T)) = XPInf) by (cbn; apply l_inf).
  assert (U : forall A (r : ring) (x : res A) f r', upd r x f = (r', Ok tt) <-> exists a, x = Ok a /\ r' = f a).
  { intros A r1 [a|e] f r2; cbn; split; try (intros H; inversion H; eauto; fail); intros (a' & H & ->); inversion H; auto. }
  destruct s as [v|v|v|v|v]; cbn [set_ring given stored_value within assigned setter_ready] in *; rewrite U.
  - unfold check_inner. rewrite eq_zero_num by assumption. cbn [bind]. unfold stored_inner.
    destruct (n_eq (num_of v) n_zero) eqn:E.
    + assert (N : forall a, (let* w := number (PFloat (n_pow10m 16)) false (PFloat n_zero) (PFloat (r_out r)) true in Ok (num_of w)) = Ok a <->
        a = n_pow10m 16 /\ respects true (XFin 0) (val (r_out r)) (val (n_pow10m 16))).
      { intros a. rewrite number_num; try (right; constructor); try exact I.
        - rewrite V0. reflexivity.
        - rewrite V0. exact Hr. }
      split; [intros (a & Ha & ->); apply N in Ha; destruct Ha as [-> Ha]; auto|].
      intros [H ->]. eexists; split; [apply N; split; auto|auto].
    + assert (N : forall a, (let* w := number v false (PFloat n_zero) (PFloat (r_out r)) true in Ok (num_of w)) = Ok a <->
        a = num_of v /\ respects true (XFin 0) (val (r_out r)) (val (num_of v))).
      { intros a. rewrite number_num; auto; try (right; constructor); try exact I.
        - rewrite V0. reflexivity.
        - rewrite V0. exact Hr. }
      split; [intros (a & Ha & ->); apply N in Ha; destruct Ha as [-> Ha]; auto|].
      intros [H ->]. eexists; split; [apply N; split; auto|auto].
  - assert (N : forall a, check_outer (r_in r) v = Ok a <-> a = num_of v /\ respects true (val (r_in r)) XPInf (val (num_of v))).
    { intros a. unfold check_outer. rewrite number_num; auto; try (right; constructor); try exact I.
      - rewrite VI. reflexivity.
      - rewrite VI. exact Hr. }
    split; [intros (a & Ha & ->); apply N in Ha; destruct Ha as [-> Ha]; auto|].
    intros [H ->]. eexists; split; [apply N; split; auto|auto].
  - assert (N : forall a, check_tr v = Ok a <-> a = num_of v /\ respects false (XFin 0) (XFin 1) (val (num_of v))).
    { intros a. unfold check_tr. rewrite number_num; auto; try (right; constructor); try exact I.
      - rewrite V0, V1. reflexivity.
      - rewrite V0, V1. cbn; lra. }
    split; [intros (a & Ha & ->); apply N in Ha; destruct Ha as [-> Ha]; auto|].
    intros [H ->]. eexists; split; [apply N; split; auto|auto].
  - assert (N : forall a, check_inc v = Ok a <-> a = num_of v /\ respects false (XFin 0) (XFin 90) (val (num_of v))).
    { intros a. unfold check_inc. rewrite number_num; auto; try (left; constructor); try (cbn; lia).
      - reflexivity.
      - cbn; lra. }
    split; [intros (a & Ha & ->); apply N in Ha; destruct Ha as [-> Ha]; auto|].
    intros [H ->]. eexists; split; [apply N; split; auto|auto].
  - assert (N : forall a, check_tilt v = Ok a <-> a = num_of v /\ respects false (XFin (-180)) (XFin 180) (val (num_of v))).
    { intros a. unfold check_tilt. rewrite number_num; auto; try (left; constructor); try (cbn; lia).
      - reflexivity.
      - cbn; lra. }
    split; [intros (a & Ha & ->); apply N in Ha; destruct Ha as [-> Ha]; auto|].
    intros [H ->]. eexists; split; [apply N; split; auto|auto].
Qed.

(** anything else than a number is refused, except a one-entry array (or numpy scalar of another
    type) that equals zero, given as inner radius *)
Theorem set_ring_not_number r s r' : ~ numberlike (given s) -> set_ring r s = (r', Ok tt) ->
  exists v, s = SetInner v /\ eq_zero v = Ok true /\ r' = assigned r s (n_pow10m 16).
Proof.
  intros Hn H.
  assert (F : forall lo up ex, is_ok (number (given s) false lo up ex) = false).
  { intros lo up ex. unfold number. destruct (given s); cbn; auto; exfalso; apply Hn; try (left; constructor); right; constructor. }
  destruct s as [v|v|v|v|v]; cbn [set_ring given assigned] in *.
  - unfold check_inner in H. destruct (eq_zero v) as [b|] eqn:E; cbn [bind] in H; [|discriminate]. destruct b.
    + exists v. split; auto. split; auto. destruct (number _ _ _ _ _) as [w|] eqn:En; cbn in H; [|discriminate]. inversion H; subst.
      apply number_same in En. subst. reflexivity.
    + specialize (F (PFloat n_zero) (PFloat (r_out r)) true). destruct (number v _ _ _ _); cbn in *; discriminate.
  - unfold check_outer in H. specialize (F (PFloat (r_in r)) p_inf true). destruct (number v _ _ _ _); cbn in *; discriminate.
  - unfold check_tr in H. specialize (F (PFloat n_zero) (PFloat n_one) false). destruct (number v _ _ _ _); cbn in *; discriminate.
  - unfold check_inc in H. specialize (F (PInt 0) (PInt 90) false). destruct (number v _ _ _ _); cbn in *; discriminate.
  - unfold check_tilt in H. specialize (F (PInt (-180)) (PInt 180) false). destruct (number v _ _ _ _); cbn in *; discriminate.
Qed.

(** removing the ring just added *)
Theorem add_remove h s index rg h' s' : geo_ok s -> (forall c l, rg = PObj c l -> l < List.length h) ->
  add_ring h s index rg = (h', s', Ok tt) -> remove_ring h' s' index = (h', s, Ok tt).
Proof.
  intros Hg Hl H. apply add_ring_iff in H; auto. destruct H as (l & -> & Hi & Hr & _ & -> & ->).
  apply remove_ring_iff. split; auto. unfold num_rings in *. cbn [s_rings with_rings].
  set (k := Z.to_nat (int_of index)). assert (Hk : k <= List.length (s_rings s)) by (unfold k; lia).
  split. { rewrite app_length; cbn [List.length]; rewrite firstn_length, skipn_length. lia. }
  split; auto. assert (Lk : List.length (firstn k (s_rings s)) = k) by (rewrite firstn_length; lia).
  assert (E : firstn k (firstn k (s_rings s) ++ l :: skipn k (s_rings s)) ++ skipn (S k) (firstn k (s_rings s) ++ l :: skipn k (s_rings s)) = s_rings s).
  { rewrite <- Lk at 1. rewrite firstn_app, Nat.sub_diag, firstn_all. cbn [firstn]. rewrite app_nil_r.
    rewrite skipn_app, Lk. rewrite skipn_all2 by lia. replace (S k - k) with 1 by lia. cbn [skipn app].
    apply firstn_skipn. }
  rewrite E. destruct s; reflexivity.
Qed.

(** split in any arithmetic: counts, transmissions, geometry *)
Lemma make_rings_length inc tilt l : forall rs, make_rings inc tilt l = Ok rs ->
  List.length rs = List.length l /\ map (@r_tr T) rs = map snd l.
Proof.
  induction l as [|[[i o] t] l IH]; intros rs H; cbn [make_rings] in H.
  - inversion H; auto.
  - destruct (new_ring _ _ _ _ _) as [r|] eqn:E; cbn [bind] in H; [|discriminate].
    destruct (make_rings inc tilt l) as [rs'|] eqn:E2; cbn [bind] in H; [|discriminate]. inversion H; subst.
    destruct (IH _ eq_refl) as [I1 I2]. cbn [List.length map]. rewrite I1, I2. split; auto. f_equal.
    unfold new_ring in E. destruct (check_inner _ _); cbn [bind] in E; [|discriminate].
    destruct (check_outer _ _); cbn [bind] in E; [|discriminate]. destruct (check_tr _) as [t'|] eqn:Et; cbn [bind] in E; [|discriminate].
    destruct (check_inc _); cbn [bind] in E; [|discriminate]. destruct (check_tilt _); cbn [bind] in E; [|discriminate].
    inversion E; subst. cbn. unfold check_tr in Et. destruct (number _ _ _ _ _) as [w|] eqn:En; cbn [bind] in Et; [|discriminate].
    apply number_same in En. subst. symmetry. exact (f_equal (fun x => match x with Ok a => a | Err _ => t end) Et) || (inversion Et; subst; reflexivity).
Qed.

Theorem split_counts h s nd ds h' s' : valid_divisions (List.length (s_rings s)) nd ds -> geo_ok s ->
  split_rings h s nd = (h', s', Ok tt) ->
  num_rings s' = fold_right Z.add 0%Z ds /\
  get_transmissions h' s' = List.concat (map (fun rd => repeat (r_tr (fst rd)) (Z.to_nat (snd rd))) (combine (rings_of h s) ds)) /\
  (forall r, In r (rings_of h' s') -> r_inc r = s_inc s /\ r_tilt r = s_tilt s).
Proof.
  intros Hv Hg H. unfold split_rings in H. rewrite (divisions_ok _ Hv) in H. cbn [bind] in H.
  destruct (make_rings _ _ _) as [rs|] eqn:E; [|discriminate]. cbn [alloc] in H. inversion H; subst.
  destruct (make_rings_length _ _ _ E) as [L1 L2].
  assert (R : rings_of (h ++ rs) (with_rings s (seq (List.length h) (List.length rs))) = rs) by apply map_deref_new.
  unfold get_transmissions. rewrite R. split; [|split].
  - unfold num_rings. cbn [s_rings with_rings]. rewrite seq_length, L1.
    destruct (valid_divisions_shape Hv) as [Hl Hf].
    assert (Hlen : List.length ds = List.length (rings_of h s)) by (unfold rings_of; rewrite map_length; auto).
    clear - Hf Hlen. revert Hlen. generalize (rings_of h s) as rs0. induction ds as [|d ds IH]; intros [|r rs0] Hl; cbn in *; try discriminate; auto.
    rewrite app_length. unfold ringlets at 1. rewrite map_length, seq_length, Nat2Z.inj_add.
    rewrite IH by (inversion Hf; auto). pose proof (Forall_inv Hf) as Hd. cbn beta in Hd. rewrite Z2Nat.id by lia. lia.
  - rewrite L2. clear. generalize (combine (rings_of h s) ds) as l. induction l as [|[r d] l IH]; cbn; auto.
    rewrite map_app, IH. f_equal. unfold ringlets. rewrite map_map. cbn. generalize 0 as a. generalize (Z.to_nat d) as n.
    induction n; intros a; cbn; auto. f_equal. auto.
  - destruct Hg. eapply make_rings_geo; eauto.
Qed.

(** plot limits *)
Theorem plot_limits_x h s (xs ys : T) a b c d : plot_limits h s xs ys = Ok (a, b, c, d) ->
  exists l o, get_outer_radii h s = l ++ [o] /\ a = n_sub (n_sub xs o) (n_ofZ 2) /\ b = n_add (n_add xs o) (n_ofZ 2) /\
    c = n_sub (n_sub ys o) (n_ofZ 2) /\ d = b.
Proof.
  unfold plot_limits. destruct (rev (get_outer_radii h s)) as [|o l] eqn:E; [discriminate|]. intros H; inversion H; subst.
  exists (rev l), o. split; auto. rewrite <- (rev_involutive (get_outer_radii h s)), E. reflexivity.
Qed.
End P.

Theorem plot_centre h (s : rsys xr) (xs ys o : R) l a b c d :
  get_outer_radii h s = l ++ [XFin o] -> plot_limits h s (XFin xs) (XFin ys) = Ok (a, b, c, d) ->
  a = XFin (xs - (o + 2)) /\ b = XFin (xs + (o + 2)) /\ c = XFin (ys - (o + 2)) /\
  (d = XFin (ys + (o + 2)) <-> xs = ys).
Proof.
  intros Ho H. apply plot_limits_x in H. destruct H as (l' & o' & E & -> & -> & -> & ->).
  rewrite Ho in E. apply app_inj_tail in E. destruct E as [_ <-]. cbn.
  repeat split; try (f_equal; lra).
  - intros H'. inversion H'. lra.
  - intros ->. f_equal; lra.
Qed.

(** binary64 witnesses *)
Definition one_ring (i o : f64) : list (ring f64) * rsys f64 :=
  ([mkRing i o (n_ofZ 1) n_zero n_zero], mkSys n_one n_zero n_zero [0]).
Definition after_split (i o : f64) (n : Z) : list (ring f64) :=
  let '(h, s, _) := split_rings (fst (one_ring i o)) (snd (one_ring i o)) (PInt n) in rings_of h s.

Fixpoint overlaps (l : list (ring f64)) : bool :=
  match l with r :: ((q :: _) as m) => n_lt (r_in q) (r_out r) || overlaps m | _ => false end.
Fixpoint gaps (l : list (ring f64)) : bool :=
  match l with r :: ((q :: _) as m) => n_lt (r_out r) (r_in q) || gaps m | _ => false end.

Lemma split_overlap_b : overlaps (after_split (n_ofZ 2) (n_ofZ 3) 3) = true. Proof. vm_compute. reflexivity. Qed.
Lemma split_gap_b : gaps (after_split (n_ofZ 4) (n_ofZ 5) 3) = true. Proof. vm_compute. reflexivity. Qed.
Lemma split_end_b : match rev (after_split (n_ofZ 1) (n_ofZ 6) 3) with r :: _ => n_lt (n_ofZ 6) (r_out r) | [] => false end = true.
Proof. vm_compute. reflexivity. Qed.
Lemma split_end_short_b : match rev (after_split (n_ofZ 1) (n_ofZ 2) 3) with r :: _ => n_lt (r_out r) (n_ofZ 2) | [] => false end = true.
Proof. vm_compute. reflexivity. Qed.
Definition next1 : f64 := n_add n_one (n_div n_one (n_ofZ (2 ^ 52))).
Lemma split_fails_b : n_lt (n_one : f64) next1 = true /\
  match split_rings (fst (one_ring n_one next1)) (snd (one_ring n_one next1)) (PInt 4) with (_, _, Err ValueError) => true | _ => false end = true.
Proof. split; vm_compute; reflexivity. Qed.

Lemma overlaps_ordered l : overlaps l = true -> ~ ordered l.
Proof.
  induction l as [|r [|q m] IH]; cbn [overlaps]; try discriminate. intros H O. apply orb_prop in H.
  inversion O; subst. destruct H as [H|H].
  - apply nlt_iff in H. eapply xlt_irrefl, xlt_le_trans; eauto.
  - eapply IH; eauto.
Qed.

(** ** concrete systems in binary64 (non-vacuity and witnesses) *)
Definition fz (z : Z) : f64 := n_ofZ z.
Definition ex_heap : list (ring f64) :=
  [mkRing (fz 1) (fz 2) (fz 1) (fz 0) (fz 0); mkRing (fz 2) (fz 4) (fz 1) (fz 0) (fz 0);
   mkRing (fz 5) (fz 6) (fz 0) (fz 0) (fz 0); mkRing (fz 7) (fz 8) (fz 1) (fz 3) (fz 3)].
Definition ex_sys : rsys f64 := mkSys (fz 1) (fz 10) (fz 20) [0; 1; 2].

Lemma fz_val z : (Z.abs z <= 2 ^ 53)%Z -> val (fz z) = XFin (IZR z).
Proof. apply l_ofZ. Qed.
Ltac fzs := repeat match goal with |- context [val (fz ?z)] => rewrite (fz_val z) by (cbn; lia) end.

Lemma fz_good a b t i j : (0 < a < b)%Z -> (b <= 2 ^ 53)%Z -> (0 <= t <= 1)%Z -> good_ring (mkRing (fz a) (fz b) (fz t) i j).
Proof.
  intros Ha Hb Ht. unfold good_ring, good_radii, range_or_nan. cbn [r_in r_out r_tr].
  rewrite !fz_val by lia. split; [repeat split; cbn; auto; apply IZR_lt; lia|].
  right. split; (destruct (Z.eq_dec t 0) as [->|]; [|assert (t = 1)%Z as -> by lia]);
    first [left; cbn; lra | right; split; [reflexivity|discriminate]].
Qed.
Lemma ex_geo : geo_ok ex_sys.
Proof. split; right; cbn [ex_sys s_inc s_tilt]; fzs; split; left; cbn; lra. Qed.
Lemma ex_wf : sys_wf ex_heap ex_sys.
Proof. intros l Hl. cbn in Hl |- *. lia. Qed.
Lemma ex_rings_good r : In r ex_heap -> good_ring r.
Proof. intros H. repeat (destruct H as [<-|H]; [apply fz_good; lia|]). destruct H. Qed.
Lemma ex_ordered : ordered (rings_of ex_heap ex_sys).
Proof.
  cbv [rings_of ex_sys s_rings map deref ex_heap nth].
  constructor; [cbn [r_in r_out]; fzs; right; split; [reflexivity|discriminate]|].
  constructor; [cbn [r_in r_out]; fzs; left; cbn; lra|]. constructor.
Qed.
Lemma ex_hist : hist_inv (ex_heap, ex_sys).
Proof. split; [exact ex_geo|]. split; [exact ex_wf|]. split; [exact ex_rings_good|exact ex_ordered]. Qed.
Lemma ex_good : good_sys ex_heap ex_sys.
Proof. apply hist_good. exact ex_hist. Qed.
Lemma ex_tr : forall r, In r (rings_of ex_heap ex_sys) -> not_nan (r_tr r).
Proof.
  intros r H. cbv [rings_of ex_sys s_rings map deref ex_heap nth In] in H. unfold not_nan.
  destruct H as [<-|[<-|[<-|[]]]]; cbn [r_tr]; fzs; discriminate.
Qed.

(** ring object 0 of [ex_heap] given to two systems *)
Definition share_world : world f64 := (ex_heap, [mkSys (fz 1) (fz 10) (fz 20) []; mkSys (fz 1) (fz 30) (fz 40) []]).
Definition share_ops : list (nat * op (T:=f64)) := [(0, OpAdd (PInt 0) (PObj "Ring" 0)); (1, OpAdd (PInt 0) (PObj "Ring" 0))].
Lemma share_inv owner : geometry_inv owner share_world.
Proof.
  intros k s H. destruct k as [|[|k]]; cbn [nth_error snd share_world] in H; try (destruct k; discriminate); inversion H; subst; clear H.
  all: split; [split; right; cbn [s_inc s_tilt]; fzs; split; left; cbn; lra|split; intros l []].
Qed.
Definition share_result : bool :=
  match snd (do_wops share_world share_ops) with
  | s0 :: _ => match s_rings s0 with l :: _ => n_eq (r_inc (deref (fst (do_wops share_world share_ops)) l)) (s_inc s0) | [] => true end
  | [] => true
  end.
Lemma share_result_false : share_result = false. Proof. vm_compute. reflexivity. Qed.

Lemma n_eq_refl64 z : (Z.abs z <= 2 ^ 53)%Z -> n_eq (fz z) (fz z) = true.
Proof. intros H. rewrite (l_eq (T:=f64)), fz_val by assumption. cbn. now destruct (Req_EM_T (IZR z) (IZR z)). Qed.

Theorem sharing_refuted :
  ~ (forall owner (w : world f64) ops, geometry_inv owner w -> 
       forall k s l, nth_error (snd (do_wops w ops)) k = Some s -> In l (s_rings s) ->
       r_inc (deref (fst (do_wops w ops)) l) = s_inc s).
Proof.
  intros H. pose proof share_result_false as F. unfold share_result in F.
  pose proof (H (fun _ => 0) share_world share_ops (share_inv _) 0) as H0.
  assert (I : match snd (do_wops share_world share_ops) with s0 :: _ => n_eq (s_inc s0) (s_inc s0) | [] => true end = true) by (vm_compute; reflexivity).
  destruct (snd (do_wops share_world share_ops)) as [|s0 ss]; [discriminate|].
  destruct (s_rings s0) as [|l ls] eqn:E; [discriminate|].
  specialize (H0 s0 l eq_refl). rewrite E in H0. rewrite (H0 (or_introl eq_refl)), I in F. discriminate.
Qed.

(** the constructor accepts overlapping rings *)
Lemma unordered_valid : Forall (@valid_triple f64 _ _) (combine (combine [fz 3; fz 1] [fz 5; fz 4]) [fz 1; fz 0]).
Proof.
  assert (S : forall z, (0 < z)%Z -> (z <= 2 ^ 53)%Z -> stored_inner (fz z) = fz z).
  { intros z H H'. unfold stored_inner. destruct (n_eq (fz z) n_zero) eqn:E; auto. apply n_eq_sym0 in E.
    rewrite fz_val in E by lia. inversion E as [E']. apply eq_IZR in E'. lia. }
  cbn [combine]. apply Forall_cons; [|apply Forall_cons; [|apply Forall_nil]]; cbn [valid_triple]; rewrite ?S by lia.
  1: split; [right; fzs; cbn; lra|]. 2: split; [right; fzs; cbn; lra|].
  all: split; [fzs; cbn; lra|split; [fzs; exact I|]].
  all: right; fzs; split; first [left; cbn; lra | right; split; [reflexivity|discriminate]].
Qed.

(** binary64 splits *)
Lemma split3_good : good_sys (fst (one_ring (fz 2) (fz 3))) (snd (one_ring (fz 2) (fz 3))) /\
  ordered (rings_of (fst (one_ring (fz 2) (fz 3))) (snd (one_ring (fz 2) (fz 3)))).
Proof.
  split; [|constructor]. split.
  - split; right; cbn [s_inc s_tilt snd one_ring]; rewrite val_zero; split; first [left; cbn; lra|right; split; [reflexivity|discriminate]].
  - split; intros l Hl; cbn in Hl; destruct Hl as [<-|[]]; [cbn; lia|]. apply (@fz_good 2 3 1); lia.
Qed.
Definition ok3 (x : list (ring f64) * rsys f64 * res unit) : bool := match x with (_, _, Ok _) => true | _ => false end.
Theorem split_f64_overlap : exists (h : list (ring f64)) s nd h' s', good_sys h s /\ ordered (rings_of h s) /\
  split_rings h s nd = (h', s', Ok tt) /\ ~ ordered (rings_of h' s').
Proof.
  pose proof split3_good as [G O].
  set (h := fst (one_ring (fz 2) (fz 3))) in *. set (s := snd (one_ring (fz 2) (fz 3))) in *.
  assert (K : ok3 (split_rings h s (PInt 3)) = true) by (vm_compute; reflexivity).
  pose proof split_overlap_b as B. unfold after_split in B. fold (fz 2) (fz 3) in B. fold h s in B.
  destruct (split_rings h s (PInt 3)) as [[h' s'] [[]|]] eqn:E; [|discriminate].
  exists h, s, (PInt 3), h', s'. split; auto. split; auto. split; auto. now apply overlaps_ordered.
Qed.

Theorem nan_ring_refuted :
  ~ (forall (i o t inc tilt : pyval f64) r, new_ring i o t inc tilt = Ok r -> xlt (val (r_in r)) (val (r_out r))).
Proof.
  intros H. assert (K : new_ring (PFloat (n_nan : f64)) (PFloat (fz 1)) (PFloat (fz 1)) (PInt 0) (PInt 0) =
    Ok (mkRing n_nan (fz 1) (fz 1) (n_ofZ 0) (n_ofZ 0))).
  { apply nan_ring; [apply l_nan|fzs; exact I|fzs; left; cbn; lra|fzs; right; split; [reflexivity|discriminate]]. }
  apply H in K. cbn [r_in r_out] in K. apply xlt_nan in K. destruct K as [K _]. apply K. apply l_nan.
Qed.

(** other ways in which binary64 ringlets do not tile their ring *)
Theorem split_f64_end : exists (h : list (ring f64)) s nd h' s' o, good_sys h s /\ get_outer_radii h s = [o] /\
  split_rings h s nd = (h', s', Ok tt) /\ exists l o', get_outer_radii h' s' = l ++ [o'] /\ xlt (val o) (val o').
Proof.
  assert (G : good_sys (fst (one_ring (fz 1) (fz 6))) (snd (one_ring (fz 1) (fz 6)))).
  { split; [|split; intros l Hl; cbn in Hl; destruct Hl as [<-|[]]; [cbn; lia|apply (@fz_good 1 6 1); lia]].
    split; right; cbn [s_inc s_tilt snd one_ring]; rewrite val_zero; split; first [left; cbn; lra|right; split; [reflexivity|discriminate]]. }
  set (h := fst (one_ring (fz 1) (fz 6))) in *. set (s := snd (one_ring (fz 1) (fz 6))) in *.
  assert (K : ok3 (split_rings h s (PInt 3)) = true) by (vm_compute; reflexivity).
  pose proof split_end_b as B. unfold after_split in B. fold (fz 1) (fz 6) in B. fold h s in B.
  destruct (split_rings h s (PInt 3)) as [[h' s'] [[]|]] eqn:E; [|discriminate].
  exists h, s, (PInt 3), h', s', (fz 6). split; auto. split; [reflexivity|]. split; auto.
  destruct (rev (rings_of h' s')) as [|r l] eqn:R; [discriminate|].
  exists (map (@r_out f64) (rev l)), (r_out r). split.
  - unfold get_outer_radii. rewrite <- (rev_involutive (rings_of h' s')), R. cbn [rev]. now rewrite map_app.
  - now apply nlt_iff.
Qed.
Theorem split_f64_fails : exists (h : list (ring f64)) s nd ds, good_sys h s /\
  valid_divisions (List.length (s_rings s)) nd ds /\ split_rings h s nd = (h, s, Err ValueError).
Proof.
  destruct split_fails_b as [L B].
  set (h := fst (one_ring n_one next1)) in *. set (s := snd (one_ring n_one next1)) in *.
  exists h, s, (PInt 4), [4%Z]. split.
  - split; [|split; intros l Hl; cbn in Hl; destruct Hl as [<-|[]]; [cbn; lia|]].
    + split; right; unfold s; cbn [s_inc s_tilt snd one_ring]; rewrite val_zero; split; first [left; cbn; lra|right; split; [reflexivity|discriminate]].
    + unfold good_ring, good_radii, range_or_nan, h. cbn [deref nth fst one_ring r_in r_out r_tr].
      apply nlt_iff in L. split; [split; [|split; [exact L|]]|].
      * rewrite val_one. cbn; lra.
      * assert (X : n_lt next1 n_inf = true) by (vm_compute; reflexivity). apply nlt_iff in X. rewrite (l_inf (T:=f64)) in X. exact X.
      * right. rewrite l_ofZ by (cbn; lia). split; [left; cbn; lra|right; split; [reflexivity|discriminate]].
  - split.
    + left. split; [constructor|]. split; [cbn; lia|reflexivity].
    + destruct (split_rings h s (PInt 4)) as [[h' s'] [|e]] eqn:E; [discriminate B|]. destruct e; try discriminate B.
      destruct (split_rings_err _ _ _ E) as [E1 E2]. rewrite E1, E2. reflexivity.
Qed.

Theorem do_op_err {T} {NT : Num T} {LT : NumLaws T} (h : list (ring T)) s o h' s' e :
  geo_ok s -> op_valid_obj h o -> do_op (h, s) o = (h', s', Err e) -> h' = h /\ s' = s.
Proof.
  intros Hg Hv H. destruct o; cbn [do_op] in H.
  - destruct (new_ring _ _ _ _ _); inversion H; auto.
  - eapply add_ring_err; eauto. intros c l ->. exact Hv.
  - eapply remove_ring_err; eauto.
  - eapply replace_ring_err; eauto. intros c l ->. exact Hv.
  - eapply split_rings_err; eauto.
  - eapply merge_rings_err; eauto.
Qed.

Theorem constructor_overlap_refuted :
  ~ (forall h planet inner outer trans inc tilt level (h' : list (ring f64)) s,
       new_system h planet inner outer trans inc tilt level = Ok (h', s) -> ordered (rings_of h' s)).
Proof.
  intros H.
  destruct (@new_system_stored f64 _ _ [] (PInt 1) (PInt 0) (PInt 0) (PInt 20) [fz 3; fz 1] [fz 5; fz 4] [fz 1; fz 0]
     (PInt 1) (PInt 0) (PInt 0) (PInt 20)) as (s & E & R & _); try reflexivity; try exact unordered_valid; try (vm_compute; reflexivity).
  apply H in E. rewrite R in E. cbn [combine map] in E. inversion E as [| |a b l O]; subst. clear - O.
  unfold stored in O. cbn [r_in r_out] in O.
  assert (X : n_lt (stored_inner (fz 1)) (fz 5) = true) by (vm_compute; reflexivity). apply nlt_iff in X.
  eapply not_both; eauto.
Qed.

Theorem split_exact_short (h : list (ring xr)) s nd ds : good_sys h s -> valid_divisions (List.length (s_rings s)) nd ds ->
  exists h' s' parts, split_rings h s nd = (h', s', Ok tt) /\ rings_of h' s' = List.concat parts /\
    Forall2 (fun rd l => pieces (fst rd) (snd rd) l) (combine (rings_of h s) ds) parts /\
    (forall r, In r (rings_of h' s') -> good_ring r /\ r_inc r = s_inc s /\ r_tilt r = s_tilt s).
Proof.
  intros H1 H2. destruct (split_exact H1 H2) as (h' & s' & parts & A & B & C & D & _). exists h', s', parts. auto.
Qed.

(** an exact system: rings 1-4 and 5-6 of different transmission *)
Definition x_heap : list (ring xr) :=
  [mkRing (XFin 1) (XFin 4) (XFin 1) (XFin 0) (XFin 0); mkRing (XFin 5) (XFin 6) (XFin 0) (XFin 0) (XFin 0)].
Definition x_sys : rsys xr := mkSys (XFin 1) (XFin 0) (XFin 0) [0; 1].
Lemma xle_fin a b : (a <= b)%R -> xle (XFin a) (XFin b).
Proof. intros [H| ->]; [left; exact H|right; split; [reflexivity|discriminate]]. Qed.
Lemma x_good : good_sys x_heap x_sys.
Proof.
  split; [split; right; split; apply xle_fin; lra|].
  split; intros l Hl; cbn in Hl; destruct Hl as [<-|[<-|[]]]; try (cbn; lia).
  all: split; [repeat split; cbn; lra|right; split; apply xle_fin; lra].
Qed.
Lemma x_facts : good_sys x_heap x_sys /\ ordered (rings_of x_heap x_sys) /\
  (forall r, In r (rings_of x_heap x_sys) -> r_tr r <> XNaN) /\
  (forall r, In r (rings_of x_heap x_sys) -> r_inc r = s_inc x_sys /\ r_tilt r = s_tilt x_sys) /\
  (forall l1 a b l2, rings_of x_heap x_sys = l1 ++ a :: b :: l2 -> ~ (xlt (x_abs (x_sub (r_in b) (r_out a))) (XFin 1) /\ r_tr b = r_tr a)).
Proof.
  split; [exact x_good|]. split; [|split; [|split]].
  - cbn. constructor; [left; cbn; lra|constructor].
  - intros r [<-|[<-|[]]]; discriminate.
  - intros r [<-|[<-|[]]]; auto.
  - intros l1 a b l2 H [_ H2]. cbn in H. destruct l1 as [|q l1]; [|destruct l1 as [|q' [|]]; discriminate].
    inversion H; subst. cbn in H2. inversion H2. lra.
Qed.

Lemma share_example : let own l := Nat.min l 1 in geometry_inv own share_world /\
  wops_valid own share_world [(0, OpAdd (PInt 0) (PObj "Ring" 0)); (1, OpAdd (PInt 0) (PObj "Ring" 1)); (1, OpSplit (PInt 2))] /\
  map (@s_rings f64) (snd (do_wops share_world [(0, OpAdd (PInt 0) (PObj "Ring" 0)); (1, OpAdd (PInt 0) (PObj "Ring" 1)); (1, OpSplit (PInt 2))])) = [[0]; [4; 5]].
Proof.
  cbv zeta. split; [apply share_inv|]. split; [|vm_compute; reflexivity].
  assert (K : forall w k o l s, nth_error (snd w) k = Some s -> forall own : nat -> nat, (forall m, List.length (fst w) <= m -> own m = k) ->
     In l (s_rings (snd (fst (do_op (T:=f64) (fst w, s) o)))) -> List.length (fst w) <= l -> own l = k) by auto.
  cbn [wops_valid]. split; [|split; [|split; [|exact I]]].
  - split; [cbn [op_valid_obj fst snd share_world ex_heap List.length]; lia|]. split; [cbn [op_gives snd fst]; intros l ->; reflexivity|].
    intros s Hs l Hl. cbn [fst snd share_world nth_error] in *. inversion Hs; subst s.
    intros Hin. exfalso. assert (X : s_rings (snd (fst (do_op (ex_heap, mkSys (fz 1) (fz 10) (fz 20) []) (OpAdd (PInt 0) (PObj "Ring" 0))))) = [0]) by (vm_compute; reflexivity).
    rewrite X in Hin. destruct Hin as [<-|[]]. cbn in Hl. lia.
  - split; [cbn [op_valid_obj]; change (1 < List.length (fst (do_wop share_world (0, OpAdd (PInt 0) (PObj "Ring" 0))))); assert (X : List.length (fst (do_wop share_world (0, OpAdd (PInt 0) (PObj "Ring" 0)))) = 4) by (vm_compute; reflexivity); lia|].
    split; [cbn [op_gives snd fst]; intros l ->; reflexivity|].
    intros s Hs l Hl _. assert (X : List.length (fst (do_wop share_world (0, OpAdd (PInt 0) (PObj "Ring" 0)))) = 4) by (vm_compute; reflexivity).
    rewrite X in Hl. cbn [fst]. lia.
  - split; [exact I|]. split; [intros l []|].
    intros s Hs l Hl _.
    assert (X : List.length (fst (do_wop (do_wop share_world (0, OpAdd (PInt 0) (PObj "Ring" 0))) (1, OpAdd (PInt 0) (PObj "Ring" 1)))) = 4) by (vm_compute; reflexivity).
    rewrite X in Hl. cbn [fst]. lia.
Qed.
