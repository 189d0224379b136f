(** Proofs about GridDiagnostics. *)
From Coq Require Import ZArith Reals List Bool String Lia.
From Verif Require Import Num NumP Py Validate SpecNum ValidateP Ring RingP RingSystem RingSystemP RingMoreP FS FSP GridParams GridDiag SpecGrid GridParamsP.
Import ListNotations.
Set Implicit Arguments.

Section D.
Context {T : Type} {NT : Num T}.
Notation pyval := (pyval T).
Notation gdiag := (gdiag T).

Lemma zof_int (v : pyval) : int_like v -> int_of v = zof v.
Proof. intros []; reflexivity. Qed.

Lemma index_number (v : pyval) n : index_ok n v -> number v true (PInt 0) (PInt (n - 1)) false = Ok v.
Proof. intros [Hi Hr]. apply number_index. rewrite zof_int by auto. repeat split; auto; lia. Qed.
Lemma index_number_inv (v : pyval) n w : number v true (PInt 0) (PInt (n - 1)) false = Ok w -> w = v /\ index_ok n v.
Proof. intros H. apply number_index in H. destruct H as (-> & Hi & Hr). rewrite zof_int in Hr by auto. repeat split; auto; lia. Qed.

Lemma int_like_dec (v : pyval) : {int_like v} + {~ int_like v}.
Proof. destruct v; try (left; constructor); right; intros H; inversion H. Qed.

Lemma index_dec n (v : pyval) : {index_ok n v} + {~ index_ok n v}.
Proof.
  destruct (int_like_dec v); [|right; intros []; auto].
  destruct (Z_le_dec 0 (zof v)); [|right; intros []; lia]. destruct (Z_lt_dec (zof v) n); [left; split; auto|right; intros []; lia].
Qed.

Lemma index_number_err (v : pyval) n : ~ index_ok n v ->
  number v true (PInt 0) (PInt (n - 1)) false = Err (if int_like_dec v then ValueError else TypeError).
Proof.
  intros H. destruct (number v true (PInt 0) (PInt (n - 1)) false) as [w|e] eqn:E.
  { apply index_number_inv in E. tauto. }
  f_equal. unfold number in E. destruct (int_like_dec v) as [Hi|Hi].
  - assert (X : number_type true v = Ok v) by (apply number_type_ok; auto). rewrite X in E. cbn [bind] in E.
    rewrite number_bounds_eq in E by (left; constructor). destruct (v_cmp _ _ _); [congruence|]. destruct (rejected _ _ _ _); congruence.
  - assert (X : number_type true v = Err TypeError). { apply number_type_err. split; auto. intros [?|[? _]]; [auto|discriminate]. }
    rewrite X in E. cbn in E. congruence.
Qed.

(** the exception of an invalid index pair *)
Definition index_error (ny : Z) (y x : pyval) : exn :=
  let bad := if index_dec ny y then x else y in if int_like_dec bad then ValueError else TypeError.

Lemma kcomp_eqb_spec a b : reflect (a = b) (kcomp_eqb a b).
Proof.
  destruct a as [x|x], b as [y|y]; cbn; try (constructor; discriminate).
  - destruct (Z.eqb_spec x y); constructor; congruence.
  - destruct (Bool.eqb_spec x y); constructor; congruence.
Qed.
Lemma dkey_eqb_spec (a b : dkey) : reflect (a = b) (dkey_eqb a b).
Proof.
  destruct a as [a1 a2], b as [b1 b2]. unfold dkey_eqb. cbn.
  destruct (kcomp_eqb_spec a1 b1), (kcomp_eqb_spec a2 b2); constructor; congruence.
Qed.
Lemma dget_same (d : dict) k (v : list (scal T)) : dget (dput d k v) k = Some v.
Proof.
  induction d as [|[q w] d IH]; cbn.
  - destruct (dkey_eqb_spec k k); congruence.
  - destruct (dkey_eqb_spec k q) as [->|H]; cbn; [destruct (dkey_eqb_spec q q); congruence|].
    destruct (dkey_eqb_spec k q); congruence.
Qed.
Lemma dget_other (d : dict) k k' (v : list (scal T)) : k' <> k -> dget (dput d k v) k' = dget d k'.
Proof.
  intros H. induction d as [|[q w] d IH]; cbn.
  - destruct (dkey_eqb_spec k' k); congruence.
  - destruct (dkey_eqb_spec k q) as [->|H']; cbn; [destruct (dkey_eqb_spec k' q); congruence|].
    destruct (dkey_eqb_spec k' q); auto.
Qed.

Lemma kcomp_same (v w : pyval) : int_like v -> int_like w -> kcomp_of v = kcomp_of w <-> same_index v w.
Proof.
  unfold same_index. intros [b|z|z] [b'|z'|z']; cbn; (split; [intros H; try discriminate; injection H as ->; auto|intros [H1 H2]; try discriminate; try (subst; reflexivity)]).
  destruct b, b'; auto; discriminate.
Qed.

(** the key of a valid index pair of an un-extended object *)
Lemma gen_key_ok (d : gdiag) y x : d_ext d = false -> index_ok (d_my d) y -> index_ok (d_mx d) x ->
  gen_key d y x = Ok (kcomp_of y, kcomp_of x).
Proof. intros E Hy Hx. unfold gen_key. rewrite E. rewrite (index_number Hy). cbn [bind]. rewrite (index_number Hx). reflexivity. Qed.
Lemma gen_key_err (d : gdiag) y x : d_ext d = false -> ~ (index_ok (d_my d) y /\ index_ok (d_mx d) x) ->
  gen_key d y x = Err (index_error (d_my d) y x).
Proof.
  intros E H. unfold gen_key, index_error. rewrite E. destruct (index_dec (d_my d) y) as [Hy|Hy].
  - rewrite (index_number Hy). cbn [bind]. rewrite (index_number_err (v:=x) (n:=d_mx d)) by tauto. reflexivity.
  - rewrite (index_number_err Hy). reflexivity.
Qed.

Lemma arrays_check (fy dr : pyval) :
  (let* fy := array fy None None false (Some "float64"%string) (Some 1%Z) in
   let* dr := array dr None None false (Some "float64"%string) (Some 1%Z) in
   let* _ := same_shape_arrays [fy; dr] 2 in Ok (fy, dr)) = Ok (fy, dr) <-> arrays_ok fy dr.
Proof.
  unfold arrays_ok. split.
  - destruct fy; try discriminate. unfold array. cbn [bind]. unfold array_dimensions at 1.
    destruct (Z.eqb_spec (Z.of_nat (List.length shape)) 1) as [L1|]; [|discriminate]. cbn [bind]. unfold array_type at 1.
    destruct (String.eqb_spec dtype "float64") as [->|]; [|discriminate]. cbn [bind].
    destruct dr; try discriminate. cbn [bind]. unfold array_dimensions.
    destruct (Z.eqb_spec (Z.of_nat (List.length shape0)) 1) as [L2|]; [|discriminate]. cbn [bind]. unfold array_type.
    destruct (String.eqb_spec dtype "float64") as [->|]; [|discriminate]. cbn [bind].
    cbn [same_shape_arrays List.length Nat.ltb Nat.leb negb Nat.eqb shape_of same_shape_loop orb bind].
    unfold shape_eqb. destruct (list_eq_dec Nat.eq_dec shape shape) as [_|]; [|congruence]. cbn [negb].
    destruct (list_eq_dec Nat.eq_dec shape0 shape) as [->|]; [|discriminate]. intros _.
    destruct shape as [|n [|]]; cbn in L1; try lia. eauto.
  - intros (n & a & b & -> & ->). unfold array, array_dimensions, array_type. cbn -[list_eq_dec].
    unfold shape_eqb. destruct (list_eq_dec Nat.eq_dec [n] [n]) as [_|]; [|congruence]. reflexivity.
Qed.

(** save_diagnostic succeeds exactly on valid input, and then stores both arrays under the key *)
Lemma save_ok (d : gdiag) y x fy dr : d_ext d = false ->
  arrays_ok fy dr -> index_ok (d_my d) y -> index_ok (d_mx d) x ->
  save_diagnostic d y x fy dr =
  (mkGD (d_my d) (d_mx d) (dput (d_fy d) (kcomp_of y, kcomp_of x) (elems fy)) (dput (d_dr d) (kcomp_of y, kcomp_of x) (elems dr)) false, Ok tt).
Proof.
  intros E Ha Hy Hx. unfold save_diagnostic. rewrite E. apply arrays_check in Ha.
  destruct (array fy _ _ _ _ _) as [u|]; cbn [bind] in *; [|discriminate].
  destruct (array dr _ _ _ _ _) as [w|]; cbn [bind] in *; [|discriminate].
  destruct (same_shape_arrays [u; w] 2); cbn [bind] in *; [|discriminate]. inversion Ha; subst.
  rewrite gen_key_ok by auto. cbn [bind]. reflexivity.
Qed.
Lemma save_bad (d : gdiag) y x fy dr : d_ext d = false ->
  ~ (arrays_ok fy dr /\ index_ok (d_my d) y /\ index_ok (d_mx d) x) ->
  exists e, save_diagnostic d y x fy dr = (d, Err e).
Proof.
  intros E H. unfold save_diagnostic. rewrite E.
  assert (A : forall e, (let* fy := array fy None None false (Some "float64"%string) (Some 1%Z) in
   let* dr := array dr None None false (Some "float64"%string) (Some 1%Z) in
   let* _ := same_shape_arrays [fy; dr] 2 in Ok (fy, dr)) = e -> e = Ok (fy, dr) \/ exists x, e = Err x).
  { intros e He. destruct e as [[u w]|]; [left|eauto]. 
    destruct fy; try discriminate. destruct dr;
      try (unfold array in He; cbn [bind] in He; destruct (array_dimensions shape 1); cbn [bind] in He; [|discriminate]; destruct (array_type dtype _); cbn [bind] in He; discriminate).
    unfold array in He. cbn [bind] in He. destruct (array_dimensions shape 1); cbn [bind] in He; [|discriminate]. destruct (array_type dtype _); cbn [bind] in He; [|discriminate].
    destruct (array_dimensions shape0 1); cbn [bind] in He; [|discriminate]. destruct (array_type dtype0 _); cbn [bind] in He; [|discriminate].
    destruct (same_shape_arrays _ 2); cbn [bind] in He; [|discriminate]. congruence. }
  destruct (A _ eq_refl) as [B|[e B]]; clear A.
  - assert (Ha := B). apply arrays_check in Ha.
    destruct (array fy _ _ _ _ _) as [u|]; cbn [bind] in *; [|discriminate].
    destruct (array dr _ _ _ _ _) as [w|]; cbn [bind] in *; [|discriminate].
    destruct (same_shape_arrays [u; w] 2); cbn [bind] in *; [|discriminate].
    rewrite gen_key_err by tauto. cbn. eauto.
  - destruct (array fy _ _ _ _ _) as [u|]; cbn [bind] in *; [|eauto].
    destruct (array dr _ _ _ _ _) as [w|]; cbn [bind] in *; [|eauto].
    destruct (same_shape_arrays [u; w] 2); cbn [bind] in *; [discriminate|eauto].
Qed.

Lemma arrays_dec (fy dr : pyval) : {arrays_ok fy dr} + {~ arrays_ok fy dr}.
Proof.
  destruct fy; try (right; intros (? & ? & ? & X & _); discriminate).
  destruct dr; try (right; intros (? & ? & ? & _ & X); discriminate).
  destruct (string_dec dtype "float64") as [->|]; [|right; intros (n' & a & b & H & _); congruence].
  destruct (string_dec dtype0 "float64") as [->|]; [|right; intros (n' & a & b & _ & H); congruence].
  destruct shape as [|n [|]]; try (right; intros (n' & a & b & H & _); congruence).
  destruct (list_eq_dec Nat.eq_dec shape0 [n]) as [->|]; [left; exists n; eauto|right; intros (n' & a & b & H & H'); congruence].
Qed.

Definition diag_size (g : gparams T) : Z * Z := let '(ny, nx, _) := g_shape g in (Z.of_nat ny, Z.of_nat nx).

(** what a history without extend leaves in the dictionaries *)
Definition represents (d : gdiag) (ny nx : Z) (l : list (@dop T)) : Prop :=
  d_my d = ny /\ d_mx d = nx /\ d_ext d = false /\
  (forall k v, dget (d_fy d) k = Some v -> exists y x : pyval, k = (kcomp_of y, kcomp_of x) /\ index_ok ny y /\ index_ok nx x) /\
  (forall y x, index_ok ny y -> index_ok nx x ->
    (exists a b, dget (d_fy d) (kcomp_of y, kcomp_of x) = Some a /\ dget (d_dr d) (kcomp_of y, kcomp_of x) = Some b /\ latest ny nx y x l a b) \/
    (dget (d_fy d) (kcomp_of y, kcomp_of x) = None /\ dget (d_dr d) (kcomp_of y, kcomp_of x) = None /\ forall a b, ~ latest ny nx y x l a b)).

Definition not_extend (o : @dop T) : Prop := o <> DExtend.

Lemma latest_snoc ny nx y x l (o : @dop T) a b :
  latest ny nx y x (l ++ [o]) a b <-> saves_at ny nx y x o a b \/ (latest ny nx y x l a b /\ forall a' b', ~ saves_at ny nx y x o a' b').
Proof.
  unfold latest. split.
  - intros (l1 & o' & l2 & E & Hs & Hn). destruct l2 as [|q l2] using rev_ind.
    + apply app_inj_tail in E. destruct E as [_ ->]. auto.
    + right. clear IHl2. rewrite app_comm_cons, app_assoc in E. apply app_inj_tail in E. destruct E as [-> ->]. split.
      * exists l1, o', l2. repeat split; auto. intros o2 a' b' H. apply Hn. apply in_or_app; auto.
      * intros a' b'. apply Hn. apply in_or_app; cbn; auto.
  - intros [H|[(l1 & o' & l2 & -> & Hs & Hn) H]].
    + exists l, o, []. repeat split; auto.
    + exists l1, o', (l2 ++ [o]). rewrite <- app_assoc. repeat split; auto.
      intros o2 a' b' H2. apply in_app_or in H2. destruct H2 as [H2|[<-|[]]]; auto.
Qed.

Lemma save_represents d ny nx l y x fy dr : represents d ny nx l ->
  represents (fst (save_diagnostic d y x fy dr)) ny nx (l ++ [DSave y x fy dr]).
Proof.
  intros (Hy & Hx & He & Hk & Hd).
  assert (R : forall y2 x2, index_ok ny y2 -> index_ok nx x2 -> forall a b, saves_at ny nx y2 x2 (DSave y x fy dr) a b ->
     (kcomp_of y2, kcomp_of x2) = (kcomp_of y, kcomp_of x) /\ a = elems fy /\ b = elems dr /\ arrays_ok fy dr /\ index_ok ny y /\ index_ok nx x).
  { intros y2 x2 I1 I2 a b (y' & x' & n & E & J1 & J2 & K1 & K2). inversion E; subst. repeat split; try apply J1; try apply J2; try (exists n; eauto).
    f_equal; [apply kcomp_same; auto; [apply I1|apply J1]|apply kcomp_same; auto; [apply I2|apply J2]]. }
  destruct (arrays_dec fy dr) as [Ha|Ha]; [destruct (index_dec ny y) as [Iy|Iy]; [destruct (index_dec nx x) as [Ix|Ix]|]|].
  1:{ rewrite save_ok by (auto; congruence). cbn [fst].
    split; [auto|]. split; [auto|]. split; [auto|]. cbn [d_fy d_dr]. split.
    - intros k v. destruct (dkey_eqb_spec k (kcomp_of y, kcomp_of x)) as [->|Hne]; [eauto|].
      rewrite dget_other by auto. apply Hk.
    - intros y2 x2 I1 I2. destruct (dkey_eqb_spec (kcomp_of y2, kcomp_of x2) (kcomp_of y, kcomp_of x)) as [E|E].
      + left. rewrite E, !dget_same. exists (elems fy), (elems dr). repeat split; auto. apply latest_snoc. left.
        destruct Ha as (n & a & b & -> & ->). exists y, x, n. cbn. repeat split; try apply Iy; try apply Ix;
          inversion E; apply kcomp_same; auto; try apply I1; try apply I2; try apply Iy; try apply Ix.
      + rewrite !dget_other by auto.
        assert (N : forall a' b', ~ saves_at ny nx y2 x2 (DSave y x fy dr) a' b') by (intros a' b' S; apply R in S; tauto).
        destruct (Hd y2 x2 I1 I2) as [(a & b & F & D & L)|(F & D & L)]; [left; exists a, b|right]; repeat split; auto.
        * apply latest_snoc. auto.
        * intros a b L2. apply latest_snoc in L2. destruct L2 as [L2|[L2 _]]; [eapply N; eauto|eapply L; eauto]. }
  all: (destruct (@save_bad d y x fy dr He) as [e Ee]; [subst ny nx; tauto|]; rewrite Ee; cbn [fst];
    split; [auto|]; split; [auto|]; split; [auto|]; split; [auto|]; intros y2 x2 I1 I2;
    assert (N : forall a' b', ~ saves_at ny nx y2 x2 (DSave y x fy dr) a' b') by (intros a' b' S; apply R in S; tauto);
    destruct (Hd y2 x2 I1 I2) as [(a & b & F & D & L)|(F & D & L)]; [left; exists a, b|right]; repeat split; auto;
    [apply latest_snoc; auto | intros a b L2; apply latest_snoc in L2; destruct L2 as [L2|[L2 _]]; [eapply N; eauto|eapply L; eauto]]).
Qed.

Theorem dops_represents g l : Forall not_extend l ->
  represents (do_dops (new_diag g) l) (fst (diag_size g)) (snd (diag_size g)) l.
Proof.
  induction l as [|o l IH] using rev_ind; intros H.
  - unfold diag_size, new_diag. destruct (g_shape g) as [[ny nx] nr]. cbn. repeat split; auto; [discriminate|].
    intros y x _ _. right. repeat split; auto. intros a b (l1 & o & l2 & E & _). destruct l1; discriminate.
  - apply Forall_app in H. destruct H as [H1 H2]. assert (H3 := Forall_inv H2). specialize (IH H1).
    unfold do_dops. rewrite fold_left_app. cbn [fold_left]. fold (do_dops (new_diag g) l).
    destruct o as [y x fy dr| |y x].
    + cbn [do_dop]. apply save_represents; auto.
    + now destruct H3.
    + cbn [do_dop]. destruct IH as (A & B & C & D & E). split; auto. split; auto. split; auto. split; auto.
      intros y2 x2 I1 I2.
      assert (N : forall a' b', ~ saves_at (fst (diag_size g)) (snd (diag_size g)) y2 x2 (DGet y x) a' b') by (intros a' b' (? & ? & ? & X & _); discriminate).
      destruct (E y2 x2 I1 I2) as [(a & b & F & G & L)|(F & G & L)]; [left; exists a, b|right]; repeat split; auto.
      * apply latest_snoc. auto.
      * intros a b L2. apply latest_snoc in L2. destruct L2 as [L2|[L2 _]]; [eapply N; eauto|eapply L; eauto].
Qed.

(** C25: reading back *)
Theorem get_latest g l y x a b : Forall not_extend l ->
  get_diagnostic (do_dops (new_diag g) l) y x = Ok (a, b) <->
  index_ok (fst (diag_size g)) y /\ index_ok (snd (diag_size g)) x /\ latest (fst (diag_size g)) (snd (diag_size g)) y x l a b.
Proof.
  intros H. destruct (dops_represents g H) as (A & B & C & D & E). unfold get_diagnostic.
  destruct (index_dec (fst (diag_size g)) y) as [Iy|Iy]; [destruct (index_dec (snd (diag_size g)) x) as [Ix|Ix]|].
  - rewrite gen_key_ok by (auto; congruence). cbn [bind].
    destruct (E y x Iy Ix) as [(a' & b' & F & G & L)|(F & G & L)]; rewrite F, ?G; split.
    + intros X; inversion X; subst. auto.
    + intros (_ & _ & L2).
      assert (U : a' = a /\ b' = b).
      { destruct L as (l1 & o & l2 & -> & (y1 & x1 & n & -> & J) & N), L2 as (m1 & o2 & m2 & E2 & (y2 & x2 & n2 & -> & J2) & N2).
        assert (O : List.length l1 = List.length m1).
        { destruct (Nat.lt_trichotomy (List.length l1) (List.length m1)) as [Q|[Q|Q]]; auto; exfalso.
          - apply (N (DSave y2 x2 (PArr "float64" [n2] a) (PArr "float64" [n2] b)) a b).
            + assert (W : nth_error (l1 ++ DSave y1 x1 (PArr "float64" [n] a') (PArr "float64" [n] b') :: l2) (List.length m1) = Some (DSave y2 x2 (PArr "float64" [n2] a) (PArr "float64" [n2] b))).
              { rewrite E2. rewrite nth_error_app2 by lia. rewrite Nat.sub_diag. reflexivity. }
              rewrite nth_error_app2 in W by lia. destruct (List.length m1 - List.length l1) eqn:Z; [lia|]. cbn in W. eapply nth_error_In; eauto.
            + exists y2, x2, n2. auto.
          - apply (N2 (DSave y1 x1 (PArr "float64" [n] a') (PArr "float64" [n] b')) a' b').
            + assert (W : nth_error (m1 ++ DSave y2 x2 (PArr "float64" [n2] a) (PArr "float64" [n2] b) :: m2) (List.length l1) = Some (DSave y1 x1 (PArr "float64" [n] a') (PArr "float64" [n] b'))).
              { rewrite <- E2. rewrite nth_error_app2 by lia. rewrite Nat.sub_diag. reflexivity. }
              rewrite nth_error_app2 in W by lia. destruct (List.length l1 - List.length m1) eqn:Z; [lia|]. cbn in W. eapply nth_error_In; eauto.
            + exists y1, x1, n. auto. }
        assert (W := f_equal (fun l => nth_error l (List.length l1)) E2). cbn beta in W.
        rewrite nth_error_app2, Nat.sub_diag in W by lia. rewrite O in W. rewrite nth_error_app2, Nat.sub_diag in W by lia. cbn in W.
        inversion W; auto. }
      destruct U; subst; auto.
    + discriminate.
    + intros (_ & _ & L2). exfalso. eapply L; eauto.
  - rewrite gen_key_err by (auto; rewrite A, B; tauto). cbn. split; [discriminate|tauto].
  - rewrite gen_key_err by (auto; rewrite A, B; tauto). cbn. split; [discriminate|tauto].
Qed.

Theorem get_errors g l y x e : Forall not_extend l ->
  get_diagnostic (do_dops (new_diag g) l) y x = Err e ->
  (index_ok (fst (diag_size g)) y /\ index_ok (snd (diag_size g)) x /\ e = KeyError) \/
  (~ (index_ok (fst (diag_size g)) y /\ index_ok (snd (diag_size g)) x) /\ e = index_error (fst (diag_size g)) y x).
Proof.
  intros H. destruct (dops_represents g H) as (A & B & C & D & E). unfold get_diagnostic.
  destruct (index_dec (fst (diag_size g)) y) as [Iy|Iy]; [destruct (index_dec (snd (diag_size g)) x) as [Ix|Ix]|].
  - rewrite gen_key_ok by (auto; congruence). cbn [bind]. intros X. left. repeat split; try apply Iy; try apply Ix.
    destruct (dget (d_fy _) _); [destruct (dget (d_dr _) _)|]; congruence.
  - rewrite gen_key_err by (auto; rewrite A, B; tauto). cbn. intros X; inversion X. right. rewrite A. tauto.
  - rewrite gen_key_err by (auto; rewrite A, B; tauto). cbn. intros X; inversion X. right. rewrite A. tauto.
Qed.

(** after extend nothing is stored any more *)
Theorem extended_refuses (d : gdiag) y x fy dr : d_ext d = true -> save_diagnostic d y x fy dr = (d, Err RuntimeError).
Proof. intros H. unfold save_diagnostic. now rewrite H. Qed.
Lemma extended_frozen l : forall d, d_ext d = true -> do_dops d l = d.
Proof.
  induction l as [|o l IH]; intros d H; cbn; auto. destruct o; cbn [do_dop].
  - rewrite extended_refuses by auto. cbn. apply IH; auto.
  - replace (diag_extend d) with d by (destruct d; cbn in H; subst; reflexivity). apply IH; auto.
  - apply IH; auto.
Qed.
Theorem extend_history d l1 l2 : do_dops d (l1 ++ DExtend :: l2) = diag_extend (do_dops d l1).
Proof. unfold do_dops. rewrite fold_left_app. cbn [fold_left do_dop]. fold (do_dops (diag_extend (fold_left do_dop l1 d)) l2). rewrite extended_frozen; auto. Qed.

(** C26: the extended lookup *)
Theorem extended_lookup g l y x : Forall not_extend l ->
  let ny := fst (diag_size g) in let nx := snd (diag_size g) in
  let d := do_dops (new_diag g) l in
  index_ok (2 * ny - 1) y -> index_ok (2 * nx - 1) x ->
  get_diagnostic (diag_extend d) y x =
    if (Z.eqb (zof y) 0 || Z.eqb (zof x) 0) then Err KeyError
    else get_diagnostic d (PInt (Z.abs (zof y - ny))) (PInt (Z.abs (zof x - nx))).
Proof.
  intros H ny nx d Hy Hx. destruct (dops_represents g H) as (A & B & C & D & E). fold d ny nx in A, B, C, D, E.
  unfold get_diagnostic at 1. unfold gen_key. cbn [diag_extend d_ext d_my d_mx d_fy d_dr]. rewrite A, B.
  replace (2 * (ny - 1))%Z with (2 * ny - 1 - 1)%Z by lia. replace (2 * (nx - 1))%Z with (2 * nx - 1 - 1)%Z by lia.
  rewrite (index_number Hy). cbn [bind]. rewrite (index_number Hx). cbn [bind].
  rewrite !zof_int by (apply Hy || apply Hx).
  assert (Out : forall i j, (~ (0 <= i < ny) \/ ~ (0 <= j < nx))%Z -> dget (d_fy d) (KInt i, KInt j) = None).
  { intros i j Ho. destruct (dget (d_fy d) (KInt i, KInt j)) as [v|] eqn:Ev; auto. exfalso.
    apply D in Ev. destruct Ev as (y' & x' & Ek & I1 & I2). inversion Ek as [[Ek1 Ek2]].
    destruct I1 as [I1 R1], I2 as [I2 R2].
    assert (i = zof y') by (destruct I1; cbn in *; congruence). assert (j = zof x') by (destruct I2; cbn in *; congruence). lia. }
  destruct Hy as [Hyi Hyr], Hx as [Hxi Hxr].
  destruct (Z.eqb_spec (zof y) 0) as [Ey|Ey]; cbn [orb].
  { rewrite Ey. rewrite Out; auto. left. lia. }
  destruct (Z.eqb_spec (zof x) 0) as [Ex|Ex]; cbn [orb].
  { rewrite Ex. rewrite Out; auto. right. lia. }
  unfold get_diagnostic. rewrite gen_key_ok; [reflexivity|auto|rewrite A; split; [constructor|cbn; lia]|rewrite B; split; [constructor|cbn; lia]].
Qed.

(** *** save and load *)
Definition diag_files : list string := ["fy_dict.npy"; "disk_radius_dict.npy"; "max_yx.npy"]%string.

Lemma diag_save_get (d : gdiag) (f f' : fs T) dir : run f (diag_save d dir) = (f', Ok tt) ->
  fs_get f' (under dir "fy_dict.npy") = Some (NFile (CDict (d_fy d))) /\
  fs_get f' (under dir "disk_radius_dict.npy") = Some (NFile (CDict (d_dr d))) /\
  fs_get f' (under dir "max_yx.npy") = Some (NFile (CNpy "int64" [2] [SI (d_my d); SI (d_mx d)])).
Proof.
  intros H. change (diag_save d dir) with ([SMkdirIf dir] ++ writes dir
    [("fy_dict.npy"%string, CDict (d_fy d)); ("disk_radius_dict.npy"%string, CDict (d_dr d)); ("max_yx.npy"%string, CNpy "int64" [2] [SI (d_my d); SI (d_mx d)])]) in H.
  apply run_app_ok in H. destruct H as (f1 & _ & H).
  apply writes_get in H; [|repeat constructor; cbn; intuition discriminate]. destruct H as [H _].
  repeat split; apply H; cbn; tauto.
Qed.

Theorem diag_load_save (d : gdiag) (f f' : fs T) dir : run f (diag_save d dir) = (f', Ok tt) ->
  diag_load f' dir = Ok (mkGD (d_my d) (d_mx d) (d_fy d) (d_dr d) false).
Proof.
  intros H. apply diag_save_get in H. destruct H as (A & B & C). unfold diag_load, np_load, np_load_dict. rewrite A, B, C. reflexivity.
Qed.

Theorem diag_save_succeeds (d : gdiag) (f : fs T) dir : usable f dir ->
  (forall n, In n diag_files -> fs_get f (under dir n) <> Some NDir) -> exists f', run f (diag_save d dir) = (f', Ok tt).
Proof.
  intros Hu Hn. change (diag_save d dir) with (SMkdirIf dir :: writes dir
    [("fy_dict.npy"%string, CDict (d_fy d)); ("disk_radius_dict.npy"%string, CDict (d_dr d)); ("max_yx.npy"%string, CNpy "int64" [2] [SI (d_my d); SI (d_mx d)])]).
  destruct (mkdirif_usable Hu) as (f1 & E1 & Hd & Ho). cbn [run]. rewrite E1. apply writes_run; auto.
intros n Hi. rewrite Ho by apply under_neq. apply Hn. exact Hi.
Qed.
End D.
