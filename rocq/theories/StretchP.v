(** The scale factor search and the rf interpolation, for all numbers. *)
From Coq Require Import ZArith Reals List Bool String Lia Lra.
From Verif Require Import Num NumP Py SpecNum Validate ValidateP Ring RingP RingSystem FS GridParams SpecGrid GridParamsP
  Names GridProp SpecProp GridPropP Geometry Build SpecBuild BuildP.
Import ListNotations.
Set Implicit Arguments.

Section Loop.
Context {T : Type} {NT : Num T}.
Notation pyval := (pyval T).

Section One.
Context (new : Z -> res (list T * list T)) (join : list T -> list T -> list T) (outer : list T -> option T) (mx max_rf : T).
Notation loop := (fun fuel sh fys drs => stretch fuel new join outer mx max_rf sh fys drs).

Lemma stretch_more f f' sh fys drs : f <= f' -> loop f sh fys drs <> Err OutOfFuel -> loop f' sh fys drs = loop f sh fys drs.
Proof.
  revert f' sh fys drs; induction f; intros f' sh fys drs Hf H; [cbn in H; congruence|].
  destruct f'; [lia|]. cbn [stretch] in *. destruct (new sh) as [[a b]|]; cbn [bind fst snd] in *; auto.
  destruct (nan_min (join b drs)); cbn [bind] in *; auto. destruct (outer b); auto.
  destruct (n_lt _ max_rf); destruct (n_gt _ _); auto. apply IHf; auto. lia.
Qed.

Lemma stretch_ends (Hnew : forall sh, new sh <> Err OutOfFuel) f sh fys drs : 1 <= f ->
  n_gt (n_ofZ (sh + Z.of_nat f)) (n_mul (num2 100) mx) = true -> loop f sh fys drs <> Err OutOfFuel.
Proof.
  revert sh fys drs; induction f; intros sh fys drs Hf H; [lia|].
  cbn [stretch]. specialize (Hnew sh). destruct (new sh) as [[a b]|]; cbn [bind fst snd]; [|congruence].
  destruct (join b drs) as [|z zs] eqn:EJ; cbn [nan_min bind]; [discriminate|].
  destruct (outer b); [|discriminate].
  destruct (n_lt _ max_rf).
  - destruct f.
    + replace (sh + Z.of_nat 1)%Z with (sh + 1)%Z in H by lia. rewrite H. discriminate.
    + destruct (n_gt (n_ofZ (sh + 1)) _); [discriminate|]. apply IHf; [lia|].
      rewrite <- H. do 2 f_equal. lia.
  - destruct (n_gt (n_ofZ sh) _); congruence.
Qed.

Lemma stretch_result f sh fys drs fys' drs' : loop f sh fys drs = Ok (fys', drs') ->
  exists sh' a b fys0 drs0 r m, (sh <= sh')%Z /\ new sh' = Ok (a, b) /\ fys' = join a fys0 /\ drs' = join b drs0 /\
    outer b = Some r /\ nan_min drs' = Ok m /\ n_lt (n_div r m) max_rf = false /\
    n_gt (n_ofZ sh') (n_mul (num2 100) mx) = false.
Proof.
  revert sh fys drs; induction f; intros sh fys drs H; cbn [stretch] in H; [discriminate|].
  destruct (new sh) as [[a b]|] eqn:En; cbn [bind fst snd] in *; [|discriminate].
  destruct (nan_min (join b drs)) as [m|] eqn:Em; cbn [bind] in *; [|discriminate].
  destruct (outer b) as [r|] eqn:Eo; [|discriminate].
  destruct (n_lt (n_div r m) max_rf) eqn:El.
  - destruct (n_gt _ _); [discriminate|]. apply IHf in H as (sh' & H). exists sh'.
    destruct H as (a' & b' & y0 & d0 & r' & m' & Hle & H). exists a', b', y0, d0, r', m'. split; [lia|exact H].
  - destruct (n_gt (n_ofZ sh) _) eqn:Eg; [discriminate|]. inversion H; subst.
    exists sh, a, b, fys, drs, r, m. split; [lia|]. auto 10.
Qed.

Lemma stretch_inv (P : list T -> list T -> Prop) : (forall sh a b fys drs, new sh = Ok (a, b) -> P fys drs -> P (join a fys) (join b drs)) ->
  forall f sh fys drs fys' drs', P fys drs -> loop f sh fys drs = Ok (fys', drs') -> P fys' drs'.
Proof.
  intros HP. induction f; intros sh fys drs fys' drs' H0 H; cbn [stretch] in H; [discriminate|].
  destruct (new sh) as [[a b]|] eqn:En; cbn [bind fst snd] in *; [|discriminate].
  destruct (nan_min _) as [m|]; cbn [bind] in *; [|discriminate].
  destruct (outer b); [|discriminate].
  destruct (n_lt _ max_rf); destruct (n_gt _ _); try discriminate.
  - eapply IHf; [|exact H]. eauto.
  - inversion H; subst. eauto.
Qed.
End One.

Lemma number_nofuel (v : pyval) b lo up ex : number v b lo up ex <> Err OutOfFuel.
Proof.
  unfold number, number_type, number_bounds, integer_type, float_type.
  destruct b, v; cbn [bind]; try discriminate; destruct lo; cbn [bind number_type integer_type float_type]; try discriminate;
    destruct up; cbn [bind number_type integer_type float_type]; try discriminate;
    repeat match goal with |- context [if ?c then _ else _] => destruct c end; discriminate.
Qed.
Lemma num_index_nofuel (v : pyval) : num_index v <> Err OutOfFuel.
Proof. destruct v; cbn; try discriminate; destruct (Z.ltb _ _); discriminate. Qed.

Context (E : env T).

Lemma disk_nofuel fx fy s c : disk_arrays E fx fy s c <> Err OutOfFuel.
Proof.
  unfold disk_arrays. destruct (number (PNpFloat s) _ _ _ _) eqn:E1; cbn [bind]; [|intros H; inversion H; subst; (eapply number_nofuel; exact E1)].
  destruct (number (PNpFloat c) _ _ _ _) eqn:E2; cbn [bind]; [discriminate|intros H; inversion H; subst; (eapply number_nofuel; exact E2)].
Qed.
Lemma fxy_nofuel nf mx sh : fxy_array nf mx sh <> Err OutOfFuel.
Proof.
  unfold fxy_array. destruct (num_index nf) eqn:E1; cbn [bind]; [discriminate|].
  intros H; inversion H; subst; (eapply num_index_nofuel; exact E1).
Qed.
Lemma new_h_nofuel nf mx dy s c sh : new_horizontal E nf mx dy s c sh <> Err OutOfFuel.
Proof.
  unfold new_horizontal. destruct (fxy_array nf mx sh) eqn:E1; cbn [bind]; [|intros H; inversion H; subst; (eapply fxy_nofuel; exact E1)].
  match goal with |- context [disk_arrays E ?a ?b s c] => destruct (disk_arrays E a b s c) eqn:E2 end; cbn [bind]; [discriminate|].
  intros H; inversion H; subst; (eapply disk_nofuel; exact E2).
Qed.
Lemma new_v_nofuel nf mx dy s c sh : new_vertical E nf mx dy s c sh <> Err OutOfFuel.
Proof.
  unfold new_vertical. destruct (fxy_array nf mx sh) eqn:E1; cbn [bind]; [|intros H; inversion H; subst; (eapply fxy_nofuel; exact E1)].
  match goal with |- context [disk_arrays E ?a ?b s c] => destruct (disk_arrays E a b s c) eqn:E2 end; cbn [bind]; [discriminate|].
  intros H; inversion H; subst; (eapply disk_nofuel; exact E2).
Qed.

(** both loops end within [k] rounds if k + 1 > 100 * max *)
Theorem loops_end nf mx max_rf dy s c fys drs k : 1 <= k -> k <= e_fuel E ->
  n_gt (n_ofZ (1 + Z.of_nat k)) (n_mul (num2 100) mx) = true ->
  extend_horizontally E nf mx max_rf dy s c fys drs <> Err OutOfFuel /\
  extend_vertically E nf mx max_rf dy s c fys drs <> Err OutOfFuel.
Proof.
  intros Hk Hf H. unfold extend_horizontally, extend_vertically. split.
  - assert (X : stretch k (new_horizontal E nf mx dy s c) (fun new old => new ++ old) first_opt mx max_rf 1 fys drs <> Err OutOfFuel)
      by (apply stretch_ends; auto; intros; apply new_h_nofuel).
    rewrite (@stretch_more _ _ _ _ _ k _ _ _ _ Hf X). exact X.
  - assert (X : stretch k (new_vertical E nf mx dy s c) (fun new old => old ++ new) final_opt mx max_rf 1 fys drs <> Err OutOfFuel)
      by (apply stretch_ends; auto; intros; apply new_v_nofuel).
    rewrite (@stretch_more _ _ _ _ _ k _ _ _ _ Hf X). exact X.
Qed.

Lemma first_opt_nth (l : list T) : first_opt l = nth_error l 0.
Proof. now destruct l. Qed.
Lemma final_opt_nth (l : list T) : l <> [] -> final_opt l = nth_error l (List.length l - 1).
Proof.
  intros H. unfold final_opt. rewrite first_opt_nth. rewrite nth_error_rev'; [f_equal; lia|].
  destruct l; [congruence|cbn; lia].
Qed.

(** on normal return the outermost fraction is not below the maximum *)
Theorem horizontal_reaches nf mx max_rf dy s c fys drs fys' drs' :
  extend_horizontally E nf mx max_rf dy s c fys drs = Ok (fys', drs') ->
  exists r m, nth_error drs' 0 = Some r /\ nan_min drs' = Ok m /\ n_lt (n_div r m) max_rf = false.
Proof.
  intros H. apply stretch_result in H as (sh & a & b & y0 & d0 & r & m & _ & _ & _ & -> & Ho & Hm & Hl & _).
  exists r, m. split; [|auto]. destruct b; cbn in *; [discriminate|]. exact Ho.
Qed.
Theorem vertical_reaches nf mx max_rf dy s c fys drs fys' drs' :
  extend_vertically E nf mx max_rf dy s c fys drs = Ok (fys', drs') ->
  exists r m, nth_error drs' (List.length drs' - 1) = Some r /\ nan_min drs' = Ok m /\ n_lt (n_div r m) max_rf = false.
Proof.
  intros H. apply stretch_result in H as (sh & a & b & y0 & d0 & r & m & _ & _ & _ & -> & Ho & Hm & Hl & _).
  exists r, m. split; [|auto]. destruct (list_eq_dec Nat.eq_dec [List.length b] [0]) as [Eb|Eb].
  - destruct b; [discriminate Ho|discriminate Eb].
  - assert (Hb : b <> []) by (intros ->; apply Eb; reflexivity).
    rewrite <- final_opt_nth.
    + unfold final_opt in *. rewrite rev_app_distr. destruct (rev b); cbn in *; [discriminate|exact Ho].
    + destruct d0; [exact Hb|discriminate].
Qed.

(** every sampled pair is the fy and the radius of a disk touching the contact points *)
Definition from_disk (dy s c fy r : T) : Prop :=
  exists fx, (fy = determine_fy fx dy \/ fx = determine_fx fy dy) /\ r = fst (fst (disk_parameters (e_libm E) fx fy s c)).

Lemma radii_Forall2 (P : T -> T -> Prop) fx fy s c :
  Forall2 (fun x y => P y (fst (fst (disk_parameters (e_libm E) x y s c)))) fx fy ->
  Forall2 P fy (radii (map (fun p => disk_parameters (e_libm E) (fst p) (snd p) s c) (combine fx fy))).
Proof. induction 1; cbn; constructor; auto. Qed.
Lemma disk_arrays_ok fx fy s c d : disk_arrays E fx fy s c = Ok d -> d = map (fun p => disk_parameters (e_libm E) (fst p) (snd p) s c) (combine fx fy).
Proof.
  unfold disk_arrays. destruct (number (PNpFloat s) _ _ _ _); cbn [bind]; [|discriminate].
  destruct (number (PNpFloat c) _ _ _ _); cbn [bind]; [|discriminate]. congruence.
Qed.
Lemma Forall2_map_self {A B} (f : A -> B) (P : A -> B -> Prop) l : (forall x, P x (f x)) -> Forall2 P l (map f l).
Proof. intros; induction l; cbn; constructor; auto. Qed.

Lemma new_h_samples nf mx dy s c sh a b : new_horizontal E nf mx dy s c sh = Ok (a, b) -> Forall2 (from_disk dy s c) a b.
Proof.
  unfold new_horizontal. destruct (fxy_array nf mx sh) as [fx|]; cbn [bind]; [|discriminate].
  destruct (disk_arrays _ _ _ _ _) eqn:E2; cbn [bind]; [|discriminate]. intros H; inversion H; subst.
  apply disk_arrays_ok in E2. subst. apply radii_Forall2. rewrite <- map_rev. apply Forall2_map_self.
  intros x. exists x. auto.
Qed.
Lemma Forall2_map_left {A B} (f : A -> B) (P : B -> A -> Prop) l : (forall x, P (f x) x) -> Forall2 P (map f l) l.
Proof. intros; induction l; cbn; constructor; auto. Qed.
Lemma new_v_samples nf mx dy s c sh a b : new_vertical E nf mx dy s c sh = Ok (a, b) -> Forall2 (from_disk dy s c) a b.
Proof.
  unfold new_vertical. destruct (fxy_array nf mx sh) as [fy|]; cbn [bind]; [|discriminate].
  destruct (disk_arrays _ _ _ _ _) eqn:E2; cbn [bind]; [|discriminate]. intros H; inversion H; subst.
  apply disk_arrays_ok in E2. subst. apply radii_Forall2. apply Forall2_map_left.
  intros y. eexists; split; [right; reflexivity|reflexivity].
Qed.
Lemma Forall2_both {A B} (P : A -> B -> Prop) a b c d : Forall2 P a b -> Forall2 P c d -> Forall2 P (a ++ c) (b ++ d).
Proof. apply Forall2_app. Qed.

Theorem samples nf mxx mxy max_rf dy s c h v :
  extend_horizontally E nf mxx max_rf dy s c [] [] = Ok h ->
  extend_vertically E nf mxy max_rf dy s c (fst h) (snd h) = Ok v -> Forall2 (from_disk dy s c) (fst v) (snd v).
Proof.
  destruct h as [a b], v as [a' b']. cbn [fst snd]. intros H V.
  assert (Hh : Forall2 (from_disk dy s c) a b).
  { revert H. apply (@stretch_inv _ _ _ _ _ (Forall2 (from_disk dy s c))); [|constructor].
    intros sh p q y0 d0 Hn Hp. apply Forall2_both; auto. eapply new_h_samples; eauto. }
  revert V. apply (@stretch_inv _ _ _ _ _ (Forall2 (from_disk dy s c))); auto.
  intros sh p q y0 d0 Hn Hp. apply Forall2_both; auto. eapply new_v_samples; eauto.
Qed.
End Loop.

Section Laws.
Context {T : Type} {NT : Num T} {LT : NumLaws T}.
Notation pyval := (pyval T).
Context (E : env T).

(** a maximum below 0.01 always raises *)
Lemma stretch_small new join outer (mx max_rf : T) f sh fys drs a b m r : new sh = Ok (a, b) -> nan_min (join b drs) = Ok m -> outer b = Some r ->
  (1 <= sh <= 2 ^ 52)%Z -> n_gt (n_ofZ sh) (n_mul (num2 100) mx) = true ->
  stretch (S f) new join outer mx max_rf sh fys drs = Err AttributeError.
Proof.
  intros Hn Hm Ho Hsh Hg. cbn [stretch]. rewrite Hn. cbn [bind fst snd]. rewrite Hm. cbn [bind]. rewrite Ho.
  destruct (n_lt _ max_rf); rewrite ?Hg; auto.
  assert (H2 : n_gt (n_ofZ (sh + 1)) (n_mul (num2 100) mx) = true); [|now rewrite H2].
  unfold n_gt in *. apply nlt_iff in Hg. apply nlt_iff. rewrite l_ofZ in * by lia.
  destruct (val (n_mul (num2 100) mx)); cbn [xlt] in *; auto. rewrite plus_IZR. lra.
Qed.

(** *** np.nanmin, np.nanargmin *)
Lemma nan_min_spec (l : list T) m : nan_min l = Ok m ->
  l <> [] /\ ((forall x, In x l -> val x = XNaN) /\ m = n_nan \/
    In m l /\ val m <> XNaN /\ forall x, In x l -> val x <> XNaN -> xle (val m) (val x)).
Proof.
  intros H. split; [intros ->; discriminate|]. destruct l as [|x l]; [discriminate|]. unfold nan_min in H.
  assert (Hm : m = dflt n_nan (nanmin (x :: l))) by congruence. subst m. clear H. assert (S := nanmin_spec (x :: l)). destruct (nanmin (x :: l)); cbn [dflt]; [right; exact S|left; split; [exact S|reflexivity]].
Qed.
Lemma nan_min_total (l : list T) : l <> [] -> exists m, nan_min l = Ok m.
Proof. destruct l; [congruence|]. intros _. eexists; reflexivity. Qed.

Lemma xle_xlt a b c : xle a b -> xlt b c -> xle a c.
Proof. intros [H|[-> _]] H'; left; auto. destruct a, b, c; cbn in *; try tauto. lra. Qed.
Lemma xle_le a b c : xle a b -> xle b c -> xle a c.
Proof. intros H [H'|[<- _]]; auto. eapply xle_xlt; eauto. Qed.

Lemma argmin_from_spec l i (best : T) bi : val best <> XNaN -> (forall y, In y l -> val y <> XNaN) ->
  exists x, (argmin_from l i best bi = bi /\ x = best \/ exists j, argmin_from l i best bi = i + j /\ nth_error l j = Some x) /\
    val x <> XNaN /\ xle (val x) (val best) /\ forall y, In y l -> xle (val x) (val y).
Proof.
  revert i best bi; induction l as [|a l IH]; intros i best bi Hb Hl; cbn [argmin_from].
  - exists best. split; auto. split; auto. split; [right; auto|]. intros y [].
  - assert (Ha : val a <> XNaN) by (apply Hl; now left).
    assert (Hl' : forall y, In y l -> val y <> XNaN) by (intros; apply Hl; now right).
    destruct (n_lt a best) eqn:El.
    + apply nlt_iff in El. destruct (IH (S i) a i Ha Hl') as (x & Hx & Hn & Hle & Hall). exists x. split; [|split; auto; split].
      * right. destruct Hx as [[-> ->]|(j & -> & Hj)]; [exists 0|exists (S j)]; split; auto; lia.
      * eapply xle_xlt; eauto.
      * intros y [<-|Hy]; auto.
    + destruct (IH (S i) best bi Hb Hl') as (x & Hx & Hn & Hle & Hall). exists x. split; [|split; auto; split; auto].
      * destruct Hx as [[-> ->]|(j & -> & Hj)]; [left; auto|right; exists (S j)]; split; auto; lia.
      * intros y [<-|Hy]; auto.
        assert (Hba : xle (val best) (val a)).
        { assert (~ xlt (val a) (val best)) by (rewrite <- nlt_iff; congruence).
          destruct (val a), (val best); cbn in *; try congruence; try tauto; try (left; exact I); try (right; split; congruence).
          destruct (Rtotal_order r0 r) as [|[->|]]; [left; auto|right; split; congruence|contradiction]. }
        eapply xle_le; eauto.
Qed.

Lemma argmin_spec (l : list T) : l <> [] -> (forall y, In y l -> val y <> XNaN) ->
  exists x, nth_error l (argmin l) = Some x /\ val x <> XNaN /\ forall y, In y l -> xle (val x) (val y).
Proof.
  destruct l as [|a l]; [congruence|]. intros _ Hl. cbn [argmin].
  destruct (@argmin_from_spec l 1 a 0) as (x & Hx & Hn & Hle & Hall); [apply Hl; now left|intros; apply Hl; now right|].
  exists x. split; [|split; auto; intros y [<-|]; auto].
  destruct Hx as [[-> ->]|(j & -> & Hj)]; auto.
Qed.

Theorem nanargmin_ok (l : list T) : (exists x, In x l /\ val x <> XNaN) -> exists k, nanargmin l = Ok k.
Proof.
  intros (x & Hx & Hn). unfold nanargmin. destruct (forallb n_isnan l) eqn:F; eauto.
  rewrite forallb_forall in F. apply F, isnan_iff in Hx. contradiction.
Qed.
Theorem nanargmin_allnan (l : list T) : (forall x, In x l -> val x = XNaN) -> nanargmin l = Err ValueError.
Proof.
  intros H. unfold nanargmin. replace (forallb n_isnan l) with true; auto. symmetry. apply forallb_forall.
  intros x Hx. apply isnan_iff. auto.
Qed.
Theorem nanargmin_spec (l : list T) k : nanargmin l = Ok k ->
  exists x, nth_error l k = Some x /\ (exists y, In y l /\ val y <> XNaN) /\
    (val x = XNaN -> forall y, In y l -> val y <> XNaN -> val y = XPInf) /\
    (val x <> XNaN -> forall y, In y l -> val y <> XNaN -> xle (val x) (val y)).
Proof.
  unfold nanargmin. destruct (forallb n_isnan l) eqn:F; [discriminate|]. intros H. injection H as <-.
  set (f := fun x => if n_isnan x then n_inf else x).
  assert (Hf : forall x, val (f x) <> XNaN).
  { intros x. unfold f. destruct (n_isnan x) eqn:Ex; [rewrite l_inf; discriminate|now apply isnan_false]. }
  assert (Hex : exists y, In y l /\ val y <> XNaN).
  { destruct (existsb (fun x => negb (n_isnan x)) l) eqn:Ee.
    - apply existsb_exists in Ee as (y & Hy & Hn). exists y. split; auto. apply isnan_false. now apply negb_true_iff in Hn.
    - exfalso. assert (forallb n_isnan l = true); [|congruence]. apply forallb_forall. intros x Hx.
      destruct (n_isnan x) eqn:Ex; auto. assert (existsb (fun x => negb (n_isnan x)) l = true); [|congruence].
      apply existsb_exists. exists x. rewrite Ex. auto. }
  assert (Hne : map f l <> []) by (destruct Hex as (y & Hy & _); destruct l; [destruct Hy|discriminate]).
  destruct (@argmin_spec (map f l) Hne) as (z & Hz & Hzn & Hall).
  { intros y Hy. apply in_map_iff in Hy as (x & <- & _). apply Hf. }
  rewrite nth_error_map in Hz. destruct (nth_error l (argmin (map f l))) as [x|] eqn:Ex; [|discriminate].
  injection Hz as <-. exists x. split; auto. split; auto. split.
  - intros Hx y Hy Hn. assert (n_isnan x = true) by now apply isnan_iff.
    specialize (Hall (f y) (in_map f _ _ Hy)). unfold f in Hall. rewrite H, l_inf in Hall.
    replace (n_isnan y) with false in Hall by (symmetry; now apply isnan_false).
    destruct Hall as [Hall|[Hall _]]; [|auto]. destruct (val y); cbn in Hall; tauto.
  - intros Hx y Hy Hn. specialize (Hall (f y) (in_map f _ _ Hy)). unfold f in Hall.
    replace (n_isnan x) with false in Hall by (symmetry; now apply isnan_false).
    replace (n_isnan y) with false in Hall by (symmetry; now apply isnan_false). exact Hall.
Qed.

(** *** interpolation *)
Lemma interp_from_length xp fp xs j : List.length (interp_from E xp fp xs j) = List.length xs.
Proof. revert j; induction xs; intros; cbn; auto. destruct (n_isnan a); cbn; auto. Qed.
Lemma np_interp_length xs xp fp l : np_interp E xs xp fp = Ok l -> List.length l = List.length xs.
Proof.
  destruct xp as [|p [|q xp]]; cbn [np_interp]; [discriminate| |].
  - destruct fp; intros H; inversion H; subst; [apply interp_from_length|apply map_length].
  - intros H; inversion H; subst; apply interp_from_length.
Qed.
Lemma np_interp_total xs xp fp : xp <> [] -> exists l, np_interp E xs xp fp = Ok l.
Proof. destruct xp as [|p [|q xp]]; [congruence| |]; intros _; destruct fp; cbn; eauto. Qed.

Lemma removelast_rev {A} (l : list A) : removelast (rev l) = rev (tl l).
Proof. destruct l; auto. cbn. apply removelast_last. Qed.

Theorem interpolate_middle rf dy fys drs fx fy : rf <> [] -> List.length fys = List.length drs -> interpolate E rf dy fys drs = Ok (fx, fy) ->
  List.length fy = 2 * List.length rf - 1 /\ fx = map (fun y => determine_fx y dy) fy /\
  exists k, nanargmin drs = Ok k /\ nth_error fy (List.length rf - 1) = nth_error fys k.
Proof.
  intros Hrf Hlen. unfold interpolate. destruct (nan_min drs) as [m|]; cbn [bind]; [|discriminate].
  destruct (nanargmin drs) as [k|] eqn:Ek; cbn [bind]; [|discriminate].
  destruct (np_interp E rf (rev _) _) as [ix|] eqn:Ex; cbn [bind]; [|discriminate].
  destruct (np_interp E rf (skipn _ _) _) as [iy|] eqn:Ey; cbn [bind]; [|discriminate].
  intros H. match type of H with Ok (?d, ?e) = _ => assert (Hfx : fx = d) by congruence; assert (Hfy : fy = e) by congruence end.
  subst fx fy. clear H. apply np_interp_length in Ex, Ey.
  rewrite removelast_rev.
  assert (Hrf' : 1 <= List.length rf) by (destruct rf; [congruence|cbn; lia]).
  assert (Lx : List.length (rev (tl ix)) = List.length rf - 1) by (rewrite rev_length; destruct ix; cbn in *; lia).
  assert (Ly : List.length (tl iy) = List.length rf - 1) by (destruct iy; cbn in *; lia).
  split. { rewrite !app_length, Lx, Ly. change (List.length [nth k fys n_nan]) with 1. lia. }
  split; auto. exists k. split; auto.
  rewrite nth_error_app2 by lia. rewrite Lx, Nat.sub_diag. cbn [app nth_error].
  destruct (nanargmin_spec _ Ek) as (x & Hx & _). assert (k < List.length fys) by (rewrite Hlen; apply nth_error_Some; congruence).
  symmetry. now apply nth_error_nth'.
Qed.

Lemma interpolate_total rf dy fys drs : (exists x, In x drs /\ val x <> XNaN) ->
  List.length fys = List.length drs -> exists r, interpolate E rf dy fys drs = Ok r.
Proof.
  intros Hx Hl. unfold interpolate.
  destruct (nan_min_total (l := drs)) as [m Hm]; [destruct Hx as (x & Hx & _); destruct drs; [destruct Hx|discriminate]|].
  rewrite Hm. cbn [bind]. destruct (nanargmin_ok _ Hx) as [k Hk]. rewrite Hk. cbn [bind].
  destruct (nanargmin_spec _ Hk) as (x & Hnth & _). assert (Hkl : k < List.length drs) by (apply nth_error_Some; congruence).
  set (frac := map (fun d => n_div d m) drs).
  destruct (@np_interp_total rf (rev (firstn (S k) frac)) (rev (firstn (S k) fys))) as [ix Hix].
  { intros H. apply (f_equal (@List.length T)) in H. rewrite rev_length, firstn_length in H. unfold frac in H. rewrite map_length in H. cbn [List.length] in H. lia. }
  rewrite Hix. cbn [bind].
  destruct (@np_interp_total rf (skipn k frac) (skipn k fys)) as [iy Hiy].
  { intros H. apply (f_equal (@List.length T)) in H. rewrite skipn_length in H. unfold frac in H. rewrite map_length in H. cbn [List.length] in H. lia. }
  rewrite Hiy. cbn [bind]. eauto.
Qed.
Lemma interpolate_allnan rf dy fys drs : (forall x, In x drs -> val x = XNaN) -> interpolate E rf dy fys drs = Err ValueError.
Proof.
  intros H. unfold interpolate. destruct drs; [reflexivity|]. destruct (nan_min_total (l := t :: drs)) as [m Hm]; [discriminate|].
  rewrite Hm. cbn [bind]. now rewrite nanargmin_allnan.
Qed.
End Laws.
