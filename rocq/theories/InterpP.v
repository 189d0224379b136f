(** np.interp: a search that meets its contract, and where the interpolated values lie. *)
From Coq Require Import ZArith Reals List Bool String Lia Lra Psatz.
From Verif Require Import Num NumP Py SpecNum Validate ValidateP Ring RingP RingSystem FS GridParams SpecGrid GridParamsP GridParamsXP
  Names GridProp SpecProp GridPropP Geometry XLibm SpecGeom GeomP Build SpecBuild BuildP StretchP.
Import ListNotations.
Set Implicit Arguments.

(** *** numpy's search with a guess (compiled_base.c binary_search_with_guess, from memory, without the
    cache heuristic): it meets the contract [brackets] for every list, sorted or not, with or without NaN *)
Section Search.
Context {T : Type} {NT : Num T}.
Definition at_ (l : list T) (i : Z) : T := nth (Z.to_nat i) l n_nan.
Fixpoint linear (x : T) (l : list T) (i : Z) : Z :=
  match l with [] => i | a :: l => if n_le a x then linear x l (i + 1) else i end.
Fixpoint bisect (fuel : nat) (x : T) (l : list T) (lo hi : Z) : Z :=
  match fuel with
  | O => lo
  | S fuel =>
    if Z.ltb lo hi then
      let mid := (lo + (hi - lo) / 2)%Z in
      if n_le (at_ l mid) x then bisect fuel x l (mid + 1) hi else bisect fuel x l lo mid
    else lo
  end.
Definition np_search (x : T) (l : list T) (guess : Z) : Z :=
  let n := Z.of_nat (List.length l) in
  if n_lt (at_ l (n - 1)) x then n
  else if n_lt x (at_ l 0) then (-1)%Z
  else if Z.leb n 4 then (linear x (tl l) 1 - 1)%Z
  else
    let g := Z.max 1 (Z.min guess (n - 3)) in
    if n_lt x (at_ l g) then
      if n_lt x (at_ l (g - 1)) then (bisect (List.length l) x l 0 (g - 1) - 1)%Z
      else (g - 1)%Z
    else if n_lt x (at_ l (g + 1)) then g
    else if n_lt x (at_ l (g + 2)) then (g + 1)%Z
    else (bisect (List.length l) x l (g + 2) n - 1)%Z.

Context {LT : NumLaws T}.
Lemma lt_not_le (a x : T) : n_lt x a = true -> n_le a x = false.
Proof.
  intros H. apply nlt_iff in H. destruct (n_le a x) eqn:E; auto. apply nle_iff in E. exfalso.
  destruct E as [E|[E _]]; destruct (val a), (val x); cbn in *; try tauto; try discriminate; try lra. injection E as ->. lra.
Qed.
Lemma le_not_lt (a x : T) : n_le a x = true -> n_lt x a = false.
Proof. intros H. destruct (n_lt x a) eqn:E; auto. apply lt_not_le in E. congruence. Qed.

Lemma linear_spec x l i : (i <= linear x l i <= i + Z.of_nat (List.length l))%Z /\
  (forall k a, (i + Z.of_nat k < linear x l i)%Z -> nth_error l k = Some a -> n_le a x = true) /\
  (forall k a, (i + Z.of_nat k = linear x l i)%Z -> nth_error l k = Some a -> n_le a x = false).
Proof.
  revert i; induction l as [|a l IH]; intros i; cbn [linear List.length].
  - repeat split; try lia; intros k b _ H; destruct k; discriminate.
  - destruct (n_le a x) eqn:Ea.
    + destruct (IH (i + 1)%Z) as (H1 & H2 & H3). split; [lia|]. split.
      * intros [|k] b Hk Hb; cbn in Hb; [congruence|]. apply (H2 k); auto. lia.
      * intros [|k] b Hk Hb; cbn in Hb; [lia|]. apply (H3 k); auto. lia.
    + repeat split; try lia; intros [|k] b Hk Hb; cbn in Hb; try lia; try congruence.
Qed.

Lemma at_nth l i (a : T) : nth_error l i = Some a -> at_ l (Z.of_nat i) = a.
Proof. intros H. unfold at_. rewrite Nat2Z.id. now apply nth_error_nth. Qed.

Lemma bisect_spec fuel x l lo hi : (0 <= lo <= hi)%Z -> (hi <= Z.of_nat (List.length l))%Z -> (hi - lo <= Z.of_nat fuel)%Z ->
  (lo = 0 \/ n_lt x (at_ l (lo - 1)) = false)%Z -> (hi = Z.of_nat (List.length l) \/ n_le (at_ l hi) x = false)%Z ->
  let r := bisect fuel x l lo hi in
  (0 <= r <= Z.of_nat (List.length l))%Z /\ (r = 0 \/ n_lt x (at_ l (r - 1)) = false)%Z /\
  (r = Z.of_nat (List.length l) \/ n_le (at_ l r) x = false)%Z.
Proof.
  revert lo hi; induction fuel; intros lo hi Hlh Hn Hf Hlo Hhi; cbn [bisect]; cbn zeta.
  - assert (lo = hi) by lia. subst. repeat split; auto; lia.
  - destruct (Z.ltb_spec lo hi).
    + assert (Hm : (0 <= (hi - lo) / 2 < hi - lo)%Z) by (split; [apply Z.div_pos; lia|apply Z.div_lt; lia]).
      destruct (n_le (at_ l (lo + (hi - lo) / 2)) x) eqn:Em.
      * apply IHfuel; auto; try lia. right. replace (lo + (hi - lo) / 2 + 1 - 1)%Z with (lo + (hi - lo) / 2)%Z by lia. now apply le_not_lt.
      * apply IHfuel; auto; lia.
    + assert (lo = hi) by lia. subst. repeat split; auto; lia.
Qed.

Theorem np_search_brackets : brackets (T := T) np_search.
Proof.
  intros x xp g Hx Hne. cbn zeta. set (n := Z.of_nat (List.length xp)).
  assert (Hn : (1 <= n)%Z) by (unfold n; destruct xp; [congruence|cbn [List.length]; lia]).
  assert (Hat0 : forall i a, nth_error xp i = Some a -> at_ xp (Z.of_nat i) = a) by (intros; now apply at_nth).
  assert (Hb : forall i a, nth_error xp i = Some a -> (Z.of_nat i < n)%Z) by (intros i a H; unfold n; assert (i < List.length xp)%nat by (apply nth_error_Some; congruence); lia).
  (* what suffices for an ordinary interval *)
  assert (G : forall j, (-1 <= j < n)%Z -> (j = -1 \/ n_lt x (at_ xp j) = false)%Z -> (j + 1 = n \/ n_le (at_ xp (j + 1)) x = false)%Z ->
    (-1 <= j <= n)%Z /\ (j < n -> forall i a, j = Z.of_nat i -> nth_error xp i = Some a -> n_lt x a = false)%Z /\
    (forall i a, (j + 1 = Z.of_nat i)%Z -> nth_error xp i = Some a -> n_le a x = false) /\
    (j = n -> forall a, nth_error xp (List.length xp - 1) = Some a -> n_lt a x = true)%Z).
  { intros j Hj Hl Hr. split; [lia|]. split; [|split].
    - intros _ i a -> Ha. destruct Hl as [?|Hl]; [lia|]. now rewrite (Hat0 _ _ Ha) in Hl.
    - intros i a Hi Ha. destruct Hr as [Hr|Hr]; [apply Hb in Ha; lia|]. rewrite Hi, (Hat0 _ _ Ha) in Hr. exact Hr.
    - lia. }
  unfold np_search. fold n. destruct (n_lt (at_ xp (n - 1)) x) eqn:E1.
  { split; [lia|]. split; [intros; lia|]. split; [intros i a Hi Ha; apply Hb in Ha; lia|].
    intros _ a Ha. apply Hat0 in Ha. replace (Z.of_nat (List.length xp - 1)) with (n - 1)%Z in Ha by (unfold n in *; lia). congruence. }
  destruct (n_lt x (at_ xp 0)) eqn:E2. { apply G; [lia|auto|]. right. cbn [Z.add]. now apply lt_not_le. }
  destruct (Z.leb_spec n 4).
  { destruct (linear_spec x (tl xp) 1) as (H1 & H2 & H3). set (r := linear x (tl xp) 1) in *.
    assert (Ht : (Z.of_nat (List.length (tl xp)) = n - 1)%Z) by (unfold n; destruct xp; [congruence|cbn [tl List.length]; lia]).
    apply G; [lia| |].
    - right. destruct (Z.eq_dec (r - 1) 0) as [->|]; [exact E2|]. apply le_not_lt.
      assert (Hk : exists k, (r - 1 = Z.of_nat (S k))%Z) by (exists (Z.to_nat (r - 2)); lia). destruct Hk as [k Hk].
      destruct (nth_error (tl xp) k) as [a|] eqn:Ea; [|apply nth_error_None in Ea; lia].
      rewrite Hk, (@at_nth xp (S k) a); [|destruct xp; [congruence|exact Ea]]. apply (H2 k); auto. lia.
    - destruct (Z.eq_dec r n); [left; lia|right]. replace (r - 1 + 1)%Z with r by lia.
      assert (Hk : exists k, (r = Z.of_nat (S k))%Z) by (exists (Z.to_nat (r - 1)); lia). destruct Hk as [k Hk].
      destruct (nth_error (tl xp) k) as [a|] eqn:Ea; [|apply nth_error_None in Ea; lia].
      rewrite Hk, (@at_nth xp (S k) a); [|destruct xp; [congruence|exact Ea]]. apply (H3 k); auto. lia. }
  set (q := Z.max 1 (Z.min g (n - 3))). assert (Hq : (1 <= q <= n - 3)%Z) by lia.
  destruct (n_lt x (at_ xp q)) eqn:E3.
  - destruct (n_lt x (at_ xp (q - 1))) eqn:E4.
    + destruct (@bisect_spec (List.length xp) x xp 0 (q - 1)) as (H1 & H2 & H3); try lia; [right; now apply lt_not_le|].
      set (r := bisect _ _ _ _ _) in *. apply G; [fold n in H1; lia| |].
      * destruct H2 as [->|H2]; [left; lia|right; exact H2].
      * replace (r - 1 + 1)%Z with r by lia. exact H3.
    + apply G; [lia|auto|]. right. replace (q - 1 + 1)%Z with q by lia. now apply lt_not_le.
  - destruct (n_lt x (at_ xp (q + 1))) eqn:E4; [apply G; [lia|auto|right; now apply lt_not_le]|].
    destruct (n_lt x (at_ xp (q + 2))) eqn:E5.
    { apply G; [lia|auto|]. right. replace (q + 1 + 1)%Z with (q + 2)%Z by lia. now apply lt_not_le. }
    destruct (@bisect_spec (List.length xp) x xp (q + 2) n) as (H1 & H2 & H3); try (unfold n in *; lia); [right; replace (q + 2 - 1)%Z with (q + 1)%Z by lia; exact E4|].
    set (r := bisect _ _ _ _ _) in *. apply G; [fold n in H1; lia| |].
    + destruct H2 as [->|H2]; [left; lia|right; exact H2].
    + replace (r - 1 + 1)%Z with r by lia. exact H3.
Qed.
End Search.

(** *** the interpolated values, exact arithmetic *)
Section Values.
Local Open Scope R_scope.
Context (E : env xr) (HS : brackets (e_search E)).

Lemma interp_from_each xp fp xs j i x : nth_error xs i = Some x -> n_isnan x = false ->
  exists g, nth_error (interp_from E xp fp xs j) i = Some (interp_in xp fp x (e_search E x xp g)).
Proof.
  revert j i; induction xs as [|y xs IH]; intros j i Hi Hx; [destruct i; discriminate|].
  destruct i; cbn [nth_error] in Hi.
  - injection Hi as ->. cbn [interp_from]. rewrite Hx. exists j. reflexivity.
  - cbn [interp_from]. destruct (n_isnan y); cbn [nth_error]; apply IH; auto.
Qed.

(** the interpolated value at a real [q] in finite samples lies on the broken line *)
Lemma interp_in_line (xs ys : list R) q g : xs <> [] -> List.length ys = List.length xs ->
  exists v, interp_in (map XFin xs) (map XFin ys) (XFin q) (e_search E (XFin q) (map XFin xs) g) = XFin v /\ broken_line xs ys q v.
Proof.
  intros Hne Hlen. destruct (@HS (XFin q) (map XFin xs) g eq_refl) as (Hj & Hl & Hr & Hn); [destruct xs; [congruence|discriminate]|].
  set (j := e_search E (XFin q) (map XFin xs) g) in *. rewrite map_length in *. set (n := List.length xs) in *.
  assert (Hn1 : (1 <= n)%nat) by (unfold n; destruct xs; [congruence|cbn; lia]).
  assert (Fi : forall i y, nth_error ys i = Some y -> nth (Z.to_nat (Z.of_nat i)) (map XFin ys) n_nan = XFin y).
  { intros i y Hy. rewrite Nat2Z.id. apply nth_error_nth. rewrite nth_error_map, Hy. reflexivity. }
  assert (Xi : forall i y, nth_error xs i = Some y -> nth (Z.to_nat (Z.of_nat i)) (map XFin xs) n_nan = XFin y).
  { intros i y Hy. rewrite Nat2Z.id. apply nth_error_nth. rewrite nth_error_map, Hy. reflexivity. }
  assert (Some_x : forall i, (i < n)%nat -> exists a, nth_error xs i = Some a) by (intros i Hi; destruct (nth_error xs i) eqn:Ex; eauto; apply nth_error_None in Ex; unfold n in Hi; lia).
  assert (Some_y : forall i, (i < n)%nat -> exists a, nth_error ys i = Some a) by (intros i Hi; destruct (nth_error ys i) eqn:Ex; eauto; apply nth_error_None in Ex; unfold n in *; lia).
  unfold interp_in. rewrite map_length. fold n.
  destruct (Z.eqb_spec j (-1)).
  { destruct (Some_x 0%nat) as [a Ha]; [lia|]. destruct (Some_y 0%nat) as [f Hf]; [lia|]. change 0%Z with (Z.of_nat 0); rewrite (Fi 0%nat _ Hf). exists f. split; auto. eapply bl_before; eauto.
    assert (H := Hr 0%nat (XFin a)). rewrite nth_error_map, Ha in H. specialize (H ltac:(lia) eq_refl). cbn in H. unfold x_le in H. cbn in H. destruct (Rlt_dec a q); [discriminate|]. destruct (Req_EM_T a q); [discriminate|]. lra. }
  destruct (Z.eqb_spec j (Z.of_nat n)).
  { destruct (Some_x (n - 1)%nat) as [a Ha]; [lia|]. destruct (Some_y (n - 1)%nat) as [f Hf]; [lia|]. replace (Z.of_nat n - 1)%Z with (Z.of_nat (n - 1)) by lia. rewrite (Fi _ _ Hf). exists f. split; auto.
    eapply bl_after with (i := (n - 1)%nat); eauto; [unfold n in *; lia|]. assert (H := Hn e (XFin a)). rewrite nth_error_map, Ha in H. specialize (H eq_refl). cbn in H. destruct (Rlt_dec a q); [lra|discriminate]. }
  assert (Hi : exists i, j = Z.of_nat i) by (exists (Z.to_nat j); lia). destruct Hi as [i Hi]. rewrite Hi in *. clear Hi.
  assert (Hin : (i < n)%nat) by lia.
  destruct (Some_x i Hin) as [a Ha]. destruct (Some_y i Hin) as [f Hf].
  assert (Haq : a <= q). { assert (H := Hl ltac:(lia) i (XFin a) eq_refl). rewrite nth_error_map, Ha in H. specialize (H eq_refl). cbn in H. destruct (Rlt_dec q a); [discriminate|lra]. }
  destruct (Z.eqb_spec (Z.of_nat i) (Z.of_nat n - 1)).
  { rewrite (Fi _ _ Hf). exists f. split; auto. eapply bl_after with (i := i); eauto. unfold n in *; lia. }
  assert (Hin' : (S i < n)%nat) by lia. destruct (Some_x (S i) Hin') as [b Hb]. destruct (Some_y (S i) Hin') as [h Hh].
  assert (Hqb : q < b). { assert (H := Hr (S i) (XFin b)). rewrite nth_error_map, Hb in H. specialize (H ltac:(lia) eq_refl). cbn in H. unfold x_le in H. cbn in H. destruct (Rlt_dec b q); [discriminate|]. destruct (Req_EM_T b q); [discriminate|]. lra. }
  replace (Z.of_nat i + 1)%Z with (Z.of_nat (S i)) by lia. rewrite (Fi _ _ Hf), (Fi _ _ Hh), (Xi _ _ Ha), (Xi _ _ Hb).
  cbn [n_eq Num_xr x_eq]. destruct (Req_EM_T a q) as [->|Hne'].
  { exists f. split; auto. eapply bl_in with (i := i); eauto. split; [lra|ring]. }
  cbn [n_sub n_div n_mul n_add Num_xr]. unfold x_sub. cbn [x_neg x_add]. rewrite xdiv by lra. cbn [x_mul x_add n_isnan x_isnan negb].
  eexists; split; [reflexivity|]. eapply bl_in with (i := i); eauto. split; [lra|]. field. lra.
Qed.

Theorem np_interp_line (xs ys : list R) (rf : list R) l : xs <> [] -> List.length ys = List.length xs ->
  np_interp E (map XFin rf) (map XFin xs) (map XFin ys) = Ok l ->
  exists vs, l = map XFin vs /\ Forall2 (broken_line xs ys) rf vs.
Proof.
  intros Hne Hlen H.
  assert (Each : forall i q, nth_error rf i = Some q -> exists v, nth_error l i = Some (XFin v) /\ broken_line xs ys q v).
  { intros i q Hq. destruct xs as [|a [|b xs]]; [congruence| |].
    - destruct ys as [|f [|]]; try discriminate. cbn [map np_interp] in H. injection H as <-. exists f. split.
      + rewrite map_map, nth_error_map, Hq. reflexivity.
      + destruct (Rlt_dec q a); [eapply bl_before; eauto; reflexivity|eapply bl_after with (i := 0%nat); eauto; try reflexivity; lra].
    - destruct ys as [|f ys]; [discriminate|]. cbn [map np_interp] in H. injection H as <-.
      destruct (@interp_from_each (XFin a :: XFin b :: map XFin xs) (XFin f :: map XFin ys) (map XFin rf) 0 i (XFin q)) as [g Hg]; auto; [rewrite nth_error_map, Hq; reflexivity|].
      destruct (@interp_in_line (a :: b :: xs) (f :: ys) q g) as (v & Hv & Hbl); [discriminate|exact Hlen|]. exists v. split; auto.
      rewrite Hg. f_equal. exact Hv. }
  apply np_interp_length in H. rewrite map_length in H. clear Hlen Hne.
  revert l H Each; induction rf as [|q rf IH]; intros l H Each.
  - destruct l; [|discriminate]. exists []. split; auto.
  - destruct l as [|x l]; [discriminate|]. destruct (Each 0%nat q eq_refl) as (v & Hv & Hb). cbn in Hv. injection Hv as ->.
    destruct (IH l) as (vs & -> & Hvs); [cbn in H; lia|intros i q' Hi; exact (Each (S i) q' Hi)|]. exists (v :: vs). split; auto.
Qed.

Lemma on_chord_between a f b h q v : on_chord a f b h q v -> Rmin f h <= v <= Rmax f h.
Proof.
  intros [Hq Hv]. set (t := (q - a) / (b - a)). assert (Ht : 0 <= t <= 1).
  { unfold t. split; [apply Rmult_le_pos; [lra|left; apply Rinv_0_lt_compat; lra]|]. apply (Rmult_le_reg_r (b - a)); [lra|]. unfold Rdiv. rewrite Rmult_assoc, Rinv_l by lra. lra. }
  assert (Ev : v = f + t * (h - f)). { apply (Rmult_eq_reg_r (b - a)); [|lra]. transitivity (f * (b - a) + (v - f) * (b - a)); [ring|]. rewrite Hv. unfold t. field. lra. }
  rewrite Ev. unfold Rmin, Rmax. destruct (Rle_dec f h); nra.
Qed.
Lemma broken_line_between xs ys q v : List.length ys = List.length xs -> broken_line xs ys q v -> exists f h, In f ys /\ In h ys /\ f <= v <= h.
Proof.
  intros Hl [a Ha Hv _|a i Hi Ha Hv _|i a b f h Ha Hb Hf Hh Hc].
  - exists v, v. apply nth_error_In in Hv. split; auto. split; auto. lra.
  - exists v, v. apply nth_error_In in Hv. split; auto. split; auto. lra.
  - apply on_chord_between in Hc. apply nth_error_In in Hf, Hh. unfold Rmin, Rmax in Hc. destruct (Rle_dec f h); [exists f, h|exists h, f]; auto.
Qed.

(** with NaN among the samples: NaN or between two sampled values *)
Definition ordinary (x : xr) : Prop := x = XNaN \/ exists r, x = XFin r.
Definition within (l : list xr) (x : xr) : Prop :=
  x = XNaN \/ exists a b r, In (XFin a) l /\ In (XFin b) l /\ x = XFin r /\ a <= r <= b.
Lemma within_in l x : ordinary x -> In x l -> within l x.
Proof. intros [->|[r ->]] H; [now left|right]. exists r, r, r. repeat split; auto; lra. Qed.
Lemma interp_in_within xp fp q j : Forall ordinary fp -> List.length fp = List.length xp -> xp <> [] ->
  (-1 <= j <= Z.of_nat (List.length xp))%Z ->
  (j < Z.of_nat (List.length xp) -> forall i a, j = Z.of_nat i -> nth_error xp i = Some a -> n_lt (XFin q) a = false)%Z ->
  (forall i a, (j + 1 = Z.of_nat i)%Z -> nth_error xp i = Some a -> n_le a (XFin q) = false) ->
  within fp (interp_in xp fp (XFin q) j).
Proof.
  intros Hf Hlen Hne Hj Hl Hr. rewrite Forall_forall in Hf. set (n := List.length xp) in *.
  assert (Hn1 : (1 <= n)%nat) by (unfold n; destruct xp; [congruence|cbn; lia]).
  assert (Fi : forall i, (0 <= i < Z.of_nat n)%Z -> In (nth (Z.to_nat i) fp n_nan) fp) by (intros i Hi; apply nth_In; lia).
  assert (Fo : forall i, (0 <= i < Z.of_nat n)%Z -> within fp (nth (Z.to_nat i) fp n_nan)) by (intros i Hi; apply within_in; auto).
  unfold interp_in. fold n.
  destruct (Z.eqb_spec j (-1)); [apply Fo; lia|]. destruct (Z.eqb_spec j (Z.of_nat n)); [apply Fo; lia|].
  destruct (Z.eqb_spec j (Z.of_nat n - 1)); [apply Fo; lia|].
  destruct (n_eq _ _) eqn:Eq; [apply Fo; lia|].
  assert (Hi : exists i, j = Z.of_nat i) by (exists (Z.to_nat j); lia). destruct Hi as [i ->].
  destruct (nth_error xp i) as [a|] eqn:Ha; [|apply nth_error_None in Ha; unfold n in *; lia].
  destruct (nth_error xp (S i)) as [b|] eqn:Hb; [|apply nth_error_None in Hb; unfold n in *; lia].
  specialize (Hl ltac:(lia) i a eq_refl Ha). specialize (Hr (S i) b ltac:(lia) Hb).
  rewrite Nat2Z.id in *. replace (Z.to_nat (Z.of_nat i + 1)) with (S i) in * by lia.
  rewrite (nth_error_nth _ _ n_nan Ha), (nth_error_nth _ _ n_nan Hb) in *.
  assert (Of := Fi (Z.of_nat i) ltac:(lia)). assert (Oh := Fi (Z.of_nat (S i)) ltac:(lia)). rewrite Nat2Z.id in *.
  set (f := nth i fp n_nan) in *. set (h := nth (S i) fp n_nan) in *. clearbody f h.
  destruct (Hf _ Of) as [->|[fr ->]]; destruct (Hf _ Oh) as [->|[hr ->]].
  - cbn. now left.
  - (* f NaN: everything NaN *) left. destruct a, b; cbn; repeat (destruct (Req_EM_T _ _)); try reflexivity.
  - left. destruct a, b; cbn; repeat (destruct (Req_EM_T _ _)); try reflexivity.
  - destruct a as [| | |a], b as [| | |b]; cbn in Hl, Hr, Eq; unfold x_le in Hr; cbn in Hr; try discriminate;
      try (destruct (Rlt_dec q a); [discriminate|]); try (destruct (Rlt_dec b q); [discriminate|]); try (destruct (Req_EM_T b q); [discriminate|]);
      try (destruct (Req_EM_T a q); [discriminate|]).
    all: cbn [n_sub n_div n_mul n_add n_isnan n_eq Num_xr]; unfold x_sub; cbn [x_neg x_add].
    all: try (match goal with |- context [x_div (XFin ?u) (XFin ?w)] => rewrite (@xdiv u w) by lra; cbn [x_mul x_add x_isnan negb];
      right; destruct (@on_chord_between a fr b hr q ((hr - fr) / (b - a) * (q - a) + fr)) as [H1 H2];
      [split; [lra|field; lra]|] end;
      replace (hr + - fr) with (hr - fr) by ring; replace (b + - a) with (b - a) by ring; replace (q + - a) with (q - a) by ring;
      unfold Rmin, Rmax in *; destruct (Rle_dec fr hr); [exists fr, hr|exists hr, fr]; eexists; repeat split; try reflexivity; auto; lra).
    all: unfold within; cbn; try (left; reflexivity).
    all: try (destruct (Req_EM_T fr hr); [right; exists fr, fr, fr; repeat split; auto; lra|left; reflexivity]).
    all: try (right; exists fr, fr; eexists; repeat split; auto; lra).
    all: destruct (Rlt_dec 0 0); [lra|]; cbn; try (destruct (Req_EM_T fr hr); [right; exists fr, fr, fr; repeat split; auto; lra|left; reflexivity]).
    all: right; exists hr, hr; eexists; repeat split; try exact Oh; lra.
Qed.

Theorem np_interp_within xp fp (rf : list R) l : Forall ordinary fp -> List.length fp = List.length xp ->
  np_interp E (map XFin rf) xp fp = Ok l -> Forall (within fp) l.
Proof.
  intros Hf Hlen H. destruct xp as [|a [|b xp]]; [discriminate| |].
  - destruct fp as [|f [|]]; try discriminate. cbn [np_interp] in H. injection H as <-. apply Forall_forall. intros x Hx.
    apply in_map_iff in Hx as (y & <- & _). apply within_in; [|now left]. now inversion Hf.
  - cbn [np_interp] in H. injection H as <-. apply Forall_forall. intros x Hx. apply In_nth_error in Hx as [i Hi].
    assert (Hi' : (i < List.length rf)%nat) by (rewrite <- (map_length XFin rf); erewrite <- interp_from_length; apply nth_error_Some; rewrite Hi; discriminate).
    destruct (nth_error rf i) as [q|] eqn:Eq; [|apply nth_error_None in Eq; lia].
    destruct (@interp_from_each (a :: b :: xp) fp (map XFin rf) 0 i (XFin q)) as [g Hg]; [rewrite nth_error_map, Eq; reflexivity|reflexivity|].
    rewrite Hg in Hi. injection Hi as <-. destruct (@HS (XFin q) (a :: b :: xp) g eq_refl) as (Hj & Hl & Hr & _); [discriminate|].
    apply interp_in_within; auto. discriminate.
Qed.
End Values.
