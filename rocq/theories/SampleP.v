(** The samples of a grid point in exact arithmetic are in increasing order of the scale factor fy. *)
From Coq Require Import ZArith Reals List Bool String Lia Lra Psatz Sorted.
From Verif Require Import Num NumP Py SpecNum Validate ValidateP Ring RingP RingSystem XLibm FS FSP GridParams SpecGrid GridParamsP GridParamsXP
  Names GridProp SpecProp GridPropP Geometry SpecGeom GeomP Build SpecBuild BuildP BuildQP StretchP BuildXP InterpP Shallot BuildGP BuildGridP BuildCP BuildDP BuildEP BuildFP ColumnP.
Import ListNotations.
Set Implicit Arguments.
Local Open Scope R_scope.

Lemma fy_mono dy x x' y y' : 1 <= x -> x <= x' -> determine_fy (XFin x) (XFin dy) = XFin y -> determine_fy (XFin x') (XFin dy) = XFin y' -> y' <= y.
Proof.
  intros H1 H2. rewrite !fy_xr. cbn zeta. destruct (Req_EM_T dy 0) as [Hd|Hd].
  - destruct (Req_EM_T x 1) as [->|Hx].
    + intros E; injection E as <-. destruct (Req_EM_T x' 1); [intros E; injection E as <-; lra|]. destruct (Rle_dec _ 0); [discriminate|]. intros E; injection E as <-. lra.
    + destruct (Rle_dec _ 0); [discriminate|]. intros E; injection E as <-. destruct (Req_EM_T x' 1); [lra|]. destruct (Rle_dec _ 0); [discriminate|]. intros E; injection E as <-. lra.
  - destruct (Rle_dec _ 0) as [|G1]; [discriminate|]. intros E; injection E as <-. destruct (Rle_dec _ 0) as [|G2]; [discriminate|]. intros E; injection E as <-.
    apply sqrt_le_1_alt. assert (P := sqpos Hd). set (d := dy * dy) in *.
    assert (x * x <= x' * x') by nra.
    apply (Rmult_le_reg_r ((x' * x' * (1 + 4 * d) - 1) * (x * x * (1 + 4 * d) - 1))); [apply Rmult_lt_0_compat; lra|].
    replace (4 * (x' * x') * d / (x' * x' * (1 + 4 * d) - 1) * ((x' * x' * (1 + 4 * d) - 1) * (x * x * (1 + 4 * d) - 1))) with (4 * d * ((x' * x') * (x * x * (1 + 4 * d) - 1))) by (field; lra).
    replace (4 * (x * x) * d / (x * x * (1 + 4 * d) - 1) * ((x' * x' * (1 + 4 * d) - 1) * (x * x * (1 + 4 * d) - 1))) with (4 * d * ((x * x) * (x' * x' * (1 + 4 * d) - 1))) by (field; lra).
    apply Rmult_le_compat_l; [lra|]. lra.
Qed.

(** *** increasing lists of numbers, between two bounds *)
Definition rising (lo hi : R) (l : list xr) : Prop := exists r, l = map XFin r /\ StronglySorted Rle r /\ Forall (fun x => lo <= x <= hi) r.
Lemma rising_nil lo hi : rising lo hi [].
Proof. exists []. repeat constructor. Qed.
Lemma sorted_app (a b : list R) m : StronglySorted Rle a -> StronglySorted Rle b -> Forall (fun x => x <= m) a -> Forall (fun x => m <= x) b -> StronglySorted Rle (a ++ b).
Proof.
  intros Ha Hb La Lb. induction Ha as [|x a Ha IH Hx]; cbn [app]; auto. inversion La as [|? ? Lx La']; subst. constructor; auto.
  apply Forall_app. split; auto. eapply Forall_impl; [|exact Lb]. cbn. intros; lra.
Qed.
Lemma rising_app lo m hi a b : lo <= m -> m <= hi -> rising lo m a -> rising m hi b -> rising lo hi (a ++ b).
Proof.
  intros H1 H2 (ra & -> & Sa & Fa) (rb & -> & Sb & Fb). exists (ra ++ rb). split; [symmetry; apply map_app|]. split.
  - apply sorted_app with m; auto; [eapply Forall_impl; [|exact Fa]|eapply Forall_impl; [|exact Fb]]; cbn; intros; lra.
  - apply Forall_app. split; [eapply Forall_impl; [|exact Fa]|eapply Forall_impl; [|exact Fb]]; cbn; intros; lra.
Qed.
Lemma rising_wider lo hi lo' hi' l : lo' <= lo -> hi <= hi' -> rising lo hi l -> rising lo' hi' l.
Proof. intros H1 H2 (r & E & S & F). exists r. split; auto. split; auto. eapply Forall_impl; [|exact F]. cbn. intros; lra. Qed.
Lemma sorted_nth (l : list R) : StronglySorted Rle l <-> forall i j a b, (i <= j)%nat -> nth_error l i = Some a -> nth_error l j = Some b -> a <= b.
Proof.
  split.
  - intros H. induction H as [|x l Hl IH Hx]; intros [|i] [|j] a b Hij Ha Hb; cbn in *; try discriminate; try lia; try congruence.
    + injection Ha as <-. injection Hb as <-. lra.
    + injection Ha as <-. rewrite Forall_forall in Hx. apply Hx. eapply nth_error_In; eauto.
    + apply (IH i j a b); auto. lia.
  - induction l as [|x l IH]; intros H; constructor.
    + apply IH. intros i j a b Hij Ha Hb. apply (H (S i) (S j) a b); auto. lia.
    + apply Forall_forall. intros y Hy. apply In_nth_error in Hy as [j Hj]. apply (H 0%nat (S j) x y); auto. lia.
Qed.

(** *** the rounds *)
Section R.
Context (E : env xr) (HE : e_libm E = Libm_xr) (nf : pyval xr) (n : nat) (Hnf : num_index nf = Ok n) (Hn : (2 <= n)%nat).
Context (dy s c : R) (Hc : 0 < c).

Definition start (M : R) (k : Z) : R := if Z.eqb k 1 then 1 else IZR (k - 1) * M.
Lemma start_range M k : 1 <= M -> (1 <= k)%Z -> 1 <= start M k <= IZR k * M /\ start M (k + 1) = IZR k * M.
Proof.
  intros HM Hk. assert (Hk1 : 1 <= IZR k) by (apply IZR_le in Hk; auto). unfold start. split.
  - destruct (Z.eqb_spec k 1); [nra|]. assert (1 <= IZR (k - 1)) by (apply (IZR_le 1); lia). rewrite minus_IZR in *. nra.
  - destruct (Z.eqb_spec (k + 1) 1); [lia|]. replace (k + 1 - 1)%Z with k by lia. reflexivity.
Qed.
Lemma array_rising M k : 1 <= M -> (1 <= k)%Z -> exists l, fxy_array nf (XFin M) k = Ok l /\ rising (start M k) (IZR k * M) l.
Proof.
  intros HM Hk. unfold fxy_array. rewrite Hnf. cbn [bind]. eexists; split; [reflexivity|].
  replace (if Z.eqb k 1 then n_one else n_mul (n_ofZ (k - 1)) (XFin M)) with (XFin (start M k)) by (unfold start; destruct (Z.eqb k 1); reflexivity).
  change (n_mul (n_ofZ k) (XFin M)) with (XFin (IZR k * M)).
  assert (Hsp := @linspace_xr (start M k) (IZR k * M) n Hn). destruct (start_range HM Hk) as [[Hlo Hle] _].
  assert (Fin : Forall fin (linspace (XFin (start M k)) (XFin (IZR k * M)) n)).
  { apply Forall_forall. intros x Hx. destruct (@spaced_range _ _ _ _ Hsp Hn Hle x Hx) as (q & -> & _). now exists q. }
  destruct (map_fin Fin) as (r & Er). exists r. split; auto. rewrite Er in Hsp. destruct Hsp as [Hl Hi]. rewrite map_length in Hl.
  assert (P : 0 < INR (n - 1)) by (apply lt_0_INR; lia).
  assert (Hnth : forall i a, nth_error r i = Some a -> (i < n)%nat /\ a = spaced (start M k) (IZR k * M) n i).
  { intros i a Ha. assert (Hin : (i < n)%nat) by (rewrite <- Hl; apply nth_error_Some; congruence). split; auto.
    specialize (Hi i Hin). rewrite nth_error_map, Ha in Hi. cbn [option_map] in Hi. congruence. }
  assert (Hst : 0 <= (IZR k * M - start M k) / INR (n - 1)) by (apply Rmult_le_pos; [lra|left; apply Rinv_0_lt_compat; auto]).
  split.
  - apply sorted_nth. intros i j a b Hij Ha Hb. apply Hnth in Ha as [Hi1 ->]. apply Hnth in Hb as [Hj1 ->]. unfold spaced.
    apply le_INR in Hij. apply Rplus_le_compat_l. apply Rmult_le_compat_r; auto.
  - apply Forall_forall. intros x Hx. apply (in_map XFin) in Hx. rewrite <- Er in Hx. assert (Hsp := @linspace_xr (start M k) (IZR k * M) n Hn).
    destruct (@spaced_range _ _ _ _ Hsp Hn Hle _ Hx) as (q & Eq & Hq). injection Eq as ->. exact Hq.
Qed.

Lemma stretch_steps (new : Z -> res (list xr * list xr)) join outer mx max_rf (P : Z -> list xr -> Prop) :
  (forall sh a b fys, (1 <= sh)%Z -> new sh = Ok (a, b) -> P sh fys -> P (sh + 1)%Z (join a fys)) ->
  forall f sh fys drs fys' drs', (1 <= sh)%Z -> P sh fys -> stretch f new join outer mx max_rf sh fys drs = Ok (fys', drs') -> exists k, (1 <= k)%Z /\ P k fys'.
Proof.
  intros HP. induction f; intros sh fys drs fys' drs' Hk H0 H; cbn [stretch] in H; [discriminate|].
  destruct (new sh) as [[a b]|] eqn:En; cbn [bind fst snd] in *; [|discriminate].
  destruct (nan_min _) as [m|]; cbn [bind] in *; [|discriminate]. destruct (outer b); [|discriminate].
  destruct (n_lt _ max_rf); destruct (n_gt _ _); try discriminate.
  - eapply IHf; [| |exact H]; [lia|eauto].
  - match type of H with Ok (?x, ?y) = _ => assert (fys' = x) by congruence end. subst fys'. exists (sh + 1)%Z. split; [lia|eauto].
Qed.

Lemma rising_fy a b l : 1 <= a -> rising a b l -> exists va vb, determine_fy (XFin a) (XFin dy) = XFin va /\ determine_fy (XFin b) (XFin dy) = XFin vb /\ 0 <= vb <= va /\ va <= 1 \/ l = [].
Proof.
  intros Ha (r & -> & Sr & Fr). destruct r as [|x r]; [exists 0, 0; auto|]. inversion Fr as [|? ? [H1 H2] _]; subst.
  destruct (fy_ge1 dy Ha) as (va & Ea & Pa). destruct (@fy_ge1 b dy ltac:(lra)) as (vb & Eb & Pb). exists va, vb. left. repeat (split; auto).
  - apply (@fy_mono dy a b va vb); auto; lra.
  - apply (@fy_mono dy 1 a 1 va); auto; try lra. apply fy_one.
Qed.
Lemma rising_down a b l va vb : 1 <= a -> determine_fy (XFin a) (XFin dy) = XFin va -> determine_fy (XFin b) (XFin dy) = XFin vb ->
  rising a b l -> rising vb va (map (fun x => determine_fy x (XFin dy)) (rev l)).
Proof.
  intros Ha Ea Eb (r & -> & Sr & Fr). rewrite <- map_rev, map_map.
  assert (Val : forall x, 1 <= x -> exists y, determine_fy (XFin x) (XFin dy) = XFin y) by (intros x Hx; destruct (fy_ge1 dy Hx) as (y & Ey & _); eauto).
  induction r as [|x r IH]; [apply rising_nil|]. inversion Sr as [|? ? Sr' Hx]; subst. inversion Fr as [|? ? [H1 H2] Fr']; subst. specialize (IH Sr' Fr').
  destruct (Val x ltac:(lra)) as (y & Ey). cbn [rev]. rewrite map_app. cbn [map].
  assert (Hy : vb <= y <= va). { split; [apply (@fy_mono dy x b y vb)|apply (@fy_mono dy a x va y)]; auto; lra. }
  destruct IH as (ry & Ery & Sry & Fry). rewrite Ery, Ey. exists (ry ++ [y]). split; [symmetry; apply map_app|]. split.
  - apply sorted_app with y; auto; try (repeat constructor; lra). apply Forall_forall. intros z Hz. apply (in_map XFin) in Hz. rewrite <- Ery in Hz.
    apply in_map_iff in Hz as (x' & Ez & Hx'). apply in_rev in Hx'. rewrite Forall_forall in Hx, Fr'. specialize (Hx _ Hx').
    apply (@fy_mono dy x x' y z); auto; try lra.
  - apply Forall_app. split; auto.
Qed.

Lemma horizontal_rising Mx F h : 1 <= Mx -> extend_horizontally E nf (XFin Mx) F (XFin dy) (XFin s) (XFin c) [] [] = Ok h -> rising 0 1 (fst h).
Proof.
  intros HM H. destruct h as [ys ds]. unfold extend_horizontally in H.
  set (P := fun k l => exists v, determine_fy (XFin (start Mx k)) (XFin dy) = XFin v /\ 0 <= v <= 1 /\ rising v 1 l).
  apply stretch_steps with (P := P) in H.
  - destruct H as (k & _ & v & _ & Hv & Hr). cbn [fst]. eapply rising_wider; [| |exact Hr]; lra.
  - intros k a b fys Hk Hab (v & Ev & Hv & Hr). destruct (start_range HM Hk) as [[Hlo Hle] Hnext]. unfold P. rewrite Hnext.
    destruct (@fy_ge1 (IZR k * Mx) dy ltac:(lra)) as (u & Eu & Pu). assert (u <= v) by (apply (@fy_mono dy (start Mx k) (IZR k * Mx) v u); auto).
    exists u. split; auto. split; [lra|]. apply rising_app with v; try lra; auto.
    destruct (array_rising HM Hk) as (l & El & Hl). unfold new_horizontal in Hab. rewrite El in Hab. cbn [bind] in Hab.
    rewrite (@checks_ok E HE n Hn s c Hc) in Hab. cbn [bind] in Hab. apply ok_pair in Hab as [-> _]. rewrite <- map_rev.
    apply rising_down with (a := start Mx k) (b := IZR k * Mx); auto.
  - lia.
  - exists 1. unfold start. cbn [Z.eqb Pos.eqb]. rewrite fy_one. split; auto. split; [lra|apply rising_nil].
Qed.
Theorem samples_rising Mx My F h v : 1 <= Mx -> 1 <= My ->
  extend_horizontally E nf (XFin Mx) F (XFin dy) (XFin s) (XFin c) [] [] = Ok h ->
  extend_vertically E nf (XFin My) F (XFin dy) (XFin s) (XFin c) (fst h) (snd h) = Ok v -> exists b, rising 0 b (fst v).
Proof.
  intros HMx HMy Hh H. apply horizontal_rising in Hh; auto. destruct v as [ys ds]. unfold extend_vertically in H.
  set (P := fun k l => rising 0 (start My k) l). apply stretch_steps with (P := P) in H.
  - destruct H as (k & _ & Hr). exists (start My k). exact Hr.
  - intros k a b fys Hk Hab Hr. destruct (start_range HMy Hk) as [[Hlo Hle] Hnext]. unfold P in *. rewrite Hnext.
    apply rising_app with (start My k); try lra; auto. destruct (array_rising HMy Hk) as (l & El & Hl). unfold new_vertical in Hab. rewrite El in Hab. cbn [bind] in Hab.
    rewrite (@checks_ok E HE n Hn s c Hc) in Hab. cbn [bind] in Hab. apply ok_pair in Hab as [-> _]. exact Hl.
  - lia.
  - unfold P, start. cbn [Z.eqb Pos.eqb]. exact Hh.
Qed.
End R.
