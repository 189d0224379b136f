(** Lemmas and theorems about the title, extent and tick labels of the viewer. *)
From Coq Require Import ZArith Reals List Bool String Lia Lra.
From Verif Require Import Num NumP Py Validate SpecNum ValidateP Ring RingP RingSystem FS FSP GridParams GridDiag SpecGrid GridParamsP GridParamsXP GridDiagP GridCrashP
  Names GridProp SpecProp GridPropP GridPropExP Viewer SpecViewer ViewerP ViewerDraw.
Import ListNotations.
Set Implicit Arguments.

(** [x] lies in pixel [i] of the [n] pixels that cover lo .. hi *)
Definition in_pixel (lo hi : R) (n i : nat) (x : R) : Prop :=
  (lo + INR i * (hi - lo) / INR n <= x <= lo + INR (i + 1) * (hi - lo) / INR n)%R.
Definition pixel_centre (lo hi : R) (n i : nat) : R := (lo + (INR i + 1 / 2) * (hi - lo) / INR n)%R.


Section D.
Context {T : Type} {NT : Num T}.
Lemma new_rfa (a b c d e f h k : pyval T) (g : gparams T) : new_params a b c d e f h k = Ok g -> g_rfa g = (rev (g_rf g) ++ tl (g_rf g))%list.
Proof.
  unfold new_params. destruct (determine_axis a b c) as [dx|]; [|discriminate]. cbn [bind].
  destruct (determine_axis d e f) as [dy|]; [|discriminate]. cbn [bind].
  unfold determine_rf. destruct (number h _ _ _ _) as [x|]; [|discriminate]. cbn [bind].
  destruct (number k _ _ _ _) as [y|]; [|discriminate]. cbn [bind fst snd]. unfold finish.
  destruct (extendable_of dx dy) as [ex|]; [|discriminate]. cbn [bind]. intros H. inversion H. reflexivity.
Qed.
Lemma ext_rf (g g' : gparams T) : extend_grid g = (g', Ok tt) -> g_rf g' = g_rf g /\ g_rfa g' = g_rfa g.
Proof.
  unfold extend_grid. destruct (negb (g_ext g)); [discriminate|]. destruct (g_shape g) as [[ny nx] nr].
  destruct (last_opt (g_dy g)) as [my|]; [|discriminate]. destruct (last_opt (g_dx g)) as [mx|]; [|discriminate].
  destruct (determine_axis _ (PNpFloat mx) _) as [dx|]; [|discriminate]. destruct (determine_axis _ (PNpFloat my) _) as [dy|]; [|discriminate].
  destruct (extendable_of dx dy) as [ex|]; [|discriminate]. intros H. apply pair_equal_spec in H as [<- _]. split; reflexivity.
Qed.
Lemma reachable_rfa (g : gparams T) : reachable g -> g_rfa g = (rev (g_rf g) ++ tl (g_rf g))%list.
Proof.
  induction 1 as [a b c d e f h k p H|p q _ IH H].
  - exact (new_rfa _ _ _ _ _ _ _ _ H).
  - apply ext_rf in H as [-> ->]. exact IH.
Qed.
Lemma rfa_nth (rf : list T) d i : rf <> [] -> let m := List.length rf - 1 in
  (i <= m -> nth i (rev rf ++ tl rf) d = nth (m - i) rf d) /\ (m <= i -> nth i (rev rf ++ tl rf) d = nth (i - m) rf d).
Proof.
  intros H. destruct rf as [|r rf]; [congruence|]. cbn zeta. cbn [List.length tl].
  replace (S (List.length rf) - 1) with (List.length rf) by lia. split; intros Hi.
  - rewrite app_nth1 by (rewrite rev_length; cbn; lia). rewrite rev_nth by (cbn; lia). cbn [List.length]. f_equal; lia.
  - destruct (Nat.eq_dec i (List.length rf)) as [->|Hn].
    + rewrite app_nth1 by (rewrite rev_length; cbn; lia). rewrite rev_nth by (cbn; lia). cbn [List.length]. f_equal; lia.
    + rewrite app_nth2 by (rewrite rev_length; cbn; lia). rewrite rev_length. cbn [List.length].
      replace (i - List.length rf) with (S (i - S (List.length rf))) by lia. reflexivity.
Qed.
End D.

Section E.
Context {T : Type} {NT : Num T} {LT : NumLaws T}.

Lemma vreach_slices (v : viewer T) : vreach v -> exists g, reachable g /\ v_slices v = vector_at g (v_axis v) /\ v_axis v <= 2.
Proof.
  induction 1 as [ax axis p masked index frozen co p' v Hp Hr Hv|v b H IH].
  - apply new_viewer_iff in Hv; [|exact Hp]. destruct Hv as (_ & ([_ Ha] & _) & b & fr & _ & _ & _ & _ & _ & _ & ->).
    exists (p_params p). split; [exact Hr|]. unfold first_view. cbn [with_frozen update v_slices v_axis].
    split; [|lia]. rewrite (proj1 (read_params p (PBool b))). reflexivity.
  - destruct IH as (g & A & B & C). destruct (onscroll_frame v b) as (E1 & _ & _ & E4 & _). exists g. rewrite E1, E4. auto.
Qed.

(** the title names the half of the rf axis the slice belongs to *)
Theorem title_rf (fmt : T -> string) prefix (v : viewer T) : vreach v -> v_axis v = 2 ->
  exists rf, rf <> [] /\ List.length (v_slices v) = 2 * List.length rf - 1 /\
  let m := List.length rf - 1 in let i := Z.to_nat (v_index v) in
  let base x := (prefix ++ " - $R_f$ = " ++ fmt x)%string in
  (i < m -> title fmt prefix v = (base (nth (m - i) rf n_nan) ++ " - horizontal")%string) /\
  (i = m -> title fmt prefix v = base (nth 0 rf n_nan)) /\
  (m < i -> title fmt prefix v = (base (nth (i - m) rf n_nan) ++ " - vertical")%string).
Proof.
  intros Hv Ha. destruct (vreach_slices Hv) as (g & Hg & Hs & _). rewrite Ha in Hs. cbn [vector_at] in Hs.
  destruct (view_range Hv) as (Hr & _). assert (Er := reachable_rfa Hg).
  assert (Hn : g_rf g <> []).
  { intros E. rewrite E in Er. cbn in Er. unfold num_slices in Hr. rewrite Hs, Er in Hr. cbn in Hr. lia. }
  exists (g_rf g). split; [exact Hn|].
  assert (Hl : List.length (v_slices v) = 2 * List.length (g_rf g) - 1).
  { rewrite Hs, Er, app_length, rev_length. destruct (g_rf g); [congruence|cbn; lia]. }
  split; [exact Hl|]. cbn zeta. set (m := List.length (g_rf g) - 1). set (i := Z.to_nat (v_index v)).
  assert (Hm : 1 <= List.length (g_rf g)) by (destruct (g_rf g); [congruence|cbn; lia]).
  assert (Hd : (Z.of_nat (List.length (v_slices v)) / 2 = Z.of_nat m)%Z).
  { rewrite Hl. symmetry. apply (Z.div_unique _ 2 (Z.of_nat m) 1); lia. }
  destruct (@rfa_nth T (g_rf g) n_nan i Hn) as [N1 N2]. fold m in N1, N2.
  unfold title. rewrite Ha, Hd. cbn [slice_name Nat.eqb]. fold i. rewrite Hs, Er.
  assert (S : forall a b c : string, ((a ++ b) ++ c)%string = (a ++ b ++ c)%string).
  { induction a as [|ch a IH]; intros b c; cbn; [reflexivity|]. rewrite IH. reflexivity. }
  split; [|split]; intros Hi.
  - rewrite N1 by lia. destruct (Z.ltb_spec (v_index v) (Z.of_nat m)) as [X|X]; [|exfalso; lia]. rewrite !S. reflexivity.
  - rewrite N1 by lia. replace (m - i) with 0 by lia. destruct (Z.ltb_spec (v_index v) (Z.of_nat m)) as [X|X]; [exfalso; lia|].
    destruct (Z.ltb_spec (Z.of_nat m) (v_index v)) as [Y|Y]; [exfalso; lia|].
    assert (E : forall a : string, (a ++ "")%string = a) by (induction a as [|ch a IH]; cbn; congruence). rewrite E. reflexivity.
  - rewrite N2 by lia. destruct (Z.ltb_spec (v_index v) (Z.of_nat m)) as [X|X]; [exfalso; lia|].
    destruct (Z.ltb_spec (Z.of_nat m) (v_index v)) as [Y|Y]; [|exfalso; lia]. rewrite !S. reflexivity.
Qed.

(** a coordinate is shown at the two slices of the same rf *)
Theorem both_halves (v : viewer T) j : vreach v -> v_axis v = 2 -> (0 <= j < num_slices v)%Z ->
  points_at v (num_slices v - 1 - j) = points_at v j.
Proof.
  intros Hv Ha Hj. destruct (vreach_slices Hv) as (g & Hg & Hs & _). rewrite Ha in Hs. cbn [vector_at] in Hs.
  assert (Er := reachable_rfa Hg).
  assert (Hn : g_rf g <> []).
  { intros E. rewrite E in Er. cbn in Er. unfold num_slices in Hj. rewrite Hs, Er in Hj. cbn in Hj. lia. }
  assert (Hl : num_slices v = Z.of_nat (2 * List.length (g_rf g) - 1)).
  { unfold num_slices. rewrite Hs, Er, app_length, rev_length. f_equal. destruct (g_rf g); [congruence|cbn; lia]. }
  assert (Hm : 1 <= List.length (g_rf g)) by (destruct (g_rf g); [congruence|cbn; lia]).
  assert (E : nth (Z.to_nat (num_slices v - 1 - j)) (v_slices v) n_nan = nth (Z.to_nat j) (v_slices v) n_nan).
  { rewrite Hs, Er. destruct (@rfa_nth T (g_rf g) n_nan (Z.to_nat j) Hn) as [A1 A2].
    destruct (@rfa_nth T (g_rf g) n_nan (Z.to_nat (num_slices v - 1 - j)) Hn) as [B1 B2].
    destruct (le_lt_dec (Z.to_nat j) (List.length (g_rf g) - 1)) as [L|L].
    - rewrite A1 by lia. rewrite B2 by lia. f_equal. lia.
    - rewrite A2 by lia. rewrite B1 by lia. f_equal. lia. }
  unfold points_at. destruct (v_coords v) as [l|]; [|reflexivity]. f_equal. apply filter_ext. intros c. unfold near. rewrite E. reflexivity.
Qed.

(** plot_slice: the image is a slice of the (masked) data, and scrolling never changes it *)
Theorem plot_slice_frozen (p : gprop T) axis index ax masked p' v l : preach p -> reachable (p_params p) ->
  plot_slice p axis index ax masked = (p', Ok v) ->
  scrolls v l = v /\ v_shown v = [] /\ vreach v /\
  exists b, masked = PBool b /\ p' = Some (fst (get_data p (PBool b))) /\
    v_image v = take (Z.to_nat (zof axis)) (p_shape p) (p_data (fst (get_data p (PBool b)))) (Z.to_nat (v_index v)) /\
    (forall i, index = Some i -> v_index v = zof i).
Proof.
  intros Hp Hr. unfold plot_slice. destruct (class_arg (dflt (EIs tt) ax)) as [[]|e] eqn:Ea; [|discriminate]. intros H.
  assert (V : vreach v) by (eapply vr_new; eauto).
  apply new_viewer_iff in H; [|exact Hp]. destruct H as (_ & _ & b & fr & -> & Hi & Hf & _ & _ & -> & ->).
  assert (fr = true) by (destruct Hf as [[Hf _]|Hf]; [discriminate|inversion Hf; reflexivity]). subst fr.
  split; [apply scrolls_frozen; reflexivity|]. split; [reflexivity|]. split; [exact V|].
  exists b. split; [reflexivity|]. split; [reflexivity|]. unfold first_view. cbn [with_frozen update v_image v_axis v_shape v_data v_index].
  rewrite (proj2 (read_params p (PBool b))). split; [reflexivity|]. intros i ->. reflexivity.
Qed.

(** an Axes argument that is not one is refused before the property is read *)
Theorem plot_slice_axes (p : gprop T) axis index masked : plot_slice p axis index (Some EOther) masked = (None, Err TypeError).
Proof. reflexivity. Qed.
End E.

(** *** exact arithmetic: extent and tick labels *)
Local Open Scope R_scope.
Lemma ends_spaced l lo hi n : (2 <= n)%nat -> equally_spaced l lo hi n -> ends l = Ok (XFin lo, XFin hi).
Proof.
  intros Hn H. destruct (equally_spaced_ends Hn H) as [A B]. destruct H as [Hl _]. destruct l as [|a l]; [discriminate|].
  cbn [nth_error] in A. inversion A; subst. unfold ends. rewrite (last_opt_nth _ B). reflexivity.
Qed.

Section X.
Variables (mnx mxx nx mny mxy ny mxr nr : pyval xr) (g : gparams xr) (x0 x1 y0 y1 r1 : R).
Hypothesis SM : Forall small [mnx; mxx; nx; mny; mxy; ny; mxr; nr].
Hypothesis E1 : value mnx = XFin x0.
Hypothesis E2 : value mxx = XFin x1.
Hypothesis E3 : value mny = XFin y0.
Hypothesis E4 : value mxy = XFin y1.
Hypothesis E5 : value mxr = XFin r1.
Hypothesis NP : new_params mnx mxx nx mny mxy ny mxr nr = Ok g.
Hypothesis Nx : (2 <= zof nx)%Z.
Hypothesis Ny : (2 <= zof ny)%Z.
Hypothesis Nr : (2 <= zof nr)%Z.

Theorem extent_xr : let w := 2 * (r1 - 1) in
  extent g 0 = Ok (XFin 0, XFin w, XFin x0, XFin x1) /\ extent g 1 = Ok (XFin 0, XFin w, XFin y0, XFin y1) /\
  extent g 2 = Ok (XFin x0, XFin x1, XFin y0, XFin y1).
Proof.
  destruct (new_params_spaced SM E1 E2 E3 E4 E5 NP) as (_ & _ & _ & Sx & _ & Sy & _ & Sr & _).
  cbn zeta. unfold extent. rewrite (ends_spaced (n := Z.to_nat (zof nx)) ltac:(lia) (Sx Nx)), (ends_spaced (n := Z.to_nat (zof ny)) ltac:(lia) (Sy Ny)), (ends_spaced (n := Z.to_nat (zof nr)) ltac:(lia) (Sr Nr)).
  repeat split; reflexivity.
Qed.

Lemma tick_xr x : tick_label g (XFin x) = Ok (XFin (1 + Rabs (x - (r1 - 1)))).
Proof.
  destruct (new_params_spaced SM E1 E2 E3 E4 E5 NP) as (_ & _ & _ & _ & _ & _ & _ & Sr & _).
  unfold tick_label. rewrite (ends_spaced (n := Z.to_nat (zof nr)) ltac:(lia) (Sr Nr)). reflexivity.
Qed.

(** the number at the place of the k-th of the 2 nr - 1 columns is the rf of that column *)
Theorem ticks_xr k : let n := Z.to_nat (zof nr) in (k < 2 * n - 1)%nat ->
  exists x, nth_error (g_rfa g) k = Some x /\ tick_label g (XFin (spaced 0 (2 * (r1 - 1)) (2 * n - 1) k)) = Ok x.
Proof.
  cbn zeta. intros Hk. set (n := Z.to_nat (zof nr)) in *. assert (Hn : (2 <= n)%nat) by lia.
  destruct (new_params_spaced SM E1 E2 E3 E4 E5 NP) as (_ & _ & Hr1 & _ & _ & _ & _ & Sr & _).
  destruct (Sr Nr) as [Hl Hi]. fold n in Hl, Hi. rewrite tick_xr.
  assert (Er : g_rfa g = (rev (g_rf g) ++ tl (g_rf g))%list) by exact (new_rfa _ _ _ _ _ _ _ _ NP).
  assert (Hne : g_rf g <> []) by (intros E; rewrite E in Hl; cbn in Hl; lia).
  assert (Hla : List.length (g_rfa g) = (2 * n - 1)%nat).
  { rewrite Er, app_length, rev_length, Hl. destruct (g_rf g); [congruence|]. cbn in Hl |- *. lia. }
  assert (F : forall j, (j < n)%nat -> nth j (g_rf g) n_nan = XFin (1 + INR j * ((r1 - 1) / INR (n - 1)))).
  { intros j Hj. apply nth_error_nth. rewrite (Hi j Hj). reflexivity. }
  assert (P : 0 < INR (n - 1)) by (apply lt_0_INR; lia).
  assert (D : spaced 0 (2 * (r1 - 1)) (2 * n - 1) k - (r1 - 1) = (INR k - INR (n - 1)) * ((r1 - 1) / INR (n - 1))).
  { unfold spaced. replace (2 * n - 1 - 1)%nat with (2 * (n - 1))%nat by lia. rewrite mult_INR. change (INR 2) with 2. field. lra. }
  assert (Q : 0 <= (r1 - 1) / INR (n - 1)) by (apply Rmult_le_pos; [lra|apply Rlt_le, Rinv_0_lt_compat, P]).
  exists (nth k (g_rfa g) n_nan). split.
  { apply nth_error_nth'. rewrite Hla. exact Hk. }
  rewrite D, Rabs_mult, (Rabs_pos_eq _ Q), Er. destruct (rfa_nth (n_nan (T := xr)) k Hne) as [A B]. rewrite Hl in A, B.
  f_equal. destruct (le_lt_dec k (n - 1)) as [L|L].
  - rewrite A, F by lia. rewrite (minus_INR (n - 1) k) by lia. rewrite Rabs_minus_sym, Rabs_pos_eq; [reflexivity|].
    apply le_INR in L. lra.
  - rewrite B, F by lia. rewrite (minus_INR k (n - 1)) by lia. rewrite Rabs_pos_eq; [reflexivity|].
    apply Nat.lt_le_incl, le_INR in L. lra.
Qed.
End X.

(** the point of the grid with index i is drawn somewhere in its own pixel, in the middle only for the
    middle one *)
Theorem own_pixel lo hi n i : lo < hi -> (2 <= n)%nat -> (i < n)%nat ->
  in_pixel lo hi n i (spaced lo hi n i) /\ (spaced lo hi n i = pixel_centre lo hi n i <-> (2 * i + 1 = n)%nat).
Proof.
  intros Hlt Hn Hi. unfold in_pixel, spaced, pixel_centre.
  destruct n as [|n]; [lia|]. replace (S n - 1)%nat with n by lia.
  assert (Pn : 0 < INR n) by (apply lt_0_INR; lia). assert (PS : INR (S n) = INR n + 1) by apply S_INR.
  assert (Li : 0 <= INR i) by apply pos_INR. assert (Ui : INR i <= INR n) by (apply le_INR; lia).
  rewrite PS, Nat.add_1_r, S_INR. set (w := hi - lo). assert (Pw : 0 < w) by (unfold w; lra).
  assert (K : forall a b c, 0 < c -> a * c <= b * c -> a <= b) by (intros a b c Hc Hab; exact (Rmult_le_reg_r c a b Hc Hab)).
  assert (Pc : 0 < INR n * (INR n + 1)) by nra.
  split; [split|].
  - apply (K _ _ _ Pc). replace ((lo + INR i * w / (INR n + 1)) * (INR n * (INR n + 1))) with (lo * (INR n * (INR n + 1)) + INR i * w * INR n) by (field; lra).
    replace ((lo + INR i * (w / INR n)) * (INR n * (INR n + 1))) with (lo * (INR n * (INR n + 1)) + INR i * w * (INR n + 1)) by (field; lra). nra.
  - apply (K _ _ _ Pc). replace ((lo + (INR i + 1) * w / (INR n + 1)) * (INR n * (INR n + 1))) with (lo * (INR n * (INR n + 1)) + (INR i + 1) * w * INR n) by (field; lra).
    replace ((lo + INR i * (w / INR n)) * (INR n * (INR n + 1))) with (lo * (INR n * (INR n + 1)) + INR i * w * (INR n + 1)) by (field; lra). nra.
  - assert (E : lo + INR i * (w / INR n) - (lo + (INR i + 1 / 2) * w / (INR n + 1)) = w * (2 * INR i - INR n) / (2 * (INR n * (INR n + 1)))) by (field; lra).
    split.
    + intros H. assert (Z0 : w * (2 * INR i - INR n) / (2 * (INR n * (INR n + 1))) = 0) by lra.
      assert (Z1 : w * (2 * INR i - INR n) = 0).
      { apply (f_equal (fun u => u * (2 * (INR n * (INR n + 1))))) in Z0. rewrite Rmult_0_l in Z0. rewrite <- Z0. field. lra. }
      assert (Z2 : 2 * INR i = INR n) by nra. assert (Z3 : INR (2 * i) = INR n) by (rewrite mult_INR; exact Z2). apply INR_eq in Z3. lia.
    + intros H. assert (n = (2 * i)%nat) by lia. assert (Z : INR n = 2 * INR i) by (subst n; rewrite mult_INR; reflexivity).
      rewrite Z in E. replace (2 * INR i - 2 * INR i) with 0 in E by lra. unfold Rdiv in E. rewrite Rmult_0_r, Rmult_0_l in E. rewrite Z. unfold Rdiv. lra.
Qed.

(** a point drawn at x = r on an rf axis: what is written there, and whether it is on the picture *)
Theorem drawn_rf r M : 1 <= r <= M ->
  (1 + Rabs (r - (M - 1)) = r <-> M = 2 \/ r = M / 2) /\ (0 <= r <= 2 * (M - 1) <-> r <= 2 * (M - 1)).
Proof.
  intros H. split; [|lra]. unfold Rabs. destruct (Rcase_abs _); split; intros G; try lra.
Qed.

(** on an rf axis a point is drawn at its rf *)
Lemma drawn_at {T} {NT : Num T} {LT : NumLaws T} (v : viewer T) i q : vreach v -> v_axis v <> 2%nat -> In q (points_at v i) ->
  exists l c, v_coords v = Some l /\ In c l /\ fst q = nth 2 c n_nan /\ (v_axis v = 0%nat -> snd q = nth 1 c n_nan) /\ (v_axis v = 1%nat -> snd q = nth 0 c n_nan).
Proof.
  intros Hv Ha Hq. destruct (vreach_slices Hv) as (_ & _ & _ & Hax). unfold points_at in Hq. destruct (v_coords v) as [l|]; [|destruct Hq]. apply in_map_iff in Hq as (c & <- & Hc).
  apply filter_In in Hc as [Hc _]. exists l, c. split; [reflexivity|]. split; [exact Hc|].
  destruct (v_axis v) as [|[|n]]; [split; [|split]; try reflexivity; discriminate..|exfalso; lia].
Qed.

(** a grid with two rf values *)
Lemma draw_grid : exists g : gparams xr, Forall (@small xr) [PInt 0; PInt 2; PInt 3; PInt 0; PInt 3; PInt 2; PInt 3; PInt 2] /\
  new_params (PInt 0) (PInt 2) (PInt 3) (PInt 0) (PInt 3) (PInt 2) (PInt 3) (PInt 2) = Ok g.
Proof.
  assert (S : Forall (@small xr) [PInt 0; PInt 2; PInt 3; PInt 0; PInt 3; PInt 2; PInt 3; PInt 2]).
  { repeat (apply Forall_cons; [cbn; lia|]). apply Forall_nil. }
  assert (N : forall z, numberlike (PInt z : pyval xr)) by (intros; left; constructor).
  destruct (proj2 (new_params_accepted S)) as [g Hg]; [|exists g; split; assumption].
  split; [|split]; unfold axis_ok, rf_ok, count; cbn [value zof].
  - split; [apply N|]. split; [apply N|]. split; [intros [X|[X _]]; [cbn in X; lra|inversion X; lra]|]. split; [constructor|lia].
  - split; [apply N|]. split; [apply N|]. split; [intros [X|[X _]]; [cbn in X; lra|inversion X; lra]|]. split; [constructor|lia].
  - split; [apply N|]. split; [cbn; lra|]. split; [constructor|lia].
Qed.

(** a viewer along rf: the slices 3, 1, 3, the first one shown, and a coordinate with rf = 3 *)
Lemma draw_ex : exists (p : gprop xr) p' (v : viewer xr), preach p /\ reachable (p_params p) /\
  new_viewer (EIs tt) (PInt 2) (EIs p) (PBool false) (Some (PInt 0)) None (CoList [[XFin 0; XFin 0; XFin 3]]) = (p', Ok v) /\
  v_axis v = 2%nat /\ v_index v = 0%Z /\ v_slices v = [XFin 3; XFin 1; XFin 3] /\ v_frozen v = false /\
  points_at v 0 = [(XFin 0, XFin 0)] /\ points_at v 1 = [] /\
  (exists w, plot_slice p (PInt 2) (Some (PInt 2)) None (PBool false) = (p', Ok w)).
Proof.
  assert (S : Forall (@small xr) [PInt 0; PInt 2; PInt 1; PInt 0; PInt 1; PInt 1; PInt 3; PInt 2]).
  { repeat (apply Forall_cons; [cbn; lia|]). apply Forall_nil. }
  assert (N : forall z, numberlike (PInt z : pyval xr)) by (intros; left; constructor).
  destruct (proj2 (new_params_accepted S)) as [g Hg].
  { split; [|split]; unfold axis_ok, rf_ok, count; cbn [value zof].
    - split; [apply N|]. split; [apply N|]. split; [intros [X|[X _]]; [cbn in X; lra|inversion X; lra]|]. split; [constructor|lia].
    - split; [apply N|]. split; [apply N|]. split; [intros [X|[X _]]; [cbn in X; lra|inversion X; lra]|]. split; [constructor|lia].
    - split; [apply N|]. split; [cbn; lra|]. split; [constructor|lia]. }
  assert (Hr : reachable g) by (eapply rc_new; eauto).
  destruct (new_params_sizes S Hg) as (A & B & _ & D & E & _). cbn [zof] in A, B, D.
  assert (Hs : shape3 g = [1%nat; 1%nat; 3%nat]).
  { unfold shape3. rewrite E. replace (List.length (g_dy g)) with 1%nat by lia. replace (List.length (g_dx g)) with 1%nat by lia. replace (List.length (g_rfa g)) with 3%nat by lia. reflexivity. }
  destruct (@new_params_spaced _ _ _ _ _ _ _ _ g 0 2 0 1 3 S eq_refl eq_refl eq_refl eq_refl eq_refl Hg) as (_ & _ & _ & _ & _ & _ & _ & Sr & _).
  specialize (Sr ltac:(cbn; lia)). change (Z.to_nat (zof (PInt 2 : pyval xr))) with 2%nat in Sr.
  assert (Gr : g_rf g = [XFin 1; XFin 3]).
  { destruct (@equally_spaced_ends (g_rf g) 1 3 2) as (E1 & E2); auto. destruct Sr as [Sl _]. destruct (g_rf g) as [|d0 [|d1 [|? ?]]]; cbn [List.length] in Sl; try (exfalso; lia).
    cbn [nth_error Nat.sub] in E1, E2. inversion E1; inversion E2; auto. }
  assert (Ga : g_rfa g = [XFin 3; XFin 1; XFin 3]) by (rewrite (reachable_rfa Hr), Gr; reflexivity).
  set (dat := [SF (XFin 5); SF (XFin 8); SF (XFin 7)]).
  set (p := fresh DISK_RADIUS DEGREE g dat).
  assert (Hp : preach p).
  { eapply pr_new with (v := PArr "float64" [1%nat; 1%nat; 3%nat] dat); [split; [reflexivity|]; split; [intros _; repeat constructor|discriminate]|]. apply new_gprop_iff. exists DISK_RADIUS, DEGREE, g, dat. rewrite Hs. auto 6. }
  assert (P0 : p_params p = g) by reflexivity.
  set (co := [[XFin 0; XFin 0; XFin 3]]).
  set (w := with_frozen (first_view (fst (get_data p (PBool false))) 2 0 (Some co)) false).
  assert (Ws : v_slices w = [XFin 3; XFin 1; XFin 3]).
  { unfold w, first_view. cbn [with_frozen update v_slices]. rewrite (proj1 (unmasked_read p)). cbn [fst]. rewrite P0. cbn [vector_at]. exact Ga. }
  assert (Pt : forall i, points_at w i = map (point_of 2) (filter (near 2 [XFin 3; XFin 1; XFin 3] (XFin (2/3)) i) co)).
  { intros i. unfold points_at. rewrite Ws. unfold w, first_view. cbn [with_frozen update v_coords v_axis v_tol]. 
    rewrite (proj1 (unmasked_read p)). cbn [fst]. rewrite P0. cbn [vector_at]. rewrite Ga. cbn [nth].
    assert (Tl : n_div (n_abs (n_sub (XFin 1) (XFin 3))) (n_ofZ 3) = XFin (2/3)).
    { cbn [n_div n_abs n_sub n_ofZ Num_xr x_sub x_abs x_div]. destruct (Req_EM_T _ _) as [X|X]; [exfalso; lra|]. f_equal. rewrite Rabs_left by lra. lra. }
    rewrite Tl. reflexivity. }
  assert (Nr : forall i a b c d, nth (Z.to_nat i) [XFin 3; XFin 1; XFin 3] n_nan = XFin d ->
    near 2 [XFin 3; XFin 1; XFin 3] (XFin (2/3)) i [a; b; XFin c] = if Rlt_dec (Rabs (d - c)) (2/3) then true else false).
  { intros i a b c d Hd. unfold near, n_gt. rewrite Hd. reflexivity. }
  exists p, (Some (fst (get_data p (PBool false)))), w. split; [exact Hp|]. split; [exact Hr|]. split.
  { apply new_viewer_iff; [exact Hp|]. split; [reflexivity|]. split; [split; [split; [constructor|cbn; lia]|reflexivity]|]. cbn zeta.
    change (Z.to_nat (zof (PInt 2 : pyval xr))) with 2%nat. rewrite P0. cbn [vector_at]. rewrite Ga. cbn [List.length].
    exists false, false. split; [reflexivity|]. split; [intros i Hi; injection Hi as <-; split; [split; [constructor|cbn; lia]|reflexivity]|]. split; [left; auto|]. split; [|split; [lia|auto]].
    intros c [<-|[]]; reflexivity. }
  split; [reflexivity|]. split; [reflexivity|]. split; [exact Ws|]. split; [reflexivity|]. split; [|split].
  - rewrite Pt. unfold co. cbn [filter]. rewrite (Nr 0%Z _ _ _ 3) by reflexivity.
    destruct (Rlt_dec (Rabs (3 - 3)) (2/3)) as [X|X]; [reflexivity|exfalso; apply X; rewrite Rabs_right; lra].
  - rewrite Pt. unfold co. cbn [filter]. rewrite (Nr 1%Z _ _ _ 1) by reflexivity.
    destruct (Rlt_dec (Rabs (1 - 3)) (2/3)) as [X|X]; [exfalso; rewrite Rabs_left in X; lra|reflexivity].
  - eexists. unfold plot_slice. cbn [class_arg dflt]. apply new_viewer_iff; [exact Hp|]. split; [reflexivity|]. split; [split; [split; [constructor|cbn; lia]|reflexivity]|]. cbn zeta.
    change (Z.to_nat (zof (PInt 2 : pyval xr))) with 2%nat. rewrite P0. cbn [vector_at]. rewrite Ga. cbn [List.length].
    exists false, true. split; [reflexivity|]. split; [intros i Hi; injection Hi as <-; split; [split; [constructor|cbn; lia]|reflexivity]|]. split; [right; auto|]. split; [exact I|split; [lia|auto]].
Qed.

Lemma title_xy {T} {NT : Num T} (fmt : T -> string) prefix (v : viewer T) : (v_axis v < 2)%nat ->
  title fmt prefix v = (prefix ++ " - " ++ (match v_axis v with O => "$y$" | _ => "$x$" end) ++ " = " ++ fmt (nth (Z.to_nat (v_index v)) (v_slices v) n_nan))%string.
Proof.
  intros Ha. unfold title. assert (E : forall a : string, (a ++ "")%string = a) by (induction a as [|ch a IH]; cbn; congruence).
  destruct (v_axis v) as [|[|n]]; [| |exfalso; lia]; cbn [Nat.eqb slice_name]; rewrite E; reflexivity.
Qed.

Lemma plot_cube_scrolls {T} {NT : Num T} {LT : NumLaws T} (p : gprop T) axis co masked p' v : preach p -> reachable (p_params p) ->
  plot_cube p axis co masked = (p', Ok v) -> vreach v /\ v_frozen v = false /\ v_index v = (num_slices v / 2)%Z /\
  exists b, masked = PBool b /\ p' = Some (fst (get_data p (PBool b))).
Proof.
  intros Hp Hr H. unfold plot_cube in H. assert (V : vreach v) by (eapply vr_new; eauto).
  apply new_viewer_iff in H; [|exact Hp]. destruct H as (_ & _ & b & fr & -> & _ & Hf & _ & _ & -> & ->).
  assert (fr = false) by (destruct Hf as [[_ Hf]|Hf]; [exact Hf|inversion Hf; reflexivity]). subst fr.
  split; [exact V|]. split; [reflexivity|]. split; [|exists b; auto].
  unfold num_slices, first_view. cbn [with_frozen update v_index v_slices]. rewrite (proj1 (read_params p (PBool b))). reflexivity.
Qed.

Theorem rf_place_refuted : ~ (forall (mnx mxx nx mny mxy ny mxr nr : pyval xr) g r M,
  Forall small [mnx; mxx; nx; mny; mxy; ny; mxr; nr] -> new_params mnx mxx nx mny mxy ny mxr nr = Ok g ->
  value mxr = XFin M -> (2 <= zof nr)%Z -> 1 <= r <= M -> tick_label g (XFin r) = Ok (XFin r)).
Proof.
  intros H. destruct draw_grid as (g & S & Hg). specialize (H _ _ _ _ _ _ _ _ g 1 3 S Hg eq_refl ltac:(cbn; lia) ltac:(lra)).
  rewrite (tick_xr S eq_refl eq_refl eq_refl eq_refl eq_refl Hg) in H; [|cbn; lia]. injection H as H.
  rewrite Rabs_left in H; lra.
Qed.

Theorem rf_reading (mnx mxx nx mny mxy ny mxr nr : pyval xr) (g : gparams xr) x0 x1 y0 y1 r1 r :
  Forall small [mnx; mxx; nx; mny; mxy; ny; mxr; nr] ->
  value mnx = XFin x0 -> value mxx = XFin x1 -> value mny = XFin y0 -> value mxy = XFin y1 -> value mxr = XFin r1 ->
  new_params mnx mxx nx mny mxy ny mxr nr = Ok g -> (2 <= zof nr)%Z -> 1 <= r <= r1 ->
  (tick_label g (XFin r) = Ok (XFin r) <-> r1 = 2 \/ r = r1 / 2) /\ (~ (0 <= r <= 2 * (r1 - 1)) <-> 2 * (r1 - 1) < r).
Proof.
  intros S A1 A2 A3 A4 A5 H N Hr. rewrite (tick_xr S A1 A2 A3 A4 A5 H N). destruct (drawn_rf Hr) as [D _].
  split; [rewrite <- D; split; [intros E; injection E; auto|intros E; rewrite E; reflexivity]|].
  split; [intros X; apply Rnot_le_lt; intros Y; apply X; lra|lra].
Qed.
