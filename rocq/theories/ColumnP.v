(** One grid point in exact arithmetic: every entry of its five columns. *)
From Coq Require Import ZArith Reals List Bool String Lia Lra Psatz.
From Verif Require Import Num NumP Py SpecNum Validate ValidateP Ring RingP RingSystem XLibm FS FSP GridParams SpecGrid GridParamsP GridParamsXP
  Names GridProp SpecProp GridPropP Geometry SpecGeom GeomP GeomMoreP EdgeP Build SpecBuild BuildP BuildQP StretchP BuildXP InterpP Shallot BuildGP BuildGridP BuildCP BuildDP BuildEP BuildFP.
Import ListNotations.
Set Implicit Arguments.
Local Open Scope R_scope.

(** the scale factors fy that have an fx *)
Definition roomy_fy (dy fy : R) : Prop := 0 < fy /\ 0 < fy * fy * (1 + 4 * (dy * dy)) - 4 * (dy * dy).
Definition fx_of (dy fy : R) : R := sqrt (1 / (fy * fy * (1 + 4 * (dy * dy)) - 4 * (dy * dy))) * fy.

Lemma fx_roomy dy fy : roomy_fy dy fy -> determine_fx (XFin fy) (XFin dy) = XFin (fx_of dy fy) /\ 0 < fx_of dy fy.
Proof.
  intros [H1 H2]. rewrite fx_xr. cbn zeta. destruct (Rle_dec _ 0); [lra|]. split; auto. unfold fx_of.
  apply Rmult_lt_0_compat; auto. apply sqrt_lt_R0. apply Rdiv_lt_0_compat; lra.
Qed.
Lemma roomy_up dy f v : roomy_fy dy f -> f <= v -> roomy_fy dy v.
Proof.
  intros [H1 H2] Hv. split; [lra|]. assert (f * f <= v * v) by nra. assert (0 <= dy * dy) by apply Rle_0_sqr.
  assert (f * f * (1 + 4 * (dy * dy)) <= v * v * (1 + 4 * (dy * dy))) by (apply Rmult_le_compat_r; lra). lra.
Qed.
Lemma roomy_of_fx dy fy fx : 0 < fy -> determine_fx (XFin fy) (XFin dy) = XFin fx -> roomy_fy dy fy /\ fx = fx_of dy fy.
Proof.
  intros H1 H. rewrite fx_xr in H. cbn zeta in H. destruct (Rle_dec _ 0); [discriminate|]. injection H as <-. repeat split; auto. lra.
Qed.
Lemma sampled_roomy dy s c a b : dy <> 0 -> sampled dy s c a b -> exists fy, a = XFin fy /\ b = XFin (d_major (fx_of dy fy) fy s c) /\ roomy_fy dy fy.
Proof.
  intros Hd H. destruct H as [fx fy Hx Hy E|fx fy Hy Hx E].
  - assert (0 < fy).
    { rewrite fy_xr in E. cbn zeta in E. destruct (Req_EM_T dy 0); [contradiction|]. destruct (Rle_dec _ 0) as [|G]; [discriminate|]. injection E as <-.
      apply sqrt_lt_R0. assert (0 < dy * dy) by (apply sqpos; auto). apply Rdiv_lt_0_compat; nra. }
    assert (E' := @fx_of_fy fx dy fy Hd ltac:(lra) E). destruct (@roomy_of_fx dy fy fx H E') as [A ->]. exists fy. auto.
  - destruct (@roomy_of_fx dy fy fx ltac:(lra) E) as [A ->]. exists fy. auto.
Qed.

Section P.
Context (E : env xr) (HE : e_libm E = Libm_xr) (HS : brackets (e_search E)) (nf : pyval xr) (n : nat) (Hnf : num_index nf = Ok n) (Hn : (2 <= n)%nat).
Context (dy s c : R) (Hc : 0 < c) (g : gparams xr) (rf : list R) (Hrf : g_rf g = map XFin rf) (Hne : rf <> []).
Context (Mx My : R) (HMx : amax (g_dx g) = XFin Mx) (HMy : amax (g_dy g) = XFin My) (H1x : 1 <= Mx) (H1y : 1 <= My).

(** the parts of a column *)
Lemma column_open col : grid_point E g nf (XFin dy) (XFin s) (XFin c) = Ok col ->
  exists ys ds, c_fys col = map XFin ys /\ c_drs col = map XFin ds /\ Forall2 (fun y d => sampled dy s c (XFin y) (XFin d)) ys ds /\
    interpolate E (map XFin rf) (XFin dy) (map XFin ys) (map XFin ds) = Ok (c_fx col, c_fy col) /\
    c_fx col = map (fun y => determine_fx y (XFin dy)) (c_fy col) /\ List.length (c_fy col) = (2 * List.length rf - 1)%nat /\
    (forall k fx fy r i t, nth_error (c_fx col) k = Some fx -> nth_error (c_fy col) k = Some fy -> disk_parameters Libm_xr fx fy (XFin s) (XFin c) = (r, i, t) ->
       nth_error (c_dr col) k = Some r /\ nth_error (c_inc col) k = Some i /\ nth_error (c_tilt col) k = Some t).
Proof.
  intros H. unfold grid_point in H. destruct (last_opt (g_rf g)) as [F|]; cbn [bind] in H; [|discriminate]. rewrite HMx, HMy in H.
  destruct (extend_horizontally _ _ _ _ _ _ _ _ _) as [h|] eqn:Eh; cbn [bind] in H; [|discriminate].
  destruct (extend_vertically _ _ _ _ _ _ _ _ _) as [v|] eqn:Ev; cbn [bind] in H; [|discriminate].
  destruct (interpolate _ _ _ _ _) as [[fx fy]|] eqn:Ei; cbn [bind fst snd] in H; [|discriminate].
  destruct (disk_arrays _ _ _ _ _) as [d|] eqn:Ed; cbn [bind] in H; [|discriminate]. match type of H with Ok ?x = _ => assert (Hcol : col = x) by congruence end. clear H. subst col.
  cbn [c_fys c_drs c_fx c_fy c_dr c_inc c_tilt].
  destruct (@loops_sampled E HE nf n Hnf Hn dy s c Hc Mx My F h v H1x H1y Eh Ev) as (Hs & _).
  assert (Fy : Forall fin (fst v)). { clear - Hs. induction Hs as [|a b la lb Hab _ IH]; constructor; auto. destruct Hab; eexists; reflexivity. }
  assert (Fd : Forall fin (snd v)). { clear - Hs. induction Hs as [|a b la lb Hab _ IH]; constructor; auto. destruct Hab; eexists; reflexivity. }
  destruct (map_fin Fy) as (ys & Eys). destruct (map_fin Fd) as (ds & Eds). rewrite Eys, Eds in *.
  exists ys, ds. split; auto. split; auto. split; [|].
  { clear - Hs. revert ds Hs. induction ys as [|y ys IH]; intros [|d ds] Hs; inversion Hs; subst; constructor; auto. }
  rewrite Hrf in Ei. split; auto.
  assert (Hl : List.length (map XFin ys) = List.length (map XFin ds)) by (apply (Forall2_len Hs)).
  destruct (@interpolate_middle xr _ _ E (map XFin rf) (XFin dy) (map XFin ys) (map XFin ds) fx fy) as (L1 & L2 & _); auto.
  { destruct rf; [congruence|discriminate]. }
  rewrite map_length in L1. split; auto. split; auto.
  intros k a b r i t Ha Hb Hp. apply disk_arrays_ok in Ed. subst d. unfold radii. rewrite !map_map, !nth_error_map, (nth_combine _ _ _ Ha Hb).
  cbn [option_map fst snd]. rewrite HE, Hp. auto.
Qed.

Lemma ys_roomy ys ds : dy <> 0 -> Forall2 (fun y d => sampled dy s c (XFin y) (XFin d)) ys ds ->
  forall y, In y ys -> roomy_fy dy y.
Proof.
  intros Hd H. induction H as [|a b la lb Hab _ IH]; intros y []; auto. subst a. destruct (sampled_roomy Hd Hab) as (fy & Ef & _ & Hr). injection Ef as ->. auto.
Qed.

(** every entry of the scale factor column comes from the samples by interpolation *)
Lemma column_between col ys ds k : c_fys col = map XFin ys -> List.length ys = List.length ds -> Forall (fun d => 0 < d) ds ->
  interpolate E (map XFin rf) (XFin dy) (map XFin ys) (map XFin ds) = Ok (c_fx col, c_fy col) -> (k < 2 * List.length rf - 1)%nat ->
  exists v f h, nth_error (c_fy col) k = Some (XFin v) /\ In f ys /\ In h ys /\ f <= v <= h.
Proof.
  intros _ Hlen Hpos Hi Hk. destruct (@interpolate_lines E HS rf ys ds dy _ _ Hne Hlen Hpos Hi) as (k0 & m & Hm & _ & _ & Hmid & Hj).
  assert (Hk0 : (k0 < List.length ys)%nat) by (rewrite Hlen; apply nth_error_Some; congruence).
  assert (Part : forall a b : list R, (forall x, In x a -> In x ys) -> forall q v, List.length a = List.length b -> broken_line b a q v -> exists f h, In f ys /\ In h ys /\ f <= v <= h).
  { intros a b Ha q v Hab Hbl. destruct (@broken_line_between b a q v Hab Hbl) as (f & h & Hf & Hh & Hv). exists f, h. auto. }
  destruct (lt_eq_lt_dec k (List.length rf - 1)) as [[Hlt|He]|Hgt].
  - set (j := (List.length rf - 1 - k)%nat). assert (Hjl : (j < List.length rf)%nat) by (unfold j; lia).
    destruct (nth_error rf j) as [q|] eqn:Eq; [|apply nth_error_None in Eq; lia].
    destruct (Hj j q ltac:(unfold j; lia) Eq) as [_ (v & Hv & Hb)]. replace (List.length rf - 1 - j)%nat with k in Hv by (unfold j; lia).
    destruct (Part (rev (firstn (S k0) ys)) (map (fun d => d / m) (rev (firstn (S k0) ds)))) with (q := q) (v := v) as (f & h & Hfh); auto.
    + intros x Hx. apply in_rev in Hx. rewrite <- (firstn_skipn (S k0) ys). apply in_or_app. now left.
    + rewrite map_length, !rev_length, !firstn_length, Hlen. reflexivity.
    + exists v, f, h. split; auto.
  - subst k. destruct (nth_error ys k0) as [y|] eqn:Ey; [|apply nth_error_None in Ey; lia]. cbn [option_map] in Hmid.
    exists y, y, y. apply nth_error_In in Ey. split; auto. split; auto. split; auto. lra.
  - set (j := (k - (List.length rf - 1))%nat). assert (Hjl : (j < List.length rf)%nat) by (unfold j; lia).
    destruct (nth_error rf j) as [q|] eqn:Eq; [|apply nth_error_None in Eq; lia].
    destruct (Hj j q ltac:(unfold j; lia) Eq) as [(v & Hv & Hb) _]. replace (List.length rf - 1 + j)%nat with k in Hv by (unfold j; lia).
    destruct (Part (skipn k0 ys) (map (fun d => d / m) (skipn k0 ds))) with (q := q) (v := v) as (f & h & Hfh); auto.
    + intros x Hx. rewrite <- (firstn_skipn k0 ys). apply in_or_app. now right.
    + rewrite map_length, !skipn_length, Hlen. reflexivity.
    + exists v, f, h. split; auto.
Qed.

Lemma sampled_positive ys ds : Forall2 (fun y d => sampled dy s c (XFin y) (XFin d)) ys ds -> Forall (fun d => 0 < d) ds.
Proof.
  induction 1 as [|a b la lb Hab _ IH]; constructor; auto. assert (G : forall x z, sampled dy s c x z -> exists q, z = XFin q /\ 0 < q).
  { intros x z []; eexists; (split; [reflexivity|]).
    - apply Rlt_le_trans with (fx * c); [nra|apply d_major_ge_x; lra].
    - apply Rlt_le_trans with (fy * c); [nra|apply d_major_ge_y; lra]. }
  destruct (G _ _ Hab) as (q & Eq & Hq). injection Eq as ->. exact Hq.
Qed.

(** off the row dy = 0 every entry is a disk *)
Theorem column_disks col : dy <> 0 -> grid_point E g nf (XFin dy) (XFin s) (XFin c) = Ok col ->
  forall k, (k < 2 * List.length rf - 1)%nat -> exists fx fy r i t,
    nth_error (c_fx col) k = Some (XFin fx) /\ nth_error (c_fy col) k = Some (XFin fy) /\
    nth_error (c_dr col) k = Some (XFin r) /\ nth_error (c_inc col) k = Some (XFin i) /\ nth_error (c_tilt col) k = Some (XFin t) /\
    0 < fx /\ 0 < fy /\ determine_fx (XFin fy) (XFin dy) = XFin fx /\
    disk_parameters Libm_xr (XFin fx) (XFin fy) (XFin s) (XFin c) = (XFin r, XFin i, XFin t).
Proof.
  intros Hd H k Hk. destruct (column_open H) as (ys & ds & Ey & _ & Sm & Hi & Hfx & Hl & Hdisk).
  assert (Hlen := Forall2_len Sm).
  destruct (@column_between col ys ds k Ey Hlen (sampled_positive Sm) Hi Hk) as (v & f & h & Hv & Hf & _ & Hle & _).
  assert (Rm : roomy_fy dy v) by (apply roomy_up with f; auto; eapply ys_roomy; eauto).
  destruct (fx_roomy Rm) as [Ex Px]. destruct Rm as [Pv _].
  assert (Hx : nth_error (c_fx col) k = Some (XFin (fx_of dy v))) by (rewrite Hfx, nth_error_map, Hv; cbn [option_map]; now rewrite Ex).
  destruct (disk_is_ellipse s Px Pv Hc) as (r & i & t & Hp & _). destruct (Hdisk _ _ _ _ _ _ Hx Hv Hp) as (A & B & C).
  exists (fx_of dy v), v, r, i, t. repeat (split; auto).
Qed.
End P.
