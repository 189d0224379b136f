(** The grid point at the origin in exact arithmetic, and how far the samples of any point reach. *)
From Coq Require Import ZArith Reals List Bool String Lia Lra Psatz Sorted.
From Verif Require Import Num NumP Py SpecNum Validate ValidateP Ring RingP RingSystem XLibm FS FSP GridParams SpecGrid GridParamsP GridParamsXP
  Names GridProp SpecProp GridPropP Geometry SpecGeom GeomP GeomMoreP Build SpecBuild BuildP BuildQP StretchP BuildXP InterpP Shallot BuildGP BuildGridP BuildCP BuildDP BuildEP BuildFP ColumnP SampleP.
Import ListNotations.
Set Implicit Arguments.
Local Open Scope R_scope.

Lemma reach_fin r m F : 0 < m -> n_lt (n_div (XFin r) (XFin m)) (XFin F) = false -> F <= r / m.
Proof. intros Hm. cbn [n_div Num_xr]. rewrite xdiv by lra. cbn [n_lt Num_xr x_lt]. destruct (Rlt_dec _ _); [discriminate|lra]. Qed.

Section P.
Context (E : env xr) (HE : e_libm E = Libm_xr) (HS : brackets (e_search E)) (nf : pyval xr) (n : nat) (Hnf : num_index nf = Ok n) (Hn : (2 <= n)%nat).
Context (dy s c : R) (Hc : 0 < c) (g : gparams xr) (rf : list R) (Hrf : g_rf g = map XFin rf) (Hne : rf <> []).
Context (Mx My : R) (HMx : amax (g_dx g) = XFin Mx) (HMy : amax (g_dy g) = XFin My) (H1x : 1 <= Mx) (H1y : 1 <= My).

(** the samples are in order, one of them is small, and both ends reach the largest fraction *)
Lemma column_samples col : grid_point E g nf (XFin dy) (XFin s) (XFin c) = Ok col ->
  exists ys ds, c_fys col = map XFin ys /\ c_drs col = map XFin ds /\ StronglySorted Rle ys /\
    (exists q, In q ds /\ q <= (Rabs s + 1) * c) /\
    forall m F, last_opt (g_rf g) = Ok (XFin F) -> In m ds -> (forall d, In d ds -> m <= d) -> 
      (exists a, nth_error ds 0 = Some a /\ F <= a / m) /\ exists b, nth_error ds (List.length ds - 1) = Some b /\ F <= b / m.
Proof.
  intros H. unfold grid_point in H. destruct (last_opt (g_rf g)) as [F|]; cbn [bind] in H; [|discriminate]. rewrite HMx, HMy in H.
  destruct (extend_horizontally _ _ _ _ _ _ _ _ _) as [h|] eqn:Eh; cbn [bind] in H; [|discriminate].
  destruct (extend_vertically _ _ _ _ _ _ _ _ _) as [v|] eqn:Ev; cbn [bind] in H; [|discriminate].
  destruct (interpolate _ _ _ _ _) as [[fx fy]|] eqn:Ei; cbn [bind fst snd] in H; [|discriminate].
  destruct (disk_arrays _ _ _ _ _) as [d|] eqn:Ed; cbn [bind] in H; [|discriminate]. match type of H with Ok ?x = _ => assert (Hcol : col = x) by congruence end. clear H. subst col.
  cbn [c_fys c_drs]. clear Ei Ed fx fy d.
  destruct (@loops_sampled E HE nf n Hnf Hn dy s c Hc Mx My F h v H1x H1y Eh Ev) as (Hs & q & Hq & Hq').
  destruct (@samples_rising E HE nf n Hnf Hn dy s c Hc Mx My F h v H1x H1y Eh Ev) as (b & ys & Eys & Srt & _).
  assert (Pos : Forall positive (snd v)).
  { clear - Hs Hc. induction Hs as [|x y la lb Hab _ IH]; constructor; auto. destruct Hab; eexists; (split; [reflexivity|]).
    - apply Rlt_le_trans with (fx * c); [nra|apply d_major_ge_x; lra].
    - apply Rlt_le_trans with (fy * c); [nra|apply d_major_ge_y; lra]. }
  assert (Fd : Forall fin (snd v)). { eapply Forall_impl; [|exact Pos]. intros x (r & -> & _). now exists r. }
  destruct (map_fin Fd) as (ds & Eds). exists ys, ds. split; auto. split; auto. split; auto. split.
  { exists q. split; auto. rewrite Eds in Hq. apply in_map_iff in Hq as (x & Ex & Hx). injection Ex as ->. exact Hx. }
  intros m F' HF Hm Hmin. injection HF as ->.
  assert (Pre : exists w, snd v = snd h ++ w).
  { destruct v as [va vb]. cbn [snd]. unfold extend_vertically in Ev. revert Ev. apply stretch_inv_ge with (P := fun _ d => exists w, d = snd h ++ w) (k := 1%Z); [|lia|exists []; symmetry; apply app_nil_r].
    intros sh a b0 fys drs _ _ [w ->]. exists (w ++ b0). symmetry. apply app_assoc. }
  destruct Pre as [w Hw]. destruct h as [ha hb], v as [va vb]. cbn [fst snd] in *.
  assert (Mn : forall l m', Forall positive l -> nan_min l = Ok m' -> exists x, m' = XFin x /\ 0 < x /\ In (XFin x) l).
  { intros l m' Hl Hm'. rewrite Forall_forall in Hl. apply nan_min_spec in Hm' as [Hnl [[Hall _]|(Hin & _)]].
    - destruct l as [|y l]; [congruence|]. destruct (Hl y (or_introl eq_refl)) as (z & -> & _). specialize (Hall _ (or_introl eq_refl)). discriminate Hall.
    - destruct (Hl _ Hin) as (x & -> & Px). exists x. auto. }
  assert (In_ds : forall x, In (XFin x) vb -> In x ds). { intros x Hx. rewrite Eds in Hx. apply in_map_iff in Hx as (y & Ey & Hy). injection Ey as ->. exact Hy. }
  assert (Mp : 0 < m). { rewrite Forall_forall in Pos. destruct (Pos (XFin m)) as (r & Er & Hr); [rewrite Eds; now apply in_map|injection Er as ->; exact Hr]. }
  assert (Step : forall a x, In (XFin a) vb -> In (XFin x) vb -> 0 < x -> F' <= a / x -> F' <= a / m).
  { intros a x Ha Hx Px Hle. eapply Rle_trans; [exact Hle|]. unfold Rdiv. apply Rmult_le_compat_l.
    - rewrite Forall_forall in Pos. destruct (Pos _ Ha) as (r & Er & Hr). injection Er as ->. lra.
    - apply Rinv_le_contravar; auto. }
  assert (Hpos : Forall positive hb) by (rewrite Hw in Pos; apply Forall_app in Pos; tauto).
  split.
  - apply horizontal_reaches in Eh as (r & m0 & Hr & Hm0 & Hl). destruct (Mn _ _ Hpos Hm0) as (x & -> & Px & Hx).
    assert (Hr0 : nth_error vb 0 = Some r) by (rewrite Hw; destruct hb; [discriminate|exact Hr]).
    rewrite Eds, nth_error_map in Hr0. destruct (nth_error ds 0) as [a|] eqn:Ea; [|discriminate]. cbn [option_map] in Hr0. assert (r = XFin a) by congruence. subst r.
    exists a. split; auto. apply Step with x; auto.
    + rewrite Eds. apply in_map. eapply nth_error_In; eauto.
    + rewrite Hw. apply in_or_app. auto.
    + now apply reach_fin.
  - apply vertical_reaches in Ev as (r & m0 & Hr & Hm0 & Hl). destruct (Mn _ _ Pos Hm0) as (x & -> & Px & Hx).
    rewrite Eds, map_length, nth_error_map in Hr. destruct (nth_error ds (List.length ds - 1)) as [a|] eqn:Ea; [|discriminate]. cbn [option_map] in Hr. assert (r = XFin a) by congruence. subst r.
    exists a. split; auto. apply Step with x; auto.
    + rewrite Eds. apply in_map. eapply nth_error_In; eauto.
    + now apply reach_fin.
Qed.
End P.

(** *** the origin *)
Lemma major_unsheared fx fy c : 0 < fx -> 0 <= fy -> 0 < c -> d_major fx fy 0 c = Rmax fx fy * c.
Proof.
  intros Hx Hy Hc. apply Rle_antisym.
  - unfold d_major. match goal with |- sqrt (r2 _ _ _ _ ?u) <= _ => set (t := u) end. assert (Mx := Rmax_l fx fy). assert (My := Rmax_r fx fy). set (M := Rmax fx fy) in *.
    rewrite <- (sqrt_square (M * c)) by nra. apply sqrt_le_1_alt. unfold r2, px, py. assert (E := sin2_cos2 t). unfold Rsqr in E.
    assert (fx * fx <= M * M) by nra. assert (fy * fy <= M * M) by nra. set (si := sin t) in *. set (co := cos t) in *.
    assert (0 <= c * c * (si * si)) by nra. assert (0 <= c * c * (co * co)) by nra.
    replace (M * c * (M * c)) with (M * M * (c * c * (si * si)) + M * M * (c * c * (co * co))) by nra.
    match goal with |- ?l <= _ => replace l with (fy * fy * (c * c * (si * si)) + fx * fx * (c * c * (co * co))) by ring end. nra.
  - unfold Rmax. destruct (Rle_dec fx fy); [apply d_major_ge_y|apply d_major_ge_x]; auto.
Qed.
Lemma origin_sample c y d : 0 < c -> sampled 0 0 c (XFin y) (XFin d) -> (1 <= y /\ d = y * c) \/ (y = 0 /\ c < d).
Proof.
  intros Hc H. inversion H as [fx fy Hx Hy E A B|fx fy Hy Hx E A B]; subst.
  - rewrite major_unsheared by lra. rewrite fy_xr in E. cbn zeta in E. destruct (Req_EM_T 0 0); [|lra]. destruct (Req_EM_T fx 1) as [->|].
    + injection E as <-. left. rewrite Rmax_left by lra. lra.
    + destruct (Rle_dec _ 0); [discriminate|]. injection E as <-. right. rewrite Rmax_left by lra. split; nra.
  - rewrite major_unsheared by lra. rewrite fx_xr in E. cbn zeta in E. destruct (Rle_dec _ 0); [discriminate|]. injection E as <-. left.
    replace (1 / (y * y * (1 + 4 * (0 * 0)) - 4 * (0 * 0))) with (/ y * / y) by (field; lra). rewrite sqrt_square by (left; apply Rinv_0_lt_compat; lra).
    rewrite Rinv_l by lra. rewrite Rmax_right by lra. lra.
Qed.
Lemma origin_fx v : 0 < v -> determine_fx (XFin v) (XFin 0) = XFin 1.
Proof.
  intros Hv. rewrite fx_xr. cbn zeta. destruct (Rle_dec _ 0); [exfalso; nra|]. f_equal.
  replace (1 / (v * v * (1 + 4 * (0 * 0)) - 4 * (0 * 0))) with (/ v * / v) by (field; lra). rewrite sqrt_square by (left; apply Rinv_0_lt_compat; lra). apply Rinv_l. lra.
Qed.
Lemma origin_nan : determine_fx (XFin 0) (XFin 0) = XNaN.
Proof. rewrite fx_xr. cbn zeta. destruct (Rle_dec _ 0); [reflexivity|exfalso; lra]. Qed.

Lemma stretch_steps2 (new : Z -> res (list xr * list xr)) join outer mx max_rf (P : Z -> list xr -> list xr -> Prop) :
  (forall sh a b fys drs, (1 <= sh)%Z -> new sh = Ok (a, b) -> P sh fys drs -> P (sh + 1)%Z (join a fys) (join b drs)) ->
  forall f sh fys drs fys' drs', (1 <= sh)%Z -> P sh fys drs -> stretch f new join outer mx max_rf sh fys drs = Ok (fys', drs') -> exists k, (1 <= k)%Z /\ P k fys' drs'.
Proof.
  intros HP. induction f; intros sh fys drs fys' drs' Hk H0 H; cbn [stretch] in H; [discriminate|].
  destruct (new sh) as [[a b]|] eqn:En; cbn [bind fst snd] in *; [|discriminate].
  destruct (nan_min _) as [m|]; cbn [bind] in *; [|discriminate]. destruct (outer b); [|discriminate].
  destruct (n_lt _ max_rf); destruct (n_gt _ _); try discriminate.
  - eapply IHf; [| |exact H]; [lia|eauto].
  - apply ok_pair in H as [-> ->]. exists (sh + 1)%Z. split; [lia|eauto].
Qed.

Section H.
Context (E : env xr) (HE : e_libm E = Libm_xr) (nf : pyval xr) (n : nat) (Hnf : num_index nf = Ok n) (Hn : (2 <= n)%nat).
Context (c : R) (Hc : 0 < c).
Lemma origin_horizontal Mx F h : 1 <= Mx -> extend_horizontally E nf (XFin Mx) F (XFin 0) (XFin 0) (XFin c) [] [] = Ok h -> exists b, rising c b (rev (snd h)).
Proof.
  intros HM H. destruct h as [ys ds]. unfold extend_horizontally in H.
  apply stretch_steps2 with (P := fun k _ l => rising c (c * start Mx k) (rev l)) in H.
  - destruct H as (k & _ & Hr). cbn [snd]. eauto.
  - clear H. intros k a b fys drs Hk Hab Hr. destruct (start_range Hn HM Hk) as [[Hlo Hle] Hnext]. rewrite Hnext, rev_app_distr.
    apply rising_app with (c * start Mx k); [nra|nra|auto|].
    destruct (@array_rising nf n Hnf Hn Mx k HM Hk) as (l & El & r & -> & Sr & Fr). unfold new_horizontal in Hab. rewrite El in Hab. cbn [bind] in Hab.
    rewrite (@checks_ok E HE n Hn 0 c Hc) in Hab. cbn [bind] in Hab. rewrite <- map_rev, combine_map_r in Hab. unfold radii in Hab. rewrite !map_map in Hab. cbn [fst snd] in Hab.
    apply ok_pair in Hab as [_ ->]. rewrite <- map_rev, rev_involutive, map_map. exists (map (Rmult c) r). split; [|split].
    + rewrite map_map. apply map_ext_in. intros x Hx. rewrite Forall_forall in Fr. specialize (Fr _ Hx). destruct (@fy_ge1 x 0 ltac:(lra)) as (y & Ey & Hy). rewrite Ey.
      rewrite major_radius by lra. rewrite major_unsheared by lra. f_equal.
      rewrite fy_xr in Ey. cbn zeta in Ey. destruct (Req_EM_T 0 0); [|lra]. destruct (Req_EM_T x 1) as [->|].
      * injection Ey as <-. rewrite Rmax_left by lra. ring.
      * destruct (Rle_dec _ 0); [discriminate|]. injection Ey as <-. rewrite Rmax_left by lra. ring.
    + clear - Sr Hc. induction Sr as [|x r Sr IH Hx]; cbn [map]; constructor; auto. apply Forall_forall. intros y Hy. apply in_map_iff in Hy as (z & <- & Hz).
      rewrite Forall_forall in Hx. specialize (Hx _ Hz). nra.
    + apply Forall_forall. intros y Hy. apply in_map_iff in Hy as (z & <- & Hz). rewrite Forall_forall in Fr. specialize (Fr _ Hz). nra.
  - lia.
  - apply rising_nil.
Qed.
(** the samples with fy = 0 are in decreasing order of the radius *)
Lemma origin_descends Mx My F h v : 1 <= Mx -> 1 <= My ->
  extend_horizontally E nf (XFin Mx) F (XFin 0) (XFin 0) (XFin c) [] [] = Ok h ->
  extend_vertically E nf (XFin My) F (XFin 0) (XFin 0) (XFin c) (fst h) (snd h) = Ok v ->
  forall i j d d', (i <= j)%nat -> nth_error (fst v) j = Some (XFin 0) -> nth_error (snd v) i = Some (XFin d) -> nth_error (snd v) j = Some (XFin d') -> d' <= d.
Proof.
  intros HMx HMy Hh Hv. destruct (@origin_horizontal _ _ _ HMx Hh) as (b & r & Er & Sr & _).
  assert (Hlh : List.length (fst h) = List.length (snd h)).
  { destruct h as [ha hb]. unfold extend_horizontally in Hh. cbn [fst snd]. revert Hh. apply stretch_inv_ge with (P := fun a b : list xr => List.length a = List.length b) (k := 1%Z); [|lia|reflexivity].
    intros sh a b0 fys drs Hsh Hab Hl. rewrite !app_length, Hl. f_equal. apply (@Forall2_len _ _ (sampled 0 0 c)). exact (@sampled_h E HE nf n Hnf Hn 0 0 c Hc Mx sh a b0 HMx Hsh Hab). }
  destruct v as [va vb]. cbn [fst snd]. unfold extend_vertically in Hv.
  assert (Pre : exists wy w, va = fst h ++ wy /\ vb = snd h ++ w /\ forall x, In x wy -> exists q, x = XFin q /\ 1 <= q).
  { revert Hv. apply stretch_inv_ge with (P := fun a b => exists wy w, a = fst h ++ wy /\ b = snd h ++ w /\ forall x, In x wy -> exists q, x = XFin q /\ 1 <= q) (k := 1%Z);
      [|lia|exists [], []; rewrite !app_nil_r; repeat split; intros x []].
    intros sh a b0 fys drs Hsh Hab (wy & w & -> & -> & Hw). exists (wy ++ a), (w ++ b0). rewrite !app_assoc. split; auto. split; auto. intros x Hx. apply in_app_or in Hx as [Hx|Hx]; auto.
    destruct (@array_range nf n Hnf Hn My sh HMy Hsh) as (l & El & Hl & _). unfold new_vertical in Hab. rewrite El in Hab. cbn [bind] in Hab.
    rewrite (@checks_ok E HE n Hn 0 c Hc) in Hab. cbn [bind] in Hab. apply ok_pair in Hab as [-> _]. auto. }
  destruct Pre as (wy & w & -> & -> & Hw). intros i j d d' Hij Hy Hd Hd'.
  destruct (Nat.lt_ge_cases j (List.length (snd h))) as [Hj|Hj].
  - rewrite nth_error_app1 in Hd, Hd' by lia. assert (Er' : snd h = map XFin (rev r)) by (rewrite map_rev, <- Er, rev_involutive; reflexivity).
    rewrite Er', map_length, rev_length in Hj. rewrite Er', nth_error_map in Hd, Hd'.
    destruct (nth_error (rev r) i) as [x|] eqn:Ex; [|discriminate]. destruct (nth_error (rev r) j) as [x'|] eqn:Ex'; [|discriminate]. cbn [option_map] in *. injection Hd as ->. injection Hd' as ->.
    apply nth_error_nth with (d := 0) in Ex. apply nth_error_nth with (d := 0) in Ex'. rewrite rev_nth in Ex by lia. rewrite rev_nth in Ex' by lia.
    rewrite sorted_nth in Sr. apply (Sr (List.length r - S j)%nat (List.length r - S i)%nat); [lia| |].
    + rewrite <- Ex'. apply nth_error_nth'. lia.
    + rewrite <- Ex. apply nth_error_nth'. lia.
  - exfalso. rewrite nth_error_app2 in Hy by lia. apply nth_error_In in Hy. destruct (Hw _ Hy) as (q & Eq & Hq). injection Eq as <-. lra.
Qed.
End H.

Lemma nth_rev_pre {A} (l : list A) k i x : (k < List.length l)%nat -> nth_error (rev (firstn (S k) l)) i = Some x -> (i <= k)%nat /\ nth_error l (k - i) = Some x.
Proof.
  intros Hk H. assert (Hl : List.length (firstn (S k) l) = S k) by (rewrite firstn_length; lia).
  assert (Hi : (i < S k)%nat) by (rewrite <- Hl, <- rev_length; apply nth_error_Some; congruence). split; [lia|].
  destruct (nth_error l (k - i)) as [y|] eqn:Ey; [|apply nth_error_None in Ey; lia].
  rewrite (nth_error_nth' _ x) in H by (rewrite rev_length; lia). rewrite rev_nth in H by lia. rewrite Hl in H. replace (S k - S i)%nat with (k - i)%nat in H by lia.
  assert (nth_error (firstn (S k) l) (k - i) = Some y) by (rewrite nth_error_firstn' by lia; auto). apply nth_error_nth with (d := x) in H0. congruence.
Qed.

Section O.
Context (E : env xr) (HE : e_libm E = Libm_xr) (HS : brackets (e_search E)) (nf : pyval xr) (n : nat) (Hnf : num_index nf = Ok n) (Hn : (2 <= n)%nat).
Context (c : R) (Hc : 0 < c) (g : gparams xr) (rf : list R) (F : R) (Hrf : g_rf g = map XFin rf) (Hne : rf <> []) (HF : last_opt (g_rf g) = Ok (XFin F)).
Context (Hr : forall j q, (1 <= j)%nat -> nth_error rf j = Some q -> 1 < q <= F).
Context (Mx My : R) (HMx : amax (g_dx g) = XFin Mx) (HMy : amax (g_dy g) = XFin My) (H1x : 1 <= Mx) (H1y : 1 <= My).

(** [b] is the least sampled fx above 1 *)
Theorem origin_column col : grid_point E g nf (XFin 0) (XFin 0) (XFin c) = Ok col -> let mid := (List.length rf - 1)%nat in
  nth_error (c_fy col) mid = Some (XFin 1) /\
  exists b, 1 < b /\ forall j q, (1 <= j)%nat -> nth_error rf j = Some q ->
    nth_error (c_fy col) (mid + j) = Some (XFin q) /\
    nth_error (c_fy col) (mid - j) = Some (XFin (if Rlt_dec q b then (b - q) / (b - 1) else 0)).
Proof.
  intros H mid. destruct (@column_open E HE nf n Hnf Hn 0 0 c Hc g rf Hrf Hne Mx My HMx HMy H1x H1y col H) as (ys & ds & Ey & Edr & Sm & Hi & _).
  destruct (@column_samples E HE nf n Hnf Hn 0 0 c Hc g Mx My HMx HMy H1x H1y col H) as (ys' & ds' & Ey' & Edr' & Srt & (q0 & Hq0 & Hq0') & Reach).
  assert (Inj : forall a b : list R, map XFin a = map XFin b -> a = b).
  { induction a as [|x a IH]; intros [|y b] X; try discriminate; auto. cbn in X. injection X as -> X. f_equal; auto. }
  assert (ys' = ys) by (apply Inj; congruence). assert (ds' = ds) by (apply Inj; congruence). subst ys' ds'. clear Ey' Edr'.
  assert (Hlen := Forall2_len Sm).
  assert (Desc : forall i j d d', (i <= j)%nat -> nth_error ys j = Some 0 -> nth_error ds i = Some d -> nth_error ds j = Some d' -> d' <= d).
  { intros i j d d' Hij Hj Hd Hd'. clear - H Ey Edr HE Hn Hnf Hc HMx HMy H1x H1y Hij Hj Hd Hd'. unfold grid_point in H. destruct (last_opt (g_rf g)) as [F|]; cbn [bind] in H; [|discriminate]. rewrite HMx, HMy in H.
    destruct (extend_horizontally _ _ _ _ _ _ _ _ _) as [h|] eqn:Eh; cbn [bind] in H; [|discriminate].
    destruct (extend_vertically _ _ _ _ _ _ _ _ _) as [v|] eqn:Ev; cbn [bind] in H; [|discriminate].
    destruct (interpolate _ _ _ _ _) as [[fx fy]|] eqn:Ei; cbn [bind fst snd] in H; [|discriminate].
    destruct (disk_arrays _ _ _ _ _) as [da|] eqn:Ed; cbn [bind] in H; [|discriminate]. match type of H with Ok ?x = _ => assert (Hcol : col = x) by congruence end. clear H. subst col. cbn [c_fys c_drs] in *.
    apply (@origin_descends E HE nf n Hnf Hn c Hc Mx My F h v H1x H1y Eh Ev i j d d' Hij); rewrite ?Ey, ?Edr, nth_error_map; [rewrite Hj|rewrite Hd|rewrite Hd']; reflexivity. }
  destruct (@interpolate_lines E HS rf ys ds 0 _ _ Hne Hlen (sampled_positive Hc Sm) Hi) as (k & m & Hm & Least & First & Hmid & Lines).
  assert (Cls : forall i y d, nth_error ys i = Some y -> nth_error ds i = Some d -> (1 <= y /\ d = y * c) \/ (y = 0 /\ c < d)).
  { intros i y d Hy Hd. apply origin_sample; auto. destruct (Forall2_nth Sm _ Hy) as (d' & Hd' & Hs'). rewrite Hd in Hd'. injection Hd' as ->. exact Hs'. }
  assert (Hk : (k < List.length ys)%nat) by (rewrite Hlen; apply nth_error_Some; congruence).
  destruct (nth_error ys k) as [y0|] eqn:Ey0; [|apply nth_error_None in Ey0; lia].
  rewrite Rabs_R0 in Hq0'. assert (Hmc := Least _ Hq0). destruct (Cls _ _ _ Ey0 Hm) as [[Hy0 Em]|[_ Hm']]; [|exfalso; lra].
  assert (y0 = 1) by nra. subst y0. rewrite Rmult_1_l in Em. subst m. clear Hy0 Hmc Hq0' Hq0 q0.
  split; [exact Hmid|].
  assert (Hin : In c ds) by (eapply nth_error_In; eauto). specialize (Reach _ _ HF Hin Least).
  rewrite sorted_nth in Srt.
  (* before the least sample *)
  assert (Before : forall i y d, (i < k)%nat -> nth_error ys i = Some y -> nth_error ds i = Some d -> y = 0 /\ c < d).
  { intros i y d Hik Hy Hd. assert (L := First _ _ Hik Hd). assert (S := @Srt i k y 1 ltac:(lia) Hy Ey0). destruct (Cls _ _ _ Hy Hd) as [[A B]|]; auto. exfalso. subst d. nra. }
  (* after it *)
  assert (After : forall i y d, (k <= i)%nat -> nth_error ys i = Some y -> nth_error ds i = Some d -> d / c = y).
  { intros i y d Hik Hy Hd. assert (S := @Srt k i 1 y Hik Ey0 Hy). destruct (Cls _ _ _ Hy Hd) as [[A B]|[A B]]; [subst d; field; lra|lra]. }
  destruct Reach as [(d0 & Hd0 & R0) (dl & Hdl & Rl)].
  exists (match k with O => 2 | S k' => nth k' ds 0 / c end).
  assert (Hbeta : match k with O => True | S k' => exists d, nth_error ds k' = Some d /\ nth k' ds 0 = d /\ c < d end).
  { destruct k as [|k']; auto. destruct (nth_error ds k') as [d|] eqn:Ed; [|apply nth_error_None in Ed; lia]. exists d. split; auto. split; [apply nth_error_nth; auto|].
    apply (First k' d); auto. }
  destruct k as [|k'].
  { assert (d0 = c) by congruence. subst d0. replace (c / c) with 1 in R0 by (field; lra). split; [lra|]. intros j q Hj Hq. exfalso. specialize (Hr Hj Hq). lra. }
  destruct Hbeta as (db & Hdb & Edb & Pdb). rewrite Edb.
  assert (Nm : forall i x, nth_error (map (fun d => d / c) (skipn (S k') ds)) i = Some x -> exists d, nth_error ds (S k' + i) = Some d /\ x = d / c).
  { intros i x Hx. rewrite nth_error_map, nth_error_skipn' in Hx. destruct (nth_error ds (S k' + i)) as [d|]; [|discriminate]. cbn [option_map] in Hx. exists d. split; congruence. }
  assert (Nr : forall i x, nth_error (map (fun d => d / c) (rev (firstn (S (S k')) ds))) i = Some x -> (i <= S k')%nat /\ exists d, nth_error ds (S k' - i) = Some d /\ x = d / c).
  { intros i x Hx. rewrite nth_error_map in Hx. destruct (nth_error (rev (firstn (S (S k')) ds)) i) as [d|] eqn:Ed; [|discriminate]. cbn [option_map] in Hx.
    apply nth_rev_pre in Ed as [A B]; [|lia]. split; auto. exists d. split; congruence. }
  assert (Cc : c / c = 1) by (field; lra).
  assert (Hb1 : 1 < db / c). { rewrite <- Cc. apply Rmult_lt_compat_r; [apply Rinv_0_lt_compat; auto|auto]. }
  split; auto. intros j q Hj Hq. assert (Hq1 := Hr Hj Hq). destruct (Lines j q Hj Hq) as [(v & Hv & Bv) (u & Hu & Bu)].
  split.
  - unfold mid. rewrite Hv. do 2 f_equal. destruct Bv as [a Ha _ Hlt|a i Hlast Ha Hvi Hle|i a b f e Ha Hb Hf He [[L1 L2] Hch]].
    + apply Nm in Ha as (d & Hd & ->). rewrite Nat.add_0_r, Hm in Hd. injection Hd as <-. lra.
    + apply Nm in Ha as (d & Hd & ->). rewrite nth_error_skipn' in Hvi. rewrite (After (S k' + i)%nat v d ltac:(lia) Hvi Hd) in Hle.
      rewrite map_length, skipn_length in Hlast. replace (List.length ds - 1)%nat with (S k' + i)%nat in Hdl by lia. rewrite Hd in Hdl. injection Hdl as <-.
      rewrite (After (S k' + i)%nat v d ltac:(lia) Hvi Hd) in Rl. lra.
    + apply Nm in Ha as (d & Hd & ->). apply Nm in Hb as (d' & Hd' & ->). rewrite nth_error_skipn' in Hf, He.
      rewrite (After (S k' + i)%nat f d ltac:(lia) Hf Hd) in *. rewrite (After (S k' + S i)%nat e d' ltac:(lia) He Hd') in *.
      assert ((v - q) * (e - f) = 0) by lra. apply Rmult_integral in H0 as [H0|H0]; lra.
  - unfold mid. rewrite Hu. do 2 f_equal. destruct Bu as [a Ha _ Hlt|a i Hlast Ha Hvi Hle|i a b f e Ha Hb Hf He [[L1 L2] Hch]].
    + apply Nr in Ha as (_ & d & Hd & ->). rewrite Nat.sub_0_r, Hm in Hd. injection Hd as <-. lra.
    + apply Nr in Ha as (_ & d & Hd & ->). apply nth_rev_pre in Hvi as [_ Hvi]; [|lia].
      rewrite map_length, rev_length, firstn_length in Hlast. assert (i = S k') by lia. subst i. rewrite Nat.sub_diag in *.
      destruct (Before 0%nat u d ltac:(lia) Hvi Hd) as [-> _]. destruct (Rlt_dec q (db / c)) as [Hlt|]; auto. exfalso.
      assert (Hk'y : exists y, nth_error ys k' = Some y) by (destruct (nth_error ys k') eqn:X; [eauto|apply nth_error_None in X; lia]). destruct Hk'y as [y Hy].
      destruct (Before k' y db ltac:(lia) Hy Hdb) as [-> _].
      assert (Dd := Desc 0%nat k' d db ltac:(lia) Hy Hd Hdb). assert (db / c <= d / c) by (apply Rmult_le_compat_r; [left; apply Rinv_0_lt_compat; auto|auto]). lra.
    + apply Nr in Ha as (Hi1 & d & Hd & ->). apply Nr in Hb as (Hi2 & d' & Hd' & ->). apply nth_rev_pre in Hf as [_ Hf]; [|lia]. apply nth_rev_pre in He as [_ He]; [|lia].
      destruct (Before (S k' - S i)%nat e d' ltac:(lia) He Hd') as [-> Pd']. destruct i as [|i].
      * rewrite Nat.sub_0_r in *. replace (S k' - 1)%nat with k' in * by lia. rewrite Hm in Hd. injection Hd as <-. rewrite Hdb in Hd'. injection Hd' as <-. rewrite Ey0 in Hf. injection Hf as <-.
        rewrite Cc in *. destruct (Rlt_dec q (db / c)); [|lra]. apply (Rmult_eq_reg_r (db / c - 1)); [|lra]. unfold Rdiv at 2. rewrite Rmult_assoc, Rinv_l, Rmult_1_r by lra. lra.
      * destruct (Before (S k' - S i)%nat f d ltac:(lia) Hf Hd) as [-> Pd].
        assert (u = 0). { assert (u * (d' / c - d / c) = 0) by lra. apply Rmult_integral in H0 as [H0|H0]; lra. } subst u.
        destruct (Rlt_dec q (db / c)) as [Hlt|]; auto. exfalso.
        assert (Hk'y : exists y, nth_error ys k' = Some y) by (destruct (nth_error ys k') eqn:X; [eauto|apply nth_error_None in X; lia]). destruct Hk'y as [y Hy].
        destruct (Before k' y db ltac:(lia) Hy Hdb) as [-> _].
        assert (Dd := Desc (S k' - S i)%nat k' d db ltac:(lia) Hy Hd Hdb). assert (db / c <= d / c) by (apply Rmult_le_compat_r; [left; apply Rinv_0_lt_compat; auto|auto]). lra.
Qed.
End O.
