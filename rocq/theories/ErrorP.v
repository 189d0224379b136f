(** How far the interpolated disks of a grid point lie from the radii asked for. *)
From Coq Require Import ZArith Reals List Bool String Lia Lra Psatz Sorted.
From Verif Require Import Num NumP Py SpecNum Validate ValidateP Ring RingP RingSystem XLibm FS FSP GridParams SpecGrid GridParamsP GridParamsXP
  Names GridProp SpecProp GridPropP Geometry SpecGeom GeomP GeomMoreP Build SpecBuild BuildP BuildQP StretchP BuildXP InterpP Shallot BuildGP BuildGridP BuildCP BuildDP BuildEP BuildFP ColumnP SampleP OriginP LipP.
Import ListNotations.
Set Implicit Arguments.
Local Open Scope R_scope.

(** *** lists whose neighbours are close *)
Section N.
Context (near : R -> R -> Prop) (Refl : forall x, near x x) (Symm : forall x y, near x y -> near y x).
Fixpoint path (a : R) (l : list R) : Prop := match l with [] => True | x :: t => near a x /\ path x t end.
Lemma path_app a l l' : path a l -> path (last l a) l' -> path a (l ++ l').
Proof.
  revert a. induction l as [|x l IH]; intros a H H'; cbn [app path] in *; auto. destruct H as [H1 H2]. split; auto. apply IH; auto.
  destruct l as [|y l]; auto. cbn [last] in H'. replace (last (y :: l) x) with (last (y :: l) a); auto. clear. revert y. induction l; intros y; cbn [last] in *; auto.
Qed.
Lemma path_nth a l : path a l -> forall i x y, nth_error l i = Some x -> nth_error l (S i) = Some y -> near x y.
Proof.
  revert a. induction l as [|z l IH]; intros a H [|i] x y Hx Hy; cbn in *; try discriminate; destruct H as [H1 H2].
  - injection Hx as <-. destruct l as [|w l]; [discriminate|]. cbn in Hy. injection Hy as <-. cbn in H2. tauto.
  - eapply IH; eauto.
Qed.
Lemma nth_path a l : (forall x, nth_error l 0 = Some x -> x = a) -> (forall i x y, nth_error l i = Some x -> nth_error l (S i) = Some y -> near x y) -> path a l.
Proof.
  revert a. induction l as [|z l IH]; intros a H0 H; cbn [path]; auto. split; [rewrite (H0 z eq_refl); apply Refl|].
  destruct l as [|w l]; [exact I|]. cbn [path]. split; [apply (H 0%nat); reflexivity|]. assert (P : path w (w :: l)).
  { apply IH; [intros x Hx; cbn in Hx; congruence|]. intros i x y Hx Hy. apply (H (S i) x y); auto. }
  cbn [path] in P. tauto.
Qed.
End N.
Lemma last_nth {A} (l : list A) a x : nth_error l (List.length l - 1) = Some x -> last l a = x.
Proof.
  induction l as [|y l IH]; [discriminate|]. destruct l as [|z l]; [cbn; congruence|]. intros H. cbn [last]. apply IH. replace (List.length (y :: z :: l) - 1)%nat with (S (List.length (z :: l) - 1)) in H by (cbn; lia). exact H.
Qed.
Lemma last_app2 (l l' : list R) a : last (l ++ l') a = last l' (last l a).
Proof.
  induction l as [|x l IH]; auto. destruct l as [|y l].
  - cbn [app last]. destruct l' as [|z l']; auto. cbn [last]. clear. revert z. induction l'; intros z; cbn [last] in *; auto.
  - change (last ((y :: l) ++ l') a = last l' (last (y :: l) a)). exact IH.
Qed.
Lemma nth_rev {A} (l : list A) i x : nth_error (rev l) i = Some x -> (i < List.length l)%nat /\ nth_error l (List.length l - S i) = Some x.
Proof.
  intros H. assert (Hi : (i < List.length l)%nat) by (rewrite <- rev_length; apply nth_error_Some; congruence). split; auto.
  rewrite (nth_error_nth' _ x) in H by (rewrite rev_length; lia). rewrite rev_nth in H by lia. rewrite (nth_error_nth' _ x) by lia. exact H.
Qed.

Section R.
Context (E : env xr) (HE : e_libm E = Libm_xr) (nf : pyval xr) (n : nat) (Hnf : num_index nf = Ok n) (Hn : (2 <= n)%nat).
Context (dy s c : R) (Hd : dy <> 0) (Hc : 0 < c).

(** the values tried in one round *)
Lemma array_close M k : 1 <= M -> (1 <= k)%Z -> exists r, fxy_array nf (XFin M) k = Ok (map XFin r) /\ Forall (fun x => 1 <= x) r /\
  nth_error r 0 = Some (start M k) /\ nth_error r (List.length r - 1) = Some (IZR k * M) /\
  forall i x y, nth_error r i = Some x -> nth_error r (S i) = Some y -> Rabs (x - y) <= M / INR (n - 1).
Proof.
  intros HM Hk. destruct (@array_rising nf n Hnf Hn M k HM Hk) as (l & El & r & Er & Srt & Rng). subst l. exists r. split; auto.
  destruct (start_range Hn HM Hk) as [[Hlo Hle] _]. split; [eapply Forall_impl; [|exact Rng]; cbn; intros; lra|].
  assert (Hsp := @linspace_xr (start M k) (IZR k * M) n Hn). unfold fxy_array in El. rewrite Hnf in El. cbn [bind] in El.
  replace (if Z.eqb k 1 then n_one else n_mul (n_ofZ (k - 1)) (XFin M)) with (XFin (start M k)) in El by (unfold start; destruct (Z.eqb k 1); reflexivity).
  change (n_mul (n_ofZ k) (XFin M)) with (XFin (IZR k * M)) in El. assert (El' : linspace (XFin (start M k)) (XFin (IZR k * M)) n = map XFin r) by congruence. clear El.
  rewrite El' in Hsp. destruct Hsp as [Hl Hi]. rewrite map_length in Hl. assert (P : 0 < INR (n - 1)) by (apply lt_0_INR; lia).
  assert (Hnth : forall i, (i < n)%nat -> nth_error r i = Some (spaced (start M k) (IZR k * M) n i)).
  { intros i Hin. specialize (Hi i Hin). rewrite nth_error_map in Hi. destruct (nth_error r i) as [x|]; [|discriminate]. cbn [option_map] in Hi. congruence. }
  split; [rewrite Hnth by lia; f_equal; unfold spaced; cbn [INR]; ring|]. split; [rewrite Hl, Hnth by lia; f_equal; unfold spaced; field; lra|].
  intros i x y Hx Hy. assert (Hin : (S i < n)%nat) by (rewrite <- Hl; apply nth_error_Some; congruence). rewrite Hnth in Hx, Hy by lia. injection Hx as <-. injection Hy as <-.
  unfold spaced. rewrite S_INR. replace (_ - _) with (- ((IZR k * M - start M k) / INR (n - 1))) by ring. rewrite Rabs_Ropp.
  assert (Hw : 0 <= IZR k * M - start M k <= M).
  { split; [lra|]. unfold start. destruct (Z.eqb_spec k 1) as [->|]; [lra|]. rewrite minus_IZR. lra. }
  unfold Rdiv. rewrite Rabs_mult, (Rabs_pos_eq (/ _)) by (left; apply Rinv_0_lt_compat; auto). apply Rmult_le_compat_r; [left; apply Rinv_0_lt_compat; auto|]. apply Rabs_le. lra.
Qed.

Context (eta : R).
Definition near (y y' : R) : Prop := Rabs (fx_of dy y - fx_of dy y') + (1 + Rabs s) * Rabs (y - y') <= eta.
Lemma near_sym x y : near x y -> near y x.
Proof. unfold near. rewrite (Rabs_minus_sym x y), (Rabs_minus_sym (fx_of dy x)). auto. Qed.
Lemma near_radius y y' : near y y' -> Rabs (radius_at dy s c y - radius_at dy s c y') <= c * eta.
Proof. intros H. eapply Rle_trans; [apply major_close; auto|]. apply Rmult_le_compat_l; [lra|exact H]. Qed.
Lemma near_between y y' v : roomy_fy dy y -> y <= v <= y' -> near y y' -> near y v /\ near v y'.
Proof.
  intros Hr Hv. assert (Rv := roomy_up Hr (proj1 Hv)). assert (D1 := fx_of_down Hr (proj1 Hv)). assert (D2 := fx_of_down Rv (proj2 Hv)).
  unfold near. assert (Ps := Rabs_pos s).
  rewrite (Rabs_pos_eq (fx_of dy y - fx_of dy y')) by lra. rewrite (Rabs_left1 (y - y')) by lra.
  rewrite (Rabs_pos_eq (fx_of dy y - fx_of dy v)) by lra. rewrite (Rabs_left1 (y - v)) by lra.
  rewrite (Rabs_pos_eq (fx_of dy v - fx_of dy y')) by lra. rewrite (Rabs_left1 (v - y')) by lra. intros H. split; nra.
Qed.

Context (Mx My : R) (HMx : 1 <= Mx) (HMy : 1 <= My).
Context (Ex : Mx / INR (n - 1) * (1 + (1 + Rabs s) / (4 * (dy * dy))) <= eta) (Ey : My / INR (n - 1) * (4 * (dy * dy) + (1 + Rabs s)) <= eta).
Lemma near_refl x : near x x.
Proof.
  unfold near. rewrite !Rminus_eq_0, Rabs_R0. eapply Rle_trans; [|exact Ey]. rewrite Rmult_0_r, Rplus_0_r. assert (P : 0 < INR (n - 1)) by (apply lt_0_INR; lia). assert (Ps := Rabs_pos s).
  apply Rmult_le_pos; [apply Rmult_le_pos; [lra|left; apply Rinv_0_lt_compat; auto]|]. assert (0 <= dy * dy) by apply Rle_0_sqr. lra.
Qed.
Lemma near_fx x x' : 1 <= x -> 1 <= x' -> Rabs (x - x') <= Mx / INR (n - 1) -> near (fy_of dy x) (fy_of dy x').
Proof.
  intros H1 H2 H. unfold near. rewrite (proj2 (fy_of_roomy Hd H1)), (proj2 (fy_of_roomy Hd H2)). eapply Rle_trans; [|exact Ex].
  assert (C := fy_of_close Hd H1 H2). assert (Ps := Rabs_pos s). assert (P := sqpos Hd). assert (I : 0 < / (4 * (dy * dy))) by (apply Rinv_0_lt_compat; lra).
  apply Rle_trans with (Rabs (x - x') * (1 + (1 + Rabs s) / (4 * (dy * dy)))); [|apply Rmult_le_compat_r; [|auto]].
  - rewrite Rmult_plus_distr_l, Rmult_1_r. apply Rplus_le_compat_l. apply Rle_trans with ((1 + Rabs s) * (Rabs (x - x') / (4 * (dy * dy)))); [apply Rmult_le_compat_l; [lra|auto]|]. right. field. auto.
  - unfold Rdiv. assert (0 <= (1 + Rabs s) * / (4 * (dy * dy))) by (apply Rmult_le_pos; lra). lra.
Qed.
Lemma near_fy y y' : 1 <= y -> 1 <= y' -> Rabs (y - y') <= My / INR (n - 1) -> near y y'.
Proof.
  intros H1 H2 H. unfold near. eapply Rle_trans; [|exact Ey]. assert (C := @fx_of_close dy y y' H1 H2). assert (Ps := Rabs_pos s). assert (P := sqpos Hd).
  apply Rle_trans with (Rabs (y - y') * (4 * (dy * dy) + (1 + Rabs s))); [lra|]. apply Rmult_le_compat_r; [lra|auto].
Qed.

Lemma horizontal_path F h : extend_horizontally E nf (XFin Mx) F (XFin dy) (XFin s) (XFin c) [] [] = Ok h ->
  exists a r, fst h = map XFin r /\ path near a r /\ last r a = 1.
Proof.
  intros H. destruct h as [ys ds]. unfold extend_horizontally in H.
  set (P := fun k l => exists r, l = map XFin r /\ path near (fy_of dy (start Mx k)) r /\ last r (fy_of dy (start Mx k)) = 1).
  apply (@stretch_steps n Hn) with (P := P) in H.
  - destruct H as (k & _ & r & Er & H1 & H2). cbn [fst]. eauto.
  - intros k a b fys Hk Hab (r & -> & H1 & H2). destruct (start_range Hn HMx Hk) as [[Hlo Hle] Hnext]. unfold P. rewrite Hnext.
    destruct (array_close HMx Hk) as (l & El & Fl & H0 & Hlast & Hcl). unfold new_horizontal in Hab. rewrite El in Hab. cbn [bind] in Hab.
    rewrite (@checks_ok E HE n Hn s c Hc) in Hab. cbn [bind] in Hab. apply ok_pair in Hab as [-> _]. rewrite <- map_rev.
    assert (Em : map (fun x => determine_fy x (XFin dy)) (rev (map XFin l)) = map XFin (map (fy_of dy) (rev l))).
    { rewrite <- map_rev, !map_map. apply map_ext_in. intros x Hx. apply in_rev in Hx. rewrite Forall_forall in Fl. apply (fy_of_val Hd (Fl _ Hx)). }
    rewrite Em. exists (map (fy_of dy) (rev l) ++ r). split; [symmetry; apply map_app|].
    assert (Ll : (0 < List.length l)%nat) by (apply nth_error_Some; congruence).
    assert (Last : last (map (fy_of dy) (rev l)) (fy_of dy (IZR k * Mx)) = fy_of dy (start Mx k)).
    { apply last_nth. rewrite map_length, rev_length, nth_error_map. rewrite (nth_error_nth' _ 0) by (rewrite rev_length; lia). rewrite rev_nth by lia.
      replace (List.length l - S (List.length l - 1))%nat with 0%nat by lia. cbn [option_map]. do 2 f_equal. now apply nth_error_nth. }
    split; [|rewrite last_app2, Last; exact H2]. apply path_app; [|rewrite Last; exact H1]. apply nth_path; [apply near_refl| |].
    + intros x Hx. rewrite nth_error_map in Hx. destruct (nth_error (rev l) 0) as [z|] eqn:Ez; [|discriminate]. apply nth_rev in Ez as [_ Ez]. rewrite Hlast in Ez. cbn [option_map] in Hx. congruence.
    + intros i x y Hx Hy. rewrite nth_error_map in Hx, Hy. destruct (nth_error (rev l) i) as [x'|] eqn:Ex'; [|discriminate]. destruct (nth_error (rev l) (S i)) as [y'|] eqn:Ey'; [|discriminate].
      cbn [option_map] in *. injection Hx as <-. injection Hy as <-. apply nth_rev in Ex' as [L1 Ex']. apply nth_rev in Ey' as [L2 Ey'].
      rewrite Forall_forall in Fl. assert (1 <= x') by (apply Fl; eapply nth_error_In; eauto). assert (1 <= y') by (apply Fl; eapply nth_error_In; eauto).
      apply near_fx; auto. rewrite Rabs_minus_sym. apply (Hcl (List.length l - S (S i))%nat); auto. replace (S (List.length l - S (S i)))%nat with (List.length l - S i)%nat by lia. exact Ex'.
  - lia.
  - exists []. unfold start. cbn [Z.eqb Pos.eqb map path last]. rewrite fy_of_one by auto. auto.
Qed.
Theorem samples_path F h v : extend_horizontally E nf (XFin Mx) F (XFin dy) (XFin s) (XFin c) [] [] = Ok h ->
  extend_vertically E nf (XFin My) F (XFin dy) (XFin s) (XFin c) (fst h) (snd h) = Ok v -> exists a r, fst v = map XFin r /\ path near a r.
Proof.
  intros Hh H. apply horizontal_path in Hh as (a & r & Er & H1 & H2). destruct v as [ys ds]. unfold extend_vertically in H.
  set (P := fun k l => exists r, l = map XFin r /\ path near a r /\ last r a = start My k).
  apply (@stretch_steps n Hn) with (P := P) in H.
  - destruct H as (k & _ & r' & Er' & H3 & _). cbn [fst]. eauto.
  - clear r Er H1 H2. intros k a0 b fys Hk Hab (r & -> & H1 & H2). destruct (start_range Hn HMy Hk) as [[Hlo Hle] Hnext]. unfold P. rewrite Hnext.
    destruct (array_close HMy Hk) as (l & El & Fl & H0 & Hlast & Hcl). unfold new_vertical in Hab. rewrite El in Hab. cbn [bind] in Hab.
    rewrite (@checks_ok E HE n Hn s c Hc) in Hab. cbn [bind] in Hab. apply ok_pair in Hab as [-> _].
    exists (r ++ l). split; [symmetry; apply map_app|]. split; [|rewrite last_app2; apply last_nth; auto].
    apply path_app; auto. rewrite H2. apply nth_path; [apply near_refl|intros x Hx; congruence|].
    intros i x y Hx Hy. rewrite Forall_forall in Fl. apply near_fy; [apply Fl; eapply nth_error_In; eauto|apply Fl; eapply nth_error_In; eauto|eauto].
  - lia.
  - exists r. split; auto.
Qed.
End R.

Lemma chord_between a f b e x v : on_chord a f b e x v -> f <= v <= e \/ e <= v <= f.
Proof.
  intros [[H1 H2] H]. set (k := (x - a) / (b - a)). assert (Pk : 0 <= k <= 1).
  { unfold k. split; [apply Rmult_le_pos; [lra|left; apply Rinv_0_lt_compat; lra]|]. apply (Rmult_le_reg_r (b - a)); [lra|]. unfold Rdiv. rewrite Rmult_assoc, Rinv_l by lra. lra. }
  assert (Ev : v = f + k * (e - f)). { apply (Rmult_eq_reg_r (b - a)); [|lra]. replace ((f + k * (e - f)) * (b - a)) with (f * (b - a) + (e - f) * (k * (b - a))) by ring.
    unfold k. replace ((x - a) / (b - a) * (b - a)) with (x - a) by (field; lra). lra. }
  destruct (Rle_lt_dec f e); [left|right]; nra.
Qed.

Section C.
Context (E : env xr) (HE : e_libm E = Libm_xr) (HS : brackets (e_search E)) (nf : pyval xr) (n : nat) (Hnf : num_index nf = Ok n) (Hn : (2 <= n)%nat).
Context (dy s c : R) (Hd : dy <> 0) (Hc : 0 < c) (g : gparams xr) (rf : list R) (Hrf : g_rf g = map XFin rf) (Hne : rf <> []).
Context (Mx My : R) (HMx : amax (g_dx g) = XFin Mx) (HMy : amax (g_dy g) = XFin My) (H1x : 1 <= Mx) (H1y : 1 <= My).
Context (eta : R) (Ex : Mx / INR (n - 1) * (1 + (1 + Rabs s) / (4 * (dy * dy))) <= eta) (Ey : My / INR (n - 1) * (4 * (dy * dy) + (1 + Rabs s)) <= eta).
Local Notation rho := (radius_at dy s c).

Lemma column_path col : grid_point E g nf (XFin dy) (XFin s) (XFin c) = Ok col -> exists a ys, c_fys col = map XFin ys /\ path (near dy s eta) a ys.
Proof.
  intros H. unfold grid_point in H. destruct (last_opt (g_rf g)) as [F|]; cbn [bind] in H; [|discriminate]. rewrite HMx, HMy in H.
  destruct (extend_horizontally _ _ _ _ _ _ _ _ _) as [h|] eqn:Eh; cbn [bind] in H; [|discriminate].
  destruct (extend_vertically _ _ _ _ _ _ _ _ _) as [v|] eqn:Ev; cbn [bind] in H; [|discriminate].
  destruct (interpolate _ _ _ _ _) as [[fx fy]|] eqn:Ei; cbn [bind fst snd] in H; [|discriminate].
  destruct (disk_arrays _ _ _ _ _) as [da|] eqn:Ed; cbn [bind] in H; [|discriminate]. match type of H with Ok ?x = _ => assert (Hcol : col = x) by congruence end. clear H. subst col. cbn [c_fys].
  exact (@samples_path E HE nf n Hnf Hn dy s c Hd Hc eta Mx My H1x H1y Ex Ey F h v Eh Ev).
Qed.

(** one half of the axis: samples [ys] with radii [ds], the first of them the least *)
Lemma half_error (ys ds : list R) m F q v :
  (forall i y d, nth_error ys i = Some y -> nth_error ds i = Some d -> d = rho y) ->
  (forall i y y', nth_error ys i = Some y -> nth_error ys (S i) = Some y' -> forall v, y <= v <= y' \/ y' <= v <= y -> near dy s eta y v) ->
  0 < m -> nth_error ds 0 = Some m -> (exists b, nth_error ds (List.length ds - 1) = Some b /\ F <= b / m) -> 1 <= q <= F ->
  broken_line (map (fun d => d / m) ds) ys q v -> Rabs (rho v - q * m) <= 2 * (c * eta).
Proof.
  intros Hds Hnear Pm H0 (dl & Hdl & Rl) Hq B.
  assert (Pe : 0 <= c * eta).
  { destruct ys as [|y0 ys]; [destruct B as [a _ X|a i _ _ X|i a b f e _ _ X]; [discriminate|destruct i; discriminate|destruct i; discriminate]|].
    assert (X := near_radius Hc (@near_refl n Hn dy s eta My H1y Ey y0)). eapply Rle_trans; [apply Rabs_pos|exact X]. }
  assert (Nm : forall i x, nth_error (map (fun d => d / m) ds) i = Some x -> exists d, nth_error ds i = Some d /\ x * m = d).
  { intros i x Hx. rewrite nth_error_map in Hx. destruct (nth_error ds i) as [d|]; [|discriminate]. cbn [option_map] in Hx. exists d. split; auto. injection Hx as <-. field. lra. }
  destruct B as [a Ha _ Hlt|a i Hlast Ha Hvi Hle|i a b f e Ha Hb Hf He Hch].
  - exfalso. apply Nm in Ha as (d & Hd' & E1). rewrite H0 in Hd'. injection Hd' as <-. assert (a = 1) by nra. lra.
  - apply Nm in Ha as (d & Hd' & E1). rewrite map_length in Hlast. replace (List.length ds - 1)%nat with i in Hdl by lia. rewrite Hd' in Hdl. injection Hdl as <-.
    assert (Ea : d / m = a) by (rewrite <- E1; field; lra). rewrite Ea in Rl. assert (q = a) by lra. subst q. rewrite E1, (Hds i v d Hvi Hd'), Rminus_eq_0, Rabs_R0. lra.
  - apply Nm in Ha as (d & Hd1 & E1). apply Nm in Hb as (d' & Hd2 & E2). assert (Bt := chord_between Hch). destruct Hch as [[L1 L2] _].
    assert (Dd := Hds _ _ _ Hf Hd1). assert (Dd' := Hds _ _ _ He Hd2).
    assert (N1 := near_radius Hc (Hnear i f e Hf He v Bt)). assert (N2 := near_radius Hc (Hnear i f e Hf He e ltac:(lra))). rewrite <- Dd, <- Dd' in N2. rewrite <- Dd in N1.
    assert (d <= q * m <= d') by nra. assert (Rabs (d - q * m) <= Rabs (d - d')) by (rewrite !Rabs_left1 by lra; lra).
    replace (rho v - q * m) with (- (d - rho v) + (d - q * m)) by ring. eapply Rle_trans; [apply Rabs_triang|]. rewrite Rabs_Ropp. lra.
Qed.

Lemma between_neighbours (ys : list R) y : forall a b, nth_error ys 0 = Some a -> nth_error ys (List.length ys - 1) = Some b -> a <= y <= b ->
  (exists i f e, nth_error ys i = Some f /\ nth_error ys (S i) = Some e /\ f <= y <= e) \/ (exists i, nth_error ys i = Some y).
Proof.
  induction ys as [|z ys IH]; intros a b Ha Hb Hy; [discriminate|]. cbn in Ha. injection Ha as ->. destruct ys as [|w ys].
  - cbn in Hb. injection Hb as ->. right. exists 0%nat. cbn. f_equal. lra.
  - destruct (Rle_lt_dec y w) as [Hw|Hw]; [left; exists 0%nat, a, w; cbn; repeat split; auto; lra|].
    replace (List.length (a :: w :: ys) - 1)%nat with (S (List.length (w :: ys) - 1)) in Hb by (cbn; lia).
    destruct (IH w b eq_refl Hb) as [(i & f & e & A & B & C)|(i & A)]; [lra| |].
    + left. exists (S i), f, e. auto.
    + right. exists (S i). auto.
Qed.

(** off the row dy = 0: the radii of a column *)
Theorem column_error col F : grid_point E g nf (XFin dy) (XFin s) (XFin c) = Ok col -> last_opt (g_rf g) = Ok (XFin F) ->
  (forall j q, (1 <= j)%nat -> nth_error rf j = Some q -> 1 <= q <= F) -> let mid := (List.length rf - 1)%nat in
  exists m, nth_error (c_dr col) mid = Some (XFin m) /\ 0 < m /\
    (1 < F -> forall y, roomy_fy dy y -> m <= rho y + c * eta) /\
    forall j q, (1 <= j)%nat -> nth_error rf j = Some q -> forall k, k = (mid + j)%nat \/ k = (mid - j)%nat ->
      exists r, nth_error (c_dr col) k = Some (XFin r) /\ Rabs (r - q * m) <= 2 * (c * eta).
Proof.
  intros H HF Hr mid. destruct (@column_open E HE nf n Hnf Hn dy s c Hc g rf Hrf Hne Mx My HMx HMy H1x H1y col H) as (ys & ds & Eys & Eds & Sm & Hi & Hfx & Hl & Hdisk).
  destruct (@column_samples E HE nf n Hnf Hn dy s c Hc g Mx My HMx HMy H1x H1y col H) as (ys' & ds' & Ey' & Edr' & Srt & _ & Reach).
  destruct (column_path H) as (a0 & ys'' & Ey'' & Path).
  assert (Inj : forall a b : list R, map XFin a = map XFin b -> a = b).
  { induction a as [|x a IH]; intros [|y b] X; try discriminate; auto. cbn in X. injection X as -> X. f_equal; auto. }
  assert (ys' = ys) by (apply Inj; congruence). assert (ds' = ds) by (apply Inj; congruence). assert (ys'' = ys) by (apply Inj; congruence). subst ys' ds' ys''. clear Ey' Edr' Ey''.
  assert (Hlen := Forall2_len Sm). assert (Roomy := @ys_roomy dy s c ys ds Hd Sm).
  destruct (@interpolate_lines E HS rf ys ds dy _ _ Hne Hlen (sampled_positive Hc Sm) Hi) as (k & m & Hm & Least & _ & Hmid & Lines).
  assert (Val : forall i y d, nth_error ys i = Some y -> nth_error ds i = Some d -> d = rho y).
  { intros i y d Hy Hd'. destruct (Forall2_nth Sm _ Hy) as (d1 & Hd1 & Hs). rewrite Hd' in Hd1. injection Hd1 as <-. destruct (sampled_roomy Hd Hs) as (fy & E1 & E2 & _). injection E1 as ->. injection E2 as ->. reflexivity. }
  assert (Adj : forall i y y', nth_error ys i = Some y -> nth_error ys (S i) = Some y' -> y <= y' /\ near dy s eta y y').
  { intros i y y' A B. split; [rewrite sorted_nth in Srt; apply (Srt i (S i)); auto|]. eapply path_nth; eauto. }
  assert (Pos := sampled_positive Hc Sm). rewrite Forall_forall in Pos. assert (Pm : 0 < m) by (apply Pos; eapply nth_error_In; eauto).
  assert (Hk : (k < List.length ys)%nat) by (rewrite Hlen; apply nth_error_Some; congruence). destruct (nth_error ys k) as [y0|] eqn:Ey0; [|apply nth_error_None in Ey0; lia]. cbn [option_map] in Hmid.
  assert (Disk : forall j v, roomy_fy dy v -> nth_error (c_fy col) j = Some (XFin v) -> nth_error (c_dr col) j = Some (XFin (rho v))).
  { intros j v Hv Hj. destruct (fx_roomy Hv) as [Exv Px]. assert (Pv := proj1 Hv).
    assert (Hxj : nth_error (c_fx col) j = Some (XFin (fx_of dy v))) by (rewrite Hfx, nth_error_map, Hj; cbn [option_map]; now rewrite Exv).
    destruct (disk_is_ellipse s Px Pv Hc) as (r & ic & t & Hp & _). destruct (Hdisk _ _ _ _ _ _ Hxj Hj Hp) as (A & _).
    assert (M := @major_radius (fx_of dy v) v s c Px ltac:(lra) Hc). rewrite Hp in M. cbn [fst] in M. rewrite A. injection M as ->. reflexivity. }
  assert (In_m : In m ds) by (eapply nth_error_In; eauto). destruct (Reach m F HF In_m Least) as [(d0 & Hd0 & R0) (dl & Hdl & Rl)].
  assert (Rm0 : roomy_fy dy y0) by (apply Roomy; eapply nth_error_In; eauto).
  assert (Em : m = rho y0) by (eapply Val; eauto).
  exists m. split; [rewrite Em; apply Disk; auto; unfold mid; exact Hmid|]. split; auto.
  assert (Pe : 0 <= c * eta).
  { assert (X := near_radius Hc (@near_refl n Hn dy s eta My H1y Ey y0)). eapply Rle_trans; [apply Rabs_pos|exact X]. }
  split.
  - intros HF1 y Ry. 
    destruct (nth_error ys 0) as [yf|] eqn:Eyf; [|apply nth_error_None in Eyf; lia]. destruct (nth_error ys (List.length ys - 1)) as [yl|] eqn:Eyl; [|apply nth_error_None in Eyl; lia].
    assert (Ef := Val _ _ _ Eyf Hd0). rewrite <- Hlen in Hdl. assert (El := Val _ _ _ Eyl Hdl).
    assert (Big : forall d, F <= d / m -> m < d). { intros d Hdm. assert (d = d / m * m) by (field; lra). nra. }
    assert (Rf : roomy_fy dy yf) by (apply Roomy; eapply nth_error_In; eauto).
    rewrite sorted_nth in Srt.
    destruct (Rle_lt_dec yf y) as [H1|H1]; [destruct (Rle_lt_dec y yl) as [H2|H2]|].
    + assert (Cl : exists i f, nth_error ys i = Some f /\ near dy s eta f y).
      { destruct (@between_neighbours ys y yf yl Eyf Eyl (conj H1 H2)) as [(i & f & e & A & B & C)|(i & A)].
        - exists i, f. split; auto. apply (@near_between dy s eta f e y); auto; [apply Roomy; eapply nth_error_In; eauto|eapply Adj; eauto].
        - exists i, y. split; auto. apply (@near_refl n Hn dy s eta My H1y Ey y). }
      destruct Cl as (i & f & Hf & Nf). apply (near_radius Hc) in Nf. assert (Hil : (i < List.length ds)%nat) by (rewrite <- Hlen; apply nth_error_Some; congruence).
      destruct (nth_error ds i) as [d|] eqn:Edi; [|apply nth_error_None in Edi; lia]. assert (Edv := Val _ _ _ Hf Edi). assert (m <= d) by (apply Least; eapply nth_error_In; eauto).
      rewrite <- Edv in Nf. revert Nf. unfold Rabs. destruct (Rcase_abs _); intros; lra.
    + assert (O := @radius_one_minimum dy s c y0 yl y Hc Rm0). assert (y0 <= yl) by (apply (Srt k (List.length ys - 1)%nat); auto; lia).
      specialize (O H0 ltac:(lra)). rewrite <- El, <- Em in O. assert (B := Big _ Rl). unfold Rmax in O. destruct (Rle_dec m (rho y)); lra.
    + assert (O := @radius_one_minimum dy s c y yf y0 Hc Ry). assert (yf <= y0) by (apply (Srt 0%nat k); auto; lia).
      specialize (O ltac:(lra) H0). rewrite <- Ef, <- Em in O. assert (B := Big _ R0). unfold Rmax in O. destruct (Rle_dec (rho y) m); lra.
  - intros j q Hj Hq kk Hkk. assert (Hq1 := Hr j q Hj Hq). destruct (Lines j q Hj Hq) as [(v & Hv & Bv) (u & Hu & Bu)].
    assert (Nr : forall i x, nth_error (rev (firstn (S k) ds)) i = Some x -> (i <= k)%nat /\ nth_error ds (k - i) = Some x) by (intros i x Hx; apply nth_rev_pre; [lia|auto]).
    assert (Ny : forall i x, nth_error (rev (firstn (S k) ys)) i = Some x -> (i <= k)%nat /\ nth_error ys (k - i) = Some x) by (intros i x Hx; apply nth_rev_pre; [lia|auto]).
    destruct Hkk as [-> | ->].
    + exists (rho v). split.
      * apply Disk; [|exact Hv]. destruct (@broken_line_between (map (fun d => d / m) (skipn k ds)) (skipn k ys) q v) as (f & h & Hf & _ & Hfv & _); auto.
        { rewrite map_length, !skipn_length, Hlen. reflexivity. }
        apply roomy_up with f; auto. apply Roomy. rewrite <- (firstn_skipn k ys). apply in_or_app. auto.
      * apply half_error with (ys := skipn k ys) (ds := skipn k ds) (F := F); auto.
        -- intros i y d A B. rewrite nth_error_skipn' in A, B. eapply Val; eauto.
        -- intros i y y' A B w Hw. rewrite nth_error_skipn' in A, B. replace (k + S i)%nat with (S (k + i)) in B by lia. destruct (Adj _ _ _ A B) as [Hle Hn'].
           apply (@near_between dy s eta y y' w); auto; [apply Roomy; eapply nth_error_In; eauto|]. destruct Hw; lra.
        -- rewrite nth_error_skipn', Nat.add_0_r. exact Hm.
        -- exists dl. split; auto. rewrite nth_error_skipn', skipn_length. replace (k + (List.length ds - k - 1))%nat with (List.length ds - 1)%nat by lia. auto.
    + exists (rho u). split.
      * apply Disk; [|exact Hu]. destruct (@broken_line_between (map (fun d => d / m) (rev (firstn (S k) ds))) (rev (firstn (S k) ys)) q u) as (f & h & Hf & _ & Hfv & _); auto.
        { rewrite map_length, !rev_length, !firstn_length, Hlen. reflexivity. }
        apply roomy_up with f; auto. apply Roomy. rewrite <- (firstn_skipn (S k) ys). apply in_or_app. left. now apply in_rev.
      * apply half_error with (ys := rev (firstn (S k) ys)) (ds := rev (firstn (S k) ds)) (F := F); auto.
        -- intros i y d A B. apply Ny in A as [_ A]. apply Nr in B as [_ B]. eapply Val; eauto.
        -- intros i y y' A B w Hw. apply Ny in A as [L1 A]. apply Ny in B as [L2 B]. replace (k - i)%nat with (S (k - S i)) in A by lia. destruct (Adj _ _ _ B A) as [Hle Hn'].
           apply near_sym. apply (@near_between dy s eta y' y w); auto; [apply Roomy; eapply nth_error_In; eauto|]. destruct Hw; lra.
        -- assert (Lr : List.length (rev (firstn (S k) ds)) = S k) by (rewrite rev_length, firstn_length; lia). destruct (nth_error (rev (firstn (S k) ds)) 0) as [x|] eqn:Ex0; [|apply nth_error_None in Ex0; lia].
           apply Nr in Ex0 as [_ Ex0]. rewrite Nat.sub_0_r in Ex0. congruence.
        -- exists d0. split; auto. assert (Lr : List.length (rev (firstn (S k) ds)) = S k) by (rewrite rev_length, firstn_length; lia). rewrite Lr. destruct (nth_error (rev (firstn (S k) ds)) (S k - 1)) as [x|] eqn:Ex0; [|apply nth_error_None in Ex0; lia].
           apply Nr in Ex0 as [_ Ex0]. replace (k - (S k - 1))%nat with 0%nat in Ex0 by lia. congruence.
Qed.
End C.
