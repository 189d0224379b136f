(** Building in exact arithmetic: the scale factor search and the interpolation over the reals. *)
From Coq Require Import ZArith Reals List Bool String Lia Lra Psatz.
From Verif Require Import Num NumP Py SpecNum Validate ValidateP Ring RingP RingSystem FS GridParams SpecGrid GridParamsP GridParamsXP
  Names GridProp SpecProp GridPropP Geometry XLibm SpecGeom GeomP Build SpecBuild BuildP StretchP.
Import ListNotations.
Set Implicit Arguments.
Local Open Scope R_scope.

(** *** the radius of a disk *)
Lemma d_major_ge_x fx fy s c : 0 < fx -> 0 <= fy -> 0 < c -> fx * c <= d_major fx fy s c.
Proof.
  intros Hx Hy Hc. assert (B := proj2 (@r2_bounds fx fy s c Hc 0)). unfold d_major.
  rewrite <- (sqrt_square (fx * c)) by nra. apply sqrt_le_1_alt. eapply Rle_trans; [|exact B].
  unfold r2, px, py. rewrite cos_0, sin_0. right. ring.
Qed.
Lemma d_major_ge_y fx fy s c : 0 < fx -> 0 <= fy -> 0 < c -> fy * c <= d_major fx fy s c.
Proof.
  intros Hx Hy Hc. assert (B := proj2 (@r2_bounds fx fy s c Hc (PI / 2))). unfold d_major.
  rewrite <- (sqrt_square (fy * c)) by nra. apply sqrt_le_1_alt. eapply Rle_trans; [|exact B].
  unfold r2, px, py. rewrite cos_PI2, sin_PI2. assert (0 <= (s * fy * c) * (s * fy * c)) by apply Rle_0_sqr. nra.
Qed.
Lemma d_major_one s c : 0 < c -> d_major 1 1 s c <= (Rabs s + 1) * c.
Proof.
  intros Hc. assert (As := Rabs_pos s). unfold d_major.
  rewrite <- (sqrt_square ((Rabs s + 1) * c)) by nra. apply sqrt_le_1_alt.
  set (th := _ + PI / 2). unfold r2, px, py. assert (E := sin2_cos2 th). unfold Rsqr in E.
  set (u := cos th) in *. set (v := sin th) in *.
  assert (Ss : Rabs s * Rabs s = s * s) by (unfold Rabs; destruct (Rcase_abs s); ring).
  assert (Hs : - Rabs s <= s <= Rabs s) by (unfold Rabs; destruct (Rcase_abs s); lra).
  assert (Huv : - 1 <= 2 * (u * v) <= 1) by (split; assert (0 <= (u + v) * (u + v)) by apply Rle_0_sqr; assert (0 <= (u - v) * (u - v)) by apply Rle_0_sqr; nra).
  assert (Hp : - Rabs s <= s * (2 * (u * v))) by (assert (Rabs (s * (2 * (u * v))) <= Rabs s);
    [rewrite Rabs_mult; assert (Rabs (2 * (u * v)) <= 1) by (apply Rabs_le; lra); nra|];
    assert (Q := Rle_abs (- (s * (2 * (u * v))))); rewrite Rabs_Ropp in Q; lra).
  replace (_ + _) with (c * c * (u * u - s * (2 * (u * v)) + s * s * (v * v) + v * v)) by ring.
  replace ((Rabs s + 1) * c * ((Rabs s + 1) * c)) with (c * c * (Rabs s * Rabs s + 2 * Rabs s + 1)) by ring.
  apply Rmult_le_compat_l; [nra|]. rewrite Ss. assert (v * v <= 1) by nra. assert (s * s * (v * v) <= s * s) by nra. lra.
Qed.

Lemma major_radius fx fy s c : 0 < fx -> 0 <= fy -> 0 < c ->
  fst (fst (disk_parameters Libm_xr (XFin fx) (XFin fy) (XFin s) (XFin c))) = XFin (d_major fx fy s c).
Proof.
  intros Hx Hy Hc. unfold disk_parameters. rewrite vertex_xr, covertex_xr, !xy_xr. cbn [m_hypot Libm_xr x_hypot].
  change (sqrt (px fx fy s c (th_of fx fy s) * px fx fy s c (th_of fx fy s) + py fy c (th_of fx fy s) * py fy c (th_of fx fy s))) with (d_minor fx fy s c).
  change (sqrt (px fx fy s c (th_of fx fy s + PI / 2) * px fx fy s c (th_of fx fy s + PI / 2) + py fy c (th_of fx fy s + PI / 2) * py fy c (th_of fx fy s + PI / 2))) with (d_major fx fy s c).
  assert (L := @minor_le fx fy s c Hc). cbn [fst].
  unfold np_max. cbn [n_isnan n_le Num_xr x_isnan]. unfold x_le. cbn [x_lt x_eq]. destruct (Rlt_dec _ _); [lra|]. cbn [orb]. destruct (Req_EM_T _ _) as [E|]; [rewrite E|]; reflexivity.
Qed.

(** *** samples at scale factors of at least one are finite *)
Lemma sqpos d : d <> 0 -> 0 < d * d.
Proof. apply Rlt_0_sqr. Qed.
Lemma fy_ge1 fx dy : 1 <= fx -> exists fy, determine_fy (XFin fx) (XFin dy) = XFin fy /\ 0 <= fy.
Proof.
  intros H. rewrite fy_xr. cbn zeta. destruct (Req_EM_T dy 0) as [->|Hd].
  - destruct (Req_EM_T fx 1); [exists 1; split; auto; lra|]. destruct (Rle_dec _ 0); [exfalso; assert (1 < fx) by lra; nra|]. exists 0. split; auto; lra.
  - assert (Hz := sqpos Hd). assert (H1 : 1 <= fx * fx) by nra. assert (H2 : 1 * (1 + 4 * (dy * dy)) <= fx * fx * (1 + 4 * (dy * dy))) by (apply Rmult_le_compat_r; lra).
    destruct (Rle_dec _ 0); [exfalso; lra|]. eexists; split; [reflexivity|]. apply sqrt_pos.
Qed.
Lemma fy_one dy : determine_fy (XFin 1) (XFin dy) = XFin 1.
Proof.
  rewrite fy_xr. cbn zeta. destruct (Req_EM_T dy 0) as [->|Hd]; [destruct (Req_EM_T 1 1); [reflexivity|lra]|].
  assert (0 < dy * dy) by (apply sqpos; auto). destruct (Rle_dec _ 0); [exfalso; nra|]. f_equal.
  replace (4 * (1 * 1) * (dy * dy) / _) with 1 by (field; nra). apply sqrt_1.
Qed.
Lemma fx_ge1 fy dy : 1 <= fy -> exists fx, determine_fx (XFin fy) (XFin dy) = XFin fx /\ 0 < fx.
Proof.
  intros H. rewrite fx_xr. cbn zeta. assert (Hz := Rle_0_sqr dy). unfold Rsqr in Hz. assert (H1 : 1 <= fy * fy) by nra.
  assert (H2 : 1 * (1 + 4 * (dy * dy)) <= fy * fy * (1 + 4 * (dy * dy))) by (apply Rmult_le_compat_r; lra).
  destruct (Rle_dec _ 0); [exfalso; lra|]. eexists; split; [reflexivity|].
  apply Rmult_lt_0_compat; [|lra]. apply sqrt_lt_R0. apply Rdiv_lt_0_compat; lra.
Qed.

Lemma spaced_range l a b n : equally_spaced l a b n -> (2 <= n)%nat -> a <= b -> forall x, In x l -> exists q, x = XFin q /\ a <= q <= b.
Proof.
  intros [Hl H] Hn Hab x Hx. apply In_nth_error in Hx as [i Hi]. assert (i < n)%nat by (rewrite <- Hl; apply nth_error_Some; congruence).
  rewrite H in Hi by auto. injection Hi as <-. eexists; split; [reflexivity|].
  assert (P : 0 < INR (n - 1)) by (apply lt_0_INR; lia). assert (Q : 0 <= INR i <= INR (n - 1)) by (split; [apply pos_INR|apply le_INR; lia]).
  assert (0 <= INR i / INR (n - 1) <= 1).
  { split; [apply Rmult_le_pos; [lra|left; apply Rinv_0_lt_compat; auto]|]. apply (Rmult_le_reg_r (INR (n - 1))); auto. unfold Rdiv. rewrite Rmult_assoc, Rinv_l by lra. lra. }
  unfold spaced. replace (INR i * ((b - a) / INR (n - 1))) with (INR i / INR (n - 1) * (b - a)) by (field; lra). nra.
Qed.

(** *** the loops succeed *)
Definition fin (x : xr) : Prop := exists r, x = XFin r.
Definition positive (x : xr) : Prop := exists r, x = XFin r /\ 0 < r.

Lemma nan_min_positive l m : nan_min l = Ok m -> Forall positive l ->
  positive m /\ forall r, In (XFin r) l -> exists q, m = XFin q /\ q <= r.
Proof.
  intros H Hp. rewrite Forall_forall in Hp. apply nan_min_spec in H as [Hne H]. destruct H as [[H _]|(Hin & Hn & Hall)].
  - exfalso. destruct l as [|x l]; [congruence|]. destruct (Hp x (or_introl eq_refl)) as (r & -> & _). specialize (H _ (or_introl eq_refl)). discriminate H.
  - split; [apply Hp; auto|]. intros r Hr. destruct (Hp _ Hin) as (q & -> & _). exists q. split; auto.
    specialize (Hall _ Hr). cbn in Hall. destruct Hall as [Hlt|[Heq _]]; try (cbn in Hlt; lra); try discriminate. injection Heq as ->. lra.
Qed.

Lemma num100 (M : R) : n_mul (num2 100) (XFin M) = XFin (100 * M).
Proof. reflexivity. Qed.

Lemma stretch_succeeds (new : Z -> res (list xr * list xr)) join outer (M F B c : R) kmax :
  (forall b d x, In x (join b d) <-> In x b \/ In x d) ->
  (forall k, (1 <= k)%Z -> exists a b r, new k = Ok (a, b) /\ Forall fin a /\ Forall positive b /\ outer b = Some (XFin r) /\ In (XFin r) b /\ IZR k * M * c <= r) ->
  0 < c -> 0 < B -> IZR kmax <= 100 * M -> F * B <= IZR kmax * M * c ->
  forall f k fys drs, (1 <= k <= kmax)%Z -> (kmax - k < Z.of_nat f)%Z -> Forall fin fys -> Forall positive drs ->
    (exists q, (In (XFin q) drs \/ exists a b, new k = Ok (a, b) /\ In (XFin q) b) /\ q <= B) ->
    exists fys' drs', stretch f new join outer (XFin M) (XFin F) k fys drs = Ok (fys', drs') /\
      Forall fin fys' /\ Forall positive drs' /\ (exists q, In (XFin q) drs' /\ q <= B).
Proof.
  intros Hj Hnew Hc HB Hk100 HF. induction f; intros k fys drs Hk Hf Hfy Hdr (q & Hq & HqB); [lia|].
  destruct (Hnew k) as (a & b & r & En & Ha & Hb & Ho & Hin & Hr); [lia|]. cbn [stretch]. rewrite En. cbn [bind fst snd].
  assert (Hfy' : Forall fin (join a fys)). { rewrite Forall_forall in *. intros x Hx. apply Hj in Hx as [Hx|Hx]; auto. }
  assert (Hdr' : Forall positive (join b drs)). { rewrite Forall_forall in *. intros x Hx. apply Hj in Hx as [Hx|Hx]; auto. }
  assert (Hq' : In (XFin q) (join b drs)).
  { apply Hj. destruct Hq as [Hq|(a' & b' & En' & Hq)]; auto. rewrite En in En'. injection En' as <- <-. auto. }
  destruct (nan_min_total (l := join b drs)) as [m Hm]; [intros Hnil; rewrite Hnil in Hq'; destruct Hq'|].
  rewrite Hm. cbn [bind]. rewrite Ho. destruct (nan_min_positive Hm Hdr') as [(q0 & -> & Hq0) Hle].
  destruct (Hle _ Hq') as (q1 & E1 & Hq1). injection E1 as <-.
  cbn [n_div n_lt Num_xr]. rewrite xdiv by lra. cbn [x_lt].
  assert (Hk100' : forall j, (j <= kmax)%Z -> n_gt (n_ofZ j) (n_mul (num2 100) (XFin M)) = false).
  { intros j Hjk. rewrite num100. unfold n_gt. cbn [n_lt Num_xr n_ofZ x_lt]. destruct (Rlt_dec _ _); auto. apply IZR_le in Hjk. lra. }
  destruct (Rlt_dec (r / q0) F) as [Hlt|Hge].
  - assert (Hlast : (k + 1 <= kmax)%Z).
    { destruct (Z.eq_dec k kmax) as [->|]; [|lia]. exfalso. apply (Rmult_lt_compat_r q0) in Hlt; auto. unfold Rdiv in Hlt. rewrite Rmult_assoc, Rinv_l, Rmult_1_r in Hlt by lra.
      destruct (Rle_dec 0 F) as [HF0|HF0].
      - assert (F * q0 <= F * B) by (apply Rmult_le_compat_l; lra). lra.
      - assert (0 < r) by (rewrite Forall_forall in Hb; destruct (Hb _ Hin) as (r' & Er & ?); injection Er as <-; auto). nra. }
    rewrite Hk100' by lia. apply IHf; auto; try lia. exists q. split; [left; auto|lra].
  - rewrite Hk100' by lia. exists (join a fys), (join b drs). split; auto. split; auto. split; auto. exists q. split; auto.
Qed.

Section Rounds.
Context (E : env xr) (HE : e_libm E = Libm_xr).
Context (nf : pyval xr) (n : nat) (Hnf : num_index nf = Ok n) (Hn : (2 <= n)%nat).
Context (dy s c : R) (Hc : 0 < c).

Lemma checks_ok : forall fx fy, disk_arrays E fx fy (XFin s) (XFin c) = Ok (map (fun p => disk_parameters Libm_xr (fst p) (snd p) (XFin s) (XFin c)) (combine fx fy)).
Proof.
  intros. unfold disk_arrays. rewrite HE.
  assert (H1 : number (PNpFloat (XFin s)) false m_inf p_inf false = Ok (PNpFloat (XFin s))).
  { apply number_np. }
  assert (H2 : number (PNpFloat (XFin c)) false (PInt 0) p_inf false = Ok (PNpFloat (XFin c))).
  { apply number_ok; [exact I|cbn; lia|exact I|]. split; auto. split; [right; split; [reflexivity|constructor]|]. split; [left; constructor|]. split; [right; constructor|].
    unfold respects. cbn. repeat split; try tauto; lra. }
  rewrite H1, H2. reflexivity.
Qed.

Lemma array_range M k : 1 <= M -> (1 <= k)%Z -> exists l, fxy_array nf (XFin M) k = Ok l /\
  (forall x, In x l -> exists q, x = XFin q /\ 1 <= q) /\ nth_error (rev l) 0 = Some (XFin (IZR k * M)) /\ (k = 1%Z -> In (XFin 1) l).
Proof.
  intros HM Hk. unfold fxy_array. rewrite Hnf. cbn [bind]. eexists; split; [reflexivity|].
  set (lo := if Z.eqb k 1 then 1 else IZR (k - 1) * M).
  replace (if Z.eqb k 1 then n_one else n_mul (n_ofZ (k - 1)) (XFin M)) with (XFin lo) by (unfold lo; destruct (Z.eqb k 1); reflexivity).
  change (n_mul (n_ofZ k) (XFin M)) with (XFin (IZR k * M)).
  assert (Hsp := @linspace_xr lo (IZR k * M) n Hn).
  assert (Hk1 : 1 <= IZR k) by (apply IZR_le in Hk; auto).
  assert (Hlo : 1 <= lo <= IZR k * M).
  { unfold lo. destruct (Z.eqb_spec k 1); [nra|]. assert (1 <= IZR (k - 1)) by (apply (IZR_le 1); lia). rewrite minus_IZR in *. nra. }
  split; [|split].
  - intros x Hx. destruct (@spaced_range _ _ _ _ Hsp Hn (proj2 Hlo) x Hx) as (q & -> & Hq). exists q. split; auto. lra.
  - destruct Hsp as [Hl Hi]. rewrite nth_error_rev' by (rewrite Hl; lia). rewrite Hl, Hi by lia. f_equal. f_equal. unfold spaced.
    replace (n - 1 - 0)%nat with (n - 1)%nat by lia. field. apply not_0_INR. lia.
  - intros ->. destruct Hsp as [Hl Hi]. eapply nth_error_In with (n := 0%nat). rewrite Hi by lia. f_equal. f_equal. unfold spaced, lo. cbn [Z.eqb Pos.eqb INR]. ring.
Qed.

Lemma combine_map_r {A B} (f : A -> B) l : combine l (map f l) = map (fun x => (x, f x)) l.
Proof. induction l; cbn; congruence. Qed.
Lemma combine_map_l {A B} (f : A -> B) l : combine (map f l) l = map (fun x => (f x, x)) l.
Proof. induction l; cbn; congruence. Qed.

Lemma round_h M k : 1 <= M -> (1 <= k)%Z -> exists a b r, new_horizontal E nf (XFin M) (XFin dy) (XFin s) (XFin c) k = Ok (a, b) /\
  Forall fin a /\ Forall positive b /\ first_opt b = Some (XFin r) /\ In (XFin r) b /\ IZR k * M * c <= r.
Proof.
  intros HM Hk. destruct (array_range HM Hk) as (l & El & Hl & Hlast & _). unfold new_horizontal. rewrite El. cbn [bind]. rewrite checks_ok. cbn [bind].
  rewrite <- map_rev, combine_map_r. unfold radii. rewrite !map_map. cbn [fst snd].
  assert (Hl' : forall x, In x (rev l) -> exists q, x = XFin q /\ 1 <= q) by (intros x Hx; apply Hl; now apply in_rev).
  assert (Hdisk : forall q, 1 <= q -> exists r, fst (fst (disk_parameters Libm_xr (XFin q) (determine_fy (XFin q) (XFin dy)) (XFin s) (XFin c))) = XFin r /\ q * c <= r).
  { intros q Hq. destruct (fy_ge1 dy Hq) as (y & Ey & Hy). rewrite Ey. rewrite major_radius by lra. eexists; split; [reflexivity|]. apply d_major_ge_x; lra. }
  destruct (rev l) as [|x0 l']; [discriminate|]. cbn [nth_error] in Hlast. injection Hlast as ->.
  assert (Hlast : 1 <= IZR k * M) by (apply IZR_le in Hk; nra).
  destruct (Hdisk _ Hlast) as (r & Er & Hr).
  eexists _, _, r. split; [reflexivity|]. repeat split.
  - apply Forall_forall. intros x Hx. apply in_map_iff in Hx as (z & <- & Hz). destruct (Hl' _ Hz) as (q & -> & Hq).
    destruct (fy_ge1 dy Hq) as (y & -> & _). now exists y.
  - apply Forall_forall. intros x Hx. apply in_map_iff in Hx as (z & <- & Hz). destruct (Hl' _ Hz) as (q & -> & Hq).
    destruct (Hdisk q Hq) as (r' & -> & Hr'). exists r'. split; auto. nra.
  - cbn [map first_opt]. now rewrite Er.
  - cbn [map]. left. exact Er.
  - exact Hr.
Qed.
Lemma round_h_small M : 1 <= M -> exists a b q, new_horizontal E nf (XFin M) (XFin dy) (XFin s) (XFin c) 1 = Ok (a, b) /\ In (XFin q) b /\ q <= (Rabs s + 1) * c.
Proof.
  intros HM. destruct (@array_range M 1 HM) as (l & El & Hl & _ & H1); [lia|]. unfold new_horizontal. rewrite El. cbn [bind]. rewrite checks_ok. cbn [bind].
  rewrite <- map_rev, combine_map_r. unfold radii. rewrite !map_map. cbn [fst snd].
  eexists _, _, (d_major 1 1 s c). split; [reflexivity|]. split; [|now apply d_major_one].
  apply in_map_iff. exists (XFin 1). split; [|rewrite <- in_rev; auto]. rewrite fy_one. apply major_radius; lra.
Qed.
Lemma round_v M k : 1 <= M -> (1 <= k)%Z -> exists a b r, new_vertical E nf (XFin M) (XFin dy) (XFin s) (XFin c) k = Ok (a, b) /\
  Forall fin a /\ Forall positive b /\ final_opt b = Some (XFin r) /\ In (XFin r) b /\ IZR k * M * c <= r.
Proof.
  intros HM Hk. destruct (array_range HM Hk) as (l & El & Hl & Hlast & _). unfold new_vertical. rewrite El. cbn [bind]. rewrite checks_ok. cbn [bind].
  rewrite combine_map_l. unfold radii. rewrite !map_map. cbn [fst snd].
  assert (Hdisk : forall q, 1 <= q -> exists r, fst (fst (disk_parameters Libm_xr (determine_fx (XFin q) (XFin dy)) (XFin q) (XFin s) (XFin c))) = XFin r /\ q * c <= r).
  { intros q Hq. destruct (fx_ge1 dy Hq) as (y & Ey & Hy). rewrite Ey. rewrite major_radius by lra. eexists; split; [reflexivity|]. apply d_major_ge_y; lra. }
  assert (Hlast1 : 1 <= IZR k * M) by (apply IZR_le in Hk; nra).
  destruct (Hdisk _ Hlast1) as (r & Er & Hr).
  eexists _, _, r. split; [reflexivity|]. repeat split.
  - apply Forall_forall. intros x Hx. destruct (Hl _ Hx) as (q & -> & Hq). now exists q.
  - apply Forall_forall. intros x Hx. apply in_map_iff in Hx as (z & <- & Hz). destruct (Hl _ Hz) as (q & -> & Hq).
    destruct (Hdisk q Hq) as (r' & -> & Hr'). exists r'. split; auto. nra.
  - unfold final_opt. rewrite <- map_rev, first_opt_nth, nth_error_map, Hlast. cbn [option_map]. now rewrite Er.
  - apply in_map_iff. exists (XFin (IZR k * M)). split; auto. apply in_rev. eapply nth_error_In; eauto.
  - exact Hr.
Qed.

(** the loops reach the maximum rf: enough room in both directions for the factor [F] *)
Definition roomy (M F : R) (f : nat) : Prop := 1 <= M /\ exists k, (1 <= k)%Z /\ (k <= Z.of_nat f)%Z /\ IZR k <= 100 * M /\ F * (Rabs s + 1) <= IZR k * M.

Theorem loops_succeed Mx My F : roomy Mx F (e_fuel E) -> roomy My F (e_fuel E) ->
  exists h v, extend_horizontally E nf (XFin Mx) (XFin F) (XFin dy) (XFin s) (XFin c) [] [] = Ok h /\
    extend_vertically E nf (XFin My) (XFin F) (XFin dy) (XFin s) (XFin c) (fst h) (snd h) = Ok v /\
    Forall fin (fst v) /\ Forall positive (snd v) /\ snd v <> [].
Proof.
  intros (HMx & kx & Hkx & Hfx & H100x & HFx) (HMy & ky & Hky & Hfy & H100y & HFy). assert (As := Rabs_pos s).
  assert (HB : 0 < (Rabs s + 1) * c) by nra.
  destruct (@round_h_small Mx HMx) as (a0 & b0 & q0 & E0 & Hq0 & HqB).
  assert (Hh : exists ys rs, extend_horizontally E nf (XFin Mx) (XFin F) (XFin dy) (XFin s) (XFin c) [] [] = Ok (ys, rs) /\ Forall fin ys /\ Forall positive rs /\ (exists q, In (XFin q) rs /\ q <= (Rabs s + 1) * c)).
  { unfold extend_horizontally. apply (@stretch_succeeds (new_horizontal E nf (XFin Mx) (XFin dy) (XFin s) (XFin c)) (fun new old => new ++ old) first_opt Mx F ((Rabs s + 1) * c) c kx); auto; try lia.
    - intros. apply in_app_iff.
    - intros k Hk. apply round_h; auto.
    - replace (F * ((Rabs s + 1) * c)) with (F * (Rabs s + 1) * c) by ring. apply Rmult_le_compat_r; lra.
    - exists q0. split; auto. right. exists a0, b0. auto. }
  destruct Hh as (ys & rs & Eh & Hys & Hrs & q & Hq & HqB').
  assert (Hv : exists ys' rs', extend_vertically E nf (XFin My) (XFin F) (XFin dy) (XFin s) (XFin c) ys rs = Ok (ys', rs') /\ Forall fin ys' /\ Forall positive rs' /\ (exists q, In (XFin q) rs' /\ q <= (Rabs s + 1) * c)).
  { unfold extend_vertically. apply (@stretch_succeeds (new_vertical E nf (XFin My) (XFin dy) (XFin s) (XFin c)) (fun new old => old ++ new) final_opt My F ((Rabs s + 1) * c) c ky); auto; try lia.
    - intros. rewrite in_app_iff. tauto.
    - intros k Hk. apply round_v; auto.
    - replace (F * ((Rabs s + 1) * c)) with (F * (Rabs s + 1) * c) by ring. apply Rmult_le_compat_r; lra.
    - exists q. split; auto. }
  destruct Hv as (ys' & rs' & Ev & Hys' & Hrs' & q' & Hq' & _). exists (ys, rs), (ys', rs'). cbn [fst snd]. split; auto. split; auto. split; auto. split; auto.
  intros ->. destruct Hq'.
Qed.
End Rounds.
