(** Proofs about the drawing of ring systems. *)
From Coq Require Import ZArith Reals List Bool String Lra Lia.
From Verif Require Import Num NumP Py Validate XLibm SpecNum ValidateP Ring RingP RingSystem SpecRing RingSplitP RingMoreP RingPatchP GridProp GridParamsP RingDraw SpecDraw.
Import ListNotations.
Set Implicit Arguments.
Local Open Scope list_scope.

Section P.
Context {T : Type} {NT : Num T} {LT : NumLaws T}.
Notation pyval := (pyval T).
Variable L : Libm T.
Variable circle : list (T * T).

Lemma number_default_ok (v : pyval) : numberlike v -> number v false m_inf p_inf false = Ok v.
Proof. intros H. apply number_default. auto. Qed.
Lemma number_default_err (v : pyval) : ~ numberlike v -> number v false m_inf p_inf false = Err TypeError.
Proof. intros H. unfold number. rewrite ntype_false_err by auto. reflexivity. Qed.
Lemma numberlike_dec (v : pyval) : numberlike v \/ ~ numberlike v.
Proof.
  destruct (number v false m_inf p_inf false) as [w|e] eqn:E.
  - left. apply number_default in E. tauto.
  - right. intros H. rewrite number_default_ok in E by auto. discriminate.
Qed.
(** arguments accepted *)
Lemma string_dec (v : pyval) : (exists c, v = PStr c) \/ string_v v = Err TypeError.
Proof. destruct v; cbn; eauto. Qed.

Lemma ring_patches_ok (l : list (ring T)) x y c : numberlike x -> numberlike y ->
  ring_patches L circle l x y (PStr c) = Ok (map (fun r => Annulus (patch_vertices L r (num_of x, num_of y) circle) (patch_opacity r) c) l).
Proof.
  intros Hx Hy. induction l as [|r l IH]; [reflexivity|]. cbn [ring_patches]. rewrite IH. unfold get_patch.
  rewrite !number_default_ok by auto. reflexivity.
Qed.
Lemma get_patches_ok h s x y c : numberlike x -> numberlike y ->
  get_patches L circle h s x y (PStr c) =
  Ok (Disk (num_of x, num_of y) (s_planet s) c ::
      map (fun r => Annulus (patch_vertices L r (num_of x, num_of y) circle) (n_sub n_one (r_tr r)) c) (rings_of h s)).
Proof.
  intros Hx Hy. unfold get_patches. rewrite !number_default_ok by auto. cbn [bind string_v].
  rewrite ring_patches_ok by auto. reflexivity.
Qed.
Lemma get_patches_err h s x y v : ~ (numberlike x /\ numberlike y /\ exists c, v = PStr c) ->
  get_patches L circle h s x y v = Err TypeError.
Proof.
  intros H. unfold get_patches.
  destruct (numberlike_dec x) as [Hx|Hx]; [|now rewrite number_default_err].
  rewrite (number_default_ok Hx). cbn [bind].
  destruct (numberlike_dec y) as [Hy|Hy]; [|now rewrite number_default_err].
  rewrite (number_default_ok Hy). cbn [bind].
  destruct (string_dec v) as [[c ->]|E]; [exfalso; apply H; eauto|]. now rewrite E.
Qed.
Theorem get_patches_iff h s x y v ps :
  get_patches L circle h s x y v = Ok ps <->
  numberlike x /\ numberlike y /\ exists c, v = PStr c /\
  ps = Disk (num_of x, num_of y) (s_planet s) c ::
       map (fun r => Annulus (patch_vertices L r (num_of x, num_of y) circle) (n_sub n_one (r_tr r)) c) (rings_of h s).
Proof.
  split.
  - intros H. destruct (numberlike_dec x) as [Hx|Hx]; [|rewrite get_patches_err in H by tauto; discriminate].
    destruct (numberlike_dec y) as [Hy|Hy]; [|rewrite get_patches_err in H by tauto; discriminate].
    destruct (string_dec v) as [[c ->]|E].
    + rewrite get_patches_ok in H by auto. inversion H. eauto 6.
    + rewrite get_patches_err in H; [discriminate|]. intros (_ & _ & c & ->). discriminate.
  - intros (Hx & Hy & c & -> & ->). now apply get_patches_ok.
Qed.
Theorem get_patches_fails h s x y v e :
  get_patches L circle h s x y v = Err e <-> e = TypeError /\ ~ (numberlike x /\ numberlike y /\ exists c, v = PStr c).
Proof.
  split.
  - intros H. destruct (numberlike_dec x) as [Hx|Hx]; [|rewrite get_patches_err in H by tauto; inversion H; tauto].
    destruct (numberlike_dec y) as [Hy|Hy]; [|rewrite get_patches_err in H by tauto; inversion H; tauto].
    destruct (string_dec v) as [[c ->]|E].
    + rewrite get_patches_ok in H by auto. discriminate.
    + assert (N : ~ (numberlike x /\ numberlike y /\ exists c, v = PStr c)) by (intros (_ & _ & c & ->); discriminate).
      rewrite get_patches_err in H by auto. inversion H; auto.
  - intros [-> H]. now apply get_patches_err.
Qed.

(** plot: arguments refused *)
Theorem plot_refused cur h s ax x y v a' e :
  plot L circle cur h s ax x y v = (a', Err e) -> s_rings s <> [] ->
  e = TypeError /\ (ax = Some EOther /\ a' = None \/
    ~ (numberlike x /\ numberlike y /\ exists c, v = PStr c) /\ a' = Some (match ax with Some (EIs a) => a | _ => cur end)).
Proof.
  unfold plot. intros H N. destruct ax as [[a|]|]; cbn [class_arg] in H.
  2: { inversion H; auto. }
  all: destruct (get_patches L circle h s x y v) as [ps|e1] eqn:E;
    [|apply get_patches_fails in E; destruct E as [-> E]; inversion H; auto].
  all: destruct (plot_limits h s (num_of x) (num_of y)) as [lim|e2] eqn:E2; [discriminate|];
    exfalso; apply N; apply (plot_spec h s (num_of x) (num_of y)); rewrite E2; f_equal;
    revert E2; unfold plot_limits; destruct (rev _); congruence.
Qed.
(** plot of a system with rings *)
Theorem plot_drawn cur h s ax x y c : ax <> Some EOther -> numberlike x -> numberlike y -> s_rings s <> [] ->
  exists ps lim, get_patches L circle h s x y (PStr c) = Ok ps /\ plot_limits h s (num_of x) (num_of y) = Ok lim /\
  plot L circle cur h s ax x y (PStr c) =
    (Some (mkAxes (a_patches (match ax with Some (EIs a) => a | _ => cur end) ++ ps) (Some ("$x [R_*]$"%string, "$y [R_*]$"%string)) (Some lim)), Ok tt).
Proof.
  intros Ha Hx Hy N. destruct (plot_limits h s (num_of x) (num_of y)) as [lim|e] eqn:E.
  - do 2 eexists. split; [apply get_patches_ok; auto|]. split; [reflexivity|].
    unfold plot. rewrite get_patches_ok, E by auto. destruct ax as [[a|]|]; [|congruence|]; reflexivity.
  - exfalso. apply N. apply (plot_spec h s (num_of x) (num_of y)). rewrite E. f_equal.
    revert E. unfold plot_limits. destruct (rev _); congruence.
Qed.
(** plot of a system without rings: the planet is drawn before the exception *)
Theorem plot_empty cur h s ax x y c : ax <> Some EOther -> numberlike x -> numberlike y -> s_rings s = [] ->
  let a := match ax with Some (EIs a) => a | _ => cur end in
  plot L circle cur h s ax x y (PStr c) =
    (Some (mkAxes (a_patches a ++ [Disk (num_of x, num_of y) (s_planet s) c]) (Some ("$x [R_*]$"%string, "$y [R_*]$"%string)) (a_limits a)), Err IndexError).
Proof.
  intros Ha Hx Hy N a. pose proof (proj2 (plot_spec h s (num_of x) (num_of y)) N) as E.
  unfold plot. rewrite get_patches_ok, E by auto. unfold rings_of. rewrite N. unfold a.
  destruct ax as [[b|]|]; [|congruence|]; reflexivity.
Qed.
End P.

(** exact arithmetic: what the window shows *)
Local Open Scope R_scope.
Lemma last_widest (l : list (ring xr)) : ordered l -> (forall r, In r l -> real_ring r) ->
  forall l' z r, l = l' ++ [z] -> In r l -> xle (r_out r) (r_out z).
Proof.
  intros H. induction H as [|r0|r0 s l Hle Ho IH]; intros HR l' z r E Hin.
  - destruct Hin.
  - destruct l' as [|? [|]]; inversion E; subst. destruct Hin as [<-|[]].
    destruct (HR z (or_introl eq_refl)) as (i & o & t & inc & tilt & -> & _). cbn. apply xle_fin. lra.
  - destruct l' as [|q l']; [discriminate|]. inversion E as [[E1 E2]]. subst q.
    assert (IHs : forall r, In r (s :: l) -> xle (r_out r) (r_out z)).
    { intros r' Hr'. eapply IH; [|exact E2|exact Hr']. intros; apply HR; now right. }
    destruct Hin as [<-|Hin]; [|now apply IHs].
    specialize (IHs s (or_introl eq_refl)).
    destruct (HR r0 (or_introl eq_refl)) as (i & o & t & inc & tilt & -> & Hio).
    destruct (HR s (or_intror (or_introl eq_refl))) as (i2 & o2 & t2 & inc2 & tilt2 & -> & Hio2).
    assert (Hz : real_ring z) by (apply HR; rewrite E; apply in_or_app; right; now left).
    destruct Hz as (i3 & o3 & t3 & inc3 & tilt3 & -> & Hio3).
    cbn [r_out r_in] in *. cbn in Hle. destruct Hle as [Hle|[Hle _]], IHs as [K|[K _]]; cbn in Hle, K.
    all: try (inversion Hle; subst). all: try (inversion K; subst). all: apply xle_fin; lra.
Qed.

Lemma sq_bound (u o : R) : 0 <= o -> u * u <= o * o -> - o <= u <= o.
Proof.
  intros Ho H. split.
  - destruct (Rle_or_lt (- o) u) as [A|A]; auto. exfalso.
    assert (0 < (- o - u) * (o - u)) by (apply Rmult_lt_0_compat; lra). lra.
  - destruct (Rle_or_lt u o) as [A|A]; auto. exfalso.
    assert (0 < (u - o) * (u + o)) by (apply Rmult_lt_0_compat; lra). lra.
Qed.
Lemma ellipse_box cx cy a k phi th : 0 <= a -> -1 <= k <= 1 ->
  let p := ellipse_point cx cy a (a * k) phi th in
  cx - a <= fst p <= cx + a /\ cy - a <= snd p <= cy + a.
Proof.
  intros Ha Hk p.
  assert (P := sin2_cos2 phi). unfold Rsqr in P. assert (Q := sin2_cos2 th). unfold Rsqr in Q.
  set (s := sin th) in *. set (c := cos th) in *. set (S := sin phi) in *. set (C := cos phi) in *.
  assert (Kk : k * k <= 1) by (assert (0 <= (1 - k) * (1 + k)) by (apply Rmult_le_pos; lra); lra).
  assert (Hs : (k * s) * (k * s) <= s * s).
  { replace (k * s * (k * s)) with (k * k * (s * s)) by ring. rewrite <- (Rmult_1_l (s * s)) at 2.
    apply Rmult_le_compat_r; [exact (Rle_0_sqr s)|exact Kk]. }
  assert (U : (c * C - k * s * S) * (c * C - k * s * S) + (c * S + k * s * C) * (c * S + k * s * C) <= 1).
  { replace ((c * C - k * s * S) * (c * C - k * s * S) + (c * S + k * s * C) * (c * S + k * s * C))
      with ((c * c + (k * s) * (k * s)) * (S * S + C * C)) by ring. rewrite P. lra. }
  set (u := c * C - k * s * S) in *. set (w := c * S + k * s * C) in *.
  assert (A1 : 0 <= u * u) by exact (Rle_0_sqr u). assert (A2 : 0 <= w * w) by exact (Rle_0_sqr w).
  assert (B1 : -1 <= u <= 1) by (apply sq_bound; lra). assert (B2 : -1 <= w <= 1) by (apply sq_bound; lra).
  assert (D1 : 0 <= a * (1 - u)) by (apply Rmult_le_pos; lra). assert (D2 : 0 <= a * (1 + u)) by (apply Rmult_le_pos; lra).
  assert (D3 : 0 <= a * (1 - w)) by (apply Rmult_le_pos; lra). assert (D4 : 0 <= a * (1 + w)) by (apply Rmult_le_pos; lra).
  assert (F1 : fst p = cx + a * u) by (unfold p, u, ellipse_point; cbn [fst]; fold s c S C; ring).
  assert (F2 : snd p = cy + a * w) by (unfold p, w, ellipse_point; cbn [snd]; fold s c S C; ring).
  rewrite F1, F2. lra.
Qed.

Theorem outlines_shown (h : list (ring xr)) s (xs ys : R) ths col ps a b c d vs op col' p :
  ordered (rings_of h s) -> (forall r, In r (rings_of h s) -> real_ring r) ->
  get_patches Libm_xr (map on_circle ths) h s (PFloat (XFin xs)) (PFloat (XFin ys)) (PStr col) = Ok ps ->
  plot_limits h s (XFin xs) (XFin ys) = Ok (a, b, c, d) ->
  In (Annulus vs op col') ps -> In p vs ->
  shown a b (fst p) /\ xle c (snd p) /\ (ys <= xs + 2 -> xle (snd p) d).
Proof.
  intros Ho HR HP Hlim Hin Hp.
  rewrite get_patches_ok in HP by (right; constructor). inversion HP; subst ps; clear HP.
  destruct Hin as [X|Hin]; [discriminate|]. apply in_map_iff in Hin. destruct Hin as (r & E & Hr). inversion E; subst vs op col'; clear E.
  apply plot_limits_x in Hlim. destruct Hlim as (l & z & E & -> & -> & -> & ->).
  unfold get_outer_radii in E.
  assert (exists l' zr, rings_of h s = l' ++ [zr] /\ r_out zr = z) as (l' & zr & El & Ez).
  { destruct (exists_last (l := rings_of h s)) as (l' & zr & El).
    - intros N. rewrite N in E. destruct l; discriminate.
    - exists l', zr. split; auto. rewrite El, map_app in E. cbn [map] in E. apply app_inj_tail in E. tauto. }
  pose proof (@last_widest _ Ho HR l' zr r El Hr) as W.
  assert (Hz : real_ring zr) by (apply HR; rewrite El; apply in_or_app; right; now left).
  destruct Hz as (i3 & o3 & t3 & inc3 & tilt3 & -> & Hio3). cbn [r_out] in Ez. subst z.
  destruct (HR r Hr) as (i & o & t & inc & tilt & -> & Hio). cbn [r_out] in W.
  assert (Wo : o <= o3) by (destruct W as [W|[W _]]; cbn in W; [lra|inversion W; lra]).
  change (num_of (PFloat (XFin xs))) with (XFin xs) in Hp. change (num_of (PFloat (XFin ys))) with (XFin ys) in Hp.
  unfold on_circle in Hp. fold (fin_ring i o t inc tilt) in Hp. rewrite patch_all in Hp.
  assert (exists q, p = fin2 q /\ xs - o <= fst q <= xs + o /\ ys - o <= snd q <= ys + o) as (q & -> & Q1 & Q2).
  { apply in_app_or in Hp. destruct Hp as [Hp|Hp]; apply in_map_iff in Hp; destruct Hp as (th & <- & _).
    - eexists. split; [reflexivity|]. apply ellipse_box; [lra|apply COS_bound].
    - eexists. split; [reflexivity|].
      pose proof (@ellipse_box xs ys i (cos (rad inc)) (rad tilt) (th + PI)) as B. cbv zeta in B.
      specialize (B ltac:(lra) (COS_bound _)). lra. }
  unfold shown, fin2; cbn. split; [split|split; [|intros Hs]]; apply xle_fin; lra.
Qed.

(** the planet is shown from side to side exactly if it is at most 2 wider than the last ring *)
Theorem planet_shown (h : list (ring xr)) s (xs ys o P : R) l a b c d :
  get_outer_radii h s = l ++ [XFin o] -> plot_limits h s (XFin xs) (XFin ys) = Ok (a, b, c, d) ->
  (shown a b (XFin (xs - P)) /\ shown a b (XFin (xs + P)) <-> - (o + 2) <= P <= o + 2).
Proof.
  intros Ho H. destruct (@plot_centre h s xs ys o l a b c d Ho H) as (-> & -> & _). clear H. unfold shown, xle. cbn. split.
  - intros [[H1 _] [H2 _]]. destruct H1 as [H1|[H1 _]], H2 as [H2|[H2 _]]; try (inversion H1); try (inversion H2); lra.
  - intros H. repeat split; apply xle_fin; lra.
Qed.

(** the example system *)
Lemma x_real r : In r (rings_of x_heap x_sys) -> real_ring r.
Proof.
  cbn. intros [<-|[<-|[]]].
  - exists 1, 4, 1, 0, 0. split; [reflexivity|lra].
  - exists 5, 6, 0, 0, 0. split; [reflexivity|lra].
Qed.
Lemma x_ordered : ordered (rings_of x_heap x_sys).
Proof. cbn. constructor; [cbn; apply xle_fin; lra|constructor]. Qed.

(** far above its x shift, the top of a system is cut off *)
Theorem top_refuted : ~ (forall (h : list (ring xr)) s (xs ys : R) ths col ps a b c d vs op col' p,
  ordered (rings_of h s) -> (forall r, In r (rings_of h s) -> real_ring r) ->
  get_patches Libm_xr (map on_circle ths) h s (PFloat (XFin xs)) (PFloat (XFin ys)) (PStr col) = Ok ps ->
  plot_limits h s (XFin xs) (XFin ys) = Ok (a, b, c, d) ->
  In (Annulus vs op col') ps -> In p vs -> xle (snd p) d).
Proof.
  intros H.
  assert (G := get_patches_ok Libm_xr (map on_circle [- (PI / 2)]) x_heap x_sys "black"%string
    (or_intror (fl_py (XFin 0)) : numberlike (PFloat (XFin 0))) (or_intror (fl_py (XFin 10)) : numberlike (PFloat (XFin 10)))).
  assert (M : plot_limits x_heap x_sys (XFin 0) (XFin 10) = Ok (XFin (0 - 6 - 2), XFin (0 + 6 + 2), XFin (10 - 6 - 2), XFin (0 + 6 + 2))) by reflexivity.
  assert (A := H _ _ _ _ _ _ _ _ _ _ _ (patch_vertices Libm_xr (fin_ring 5 6 0 0 0) (XFin 0, XFin 10) (map on_circle [- (PI / 2)])) (XFin (1 - 0)) "black"%string
     (fin2 (ellipse_point 0 10 6 (6 * cos (rad 0)) (rad 0) (- - (PI / 2)))) x_ordered x_real G M (or_intror (or_intror (or_introl eq_refl)))). clear H G M.
  unfold on_circle in A. rewrite patch_all in A. specialize (A (or_introl eq_refl)).
  unfold rad, ellipse_point, fin2 in A. cbn [fst snd] in A. rewrite Ropp_involutive in A.
  replace (0 * PI / 180) with 0 in A by lra. rewrite sin_PI2, cos_PI2, cos_0, sin_0 in A.
  cbn in A. destruct A as [A|[A _]]; cbn in A; [lra|inversion A; lra].
Qed.
(** a planet wider than its rings is cut off *)
Theorem planet_refuted : ~ (forall (h : list (ring xr)) s (xs ys P : R) a b c d,
  ordered (rings_of h s) -> (forall r, In r (rings_of h s) -> real_ring r) -> s_planet s = XFin P ->
  plot_limits h s (XFin xs) (XFin ys) = Ok (a, b, c, d) -> shown a b (XFin (xs + P))).
Proof.
  intros H. set (s := mkSys (XFin 100) (XFin 0) (XFin 0) [0%nat; 1%nat]).
  assert (M : plot_limits x_heap s (XFin 0) (XFin 0) = Ok (XFin (0 - 6 - 2), XFin (0 + 6 + 2), XFin (0 - 6 - 2), XFin (0 + 6 + 2))) by reflexivity.
  specialize (H x_heap s 0 0 100 _ _ _ _ x_ordered x_real eq_refl M).
  destruct H as [_ [H|[H _]]]; cbn in H; [lra|inversion H; lra].
Qed.
(** plot is not all or nothing *)
Theorem atomic_refuted : ~ (forall (L : Libm xr) circle cur h s ax x y v a' e,
  plot L circle cur h s (Some (EIs ax)) x y v = (Some a', Err e) -> a' = ax).
Proof.
  intros H. specialize (H Libm_xr [] (mkAxes [] None None) [] (mkSys (XFin 1) (XFin 0) (XFin 0) []) (mkAxes [] None None) (PInt 0) (PInt 0) (PStr "black")).
  specialize (H _ _ eq_refl). discriminate.
Qed.
Theorem draw_ex ths : exists ps, get_patches Libm_xr (map on_circle ths) x_heap x_sys (PFloat (XFin 1)) (PFloat (XFin 2)) (PStr "red") = Ok ps /\
  List.length ps = 3%nat /\ nth_error ps 0 = Some (Disk (XFin 1, XFin 2) (XFin 1) "red") /\
  plot_limits x_heap x_sys (XFin 1) (XFin 2) = Ok (XFin (1 - 6 - 2), XFin (1 + 6 + 2), XFin (2 - 6 - 2), XFin (1 + 6 + 2)) /\
  ordered (rings_of x_heap x_sys) /\ forall r, In r (rings_of x_heap x_sys) -> real_ring r.
Proof.
  eexists. split; [apply get_patches_ok; right; constructor|]. repeat split; try reflexivity; [exact x_ordered|exact x_real].
Qed.
