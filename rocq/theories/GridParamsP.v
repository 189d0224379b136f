(** Proofs about GridParameters: construction, extension, save and load. *)
From Coq Require Import ZArith Reals List Bool String Lra Lia.
From Verif Require Import Num NumP Py Validate SpecNum ValidateP Ring RingP RingSystem RingSystemP RingMoreP FS FSP GridParams GridDiag SpecGrid.
Import ListNotations.
Set Implicit Arguments.

Section G.
Context {T : Type} {NT : Num T} {LT : NumLaws T}.
Notation pyval := (pyval T).

Lemma number_default v w : number v false m_inf p_inf false = Ok w <-> w = v /\ numberlike v.
Proof.
  unfold m_inf, p_inf. rewrite number_fb. rewrite l_inf, val_ninf. split; [tauto|].
  intros [-> H]. repeat split; auto; try (intros X; exact X). unfold respects.
  destruct (val (num_of v)); cbn; tauto.
Qed.
Lemma int_zof (v : pyval) : int_like v -> int_of v = zof v.
Proof. intros []; cbn; auto. Qed.

Lemma number_count v w : small v -> number v true (PInt 1) p_inf false = Ok w <-> w = v /\ count v.
Proof.
  intros Hs. rewrite number_ok by (auto; cbn; lia). unfold count. split.
  - intros (-> & [Hi|[X _]] & _ & _ & _ & [Hr _]); [|discriminate]. repeat split; auto.
    destruct Hi; cbn in Hr |- *; auto.
    + destruct b; auto. lia. cbn in Hr. exfalso; apply Hr; lra.
    + apply Z.nlt_ge. intros H. apply Hr. apply IZR_lt; lia.
    + apply Z.nlt_ge. intros H. apply Hr. apply IZR_lt; lia.
  - intros (-> & Hi & H). repeat split; auto; try (left; constructor); try (right; constructor).
    + cbn. rewrite l_inf. auto.
    + destruct Hi; cbn in *; try (destruct b; [|lia]); intros X; try lra; apply lt_IZR in X; lia.
    + cbn. rewrite l_inf. destruct Hi; cbn; auto.
Qed.

Lemma number_ge1 v w : small v -> number v false (PInt 1) p_inf false = Ok w <-> w = v /\ numberlike v /\ ~ xlt (value v) (XFin 1).
Proof.
  intros Hs. rewrite number_ok by (auto; cbn; lia). unfold p_inf. cbn [value]. rewrite l_inf. unfold respects, numberlike. split.
  - intros (-> & H & _ & _ & _ & Hr & _). repeat split; auto. intuition.
  - intros (-> & H & Hr). split; auto. split; [destruct H; auto|]. split; [left; constructor|]. split; [right; constructor|].
    split; [cbn; auto|]. split; [exact Hr|]. destruct (value v); cbn; tauto.
Qed.

Lemma axis_iff mn mx num l : small mn -> small mx -> small num ->
  determine_axis mn mx num = Ok l <->
  axis_ok mn mx num /\ l = linspace (num_of mn) (num_of mx) (Z.to_nat (zof num)).
Proof.
  intros S1 S2 S3. unfold determine_axis, axis_ok.
  destruct (number mn false m_inf p_inf false) as [w|] eqn:E1; cbn [bind].
  2:{ split; [discriminate|]. intros ((H & _) & _). assert (X : number mn false m_inf p_inf false = Ok mn) by (apply number_default; auto). congruence. }
  apply number_default in E1. destruct E1 as [-> N1].
  destruct (number mx false m_inf p_inf false) as [w|] eqn:E1; cbn [bind].
  2:{ split; [discriminate|]. intros ((_ & H & _) & _). assert (X : number mx false m_inf p_inf false = Ok mx) by (apply number_default; auto). congruence. }
  apply number_default in E1. destruct E1 as [-> N2].
  rewrite v_cmp_ge. destruct (v_cmp (@s_le T _) mx mn) eqn:E.
  { apply v_cmp_le in E; auto. split; [discriminate|]. intros ((_ & _ & H & _) & _). contradiction. }
  assert (E' : ~ xle (value mx) (value mn)). { intros X. apply v_cmp_le in X; auto. congruence. }
  destruct (number num true (PInt 1) p_inf false) as [w|] eqn:E1; cbn [bind].
  - apply number_count in E1; auto. destruct E1 as [-> Hc]. rewrite int_zof by apply Hc. split; intros H.
    + inversion H. auto.
    + destruct H as [_ ->]. reflexivity.
  - split; [discriminate|]. intros ((_ & _ & _ & H) & _).
    assert (X : number num true (PInt 1) p_inf false = Ok num) by (apply number_count; auto). congruence.
Qed.

Lemma rf_iff mx num l : small mx -> small num ->
  determine_rf mx num = Ok l <->
  rf_ok mx num /\ l = (let rf := linspace n_one (num_of mx) (Z.to_nat (zof num)) in (rf, rev rf ++ tl rf)).
Proof.
  intros S1 S2. unfold determine_rf, rf_ok.
  destruct (number mx false (PInt 1) p_inf false) as [w|] eqn:E1; cbn [bind].
  2:{ split; [discriminate|]. intros ((H & H' & _) & _).
      assert (X : number mx false (PInt 1) p_inf false = Ok mx) by (apply number_ge1; auto). congruence. }
  apply number_ge1 in E1; auto. destruct E1 as (-> & N1 & N2).
  destruct (number num true (PInt 1) p_inf false) as [w|] eqn:E1; cbn [bind].
  - apply number_count in E1; auto. destruct E1 as [-> Hc]. rewrite int_zof by apply Hc. split; intros H.
    + inversion H. auto.
    + destruct H as [_ ->]. reflexivity.
  - split; [discriminate|]. intros ((_ & _ & H) & _).
    assert (X : number num true (PInt 1) p_inf false = Ok num) by (apply number_count; auto). congruence.
Qed.

Lemma linspace_length (a b : T) n : List.length (linspace a b n) = n.
Proof. unfold linspace. rewrite map_length, seq_length. reflexivity. Qed.

Lemma linspace_last (a b : T) n : 2 <= n -> nth_error (linspace a b n) (n - 1) = Some b.
Proof.
  intros H. unfold linspace. rewrite nth_error_map.
  assert (E : nth_error (seq 0 n) (n - 1) = Some (n - 1)).
  { rewrite (nth_error_nth' _ 0) by (rewrite seq_length; lia). rewrite seq_nth by lia. f_equal. }
  rewrite E. cbn [option_map]. rewrite Nat.eqb_refl. destruct (Nat.ltb_spec 1 n); [reflexivity|lia].
Qed.

Lemma extendable_nonempty (dx dy : list T) : dx <> [] -> dy <> [] -> exists e, extendable_of dx dy = Ok e.
Proof. destruct dx as [|x dx], dy as [|y dy]; try congruence. intros _ _. cbn. destruct (n_eq y n_zero); eauto. Qed.

Lemma nonempty_length A (l : list A) : l <> [] <-> 1 <= List.length l.
Proof. destruct l; cbn; split; try congruence; try lia. Qed.

(** the object built by a successful construction *)
Definition built (x0 x1 : T) nx (y0 y1 : T) ny (r1 : T) nr e : gparams T :=
  let rf := linspace n_one r1 nr in
  mkGP (linspace x0 x1 nx) (linspace y0 y1 ny) rf (rev rf ++ tl rf) (ny, nx, 2 * nr - 1) e.

Lemma rfa_length (rf : list T) n : List.length rf = n -> 1 <= n -> List.length (rev rf ++ tl rf) = 2 * n - 1.
Proof. intros H Hn. rewrite app_length, rev_length. destruct rf; cbn in *; lia. Qed.

Theorem new_params_iff mnx mxx nx mny mxy ny mxr nr g :
  Forall small [mnx; mxx; nx; mny; mxy; ny; mxr; nr] ->
  new_params mnx mxx nx mny mxy ny mxr nr = Ok g <->
  axis_ok mnx mxx nx /\ axis_ok mny mxy ny /\ rf_ok mxr nr /\
  exists e, extendable_of (linspace (num_of mnx) (num_of mxx) (Z.to_nat (zof nx))) (linspace (num_of mny) (num_of mxy) (Z.to_nat (zof ny))) = Ok e /\
  g = built (num_of mnx) (num_of mxx) (Z.to_nat (zof nx)) (num_of mny) (num_of mxy) (Z.to_nat (zof ny)) (num_of mxr) (Z.to_nat (zof nr)) e.
Proof.
  intros HS. assert (S1 := Forall_inv HS). apply Forall_inv_tail in HS. assert (S2 := Forall_inv HS). apply Forall_inv_tail in HS.
  assert (S3 := Forall_inv HS). apply Forall_inv_tail in HS. assert (S4 := Forall_inv HS). apply Forall_inv_tail in HS.
  assert (S5 := Forall_inv HS). apply Forall_inv_tail in HS. assert (S6 := Forall_inv HS). apply Forall_inv_tail in HS.
  assert (S7 := Forall_inv HS). apply Forall_inv_tail in HS. assert (S8 := Forall_inv HS). clear HS.
  unfold new_params.
  destruct (determine_axis mnx mxx nx) as [dx|] eqn:E1; cbn [bind].
  2:{ split; [discriminate|]. intros (H & _).
      assert (X : determine_axis mnx mxx nx = Ok (linspace (num_of mnx) (num_of mxx) (Z.to_nat (zof nx)))) by (apply axis_iff; auto). congruence. }
  apply axis_iff in E1; auto. destruct E1 as [A1 ->].
  destruct (determine_axis mny mxy ny) as [dy|] eqn:E1; cbn [bind].
  2:{ split; [discriminate|]. intros (_ & H & _).
      assert (X : determine_axis mny mxy ny = Ok (linspace (num_of mny) (num_of mxy) (Z.to_nat (zof ny)))) by (apply axis_iff; auto). congruence. }
  apply axis_iff in E1; auto. destruct E1 as [A2 ->].
  destruct (determine_rf mxr nr) as [l|] eqn:E1; cbn [bind].
  2:{ split; [discriminate|]. intros (_ & _ & H & _).
      assert (X : determine_rf mxr nr = Ok (let rf := linspace n_one (num_of mxr) (Z.to_nat (zof nr)) in (rf, rev rf ++ tl rf))) by (apply rf_iff; auto). congruence. }
  apply rf_iff in E1; auto. destruct E1 as [A3 ->]. cbn [fst snd]. unfold finish.
  set (dx := linspace (num_of mnx) _ _). set (dy := linspace (num_of mny) _ _).
  assert (N : exists e, extendable_of dx dy = Ok e).
  { apply extendable_nonempty; apply nonempty_length; unfold dx, dy; rewrite linspace_length;
      [destruct A1 as (_ & _ & _ & _ & H)|destruct A2 as (_ & _ & _ & _ & H)]; lia. }
  destruct N as [e Ee]. rewrite Ee. cbn [bind].
  assert (Hsh : shape_of_vectors dx dy (rev (linspace n_one (num_of mxr) (Z.to_nat (zof nr))) ++ tl (linspace n_one (num_of mxr) (Z.to_nat (zof nr))))
    = (Z.to_nat (zof ny), Z.to_nat (zof nx), 2 * Z.to_nat (zof nr) - 1)).
  { unfold shape_of_vectors. unfold dx, dy. rewrite !linspace_length.
    rewrite (@rfa_length _ (Z.to_nat (zof nr))); auto; [apply linspace_length|]. destruct A3 as (_ & _ & _ & H). lia. }
  rewrite Hsh. split; intros H.
  - inversion H. do 3 (split; [auto|]). exists e. split; reflexivity.
  - destruct H as (_ & _ & _ & e' & X & ->). assert (e' = e) as -> by congruence. reflexivity.
Qed.

(** consequences: sizes *)
Theorem new_params_sizes mnx mxx nx mny mxy ny mxr nr g :
  Forall small [mnx; mxx; nx; mny; mxy; ny; mxr; nr] ->
  new_params mnx mxx nx mny mxy ny mxr nr = Ok g ->
  Z.of_nat (List.length (g_dx g)) = zof nx /\ Z.of_nat (List.length (g_dy g)) = zof ny /\
  Z.of_nat (List.length (g_rf g)) = zof nr /\ Z.of_nat (List.length (g_rfa g)) = (2 * zof nr - 1)%Z /\
  g_shape g = (List.length (g_dy g), List.length (g_dx g), List.length (g_rfa g)) /\
  ((2 <= zof nx)%Z -> nth_error (g_dx g) (List.length (g_dx g) - 1) = Some (num_of mxx)) /\
  ((2 <= zof ny)%Z -> nth_error (g_dy g) (List.length (g_dy g) - 1) = Some (num_of mxy)) /\
  ((2 <= zof nr)%Z -> nth_error (g_rf g) (List.length (g_rf g) - 1) = Some (num_of mxr)).
Proof.
  intros HS H. apply new_params_iff in H; auto. destruct H as (A1 & A2 & A3 & e & _ & ->).
  unfold built. cbn [g_dx g_dy g_rf g_rfa g_shape].
  destruct A1 as (_ & _ & _ & _ & A1), A2 as (_ & _ & _ & _ & A2), A3 as (_ & _ & _ & A3).
  rewrite (@rfa_length _ (Z.to_nat (zof nr))) by (rewrite ?linspace_length; lia).
  rewrite !linspace_length. repeat split; try lia; intros; apply linspace_last; lia.
Qed.

(** the radius-fraction axis is the mirror image of rf about its first entry *)
Theorem rfa_mirror mnx mxx nx mny mxy ny mxr nr g j :
  Forall small [mnx; mxx; nx; mny; mxy; ny; mxr; nr] ->
  new_params mnx mxx nx mny mxy ny mxr nr = Ok g -> (Z.of_nat j < zof nr)%Z ->
  nth_error (g_rfa g) (Z.to_nat (zof nr) - 1 + j) = nth_error (g_rf g) j /\
  nth_error (g_rfa g) (Z.to_nat (zof nr) - 1 - j) = nth_error (g_rf g) j.
Proof.
  intros HS H Hj. apply new_params_iff in H; auto. destruct H as (_ & _ & _ & e & _ & ->).
  unfold built. cbn [g_rf g_rfa]. set (n := Z.to_nat (zof nr)). assert (Hn : j < n) by lia.
  assert (L := linspace_length (n_one (T:=T)) (num_of mxr) n). set (rf := linspace n_one (num_of mxr) n) in *. clearbody rf.
  assert (R : forall k, k < n -> nth_error (rev rf) k = nth_error rf (n - S k)).
  { intros k Hk. destruct rf as [|a l]; [cbn in L; lia|].
    rewrite (nth_error_nth' (rev (a :: l)) a) by (rewrite rev_length; lia).
    rewrite rev_nth by lia. rewrite L. symmetry. apply nth_error_nth'. lia. }
  split.
  - destruct j as [|j].
    + rewrite Nat.add_0_r, nth_error_app1 by (rewrite rev_length; lia). rewrite R by lia. f_equal. lia.
    + rewrite nth_error_app2 by (rewrite rev_length; lia). rewrite rev_length, L.
      replace (n - 1 + S j - n) with j by lia. destruct rf; [cbn in L; lia|reflexivity].
  - rewrite nth_error_app1 by (rewrite rev_length; lia). rewrite R by lia. f_equal. lia.
Qed.

(** *** extend_grid *)
Theorem extend_refused (g : gparams T) : g_ext g = false -> extend_grid g = (g, Err AttributeError).
Proof. intros H. unfold extend_grid. rewrite H. reflexivity. Qed.

Definition consistent (g : gparams T) : Prop :=
  g_shape g = shape_of_vectors (g_dx g) (g_dy g) (g_rfa g) /\ extendable_of (g_dx g) (g_dy g) = Ok (g_ext g).

Lemma finish_consistent dx dy rf rfa (g : gparams T) : finish dx dy rf rfa = Ok g -> consistent g.
Proof.
  unfold finish. destruct (extendable_of dx dy) as [e|] eqn:E; cbn [bind]; [|discriminate].
  intros H; inversion H; subst; split; auto.
Qed.
Lemma new_consistent mnx mxx nx mny mxy ny mxr nr g : new_params mnx mxx nx mny mxy ny mxr nr = Ok g -> consistent g.
Proof.
  unfold new_params. destruct (determine_axis mnx mxx nx); cbn [bind]; [|discriminate].
  destruct (determine_axis mny mxy ny); cbn [bind]; [|discriminate]. destruct (determine_rf mxr nr); cbn [bind]; [|discriminate].
  apply finish_consistent.
Qed.
Lemma extend_consistent g g' : extend_grid g = (g', Ok tt) -> consistent g'.
Proof.
  unfold extend_grid. destruct (negb (g_ext g)); [discriminate|]. destruct (g_shape g) as [[ny nx] k].
  destruct (last_opt (g_dy g)); [|destruct (last_opt (g_dx g)); discriminate].
  destruct (last_opt (g_dx g)); [|discriminate].
  destruct (determine_axis _ _ (PInt (2 * Z.of_nat nx - 1))) as [dx|]; [|discriminate].
  destruct (determine_axis _ _ (PInt (2 * Z.of_nat ny - 1))) as [dy|]; [|discriminate].
  destruct (extendable_of dx dy) eqn:E; [|discriminate]. intros H; inversion H; subst. split; auto.
Qed.
Lemma reachable_consistent g : reachable g -> consistent g.
Proof. intros []; [eapply new_consistent|eapply extend_consistent]; eauto. Qed.

Lemma last_opt_nth (l : list T) x : nth_error l (List.length l - 1) = Some x -> last_opt l = Ok x.
Proof.
  intros H. unfold last_opt. destruct l as [|a l] using rev_ind; [discriminate|].
  rewrite rev_app_distr. cbn. rewrite app_length in H. cbn in H. rewrite nth_error_app2 in H by lia.
  replace (List.length l + 1 - 1 - List.length l) with 0 in H by lia. cbn in H. congruence.
Qed.

(** the two axes of the extended grid, when both ends are positive *)
Lemma ext_axis (m : T) n : 2 <= n -> (2 * Z.of_nat n <= 2 ^ 53)%Z -> xlt (XFin 0) (val m) ->
  determine_axis (PNpFloat (n_neg m)) (PNpFloat m) (PInt (2 * Z.of_nat n - 1)) = Ok (linspace (n_neg m) m (2 * n - 1)).
Proof.
  intros Hn Hs Hm. apply axis_iff; [exact I|exact I|cbn [small]; lia|]. split.
  - unfold axis_ok. cbn [value]. split; [right; constructor|]. split; [right; constructor|].
    split; [|split; [constructor|cbn [zof]; lia]]. rewrite l_neg. intros X. destruct (val m); cbn in Hm; try tauto; unfold xle in X; cbn in X; destruct X as [X|[X Y]]; try tauto; try discriminate; try lra.
    inversion X. lra.
  - cbn [zof]. f_equal. lia.
Qed.

(** a one-point axis at zero cannot be mirrored *)
Lemma ext_axis_one (m : T) k : val m = XFin 0 ->
  determine_axis (PNpFloat (n_neg m)) (PNpFloat m) k = Err ValueError.
Proof.
  intros Hm. unfold determine_axis.
  assert (X : forall y : T, number (PNpFloat y) false m_inf p_inf false = Ok (PNpFloat y)).
  { intros y. apply number_default. split; auto. right; constructor. }
  rewrite !X. cbn [bind]. rewrite v_cmp_ge.
  assert (Y : v_cmp (@s_le T _) (PNpFloat m) (PNpFloat (n_neg m)) = true).
  { apply v_cmp_le; [exact I|exact I|right; constructor|right; constructor|]. cbn [value]. rewrite l_neg, Hm. right. split; [|discriminate]. cbn. f_equal. lra. }
  rewrite Y. reflexivity.
Qed.

Lemma ext_true (g : gparams T) : consistent g -> g_ext g = true ->
  exists x dx y dy, g_dx g = x :: dx /\ g_dy g = y :: dy /\ val x = XFin 0 /\ val y = XFin 0.
Proof.
  intros [_ H] E. rewrite E in H. unfold extendable_of in H.
  destruct (g_dy g) as [|y dy]; [discriminate|]. destruct (n_eq y n_zero) eqn:Ey; [|discriminate].
  destruct (g_dx g) as [|x dx]; [discriminate|]. inversion H as [Ex]. exists x, dx, y, dy.
  apply neq_iff in Ex. apply neq_iff in Ey. rewrite val_zero in *. intuition.
Qed.

(** C22: one column *)
Theorem extend_one_column (g : gparams T) : reachable g -> g_ext g = true -> List.length (g_dx g) = 1 ->
  extend_grid g = (g, Err ValueError).
Proof.
  intros Hr He Hl. destruct (reachable_consistent Hr) as [Hs Hx]. destruct (ext_true (conj Hs Hx) He) as (x & dx & y & dy & E1 & E2 & V1 & V2).
  rewrite E1 in Hl. destruct dx; [|cbn in Hl; lia]. unfold extend_grid. rewrite He. cbn [negb]. rewrite Hs. unfold shape_of_vectors.
  destruct (last_opt (g_dy g)) as [m|] eqn:E.
  - rewrite E1. cbn [last_opt rev app]. rewrite (ext_axis_one x _ V1). reflexivity.
  - unfold last_opt in E. destruct (rev (g_dy g)) eqn:Er; [|discriminate]. apply (f_equal (@rev T)) in Er.
    rewrite rev_involutive, E2 in Er. cbn in Er. discriminate.
Qed.

(** C22: one row, several columns: dx has been replaced when the failure is raised *)
Theorem extend_one_row (g : gparams T) m : reachable g -> g_ext g = true -> List.length (g_dy g) = 1 -> 2 <= List.length (g_dx g) ->
  (2 * Z.of_nat (List.length (g_dx g)) <= 2 ^ 53)%Z ->
  nth_error (g_dx g) (List.length (g_dx g) - 1) = Some m -> xlt (XFin 0) (val m) ->
  extend_grid g = (mkGP (linspace (n_neg m) m (2 * List.length (g_dx g) - 1)) (g_dy g) (g_rf g) (g_rfa g) (g_shape g) true, Err ValueError).
Proof.
  intros Hr He Hl Hx Hs Hm Hp. destruct (reachable_consistent Hr) as [Hc Hx']. destruct (ext_true (conj Hc Hx') He) as (x & dx & y & dy & E1 & E2 & V1 & V2).
  rewrite E2 in Hl. destruct dy; [|cbn in Hl; lia]. unfold extend_grid. rewrite He. cbn [negb]. rewrite Hc. unfold shape_of_vectors.
  rewrite E2 at 1. cbn [last_opt rev app]. rewrite (last_opt_nth _ Hm). rewrite (ext_axis m Hx Hs Hp).
  rewrite (ext_axis_one y _ V2). reflexivity.
Qed.

(** success for two points or more per axis *)
Theorem extend_ok (g : gparams T) mx my : reachable g -> g_ext g = true ->
  2 <= List.length (g_dx g) -> 2 <= List.length (g_dy g) ->
  (2 * Z.of_nat (List.length (g_dx g)) <= 2 ^ 53)%Z -> (2 * Z.of_nat (List.length (g_dy g)) <= 2 ^ 53)%Z ->
  nth_error (g_dx g) (List.length (g_dx g) - 1) = Some mx -> nth_error (g_dy g) (List.length (g_dy g) - 1) = Some my ->
  xlt (XFin 0) (val mx) -> xlt (XFin 0) (val my) ->
  let dx := linspace (n_neg mx) mx (2 * List.length (g_dx g) - 1) in
  let dy := linspace (n_neg my) my (2 * List.length (g_dy g) - 1) in
  exists e, extendable_of dx dy = Ok e /\
  extend_grid g = (mkGP dx dy (g_rf g) (g_rfa g) (2 * List.length (g_dy g) - 1, 2 * List.length (g_dx g) - 1, List.length (g_rfa g)) e, Ok tt).
Proof.
  intros Hr He Hx Hy Sx Sy Mx My Px Py dx dy. destruct (reachable_consistent Hr) as [Hc Hx'].
  assert (N : exists e, extendable_of dx dy = Ok e).
  { apply extendable_nonempty; apply nonempty_length; unfold dx, dy; rewrite linspace_length; lia. }
  destruct N as [e Ee]. exists e. split; auto. unfold extend_grid. rewrite He. cbn [negb]. rewrite Hc. unfold shape_of_vectors.
  rewrite (last_opt_nth _ Mx), (last_opt_nth _ My), (ext_axis mx Hx Sx Px), (ext_axis my Hy Sy Py).
  fold dx dy. rewrite Ee. unfold dx, dy. rewrite !linspace_length. reflexivity.
Qed.

(** *** save and load *)
Lemma params_save_writes (g : gparams T) d : exists l, params_save g d = SMkdirIf d :: writes d l /\
  map fst l = ["dx.npy"; "dy.npy"; "rf.npy"; "rf_array.npy"]%string /\
  l = combine ["dx.npy"; "dy.npy"; "rf.npy"; "rf_array.npy"]%string
        [float_arr [1; List.length (g_dx g); 1] (g_dx g); float_arr [List.length (g_dy g); 1; 1] (g_dy g);
         float_arr [List.length (g_rf g)] (g_rf g); float_arr [List.length (g_rfa g)] (g_rfa g)].
Proof. eexists. split; [|split; [|reflexivity]]; reflexivity. Qed.

Definition param_files : list string := ["dx.npy"; "dy.npy"; "rf.npy"; "rf_array.npy"]%string.

Lemma num_scal_SF (l : list T) : map (@num_scal T _) (map (@SF T) l) = l.
Proof. rewrite map_map. cbn. apply map_id. Qed.

Lemma load_floats_get (f : fs T) p sh l : fs_get f p = Some (NFile (float_arr sh l)) -> load_floats f p = Ok l.
Proof. intros H. unfold load_floats, np_load. rewrite H. cbn. now rewrite num_scal_SF. Qed.

Lemma param_nodup : NoDup param_files.
Proof. repeat constructor; cbn; intuition discriminate. Qed.

(** everything a completed save leaves behind *)
Lemma params_save_get (g : gparams T) (f f' : fs T) d : run f (params_save g d) = (f', Ok tt) ->
  fs_get f' (under d "dx.npy") = Some (NFile (float_arr [1; List.length (g_dx g); 1] (g_dx g))) /\
  fs_get f' (under d "dy.npy") = Some (NFile (float_arr [List.length (g_dy g); 1; 1] (g_dy g))) /\
  fs_get f' (under d "rf.npy") = Some (NFile (float_arr [List.length (g_rf g)] (g_rf g))) /\
  fs_get f' (under d "rf_array.npy") = Some (NFile (float_arr [List.length (g_rfa g)] (g_rfa g))).
Proof.
  intros H. destruct (params_save_writes g d) as (l & E & Em & El). rewrite E in H.
  change (SMkdirIf d :: writes d l) with ([SMkdirIf d] ++ writes d l) in H. apply run_app_ok in H. destruct H as (f1 & _ & H).
  apply writes_get in H; [|rewrite Em; exact param_nodup]. destruct H as [H _].
  repeat split; apply H; rewrite El; cbn; tauto.
Qed.

Theorem params_load_save (g : gparams T) (f f' : fs T) d : reachable g ->
  run f (params_save g d) = (f', Ok tt) -> params_load f' d = Ok g.
Proof.
  intros Hr H. apply params_save_get in H. destruct H as (H1 & H2 & H3 & H4). unfold params_load.
  rewrite (load_floats_get _ _ H1), (load_floats_get _ _ H2), (load_floats_get _ _ H3), (load_floats_get _ _ H4).
  cbn [bind]. unfold finish. destruct (reachable_consistent Hr) as [Hc He]. rewrite He. cbn [bind]. rewrite <- Hc. destruct g; reflexivity.
Qed.

(** any object, also one left behind by a failed extend_grid *)
Theorem params_load_any (g : gparams T) (f f' : fs T) d : g_dx g <> [] -> g_dy g <> [] ->
  run f (params_save g d) = (f', Ok tt) -> exists g', params_load f' d = Ok g' /\
  g_dx g' = g_dx g /\ g_dy g' = g_dy g /\ g_rf g' = g_rf g /\ g_rfa g' = g_rfa g /\ consistent g'.
Proof.
  intros Hx Hy H. apply params_save_get in H. destruct H as (H1 & H2 & H3 & H4). unfold params_load.
  rewrite (load_floats_get _ _ H1), (load_floats_get _ _ H2), (load_floats_get _ _ H3), (load_floats_get _ _ H4).
  cbn [bind]. destruct (extendable_nonempty Hx Hy) as [e Ee]. unfold finish. rewrite Ee. cbn [bind]. eexists; split; [reflexivity|].
  cbn. repeat split; auto.
Qed.

Theorem params_save_others (g : gparams T) (f : fs T) d p : p <> d -> (forall n, In n param_files -> p <> under d n) ->
  fs_get (fst (run f (params_save g d))) p = fs_get f p.
Proof.
  intros Hd Hp. apply run_other. intros s Hs. cbn in Hs. 
  repeat (destruct Hs as [<-|Hs]; [cbn [touched]; first [exact Hd | apply Hp; cbn; tauto]|]). destruct Hs.
Qed.

(** saving succeeds whenever the directory can be used *)
Theorem params_save_succeeds (g : gparams T) (f : fs T) d : usable f d ->
  (forall n, In n param_files -> fs_get f (under d n) <> Some NDir) -> exists f', run f (params_save g d) = (f', Ok tt).
Proof.
  intros Hu Hn. destruct (params_save_writes g d) as (l & E & Em & El). rewrite E.
  destruct (mkdirif_usable Hu) as (f1 & E1 & Hd & Ho). cbn [run]. rewrite E1. apply writes_run; auto.
  - rewrite El. repeat constructor.
  - rewrite Em. intros n Hi. rewrite Ho by apply under_neq. apply Hn. exact Hi.
Qed.

Theorem params_load_err (f : fs T) d e : params_load f d = Err e -> e = LoadErr.
Proof. unfold params_load. destruct (bind _ _); congruence. Qed.

Definition readable (f : fs T) (p : string) : Prop := exists dt sh el, fs_get f p = Some (NFile (CNpy dt sh el)).

Theorem params_load_needs (f : fs T) d g : params_load f d = Ok g -> forall n, In n param_files -> readable f (under d n).
Proof.
  unfold params_load, load_floats, np_load, readable. intros H n Hn.
  destruct (fs_get f (under d "dx.npy")) as [[|[]]|] eqn:E1; cbn [bind] in H; try discriminate.
  destruct (fs_get f (under d "dy.npy")) as [[|[]]|] eqn:E2; cbn [bind] in H; try discriminate.
  destruct (fs_get f (under d "rf.npy")) as [[|[]]|] eqn:E3; cbn [bind] in H; try discriminate.
  destruct (fs_get f (under d "rf_array.npy")) as [[|[]]|] eqn:E4; cbn [bind] in H; try discriminate.
  cbn in Hn. destruct Hn as [<-|[<-|[<-|[<-|[]]]]]; eauto.
Qed.
End G.
