(** Exact-arithmetic forms, witnesses and refuted expectations for grid properties and gradients. *)
From Coq Require Import ZArith Reals List Bool String Lra Lia.
From Flocq Require Import BinarySingleNaN.
From Verif Require Import Num NumP Py Validate SpecNum ValidateP Ring RingP RingSystem RingSystemP RingMoreP FS FSP GridParams GridDiag
  SpecGrid GridParamsP GridParamsXP GridDiagP GridCrashP Names GridProp SpecProp GridPropP GridGradP GridPropFSP.
Import ListNotations.
Set Implicit Arguments.

(** *** exact arithmetic *)
Lemma value_num (v : pyval xr) r : numberlike v -> small v -> value v = XFin r -> num_of v = XFin r.
Proof. intros Hn Hs Hv. rewrite <- Hv. exact (@num_of_value xr _ _ v Hn Hs). Qed.
Lemma scaled_exact (m s t : pyval xr) a b c : numberlike m -> numberlike s -> numberlike t -> small m -> small s -> small t ->
  value m = XFin a -> value s = XFin b -> value t = XFin c -> c <> 0%R -> scaled_of m s t = XFin (a * b / c).
Proof.
  intros Nm Ns Nt Sm Ss St Vm Vs Vt Hc. unfold scaled_of. rewrite (value_num Nm Sm Vm), (value_num Ns Ss Vs), (value_num Nt St Vt).
  cbn [n_mul n_div n_one n_ofZ Num_xr x_mul x_div]. unfold x_div. destruct (Req_EM_T c 0); [contradiction|]. cbn. f_equal. field. auto.
Qed.

(** measured value [a], orbital scale [b], transmission [c] *)
Theorem mask_real (g : ggrad xr) m s t e a b c :
  Forall (@small xr) [m; s] -> osmall t -> osmall e -> measure_ok m s t e ->
  value m = XFin a -> value s = XFin b -> value (transmission t) = XFin c -> c <> 0%R ->
  (is_ok (snd (determine_mask g m s t e)) = true <-> (a * b / c <= 1)%R) /\
  ((a * b / c <= 1)%R -> scaled_gradient (fst (determine_mask g m s t e)) = Ok (Some (XFin (a * b / c))) /\
    forall i x, nth_error (p_data (gg_prop g)) i = Some x ->
      (marked (p_mask (gg_prop (fst (determine_mask g m s t e)))) i = false <->
        x = XPInf \/ exists r, x = XFin r /\ (a * b / c <= r)%R)).
Proof.
  intros HS St Se M Vm Vs Vt Hc. inversion HS as [|? ? Sm HS']; subst. inversion HS' as [|? ? Ss _]; subst.
  assert (Nt := trans_ok M). assert (Sst := @trans_small xr t St). assert (NM := M). destruct NM as (Nm & _ & Ns & _ & _).
  assert (E := scaled_exact Nm Ns Nt Sm Ss Sst Vm Vs Vt Hc).
  assert (Z : ~ py_zero (transmission t)).
  { intros Z. apply Hc. destruct (transmission t); cbn [py_zero] in Z; try contradiction; congruence. }
  destruct (determine_cases g Sm Ss St Se M) as (_ & B & C). rewrite E in B, C. cbn [val Laws_xr] in B, C.
  split.
  - split.
    + intros H. destruct (Rle_lt_dec (a * b / c) 1) as [|L]; auto. rewrite (B Z L) in H. discriminate H.
    + intros H. rewrite C; auto. cbn [xlt]. lra.
  - intros H. assert (O : determine_mask g m s t e = (fst (determine_mask g m s t e), Ok tt)) by (rewrite C; auto; cbn [xlt]; lra).
    destruct (@mask_exact xr _ _ g _ m s t e Sm Ss St Se O) as (r & R1 & R2 & _ & _ & _ & _ & _ & _ & _ & R3). rewrite E in R2. subst r. split; auto.
    intros i x Hx. rewrite (R3 i x Hx). cbn [val Laws_xr]. destruct x as [| | |r]; cbn [xlt].
    + split; [intros [X _]; congruence|intros [X|(? & X & _)]; discriminate].
    + split; auto. intros _. split; [discriminate|tauto].
    + split; [intros [_ X]; tauto|intros [X|(? & X & _)]; discriminate].
    + split; [intros [_ X]; right; exists r; split; auto; lra|]. intros [X|(q & X & Y)]; [discriminate|]. inversion X; subst. split; [discriminate|lra].
Qed.

Section G.
Context {T : Type} {NT : Num T} {LT : NumLaws T}.
Notation pyval := (pyval T).

(** *** the parameters change under the property *)
Definition with_params (p : gprop T) (g : gparams T) : gprop T :=
  mkGPr (p_name p) (p_unit p) g (p_shape p) (p_data p) (p_vmin p) (p_vmax p) (p_cmap p) (p_ncol p) (p_mask p).
Theorem extended_under (p : gprop T) g' mx my : preach p -> reachable (p_params p) -> g_ext (p_params p) = true ->
  2 <= List.length (g_dx (p_params p)) -> 2 <= List.length (g_dy (p_params p)) ->
  (2 * Z.of_nat (List.length (g_dx (p_params p))) <= 2 ^ 53)%Z -> (2 * Z.of_nat (List.length (g_dy (p_params p))) <= 2 ^ 53)%Z ->
  nth_error (g_dx (p_params p)) (List.length (g_dx (p_params p)) - 1) = Some mx ->
  nth_error (g_dy (p_params p)) (List.length (g_dy (p_params p)) - 1) = Some my ->
  xlt (XFin 0) (val mx) -> xlt (XFin 0) (val my) ->
  g' = fst (extend_grid (p_params p)) ->
  snd (extend_grid (p_params p)) = Ok tt /\ p_shape (with_params p g') <> shape3 g' /\
  forall f f' d, run f (gprop_save (with_params p g') d) = (f', Ok tt) ->
    gprop_load f' (PStr d) (EIs (p_name p)) (EIs (p_unit p)) = Err LoadErr.
Proof.
  intros Hp Hr He Hx Hy Sx Sy Mx My Px Py Hg.
  destruct (extend_ok Hr He Hx Hy Sx Sy Mx My Px Py) as (e & Ee & E). rewrite E in Hg |- *. cbn [fst snd] in *. subst g'.
  destruct (reach_shapes Hp) as (Hsh & _). destruct (reachable_consistent Hr) as [Hc _].
  assert (Q : p_shape p <> [2 * List.length (g_dy (p_params p)) - 1; 2 * List.length (g_dx (p_params p)) - 1; List.length (g_rfa (p_params p))]).
  { rewrite Hsh. unfold shape3. rewrite Hc. unfold shape_of_vectors. intros X. inversion X. lia. }
  split; auto. split; [exact Q|]. intros f f' d H. apply (@prop_mismatch T NT LT f f' d (with_params p _)) with (3 := H); [|exact Q].
  split; cbn [with_params p_params g_shape g_dx g_dy g_rfa g_ext]; [|exact Ee]. unfold shape_of_vectors. rewrite !linspace_length. reflexivity.
Qed.

(** *** a bool position is lost *)
Theorem bool_position fmt (g : ggrad T) b d (f f' : fs T) : measured g -> gg_pos g = PBool b ->
  run f (grad_save fmt g d) = (f', Ok tt) -> grad_load f' (gradient_dir fmt g d) = Err LoadErr.
Proof.
  intros Hg Hb H. assert (Hi := measured_inv Hg). destruct Hi as (I1 & I2 & I3 & I4 & _).
  destruct (@grad_save_get _ _ fmt g d f f' I3 I4 H) as (_ & _ & C & _). assert (Cp := C "position.npy"%string _ (or_introl eq_refl)).
  rewrite Hb in Cp. unfold grad_load. destruct (np_load f' (under _ (data_file GRADIENT NONE))) as [[[dt sh] el]|]; cbn [bind]; auto.
  destruct (params_load f' _); cbn [bind]; auto. unfold np_load at 1. rewrite Cp. cbn [np_array all_some fold_right forallb is_bool_v andb bind snd map np_item].
  unfold new_grad. destruct (new_gprop _ _ _ _); cbn [bind]; auto.
Qed.

(** *** witnesses *)
Lemma small_grid : exists g : gparams T, reachable g /\ shape3 g = [1; 2; 1].
Proof.
  assert (S : Forall (@small T) [PInt 0; PInt 2; PInt 2; PInt 0; PInt 1; PInt 1; PInt 2; PInt 1]).
  { repeat (apply Forall_cons; [cbn; lia|]). apply Forall_nil. }
  assert (N : forall z, numberlike (PInt z : pyval)) by (intros; left; constructor).
  destruct (proj2 (new_params_accepted S)) as [g Hg].
  { split; [|split]; unfold axis_ok, rf_ok, count; cbn [value zof].
    - split; [apply N|]. split; [apply N|]. split; [intros [X|[X _]]; [cbn in X; lra|inversion X; lra]|]. split; [constructor|lia].
    - split; [apply N|]. split; [apply N|]. split; [intros [X|[X _]]; [cbn in X; lra|inversion X; lra]|]. split; [constructor|lia].
    - split; [apply N|]. split; [cbn; lra|]. split; [constructor|lia]. }
  exists g. split; [eapply rc_new; eauto|].
  destruct (new_params_sizes S Hg) as (A & B & _ & D & E & _). cbn [zof] in A, B, D. unfold shape3. rewrite E.
  replace (List.length (g_dy g)) with 1 by lia. replace (List.length (g_dx g)) with 2 by lia. replace (List.length (g_rfa g)) with 1 by lia. reflexivity.
Qed.

Lemma data_wf (x y : T) : arr_wf (PArr "float64" [1; 2; 1] [SF x; SF y]).
Proof. split; [reflexivity|]. split; [intros _; repeat constructor|discriminate]. Qed.

(** two points, the first masked *)
Lemma prop_ex (x y : T) n u : exists p : gprop T, preach p /\ reachable (p_params p) /\ p_name p = n /\ p_unit p = u /\
  p_shape p = [1; 2; 1] /\ p_data p = [x; y] /\ p_mask p = Some (bool_marr [1; 2; 1] [true; false]).
Proof.
  destruct small_grid as (g & Hr & Hs).
  assert (P0 : preach (fresh n u g [SF x; SF y])).
  { eapply pr_new; [exact (data_wf x y)|]. apply new_gprop_iff. exists n, u, g, [SF x; SF y]. rewrite Hs. auto 6. }
  exists (do_pop (fresh n u g [SF x; SF y]) (PSetMask (PArr "bool" [1; 2; 1] [SB true; SB false]))).
  split.
  - apply pr_op; [|exact P0]. split; [reflexivity|]. split; [discriminate|intros _; repeat constructor].
  - cbn [do_pop]. rewrite (proj2 (set_mask_ok _ (with_mask (fresh n u g [SF x; SF y]) (Some (mkMarr "bool" [1; 2; 1] [SB true; SB false]))) _)).
    + cbn [fst]. unfold fresh. cbn [with_mask with_colors with_limits p_params p_name p_unit p_shape p_data p_mask map num_scal]. rewrite Hs. auto 8.
    + exists [SB true; SB false]. unfold fresh. cbn [with_mask with_colors with_limits p_shape]. rewrite Hs. auto.
Qed.
Lemma prop_ex_unmasked (x y : T) n u : exists p : gprop T, preach p /\ reachable (p_params p) /\ p_name p = n /\ p_unit p = u /\
  p_shape p = [1; 2; 1] /\ p_data p = [x; y] /\ p_mask p = None.
Proof.
  destruct small_grid as (g & Hr & Hs). exists (fresh n u g [SF x; SF y]). split.
  - eapply pr_new; [exact (data_wf x y)|]. apply new_gprop_iff. exists n, u, g, [SF x; SF y]. rewrite Hs. auto 6.
  - unfold fresh. cbn [with_mask with_colors with_limits p_params p_name p_unit p_shape p_data p_mask map num_scal]. auto 8.
Qed.

Theorem read_pure_refuted : ~ (forall (p : gprop T) v, preach p -> fst (get_data p v) = p).
Proof.
  intros H. destruct (prop_ex n_one n_one DISK_RADIUS DEGREE) as (p & Hp & _ & _ & _ & _ & Hd & Hm).
  assert (X := H p (PBool true) Hp). assert (Y := masked_read_destroys (i:=0) [] Hp). rewrite Hd, Hm in Y. cbn [do_pops fold_left] in Y. rewrite X in Y.
  destruct Y as (z & Y1 & Y2); [cbn; lia|reflexivity|]. rewrite Hd in Y1. cbn in Y1. inversion Y1; subst z. rewrite val_one in Y2. discriminate Y2.
Qed.

(** a gradient over the two points *)
Lemma grad_ex (x y : T) pos : numberlike pos -> exists g : ggrad T, measured g /\ reachable (p_params (gg_prop g)) /\ gg_pos g = pos /\
  gg_meas g = None /\ p_data (gg_prop g) = [x; y] /\ p_shape (gg_prop g) = [1; 2; 1].
Proof.
  intros Hn. destruct small_grid as (gp & Hr & Hs). exists (mkGG (fresh GRADIENT NONE gp [SF x; SF y]) pos None None None None). split.
  - eapply ms_new with (p := EIs gp); [exact (data_wf x y)|]. apply grad_new_iff. exists gp, [SF x; SF y]. rewrite Hs. split; [reflexivity|]. split; [reflexivity|]. split; [exact Hn|reflexivity].
  - unfold fresh. cbn [gg_prop gg_pos gg_meas with_mask with_colors with_limits p_params p_name p_unit p_shape p_data p_mask map num_scal]. auto 8.
Qed.
End G.

(** half measured at unit scale: 1/4 is masked, 3/4 is not *)
Lemma half_ok : measure_ok (PFloat (XFin (1/2)) : pyval xr) (PInt 1) None None.
Proof.
  split; [right; constructor|]. split; [cbn; lra|]. split; [left; constructor|]. split; [cbn; lra|]. split; discriminate.
Qed.
Lemma half_small : Forall (@small xr) [PFloat (XFin (1/2)); PInt 1] /\ osmall (None : option (pyval xr)).
Proof. split; [repeat apply Forall_cons; try apply Forall_nil; cbn; auto; lia|exact I]. Qed.
Lemma grad_half_ex : exists g g' : ggrad xr, measured g /\ reachable (p_params (gg_prop g)) /\ gg_pos g = PFloat (XFin (1/8)) /\
  determine_mask g (PFloat (XFin (1/2))) (PInt 1) None None = (g', Ok tt) /\
  measured g' /\ reachable (p_params (gg_prop g')) /\ storable g' /\ gg_meas g' = Some (PFloat (XFin (1/2))) /\
  p_data (gg_prop g') = [XFin (1/4); XFin (3/4)] /\
  marked (p_mask (gg_prop g')) 0 = true /\ marked (p_mask (gg_prop g')) 1 = false.
Proof.
  destruct (@grad_ex xr _ _ (XFin (1/4)) (XFin (3/4)) (PFloat (XFin (1/8)))) as (g & Hg & Hr & Hp & _ & Hd & _); [right; constructor|].
  destruct half_small as [S1 S2].
  destruct (mask_real (c:=1) g S1 S2 S2 half_ok eq_refl eq_refl eq_refl) as [A B]; [lra|].
  assert (L : (1 / 2 * 1 / 1 <= 1)%R) by lra. destruct (B L) as [_ B2]. apply A in L.
  destruct (determine_mask g (PFloat (XFin (1/2))) (PInt 1) None None) as [g' [[]|]] eqn:E; [|discriminate L]. cbn [fst] in B2.
  exists g, g'. split; [exact Hg|]. split; [exact Hr|]. split; [exact Hp|]. split; [exact E|]. split; [eapply ms_det; eauto|].
  apply determine_ok_fields in E; [|cbn; auto; lia..]. destruct E as (_ & _ & _ & ->).
  cbn [gg_prop masked_with set_fields with_prop with_mask p_params p_data gg_meas] in *. rewrite Hd in *.
  split; [exact Hr|]. split. { unfold storable. cbn [gg_pos masked_with set_fields with_prop gg_meas gg_orb gg_trans gg_err]. rewrite Hp. split; [exact I|]. split; [reflexivity|]. intros _. eexists. split; [left; reflexivity|reflexivity]. }
  split; [reflexivity|]. split; [reflexivity|]. split.
  - destruct (marked _ 0) eqn:E; auto. assert (X := proj1 (B2 0 _ eq_refl) E). destruct X as [X|(r & X & Y)]; [discriminate|]. inversion X; subst. lra.
  - apply (proj2 (B2 1 _ eq_refl)). right. eexists. split; [reflexivity|lra].
Qed.

(** a rejected measurement *)
Lemma two_ok : measure_ok (PInt 2 : pyval xr) (PInt 1) None None /\ Forall (@small xr) [PInt 2; PInt 1].
Proof.
  split.
  - split; [left; constructor|]. split; [cbn; lra|]. split; [left; constructor|]. split; [cbn; lra|]. split; discriminate.
  - repeat apply Forall_cons; try apply Forall_nil; cbn; lia.
Qed.
Lemma two_rejected (g : ggrad xr) : snd (determine_mask g (PInt 2) (PInt 1) None None) = Err ValueError /\
  gg_meas (fst (determine_mask g (PInt 2) (PInt 1) None None)) = Some (PInt 2) /\
  gg_prop (fst (determine_mask g (PInt 2) (PInt 1) None None)) = gg_prop g.
Proof.
  destruct two_ok as [M S]. inversion S as [|? ? S1 S']; subst. inversion S' as [|? ? S2 _]; subst.
  destruct (@rejected_scaled xr _ _ g (fst (determine_mask g (PInt 2) (PInt 1) None None)) (PInt 2) (PInt 1) None None S1 S2 I I M) with (3 := eq_refl (fst (determine_mask g (PInt 2) (PInt 1) None None))) as (A & B & C & _).
  - cbn [py_zero transmission value]. intros X. inversion X. lra.
  - rewrite (@scaled_exact _ _ _ 2 1 1); try reflexivity; try (left; constructor); try (cbn; lia); try lra. cbn. lra.
  - auto.
Qed.
Theorem determine_atomic_refuted : ~ (forall (g : ggrad xr) m s t e x, measured g ->
  snd (determine_mask g m s t e) = Err x -> scaled_gradient (fst (determine_mask g m s t e)) = scaled_gradient g).
Proof.
  intros H. destruct grad_half_ex as (g & _ & Hg & _). destruct (two_rejected g) as (A & _).
  destruct (@grad_ex xr _ _ (XFin 0) (XFin 0) (PInt 0)) as (h & Hh & _ & _ & Hm & _); [left; constructor|].
  destruct (two_rejected h) as (B & _ & _). assert (X := H h _ _ _ _ _ Hh B). unfold scaled_gradient at 2 in X. rewrite Hm in X.
  destruct two_ok as [M S]. inversion S as [|? ? S1 S']; subst. inversion S' as [|? ? S2 _]; subst.
  destruct (@rejected_scaled xr _ _ h (fst (determine_mask h (PInt 2) (PInt 1) None None)) (PInt 2) (PInt 1) None None S1 S2 I I M) with (3 := eq_refl (fst (determine_mask h (PInt 2) (PInt 1) None None))) as (_ & _ & _ & _ & _ & D).
  - cbn [py_zero transmission value]. intros Y. inversion Y. lra.
  - rewrite (@scaled_exact _ _ _ 2 1 1); try reflexivity; try (left; constructor); try (cbn; lia); try lra. cbn. lra.
  - specialize (D []). cbn [map do_gops fold_left] in D. congruence.
Qed.

Section G2.
Context {T : Type} {NT : Num T} {LT : NumLaws T}.
Theorem constructed_iff (name : earg pname) (unit : earg punit) (data : pyval T) (params : earg (gparams T)) :
  (exists p, new_gprop name unit data params = Ok p) <->
  exists n u g el, name = EIs n /\ unit = EIs u /\ params = EIs g /\ data = PArr "float64" (shape3 g) el.
Proof.
  split.
  - intros [p H]. apply new_gprop_iff in H. destruct H as (n & u & g & el & -> & -> & -> & -> & _). exists n, u, g, el. auto.
  - intros (n & u & g & el & -> & -> & -> & ->). exists (fresh n u g el). apply new_gprop_iff. exists n, u, g, el. auto 6.
Qed.
Theorem constructed_fields n u sh el (g : gparams T) p : new_gprop (EIs n) (EIs u) (PArr "float64" sh el) (EIs g) = Ok p ->
  p_name p = n /\ p_unit p = u /\ p_params p = g /\ p_shape p = sh /\ p_data p = map (@num_scal T _) el /\ p_mask p = None.
Proof.
  intros H. apply new_gprop_iff in H. destruct H as (n' & u' & g' & el' & E1 & E2 & E3 & E4 & ->). inversion E1; inversion E2; inversion E3; inversion E4; subst.
  unfold fresh. cbn [with_colors with_limits p_name p_unit p_params p_shape p_data p_mask]. auto 8.
Qed.
(** saving into a new directory *)
Lemma save_new (p : gprop T) : exists f', run [] (gprop_save p "d") = (f', Ok tt).
Proof. apply prop_save_succeeds; [right; repeat split; discriminate|]. intros n _. discriminate. Qed.
Lemma run_cat (l1 l2 : list (step T)) f f1 f2 : run f l1 = (f1, Ok tt) -> run f1 l2 = (f2, Ok tt) -> run f (l1 ++ l2) = (f2, Ok tt).
Proof. intros A B. rewrite (run_app _ _ _ A). exact B. Qed.
End G2.

(** *** saving a gradient succeeds *)
Section G3.
Context {T : Type} {NT : Num T} {LT : NumLaws T}.
Lemma slashfree_app a b : slashfree (a ++ b) = slashfree a && slashfree b.
Proof. induction a as [|c a IH]; cbn; auto. rewrite IH, andb_assoc. reflexivity. Qed.

(** steps of save_gradient below [gd] and in [d] *)
Lemma gprop_save_steps (p : gprop T) d s : In s (gprop_save p d) -> s = SMkdirIf d \/ exists n c, s = SWrite (under d n) c /\ In n (map fst (gprop_files p ++ params_files (p_params p))).
Proof.
  rewrite gprop_save_eq. unfold writes. intros [<-|H]; auto. apply in_app_or in H. rewrite map_app.
  destruct H as [H|[<-|H]]; auto; apply in_map_iff in H; destruct H as (x & <- & H); right; exists (fst x), (snd x); split; auto; apply in_or_app; [left|right]; apply in_map; auto.
Qed.

Theorem grad_save_succeeds fmt (g : ggrad T) d (f : fs T) : let gd := gradient_dir fmt g d in
  fs_get f d = Some NDir -> slashfree (fmt (num_of (gg_pos g))) = true ->
  (fs_get f gd = None \/ fs_get f gd = Some NDir) -> (forall n, fs_get f (under gd n) <> Some NDir) ->
  (forall n, In n param_files -> fs_get f (under d n) <> Some NDir) ->
  exists f', run f (grad_save fmt g d) = (f', Ok tt).
Proof.
  intros gd Hd Hf Hg Hu Hp. rewrite grad_save_eq. fold gd.
  assert (Hne : gd <> EmptyString) by (unfold gd, gradient_dir, under; destruct d; discriminate).
  assert (Ug : usable f gd).
  { destruct Hg as [Hg|Hg]; [right|left; auto]. split; auto. split; auto. unfold gd, gradient_dir.
    apply parent_ok_under; auto. }
  destruct (mkdirif_usable Ug) as (f1 & E1 & D1 & O1).
  assert (N1 : forall n, fs_get f1 (under gd n) <> Some NDir) by (intros n; rewrite O1 by apply under_neq; auto).
  destruct (@prop_save_succeeds T f1 gd (gg_prop g)) as (f2 & E2); [left; auto|auto|].
  assert (X2 : f2 = fst (run f1 (gprop_save (gg_prop g) gd))) by now rewrite E2.
  assert (D2 : fs_get f2 gd = Some NDir).
  { rewrite X2. apply run_dir; auto. intros s Hs. apply gprop_save_steps in Hs. destruct Hs as [->|(? & ? & -> & _)]; intros []. }
  assert (N2 : forall n, fs_get f2 (under gd n) <> Some NDir).
  { intros n. rewrite X2. apply run_notdir; auto. intros s Hs. apply gprop_save_steps in Hs. destruct Hs as [->|(? & ? & -> & _)]; intros H; [|destruct H].
    cbn in H. eapply under_neq; eauto. }
  destruct (@writes_run T gd (grad_files g) f2) as (f3 & E3); auto.
  { unfold grad_files. constructor; [reflexivity|]. destruct (gg_meas g); constructor; [reflexivity|constructor]. }
  assert (X3 : f3 = fst (run f2 (writes gd (grad_files g)))) by now rewrite E3.
  assert (O3 : forall n, slashfree n = true -> (forall q, n <> ("gradient_" ++ q)%string) -> fs_get f3 (under d n) = fs_get f (under d n)).
  { intros n Hs Hq. assert (A : under d n <> gd) by (unfold gd, gradient_dir; intros E; apply under_inj in E; eapply Hq; eauto).
    assert (B : forall m, under d n <> under gd m) by (intros m E; unfold gd in E; rewrite under_gradient in E; apply under_inj in E; eapply Hq; eauto).
    rewrite X3, run_other; [rewrite X2, run_other; [apply O1; auto|]|].
    - intros s H. apply gprop_save_steps in H. destruct H as [->|(? & ? & -> & _)]; cbn; [auto|apply B].
    - intros s H. unfold writes in H. apply in_map_iff in H. destruct H as (x & <- & _). cbn. apply B. }
  assert (D3 : fs_get f3 d = Some NDir).
  { rewrite X3. apply run_dir; [intros s Hs; unfold writes in Hs; apply in_map_iff in Hs; destruct Hs as (x & <- & _); intros []|].
    rewrite X2. apply run_dir; [intros s Hs; apply gprop_save_steps in Hs; destruct Hs as [->|(? & ? & -> & _)]; intros []|].
    rewrite O1; auto. unfold gd, gradient_dir. intros E. symmetry in E. eapply under_neq; eauto. }
  destruct (@params_save_succeeds T (p_params (gg_prop g)) f3 d) as (f4 & E4); [left; auto| |].
  { intros n Hn. rewrite O3; auto; cbn in Hn; destruct Hn as [<-|[<-|[<-|[<-|[]]]]]; (reflexivity || discriminate). }
  exists f4. cbn [app run]. rewrite E1. rewrite (run_app _ _ _ E2), (run_app _ _ _ E3). exact E4.
Qed.
End G3.
