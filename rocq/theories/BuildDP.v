(** Exact arithmetic: large enough grids are built. *)
From Coq Require Import ZArith List Bool String Lia Reals Lra.
From Verif Require Import Num NumP Py SpecNum Validate ValidateP Ring RingP RingSystem XLibm FS FSP GridParams SpecGrid GridParamsP GridParamsXP GridDiag GridDiagP GridCrashP
  Names GridProp SpecProp GridPropP Geometry GeomP Build SpecBuild BuildP BuildQP StretchP BuildXP InterpP Shallot BuildGP BuildGridP BuildCP.
Import ListNotations.
Set Implicit Arguments.
Local Open Scope string_scope.
Local Open Scope list_scope.
Local Open Scope R_scope.

Lemma np_max_fin a b : np_max (XFin a) (XFin b) = XFin (Rmax a b).
Proof.
  unfold np_max. cbn [n_isnan n_le Num_xr x_isnan]. unfold x_le. cbn [x_lt x_eq]. unfold Rmax.
  destruct (Rlt_dec b a), (Rle_dec a b); cbn [orb]; try lra; try reflexivity; destruct (Req_EM_T b a) as [->|]; reflexivity || lra.
Qed.
Lemma amax_from l q b : (forall x, In x l -> exists r, x = XFin r /\ r <= b) -> q <= b -> (q = b \/ In (XFin b) l) ->
  fold_left (@np_max xr _) l (XFin q) = XFin b.
Proof.
  revert q; induction l as [|x l IH]; intros q Hl Hq Hb; cbn [fold_left].
  - destruct Hb as [->|[]]. reflexivity.
  - destruct (Hl x (or_introl eq_refl)) as (r & -> & Hr). rewrite np_max_fin. apply IH; [intros; apply Hl; now right|apply Rmax_lub; auto|].
    destruct Hb as [->|[Hb|Hb]]; [left; apply Rmax_left; auto| |now right]. injection Hb as ->. left. apply Rmax_right; auto.
Qed.
Lemma amax_spaced l a b n : equally_spaced l a b n -> (2 <= n)%nat -> a <= b -> amax l = XFin b.
Proof.
  intros H Hn Hab. assert (R := spaced_range H Hn Hab). destruct (equally_spaced_ends Hn H) as [_ He]. apply nth_error_In in He.
  destruct l as [|x l]; [destruct He|]. cbn [amax]. destruct (R x (or_introl eq_refl)) as (q & -> & Hq). apply amax_from; [|lra|].
  - intros y Hy. destruct (R y (or_intror Hy)) as (r & -> & Hr). exists r. split; auto; lra.
  - destruct He as [He|He]; [left; now injection He|now right].
Qed.

(** room for the scale factors of shear [s] up to the fraction [F] on an axis ending at [M] *)
Definition room (M F s : R) : Prop := 1 <= M /\ F * (Rabs s + 1) <= (100 * M - 1) * M.
Lemma room_roomy M F s f : 1 <= F -> room M F s -> 100 * M <= INR f -> roomy s M F f.
Proof.
  intros HF [HM H] Hf. split; auto. exists (up (100 * M) - 1)%Z. destruct (archimed (100 * M)) as [A B].
  rewrite minus_IZR. assert (As := Rabs_pos s). split; [|split; [|split]].
  - assert (1 < up (100 * M))%Z by (apply lt_IZR; lra). lia.
  - assert (up (100 * M) - 1 < Z.of_nat f + 1)%Z; [|lia]. apply lt_IZR. rewrite minus_IZR, plus_IZR, <- INR_IZR_INZ. lra.
  - lra.
  - eapply Rle_trans; [exact H|]. apply Rmult_le_compat_r; lra.
Qed.

Section X.
Context (E : env xr) (HE : e_libm E = Libm_xr) (nf : pyval xr) (n : nat) (Hnf : num_index nf = Ok n) (Hn : (2 <= n)%nat).

Lemma point_builds (g : gparams xr) Mx My F dy s : 1 <= F -> amax (g_dx g) = XFin Mx -> amax (g_dy g) = XFin My -> last_opt (g_rf g) = Ok (XFin F) ->
  room Mx F s -> room My F s -> 100 * Mx <= INR (e_fuel E) -> 100 * My <= INR (e_fuel E) ->
  exists col, grid_point E g nf (XFin dy) (XFin s) (circular_radius (e_libm E) (XFin dy)) = Ok col.
Proof.
  intros HF H1 H2 H3 R1 R2 F1 F2. rewrite HE, radius_xr. assert (Hc := radius_pos dy). unfold grid_point. rewrite H1, H2, H3. cbn [bind].
  assert (Q1 := @room_roomy Mx F s _ HF R1 F1). assert (Q2 := @room_roomy My F s _ HF R2 F2).
  destruct (@loops_succeed E HE nf n Hnf Hn dy s (radius_of dy) Hc Mx My F Q1 Q2) as (h & v & Eh & Ev & Hf & Hp & Hne).
  rewrite Eh. cbn [bind]. rewrite Ev. cbn [bind].
  assert (Hlen : List.length (fst v) = List.length (snd v)).
  { assert (S1 := samples E _ _ _ _ _ _ _ Eh Ev). apply Forall2_len in S1. exact S1. }
  destruct (@interpolate_total xr _ _ E (g_rf g) (XFin dy) (fst v) (snd v)) as [r Hr]; auto.
  { destruct (snd v) as [|x l]; [congruence|]. inversion Hp as [|? ? (q & -> & _)]; subst. exists (XFin q). split; [now left|discriminate]. }
  rewrite Hr. cbn [bind]. rewrite (@checks_ok E HE n Hn s (radius_of dy) Hc). cbn [bind]. eauto.
Qed.

(** the grid parameters made by the constructor, with room at every point: the grid is built *)
Theorem grid_builds (mnx mxx nx mny mxy ny mxr nr : pyval xr) g x0 x1 y0 y1 r1 ll inter :
  Forall small [mnx; mxx; nx; mny; mxy; ny; mxr; nr] ->
  value mnx = XFin x0 -> value mxx = XFin x1 -> value mny = XFin y0 -> value mxy = XFin y1 -> value mxr = XFin r1 ->
  new_params mnx mxx nx mny mxy ny mxr nr = Ok g ->
  (2 <= zof nx)%Z -> (2 <= zof ny)%Z -> (2 <= zof nr)%Z -> (2 * zof nx <= 2 ^ 53)%Z -> (2 * zof ny <= 2 ^ 53)%Z ->
  number ll true (PInt 10) (PInt 50) false = Ok ll -> number nf true (PInt 1) p_inf false = Ok nf ->
  (forall i j, (i < List.length (g_dy g))%nat -> (j < List.length (g_dx g))%nat ->
     let dy := spaced y0 y1 (Z.to_nat (zof ny)) i in let dx := spaced x0 x1 (Z.to_nat (zof nx)) j in
     dy <> 0 \/ dx = 0 -> room x1 r1 (dx / dy) /\ room y1 r1 (dx / dy)) ->
  100 * x1 <= INR (e_fuel E) -> 100 * y1 <= INR (e_fuel E) ->
  exists og l s, new_shallot E (EIs g) nf ll (PBool false) (PBool inter) = (og, (l, Ok s)).
Proof.
  intros HS V1 V2 V3 V4 V5 Hg Nx Ny Nr Bx By Hll Hnn Hroom Fx Fy.
  destruct (new_params_spaced HS V1 V2 V3 V4 V5 Hg) as (L1 & L2 & L3 & Sx & _ & Sy & _ & Sr & _ & _). specialize (Sx Nx). specialize (Sy Ny). specialize (Sr Nr).
  assert (Hpr := new_proper HS Hg).
  assert (Mx := amax_spaced Sx ltac:(lia) ltac:(lra)). assert (My := amax_spaced Sy ltac:(lia) ltac:(lra)).
  assert (Lr : last_opt (g_rf g) = Ok (XFin r1)). { apply last_opt_nth. rewrite (proj1 Sr). destruct (equally_spaced_ends (n:=Z.to_nat (zof nr)) ltac:(lia) Sr) as [_ X]. exact X. }
  apply constructor_succeeds; auto.
  - intros y x Hy Hx dy sh Hsh.
    assert (Ey : nth y (g_dy g) n_nan = XFin (spaced y0 y1 (Z.to_nat (zof ny)) y)) by (apply nth_error_nth; apply (proj2 Sy); rewrite <- (proj1 Sy); auto).
    assert (Ex : nth x (g_dx g) n_nan = XFin (spaced x0 x1 (Z.to_nat (zof nx)) x)) by (apply nth_error_nth; apply (proj2 Sx); rewrite <- (proj1 Sx); auto).
    specialize (Hroom y x Hy Hx). cbn zeta in Hroom. unfold sh, dy in *. rewrite Ey, Ex in *. clear sh dy Ey Ex.
    set (dy := spaced y0 _ _ _) in *. set (dx := spaced x0 _ _ _) in *. rewrite shear_xr in *. destruct (Req_EM_T dy 0) as [Ed|Ed].
    + destruct (Req_EM_T dx 0) as [Ez|Ez]; [|discriminate Hsh]. destruct (Hroom (or_intror Ez)) as [R1 R2].
      replace (dx / dy) with 0 in * by (rewrite Ez; unfold Rdiv; ring). apply point_builds with (Mx := x1) (My := y1) (F := r1); auto.
    + destruct (Hroom (or_introl Ed)) as [R1 R2]. assert (Ea : Rabs (- dx / dy) = Rabs (dx / dy)) by (replace (- dx / dy) with (- (dx / dy)) by (field; auto); apply Rabs_Ropp).
      apply point_builds with (Mx := x1) (My := y1) (F := r1); auto; unfold room in *; rewrite Ea; auto.
  - destruct (g_ext g) eqn:Eg; [right|now left]. destruct (@extend_mirrors mnx mxx nx mny mxy ny mxr nr g x0 x1 y0 y1 HS V1 V2 V3 V4 Hg Eg) as (g' & He & _); auto. eauto.
Qed.
End X.

(** the throw-away grid of load is built *)
Lemma dummy_params : exists g : gparams xr, new_params (PInt 0) (PInt 1) (PInt 2) (PInt 0) (PInt 1) (PInt 2) (PInt 2) (PInt 2) = Ok g.
Proof.
  apply new_params_accepted; [repeat constructor; cbn; lia|].
  assert (N : forall z, numberlike (PInt z : pyval xr)) by (intros; left; constructor).
  split; [|split]; unfold axis_ok, rf_ok, count; cbn [value zof].
  - split; [apply N|]. split; [apply N|]. split; [intros [X|[X _]]; [cbn in X; lra|inversion X; lra]|]. split; [constructor|lia].
  - split; [apply N|]. split; [apply N|]. split; [intros [X|[X _]]; [cbn in X; lra|inversion X; lra]|]. split; [constructor|lia].
  - split; [apply N|]. split; [cbn; lra|]. split; [constructor|lia].
Qed.
Theorem dummy_builds (E : env xr) : e_libm E = Libm_xr -> (100 <= Z.of_nat (e_fuel E))%Z -> exists og l s, dummy E = (og, (l, Ok s)).
Proof.
  intros HE Hf. unfold dummy. destruct dummy_params as [g Hg]. rewrite Hg.
  assert (HS : Forall (@small xr) [PInt 0; PInt 1; PInt 2; PInt 0; PInt 1; PInt 2; PInt 2; PInt 2]) by (repeat constructor; cbn; lia).
  assert (Hfr : 100 <= INR (e_fuel E)) by (rewrite INR_IZR_INZ; apply IZR_le; lia).
  assert (Hl : List.length (g_dy g) = 2%nat /\ List.length (g_dx g) = 2%nat).
  { destruct (new_params_sizes HS Hg) as (A & B & _). cbn [zof] in A, B. lia. }
  apply (@grid_builds E HE (PInt 100) 100%nat) with (x0 := 0) (x1 := 1) (y0 := 0) (y1 := 1) (r1 := 2)
    (mnx := PInt 0) (mxx := PInt 1) (nx := PInt 2) (mny := PInt 0) (mxy := PInt 1) (ny := PInt 2) (mxr := PInt 2) (nr := PInt 2); auto; try (cbn [zof]; lia).
  - intros i j Hi Hj. rewrite (proj1 Hl) in Hi. rewrite (proj2 Hl) in Hj. cbn [zof]. change (Z.to_nat 2) with 2%nat. unfold spaced. change (2 - 1)%nat with 1%nat. cbn [INR].
    intros Hz. assert (H : forall u v, (u = 0 \/ u = 1) -> (v = 0 \/ v = 1) -> v <> 0 \/ u = 0 -> room 1 2 (u / v)).
    { intros u v Hu Hv Huv. split; [lra|]. assert (Rabs (u / v) <= 1); [|lra].
      destruct Hu as [-> | ->], Hv as [-> | ->]; try (exfalso; lra); unfold Rdiv; rewrite ?Rmult_0_l, ?Rinv_1, ?Rmult_0_r, ?Rabs_R0, ?Rmult_1_r, ?Rabs_R1; lra. }
    assert (K : forall k, (k < 2)%nat -> 0 + INR k * ((1 - 0) / 1) = 0 \/ 0 + INR k * ((1 - 0) / 1) = 1).
    { intros [|[|k]] Hk; [left|right|lia]; cbn [INR]; field. }
    split; apply H; auto.
  - rewrite Rmult_1_r. auto.
  - rewrite Rmult_1_r. auto.
Qed.
