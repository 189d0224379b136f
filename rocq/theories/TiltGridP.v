(** The tilts stored in a grid built in binary64. *)
From Coq Require Import ZArith Reals Lra Lia Bool List.
From Flocq Require Import Core BinarySingleNaN.
From Verif Require Import Num NumP Py SpecNum Validate ValidateP Ring RingP RingSystem XLibm FS FSP GridParams SpecGrid SpecAxis GridParamsP AxisF64P
  Names GridProp SpecProp GridPropP Geometry SpecGeom SpecF64 SpecEdge SpecTilt Round64P GeomF64P GeomP EdgeP DiskErrP DiskF64P EdgeErrP EdgeF64P EdgeContactP
  Build SpecBuild BuildP BuildQP StretchP Shallot BuildGP BuildGridP BuildCP BuildFP BuildEP WholeP GeomF64MoreP DiskF64ExP EdgeGridP TiltF64P InclGridP.
Import ListNotations.
Set Implicit Arguments.
Local Open Scope R_scope.

Lemma far_end_mirror fx fy s c R x y : far_end fx fy (- s) c R x y -> far_end fx fy s c R (- x) y.
Proof.
  intros [O D]. split.
  - apply ellipse_mirror_x in O. now rewrite Ropp_0, Ropp_involutive in O.
  - rewrite <- D. unfold dist. f_equal. ring.
Qed.
Lemma far_end_square fx fy s c R x y : far_end fx fy s c R x y -> x * x + y * y = R * R.
Proof. intros [_ D]. unfold dist in D. rewrite !Rminus_0_r in D. rewrite <- D. symmetry. apply sqrt_sqrt. assert (A1 := sq_ge x). assert (A2 := sq_ge y). lra. Qed.
Lemma off_turned t t' x y a : 0 <= a -> Rabs (degrees t' - degrees (180 - t)) <= a -> forall R, 0 < R -> x * x + y * y = R * R -> off_line t' x y <= off_line t (- x) y + 2 * a * R.
Proof.
  intros Pa H R PR Sq. assert (C := Rle_trans _ _ _ (cos_lip _ _) H). assert (S := Rle_trans _ _ _ (sin_lip _ _) H).
  assert (Ed : degrees (180 - t) = PI - degrees t) by (unfold degrees; field).
  rewrite Ed, Rtrigo_facts.cos_pi_minus in C. rewrite Ed, sin_PI_x in S.
  assert (Bx : Rabs x <= R /\ Rabs y <= R) by (assert (S1 := sq_ge x); assert (S2 := sq_ge y); split; apply Rabs_le; split; apply Rnot_lt_le; intros L; nra). destruct Bx as [X Y].
  unfold off_line. replace (x * sin (degrees t') - y * cos (degrees t')) with (- (- x * sin (degrees t) - y * cos (degrees t)) + (x * (sin (degrees t') - sin (degrees t)) + - (y * (cos (degrees t') - - cos (degrees t))))) by ring.
  apply Rle_trans with (1 := Rabs_triang _ _). rewrite Rabs_Ropp. apply Rplus_le_compat_l. assert (M2 := abs_mul_le Y C). rewrite <- Rabs_Ropp in M2. apply Rle_trans with (1 := abs_sum (abs_mul_le X S) M2). lra.
Qed.

Section Grid.
Context (E : env f64) (e : R) (Acc : accurate (e_libm E) e) (He : bpow radix2 (-52) <= e <= / 1000000) (nf : pyval f64) (g : gparams f64) (Hr : reachable g).
Let ly := List.length (g_dy g). Let lx := List.length (g_dx g). Let nr := List.length (g_rfa g).
Let row i := if g_ext g then from_middle ly i else i.
Let col j := if g_ext g then from_middle lx j else j.
(** the place is in one of the two quadrants whose tilts are turned *)
Let turned i j := g_ext g && xorb (Nat.ltb i ly) (Nat.ltb j lx).

Lemma stored_tilt s i j k : constructed E g nf s ->
  (i < List.length (g_dy (s_params s)))%nat -> (j < List.length (g_dx (s_params s)))%nat -> (k < List.length (g_rfa (s_params s)))%nat ->
  exists data, quadrant E g nf WTilt data /\
    cell (List.length (g_dx (s_params s))) (List.length (g_rfa (s_params s))) (p_data (cube_of WTilt s)) i j k =
    option_map (fun v => if turned i j then n_sub (n_ofZ 180) v else v) (cell lx nr data (row i) (col j) k).
Proof.
  assert (Hp := reachable_proper Hr). intros [_ _ _ _ _ _ _ _ Hd] Bi Bj Bk. unfold row, col, turned. destruct Hd as [(X & Ep & Hd)|(X & Hext & Hd)]; rewrite X; cbn [andb].
  - rewrite Ep in *. exists (p_data (cube_of WTilt s)). split; [apply Hd|]. fold lx nr. destruct (cell lx nr _ i j k); reflexivity.
  - destruct (extended_sizes (pr_cons Hp) Hext) as (_ & _ & _ & _ & Ly & Lx & _ & Hrfa). rewrite Hrfa in *.
    destruct (Hd WTilt) as (data & Q & [_ HR]). exists data. split; [exact Q|]. rewrite Lx in *. rewrite Ly in Bi. rewrite (HR i j k Bi Bj Bk).
    fold ly lx nr. unfold adjusted. cbn [andb]. destruct (cell lx nr data _ _ k); reflexivity.
Qed.
Theorem grid_tilted ll keep inter og l s : new_shallot E (EIs g) nf ll keep inter = (og, (l, Ok s)) ->
  let p := s_params s in
  let at_ w i j k := cell (List.length (g_dx p)) (List.length (g_rfa p)) (p_data (cube_of w s)) i j k in
  forall i j k (dyv dxv fyv fxv : f64) dy dx fy fx sh, (i < List.length (g_dy p))%nat -> (j < List.length (g_dx p))%nat -> (k < List.length (g_rfa p))%nat ->
  nth_error (g_dy g) (row i) = Some dyv -> nth_error (g_dx g) (col j) = Some dxv ->
  f64_val dyv = XFin dy -> f64_val dxv = XFin dx -> f64_val (shear_at dxv dyv) = XFin sh -> loose dy -> Rabs dy <= bpow radix2 99 -> loose sh ->
  at_ WFy i j k = Some fyv -> f64_val fyv = XFin fy -> 0 < fy -> ordinary fy -> at_ WFx i j k = Some fxv -> f64_val fxv = XFin fx -> ordinary fx ->
  exists tv t c R m, at_ WTilt i j k = Some tv /\ f64_val tv = XFin t /\ f64_val (circular_radius (e_libm E) dyv) = XFin c /\
    largest_distance fx fy sh c R /\ smallest_distance fx fy sh c m /\
    tilt_within (142 * e) fx fy (if turned i j then - sh else sh) c R m t.
Proof.
  intros H p at_ i j k dyv dxv fyv fxv dy dx fy fx sh Bi Bj Bk Hy Hx Vy Vx Vs Ly By Ls Cf Vf Pf Of Cx Vfx Ofx. assert (Hp := reachable_proper Hr).
  apply constructor_result in H as (_ & C & _); auto. unfold at_, p in *. clear at_ p.
  destruct (@stored E nf g Hr s WFy i j k C ltac:(discriminate) Bi Bj Bk) as (En & data & Q & Ec). rewrite Ec in Cf. assert (Hk := Bk). rewrite En in Hk.
  assert (Cells := @quadrant_fx E nf g (row i) (col j) k dyv dxv fyv sh Hy Hx Hk Vs (ex_intro _ data (conj Q Cf))). cbv zeta in Cells.
  assert (Fx : fxv = determine_fx fyv dyv).
  { destruct (@stored E nf g Hr s WFx i j k C ltac:(discriminate) Bi Bj Bk) as (_ & d & Qd & Ed). rewrite Ed in Cx. fold ly lx nr in Cx, Cells. fold (row i) (col j) in Cx. rewrite (Cells WFx d Qd) in Cx. cbn [pick] in Cx. now injection Cx. }
  rewrite Fx in Vfx. assert (B0 := bpow_gt_0 radix2 (-52)).
  destruct (@contact64_fx dxv dyv fyv dx dy fx fy sh Vx Vy Vf Ly Pf Of Vs Vfx) as [Pfx _].
  destruct (@radius_accurate (e_libm E) e dyv dy Acc ltac:(lra) Vy By) as (c & Vc & Pc & Oc & _).
  destruct (@tilt64 (e_libm E) e _ _ _ _ fx fy sh c Acc He Vfx Vf Vs Vc Pfx Pf Pc Ofx Of Ls Oc) as (rv & iv & tv & t & R & m & G & Vt & LR & Sm & W).
  destruct (@edge64 (e_libm E) e _ _ _ _ fx fy sh c Acc He Vfx Vf Vs Vc Pfx Pf Pc Ofx Of Ls Oc) as (rv1 & iv1 & tv1 & r1 & i1 & t1 & R1 & m1 & G' & _ & _ & Vt1 & LR1 & Sm1 & HmR & _ & Ht & _).
  assert (Et : tv1 = tv) by (rewrite G in G'; now injection G'). rewrite Et, Vt in Vt1. injection Vt1 as <-.
  assert (R1 = R) as ->. { destruct LR as [(x & y & O & D) M], LR1 as [(x1 & y1 & O1 & D1) M1]. apply Rle_antisym; [rewrite <- D1; now apply M|rewrite <- D; now apply M1]. }
  assert (m1 = m) as ->. { destruct Sm as [(x & y & O & D) M], Sm1 as [(x1 & y1 & O1 & D1) M1]. apply Rle_antisym; [rewrite <- D; now apply M1|rewrite <- D1; now apply M]. }
  destruct (@stored_tilt s i j k C Bi Bj Bk) as (d & Qd & Ed). fold lx nr in Cells. rewrite (Cells WTilt d Qd), G in Ed. cbn [pick fst snd option_map] in Ed.
  assert (PR : 0 < R) by lra. assert (eR : 0 < e * R) by (apply Rmult_lt_0_compat; lra). assert (mm : 0 <= m * m <= R * R) by (split; [apply sq_ge|apply Rmult_le_compat; lra]).
  assert (P4 : 0 < e * R * (R * (R * R))) by (repeat apply Rmult_lt_0_compat; lra).
  destruct (turned i j).
  - destruct (@turned_tilt e He g tv t Vt Ht) as (t' & Vt' & Et').
    exists (n_sub (n_ofZ 180) tv), t', c, R, m. split; [exact Ed|]. split; [exact Vt'|]. split; [exact Vc|]. split; [exact LR|]. split; [exact Sm|].
    intros x y O. assert (Sq := far_end_square O). apply far_end_mirror in O. specialize (W _ _ O).
    assert (T := @off_turned t t' x y (6 * e) ltac:(lra) Et' R PR Sq).
    assert (K0 : 0 <= m * (R * R - m * m)) by (apply Rmult_le_pos; lra).
    apply Rle_trans with ((off_line t (- x) y + 2 * (6 * e) * R) * (m * (R * R - m * m))); [apply Rmult_le_compat_r; auto|].
    assert (mK : m * (R * R - m * m) <= R * (R * R)) by (apply Rmult_le_compat; lra).
    assert (B2 : 12 * (e * R) * (m * (R * R - m * m)) <= 12 * (e * R) * (R * (R * R))) by (apply Rmult_le_compat_l; lra). lra.
  - exists tv, t, c, R, m. split; [exact Ed|]. split; [exact Vt|]. split; [exact Vc|]. split; [exact LR|]. split; [exact Sm|].
    intros x y O. apply Rle_trans with (1 := W x y O). lra.
Qed.
End Grid.
