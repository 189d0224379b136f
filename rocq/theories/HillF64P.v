(** The radii stored in a grid built in binary64 and the mask of the Hill radius. *)
From Coq Require Import ZArith Reals Lra Lia Bool List.
From Flocq Require Import Core BinarySingleNaN.
From Verif Require Import Num NumP Py SpecNum Validate ValidateP Ring RingP RingSystem XLibm FS FSP GridParams SpecGrid SpecAxis GridParamsP AxisF64P
  Names GridProp SpecProp GridPropP Geometry SpecGeom SpecF64 SpecEdge Round64P GeomF64P GeomP EdgeP DiskErrP DiskF64P EdgeErrP EdgeF64P EdgeContactP
  Build SpecBuild BuildP BuildQP StretchP Shallot BuildGP BuildGridP BuildCP BuildFP BuildEP WholeP GeomF64MoreP DiskF64ExP EdgeGridP InclGridP AddLaws ShallotOps SpecOps OpsEditP OpsWrapP.
Import ListNotations SpecF64.
Set Implicit Arguments.
Local Open Scope R_scope.

Section Grid.
Context (E : env f64) (e : R) (Acc : accurate (e_libm E) e) (He : bpow radix2 (-52) <= e <= / 1000000) (nf : pyval f64) (g : gparams f64) (Hr : reachable g).
Let ly := List.length (g_dy g). Let lx := List.length (g_dx g). Let nr := List.length (g_rfa g).
Let row i := if g_ext g then from_middle ly i else i.
Let col j := if g_ext g then from_middle lx j else j.

Theorem grid_radius ll keep inter og l s : new_shallot E (EIs g) nf ll keep inter = (og, (l, Ok s)) ->
  let p := s_params s in
  let at_ w i j k := cell (List.length (g_dx p)) (List.length (g_rfa p)) (p_data (cube_of w s)) i j k in
  forall i j k (dyv dxv fyv fxv : f64) dy dx fy fx sh, (i < List.length (g_dy p))%nat -> (j < List.length (g_dx p))%nat -> (k < List.length (g_rfa p))%nat ->
  nth_error (g_dy g) (row i) = Some dyv -> nth_error (g_dx g) (col j) = Some dxv ->
  f64_val dyv = XFin dy -> f64_val dxv = XFin dx -> f64_val (shear_at dxv dyv) = XFin sh -> loose dy -> Rabs dy <= bpow radix2 99 -> loose sh ->
  at_ WFy i j k = Some fyv -> f64_val fyv = XFin fy -> 0 < fy -> ordinary fy -> at_ WFx i j k = Some fxv -> f64_val fxv = XFin fx -> ordinary fx ->
  exists rv r c R, at_ WRadius i j k = Some rv /\ f64_val rv = XFin r /\ f64_val (circular_radius (e_libm E) dyv) = XFin c /\
    largest_distance fx fy sh c R /\ Rabs (r - R) <= 22 * e * R.
Proof.
  intros H p at_ i j k dyv dxv fyv fxv dy dx fy fx sh Bi Bj Bk Hy Hx Vy Vx Vs Ly By Ls Cf Vf Pf Of Cx Vfx Ofx. assert (Hp := reachable_proper Hr).
  apply constructor_result in H as (_ & C & _); auto. unfold at_, p in *. clear at_ p.
  destruct (@stored E nf g Hr s WFy i j k C ltac:(discriminate) Bi Bj Bk) as (En & data & Q & Ec). rewrite Ec in Cf. assert (Hk := Bk). rewrite En in Hk.
  assert (Cells := @quadrant_fx E nf g (row i) (col j) k dyv dxv fyv sh Hy Hx Hk Vs (ex_intro _ data (conj Q Cf))). cbv zeta in Cells.
  assert (Fx : fxv = determine_fx fyv dyv).
  { destruct (@stored E nf g Hr s WFx i j k C ltac:(discriminate) Bi Bj Bk) as (_ & d & Qd & Ed). rewrite Ed in Cx. fold ly lx nr in Cx, Cells. fold (row i) (col j) in Cx. rewrite (Cells WFx d Qd) in Cx. cbn [pick] in Cx. now injection Cx. }
  rewrite Fx in Vfx. assert (B0 := bpow_gt_0 radix2 (-52)).
  destruct (@contact64_fx dxv dyv fyv dx dy fx fy sh Vx Vy Vf Ly Pf Of Vs Vfx) as [Pfx _].
  destruct (@radius_accurate (e_libm E) e dyv dy Acc ltac:(lra) Vy By) as (c & Vc & Pc & Oc & _).
  destruct (@edge64 (e_libm E) e _ _ _ _ fx fy sh c Acc He Vfx Vf Vs Vc Pfx Pf Pc Ofx Of Ls Oc) as (rv & iv & tv & r & ic & t & R & m & G & Vr & _ & _ & LR & _ & _ & Er & _).
  exists rv, r, c, R. split; [|auto].
  destruct (@stored E nf g Hr s WRadius i j k C ltac:(discriminate) Bi Bj Bk) as (_ & d & Qd & Ed). rewrite Ed. fold ly lx nr in Cells |- *. fold (row i) (col j). rewrite (Cells WRadius d Qd), G. reflexivity.
Qed.
Theorem grid_hill ll keep inter og l s h hr : new_shallot E (EIs g) nf ll keep inter = (og, (l, Ok s)) ->
  small h -> numberlike h -> value h = XFin hr -> 0 <= hr ->
  exists s', generate_hill_radius_mask h s = (s', Ok tt) /\ p_data (s_dr s') = p_data (s_dr s) /\
  let p := s_params s in
  let at_ w i j k := cell (List.length (g_dx p)) (List.length (g_rfa p)) (p_data (cube_of w s)) i j k in
  forall i j k (dyv dxv fyv fxv : f64) dy dx fy fx sh, (i < List.length (g_dy p))%nat -> (j < List.length (g_dx p))%nat -> (k < List.length (g_rfa p))%nat ->
  nth_error (g_dy g) (row i) = Some dyv -> nth_error (g_dx g) (col j) = Some dxv ->
  f64_val dyv = XFin dy -> f64_val dxv = XFin dx -> f64_val (shear_at dxv dyv) = XFin sh -> loose dy -> Rabs dy <= bpow radix2 99 -> loose sh ->
  at_ WFy i j k = Some fyv -> f64_val fyv = XFin fy -> 0 < fy -> ordinary fy -> at_ WFx i j k = Some fxv -> f64_val fxv = XFin fx -> ordinary fx ->
  exists c R, f64_val (circular_radius (e_libm E) dyv) = XFin c /\ largest_distance fx fy sh c R /\
    let b := marked (p_mask (s_dr s')) ((i * List.length (g_dx p) + j) * List.length (g_rfa p) + k) in
    (R * (1 + 22 * e) <= hr -> b = false) /\ (hr < R * (1 - 22 * e) -> b = true).
Proof.
  intros H Sh Nh Vh Ph. assert (SR : sreach E s) by (eapply sr_new; eauto).
  destruct (@hill_mask_exact f64 _ _ _ E s h SR Sh Nh) as (s' & A1 & A2 & _ & A4); [rewrite Vh; cbn; lra|].
  exists s'. split; [exact A1|]. split; [exact A2|]. intros p at_ i j k dyv dxv fyv fxv dy dx fy fx sh Bi Bj Bk Hy Hx Vy Vx Vs Ly By Ls Cf Vf Pf Of Cx Vfx Ofx.
  assert (K := @grid_radius _ _ _ _ _ _ H). cbv zeta in K.
  destruct (K i j k dyv dxv fyv fxv dy dx fy fx sh Bi Bj Bk Hy Hx Vy Vx Vs Ly By Ls Cf Vf Pf Of Cx Vfx Ofx) as (rv & r & c & R & C & Vr & Vc & LR & Er).
  exists c, R. split; [exact Vc|]. split; [exact LR|]. cbv zeta. specialize (A4 _ rv C).
  assert (Vr' : val rv = XFin r) by exact Vr. rewrite Vr', Vh in A4. cbn [xlt] in A4. apply Rabs_le_inv in Er. unfold p in *. split; intros Q.
  - apply not_true_is_false. intros F. apply A4 in F as [F|F]; [discriminate F|lra].
  - apply A4. right. lra.
Qed.
End Grid.
