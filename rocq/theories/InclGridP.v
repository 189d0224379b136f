(** The inclinations stored in a grid built in binary64. *)
From Coq Require Import ZArith Reals Lra Lia Bool List.
From Flocq Require Import Core BinarySingleNaN.
From Verif Require Import Num NumP Py SpecNum Validate ValidateP Ring RingP RingSystem XLibm FS FSP GridParams SpecGrid SpecAxis GridParamsP AxisF64P
  Names GridProp SpecProp GridPropP Geometry SpecGeom SpecF64 SpecEdge Round64P GeomF64P GeomP EdgeP DiskErrP DiskF64P EdgeErrP EdgeF64P EdgeContactP
  Build SpecBuild BuildP BuildQP StretchP Shallot BuildGP BuildGridP BuildCP BuildFP BuildEP WholeP GeomF64MoreP DiskF64ExP EdgeGridP InclF64P.
Import ListNotations.
Set Implicit Arguments.
Local Open Scope R_scope.

Section Grid.
Context (E : env f64) (e : R) (Acc : accurate (e_libm E) e) (He : bpow radix2 (-52) <= e <= / 1000000) (nf : pyval f64) (g : gparams f64) (Hr : reachable g).
Let ly := List.length (g_dy g). Let lx := List.length (g_dx g). Let nr := List.length (g_rfa g).
(** the place in the built quadrant of a place of the grid *)
Let row i := if g_ext g then from_middle ly i else i.
Let col j := if g_ext g then from_middle lx j else j.

(** every cell but those of the tilt is the cell of the quadrant *)
Lemma stored s w i j k : constructed E g nf s -> w <> WTilt ->
  (i < List.length (g_dy (s_params s)))%nat -> (j < List.length (g_dx (s_params s)))%nat -> (k < List.length (g_rfa (s_params s)))%nat ->
  List.length (g_rfa (s_params s)) = nr /\
  exists data, quadrant E g nf w data /\
    cell (List.length (g_dx (s_params s))) (List.length (g_rfa (s_params s))) (p_data (cube_of w s)) i j k = cell lx nr data (row i) (col j) k.
Proof.
  assert (Hp := reachable_proper Hr). intros [_ _ _ _ _ _ _ _ Hd] Hw Bi Bj Bk. unfold row, col. destruct Hd as [(X & Ep & Hd)|(X & Hext & Hd)]; rewrite X.
  - rewrite Ep in *. split; [reflexivity|]. exists (p_data (cube_of w s)). split; [apply Hd|reflexivity].
  - destruct (extended_sizes (pr_cons Hp) Hext) as (_ & _ & _ & _ & Ly & Lx & _ & Hrfa). rewrite Hrfa in *. split; [reflexivity|].
    destruct (Hd w) as (data & Q & [_ HR]). exists data. split; [exact Q|]. rewrite Lx in *. rewrite Ly in Bi. rewrite (HR i j k Bi Bj Bk).
    fold ly lx nr. destruct w; try contradiction; unfold adjusted; cbn [andb]; destruct (cell lx nr data _ _ k); reflexivity.
Qed.
Theorem grid_inclined ll keep inter og l s : new_shallot E (EIs g) nf ll keep inter = (og, (l, Ok s)) ->
  let p := s_params s in
  let at_ w i j k := cell (List.length (g_dx p)) (List.length (g_rfa p)) (p_data (cube_of w s)) i j k in
  forall i j k (dyv dxv fyv fxv : f64) dy dx fy fx sh, (i < List.length (g_dy p))%nat -> (j < List.length (g_dx p))%nat -> (k < List.length (g_rfa p))%nat ->
  nth_error (g_dy g) (row i) = Some dyv -> nth_error (g_dx g) (col j) = Some dxv ->
  f64_val dyv = XFin dy -> f64_val dxv = XFin dx -> f64_val (shear_at dxv dyv) = XFin sh -> loose dy -> Rabs dy <= bpow radix2 99 -> loose sh ->
  at_ WFy i j k = Some fyv -> f64_val fyv = XFin fy -> 0 < fy -> ordinary fy -> at_ WFx i j k = Some fxv -> f64_val fxv = XFin fx -> ordinary fx ->
  exists iv ic c R m, at_ WInclination i j k = Some iv /\ f64_val iv = XFin ic /\ f64_val (circular_radius (e_libm E) dyv) = XFin c /\
    largest_distance fx fy sh c R /\ smallest_distance fx fy sh c m /\ - (5 * e) <= degrees ic <= PI / 2 + 5 * e /\
    Rabs (degrees ic - acos (m / R)) <= 21 * sqrt e /\ Rabs (degrees ic - acos (m / R)) * acos (m / R) <= 420 * e.
Proof.
  intros H p at_ i j k dyv dxv fyv fxv dy dx fy fx sh Bi Bj Bk Hy Hx Vy Vx Vs Ly By Ls Cf Vf Pf Of Cx Vfx Ofx. assert (Hp := reachable_proper Hr).
  apply constructor_result in H as (_ & C & _); auto. unfold at_, p in *. clear at_ p.
  destruct (@stored s WFy i j k C ltac:(discriminate) Bi Bj Bk) as (En & data & Q & Ec). rewrite Ec in Cf. assert (Hk := Bk). rewrite En in Hk.
  assert (Cells := @quadrant_fx E nf g (row i) (col j) k dyv dxv fyv sh Hy Hx Hk Vs (ex_intro _ data (conj Q Cf))). cbv zeta in Cells.
  assert (Fx : fxv = determine_fx fyv dyv).
  { destruct (@stored s WFx i j k C ltac:(discriminate) Bi Bj Bk) as (_ & d & Qd & Ed). rewrite Ed in Cx. fold lx nr in Cells. rewrite (Cells WFx d Qd) in Cx. cbn [pick] in Cx. now injection Cx. }
  rewrite Fx in Vfx. assert (B0 := bpow_gt_0 radix2 (-52)).
  destruct (@contact64_fx dxv dyv fyv dx dy fx fy sh Vx Vy Vf Ly Pf Of Vs Vfx) as [Pfx _].
  destruct (@radius_accurate (e_libm E) e dyv dy Acc ltac:(lra) Vy By) as (c & Vc & Pc & Oc & _).
  destruct (@incl_accurate (e_libm E) e _ _ _ _ fx fy sh c Acc He Vfx Vf Vs Vc Pfx Pf Pc Ofx Of Ls Oc) as (rv & iv & tv & ic & R & m & G & Rest).
  exists iv, ic, c, R, m. split.
  - destruct (@stored s WInclination i j k C ltac:(discriminate) Bi Bj Bk) as (_ & d & Qd & Ed). rewrite Ed. fold lx nr in Cells. rewrite (Cells WInclination d Qd), G. reflexivity.
  - destruct Rest as (G1 & G2 & G3 & G4). split; [exact G1|]. split; [exact Vc|]. split; [exact G2|]. split; [exact G3|exact G4].
Qed.
End Grid.
