(** Example for the inclinations of a grid built in binary64. *)
From Coq Require Import ZArith Reals Lra Lia Bool List String.
From Flocq Require Import Core BinarySingleNaN.
From Verif Require Import Num NumP Py SpecNum Validate XLibm FS GridParams SpecGrid SpecAxis GridParamsP AxisF64P Names GridProp Geometry SpecGeom SpecF64 SpecEdge
  BuildFP Round64P GeomP GeomMoreP EdgeP GeomF64P GeomF64MoreP DiskErrP DiskF64P DiskF64ExP LibmF64P EdgeErrP EdgeF64P EdgeContactP Build SpecBuild BuildP InterpP BuildGP Shallot EdgeGridP EdgeThinP
  EdgeExP InclGridP.
Import ListNotations.
Set Implicit Arguments.
Local Open Scope R_scope.

(** the cell [i], [j], [k] holds the inclination of an ellipse up to 21 thousandths *)
Definition example_inclination (i j k : nat) (s : shallot f64) : Prop :=
  let p := s_params s in
  exists iv ic fx fy c R m, cell (List.length (g_dx p)) (List.length (g_rfa p)) (p_data (cube_of WInclination s)) i j k = Some iv /\ f64_val iv = XFin ic /\
    largest_distance fx fy (- / 4194304) c R /\ smallest_distance fx fy (- / 4194304) c m /\ 8000000 < R /\ / 8 * R <= m /\ Rabs (degrees ic - acos (m / R)) <= 21 / 1000.
Lemma sqrt_millionth : sqrt (/ 1000000) = / 1000.
Proof. replace (/ 1000000) with (/ 1000 * / 1000) by lra. apply sqrt_square. lra. Qed.
Lemma inclined_example : exists g og l s, grid_m = Ok g /\ g_ext g = true /\ new_shallot env_calc (EIs g) (PInt 2) (PInt 50) (PBool false) (PBool false) = (og, (l, Ok s)) /\ example_inclination 2 0 0 s.
Proof.
  destruct (holds_in _ _ m_test) as (g & og & l & s & G & N & H).
  apply (@placed_in _ _ _ (-2) 8388608) in H; [|apply (of_Z (-2)); vm_compute; discriminate|apply (of_Z (2 ^ 23)); vm_compute; discriminate].
  destruct H as (Ex & Bi & Bj & Bk & dyv & dxv & dyv' & dxv' & fyv & fxv & fy & fx & c & Ny & Nx & Ny' & Nx' & Cy & Cx & Vy & Vx & Vy' & Vx' & Vfy & Vfx & Vs & Vc & By & Bx & Bc).
  exists g, og, l, s. split; [exact G|]. split; [exact Ex|]. split; [exact N|].
  destruct (m_lengths G) as [Ly Lx].
  assert (K := @grid_inclined env_calc _ calc_accurate e_range (PInt 2) g (rc_new _ _ _ _ _ _ _ _ G) _ _ _ _ _ _ N). cbv zeta in K. rewrite Ex, Ly, Lx in K.
  destruct (K 2%nat 0%nat 0%nat dyv dxv fyv fxv 8388608 2 fy fx (- / 4194304)) as (iv & ic & c' & R & m & Z); auto; try (apply ex_loose_y || exact ex_loose || lra); try (apply ordinary_between; lra).
  destruct Z as (Z1 & Z2 & Z7 & Z8 & Z9 & _ & Z10 & _). cbn [e_libm env_calc] in Z7. rewrite Vc in Z7. injection Z7 as <-.
  destruct (@ex_size fx fy c R m By Bx Bc Z8 Z9) as (S1 & S2 & S3). rewrite sqrt_millionth in Z10.
  exists iv, ic, fx, fy, c, R, m. repeat (split; [assumption|]). split; [lra|]. split; [|lra].
  assert (S4 : R * R <= 8 * R * m). { apply Rmult_le_compat_r with (r := m) in S3; [|lra]. unfold Rdiv in S3. rewrite Rmult_assoc, Rinv_l, Rmult_1_r in S3 by lra. exact S3. }
  apply Rmult_le_reg_l with R; lra.
Qed.
