(** Example for the mask of the Hill radius of a grid built in binary64. *)
From Coq Require Import ZArith Reals Lra Lia Bool List String.
From Flocq Require Import Core BinarySingleNaN.
From Verif Require Import Num NumP Py SpecNum Validate XLibm FS GridParams SpecGrid SpecAxis GridParamsP AxisF64P Names GridProp SpecProp Geometry SpecGeom SpecF64 SpecEdge
  BuildFP Round64P GeomP GeomMoreP EdgeP GeomF64P GeomF64MoreP DiskErrP DiskF64P DiskF64ExP LibmF64P EdgeErrP EdgeF64P EdgeContactP Build SpecBuild BuildP InterpP BuildGP Shallot EdgeGridP EdgeThinP
  EdgeExP ShallotOps SpecOps HillF64P.
Import ListNotations SpecF64.
Set Implicit Arguments.
Local Open Scope R_scope.

(** whether the cell [i], [j], [k] is masked once the mask of the Hill radius [h] was made *)
Definition hill_masks (h : Z) (i j k : nat) (s : shallot f64) (b : bool) : Prop :=
  exists s', generate_hill_radius_mask (PInt h) s = (s', Ok tt) /\
    marked (p_mask (s_dr s')) ((i * List.length (g_dx (s_params s)) + j) * List.length (g_rfa (s_params s)) + k) = b.
Lemma hill_example : exists g og l s, grid_m = Ok g /\ g_ext g = true /\ new_shallot env_calc (EIs g) (PInt 2) (PInt 50) (PBool false) (PBool false) = (og, (l, Ok s)) /\
  hill_masks 4000000 2 0 0 s true /\ hill_masks 100000000 2 0 0 s false.
Proof.
  destruct (holds_in _ _ m_test) as (g & og & l & s & G & N & H).
  apply (@placed_in _ _ _ (-2) 8388608) in H; [|apply (of_Z (-2)); vm_compute; discriminate|apply (of_Z (2 ^ 23)); vm_compute; discriminate].
  destruct H as (Ex & Bi & Bj & Bk & dyv & dxv & dyv' & dxv' & fyv & fxv & fy & fx & c & Ny & Nx & Ny' & Nx' & Cy & Cx & Vy & Vx & Vy' & Vx' & Vfy & Vfx & Vs & Vc & By & Bx & Bc).
  exists g, og, l, s. split; [exact G|]. split; [exact Ex|]. split; [exact N|].
  destruct (m_lengths G) as [Ly Lx].
  assert (Size : forall R, largest_distance fx fy (- / 4194304) c R -> 8000000 < R <= 30000000).
  { intros R LR. assert (Sm := @minor_smallest fx fy (- / 4194304) c ltac:(lra)). destruct (@ex_size fx fy c R _ By Bx Bc LR Sm) as (S1 & _ & _). lra. }
  assert (K : forall h, (0 <= h <= 2 ^ 53)%Z -> exists s' R, generate_hill_radius_mask (PInt h) s = (s', Ok tt) /\ 8000000 < R <= 30000000 /\
    let b := marked (p_mask (s_dr s')) ((2 * List.length (g_dx (s_params s)) + 0) * List.length (g_rfa (s_params s)) + 0) in
    (R * (1 + 22 * / 1000000) <= IZR h -> b = false) /\ (IZR h < R * (1 - 22 * / 1000000) -> b = true)).
  { intros h Hh. destruct (@grid_hill env_calc _ calc_accurate e_range (PInt 2) g (rc_new _ _ _ _ _ _ _ _ G) _ _ _ _ _ _ (PInt h) (IZR h) N) as (s' & A1 & _ & K).
    - cbn [small]. lia.
    - left. constructor.
    - reflexivity.
    - apply (IZR_le 0). lia.
    - cbv zeta in K. rewrite Ex, Ly, Lx in K.
      destruct (K 2%nat 0%nat 0%nat dyv dxv fyv fxv 8388608 2 fy fx (- / 4194304)) as (c' & R & Z7 & Z8 & Z); auto; try (apply ex_loose_y || exact ex_loose || lra); try (apply ordinary_between; lra).
      cbn [e_libm env_calc] in Z7. rewrite Vc in Z7. injection Z7 as <-. exists s', R. split; [exact A1|]. split; [exact (Size R Z8)|exact Z]. }
  split.
  - destruct (K 4000000%Z ltac:(lia)) as (s' & R & A1 & B & _ & Z). exists s'. split; [exact A1|]. apply Z. lra.
  - destruct (K 100000000%Z ltac:(lia)) as (s' & R & A1 & B & Z & _). exists s'. split; [exact A1|]. apply Z. lra.
Qed.
