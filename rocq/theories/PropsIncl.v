(** C101: the inclination of a disk in binary64. *)
From Coq Require Import ZArith Reals.
From Flocq Require Import Core.
From Verif Require Import Num Py GridParams SpecGrid GridProp Geometry SpecGeom SpecF64 Names Build SpecBuild BuildP BuildGP Shallot LibmF64P EdgeExP InclF64P InclExP InclGridP InclGridExP.
Local Open Scope R_scope.

(** C101.  With elementary functions right up to [e], the inclination computed in binary64 lies between 0 and 90 degrees
    up to 5 e; it is right up to 21 sqrt e, and its error times the inclination is at most 420 e (all in radians). *)
Theorem C101_inclination (L : Libm f64) e (fxv fyv sv cv : f64) fx fy s c : accurate L e -> bpow radix2 (-52) <= e <= / 1000000 ->
  f64_val fxv = XFin fx -> f64_val fyv = XFin fy -> f64_val sv = XFin s -> f64_val cv = XFin c ->
  0 < fx -> 0 < fy -> 0 < c -> ordinary fx -> ordinary fy -> loose s -> ordinary c ->
  exists rv iv tv i R m, disk_parameters L fxv fyv sv cv = (rv, iv, tv) /\ f64_val iv = XFin i /\
    largest_distance fx fy s c R /\ smallest_distance fx fy s c m /\
    - (5 * e) <= degrees i <= PI / 2 + 5 * e /\
    Rabs (degrees i - acos (m / R)) <= 21 * sqrt e /\ Rabs (degrees i - acos (m / R)) * acos (m / R) <= 420 * e.
Proof. exact (@incl_accurate L e fxv fyv sv cv fx fy s c). Qed.
Print Assumptions C101_inclination.
(** the same of every cell of a grid, in a mirrored one compared with the quadrant it was built from *)
Theorem C101_grid (E : env f64) e nf (g : gparams f64) ll keep inter og l s : accurate (e_libm E) e -> bpow radix2 (-52) <= e <= / 1000000 -> reachable g ->
  new_shallot E (EIs g) nf ll keep inter = (og, (l, Ok s)) ->
  let p := s_params s in
  let at_ w i j k := cell (List.length (g_dx p)) (List.length (g_rfa p)) (p_data (cube_of w s)) i j k in
  forall i j k (dyv dxv fyv fxv : f64) dy dx fy fx sh,
  (i < List.length (g_dy p))%nat -> (j < List.length (g_dx p))%nat -> (k < List.length (g_rfa p))%nat ->
  List.nth_error (g_dy g) (if g_ext g then from_middle (List.length (g_dy g)) i else i) = Some dyv ->
  List.nth_error (g_dx g) (if g_ext g then from_middle (List.length (g_dx g)) j else j) = Some dxv ->
  f64_val dyv = XFin dy -> f64_val dxv = XFin dx -> f64_val (shear_at dxv dyv) = XFin sh -> loose dy -> Rabs dy <= bpow radix2 99 -> loose sh ->
  at_ WFy i j k = Some fyv -> f64_val fyv = XFin fy -> 0 < fy -> ordinary fy -> at_ WFx i j k = Some fxv -> f64_val fxv = XFin fx -> ordinary fx ->
  exists iv ic c R m, at_ WInclination i j k = Some iv /\ f64_val iv = XFin ic /\ f64_val (circular_radius (e_libm E) dyv) = XFin c /\
    largest_distance fx fy sh c R /\ smallest_distance fx fy sh c m /\ - (5 * e) <= degrees ic <= PI / 2 + 5 * e /\
    Rabs (degrees ic - acos (m / R)) <= 21 * sqrt e /\ Rabs (degrees ic - acos (m / R)) * acos (m / R) <= 420 * e.
Proof. exact (fun Acc He Hr => @grid_inclined E e Acc He nf g Hr ll keep inter og l s). Qed.
Print Assumptions C101_grid.
(** the factor cannot be left out: a circle can get an inclination of more than 600 e *)
Theorem C101_circle_refuted : ~ (forall (L : Libm f64) e (fxv fyv sv cv : f64) fx fy s c rv iv tv i R m, accurate L e -> bpow radix2 (-52) <= e <= / 1000000 ->
  f64_val fxv = XFin fx -> f64_val fyv = XFin fy -> f64_val sv = XFin s -> f64_val cv = XFin c ->
  0 < fx -> 0 < fy -> 0 < c -> ordinary fx -> ordinary fy -> loose s -> ordinary c ->
  disk_parameters L fxv fyv sv cv = (rv, iv, tv) -> f64_val iv = XFin i -> largest_distance fx fy s c R -> smallest_distance fx fy s c m ->
  Rabs (degrees i - acos (m / R)) <= 600 * e).
Proof. exact circle_tilted. Qed.
Print Assumptions C101_circle_refuted.
(** an ellipse twice as wide as high is inclined by 60 degrees *)
Example C101_ex : exists rv iv tv i, disk_parameters Libm_nearest (n_ofZ 2) (n_ofZ 1) (n_ofZ 0) (n_ofZ 1) = (rv, iv, tv) /\
  f64_val iv = XFin i /\ Rabs (i - 60) <= / 10000000000.
Proof. exact wide_inclined. Qed.
Print Assumptions C101_ex.
(** a cell of a mirrored grid of 3 x 3 x 2 *)
Example C101_ex_grid : exists g og l s, grid_m = Ok g /\ g_ext g = true /\
  new_shallot env_calc (EIs g) (PInt 2) (PInt 50) (PBool false) (PBool false) = (og, (l, Ok s)) /\ example_inclination 2 0 0 s.
Proof. exact inclined_example. Qed.
Print Assumptions C101_ex_grid.
