(** C102: the tilt of a disk in binary64. *)
From Coq Require Import ZArith Reals Bool.
From Flocq Require Import Core.
From Verif Require Import Num Py GridParams SpecGrid GridProp Geometry SpecGeom SpecF64 SpecTilt Names Build SpecBuild BuildP BuildGP Shallot LibmF64P EdgeExP TiltF64P TiltGridP TiltExP.
Local Open Scope R_scope.

(** C102.  With elementary functions right up to [e], the ends of the longest axis of the ellipse are at most
    130 e R^4 / (m (R^2 - m^2)) away from the line through the centre in the direction of the tilt computed in binary64. *)
Theorem C102_tilt (L : Libm f64) e (fxv fyv sv cv : f64) fx fy s c : accurate L e -> bpow radix2 (-52) <= e <= / 1000000 ->
  f64_val fxv = XFin fx -> f64_val fyv = XFin fy -> f64_val sv = XFin s -> f64_val cv = XFin c ->
  0 < fx -> 0 < fy -> 0 < c -> ordinary fx -> ordinary fy -> loose s -> ordinary c ->
  exists rv iv tv t R m, disk_parameters L fxv fyv sv cv = (rv, iv, tv) /\ f64_val tv = XFin t /\
    largest_distance fx fy s c R /\ smallest_distance fx fy s c m /\ tilt_within (130 * e) fx fy s c R m t.
Proof. exact (@tilt64 L e fxv fyv sv cv fx fy s c). Qed.
Print Assumptions C102_tilt.
(** the same of every cell of a grid; in two quadrants of a mirrored one the ellipse is the mirrored one *)
Theorem C102_grid (E : env f64) e nf (g : gparams f64) ll keep inter og l s : accurate (e_libm E) e -> bpow radix2 (-52) <= e <= / 1000000 -> reachable g ->
  new_shallot E (EIs g) nf ll keep inter = (og, (l, Ok s)) ->
  let p := s_params s in
  let at_ w i j k := cell (List.length (g_dx p)) (List.length (g_rfa p)) (p_data (cube_of w s)) i j k in
  forall i j k (dyv dxv fyv fxv : f64) dy dx fy fx sh,
  (i < List.length (g_dy p))%nat -> (j < List.length (g_dx p))%nat -> (k < List.length (g_rfa p))%nat ->
  List.nth_error (g_dy g) (if g_ext g then from_middle (List.length (g_dy g)) i else i) = Some dyv ->
  List.nth_error (g_dx g) (if g_ext g then from_middle (List.length (g_dx g)) j else j) = Some dxv ->
  f64_val dyv = XFin dy -> f64_val dxv = XFin dx -> f64_val (shear_at dxv dyv) = XFin sh -> loose dy -> Rabs dy <= bpow radix2 99 -> loose sh ->
  at_ WFy i j k = Some fyv -> f64_val fyv = XFin fy -> 0 < fy -> ordinary fy -> at_ WFx i j k = Some fxv -> f64_val fxv = XFin fx -> ordinary fx ->
  exists tv t c R m, at_ WTilt i j k = Some tv /\ f64_val tv = XFin t /\ f64_val (circular_radius (e_libm E) dyv) = XFin c /\
    largest_distance fx fy sh c R /\ smallest_distance fx fy sh c m /\
    tilt_within (142 * e) fx fy (if g_ext g && xorb (Nat.ltb i (List.length (g_dy g))) (Nat.ltb j (List.length (g_dx g))) then - sh else sh) c R m t.
Proof. exact (fun Acc He Hr => @grid_tilted E e Acc He nf g Hr ll keep inter og l s). Qed.
Print Assumptions C102_grid.
(** neither factor can be left out: the tilt of a flat ellipse is off by a right angle, as it is read off the shorter
    axis, and that of a circle is anything *)
Theorem C102_flat_refuted : ~ (forall (L : Libm f64) e (fxv fyv sv cv : f64) fx fy s c rv iv tv t R m x y, accurate L e -> bpow radix2 (-52) <= e <= / 1000000 ->
  f64_val fxv = XFin fx -> f64_val fyv = XFin fy -> f64_val sv = XFin s -> f64_val cv = XFin c ->
  0 < fx -> 0 < fy -> 0 < c -> ordinary fx -> ordinary fy -> loose s -> ordinary c ->
  disk_parameters L fxv fyv sv cv = (rv, iv, tv) -> f64_val tv = XFin t -> largest_distance fx fy s c R -> smallest_distance fx fy s c m ->
  far_end fx fy s c R x y -> off_line t x y * (R * R - m * m) <= 1000000 * e * (R * R * R)).
Proof. exact flat_tilted. Qed.
Print Assumptions C102_flat_refuted.
Theorem C102_round_refuted : ~ (forall (L : Libm f64) e (fxv fyv sv cv : f64) fx fy s c rv iv tv t R m x y, accurate L e -> bpow radix2 (-52) <= e <= / 1000000 ->
  f64_val fxv = XFin fx -> f64_val fyv = XFin fy -> f64_val sv = XFin s -> f64_val cv = XFin c ->
  0 < fx -> 0 < fy -> 0 < c -> ordinary fx -> ordinary fy -> loose s -> ordinary c ->
  disk_parameters L fxv fyv sv cv = (rv, iv, tv) -> f64_val tv = XFin t -> largest_distance fx fy s c R -> smallest_distance fx fy s c m ->
  far_end fx fy s c R x y -> off_line t x y * m <= 1000000 * e * (R * R)).
Proof. exact round_tilted. Qed.
Print Assumptions C102_round_refuted.
(** an ellipse twice as wide as high lies flat; a cell of a mirrored grid of 3 x 3 x 2 *)
Example C102_ex : exists rv iv tv t, disk_parameters Libm_nearest (n_ofZ 2) (n_ofZ 1) (n_ofZ 0) (n_ofZ 1) = (rv, iv, tv) /\
  f64_val tv = XFin t /\ Rabs (sin (degrees t)) <= / 1000000000000.
Proof. exact wide_tilted. Qed.
Print Assumptions C102_ex.
Example C102_ex_grid : exists g og l s, grid_m = Ok g /\ g_ext g = true /\
  new_shallot env_calc (EIs g) (PInt 2) (PInt 50) (PBool false) (PBool false) = (og, (l, Ok s)) /\ example_tilt 2 0 0 s.
Proof. exact tilted_example. Qed.
Print Assumptions C102_ex_grid.
