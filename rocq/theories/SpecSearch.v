(** What a search of the grid is meant to find, over the reals. *)
From Coq Require Import Reals List.
From Verif Require Import Num NumP Py SpecNum XLibm SpecGeom SpecError FS GridParams GridProp Build SpecBuild Shallot ShallotOps SpecOps.
Import ListNotations.
Local Open Scope R_scope.

(** the edge of a ring of radius [r], inclined by [i] and tilted by [t] degrees, relative to its centre *)
Definition ring_x (r i t th : R) : R := r * cos th * cos (degrees t) - r * cos (degrees i) * sin th * sin (degrees t).
Definition ring_y (r i t th : R) : R := r * cos th * sin (degrees t) + r * cos (degrees i) * sin th * cos (degrees t).
(** the ring of the given inclination and tilt around (dx, dy) through (p, 0) has there the tangent (vx, vy) *)
Definition tangent (dx dy i t p vx vy : R) : Prop :=
  exists r th, 0 < r /\ dx + ring_x r i t th = p /\ dy + ring_y r i t th = 0 /\
    derivable_pt_lim (ring_x r i t) th vx /\ derivable_pt_lim (ring_y r i t) th vy.
(** [g] is the sine of the angle between this tangent and the path of the star, the x axis *)
Definition sine (dx dy i t p g : R) : Prop :=
  exists vx vy, tangent dx dy i t p vx vy /\ g = Rabs vy / sqrt (vx * vx + vy * vy).

(** a measured gradient of the light curve: time, slope, its error, and the change of transmission *)
Record obs := mkObs { o_time : R; o_slope : R; o_err : R; o_trans : R }.
(** the scale between slopes and sines for the limb darkening [u] and the velocity [v], and the least sine
    that explains a slope *)
Definition orbital (u v : R) : R := (6 - 2 * u) / (12 - 12 * u + 3 * PI * u) * (PI / v).
Definition required (u v : R) (o : obs) : R := Rabs (o_slope o) * (orbital u v * (1 / o_trans o)).
(** the sum of the squared differences, weighted with the squared errors if [w] *)
Definition misfit (w : bool) (u v : R) (os : list obs) (gs : list R) : R :=
  fold_left Rplus (map (fun p => (snd p - required u v (fst p)) * (snd p - required u v (fst p)) / (if w then o_err (fst p) * o_err (fst p) else 1))
                       (combine os gs)) 0.
(** the disk explains the measurements during an eclipse of duration [d]: at the time t the star is at
    -t/d, and the sine there is large enough; vertical tangents, of sine 1, are not accepted *)
Definition explains (d u v : R) (os : list obs) (dx dy i t : R) (gs : list R) : Prop :=
  Forall2 (fun o g => sine dx dy i t (- o_time o / d) g /\ g < 1 /\ required u v o <= g) os gs.

(** point (y, x, k) of the grid [s] holds the disk of radius [r], inclination [i] and tilt [t] around
    (dx, dy), not larger than [hill], which explains the measurements with the given misfit *)
Definition found (s : shallot xr) (w : bool) (d u v hill : R) (os : list obs) (q : nat * nat * nat) (dx dy r i t chi : R) : Prop :=
  let '(y, x, k) := q in let p := s_params s in
  let at_ c := cell (List.length (g_dx p)) (List.length (g_rfa p)) (p_data (the_cube c s)) y x k in
  (k < List.length (g_rfa p))%nat /\ nth_error (g_dy p) y = Some (XFin dy) /\ nth_error (g_dx p) x = Some (XFin dx) /\
  at_ WRadius = Some (XFin r) /\ at_ WInclination = Some (XFin i) /\ at_ WTilt = Some (XFin t) /\
  r <= hill /\ exists gs, explains d u v os dx dy i t gs /\ chi = misfit w u v os gs.

(** every point with a radius holds a disk that casts the eclipse *)
Definition disk_grid (s : shallot xr) : Prop :=
  let p := s_params s in
  let at_ c y x k := cell (List.length (g_dx p)) (List.length (g_rfa p)) (p_data (the_cube c s)) y x k in
  forall y x k, (y < List.length (g_dy p))%nat -> (x < List.length (g_dx p))%nat -> (k < List.length (g_rfa p))%nat ->
  exists dx dy, nth_error (g_dy p) y = Some (XFin dy) /\ nth_error (g_dx p) x = Some (XFin dx) /\
    (at_ WRadius y x k = Some XNaN \/ (dy = 0 -> dx = 0) /\ exists fx fy r ic t, casts_eclipse dx dy fx fy r ic t /\
       at_ WFx y x k = Some (XFin fx) /\ at_ WFy y x k = Some (XFin fy) /\
       at_ WRadius y x k = Some (XFin r) /\ at_ WInclination y x k = Some (XFin ic) /\ at_ WTilt y x k = Some (XFin t)).

(** the times, slopes, errors or transmissions as an array *)
Definition column (os : list obs) (f : obs -> R) : pyval xr := farr (map (fun o => XFin (f o)) os).
(** measurements which the code accepts *)
Definition measurable (u v : R) (o : obs) : Prop := 0 <= o_slope o /\ 0 <= o_err o /\ 0 < o_trans o <= 1 /\ required u v o <= 1.
(** solution [z] is the disk found at [q] *)
Definition solves (s : shallot xr) (w : bool) (d u v hill : R) (os : list obs) (q : nat * nat * nat) (z : @solution xr) : Prop :=
  exists dx dy r i t chi, found s w d u v hill os q dx dy r i t chi /\ eclipsing_disk dx dy r i t /\ fst z = XFin chi /\
    pd_dx (snd z) = XFin dx /\ pd_dy (snd z) = XFin dy /\ pd_dr (snd z) = XFin r /\ pd_inc (snd z) = XFin i /\ pd_tilt (snd z) = XFin t.

(** grids that can be searched: of real numbers, reached from the constructor, with disks and without masks *)
Definition searchable (E : env xr) (s : shallot xr) : Prop :=
  e_libm E = Libm_xr /\ sreach E s /\ disk_grid s /\ forall c, p_mask (the_cube c s) = None.
(** the duration of the eclipse, the velocity, the limb darkening and the Hill radius of a search *)
Definition settings (a v u h : pyval xr) (d vel limb hill : R) : Prop :=
  Forall small [a; v; u; h] /\ Forall numberlike [a; v; u; h] /\ value a = XFin d /\ value v = XFin vel /\ value u = XFin limb /\ value h = XFin hill /\
  0 < d /\ 0 < vel /\ 0 <= limb <= 1 /\ 0 <= hill.
(** the calls before the solutions are extracted *)
Definition searched (E : env xr) (a v u h : pyval xr) (os : list obs) (w : bool) (s s1 s2 s3 s4 : shallot xr) : Prop :=
  set_eclipse_parameters a v u s = (s1, Ok tt) /\
  add_gradients E (column os o_time) (column os o_slope) (Some (column os o_err)) (Some (column os o_trans)) s1 = (s2, Ok tt) /\
  generate_hill_radius_mask h s2 = (s3, Ok tt) /\ determine_gradient_fit w s3 = (s4, Ok tt).
