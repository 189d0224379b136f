(** Property theorems for Ring.py: C05 - C08. *)
From Coq Require Import ZArith Reals List Bool String Lra Lia.
From Verif Require Import Num NumP Py XLibm SpecNum Ring RingSystem SpecRing RingP RingPatchP RingMoreP.
Import ListNotations.

(** C05.  Constructor followed by any list of attribute assignments (failing ones included). *)
Theorem C05_ring_invariant {T} {NT : Num T} {LT : NumLaws T} (i o t inc tilt : pyval T) (r : ring T) (l : list setter) :
  new_ring i o t inc tilt = Ok r -> ring_no_nan (set_rings r l) -> ring_ranges (set_rings r l).
Proof. exact (@ring_history T NT LT i o t inc tilt r l). Qed.
Print Assumptions C05_ring_invariant.

Example C05_ex :
  let hist := [SetInner (PInt 3); SetOuter (PFloat (n_ofZ 7)); SetInner (PInt 3); SetTr (PInt 2); SetTilt (PInt (-90))] in
  match new_ring (T:=f64) (PInt 0) (PInt 2) (PFloat (n_div (n_ofZ 1) (n_ofZ 2))) (PInt 10) (PInt 20) with
  | Ok r => let q := set_rings r hist in
      n_eq (r_in q) (n_ofZ 3) && n_eq (r_out q) (n_ofZ 7) && n_eq (r_tilt q) (n_ofZ (-90)) &&
      negb (n_isnan (r_tr q)) && negb (n_isnan (r_inc q))
  | Err _ => false end = true.
Proof. vm_compute. reflexivity. Qed.

(** C06.  A failing assignment changes nothing ... *)
Theorem C06_failed_assignment_changes_nothing {T} {NT : Num T} (r : ring T) (s : setter) (r' : ring T) (e : exn) :
  set_ring r s = (r', Err e) -> r' = r.
Proof. exact (@set_ring_atomic T NT r s r' e). Qed.
Print Assumptions C06_failed_assignment_changes_nothing.

(** ... and for a number (an int of magnitude at most 2^53 or a float) the assignment succeeds
    exactly when the value is within its bounds, storing it in this attribute only. *)
Theorem C06_assignment {T} {NT : Num T} {LT : NumLaws T} (r : ring T) (s : setter) (r' : ring T) :
  setter_ready r s -> numberlike (given s) -> small (given s) ->
  set_ring r s = (r', Ok tt) <-> within r s (stored_value s) /\ r' = assigned r s (stored_value s).
Proof. exact (@set_ring_ok T NT LT r s r'). Qed.
Print Assumptions C06_assignment.

(** anything but a number is refused, except that a one-entry array equal to zero is taken as
    inner radius 1e-16 *)
Theorem C06_not_a_number {T} {NT : Num T} (r : ring T) (s : setter) (r' : ring T) :
  ~ numberlike (given s) -> set_ring r s = (r', Ok tt) ->
  exists v, s = SetInner v /\ eq_zero v = Ok true /\ r' = assigned r s (n_pow10m 16).
Proof. exact (@set_ring_not_number T NT r s r'). Qed.
Print Assumptions C06_not_a_number.

Example C06_ex : let r := mkRing (fz 1) (fz 3) (fz 1) (fz 0) (fz 0) in
  setter_ready r (SetInner (PInt 2)) /\
  set_ring r (SetInner (PInt 2)) = (mkRing (fz 2) (fz 3) (fz 1) (fz 0) (fz 0), Ok tt) /\
  set_ring r (SetInner (PInt 3)) = (r, Err ValueError) /\
  set_ring r (SetInner (PArr "float64" [1] [SF (fz 0)])) = (mkRing (n_pow10m 16) (fz 3) (fz 1) (fz 0) (fz 0), Ok tt).
Proof.
  split; [cbn [setter_ready r_out]; rewrite fz_val by (cbn; lia); cbn; lra|].
  repeat split; vm_compute; reflexivity.
Qed.

(** C07.  NaN as inner radius is accepted with every outer radius below infinity ... *)
Theorem C07_nan_ring_accepted {T} {NT : Num T} {LT : NumLaws T} (x o t : T) :
  val x = XNaN -> xlt (val o) XPInf -> xle (XFin 0) (val t) -> xle (val t) (XFin 1) ->
  new_ring (PFloat x) (PFloat o) (PFloat t) (PInt 0) (PInt 0) = Ok (mkRing x o t (n_ofZ 0) (n_ofZ 0)).
Proof. exact (@nan_ring T NT LT x o t). Qed.
Print Assumptions C07_nan_ring_accepted.

(** ... so that a ring need not have inner radius < outer radius. *)
Theorem C07_inner_below_outer_refuted :
  ~ (forall (i o t inc tilt : pyval f64) r, new_ring i o t inc tilt = Ok r -> xlt (val (r_in r)) (val (r_out r))).
Proof. exact nan_ring_refuted. Qed.
Print Assumptions C07_inner_below_outer_refuted.

(** NaN is the only exception. *)
Theorem C07_only_nan {T} {NT : Num T} {LT : NumLaws T} (i o t inc tilt : pyval T) (r : ring T) :
  new_ring i o t inc tilt = Ok r -> ring_no_nan r -> ring_ranges r.
Proof. exact (fun H => @ring_history T NT LT i o t inc tilt r [] H). Qed.
Print Assumptions C07_only_nan.

Example C07_ex : is_ok (new_ring (T:=f64) (PFloat n_nan) (PFloat (fz (-5))) (PFloat (fz 1)) (PInt 0) (PInt 0)) = true.
Proof. vm_compute. reflexivity. Qed.

(** C08.  The vertex of the unit circle at angle [th] goes to the point at parameter [-th] of the
    outer ellipse and to the point at parameter [th + PI] of the inner one: both outlines are
    traced completely and in opposite directions. *)
Theorem C08_patch_outlines (i o t inc tilt xs ys : R) (ths : list R) :
  patch_vertices Libm_xr (fin_ring i o t inc tilt) (XFin xs, XFin ys) (map (fun th => (XFin (cos th), XFin (sin th))) ths) =
  map (fun th => fin2 (ellipse_point xs ys o (o * cos (rad inc)) (rad tilt) (- th))) ths ++
  map (fun th => fin2 (ellipse_point xs ys i (i * cos (rad inc)) (rad tilt) (th + PI))) ths.
Proof. exact (patch_all i o t inc tilt xs ys ths). Qed.
Print Assumptions C08_patch_outlines.

(** [ellipse_point] are the points of the ellipse with the given semi-axes, the first along [phi] *)
Theorem C08_ellipse (cx cy a b phi th X Y : R) : ellipse_point cx cy a b phi th = (X, Y) ->
  let u := ((X - cx) * cos phi + (Y - cy) * sin phi)%R in
  let w := (- (X - cx) * sin phi + (Y - cy) * cos phi)%R in
  (u = a * cos th /\ w = b * sin th /\ (b * u) * (b * u) + (a * w) * (a * w) = (a * b) * (a * b))%R.
Proof. exact (@ellipse_equation cx cy a b phi th X Y). Qed.
Print Assumptions C08_ellipse.

(** Bezier control points go to control points: the transform is affine *)
Theorem C08_affine (i o t inc tilt radius flip xs ys x1 y1 x2 y2 l : R) (p1 p2 : R * R) :
  let f x y := patch_vertex Libm_xr (fin_ring i o t inc tilt) (XFin radius) (XFin flip) (XFin xs, XFin ys) (XFin x, XFin y) in
  f x1 y1 = fin2 p1 -> f x2 y2 = fin2 p2 ->
  f (l * x1 + (1 - l) * x2)%R (l * y1 + (1 - l) * y2)%R
  = fin2 (l * fst p1 + (1 - l) * fst p2, l * snd p1 + (1 - l) * snd p2)%R.
Proof. exact (@patch_affine i o t inc tilt radius flip xs ys x1 y1 x2 y2 l p1 p2). Qed.
Print Assumptions C08_affine.

Theorem C08_opacity (i o t inc tilt : R) : patch_opacity (fin_ring i o t inc tilt) = XFin (1 - t).
Proof. exact (opacity_xr i o t inc tilt). Qed.
Print Assumptions C08_opacity.

(** the circle's rightmost point, for a face-on untilted ring: outer edge right, inner edge left *)
Example C08_ex : patch_vertices Libm_xr (fin_ring 1 2 1 0 0) (XFin 5, XFin 6) [(XFin 1, XFin 0)] =
  [(XFin 7, XFin 6); (XFin 4, XFin 6)].
Proof.
  pose proof (C08_patch_outlines 1 2 1 0 0 5 6 [0%R]) as H. cbn [map] in H. rewrite cos_0, sin_0 in H.
  rewrite H. unfold ellipse_point, fin2, rad. cbn [app fst snd]. rewrite Ropp_0, Rplus_0_l, sin_PI, cos_PI.
  replace (0 * PI / 180)%R with 0%R by field. rewrite cos_0, sin_0. repeat f_equal; lra.
Qed.
