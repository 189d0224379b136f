(** Proofs about Ring.get_patch over exact arithmetic. *)
From Coq Require Import ZArith Reals List Bool String Lra Lia.
From Verif Require Import Num NumP Py XLibm SpecNum Ring SpecRing RingP.
Import ListNotations.
Set Implicit Arguments.
Local Open Scope R_scope.

(** point at parameter [th] of the ellipse with centre (cx, cy), semi-axes a, b, the first one
    in direction [phi] *)
Definition ellipse_point (cx cy a b phi th : R) : R * R :=
  (cx + a * cos th * cos phi - b * sin th * sin phi,
   cy + a * cos th * sin phi + b * sin th * cos phi).
Definition rad (d : R) : R := d * PI / 180.
Definition fin2 (p : R * R) : xr * xr := (XFin (fst p), XFin (snd p)).

Lemma deg2rad_xr d : deg2rad Libm_xr (XFin d) = XFin (rad d).
Proof.
  unfold deg2rad, rad. cbn [Libm_xr m_pi n_mul n_div n_ofZ Num_xr x_mul x_div].
  destruct (Req_EM_T 180 0) as [H|H]; [lra|]. cbn. f_equal. field.
Qed.

Definition fin_ring (i o t inc tilt : R) : ring xr := mkRing (XFin i) (XFin o) (XFin t) (XFin inc) (XFin tilt).

Lemma patch_vertex_xr i o t inc tilt radius flip xs ys x y :
  patch_vertex Libm_xr (fin_ring i o t inc tilt) (XFin radius) (XFin flip) (XFin xs, XFin ys) (XFin x, XFin y) =
  fin2 (xs + (radius * x * flip * cos (rad tilt) + radius * y * cos (rad inc) * sin (rad tilt)),
        ys + (radius * x * flip * sin (rad tilt) + radius * y * cos (rad inc) * - cos (rad tilt))).
Proof.
  unfold patch_vertex, fin_ring. cbn [r_tilt r_inc]. rewrite !deg2rad_xr. reflexivity.
Qed.

Theorem patch_outer i o t inc tilt xs ys th :
  patch_vertex Libm_xr (fin_ring i o t inc tilt) (XFin o) n_one (XFin xs, XFin ys) (XFin (cos th), XFin (sin th)) =
  fin2 (ellipse_point xs ys o (o * cos (rad inc)) (rad tilt) (- th)).
Proof.
  change n_one with (XFin 1). rewrite patch_vertex_xr. unfold ellipse_point. rewrite cos_neg, sin_neg.
  f_equal; f_equal; ring.
Qed.
Theorem patch_inner i o t inc tilt xs ys th :
  patch_vertex Libm_xr (fin_ring i o t inc tilt) (XFin i) (n_neg n_one) (XFin xs, XFin ys) (XFin (cos th), XFin (sin th)) =
  fin2 (ellipse_point xs ys i (i * cos (rad inc)) (rad tilt) (th + PI)).
Proof.
  change (n_neg n_one) with (XFin (-1)). rewrite patch_vertex_xr. unfold ellipse_point. rewrite neg_cos, neg_sin.
  f_equal; f_equal; ring.
Qed.

Theorem patch_all i o t inc tilt xs ys (ths : list R) :
  patch_vertices Libm_xr (fin_ring i o t inc tilt) (XFin xs, XFin ys) (map (fun th => (XFin (cos th), XFin (sin th))) ths) =
  map (fun th => fin2 (ellipse_point xs ys o (o * cos (rad inc)) (rad tilt) (- th))) ths ++
  map (fun th => fin2 (ellipse_point xs ys i (i * cos (rad inc)) (rad tilt) (th + PI))) ths.
Proof.
  unfold patch_vertices. rewrite !map_map. f_equal; apply map_ext; intros th.
  - apply patch_outer.
  - apply patch_inner.
Qed.

(** the transform is affine: control points of the circle's Bezier curves go to control points *)
Theorem patch_affine i o t inc tilt radius flip xs ys (x1 y1 x2 y2 l : R) p1 p2 :
  patch_vertex Libm_xr (fin_ring i o t inc tilt) (XFin radius) (XFin flip) (XFin xs, XFin ys) (XFin x1, XFin y1) = fin2 p1 ->
  patch_vertex Libm_xr (fin_ring i o t inc tilt) (XFin radius) (XFin flip) (XFin xs, XFin ys) (XFin x2, XFin y2) = fin2 p2 ->
  patch_vertex Libm_xr (fin_ring i o t inc tilt) (XFin radius) (XFin flip) (XFin xs, XFin ys)
     (XFin (l * x1 + (1 - l) * x2), XFin (l * y1 + (1 - l) * y2))
  = fin2 (l * fst p1 + (1 - l) * fst p2, l * snd p1 + (1 - l) * snd p2).
Proof.
  rewrite !patch_vertex_xr. destruct p1 as [a1 b1], p2 as [a2 b2]. unfold fin2; cbn [fst snd].
  intros H1 H2. inversion H1; inversion H2. f_equal; f_equal; ring.
Qed.

(** the ellipse in its principal axes *)
Theorem ellipse_equation cx cy a b phi th X Y : ellipse_point cx cy a b phi th = (X, Y) ->
  let u := (X - cx) * cos phi + (Y - cy) * sin phi in
  let w := - (X - cx) * sin phi + (Y - cy) * cos phi in
  u = a * cos th /\ w = b * sin th /\ (b * u) * (b * u) + (a * w) * (a * w) = (a * b) * (a * b).
Proof.
  unfold ellipse_point. intros H; inversion H; subst; clear H. cbv zeta.
  assert (P := sin2_cos2 phi). unfold Rsqr in P. assert (Q := sin2_cos2 th). unfold Rsqr in Q.
  assert (E1 : (cx + a * cos th * cos phi - b * sin th * sin phi - cx) * cos phi + (cy + a * cos th * sin phi + b * sin th * cos phi - cy) * sin phi = a * cos th).
  { replace (a * cos th) with (a * cos th * (sin phi * sin phi + cos phi * cos phi)) at 3 by (rewrite P; ring). ring. }
  assert (E2 : - (cx + a * cos th * cos phi - b * sin th * sin phi - cx) * sin phi + (cy + a * cos th * sin phi + b * sin th * cos phi - cy) * cos phi = b * sin th).
  { replace (b * sin th) with (b * sin th * (sin phi * sin phi + cos phi * cos phi)) at 3 by (rewrite P; ring). ring. }
  split; auto. split; auto. rewrite E1, E2.
  replace (a * b * (a * b)) with (a * b * (a * b) * (sin th * sin th + cos th * cos th)) by (rewrite Q; ring). ring.
Qed.

Theorem opacity_xr i o t inc tilt : patch_opacity (fin_ring i o t inc tilt) = XFin (1 - t).
Proof. reflexivity. Qed.
