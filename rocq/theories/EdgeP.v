(** The edge of the disk: what radius, inclination and tilt describe is the ellipse. *)
From Coq Require Import ZArith Reals List Bool Lra Psatz.
From Verif Require Import Num Py XLibm Geometry SpecGeom GeomP GeomMoreP.
Local Open Scope R_scope.

Section V.
Context (fx fy s c : R).
Lemma px_turn u : px fx fy s c (th_of fx fy s + PI / 2 + u) = cos u * px fx fy s c (th_of fx fy s + PI / 2) - sin u * px fx fy s c (th_of fx fy s).
Proof. unfold px. set (a := th_of fx fy s). repeat (rewrite cos_plus || rewrite sin_plus). rewrite cos_PI2, sin_PI2. ring. Qed.
Lemma py_turn u : py fy c (th_of fx fy s + PI / 2 + u) = cos u * py fy c (th_of fx fy s + PI / 2) - sin u * py fy c (th_of fx fy s).
Proof. unfold py. set (a := th_of fx fy s). repeat (rewrite cos_plus || rewrite sin_plus). rewrite cos_PI2, sin_PI2. ring. Qed.
End V.

Lemma on_ellipse_shift dx dy fx fy s c x y : on_ellipse dx dy fx fy s c x y <-> on_ellipse 0 0 fx fy s c (x - dx) (y - dy).
Proof.
  unfold on_ellipse. split; intros (u & v & E & X & Y); exists u, v; (split; [exact E|split; lra]).
Qed.

Theorem edge_is_ellipse dx dy fx fy s c r i t : 0 < fx -> 0 < fy -> 0 < c ->
  disk_parameters Libm_xr (XFin fx) (XFin fy) (XFin s) (XFin c) = (XFin r, XFin i, XFin t) ->
  forall x y, on_ellipse dx dy fx fy s c x y <-> disk_edge dx dy r i t x y.
Proof.
  intros Hx Hy Hc H x y. rewrite disk_xr in H by auto. injection H as <- <- <-.
  rewrite on_ellipse_shift, ell_angle by auto. unfold disk_edge. rewrite !deg_rad.
  assert (M := @minor_pos fx fy s c Hx Hy Hc). assert (L := @minor_le fx fy s c Hc).
  assert (Q : 0 < d_minor fx fy s c / d_major fx fy s c <= 1).
  { split; [apply Rmult_lt_0_compat; [lra|apply Rinv_0_lt_compat; lra]|]. apply (Rmult_le_reg_r (d_major fx fy s c)); [lra|]. unfold Rdiv. rewrite Rmult_assoc, Rinv_l by lra. lra. }
  rewrite (proj2 (acos_range Q)).
  replace (d_major fx fy s c * (d_minor fx fy s c / d_major fx fy s c)) with (d_minor fx fy s c) by (field; lra).
  destruct (@vertex1_polar fx fy s c) as [A1 B1]. destruct (@vertex2_polar fx fy s c Hx Hy Hc) as [A2 B2].
  change (/ 2 * ratan2 (2 * fx * fy * s) ((s * s + 1) * (fy * fy) - fx * fx)) with (th_of fx fy s) in *.
  set (T := phi fx fy s c) in *. set (m := d_minor fx fy s c) in *. set (a := d_major fx fy s c) in *.
  rewrite cos_plus, cos_PI2, sin_PI2 in A2. rewrite sin_plus, cos_PI2, sin_PI2 in B2.
  assert (P : forall u, px fx fy s c (th_of fx fy s + PI / 2 + u) = - a * cos u * sin T - m * sin u * cos T /\
                        py fy c (th_of fx fy s + PI / 2 + u) = a * cos u * cos T - m * sin u * sin T).
  { intros u. rewrite px_turn, py_turn, A1, B1, A2, B2. split; ring. }
  assert (K : (exists th, x - dx = px fx fy s c th /\ y - dy = py fy c th) <->
              exists u, x - dx = - a * cos u * sin T - m * sin u * cos T /\ y - dy = a * cos u * cos T - m * sin u * sin T).
  { split.
    - intros (th & E1 & E2). exists (th - (th_of fx fy s + PI / 2)). destruct (P (th - (th_of fx fy s + PI / 2))) as [<- <-].
      replace (th_of fx fy s + PI / 2 + (th - (th_of fx fy s + PI / 2))) with th by ring. auto.
    - intros (u & E1 & E2). exists (th_of fx fy s + PI / 2 + u). destruct (P u) as [-> ->]. auto. }
  rewrite K. unfold quarter. fold m a. destruct (Rlt_dec m a) as [G|G].
  - rewrite cos_plus, sin_plus, cos_PI2, sin_PI2. split; intros (u & E1 & E2); exists u; split; lra.
  - assert (a = m) by lra. rewrite Rplus_0_r. split; intros (u & E1 & E2).
    + exists (u + PI / 2). rewrite cos_plus, sin_plus, cos_PI2, sin_PI2. rewrite H in *. split; lra.
    + exists (u - PI / 2). rewrite cos_minus, sin_minus, cos_PI2, sin_PI2. rewrite H in *. split; lra.
Qed.

(** mirrored disks *)
Lemma deg180 t : degrees (180 - t) = PI - degrees t.
Proof. unfold degrees. field. Qed.
Lemma cos_pi_minus t : cos (PI - t) = - cos t.
Proof. rewrite cos_minus, cos_PI, sin_PI. ring. Qed.
Lemma sin_pi_minus t : sin (PI - t) = sin t.
Proof. rewrite sin_minus, cos_PI, sin_PI. ring. Qed.
Lemma edge_mirror_x dx dy r i t x y : disk_edge dx dy r i t x y -> disk_edge (- dx) dy r i (180 - t) (- x) y.
Proof.
  intros (th & -> & ->). exists (- th). rewrite deg180, cos_pi_minus, sin_pi_minus, cos_neg, sin_neg. split; ring.
Qed.
Lemma edge_mirror_y dx dy r i t x y : disk_edge dx dy r i t x y -> disk_edge dx (- dy) r i (180 - t) x (- y).
Proof.
  intros (th & -> & ->). exists (PI - th). rewrite deg180, !cos_pi_minus, !sin_pi_minus. split; ring.
Qed.
Lemma edge_mirror_xy dx dy r i t x y : disk_edge dx dy r i t x y -> disk_edge (- dx) (- dy) r i t (- x) (- y).
Proof.
  intros (th & -> & ->). exists (th + PI). rewrite neg_cos, neg_sin. split; ring.
Qed.
Lemma ellipse_mirror_x dx dy fx fy s c x y : on_ellipse dx dy fx fy s c x y -> on_ellipse (- dx) dy fx fy (- s) c (- x) y.
Proof. intros (u & v & E & -> & ->). exists (- u), v. split; [lra|]. split; ring. Qed.
Lemma ellipse_mirror_y dx dy fx fy s c x y : on_ellipse dx dy fx fy s c x y -> on_ellipse dx (- dy) fx fy (- s) c x (- y).
Proof. intros (u & v & E & -> & ->). exists u, (- v). split; [lra|]. split; ring. Qed.

(** disks casting the eclipse, and their mirror images *)
Lemma disk_casts dx dy fx fy r i t : dy <> 0 -> 0 < fx -> 0 < fy -> determine_fx (XFin fy) (XFin dy) = XFin fx ->
  disk_parameters Libm_xr (XFin fx) (XFin fy) (XFin (- dx / dy)) (XFin (radius_of dy)) = (XFin r, XFin i, XFin t) -> casts_eclipse dx dy fx fy r i t.
Proof.
  intros Hd Hx Hy Ef Hp. assert (Hc := radius_pos dy).
  assert (Hs : shear_at (XFin dx) (XFin dy) = XFin (- dx / dy)) by (rewrite shear_xr; destruct (Req_EM_T dy 0); [contradiction|reflexivity]).
  assert (Ed := @edge_is_ellipse dx dy fx fy (- dx / dy) (radius_of dy) r i t Hx Hy Hc Hp).
  destruct (@contact_fx dx dy fx fy (- dx / dy) Hs Ef) as [C1 C2].
  destruct (@disk_is_ellipse fx fy (- dx / dy) (radius_of dy) Hx Hy Hc) as (r' & i' & t' & Hp' & _ & _ & Hi & Hr & _).
  rewrite Hp in Hp'. injection Hp' as <- <- <-.
  do 6 (split; [assumption || (apply Ed; assumption)|]). intros x y. symmetry. apply Ed.
Qed.
Lemma casts_mirror_x dx dy fx fy r i t : casts_eclipse dx dy fx fy r i t -> casts_eclipse (- dx) dy fx fy r i (180 - t).
Proof.
  intros (Hx & Hy & Hr & Hi & C1 & C2 & Ed). repeat (split; [assumption|]). split; [|split].
  - apply (edge_mirror_x _ _ _ _ _ _ _ C2).
  - replace (/ 2) with (- - / 2) by ring. apply (edge_mirror_x _ _ _ _ _ _ _ C1).
  - intros x y. split; intros H.
    + apply edge_mirror_x in H. rewrite Ropp_involutive in H. replace (180 - (180 - t)) with t in H by ring. apply Ed, ellipse_mirror_x in H.
      rewrite Ropp_involutive in H. replace (- - dx / dy) with (- (- dx / dy)) by (unfold Rdiv; ring). exact H.
    + apply ellipse_mirror_x in H. rewrite Ropp_involutive in H. replace (- (dx / dy)) with (- dx / dy) in H by (unfold Rdiv; ring).
      apply Ed, edge_mirror_x in H. rewrite Ropp_involutive in H. exact H.
Qed.
Lemma casts_mirror_y dx dy fx fy r i t : dy <> 0 -> casts_eclipse dx dy fx fy r i t -> casts_eclipse dx (- dy) fx fy r i (180 - t).
Proof.
  intros Hd (Hx & Hy & Hr & Hi & C1 & C2 & Ed). repeat (split; [assumption|]).
  assert (Es : - dx / - dy = - (- dx / dy)) by (field; auto). split; [|split].
  - rewrite <- Ropp_0. apply (edge_mirror_y _ _ _ _ _ _ _ C1).
  - rewrite <- Ropp_0. apply (edge_mirror_y _ _ _ _ _ _ _ C2).
  - intros x y. replace (- dy * - dy) with (dy * dy) by ring. rewrite Es. split; intros H.
    + apply edge_mirror_y in H. rewrite Ropp_involutive in H. replace (180 - (180 - t)) with t in H by ring. apply Ed, ellipse_mirror_y in H.
      rewrite Ropp_involutive in H. exact H.
    + apply ellipse_mirror_y in H. rewrite !Ropp_involutive in H. apply Ed, edge_mirror_y in H. rewrite Ropp_involutive in H. exact H.
Qed.
Lemma casts_mirror_xy dx dy fx fy r i t : dy <> 0 -> casts_eclipse dx dy fx fy r i t -> casts_eclipse (- dx) (- dy) fx fy r i t.
Proof. intros Hd H. apply casts_mirror_x, (casts_mirror_y _ _ _ _ _ _ _ Hd) in H. replace (180 - (180 - t)) with t in H by ring. exact H. Qed.
