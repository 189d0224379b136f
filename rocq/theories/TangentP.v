(** The gradients of a grid point are the sines of the tangents of the rings of its disk. *)
From Coq Require Import ZArith Reals List Bool Lra Lia Psatz.
From Verif Require Import Num NumP Py SpecNum XLibm Geometry SpecGeom SpecError SpecSearch GeomP GeomMoreP EdgeP.
Import ListNotations.
Set Implicit Arguments.
Local Open Scope R_scope.

(** Cauchy-Schwarz on the circle, and where it is attained *)
Lemma dot_le a b th : (a * cos th + b * sin th) * (a * cos th + b * sin th) <= a * a + b * b.
Proof. assert (H := sin2_cos2 th). unfold Rsqr in H. assert (0 <= (a * sin th - b * cos th) * (a * sin th - b * cos th)) by apply Rle_0_sqr. nra. Qed.
Lemma on_circle u v : u * u + v * v = 1 -> exists th, cos th = u /\ sin th = v.
Proof.
  intros H. destruct (Rle_dec 0 v) as [Hv|Hv].
  - exists (acos u). assert (-1 <= u <= 1) by nra. split; [now apply cos_acos|]. rewrite sin_acos by auto. replace (1 - u²) with (v * v) by (unfold Rsqr; lra). now apply sqrt_square.
  - exists (- acos u). assert (-1 <= u <= 1) by nra. rewrite cos_neg, sin_neg. split; [now apply cos_acos|]. rewrite sin_acos by auto.
    replace (1 - u²) with ((- v) * (- v)) by (unfold Rsqr; lra). rewrite sqrt_square by lra. lra.
Qed.
Lemma dot_attained a b : exists th, (a * cos th + b * sin th) * (a * cos th + b * sin th) = a * a + b * b.
Proof.
  destruct (Req_dec (a * a + b * b) 0) as [Z|N].
  - exists 0. rewrite cos_0, sin_0. nra.
  - assert (0 < a * a + b * b) by nra. set (n := sqrt (a * a + b * b)). assert (Hn : 0 < n) by now apply sqrt_lt_R0. assert (Hnn : n * n = a * a + b * b) by (apply sqrt_sqrt; lra).
    destruct (@on_circle (a / n) (b / n)) as (th & Hc & Hs). { field_simplify; [|lra]. replace (n ^ 2) with (a * a + b * b) by (rewrite <- Hnn; ring). field. lra. }
    exists th. rewrite Hc, Hs. replace (a * (a / n) + b * (b / n)) with n; [exact Hnn|]. field_simplify; [|lra]. replace (a ^ 2 + b ^ 2) with (n * n) by (rewrite Hnn; ring). field. lra.
Qed.
(** two linear images of the circle, one inside the other *)
Lemma image_le a b c d a' b' c' d' p q :
  (forall th, exists ph, a * cos th + b * sin th = a' * cos ph + b' * sin ph /\ c * cos th + d * sin th = c' * cos ph + d' * sin ph) ->
  (p * a + q * c) * (p * a + q * c) + (p * b + q * d) * (p * b + q * d) <= (p * a' + q * c') * (p * a' + q * c') + (p * b' + q * d') * (p * b' + q * d').
Proof.
  intros H. destruct (dot_attained (p * a + q * c) (p * b + q * d)) as [th <-]. destruct (H th) as (ph & H1 & H2).
  replace ((p * a + q * c) * cos th + (p * b + q * d) * sin th) with (p * (a * cos th + b * sin th) + q * (c * cos th + d * sin th)) by ring. rewrite H1, H2.
  replace (p * (a' * cos ph + b' * sin ph) + q * (c' * cos ph + d' * sin ph)) with ((p * a' + q * c') * cos ph + (p * b' + q * d') * sin ph) by ring. apply dot_le.
Qed.
(** ... have the same matrix A A^T if they are equal *)
Lemma image_eq a b c d a' b' c' d' :
  (forall th, exists ph, a * cos th + b * sin th = a' * cos ph + b' * sin ph /\ c * cos th + d * sin th = c' * cos ph + d' * sin ph) ->
  (forall th, exists ph, a' * cos th + b' * sin th = a * cos ph + b * sin ph /\ c' * cos th + d' * sin th = c * cos ph + d * sin ph) ->
  a * a + b * b = a' * a' + b' * b' /\ c * c + d * d = c' * c' + d' * d' /\ a * c + b * d = a' * c' + b' * d'.
Proof.
  intros H H'. assert (A := fun p q => @image_le a b c d a' b' c' d' p q H). assert (B := fun p q => @image_le a' b' c' d' a b c d p q H').
  assert (A1 := A 1 0). assert (A2 := A 0 1). assert (A3 := A 1 1). assert (B1 := B 1 0). assert (B2 := B 0 1). assert (B3 := B 1 1). repeat split; nra.
Qed.

(** the tangent of a linear image of the circle at its point (x, y) *)
Lemma turn a b c d th : let x := a * cos th + b * sin th in let y := c * cos th + d * sin th in
  (a * d - b * c) * (b * cos th - a * sin th) = (a * c + b * d) * x - (a * a + b * b) * y /\
  (a * d - b * c) * (d * cos th - c * sin th) = (c * c + d * d) * x - (a * c + b * d) * y.
Proof. cbv zeta. split; ring. Qed.
Lemma dlim_ext f g x l : (forall x, f x = g x) -> derivable_pt_lim f x l -> derivable_pt_lim g x l.
Proof. intros H D eps He. destruct (D eps He) as [d Hd]. exists d. intros h H1 H2. rewrite <- !H. now apply Hd. Qed.
Lemma circle_d a b th : derivable_pt_lim (fun th => a * cos th + b * sin th) th (b * cos th - a * sin th).
Proof.
  replace (b * cos th - a * sin th) with (a * - sin th + b * cos th) by ring.
  apply (derivable_pt_lim_plus (fun th => a * cos th) (fun th => b * sin th)).
  - apply (derivable_pt_lim_scal cos), derivable_pt_lim_cos.
  - apply (derivable_pt_lim_scal sin), derivable_pt_lim_sin.
Qed.
Section Ring.
Variables (i t : R).
Notation ci := (cos (degrees i)). Notation ct := (cos (degrees t)). Notation st := (sin (degrees t)).
Lemma ring_xd r th : derivable_pt_lim (ring_x r i t) th (- (r * ci * st) * cos th - r * ct * sin th).
Proof. eapply dlim_ext; [|apply (circle_d (r * ct) (- (r * ci * st)))]. intros x. unfold ring_x. cbv beta. ring. Qed.
Lemma ring_yd r th : derivable_pt_lim (ring_y r i t) th (r * ci * ct * cos th - r * st * sin th).
Proof. eapply dlim_ext; [|apply (circle_d (r * st) (r * ci * ct))]. intros x. unfold ring_y. cbv beta. ring. Qed.
(** the entries of A A^T for the ring of radius 1 *)
Definition m11 := ct * ct + ci * st * (ci * st).
Definition m12 := ct * st - ci * st * (ci * ct).
Definition m22 := st * st + ci * ct * (ci * ct).
Lemma tangent_dir dx dy p vx vy : 0 < ci -> tangent dx dy i t p vx vy ->
  ci * vx = m12 * (p - dx) + m11 * dy /\ ci * vy = m22 * (p - dx) + m12 * dy.
Proof.
  intros Hc (r & th & Hr & H1 & H2 & D1 & D2).
  rewrite (uniqueness_limite _ _ _ _ D1 (ring_xd r th)), (uniqueness_limite _ _ _ _ D2 (ring_yd r th)).
  assert (P := sin2_cos2 (degrees t)). unfold Rsqr in P.
  replace (p - dx) with (ring_x r i t th) by lra. replace dy with (- ring_y r i t th) by lra. unfold ring_x, ring_y, m11, m12, m22.
  split.
  - transitivity (ci * (st * st + ct * ct) * (- (r * ci * st) * cos th - r * ct * sin th)); [rewrite P; ring|ring].
  - transitivity (ci * (st * st + ct * ct) * (r * ci * ct * cos th - r * st * sin th)); [rewrite P; ring|ring].
Qed.
Lemma det_m : m11 * m22 - m12 * m12 = ci * ci.
Proof.
  assert (P := sin2_cos2 (degrees t)). unfold Rsqr in P. unfold m11, m12, m22.
  transitivity (ci * ci * ((st * st + ct * ct) * (st * st + ct * ct))); [ring|rewrite P; ring].
Qed.
Lemma tangent_exists dx dy p : 0 < ci -> p <> dx \/ dy <> 0 -> exists vx vy, tangent dx dy i t p vx vy.
Proof.
  intros Hc Hq. set (X := p - dx). set (Y := - dy). assert (P := sin2_cos2 (degrees t)). unfold Rsqr in P.
  (* coordinates along the axes of the ring *)
  set (a := X * ct + Y * st). set (b := (Y * ct - X * st) / ci).
  assert (N : 0 < a * a + b * b).
  { destruct (Req_dec a 0) as [A|A]; [|assert (0 < a * a) by nra; assert (0 <= b * b) by nra; lra].
    destruct (Req_dec b 0) as [B|B]; [|assert (0 < b * b) by nra; nra]. exfalso.
    assert (B' : Y * ct - X * st = 0). { replace (Y * ct - X * st) with (b * ci) by (unfold b; field; lra). rewrite B. ring. }
    assert (X = 0). { replace X with (X * (st * st + ct * ct)) by (rewrite P; ring). replace (X * (st * st + ct * ct)) with (a * ct - (Y * ct - X * st) * st) by (unfold a; ring). rewrite A, B'. ring. }
    assert (Y = 0). { replace Y with (Y * (st * st + ct * ct)) by (rewrite P; ring). replace (Y * (st * st + ct * ct)) with (a * st + (Y * ct - X * st) * ct) by (unfold a; ring). rewrite A, B'. ring. }
    unfold X, Y in *. destruct Hq; lra. }
  set (r := sqrt (a * a + b * b)). assert (Hr : 0 < r) by now apply sqrt_lt_R0. assert (Rr : r * r = a * a + b * b) by (apply sqrt_sqrt; lra).
  destruct (@on_circle (a / r) (b / r)) as (th & C & S). { field_simplify; [|lra]. replace (r ^ 2) with (a * a + b * b) by (rewrite <- Rr; ring). field. lra. }
  exists (- (r * ci * st) * cos th - r * ct * sin th), (r * ci * ct * cos th - r * st * sin th), r, th. split; [auto|].
  assert (RC : r * cos th = a) by (rewrite C; field; lra). assert (RS : r * ci * sin th = Y * ct - X * st) by (rewrite S; unfold b; field; lra).
  split; [|split; [|split; [apply ring_xd|apply ring_yd]]].
  - unfold ring_x. rewrite RC, RS. unfold a. replace (dx + ((X * ct + Y * st) * ct - (Y * ct - X * st) * st)) with (dx + X * (st * st + ct * ct)) by ring. rewrite P. unfold X. ring.
  - unfold ring_y. rewrite RC, RS. unfold a. replace (dy + ((X * ct + Y * st) * st + (Y * ct - X * st) * ct)) with (dy + Y * (st * st + ct * ct)) by ring. rewrite P. unfold Y. ring.
Qed.
End Ring.
Definition slope_sine vx vy := Rabs vy / sqrt (vx * vx + vy * vy).
Lemma slope_scale k vx vy : k <> 0 -> slope_sine (k * vx) (k * vy) = slope_sine vx vy.
Proof.
  intros Hk. unfold slope_sine. replace (k * vx * (k * vx) + k * vy * (k * vy)) with ((k * k) * (vx * vx + vy * vy)) by ring.
  rewrite sqrt_mult by nra. replace (sqrt (k * k)) with (Rabs k) by (symmetry; apply sqrt_Rsqr_abs). rewrite Rabs_mult.
  destruct (Req_dec (sqrt (vx * vx + vy * vy)) 0) as [Z|Z].
  - rewrite Z. unfold Rdiv. rewrite Rmult_0_r, !Rinv_0. ring.
  - field. split; auto. now apply Rabs_no_R0.
Qed.

Section Cast.
Variables (dx dy fx fy r i t : R).
Hypothesis (H : casts_eclipse dx dy fx fy r i t).
Notation s := (- dx / dy).
Let c := sqrt (/ 2 * / 2 + dy * dy).
Lemma cast_c : 0 < c. Proof. apply sqrt_lt_R0. nra. Qed.
Lemma cast_ci : 0 < cos (degrees i).
Proof. destruct H as (_ & _ & _ & Hi & _). apply cos_gt_0; unfold degrees; assert (P := PI_RGT_0); nra. Qed.
Lemma cast_matrix : r * r * m11 i t = c * c * (fx * fx + s * fy * (s * fy)) /\ r * r * m22 i t = c * c * (fy * fy) /\ r * r * m12 i t = - (c * c * (s * fy * fy)).
Proof.
  destruct H as (_ & _ & _ & _ & _ & _ & Hed). fold c in Hed. revert Hed. generalize (- dx / dy). intros s Hed.
  destruct (@image_eq (r * cos (degrees t)) (- (r * cos (degrees i) * sin (degrees t))) (r * sin (degrees t)) (r * cos (degrees i) * cos (degrees t))
    (c * fx) (- (c * (s * fy))) 0 (c * fy)) as (A & B & C).
  - intros th. destruct (proj1 (Hed (dx + ring_x r i t th) (dy + ring_y r i t th))) as (u & v & Huv & X & Y). { exists th. split; unfold ring_x, ring_y; reflexivity. }
    assert (Cp := cast_c). destruct (@on_circle (u / c) (v / c)) as (ph & C1 & S1). { field_simplify; [|lra]. replace (u ^ 2 + v ^ 2) with (c * c) by (rewrite <- Huv; ring). field. lra. }
    exists ph. rewrite C1, S1. unfold ring_x, ring_y in X, Y. split.
    + replace (c * fx * (u / c) + - (c * (s * fy)) * (v / c)) with (fx * u - s * (fy * v)) by (field; lra). lra.
    + replace (0 * (u / c) + c * fy * (v / c)) with (fy * v) by (field; lra). lra.
  - intros th. destruct (proj2 (Hed (dx + (fx * (c * cos th) - s * (fy * (c * sin th)))) (dy + fy * (c * sin th)))) as (ph & X & Y).
    { exists (c * cos th), (c * sin th). split; [|split; reflexivity]. assert (P := sin2_cos2 th). unfold Rsqr in P. transitivity (c * c * (sin th * sin th + cos th * cos th)); [ring|rewrite P; ring]. }
    exists ph. split; lra.
  - unfold m11, m12, m22. repeat split; lra.
Qed.
(** the gradient of the model is that of the tangent *)
Theorem cast_gradient p vx vy : (p <> dx \/ dy <> 0) -> tangent dx dy i t p vx vy ->
  (vx <> 0 -> gradient_at Libm_xr (XFin p) (XFin dx) (XFin dy) (XFin s) (XFin fx) (XFin fy) = XFin (slope_sine vx vy)) /\
  (vx = 0 -> gradient_at Libm_xr (XFin p) (XFin dx) (XFin dy) (XFin s) (XFin fx) (XFin fy) = XNaN).
Proof.
  intros Hq Ht. assert (Hc := cast_ci). assert (Cp := cast_c). destruct (tangent_dir Hc Ht) as [V1 V2]. assert (M := cast_matrix). destruct H as (Fx & Fy & Hr & _). revert M. generalize (- dx / dy). intros s (M1 & M2 & M3).
  destruct (@concentric p dx dy s fx fy Fx Fy Hq) as (k & th & Hk & K1 & K2). destruct (@curve_derivative fx fy s k th) as [D1 D2].
  destruct (@gradient_tangent p dx dy s fx fy k th _ _ ltac:(lra) ltac:(lra) ltac:(lra) K1 K2 D1 D2) as [G1 G2].
  set (wx := k * (- fx * sin th - s * (fy * cos th))) in *. set (wy := k * (fy * cos th)) in *.
  assert (W1 : fx * fy * wx = - (s * fy * fy) * (p - dx) + (fx * fx + s * fy * (s * fy)) * dy).
  { replace (p - dx) with (curve_x fx fy s k th) by lra. replace dy with (- curve_y fy k th) by lra. unfold wx, curve_x, curve_y. ring. }
  assert (W2 : fx * fy * wy = fy * fy * (p - dx) - s * fy * fy * dy).
  { replace (p - dx) with (curve_x fx fy s k th) by lra. replace dy with (- curve_y fy k th) by lra. unfold wy, curve_x, curve_y. ring. }
  set (q := fx * fy * (c * c) / (r * r * cos (degrees i))).
  assert (Q : q <> 0). { unfold q. apply Rgt_not_eq. apply Rdiv_lt_0_compat; repeat apply Rmult_lt_0_compat; lra. }
  assert (E1 : vx = q * wx). { apply (Rmult_eq_reg_l (r * r * cos (degrees i))); [|apply Rgt_not_eq; repeat apply Rmult_lt_0_compat; lra].
    transitivity (r * r * m12 i t * (p - dx) + r * r * m11 i t * dy); [rewrite Rmult_assoc, V1; ring|]. rewrite M1, M3.
    transitivity (c * c * (fx * fy * wx)); [rewrite W1; ring|]. unfold q. field. lra. }
  assert (E2 : vy = q * wy).
  { apply (Rmult_eq_reg_l (r * r * cos (degrees i))); [|apply Rgt_not_eq; repeat apply Rmult_lt_0_compat; lra].
    transitivity (r * r * m22 i t * (p - dx) + r * r * m12 i t * dy); [rewrite Rmult_assoc, V2; ring|]. rewrite M2, M3.
    transitivity (c * c * (fx * fy * wy)); [rewrite W2; ring|]. unfold q. field. lra. }
  rewrite E1, E2. rewrite slope_scale by auto. split; intros X.
  - apply G1. intros Z. apply X. rewrite Z. ring.
  - apply G2. apply Rmult_integral in X as [X|X]; [contradiction|exact X].
Qed.
End Cast.
