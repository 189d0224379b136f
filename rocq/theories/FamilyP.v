(** Every disk whose edge passes through the two contact points is one of the disks of the grid point. *)
From Coq Require Import Reals Lia Lra Psatz.
From Verif Require Import Num NumP XLibm Geometry SpecGeom SpecError GeomP GeomMoreP BuildXP EdgeP ColumnP LipP.
Set Implicit Arguments.
Local Open Scope R_scope.

Lemma edge_form dx dy r k C S x y : 0 < r -> 0 < k -> C * C + S * S = 1 ->
  (exists th, x = dx + (r * cos th * C - r * k * sin th * S) /\ y = dy + (r * cos th * S + r * k * sin th * C)) <->
  let X := x - dx in let Y := y - dy in / (r * r) * ((X * C + Y * S) * (X * C + Y * S)) + / (r * k * (r * k)) * ((Y * C - X * S) * (Y * C - X * S)) = 1.
Proof.
  intros Hr Hk Hu. cbv zeta. set (X := x - dx). set (Y := y - dy). assert (Hrk : 0 < r * k) by (apply Rmult_lt_0_compat; auto). split.
  - intros (th & Ex & Ey). assert (EX : X = r * cos th * C - r * k * sin th * S) by (unfold X; lra). assert (EY : Y = r * cos th * S + r * k * sin th * C) by (unfold Y; lra).
    assert (A : X * C + Y * S = r * cos th). { rewrite EX, EY. transitivity (r * cos th * (C * C + S * S)); [ring|rewrite Hu; ring]. }
    assert (B : Y * C - X * S = r * k * sin th). { rewrite EX, EY. transitivity (r * k * sin th * (C * C + S * S)); [ring|rewrite Hu; ring]. }
    rewrite A, B. assert (T := sin2_cos2 th). unfold Rsqr in T. replace (/ (r * r) * (r * cos th * (r * cos th))) with (cos th * cos th) by (field; lra).
    replace (/ (r * k * (r * k)) * (r * k * sin th * (r * k * sin th))) with (sin th * sin th) by (field; lra). lra.
  - intros H. destruct (@on_circle 1 ((X * C + Y * S) / r) ((Y * C - X * S) / (r * k))) as (th & E1 & E2); [lra| |].
    + rewrite Rmult_1_l, <- H. field. lra.
    + rewrite Rmult_1_l in E1, E2. exists th. rewrite <- E1, <- E2.
      assert (A : X = (X * C + Y * S) * C - (Y * C - X * S) * S) by (transitivity (X * (C * C + S * S)); [rewrite Hu; ring|ring]).
      assert (B : Y = (X * C + Y * S) * S + (Y * C - X * S) * C) by (transitivity (Y * (C * C + S * S)); [rewrite Hu; ring|ring]).
      replace (r * ((X * C + Y * S) / r)) with (X * C + Y * S) by (field; lra). replace (r * k * ((Y * C - X * S) / (r * k))) with (Y * C - X * S) by (field; lra).
      rewrite <- A, <- B. unfold X, Y. split; ring.
Qed.
Lemma ellipse_form dx dy fx fy s c x y : 0 < fx -> 0 < fy -> 0 < c ->
  on_ellipse dx dy fx fy s c x y <-> let X := x - dx in let Y := y - dy in (X + s * Y) * (X + s * Y) / (c * fx * (c * fx)) + Y * Y / (c * fy * (c * fy)) = 1.
Proof.
  intros Hx Hy Hc. cbv zeta. set (X := x - dx). set (Y := y - dy). unfold on_ellipse. split.
  - intros (u & v & E & Ex & Ey). assert (EX : X = fx * u - s * (fy * v)) by (unfold X; lra). assert (EY : Y = fy * v) by (unfold Y; lra).
    replace (X + s * Y) with (fx * u) by (rewrite EX, EY; ring). rewrite EY. replace (_ + _) with ((u * u + v * v) / (c * c)) by (field; lra). rewrite E. field. lra.
  - intros H. exists ((X + s * Y) / fx), (Y / fy). split; [|split].
    + replace (c * c) with (c * c * 1) by ring. rewrite <- H. field. lra.
    + replace (fx * ((X + s * Y) / fx)) with (X + s * Y) by (field; lra). replace (fy * (Y / fy)) with Y by (field; lra). unfold X, Y. ring.
    + replace (fy * (Y / fy)) with Y by (field; lra). unfold Y. ring.
Qed.
Lemma cos_deg_range i : 0 <= i < 90 -> 0 < cos (degrees i) <= 1.
Proof.
  intros [H1 H2]. split; [|apply COS_bound]. assert (P := PI_RGT_0). unfold degrees. apply cos_gt_0; nra.
Qed.
(** the largest distance from the centre of a point of the edge of a disk is its radius *)
Lemma edge_distance dx dy r i t : 0 < r -> 0 <= i < 90 ->
  (exists x y, disk_edge dx dy r i t x y /\ dist dx dy x y = r) /\ forall x y, disk_edge dx dy r i t x y -> dist dx dy x y <= r.
Proof.
  intros Hr Hi. destruct (cos_deg_range Hi) as [K1 K2]. assert (T := sin2_cos2 (degrees t)). unfold Rsqr in T. unfold disk_edge, dist. split.
  - exists (dx + r * cos (degrees t)), (dy + r * sin (degrees t)). split.
    + exists 0. rewrite cos_0, sin_0. split; ring.
    + match goal with |- sqrt ?q = _ => replace q with (r * r) end; [apply sqrt_square; lra|]. transitivity (r * r * (sin (degrees t) * sin (degrees t) + cos (degrees t) * cos (degrees t))); [rewrite T; ring|ring].
  - intros x y (th & -> & ->). set (C := cos (degrees t)) in *. set (S := sin (degrees t)) in *. set (k := cos (degrees i)) in *.
    apply Rle_trans with (sqrt (r * r)); [apply sqrt_le_1_alt|right; apply sqrt_square; lra].
    match goal with |- ?q <= _ => replace q with (r * r * (cos th * cos th + k * k * (sin th * sin th)) * (S * S + C * C)) by ring end. rewrite T, Rmult_1_r.
    assert (U := sin2_cos2 th). unfold Rsqr in U. assert (k * k <= 1) by nra. assert (k * k * (sin th * sin th) <= 1 * (sin th * sin th)) by (apply Rmult_le_compat_r; [apply Rle_0_sqr|auto]).
    rewrite <- (Rmult_1_r (r * r)) at 2. apply Rmult_le_compat_l; [nra|lra].
Qed.

Theorem disk_in_family dx dy r i t : dy <> 0 -> 0 < r -> 0 <= i < 90 -> disk_edge dx dy r i t (- / 2) 0 -> disk_edge dx dy r i t (/ 2) 0 ->
  exists fy, roomy_fy dy fy /\ (forall x y, disk_edge dx dy r i t x y <-> on_ellipse dx dy (fx_of dy fy) fy (- dx / dy) (radius_of dy) x y) /\
    r = radius_at dy (- dx / dy) (radius_of dy) fy.
Proof.
  intros Hd Hr Hi C1 C2. destruct (cos_deg_range Hi) as [K1 K2].
  set (C := cos (degrees t)). set (S := sin (degrees t)). set (k := cos (degrees i)) in *.
  assert (T : C * C + S * S = 1). { assert (T := sin2_cos2 (degrees t)). unfold Rsqr in T. fold C S in T. lra. }
  assert (Ed : forall x y, disk_edge dx dy r i t x y <-> let X := x - dx in let Y := y - dy in / (r * r) * ((X * C + Y * S) * (X * C + Y * S)) + / (r * k * (r * k)) * ((Y * C - X * S) * (Y * C - X * S)) = 1).
  { intros x y. apply edge_form; auto. }
  cbv zeta in Ed. assert (Hrk : 0 < r * k) by (apply Rmult_lt_0_compat; auto).
  set (p := / (r * r)) in *. set (q := / (r * k * (r * k))) in *. assert (Pp : 0 < p) by (apply Rinv_0_lt_compat; nra). assert (Pq : 0 < q) by (apply Rinv_0_lt_compat; nra).
  set (al := p * (C * C) + q * (S * S)). set (be := (p - q) * (C * S)). set (ga := p * (S * S) + q * (C * C)).
  assert (Form : forall X Y, p * ((X * C + Y * S) * (X * C + Y * S)) + q * ((Y * C - X * S) * (Y * C - X * S)) = al * (X * X) + 2 * be * (X * Y) + ga * (Y * Y)) by (intros; unfold al, be, ga; ring).
  assert (Det : al * ga - be * be = p * q). { transitivity (p * q * ((C * C + S * S) * (C * C + S * S))); [unfold al, be, ga; ring|rewrite T; ring]. }
  assert (Pal : 0 < al). { unfold al. destruct (Req_EM_T C 0) as [Z|Z]; [rewrite Z in *; nra|]. assert (0 < C * C) by (apply sqpos; auto). assert (0 <= S * S) by apply Rle_0_sqr. nra. }
  apply Ed in C1. apply Ed in C2. rewrite Form in C1, C2.
  set (s := - dx / dy). assert (Es : s * dy = - dx) by (unfold s; field; auto).
  assert (Eb : be = s * al). { apply (Rmult_eq_reg_r dy); auto. replace (s * al * dy) with (al * (s * dy)) by ring. rewrite Es. lra. }
  set (de := ga - s * s * al).
  assert (Ed1 : al * de = p * q) by (rewrite <- Det, Eb; unfold de; ring).
  assert (Pde : 0 < de). { assert (0 < p * q) by (apply Rmult_lt_0_compat; auto). apply (Rmult_lt_reg_l al); auto. rewrite Rmult_0_r. lra. }
  assert (Sum : al / 4 + de * (dy * dy) = 1).
  { unfold de. replace ((ga - s * s * al) * (dy * dy)) with (ga * (dy * dy) - al * ((s * dy) * (s * dy))) by ring. rewrite Es.
    assert (Eb' : be * dy = - (al * dx)) by (rewrite Eb; replace (s * al * dy) with (al * (s * dy)) by ring; rewrite Es; ring). 
    assert (Eb2 : be * dx * dy = - (al * dx * dx)) by (replace (be * dx * dy) with (be * dy * dx) by ring; rewrite Eb'; ring). lra. }
  set (c := radius_of dy). assert (Hc : 0 < c) by apply radius_pos. assert (Ec : c * c = / 4 + dy * dy). { unfold c, radius_of. rewrite sqrt_sqrt by nra. field. }
  set (sa := sqrt al). assert (Psa : 0 < sa) by (apply sqrt_lt_R0; auto). assert (Esa : sa * sa = al) by (apply sqrt_sqrt; lra).
  set (sd := sqrt de). assert (Psd : 0 < sd) by (apply sqrt_lt_R0; auto). assert (Esd : sd * sd = de) by (apply sqrt_sqrt; lra).
  set (fy := / (c * sd)). set (fx := / (c * sa)).
  assert (Py : 0 < fy) by (apply Rinv_0_lt_compat, Rmult_lt_0_compat; auto). assert (Px : 0 < fx) by (apply Rinv_0_lt_compat, Rmult_lt_0_compat; auto).
  assert (Dn : fy * fy * (1 + 4 * (dy * dy)) - 4 * (dy * dy) = al / de).
  { replace (1 + 4 * (dy * dy)) with (4 * (c * c)) by (rewrite Ec; field). replace (fy * fy * (4 * (c * c))) with (4 / de) by (rewrite <- Esd; unfold fy; field; lra).
    apply (Rmult_eq_reg_r de); [|lra]. replace (al / de * de) with al by (field; lra). replace ((4 / de - 4 * (dy * dy)) * de) with (4 - 4 * (de * (dy * dy))) by (field; lra). lra. }
  assert (Pd : 0 < al / de) by (apply Rdiv_lt_0_compat; auto).
  assert (Rm : roomy_fy dy fy) by (split; [auto|rewrite Dn; auto]).
  assert (Ex : fx_of dy fy = fx).
  { assert (P1 := proj2 (fx_roomy Rm)). assert (Q := fx_of_sq Rm). rewrite Dn in Q. apply Rsqr_inj; [lra|lra|]. unfold Rsqr. apply (Rmult_eq_reg_r (al / de)); [|lra]. rewrite Q.
    rewrite <- Esa, <- Esd. unfold fx, fy. field. lra. }
  assert (Same : forall x y, disk_edge dx dy r i t x y <-> on_ellipse dx dy (fx_of dy fy) fy s c x y).
  { intros x y. rewrite Ed, Form, Ex, ellipse_form by auto. cbv zeta. set (X := x - dx). set (Y := y - dy).
    replace ((X + s * Y) * (X + s * Y) / (c * fx * (c * fx)) + Y * Y / (c * fy * (c * fy))) with (al * (X * X) + 2 * be * (X * Y) + ga * (Y * Y)); [reflexivity|].
    replace (c * fx * (c * fx)) with (/ al) by (rewrite <- Esa; unfold fx; field; lra). replace (c * fy * (c * fy)) with (/ de) by (rewrite <- Esd; unfold fy; field; lra).
    rewrite Eb. unfold Rdiv. rewrite !Rinv_inv. unfold de. ring. }
  exists fy. split; auto. split; auto. fold s. fold c in Same |- *. unfold radius_at.
  destruct (edge_distance dx dy t Hr Hi) as [(x & y & He & Hdist) Hmax]. destruct (@major_largest (fx_of dy fy) fy s c Hc) as [(x' & y' & He' & Hdist') Hmax'].
  assert (Ds : forall x y, dist dx dy x y = dist 0 0 (x - dx) (y - dy)) by (intros; unfold dist; rewrite !Rminus_0_r; reflexivity).
  apply Rle_antisym.
  - assert (G := proj1 (on_ellipse_shift dx dy (fx_of dy fy) fy s c x y) (proj1 (Same x y) He)). apply Hmax' in G. rewrite <- Ds, Hdist in G. exact G.
  - assert (G : disk_edge dx dy r i t (x' + dx) (y' + dy)).
    { apply Same. apply (proj2 (on_ellipse_shift dx dy (fx_of dy fy) fy s c (x' + dx) (y' + dy))). replace (x' + dx - dx) with x' by ring. replace (y' + dy - dy) with y' by ring. exact He'. }
    apply Hmax in G. rewrite Ds in G. replace (x' + dx - dx) with x' in G by ring. replace (y' + dy - dy) with y' in G by ring. rewrite <- Hdist'. exact G.
Qed.
Theorem eclipsing_casts dx dy r i t : dy <> 0 -> eclipsing_disk dx dy r i t ->
  exists fx fy, determine_fx (XFin fy) (XFin dy) = XFin fx /\ casts_eclipse dx dy fx fy r i t.
Proof.
  intros Hd (Hr & Hi & C1 & C2). destruct (disk_in_family Hd Hr Hi C1 C2) as (fy & Rm & Same & _). destruct (fx_roomy Rm) as [E P]. exists (fx_of dy fy), fy. split; auto.
  destruct Rm as [Py _]. do 6 (split; [assumption|]). exact Same.
Qed.
Lemma eclipsing_origin r i t : eclipsing_disk 0 0 r i t -> / 2 <= r.
Proof.
  intros (Hr & Hi & _ & C2). assert (D := proj2 (edge_distance 0 0 t Hr Hi) _ _ C2). unfold dist in D. replace ((/ 2 - 0) * (/ 2 - 0) + (0 - 0) * (0 - 0)) with (/ 2 * / 2) in D by ring.
  rewrite sqrt_square in D by lra. exact D.
Qed.
