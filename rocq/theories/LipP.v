(** The radius of the disk as a function of the scale factors: how fast it changes, and that it has no
    second minimum along the family of disks of a grid point. *)
From Coq Require Import Reals Lia Lra Psatz.
From Verif Require Import Num NumP XLibm Geometry SpecGeom GeomP GeomMoreP BuildXP EdgeP ColumnP.
Set Implicit Arguments.
Local Open Scope R_scope.

(** *** continuity *)
Lemma triangle x y u w : sqrt ((x + u) * (x + u) + (y + w) * (y + w)) <= sqrt (x * x + y * y) + (Rabs u + Rabs w).
Proof.
  assert (Hu := Rabs_pos u). assert (Hw := Rabs_pos w). assert (P := sqrt_pos (x * x + y * y)).
  assert (Sx : Rabs x <= sqrt (x * x + y * y)) by (rewrite <- sqrt_Rsqr_abs; apply sqrt_le_1_alt; unfold Rsqr; nra).
  assert (Sy : Rabs y <= sqrt (x * x + y * y)) by (rewrite <- (sqrt_Rsqr_abs y); apply sqrt_le_1_alt; unfold Rsqr; nra).
  assert (Hx := Rabs_pos x). assert (Hy := Rabs_pos y).
  set (S := sqrt (x * x + y * y)) in *. rewrite <- (sqrt_square (S + (Rabs u + Rabs w))) by lra. apply sqrt_le_1_alt.
  assert (E : S * S = x * x + y * y) by (apply sqrt_sqrt; nra).
  assert (A : x * u <= Rabs x * Rabs u) by (rewrite <- Rabs_mult; apply Rle_abs). assert (B : y * w <= Rabs y * Rabs w) by (rewrite <- Rabs_mult; apply Rle_abs).
  assert (u * u = Rabs u * Rabs u) by (rewrite <- Rabs_mult; symmetry; apply Rabs_pos_eq; nra). assert (w * w = Rabs w * Rabs w) by (rewrite <- Rabs_mult; symmetry; apply Rabs_pos_eq; nra).
  assert (Rabs x * Rabs u <= S * Rabs u) by (apply Rmult_le_compat_r; auto). assert (Rabs y * Rabs w <= S * Rabs w) by (apply Rmult_le_compat_r; auto).
  assert (0 <= Rabs u * Rabs w) by (apply Rmult_le_pos; auto). nra.
Qed.
Lemma major_close fx fy fx' fy' s c : 0 < c ->
  Rabs (d_major fx fy s c - d_major fx' fy' s c) <= c * (Rabs (fx - fx') + (1 + Rabs s) * Rabs (fy - fy')).
Proof.
  intros Hc. assert (One : forall fx fy fx' fy', d_major fx fy s c <= d_major fx' fy' s c + c * (Rabs (fx - fx') + (1 + Rabs s) * Rabs (fy - fy'))).
  { clear fx fy fx' fy'. intros fx fy fx' fy'. unfold d_major at 1. match goal with |- sqrt (r2 _ _ _ _ ?u) <= _ => set (t := u) end.
    assert (B := proj2 (@r2_bounds fx' fy' s c Hc t)). apply sqrt_le_1_alt in B. fold (d_major fx' fy' s c) in B.
    eapply Rle_trans; [|apply Rplus_le_compat_r; exact B]. unfold r2.
    replace (px fx fy s c t) with (px fx' fy' s c t + c * ((fx - fx') * cos t - s * ((fy - fy') * sin t))) by (unfold px; ring).
    replace (py fy c t) with (py fy' c t + c * ((fy - fy') * sin t)) by (unfold py; ring).
    eapply Rle_trans; [apply triangle|]. apply Rplus_le_compat_l. rewrite !Rabs_mult, (Rabs_pos_eq c) by lra. rewrite <- Rmult_plus_distr_l. apply Rmult_le_compat_l; [lra|].
    assert (C : Rabs (cos t) <= 1) by (apply Rabs_le; destruct (COS_bound t); lra). assert (Sn : Rabs (sin t) <= 1) by (apply Rabs_le; destruct (SIN_bound t); lra).
    assert (Hx := Rabs_pos (fx - fx')). assert (Hy := Rabs_pos (fy - fy')). assert (Hs := Rabs_pos s). assert (Hsn := Rabs_pos (sin t)).
    assert (T := Rabs_triang ((fx - fx') * cos t) (- (s * ((fy - fy') * sin t)))). rewrite Rabs_Ropp, !Rabs_mult in T. unfold Rminus at 1.
    assert (Rabs (fx - fx') * Rabs (cos t) <= Rabs (fx - fx')) by nra. assert (G : Rabs (fy - fy') * Rabs (sin t) <= Rabs (fy - fy')) by nra.
    assert (Rabs s * (Rabs (fy - fy') * Rabs (sin t)) <= Rabs s * Rabs (fy - fy')) by (apply Rmult_le_compat_l; auto). lra. }
  apply Rabs_le. assert (A := One fx fy fx' fy'). assert (B := One fx' fy' fx fy). rewrite (Rabs_minus_sym fx' fx), (Rabs_minus_sym fy' fy) in B. lra.
Qed.

(** *** the curve of scale factors *)
Lemma den_ge L x : 0 <= L -> 1 <= x -> L <= x * x * (1 + L) - 1 /\ 1 <= x * x * (1 + L) - L.
Proof. intros HL Hx. assert (H : 0 <= (x * x - 1) * (1 + L)) by (apply Rmult_le_pos; [nra|lra]). split; lra. Qed.

Definition fy_of (dy fx : R) : R := fx * sqrt (4 * (dy * dy) / (fx * fx * (1 + 4 * (dy * dy)) - 1)).
Lemma fy_of_val dy fx : dy <> 0 -> 1 <= fx -> determine_fy (XFin fx) (XFin dy) = XFin (fy_of dy fx) /\ 0 < fy_of dy fx.
Proof.
  intros Hd Hx. assert (P := sqpos Hd). assert (X1 : 1 <= fx * fx) by nra. assert (HD : 0 < fx * fx * (1 + 4 * (dy * dy)) - 1) by (set (d := dy * dy) in *; nra). unfold fy_of. set (Dn := fx * fx * (1 + 4 * (dy * dy)) - 1) in *. split.
  - rewrite fy_xr. cbn zeta. fold Dn. destruct (Req_EM_T dy 0); [contradiction|]. destruct (Rle_dec Dn 0); [lra|]. f_equal.
    replace (4 * (fx * fx) * (dy * dy) / Dn) with ((fx * fx) * (4 * (dy * dy) / Dn)) by (field; lra).
    rewrite sqrt_mult_alt by nra. rewrite sqrt_square by lra. reflexivity.
  - apply Rmult_lt_0_compat; [lra|]. apply sqrt_lt_R0. apply Rdiv_lt_0_compat; lra.
Qed.
Lemma fy_of_roomy dy fx : dy <> 0 -> 1 <= fx -> roomy_fy dy (fy_of dy fx) /\ fx_of dy (fy_of dy fx) = fx.
Proof.
  intros Hd Hx. destruct (fy_of_val Hd Hx) as [E P]. assert (E' := @fx_of_fy fx dy _ Hd ltac:(lra) E). destruct (@roomy_of_fx dy _ fx P E') as [A B]. auto.
Qed.
Lemma fy_of_one dy : dy <> 0 -> fy_of dy 1 = 1.
Proof. intros Hd. destruct (@fy_of_val dy 1 Hd ltac:(lra)) as [E _]. rewrite fy_one in E. injection E as <-. reflexivity. Qed.

Lemma fy_of_close dy x x' : dy <> 0 -> 1 <= x -> 1 <= x' -> Rabs (fy_of dy x - fy_of dy x') <= Rabs (x - x') / (4 * (dy * dy)).
Proof.
  intros Hd Hx Hx'. assert (P := sqpos Hd). set (L := 4 * (dy * dy)). assert (HL : 0 < L) by (unfold L; lra).
  set (D := x * x * (1 + L) - 1). set (D' := x' * x' * (1 + L) - 1). assert (HD : L <= D) by (apply den_ge; lra). assert (HD' : L <= D') by (apply den_ge; lra).
  destruct (fy_of_val Hd Hx) as [_ Py]. destruct (fy_of_val Hd Hx') as [_ Py']. set (y := fy_of dy x) in *. set (y' := fy_of dy x') in *.
  assert (Ey : y * y * D = x * x * L). { unfold y, fy_of. fold L D. assert (Sq : sqrt (L / D) * sqrt (L / D) = L / D) by (apply sqrt_sqrt; apply Rlt_le, Rdiv_lt_0_compat; lra).
    replace (x * sqrt (L / D) * (x * sqrt (L / D)) * D) with (x * x * (sqrt (L / D) * sqrt (L / D)) * D) by ring. rewrite Sq. field. lra. }
  assert (Ey' : y' * y' * D' = x' * x' * L). { unfold y', fy_of. fold L D'. assert (Sq : sqrt (L / D') * sqrt (L / D') = L / D') by (apply sqrt_sqrt; apply Rlt_le, Rdiv_lt_0_compat; lra).
    replace (x' * sqrt (L / D') * (x' * sqrt (L / D')) * D') with (x' * x' * (sqrt (L / D') * sqrt (L / D')) * D') by ring. rewrite Sq. field. lra. }
  assert (Gy : forall z u Dz, 0 < z -> 1 <= u -> L <= Dz -> z * z * Dz = u * u * L -> L * u <= z * Dz).
  { intros z u Dz Hz Hu HDz Ez. apply Rsqr_incr_0_var; [|nra]. unfold Rsqr. replace (z * Dz * (z * Dz)) with (z * z * Dz * Dz) by ring. rewrite Ez.
    replace (L * u * (L * u)) with (u * u * L * L) by ring. apply Rmult_le_compat_l; [nra|auto]. }
  assert (G1 := Gy y x D Py Hx HD Ey). assert (G2 := Gy y' x' D' Py' Hx' HD' Ey').
  (* (y - y')(y + y') D D' = L (x' - x)(x + x') *)
  assert (Id : (y - y') * ((y + y') * (D * D')) = L * ((x' - x) * (x + x'))).
  { replace ((y - y') * ((y + y') * (D * D'))) with (y * y * D * D' - y' * y' * D' * D) by ring. rewrite Ey, Ey'. unfold D, D'. ring. }
  assert (Big : L * L * (x + x') <= (y + y') * (D * D')).
  { replace ((y + y') * (D * D')) with (y * D * D' + y' * D' * D) by ring.
    assert (L * x * L <= y * D * D') by (apply Rmult_le_compat; nra). assert (L * x' * L <= y' * D' * D) by (apply Rmult_le_compat; nra). lra. }
  apply (Rmult_le_reg_r ((y + y') * (D * D'))); [nra|]. rewrite <- (Rabs_pos_eq ((y + y') * (D * D'))) at 1 by nra. rewrite <- Rabs_mult, Id, Rabs_mult, Rabs_mult, (Rabs_pos_eq L), (Rabs_pos_eq (x + x')) by lra.
  rewrite (Rabs_minus_sym x' x). assert (Ha := Rabs_pos (x - x')). 
  apply Rle_trans with (Rabs (x - x') / L * (L * L * (x + x'))); [right; field; lra|]. apply Rmult_le_compat_l; [|exact Big]. apply Rmult_le_pos; auto. left; apply Rinv_0_lt_compat; auto.
Qed.
Lemma fx_of_sq dy y : roomy_fy dy y -> fx_of dy y * fx_of dy y * (y * y * (1 + 4 * (dy * dy)) - 4 * (dy * dy)) = y * y.
Proof.
  intros [H1 H2]. unfold fx_of. set (D := y * y * (1 + 4 * (dy * dy)) - 4 * (dy * dy)) in *.
  assert (Sq : sqrt (1 / D) * sqrt (1 / D) = 1 / D) by (apply sqrt_sqrt; apply Rlt_le, Rdiv_lt_0_compat; lra).
  replace (sqrt (1 / D) * y * (sqrt (1 / D) * y) * D) with (y * y * (sqrt (1 / D) * sqrt (1 / D)) * D) by ring. rewrite Sq. field. lra.
Qed.
Lemma fx_of_close dy y y' : 1 <= y -> 1 <= y' -> Rabs (fx_of dy y - fx_of dy y') <= 4 * (dy * dy) * Rabs (y - y').
Proof.
  intros Hy Hy'. set (L := 4 * (dy * dy)). assert (HL : 0 <= L) by (unfold L; nra).
  assert (Rm : forall z, 1 <= z -> roomy_fy dy z). { intros z Hz. split; [lra|]. fold L. destruct (den_ge HL Hz). lra. }
  assert (Px := proj2 (fx_roomy (Rm y Hy))). assert (Px' := proj2 (fx_roomy (Rm y' Hy'))).
  assert (Ex := fx_of_sq (Rm y Hy)). assert (Ex' := fx_of_sq (Rm y' Hy')). fold L in Ex, Ex'.
  set (x := fx_of dy y) in *. set (x' := fx_of dy y') in *.
  set (D := y * y * (1 + L) - L) in *. set (D' := y' * y' * (1 + L) - L) in *. assert (HD : 1 <= D) by (apply den_ge; lra). assert (HD' : 1 <= D') by (apply den_ge; lra).
  assert (Gy : forall z u Dz, 0 < z -> 1 <= u -> 1 <= Dz -> z * z * Dz = u * u -> u <= z * Dz).
  { intros z u Dz Hz Hu HDz Ez. apply Rsqr_incr_0_var; [|nra]. unfold Rsqr. replace (z * Dz * (z * Dz)) with (z * z * Dz * Dz) by ring. rewrite Ez. nra. }
  assert (G1 := Gy x y D Px Hy HD Ex). assert (G2 := Gy x' y' D' Px' Hy' HD' Ex').
  assert (Id : (x - x') * ((x + x') * (D * D')) = L * ((y' - y) * (y + y'))).
  { replace ((x - x') * ((x + x') * (D * D'))) with (x * x * D * D' - x' * x' * D' * D) by ring. rewrite Ex, Ex'. unfold D, D'. ring. }
  assert (Big : y + y' <= (x + x') * (D * D')).
  { replace ((x + x') * (D * D')) with (x * D * D' + x' * D' * D) by ring. nra. }
  apply (Rmult_le_reg_r ((x + x') * (D * D'))); [nra|]. rewrite <- (Rabs_pos_eq ((x + x') * (D * D'))) at 1 by nra. rewrite <- Rabs_mult, Id, Rabs_mult, Rabs_mult, (Rabs_pos_eq L), (Rabs_pos_eq (y + y')) by lra.
  rewrite (Rabs_minus_sym y' y). assert (Ha := Rabs_pos (y - y')). replace (L * (Rabs (y - y') * (y + y'))) with (L * Rabs (y - y') * (y + y')) by ring. apply Rmult_le_compat_l; [|exact Big]. apply Rmult_le_pos; auto.
Qed.
Lemma fx_of_down dy y y' : roomy_fy dy y -> y <= y' -> fx_of dy y' <= fx_of dy y.
Proof.
  intros Hr Hy. assert (Hr' := roomy_up Hr Hy). assert (Px := proj2 (fx_roomy Hr)). assert (Px' := proj2 (fx_roomy Hr')).
  assert (Ex := fx_of_sq Hr). assert (Ex' := fx_of_sq Hr'). set (x := fx_of dy y) in *. set (x' := fx_of dy y') in *. destruct Hr as [H1 H2], Hr' as [H3 H4].
  set (L := 4 * (dy * dy)) in *. assert (HL : 0 <= L) by (unfold L; nra).
  set (D := y * y * (1 + L) - L) in *. set (D' := y' * y' * (1 + L) - L) in *.
  apply Rsqr_incr_0_var; [|lra]. unfold Rsqr. apply (Rmult_le_reg_r (D * D')); [nra|].
  replace (x' * x' * (D * D')) with (x' * x' * D' * D) by ring. replace (x * x * (D * D')) with (x * x * D * D') by ring. rewrite Ex, Ex'. unfold D, D'.
  assert (y * y <= y' * y') by nra. assert (L * (y * y) <= L * (y' * y')) by (apply Rmult_le_compat_l; auto). lra.
Qed.

(** *** the radius in terms of directions *)
Section S.
Variables fx fy s c : R.
Hypothesis Hc : 0 < c.
Definition reach2 (w1 w2 : R) : R := fx * w1 * (fx * w1) + fy * (w2 - s * w1) * (fy * (w2 - s * w1)).
Lemma image_le u v : u * u + v * v = 1 -> (fx * u - s * (fy * v)) * (fx * u - s * (fy * v)) + fy * v * (fy * v) <= (d_major fx fy s c / c) * (d_major fx fy s c / c).
Proof.
  intros E. destruct (@on_circle 1 u v) as (th & -> & ->); [lra|lra|]. rewrite !Rmult_1_l.
  assert (B := proj2 (@r2_bounds fx fy s c Hc th)). unfold d_major. match goal with |- _ <= sqrt ?q / c * _ => set (m := q) in * end.
  assert (Hm : 0 <= m) by (eapply Rle_trans; [|exact B]; unfold r2; nra). replace (sqrt m / c * (sqrt m / c)) with ((sqrt m * sqrt m) * (/ c * / c)) by (field; lra). rewrite sqrt_sqrt by auto.
  unfold r2, px, py in B. apply (Rmult_le_reg_r (c * c)); [nra|]. replace (m * (/ c * / c) * (c * c)) with m by (field; lra).
  eapply Rle_trans; [|exact B]. right. ring.
Qed.
Lemma reach_le w1 w2 : w1 * w1 + w2 * w2 = 1 -> reach2 w1 w2 <= (d_major fx fy s c / c) * (d_major fx fy s c / c).
Proof.
  intros E. set (r := d_major fx fy s c / c). assert (Hr : 0 <= r). { apply Rmult_le_pos; [apply sqrt_pos|left; apply Rinv_0_lt_compat; auto]. }
  unfold reach2. set (p := fx * w1). set (q := fy * (w2 - s * w1)). set (m := sqrt (p * p + q * q)).
  assert (Em : m * m = p * p + q * q) by (apply sqrt_sqrt; nra). assert (Hm := sqrt_pos (p * p + q * q)). fold m in Hm.
  destruct (Req_EM_T m 0) as [Z|Z]; [rewrite <- Em, Z; nra|].
  assert (U : (p / m) * (p / m) + (q / m) * (q / m) = 1) by (replace (p / m * (p / m) + q / m * (q / m)) with ((p * p + q * q) / (m * m)) by (field; auto); rewrite Em; field; rewrite <- Em; nra).
  assert (I := image_le U). fold r in I. set (X := fx * (p / m) - s * (fy * (q / m))) in *. set (Y := fy * (q / m)) in *.
  assert (Dot : X * w1 + Y * w2 = m). { unfold X, Y. transitivity ((p * (fx * w1) + q * (fy * (w2 - s * w1))) / m); [field; auto|]. fold p q. rewrite <- Em. field. auto. }
  assert (CS : m * m <= X * X + Y * Y). { rewrite <- Dot. assert (0 <= (X * w2 - Y * w1) * (X * w2 - Y * w1)) by apply Rle_0_sqr. nra. }
  rewrite <- Em. lra.
Qed.
Lemma reach_attained : 0 < fx -> 0 < fy -> exists w1 w2, w1 * w1 + w2 * w2 = 1 /\ (d_major fx fy s c / c) * (d_major fx fy s c / c) <= reach2 w1 w2.
Proof.
  intros Hx Hy. destruct (proj1 (@major_largest fx fy s c Hc)) as (x & y & He & Hd). apply ell_angle in He as (th & -> & ->); auto.
  set (r := d_major fx fy s c / c). assert (Pd : 0 < d_major fx fy s c) by (eapply Rlt_le_trans; [apply (@minor_pos fx fy s c); auto|apply minor_le; auto]).
  assert (Hr : 0 < r) by (apply Rdiv_lt_0_compat; auto).
  set (X := fx * cos th - s * (fy * sin th)). set (Y := fy * sin th).
  assert (EX : X * X + Y * Y = r * r).
  { rewrite dist_r2 in Hd. assert (r2 fx fy s c th = d_major fx fy s c * d_major fx fy s c) by (rewrite <- Hd; symmetry; apply sqrt_sqrt; unfold r2; nra).
    unfold r. apply (Rmult_eq_reg_r (c * c)); [|nra]. replace (d_major fx fy s c / c * (d_major fx fy s c / c) * (c * c)) with (d_major fx fy s c * d_major fx fy s c) by (field; lra).
    rewrite <- H. unfold r2, px, py, X, Y. ring. }
  exists (X / r), (Y / r). split; [replace (X / r * (X / r) + Y / r * (Y / r)) with ((X * X + Y * Y) / (r * r)) by (field; lra); rewrite EX; field; nra|].
  unfold reach2. set (p := fx * (X / r)). set (q := fy * (Y / r - s * (X / r))). assert (T := sin2_cos2 th). unfold Rsqr in T.
  assert (Dot : p * cos th + q * sin th = r). { unfold p, q. transitivity ((X * X + Y * Y) / r); [unfold X at 4, Y at 3; field; lra|rewrite EX; field; lra]. }
  rewrite <- Dot. assert (0 <= (p * sin th - q * cos th) * (p * sin th - q * cos th)) by apply Rle_0_sqr. nra.
Qed.
End S.

(** along the disks of a grid point the radius has no second minimum *)
Lemma fx_sq_convex dy y1 y2 y3 A B : roomy_fy dy y1 -> y1 <= y2 -> y2 <= y3 -> 0 <= A -> 0 <= B ->
  let V y := fx_of dy y * fx_of dy y * A + y * y * B in V y2 <= Rmax (V y1) (V y3).
Proof.
  intros R1 H12 H23 HA HB V. assert (R2 := roomy_up R1 H12). assert (R3 := roomy_up R2 H23).
  set (L := 4 * (dy * dy)). assert (HL : 0 <= L) by (unfold L; nra).
  set (D := fun y => y * y * (1 + L) - L).
  assert (EV : forall y, roomy_fy dy y -> 0 < D y /\ V y = y * y / D y * A + y * y * B).
  { intros y Hr. assert (Ey := fx_of_sq Hr). destruct Hr as [Py Pd]. fold L in Ey, Pd. fold (D y) in Ey, Pd. split; auto. unfold V. f_equal. f_equal. rewrite <- Ey. field. lra. }
  destruct (EV _ R1) as [D1 E1]. destruct (EV _ R2) as [D2 E2]. destruct (EV _ R3) as [D3 E3]. clear EV.
  destruct (Rle_lt_dec (y3 * y3) (y1 * y1)) as [Hz|Hz].
  { assert (P1 := proj1 R1). assert (y1 = y3) by nra. assert (y2 = y1) by lra. subst y2. apply Rmax_l. }
  (* the weights *)
  set (a1 := y1 * y1) in *. set (a2 := y2 * y2) in *. set (a3 := y3 * y3) in *.
  assert (P1 := proj1 R1). assert (A12 : a1 <= a2) by (unfold a1, a2; nra). assert (A23 : a2 <= a3) by (unfold a2, a3; nra).
  assert (Cv : (a3 - a1) * (a2 / D y2) <= (a3 - a2) * (a1 / D y1) + (a2 - a1) * (a3 / D y3)).
  { unfold D in *. fold a1 a2 a3 in D1, D2, D3 |- *. set (d1 := a1 * (1 + L) - L) in *. set (d2 := a2 * (1 + L) - L) in *. set (d3 := a3 * (1 + L) - L) in *.
    assert (K : (a3 - a2) * (a1 / d1) + (a2 - a1) * (a3 / d3) - (a3 - a1) * (a2 / d2) = L * (1 + L) * ((a3 - a2) * (a2 - a1) * (a3 - a1)) / (d1 * d2 * d3)).
    { unfold d1, d2, d3 in *. field. repeat split; lra. }
    assert (0 <= L * (1 + L) * ((a3 - a2) * (a2 - a1) * (a3 - a1)) / (d1 * d2 * d3)); [|lra].
    apply Rmult_le_pos; [|left; apply Rinv_0_lt_compat; repeat apply Rmult_lt_0_compat; auto].
    apply Rmult_le_pos; [apply Rmult_le_pos; lra|apply Rmult_le_pos; [apply Rmult_le_pos|]; lra]. }
  assert (W : (a3 - a1) * V y2 <= (a3 - a2) * V y1 + (a2 - a1) * V y3).
  { rewrite E1, E2, E3. fold a1 a2 a3. apply (Rmult_le_compat_r A) in Cv; auto. nra. }
  assert (M1 := Rmax_l (V y1) (V y3)). assert (M3 := Rmax_r (V y1) (V y3)). set (M := Rmax (V y1) (V y3)) in *.
  apply (Rmult_le_reg_l (a3 - a1)); [lra|]. assert ((a3 - a2) * V y1 <= (a3 - a2) * M) by (apply Rmult_le_compat_l; lra). assert ((a2 - a1) * V y3 <= (a2 - a1) * M) by (apply Rmult_le_compat_l; lra). lra.
Qed.
Definition radius_at (dy s c y : R) : R := d_major (fx_of dy y) y s c.
Theorem radius_one_minimum dy s c y1 y2 y3 : 0 < c -> roomy_fy dy y1 -> y1 <= y2 -> y2 <= y3 -> radius_at dy s c y2 <= Rmax (radius_at dy s c y1) (radius_at dy s c y3).
Proof.
  intros Hc R1 H12 H23. assert (R2 := roomy_up R1 H12). assert (R3 := roomy_up R2 H23). unfold radius_at.
  destruct (fx_roomy R2) as [_ Px2]. destruct (@reach_attained (fx_of dy y2) y2 s c Hc Px2 (proj1 R2)) as (w1 & w2 & Hw & Ha).
  assert (Cv := @fx_sq_convex dy y1 y2 y3 (w1 * w1) ((w2 - s * w1) * (w2 - s * w1)) R1 H12 H23 (Rle_0_sqr _) (Rle_0_sqr _)). cbn zeta in Cv.
  assert (B1 := @reach_le (fx_of dy y1) y1 s c Hc w1 w2 Hw). assert (B3 := @reach_le (fx_of dy y3) y3 s c Hc w1 w2 Hw).
  unfold reach2 in *. set (m1 := d_major (fx_of dy y1) y1 s c) in *. set (m2 := d_major (fx_of dy y2) y2 s c) in *. set (m3 := d_major (fx_of dy y3) y3 s c) in *.
  assert (P1 : 0 <= m1) by apply sqrt_pos. assert (P2 : 0 <= m2) by apply sqrt_pos. assert (P3 : 0 <= m3) by apply sqrt_pos.
  set (M := Rmax m1 m3). assert (M1 := Rmax_l m1 m3). assert (M3 := Rmax_r m1 m3). fold M in M1, M3.
  apply Rsqr_incr_0_var; [|lra]. unfold Rsqr. apply (Rmult_le_reg_r (/ c * / c)); [apply Rmult_lt_0_compat; apply Rinv_0_lt_compat; auto|].
  replace (m2 * m2 * (/ c * / c)) with (m2 / c * (m2 / c)) by (unfold Rdiv; ring). replace (M * M * (/ c * / c)) with (M / c * (M / c)) by (unfold Rdiv; ring).
  assert (I : 0 < / c) by (apply Rinv_0_lt_compat; auto).
  assert (Q : forall z, 0 <= z -> z <= M -> z / c * (z / c) <= M / c * (M / c)) by (intros z Z1 Z2; unfold Rdiv; apply Rmult_le_compat; nra).
  assert (Q1 := Q _ P1 M1). assert (Q3 := Q _ P3 M3). eapply Rle_trans; [exact Ha|].
  match type of Cv with ?l <= Rmax ?u ?v => apply Rle_trans with l; [right; ring|]; eapply Rle_trans; [exact Cv|]; apply Rmax_lub; [apply Rle_trans with (m1 / c * (m1 / c)); [eapply Rle_trans; [|exact B1]; right; ring|auto]|apply Rle_trans with (m3 / c * (m3 / c)); [eapply Rle_trans; [|exact B3]; right; ring|auto]] end.
Qed.
