(** Examples for the edges of disks in binary64.  The elementary functions are computed where the run of the example
    needs them and rounded correctly elsewhere; they are right up to a millionth. *)
From Coq Require Import ZArith Reals Lra Lia Bool List String.
From Flocq Require Import Core BinarySingleNaN.
From Verif Require Import Num NumP Py SpecNum Validate XLibm FS GridParams SpecGrid SpecAxis GridParamsP AxisF64P Names GridProp Geometry SpecGeom SpecF64 SpecEdge
  BuildFP Round64P GeomP GeomMoreP EdgeP GeomF64P GeomF64MoreP DiskErrP DiskF64P DiskF64ExP LibmF64P EdgeErrP EdgeF64P EdgeContactP Build SpecBuild BuildP InterpP BuildGP Shallot EdgeGridP EdgeThinP.
Import ListNotations.
Set Implicit Arguments.
Local Open Scope R_scope.

Definition lit (m : positive) (e : Z) (H : SpecFloat.bounded 53 1024 m e = true) : f64 := @B754_finite 53 1024 false m e H.
Definition qp_l : f64 := lit 7074237752028440 (-53) eq_refl.
Definition hp_l : f64 := lit 7074237752028440 (-52) eq_refl.
Definition pi_l : f64 := lit 7074237752028440 (-51) eq_refl.
Definition least_l : f64 := lit 4503599627370496 (-102) eq_refl.
Definition most_l : f64 := n_ofZ (2 ^ 90).
Definition keys : list (f64 * Z) := [(n_zero, 0); (qp_l, 1); (hp_l, 2); (n_add qp_l hp_l, 3); (pi_l, 4); (n_neg qp_l, -1); (n_neg hp_l, -2)]%Z.
Definition key (x : f64) : option Z := option_map snd (find (fun p => n_eq x (fst p)) keys).
Definition rh : f64 := n_sqrt n_half.
Definition c_sin (x : f64) : f64 :=
  match key x with
  | Some k => if Z.eqb k (-2) then n_neg n_one else if Z.eqb k (-1) then n_neg rh else if Z.eqb k 2 then n_one else if Z.odd k then rh else n_zero
  | None => m_sin Libm_nearest x
  end.
Definition c_cos (x : f64) : f64 :=
  match key x with
  | Some k => if Z.eqb k 4 then n_neg n_one else if Z.eqb k 3 then n_neg rh else if Z.eqb k 0 then n_one else if Z.odd k then rh else n_zero
  | None => m_cos Libm_nearest x
  end.
Definition below_most (x : f64) : bool := n_le (n_abs x) most_l.
Definition under (x y : f64) : bool := below_most x && n_le least_l (n_abs y) && n_le (n_mul (n_ofZ (2 ^ 20)) (n_abs x)) (n_abs y).
Definition c_atan2 (y x : f64) : f64 :=
  if n_eq y n_zero && n_eq x n_zero then n_zero
  else if negb (below_most x && below_most y) then m_atan2 Libm_nearest y x
  else if under y x then (if n_lt n_zero x then n_zero else if n_lt y n_zero then n_neg pi_l else pi_l)
  else if under x y then (if n_lt n_zero y then hp_l else n_neg hp_l)
  else if under (n_sub y x) x then (if n_lt n_zero x then qp_l else n_neg (n_add qp_l hp_l))
  else if under (n_add y x) x then (if n_lt n_zero x then n_neg qp_l else n_add qp_l hp_l)
  else m_atan2 Libm_nearest y x.
Definition usual (x : f64) : bool := n_eq x n_zero || n_le least_l (n_abs x) && below_most x.
Definition c_hypot (x y : f64) : f64 := if usual x && usual y then n_sqrt (n_add (n_sq x) (n_sq y)) else m_hypot Libm_nearest x y.
Definition third_l : f64 := n_div pi_l (n_ofZ 3).
Definition edge_l : f64 := lit 4503599627370496 (-73) eq_refl.
Definition c_acos (a : f64) : f64 :=
  if n_le a edge_l then hp_l
  else if n_le (n_abs (n_sub a n_half)) edge_l then third_l
  else if n_le (n_sub n_one a) edge_l then n_sqrt (n_mul (n_ofZ 2) (n_sub n_one a))
  else m_acos Libm_nearest a.
Definition Libm_calc : Libm f64 :=
  {| m_pi := pi_l; m_sin := c_sin; m_cos := c_cos; m_asin := m_asin Libm_nearest; m_acos := c_acos; m_atan := m_atan Libm_nearest;
     m_atan2 := c_atan2; m_hypot := c_hypot |}.
Definition env_calc : env f64 := mkEnv Libm_calc np_search (fun _ => "0.0000"%string) 100.
Definition grid_m : res (gparams f64) := new_params (PInt 0) (PInt 2) (PInt 2) (PInt 0) (PInt (2 ^ 23)) (PInt 2) (PInt 2) (PInt 2).
Definition grid_p : res (gparams f64) := new_params (PInt (-2)) (PInt 2) (PInt 2) (PInt (2 ^ 23)) (PInt (2 ^ 24)) (PInt 1) (PInt 2) (PInt 2).

(** the literals *)
Lemma lit_val m e H : f64_val (lit m e H) = XFin (IZR (Zpos m) * B e).
Proof. rewrite f64_val_finite by reflexivity. reflexivity. Qed.
Lemma le_val (x y : f64) a b : f64_val x = XFin a -> f64_val y = XFin b -> n_le x y = true -> a <= b.
Proof. intros X Y. cbn [n_le Num_f64]. rewrite f64_le, X, Y. unfold x_le. cbn [x_lt x_eq]. destruct (Rlt_dec a b); [lra|]. destruct (Req_EM_T a b); [lra|discriminate]. Qed.
Lemma lt_val (x y : f64) a b : f64_val x = XFin a -> f64_val y = XFin b -> n_lt x y = true -> a < b.
Proof. intros X Y. cbn [n_lt Num_f64]. rewrite f64_lt, X, Y. cbn [x_lt]. destruct (Rlt_dec a b); [auto|discriminate]. Qed.
Lemma nlt_val (x y : f64) a b : f64_val x = XFin a -> f64_val y = XFin b -> n_lt x y = false -> b <= a.
Proof. intros X Y. cbn [n_lt Num_f64]. rewrite f64_lt, X, Y. cbn [x_lt]. destruct (Rlt_dec a b); [discriminate|lra]. Qed.
Lemma eq_val (x y : f64) a b : f64_val x = XFin a -> f64_val y = XFin b -> n_eq x y = true -> a = b.
Proof. intros X Y. cbn [n_eq Num_f64]. rewrite f64_eq, X, Y. cbn [x_eq]. destruct (Req_EM_T a b); [auto|discriminate]. Qed.
Lemma abs_val (x : f64) a : f64_val x = XFin a -> f64_val (n_abs x) = XFin (Rabs a).
Proof. intros X. apply f64_val_fin in X as [F <-]. cbn [n_abs Num_f64]. rewrite f64_val_finite; [now rewrite B2R_Babs|now rewrite is_finite_Babs]. Qed.
Lemma neg_val (x : f64) a : f64_val x = XFin a -> f64_val (n_neg x) = XFin (- a).
Proof. intros X. apply f64_val_fin in X as [F <-]. cbn [n_neg Num_f64]. rewrite f64_val_finite; [now rewrite B2R_Bopp|now rewrite is_finite_Bopp]. Qed.
Definition about (x : f64) (q : R) : Prop := exists a, f64_val x = XFin a /\ Rabs (a - q) <= / 100000000.
Lemma small_1024 r : Rabs r <= 1024 -> Rabs r <= B 1023.
Proof. intros H. apply Rle_trans with (B 10); [change (B 10) with 1024; exact H|apply bpow_le; lia]. Qed.
Lemma about_pi : about pi_l PI.
Proof. eexists. split; [apply lit_val|]. assert (P := PI_digits). change (B (-51)) with (/ 2251799813685248). apply Rabs_le. lra. Qed.
Lemma about_hp : about hp_l (PI / 2).
Proof. eexists. split; [apply lit_val|]. assert (P := PI_digits). change (B (-52)) with (/ 4503599627370496). apply Rabs_le. lra. Qed.
Lemma about_qp : about qp_l (PI / 4).
Proof. eexists. split; [apply lit_val|]. assert (P := PI_digits). change (B (-53)) with (/ 9007199254740992). apply Rabs_le. lra. Qed.
Lemma about_neg x q : about x q -> about (n_neg x) (- q).
Proof. intros (a & V & H). exists (- a). split; [now apply neg_val|]. replace (- a - - q) with (- (a - q)) by ring. now rewrite Rabs_Ropp. Qed.
Lemma about_3q : about (n_add qp_l hp_l) (3 * (PI / 4)).
Proof.
  assert (P := PI_digits). assert (U := ulp1_pos). assert (V1 := lit_val 7074237752028440 (-53) eq_refl). assert (V2 := lit_val 7074237752028440 (-52) eq_refl).
  change (B (-53)) with (/ 9007199254740992) in V1. change (B (-52)) with (/ 4503599627370496) in V2.
  destruct (add64 _ _ V1 V2) as (d & D & V); [apply small_1024, Rabs_le; lra|].
  eexists. split; [exact V|]. apply Rabs_le_inv in D. apply Rabs_le. nra.
Qed.
Lemma about_third : about third_l (PI / 3).
Proof.
  assert (P := PI_digits). assert (U := ulp1_pos). assert (V1 := lit_val 7074237752028440 (-51) eq_refl). assert (T := tiny_1075). change (B (-51)) with (/ 2251799813685248) in V1.
  assert (V2 : f64_val (n_ofZ 3 : f64) = XFin 3) by (apply (of_Z 3); vm_compute; discriminate).
  destruct (div_any _ _ V1 V2) as (d & t & D & Ht & V); [lra|apply small_1024, Rabs_le; lra|].
  eexists. split; [exact V|]. apply Rabs_le_inv in D. apply Rabs_le_inv in Ht. apply Rabs_le. nra.
Qed.
Lemma about_rh : about rh (sqrt (/ 2)).
Proof.
  assert (U := ulp1_pos). destruct (sqrt64 _ of_half) as (d & D & V); [lra|]. eexists. split; [exact V|].
  assert (S : 0 <= sqrt (/ 2) <= 1) by (split; [apply sqrt_pos|]; rewrite <- sqrt_1; apply sqrt_le_1_alt; lra). apply Rabs_le_inv in D. apply Rabs_le. nra.
Qed.
Lemma about_exact (x : f64) q : f64_val x = XFin q -> about x q.
Proof. intros V. exists q. split; auto. rewrite Rminus_eq_0, Rabs_R0. lra. Qed.

(** sine and cosine *)
Definition ks : list Z := [0; 1; 2; 3; 4; -1; -2]%Z.
Lemma key_sound x k a : key x = Some k -> f64_val x = XFin a -> In k ks /\ Rabs (a - IZR k * (PI / 4)) <= / 100000000.
Proof.
  unfold key. destruct (find _ keys) as [[y z]|] eqn:F; cbn [option_map snd]; [|discriminate]. intros [= <-] V.
  apply find_some in F as [I E]. cbn [fst] in E.
  assert (A : about y (IZR z * (PI / 4)) /\ In z ks).
  { unfold keys in I. cbn [In] in I. unfold ks.
    repeat (destruct I as [I|I]; [injection I as <- <-; split; [|cbn [In]; tauto]|]); [| | | | | | |destruct I].
    - rewrite Rmult_0_l. apply about_exact, of_zero.
    - rewrite Rmult_1_l. exact about_qp.
    - replace (2 * (PI / 4)) with (PI / 2) by field. exact about_hp.
    - exact about_3q.
    - replace (4 * (PI / 4)) with PI by field. exact about_pi.
    - replace (-1 * (PI / 4)) with (- (PI / 4)) by ring. exact (about_neg about_qp).
    - replace (-2 * (PI / 4)) with (- (PI / 2)) by field. exact (about_neg about_hp). }
  destruct A as [(b & Vb & Hb) I']. split; auto. now rewrite (eq_val _ _ V Vb E).
Qed.
Lemma half_root : / sqrt 2 = sqrt (/ 2). Proof. apply inv_sqrt_depr. lra. Qed.
Lemma sin_3q : sin (3 * (PI / 4)) = sqrt (/ 2).
Proof. rewrite <- half_root. replace (/ sqrt 2) with (1 / sqrt 2) by (unfold Rdiv; ring). rewrite <- sin_PI4. rewrite <- (sin_PI_x (PI / 4)). f_equal. field. Qed.
Lemma cos_3q : cos (3 * (PI / 4)) = - sqrt (/ 2).
Proof. rewrite <- half_root. replace (/ sqrt 2) with (1 / sqrt 2) by (unfold Rdiv; ring). rewrite <- cos_PI4. replace (3 * (PI / 4)) with (- (PI / 4) + PI) by field. rewrite neg_cos, cos_neg. reflexivity. Qed.
Lemma sin_q : sin (PI / 4) = sqrt (/ 2). Proof. rewrite sin_PI4, <- half_root. unfold Rdiv. ring. Qed.
Lemma cos_q : cos (PI / 4) = sqrt (/ 2). Proof. rewrite cos_PI4, <- half_root. unfold Rdiv. ring. Qed.
Lemma about_near x q e : about x q -> / 100000000 <= e -> exists v, f64_val x = XFin v /\ Rabs (v - q) <= e.
Proof. intros (a & V & H) He. exists a. split; auto. lra. Qed.
Lemma sin_entry x k : key x = Some k -> In k ks -> about (c_sin x) (sin (IZR k * (PI / 4))).
Proof.
  intros K I. unfold c_sin. rewrite K. unfold ks in I. cbn [In] in I. destruct I as [<-|[<-|[<-|[<-|[<-|[<-|[<-|[]]]]]]]]; cbn [Z.eqb Z.odd Pos.eqb].
  - rewrite Rmult_0_l, sin_0. apply about_exact, of_zero.
  - rewrite Rmult_1_l, sin_q. exact about_rh.
  - replace (2 * (PI / 4)) with (PI / 2) by field. rewrite sin_PI2. apply about_exact, of_one.
  - rewrite sin_3q. exact about_rh.
  - replace (4 * (PI / 4)) with PI by field. rewrite sin_PI. apply about_exact, of_zero.
  - replace (-1 * (PI / 4)) with (- (PI / 4)) by ring. rewrite sin_neg, sin_q. apply about_neg, about_rh.
  - replace (-2 * (PI / 4)) with (- (PI / 2)) by field. rewrite sin_neg, sin_PI2. apply about_neg, about_exact, of_one.
Qed.
Lemma cos_entry x k : key x = Some k -> In k ks -> about (c_cos x) (cos (IZR k * (PI / 4))).
Proof.
  intros K I. unfold c_cos. rewrite K. unfold ks in I. cbn [In] in I. destruct I as [<-|[<-|[<-|[<-|[<-|[<-|[<-|[]]]]]]]]; cbn [Z.eqb Z.odd Pos.eqb].
  - rewrite Rmult_0_l, cos_0. apply about_exact, of_one.
  - rewrite Rmult_1_l, cos_q. exact about_rh.
  - replace (2 * (PI / 4)) with (PI / 2) by field. rewrite cos_PI2. apply about_exact, of_zero.
  - rewrite cos_3q. apply about_neg, about_rh.
  - replace (4 * (PI / 4)) with PI by field. rewrite cos_PI. change (-1) with (- (1)). apply about_neg, about_exact, of_one.
  - replace (-1 * (PI / 4)) with (- (PI / 4)) by ring. rewrite cos_neg, cos_q. exact about_rh.
  - replace (-2 * (PI / 4)) with (- (PI / 2)) by field. rewrite cos_neg, cos_PI2. apply about_exact, of_zero.
Qed.

(** the distance *)
Lemma least_val : f64_val least_l = XFin (B (-50)).
Proof. unfold least_l. rewrite lit_val. f_equal. change (IZR 4503599627370496) with (B 52). rewrite <- bpow_plus. reflexivity. Qed.
Lemma most_val : f64_val most_l = XFin (B 90).
Proof. apply (@same_val _ (lit 4503599627370496 38 eq_refl)); [vm_compute; exact eq_refl|]. rewrite lit_val. f_equal. change (IZR 4503599627370496) with (B 52). rewrite <- bpow_plus. reflexivity. Qed.
Lemma usual_loose x a : usual x = true -> f64_val x = XFin a -> loose a.
Proof.
  intros H V. unfold usual in H. apply orb_prop in H as [H|H]; [left; now rewrite (eq_val _ _ V of_zero H)|right].
  apply andb_prop in H as [H1 H2]. apply (le_val _ _ least_val (abs_val _ V)) in H1. apply (le_val _ _ (abs_val _ V) most_val) in H2.
  split; [apply Rle_trans with (2 := H1)|apply Rle_trans with (1 := H2)]; apply bpow_le; lia.
Qed.
Lemma hypot_usual x y a b : loose a -> loose b -> f64_val x = XFin a -> f64_val y = XFin b ->
  exists v, f64_val (n_sqrt (n_add (n_sq x) (n_sq y))) = XFin v /\ 0 <= v /\ Rabs (v - sqrt (a * a + b * b)) <= / 1000000 * sqrt (a * a + b * b).
Proof.
  intros La Lb X Y. assert (T := tracks_add (track_sq _ X La) (track_sq _ Y Lb)). destruct T as (w & W & N); [lia| |].
  { apply Rle_trans with (B 200 + B 200); [apply Rplus_le_compat; now apply loose_le|]. replace (B 200 + B 200) with (B 201) by (change 201%Z with (1 + 200)%Z; rewrite bpow_plus; change (B 1) with 2; ring). apply bpow_le. lia. }
  assert (Pw := near_nonneg N). destruct (sqrt64 _ W Pw) as (d & D & V). exists (sqrt w * (1 + d)). split; [exact V|]. assert (U := ulp1_pos). assert (S := sqrt_pos w).
  apply (near_sqrt 1) in N. assert (N2 := @near_round 1 _ _ d N D). split; [now apply near_nonneg in N2|].
  destruct (near_bound N2) as [Q _]; [lia|]. apply Rle_trans with (1 := Q). apply Rmult_le_compat_r; [apply sqrt_pos|]. cbn [INR]. lra.
Qed.

(** the angle of a point *)
Lemma under_sound x y a b : under x y = true -> f64_val x = XFin a -> f64_val y = XFin b -> Rabs a <= / 1000000 * Rabs b /\ 0 < Rabs b.
Proof.
  intros H X Y. unfold under in H. apply andb_prop in H as [H H3]. apply andb_prop in H as [H1 H2]. unfold below_most in H1.
  apply (le_val _ _ (abs_val _ X) most_val) in H1. apply (le_val _ _ least_val (abs_val _ Y)) in H2.
  assert (K : f64_val (n_ofZ (2 ^ 20) : f64) = XFin 1048576) by (apply (of_Z (2 ^ 20)); vm_compute; discriminate).
  assert (Pa := Rabs_pos a). assert (U := ulp1_pos).
  destruct (mul_any _ _ K (abs_val _ X)) as (d & t & D & Ht & V).
  { rewrite Rabs_mult, Rabs_Rabsolu, (Rabs_pos_eq 1048576) by lra. apply Rle_trans with (B (20 + 90)); [rewrite bpow_plus; change (B 20) with 1048576; apply Rmult_le_compat_l; lra|apply bpow_le; lia]. }
  apply (le_val _ _ V (abs_val _ Y)) in H3. apply Rabs_le_inv in D. apply Rabs_le_inv in Ht.
  assert (P50 := bpow_gt_0 radix2 (-50)). assert (T : B (-1075) <= / 1024 * B (-50)) by (change (/ 1024) with (B (-10)); rewrite <- bpow_plus; apply bpow_le; lia).
  split; [|lra]. nra.
Qed.
Lemma sin_inv y : Rabs y <= 1 -> Rabs y <= 2 * Rabs (sin y).
Proof.
  intros H. destruct (Rle_dec 0 y).
  - rewrite Rabs_pos_eq in * by lra. assert (S := @sin_half y). rewrite Rabs_pos_eq; lra.
  - rewrite Rabs_left in * by lra. assert (S := @sin_half (- y)). rewrite <- (Rabs_Ropp (sin y)), <- sin_neg, Rabs_pos_eq; lra.
Qed.
Lemma sin_quarter y : PI / 4 <= y <= PI / 2 -> / 2 <= sin y.
Proof.
  intros H. assert (PB := PI_bounds). apply Rle_trans with (sin (PI / 6)); [rewrite sin_PI6; lra|]. apply sin_incr_1; lra.
Qed.
(** an angle whose sine is small and whose cosine is positive *)
Lemma angle_small d : Rabs d <= 7 * PI / 4 -> Rabs (sin d) <= / 900000 -> 0 < cos d -> Rabs d <= 2 * Rabs (sin d).
Proof.
  intros Hd Hs Hc. assert (PB := PI_bounds). apply sin_inv. apply Rnot_lt_le. intros F.
  assert (G : forall u, 1 < u <= 7 * PI / 4 -> Rabs (sin u) <= / 900000 -> 0 < cos u -> False).
  { intros u Hu Su Cu. apply Rabs_le_inv in Su. destruct (Rle_dec u (PI / 2)).
    - assert (sin 1 <= sin u) by (apply sin_incr_1; lra). assert (S := @sin_half 1). lra.
    - destruct (Rle_dec u (3 * (PI / 2))).
      + assert (C := cos_le_0 u). lra.
      + assert (Q : / 2 <= sin (2 * PI - u)) by (apply sin_quarter; lra). replace (2 * PI - u) with (- u + 2 * PI) in Q by ring. rewrite sin_plus, sin_2PI, cos_2PI, sin_neg in Q. lra. }
  destruct (Rle_dec 0 d).
  - rewrite Rabs_pos_eq in * by lra. apply (G d); auto.
  - rewrite Rabs_left in * by lra. apply (G (- d)); [lra| |].
    + rewrite sin_neg, Rabs_Ropp. exact Hs.
    + rewrite cos_neg. exact Hc.
Qed.
Definition direction (v : f64) (a b : R) : Prop := exists w al, f64_val v = XFin w /\ Rabs (w - al) <= 4 * / 1000000 /\ Rabs al <= PI /\
  a = sqrt (a * a + b * b) * cos al /\ b = sqrt (a * a + b * b) * sin al.
Lemma aimed v q a b : about v q -> Rabs (ratan2 b a - q) <= 7 * PI / 4 ->
  Rabs (a * sin q - b * cos q) <= / 900000 * sqrt (a * a + b * b) -> 0 < a * cos q + b * sin q -> direction v a b.
Proof.
  intros (w & V & Hw) Hd Hs Hc. exists w, (ratan2 b a). split; [exact V|]. destruct (polar a b) as [P1 P2]. set (h := sqrt (a * a + b * b)) in *. set (al := ratan2 b a) in *.
  split; [|split; [apply ratan2_bound|split; auto]].
  assert (S : a * sin q - b * cos q = - (h * sin (al - q))) by (rewrite sin_minus, P1 at 1; rewrite P2 at 1; ring).
  assert (C : a * cos q + b * sin q = h * cos (al - q)) by (rewrite cos_minus, P1 at 1; rewrite P2 at 1; ring).
  rewrite S, Rabs_Ropp, Rabs_mult in Hs. rewrite C in Hc. assert (H0 : 0 <= h) by apply sqrt_pos. rewrite (Rabs_pos_eq h H0) in Hs.
  assert (Ph : 0 < h) by (destruct H0 as [|H0]; [auto|exfalso; rewrite <- H0, Rmult_0_l in Hc; lra]).
  assert (Ss : Rabs (sin (al - q)) <= / 900000) by (apply Rmult_le_reg_l with h; lra).
  assert (Cc : 0 < cos (al - q)) by (apply Rmult_lt_reg_l with h; lra).
  assert (A := @angle_small (al - q) Hd Ss Cc). replace (w - al) with ((w - q) - (al - q)) by ring. apply Rabs_le_inv in Hw. apply Rabs_le_inv in A. apply Rabs_le. lra.
Qed.
Lemma aim_far b a q : Rabs q <= 3 * PI / 4 -> Rabs (ratan2 b a - q) <= 7 * PI / 4.
Proof. intros H. assert (R := ratan2_bound b a). apply Rabs_le_inv in H. apply Rabs_le_inv in R. apply Rabs_le. lra. Qed.
Lemma hyp_l a b : Rabs a <= sqrt (a * a + b * b).
Proof. rewrite <- (sqrt_square (Rabs a)) by apply Rabs_pos. apply sqrt_le_1_alt. rewrite <- Rabs_mult, Rabs_pos_eq by nra. nra. Qed.
Lemma atan2_nearest y x b a : f64_val y = XFin b -> f64_val x = XFin a -> direction (m_atan2 Libm_nearest y x) a b.
Proof.
  intros Y X. destruct (a_atan2 nearest_accurate Y X) as (v & al & V & H & R & P). exists v, al. split; [exact V|]. split; [|split; auto].
  apply Rle_trans with (1 := H). assert (U := ulp1_pos). assert (B (-51) = 4 * ulp1) by (unfold ulp1; change 4 with (B 2); rewrite <- bpow_plus; reflexivity). lra.
Qed.
Lemma root_half : 0 < sqrt (/ 2) <= 3 / 4.
Proof. split; [apply sqrt_lt_R0; lra|]. rewrite <- (sqrt_square (3 / 4)) by lra. apply sqrt_le_1_alt. lra. Qed.
Lemma atan2_calc y x b a : f64_val y = XFin b -> f64_val x = XFin a -> direction (c_atan2 y x) a b.
Proof.
  intros Y X. assert (PB := PI_bounds). assert (U := ulp1_pos). assert (RH := root_half). assert (Hl := hyp_l a b). assert (Hr := hyp_l b a). rewrite (Rplus_comm (b * b)) in Hr.
  unfold c_atan2. destruct (n_eq y n_zero && n_eq x n_zero) eqn:E0.
  { apply andb_prop in E0 as [E1 E2]. rewrite (eq_val _ _ Y of_zero E1), (eq_val _ _ X of_zero E2). exists 0, 0. split; [exact of_zero|].
    rewrite Rmult_0_l, Rplus_0_l, sqrt_0, !Rmult_0_l, Rminus_0_r, Rabs_R0. repeat split; lra. }
  clear E0. destruct (below_most x && below_most y) eqn:E0; cbn [negb]; [|now apply atan2_nearest].
  apply andb_prop in E0 as [M1 M2]. apply (le_val _ _ (abs_val _ X) most_val) in M1. apply (le_val _ _ (abs_val _ Y) most_val) in M2.
  assert (M3 : 2 * B 90 <= B 1023) by (change 2 with (B 1); rewrite <- bpow_plus; apply bpow_le; lia). assert (P90 := bpow_gt_0 radix2 90).
  destruct (under y x) eqn:E1.
  { destruct (under_sound _ _ E1 Y X) as [S P]. destruct (n_lt n_zero x) eqn:Ex.
    - apply (lt_val _ _ of_zero X) in Ex. apply aimed with 0; [apply about_exact, of_zero|apply aim_far; rewrite Rabs_R0; lra| |]; rewrite sin_0, cos_0.
      + replace (a * 0 - b * 1) with (- b) by ring. rewrite Rabs_Ropp. lra.
      + lra.
    - apply (nlt_val _ _ of_zero X) in Ex. assert (Na : a < 0) by (destruct Ex as [|Ex]; [auto|rewrite Ex, Rabs_R0 in P; lra]).
      assert (At := atan_bound (b / a)). destruct (n_lt y n_zero) eqn:Ey.
      + apply (lt_val _ _ Y of_zero) in Ey. apply aimed with (- PI); [apply about_neg, about_pi| | |]; rewrite ?sin_neg, ?cos_neg, ?sin_PI, ?cos_PI.
        * assert (Q : ratan2 b a = atan (b / a) - PI) by (unfold ratan2; destruct (Rlt_dec 0 a); [lra|]; destruct (Rlt_dec a 0); [|lra]; destruct (Rle_dec 0 b); [lra|reflexivity]). rewrite Q. apply Rabs_le. lra.
        * replace (a * - 0 - b * -1) with b by ring. lra.
        * lra.
      + apply (nlt_val _ _ Y of_zero) in Ey. apply aimed with PI; [apply about_pi| | |]; rewrite ?sin_PI, ?cos_PI.
        * assert (Q : ratan2 b a = atan (b / a) + PI) by (unfold ratan2; destruct (Rlt_dec 0 a); [lra|]; destruct (Rlt_dec a 0); [|lra]; destruct (Rle_dec 0 b); [reflexivity|lra]). rewrite Q. apply Rabs_le. lra.
        * replace (a * 0 - b * -1) with b by ring. lra.
        * lra. }
  destruct (under x y) eqn:E2.
  { destruct (under_sound _ _ E2 X Y) as [S P]. destruct (n_lt n_zero y) eqn:Ey.
    - apply (lt_val _ _ of_zero Y) in Ey. apply aimed with (PI / 2); [apply about_hp|apply aim_far, Rabs_le; lra| |]; rewrite sin_PI2, cos_PI2.
      + replace (a * 1 - b * 0) with a by ring. lra.
      + lra.
    - apply (nlt_val _ _ of_zero Y) in Ey. assert (Nb : b < 0) by (destruct Ey as [|Ey]; [auto|rewrite Ey, Rabs_R0 in P; lra]).
      apply aimed with (- (PI / 2)); [apply about_neg, about_hp|apply aim_far, Rabs_le; lra| |]; rewrite sin_neg, cos_neg, sin_PI2, cos_PI2.
      + replace (a * -(1) - b * 0) with (- a) by ring. rewrite Rabs_Ropp. lra.
      + lra. }
  apply Rabs_le_inv in M1. apply Rabs_le_inv in M2.
  destruct (under (n_sub y x) x) eqn:E3.
  { destruct (sub64 _ _ Y X) as (d & D & V); [apply Rle_trans with (2 := M3), Rabs_le; lra|]. destruct (under_sound _ _ E3 V X) as [S P].
    assert (S' : Rabs (b - a) <= / 900000 * Rabs a).
    { rewrite Rabs_mult in S. apply Rabs_le_inv in D. rewrite (Rabs_pos_eq (1 + d)) in S by lra. assert (Q := Rabs_pos (b - a)). nra. }
    assert (S2 : forall k, Rabs k <= 3 / 4 -> Rabs ((b - a) * k) <= / 900000 * sqrt (a * a + b * b)).
    { intros k Hk. apply Rle_trans with (1 := abs_mul_le S' Hk). lra. }
    destruct (n_lt n_zero x) eqn:Ex.
    - apply (lt_val _ _ of_zero X) in Ex. rewrite (Rabs_pos_eq a) in S' by lra. apply Rabs_le_inv in S'.
      apply aimed with (PI / 4); [apply about_qp|apply aim_far, Rabs_le; lra| |]; rewrite sin_q, cos_q.
      + replace (a * sqrt (/ 2) - b * sqrt (/ 2)) with ((b - a) * - sqrt (/ 2)) by ring. apply S2. rewrite Rabs_Ropp, Rabs_pos_eq; lra.
      + replace (a * sqrt (/ 2) + b * sqrt (/ 2)) with ((a + b) * sqrt (/ 2)) by ring. apply Rmult_lt_0_compat; lra.
    - apply (nlt_val _ _ of_zero X) in Ex. assert (Na : a < 0) by (destruct Ex as [|Ex]; [auto|rewrite Ex, Rabs_R0 in P; lra]). rewrite (Rabs_left a) in S' by lra. apply Rabs_le_inv in S'.
      apply aimed with (- (3 * (PI / 4))); [apply about_neg, about_3q|apply aim_far, Rabs_le; lra| |]; rewrite sin_neg, cos_neg, sin_3q, cos_3q.
      + replace (a * - sqrt (/ 2) - b * - sqrt (/ 2)) with ((b - a) * sqrt (/ 2)) by ring. apply S2. rewrite Rabs_pos_eq; lra.
      + replace (a * - sqrt (/ 2) + b * - sqrt (/ 2)) with (- (a + b) * sqrt (/ 2)) by ring. apply Rmult_lt_0_compat; lra. }
  destruct (under (n_add y x) x) eqn:E4; [|now apply atan2_nearest].
  destruct (add64 _ _ Y X) as (d & D & V); [apply Rle_trans with (2 := M3), Rabs_le; lra|]. destruct (under_sound _ _ E4 V X) as [S P].
  assert (S' : Rabs (b + a) <= / 900000 * Rabs a).
  { rewrite Rabs_mult in S. apply Rabs_le_inv in D. rewrite (Rabs_pos_eq (1 + d)) in S by lra. assert (Q := Rabs_pos (b + a)). nra. }
  assert (S2 : forall k, Rabs k <= 3 / 4 -> Rabs ((b + a) * k) <= / 900000 * sqrt (a * a + b * b)).
  { intros k Hk. apply Rle_trans with (1 := abs_mul_le S' Hk). lra. }
  destruct (n_lt n_zero x) eqn:Ex.
  - apply (lt_val _ _ of_zero X) in Ex. rewrite (Rabs_pos_eq a) in S' by lra. apply Rabs_le_inv in S'.
    apply aimed with (- (PI / 4)); [apply about_neg, about_qp|apply aim_far, Rabs_le; lra| |]; rewrite sin_neg, cos_neg, sin_q, cos_q.
    + replace (a * - sqrt (/ 2) - b * sqrt (/ 2)) with ((b + a) * - sqrt (/ 2)) by ring. apply S2. rewrite Rabs_Ropp, Rabs_pos_eq; lra.
    + replace (a * sqrt (/ 2) + b * - sqrt (/ 2)) with ((a - b) * sqrt (/ 2)) by ring. apply Rmult_lt_0_compat; lra.
  - apply (nlt_val _ _ of_zero X) in Ex. assert (Na : a < 0) by (destruct Ex as [|Ex]; [auto|rewrite Ex, Rabs_R0 in P; lra]). rewrite (Rabs_left a) in S' by lra. apply Rabs_le_inv in S'.
    apply aimed with (3 * (PI / 4)); [apply about_3q|apply aim_far, Rabs_le; lra| |]; rewrite sin_3q, cos_3q.
    + replace (a * sqrt (/ 2) - b * - sqrt (/ 2)) with ((b + a) * sqrt (/ 2)) by ring. apply S2. rewrite Rabs_pos_eq; lra.
    + replace (a * - sqrt (/ 2) + b * sqrt (/ 2)) with ((b - a) * sqrt (/ 2)) by ring. apply Rmult_lt_0_compat; lra.
Qed.

(** the inclination *)
Lemma edge_val : f64_val edge_l = XFin (/ 2097152).
Proof. unfold edge_l. rewrite lit_val. f_equal. change (IZR 4503599627370496) with (B 52). rewrite <- bpow_plus. reflexivity. Qed.
Lemma acos_range a : 0 <= a <= 1 -> 0 <= acos a <= PI / 2 /\ cos (acos a) = a.
Proof.
  intros H. assert (B := acos_bound a). assert (C := cos_acos a ltac:(lra)). split; auto. split; [apply B|]. apply Rnot_lt_le. intros F. assert (cos (acos a) < 0) by (apply cos_lt_0; lra). lra.
Qed.
Lemma acos_calc x a : f64_val x = XFin a -> 0 <= a <= 1 -> exists v, f64_val (c_acos x) = XFin v /\ Rabs (v - acos a) <= 2 * / 1000000.
Proof.
  intros X Ha. destruct (acos_range Ha) as [Hr Hc]. assert (PB := PI_bounds). assert (U := ulp1_pos). set (th := acos a) in *.
  unfold c_acos. destruct (n_le x edge_l) eqn:E1.
  { apply (le_val _ _ X edge_val) in E1. destruct about_hp as (v & V & Hv). exists v. split; [exact V|].
    assert (S : Rabs (PI / 2 - th) <= 2 * Rabs (sin (PI / 2 - th))).
    { apply angle_small; [apply Rabs_le; lra| |]; rewrite ?sin_shift, ?cos_shift.
      - rewrite Hc. rewrite Rabs_pos_eq; lra.
      - apply sin_gt_0; [|lra]. destruct (proj1 Hr) as [|Z]; [auto|]. exfalso. rewrite <- Z, cos_0 in Hc. lra. }
    rewrite sin_shift, Hc, (Rabs_pos_eq a) in S by lra. apply Rabs_le_inv in S. apply Rabs_le_inv in Hv. apply Rabs_le. lra. }
  destruct (n_le (n_abs (n_sub x n_half)) edge_l) eqn:E2.
  { destruct (sub64 _ _ X of_half) as (d & D & V); [apply small_1024, Rabs_le; lra|]. apply (le_val _ _ (abs_val _ V) edge_val) in E2. apply Rabs_le_inv in D.
    rewrite Rabs_mult, (Rabs_pos_eq (1 + d)) in E2 by lra. assert (Q := Rabs_pos (a - / 2)).
    destruct about_third as (v & Vv & Hv). exists v. split; [exact Vv|].
    set (y := (th - PI / 3) / 2). set (z := (th + PI / 3) / 2).
    assert (Id : a - / 2 = - 2 * (sin z * sin y)).
    { rewrite <- Hc. replace (/ 2) with (cos (PI / 3)) by (rewrite cos_PI3; field). replace th with (z + y) at 1 by (unfold z, y; field). replace (PI / 3) with (z - y) by (unfold z, y; field). rewrite cos_plus, cos_minus. ring. }
    assert (Sz : / 2 <= sin z). { rewrite <- sin_PI6 at 1 || idtac. apply Rle_trans with (sin (PI / 6)); [rewrite sin_PI6; lra|]. apply sin_incr_1; unfold z; lra. }
    assert (Sy : Rabs y <= 2 * Rabs (sin y)) by (apply sin_inv; apply Rabs_le; unfold y; lra).
    rewrite Id, Rabs_mult, Rabs_mult, (Rabs_left (-2)), (Rabs_pos_eq (sin z)) in E2 by lra. assert (Py := Rabs_pos (sin y)).
    assert (G1 : Rabs (sin y) <= - -2 * (sin z * Rabs (sin y))) by nra. set (g := - -2 * (sin z * Rabs (sin y))) in *. assert (G2 : g * (1 - ulp1) <= g * (1 + d)) by (apply Rmult_le_compat_l; lra).
    assert (G3 : g <= / 2096000) by (apply Rnot_lt_le; intros F; nra). assert (Hy : Rabs y <= / 1048000) by lra. apply Rabs_le_inv in Hy. unfold y in Hy. apply Rabs_le_inv in Hv. apply Rabs_le. lra. }
  destruct (n_le (n_sub n_one x) edge_l) eqn:E3.
  2: { destruct (a_acos nearest_accurate X Ha) as (v & V & H). exists v. split; [exact V|]. apply Rle_trans with (1 := H). assert (B (-51) = 4 * ulp1) by (unfold ulp1; change 4 with (B 2); rewrite <- bpow_plus; reflexivity). lra. }
  destruct (sub64 _ _ of_one X) as (d & D & V); [apply small_1024, Rabs_le; lra|]. apply (le_val _ _ V edge_val) in E3. apply Rabs_le_inv in D.
  assert (Q : 0 <= 1 - a <= / 2097000) by nra.
  assert (V2 : f64_val (n_ofZ 2 : f64) = XFin 2) by (apply (of_Z 2); vm_compute; discriminate). set (u := (1 - a) * (1 + d)) in *.
  assert (Pu : 0 <= u) by (apply Rmult_le_pos; lra).
  destruct (mul_any _ _ V2 V) as (d2 & t2 & D2 & T2 & W); [apply small_1024, Rabs_le; lra|]. assert (T := tiny_1075). apply Rabs_le_inv in D2. apply Rabs_le_inv in T2.
  set (w := 2 * u * (1 + d2) + t2) in *.
  assert (Hw : Rabs (w - 2 * (1 - a)) <= 4 * ulp1). { unfold w, u. apply Rabs_le. replace (2 * ((1 - a) * (1 + d)) * (1 + d2) + t2 - 2 * (1 - a)) with (2 * (1 - a) * (d + d2 + d * d2) + t2) by ring. assert (G : Rabs (d + d2 + d * d2) <= 3 * ulp1) by (apply Rabs_le; nra). apply Rabs_le_inv in G. nra. }
  apply Rabs_le_inv in Hw.
  assert (Pw : 0 <= w). { unfold w. rewrite (mul_correct _ _ V2 V) in W by (apply small_1024, Rabs_le; lra). injection W as W. fold w. rewrite <- W. assert (Z : 0 = rnd 0) by (symmetry; apply round_0, valid_rnd_round_mode). rewrite Z at 1. apply (@round_le radix2 (SpecFloat.fexp 53 1024) (fexp_correct 53 1024 eq_refl) (round_mode mode_NE) (valid_rnd_round_mode mode_NE)). lra. }
  destruct (sqrt64 _ W Pw) as (d3 & D3 & V3). exists (sqrt w * (1 + d3)). split; [exact V3|]. apply Rabs_le_inv in D3.
  (* the half angle *)
  assert (Id : 1 - a = 2 * (sin (th / 2) * sin (th / 2))). { rewrite <- Hc. replace th with (2 * (th / 2)) at 1 by field. rewrite cos_2a_sin. ring. }
  set (y := th / 2) in *. assert (Hy : 0 <= y <= 1) by (unfold y; lra).
  assert (S0 := @sin_half y Hy). assert (S1 : y <= / 1000) by (apply Rnot_lt_le; intros F; assert (/ 2000 < sin y) by lra; nra).
  destruct (pre_sin_bound y 0) as [L1 L2]; [lra|lra|].
  assert (L3 : y - y * (y * y) / 6 <= sin y). { apply Rle_trans with (2 := L1). unfold sin_approx. cbn [Nat.mul Nat.add sum_f_R0]. unfold sin_term. cbn [Nat.mul Nat.add pow]. replace (INR (fact 1)) with 1 by (cbn; ring). replace (INR (fact 3)) with 6 by (cbn; ring). lra. }
  assert (L4 : sin y <= y). { destruct (proj1 Hy) as [P|<-]; [apply Rlt_le, sin_lt_x; auto|rewrite sin_0; lra]. }
  assert (Y3 : y * (y * y) <= / 1000000000) by (assert (y * y <= / 1000000) by nra; nra).
  assert (S2 : 0 <= sin y) by lra.
  assert (W2 : Rabs (sqrt w - 2 * sin y) <= / 10000000).
  { assert (K : Rabs (w - 2 * sin y * (2 * sin y)) <= 4 * ulp1) by (apply Rabs_le; lra). apply Rabs_le_inv in K. set (g := 2 * sin y) in *. assert (Sq := sqrt_sqrt w Pw). assert (Sp := sqrt_pos w). set (r := sqrt w) in *.
    assert (0 <= g) by (unfold g; lra). apply Rabs_le. split; apply Rnot_lt_le; intros F; nra. }
  apply Rabs_le_inv in W2. assert (Rw : 0 <= sqrt w <= 1) by (split; [apply sqrt_pos|unfold y in *; lra]).
  assert (K3 : - ulp1 <= sqrt w * d3 <= ulp1) by nra. replace th with (2 * y) by (unfold y; field). apply Rabs_le. lra.
Qed.
Theorem calc_accurate : accurate Libm_calc (/ 1000000).
Proof.
  assert (U := ulp1_pos). assert (B51 : B (-51) = 4 * ulp1) by (unfold ulp1; change 4 with (B 2); rewrite <- bpow_plus; reflexivity).
  constructor; cbn [m_pi m_sin m_cos m_acos m_atan2 m_hypot Libm_calc].
  - apply about_near with (1 := about_pi). lra.
  - intros x a X Ha. destruct (key x) as [k|] eqn:K.
    + destruct (key_sound _ K X) as [I H]. destruct (sin_entry _ K I) as (v & V & Hv). exists v. split; [exact V|].
      assert (S := sin_lip a (IZR k * (PI / 4))). apply Rle_trans with (/ 100000000 + / 100000000); [|lra].
      replace (v - sin a) with ((v - sin (IZR k * (PI / 4))) - (sin a - sin (IZR k * (PI / 4)))) by ring. assert (S' := Rle_trans _ _ _ S H). apply Rabs_le_inv in S'. apply Rabs_le_inv in Hv. apply Rabs_le. lra.
    + unfold c_sin. rewrite K. destruct (a_sin nearest_accurate X Ha) as (v & V & H). exists v. split; [exact V|lra].
  - intros x a X Ha. destruct (key x) as [k|] eqn:K.
    + destruct (key_sound _ K X) as [I H]. destruct (cos_entry _ K I) as (v & V & Hv). exists v. split; [exact V|].
      assert (S := cos_lip a (IZR k * (PI / 4))). apply Rle_trans with (/ 100000000 + / 100000000); [|lra].
      replace (v - cos a) with ((v - cos (IZR k * (PI / 4))) - (cos a - cos (IZR k * (PI / 4)))) by ring. assert (S' := Rle_trans _ _ _ S H). apply Rabs_le_inv in S'. apply Rabs_le_inv in Hv. apply Rabs_le. lra.
    + unfold c_cos. rewrite K. destruct (a_cos nearest_accurate X Ha) as (v & V & H). exists v. split; [exact V|lra].
  - exact acos_calc.
  - intros y x b a Y X. exact (atan2_calc _ _ Y X).
  - intros x y a b X Y H. assert (P := bpow_gt_0 radix2 (-1000)). assert (S := sqrt_pos (a * a + b * b)). unfold c_hypot. destruct (usual x && usual y) eqn:Us.
    + apply andb_prop in Us as [U1 U2]. destruct (hypot_usual _ _ (usual_loose _ U1 X) (usual_loose _ U2 Y) X Y) as (v & V & Pv & Hv). exists v. split; [exact V|]. split; [exact Pv|lra].
    + destruct (a_hypot nearest_accurate X Y H) as (v & V & Pv & Hv). exists v. split; [exact V|]. split; [exact Pv|].
      assert (B (-51) * sqrt (a * a + b * b) <= / 1000000 * sqrt (a * a + b * b)) by (apply Rmult_le_compat_r; lra). lra.
Qed.

(** a disk of a built grid *)
Definition quarters (n : Z) : f64 := n_div (n_ofZ n) (n_ofZ 4).
Definition within (lo hi : Z) (x : option f64) : bool := match x with Some x => n_le (quarters lo) x && n_le x (quarters hi) | None => false end.
Definition is_val (y : f64) (x : option f64) : bool := match x with Some x => n_eq x y | None => false end.
Definition slope : f64 := n_div (n_neg (n_ofZ 2)) (n_ofZ (2 ^ 23)).
Definition placed (ext : bool) (x y : f64) (qi qj i j k : nat) (g : gparams f64) (s : shallot f64) : bool :=
  let p := s_params s in
  let at_ w := cell (List.length (g_dx p)) (List.length (g_rfa p)) (p_data (cube_of w s)) i j k in
  Bool.eqb (g_ext g) ext && Nat.ltb i (List.length (g_dy p)) && Nat.ltb j (List.length (g_dx p)) && Nat.ltb k (List.length (g_rfa p)) &&
  is_val (n_ofZ 2) (nth_error (g_dx g) qj) && is_val (n_ofZ (2 ^ 23)) (nth_error (g_dy g) qi) &&
  is_val x (nth_error (g_dx p) j) && is_val y (nth_error (g_dy p) i) && within 3 5 (at_ WFy) && within 7 9 (at_ WFx) &&
  match nth_error (g_dx g) qj, nth_error (g_dy g) qi with Some dx, Some dy => n_eq (shear_at dx dy) slope && within (2 ^ 25) (2 ^ 25 + 1) (Some (circular_radius Libm_calc dy)) | _, _ => false end.
Definition holds (gr : res (gparams f64)) (t : gparams f64 -> shallot f64 -> bool) : bool :=
  match gr with
  | Ok g => match snd (snd (new_shallot env_calc (EIs g) (PInt 2) (PInt 50) (PBool false) (PBool false))) with Ok s => t g s | Err _ => false end
  | Err _ => false
  end.
Lemma holds_in gr t : holds gr t = true -> exists g og l s, gr = Ok g /\ new_shallot env_calc (EIs g) (PInt 2) (PInt 50) (PBool false) (PBool false) = (og, (l, Ok s)) /\ t g s = true.
Proof.
  unfold holds. destruct gr as [g|]; [|discriminate]. destruct (new_shallot env_calc (EIs g) _ _ _ _) as [og [l [s|]]] eqn:N; cbn [snd]; [|discriminate].
  intros H. exists g, og, l, s. auto.
Qed.
Lemma quarters_val n : (Z.abs n <= 2 ^ 53)%Z -> (n <> 0)%Z -> exists d, Rabs d <= ulp1 /\ f64_val (quarters n) = XFin (IZR n / 4 * (1 + d)).
Proof.
  intros H H0. assert (V := of_Z _ H). assert (V4 : f64_val (n_ofZ 4 : f64) = XFin 4) by (apply (of_Z 4); vm_compute; discriminate).
  apply (div64 _ _ V V4); [lra|]. right. assert (L : 1 <= Rabs (IZR n)) by (rewrite <- abs_IZR; apply (IZR_le 1); lia). assert (U : Rabs (IZR n) <= B 53) by (rewrite <- abs_IZR; apply (IZR_le _ (2 ^ 53)); exact H).
  unfold Rdiv. rewrite Rabs_mult, (Rabs_pos_eq (/ 4)) by lra. split.
  - apply Rle_trans with (B (-2)); [apply bpow_le; lia|change (B (-2)) with (/ 4); lra].
  - apply Rle_trans with (B 53); [lra|apply bpow_le; lia].
Qed.
Lemma le_finite (x y z : f64) a b : f64_val x = XFin a -> f64_val z = XFin b -> n_le x y = true -> n_le y z = true -> exists r, f64_val y = XFin r /\ a <= r <= b.
Proof.
  intros X Z. cbn [n_le Num_f64]. rewrite !f64_le, X, Z. destruct (f64_val y) as [| | |r]; unfold x_le; cbn [x_lt x_eq orb]; try discriminate.
  destruct (Rlt_dec a r), (Rlt_dec r b), (Req_EM_T a r), (Req_EM_T r b); cbn [orb]; try discriminate; intros _ _; exists r; split; auto; lra.
Qed.
Lemma within_val lo hi x : (0 < lo <= 2 ^ 53)%Z -> (0 < hi <= 2 ^ 53)%Z -> within lo hi x = true -> exists v r, x = Some v /\ f64_val v = XFin r /\ IZR lo / 4 * (1 - ulp1) <= r <= IZR hi / 4 * (1 + ulp1).
Proof.
  intros Hl Hh H. destruct x as [v|]; [|discriminate H]. cbn [within] in H. apply andb_prop in H as [H1 H2].
  destruct (@quarters_val lo) as (d & D & Vl); [lia|lia|]. destruct (@quarters_val hi) as (d' & D' & Vh); [lia|lia|].
  destruct (@le_finite _ _ _ _ _ Vl Vh H1 H2) as (r & V & B1 & B2). exists v, r. split; auto. split; auto. apply Rabs_le_inv in D. apply Rabs_le_inv in D'.
  assert (Pl : 0 < IZR lo) by (apply (IZR_lt 0); lia). assert (Ph : 0 < IZR hi) by (apply (IZR_lt 0); lia).
  split; [apply Rle_trans with (2 := B1)|apply Rle_trans with (1 := B2)]; apply Rmult_le_compat_l; lra.
Qed.
Lemma is_val_in y x r : is_val y x = true -> f64_val y = XFin r -> exists v, x = Some v /\ f64_val v = XFin r.
Proof. intros H Y. destruct x as [v|]; [|discriminate H]. exists v. split; auto. exact (same_val _ _ H Y). Qed.
Lemma slope_val : f64_val slope = XFin (- / 4194304).
Proof.
  apply (@same_val _ (n_neg (lit 4503599627370496 (-74) eq_refl))); [vm_compute; exact eq_refl|]. rewrite (neg_val _ (lit_val _ _ _)). f_equal. f_equal.
  change (IZR 4503599627370496) with (B 52). rewrite <- bpow_plus. reflexivity.
Qed.
Lemma axes_bound fx fy s c R m : 0 < fx -> 0 < fy -> 0 < c -> largest_distance fx fy s c R -> smallest_distance fx fy s c m ->
  R * m = c * c * (fx * fy) /\ 0 < m <= R /\ R * R <= (fx * fx + (s * s + 1) * (fy * fy)) * (c * c).
Proof.
  intros Px Py Pc HR Hm. assert (ER := largest_unique HR (major_largest fx fy s Pc)). assert (Em := smallest_unique Hm (minor_smallest fx fy s Pc)).
  assert (AA := axes_area s Px Py Pc). assert (PM := m_pos s Px Py Pc). assert (RS := R_sq fx s Py Pc). assert (AG := A_gt s Px Py). assert (ML := minor_le fx fy s Pc).
  rewrite <- ER, <- Em in AA, ML. rewrite <- Em in PM. rewrite <- ER in RS. clear ER Em HR Hm.
  set (h := sqrt _) in *. set (A := fx * fx + (s * s + 1) * (fy * fy)) in *. split; [exact AA|]. split; [lra|]. nra.
Qed.
Lemma ex_size fx fy c R m : 3 / 5 <= fy <= 13 / 10 -> 17 / 10 <= fx <= 23 / 10 -> 8388607 <= c <= 8388610 ->
  largest_distance fx fy (- / 4194304) c R -> smallest_distance fx fy (- / 4194304) c m -> 8000000 < R <= 30000000 /\ 0 < m /\ R * R / m <= 8 * R.
Proof.
  intros Hy Hx Hc HR Hm. destruct (@axes_bound fx fy (- / 4194304) c R m) as (AA & [PM ML] & RS); auto; try lra.
  assert (HA : fx * fx + (- / 4194304 * - / 4194304 + 1) * (fy * fy) <= 7) by nra. set (A := fx * fx + _) in *.
  assert (K : R * R <= 7 * (c * c)) by nra.
  assert (R1 : R <= 27 / 10 * c) by (apply Rnot_lt_le; intros F; nra). assert (F : 1 <= fx * fy) by nra.
  assert (R2 : 8000000 < R). { apply Rnot_le_lt. intros K1. assert (K2 : R * m <= R * R) by (apply Rmult_le_compat_l; lra). nra. }
  split; [lra|]. split; [exact PM|].
  apply Rmult_le_reg_r with m; [exact PM|]. replace (R * R / m * m) with (R * R) by (field; lra). rewrite Rmult_assoc, AA. nra.
Qed.
Lemma near_casts d d' dx dy r i t : d <= d' -> casts_within d dx dy r i t -> casts_within d' dx dy r i t.
Proof. intros H [A B]. split; eapply near_edge_le; eauto. Qed.
(** the disk of the cell (i, j, k) is computed, and casts the eclipse around the point (dx, dy) within a 200th of its size *)
Definition example_disk (dx dy : R) (i j k : nat) (s : shallot f64) : Prop :=
  let p := s_params s in
  let at_ w := cell (List.length (g_dx p)) (List.length (g_rfa p)) (p_data (cube_of w s)) i j k in
  exists rv iv tv r ic t fx fy c R m, at_ WRadius = Some rv /\ at_ WInclination = Some iv /\ at_ WTilt = Some tv /\
    f64_val rv = XFin r /\ f64_val iv = XFin ic /\ f64_val tv = XFin t /\ largest_distance fx fy (- / 4194304) c R /\ smallest_distance fx fy (- / 4194304) c m /\
    8000000 < R /\ casts_within (R / 200) dx dy r ic t.
Lemma ulp_one : 0 < ulp1 <= / 1000000000. Proof. assert (U := ulp1_pos). lra. Qed.
Lemma bound_ex R m dx x1 y1 e : 0 < R <= 30000000 -> 0 < m -> R * R / m <= 8 * R -> Rabs dx = 2 -> 0 <= x1 <= 2 -> 0 <= y1 <= 8388608 -> 8000000 < R -> e = 528 \/ e = 552 ->
  e * / 1000000 * (R * R) / m + bpow radix2 (-48) * ((1 + Rabs dx) * R + x1 + y1) <= R / 200.
Proof.
  intros HR Hm Hq -> Hx Hy HR' He. replace (e * / 1000000 * (R * R) / m) with (e * / 1000000 * (R * R / m)) by (field; lra).
  change (B (-48)) with (/ 281474976710656). destruct He as [->| ->]; lra.
Qed.

Lemma p_test : holds grid_p (placed false (n_ofZ 2) (n_ofZ (2 ^ 23)) 0 1 0 1 0) = true.
Proof. vm_compute. exact eq_refl. Qed.
Lemma m_test : holds grid_m (placed true (n_ofZ (-2)) (n_ofZ (2 ^ 23)) 1 1 2 0 0) = true.
Proof. vm_compute. exact eq_refl. Qed.
Lemma placed_in ext x y xr yr qi qj i j k g s : f64_val x = XFin xr -> f64_val y = XFin yr -> placed ext x y qi qj i j k g s = true ->
  let p := s_params s in
  let at_ w := cell (List.length (g_dx p)) (List.length (g_rfa p)) (p_data (cube_of w s)) i j k in
  g_ext g = ext /\ (i < List.length (g_dy p))%nat /\ (j < List.length (g_dx p))%nat /\ (k < List.length (g_rfa p))%nat /\
  exists dyv dxv dyv' dxv' fyv fxv fy fx c, nth_error (g_dy g) qi = Some dyv /\ nth_error (g_dx g) qj = Some dxv /\ nth_error (g_dy p) i = Some dyv' /\ nth_error (g_dx p) j = Some dxv' /\
    at_ WFy = Some fyv /\ at_ WFx = Some fxv /\ f64_val dyv = XFin 8388608 /\ f64_val dxv = XFin 2 /\ f64_val dyv' = XFin yr /\ f64_val dxv' = XFin xr /\
    f64_val fyv = XFin fy /\ f64_val fxv = XFin fx /\ f64_val (shear_at dxv dyv) = XFin (- / 4194304) /\ f64_val (circular_radius Libm_calc dyv) = XFin c /\
    3 / 5 <= fy <= 13 / 10 /\ 17 / 10 <= fx <= 23 / 10 /\ 8388607 <= c <= 8388610.
Proof.
  intros Vx Vy H. cbv zeta. unfold placed in H. cbv zeta in H. repeat match goal with H : _ && _ = true |- _ => apply andb_prop in H as [H ?] end.
  rename H into B1. apply Bool.eqb_prop in B1.
  repeat match goal with H : Nat.ltb _ _ = true |- _ => apply Nat.ltb_lt in H end.
  match goal with H : is_val (n_ofZ 2) _ = true |- _ => destruct (@is_val_in _ _ 2 H) as (dxv & Ex & Vdx); [apply (of_Z 2); vm_compute; discriminate|] end.
  match goal with H : is_val (n_ofZ (2 ^ 23)) (nth_error (g_dy g) qi) = true |- _ => destruct (@is_val_in _ _ 8388608 H) as (dyv & Ey & Vdy); [apply (of_Z (2 ^ 23)); vm_compute; discriminate|] end.
  match goal with H : is_val x _ = true |- _ => destruct (@is_val_in _ _ xr H) as (dxv' & Ex' & Vdx'); [exact Vx|] end.
  match goal with H : is_val y _ = true |- _ => destruct (@is_val_in _ _ yr H) as (dyv' & Ey' & Vdy'); [exact Vy|] end.
  match goal with H : within 3 5 _ = true |- _ => destruct (@within_val 3 5 _ ltac:(lia) ltac:(lia) H) as (fyv & fy & Cy & Vfy & By) end.
  match goal with H : within 7 9 _ = true |- _ => destruct (@within_val 7 9 _ ltac:(lia) ltac:(lia) H) as (fxv & fx & Cx & Vfx & Bx) end.
  match goal with H : context [slope] |- _ => rewrite Ex, Ey in H; apply andb_prop in H as [S C] end.
  destruct (@within_val (2 ^ 25) (2 ^ 25 + 1) _ ltac:(lia) ltac:(lia) C) as (cv & c & Cc & Vc & Bc). assert (Cc' : circular_radius Libm_calc dyv = cv) by (injection Cc; trivial). rewrite <- Cc' in Vc.
  assert (Vs := same_val _ _ S slope_val). assert (U := ulp_one).
  split; [exact B1|]. do 3 (split; [assumption|]). exists dyv, dxv, dyv', dxv', fyv, fxv, fy, fx, c.
  do 14 (split; [assumption|]). change (2 ^ 25 + 1)%Z with 33554433%Z in Bc. change (2 ^ 25)%Z with 33554432%Z in Bc. lra.
Qed.
Lemma ex_loose : loose (- / 4194304).
Proof.
  assert (H : forall r, r = - / 4194304 -> B (-100) <= Rabs r <= B 100).
  { intros r E. rewrite Rabs_left by lra. split; [apply Rle_trans with (B (-22)); [apply bpow_le; lia|change (B (-22)) with (/ 4194304); lra]|].
    apply Rle_trans with (B 0); [change (B 0) with 1; lra|apply bpow_le; lia]. }
  right. exact (H _ eq_refl).
Qed.
Lemma ex_loose_y : loose 8388608 /\ Rabs 8388608 <= B 99.
Proof.
  assert (H : B (-100) <= Rabs 8388608 <= B 99). { rewrite Rabs_pos_eq by lra. change 8388608 with (B 23). split; apply bpow_le; lia. }
  split; [right|apply H]. split; [apply H|]. apply Rle_trans with (1 := proj2 H). apply bpow_le. lia.
Qed.
Lemma e_range : B (-52) <= / 1000000 <= / 1000000.
Proof. split; [|lra]. apply Rle_trans with (B (-20)); [apply bpow_le; lia|change (B (-20)) with (/ 1048576); lra]. Qed.
Lemma plain_example : exists g og l s, grid_p = Ok g /\ g_ext g = false /\ new_shallot env_calc (EIs g) (PInt 2) (PInt 50) (PBool false) (PBool false) = (og, (l, Ok s)) /\ example_disk 2 8388608 0 1 0 s.
Proof.
  destruct (holds_in _ _ p_test) as (g & og & l & s & G & N & H).
  apply (@placed_in _ _ _ 2 8388608) in H; [|apply (of_Z 2); vm_compute; discriminate|apply (of_Z (2 ^ 23)); vm_compute; discriminate].
  destruct H as (Ex & Bi & Bj & Bk & dyv & dxv & dyv' & dxv' & fyv & fxv & fy & fx & c & Ny & Nx & Ny' & Nx' & Cy & Cx & Vy & Vx & Vy' & Vx' & Vfy & Vfx & Vs & Vc & By & Bx & Bc).
  exists g, og, l, s. split; [exact G|]. split; [exact Ex|]. split; [exact N|].
  destruct (@grid_plain env_calc _ calc_accurate e_range _ _ (rc_new _ _ _ _ _ _ _ _ G) _ _ _ _ _ _ N Ex) as [Ep K]. rewrite Ep in *.
  destruct (K 0%nat 1%nat 0%nat dyv dxv fyv fxv 8388608 2 fy fx (- / 4194304)) as (rv & iv & tv & r & ic & t & c' & R & m & Z); auto; try (apply ex_loose_y || exact ex_loose || lra); try (apply ordinary_between; lra).
  destruct Z as (Z1 & Z2 & Z3 & Z4 & Z5 & Z6 & Z7 & Z8 & Z9 & Z10). cbn [e_libm env_calc] in Z7. rewrite Vc in Z7. injection Z7 as <-.
  destruct (@ex_size fx fy c R m By Bx Bc Z8 Z9) as (S1 & S2 & S3). unfold example_disk. rewrite Ep.
  exists rv, iv, tv, r, ic, t, fx, fy, c, R, m. repeat (split; [assumption|]). split; [lra|]. revert Z10. apply near_casts.
  apply Rle_trans with (2 := @bound_ex R m 2 0 0 528 ltac:(lra) S2 S3 ltac:(apply Rabs_pos_eq; lra) ltac:(lra) ltac:(lra) ltac:(lra) (or_introl eq_refl)). apply Req_le. ring.
Qed.
Lemma some_same A (x y : A) : Some x = Some y -> x = y. Proof. intros H. now injection H. Qed.
Lemma m_lengths g : grid_m = Ok g -> List.length (g_dy g) = 2%nat /\ List.length (g_dx g) = 2%nat.
Proof.
  assert (H : match grid_m with Ok g => Nat.eqb (List.length (g_dy g)) 2 && Nat.eqb (List.length (g_dx g)) 2 | Err _ => false end = true) by (vm_compute; exact eq_refl).
  intros G. rewrite G in H. apply andb_prop in H as [A B]. split; now apply Nat.eqb_eq.
Qed.
Lemma m_ends : moderate 2 /\ moderate 8388608 /\ apart 0 2 /\ apart 0 8388608.
Proof.
  assert (P : B 24 <= B 1000) by (apply bpow_le; lia). change (B 24) with 16777216 in P. assert (Q : B (-900) <= B 0) by (apply bpow_le; lia). change (B 0) with 1 in Q.
  unfold moderate, apart. rewrite !Rabs_pos_eq by lra. lra.
Qed.
Lemma mirrored_example : exists g og l s, grid_m = Ok g /\ g_ext g = true /\ new_shallot env_calc (EIs g) (PInt 2) (PInt 50) (PBool false) (PBool false) = (og, (l, Ok s)) /\ example_disk (-2) 8388608 2 0 0 s.
Proof.
  destruct (holds_in _ _ m_test) as (g & og & l & s & G & N & H).
  apply (@placed_in _ _ _ (-2) 8388608) in H; [|apply (of_Z (-2)); vm_compute; discriminate|apply (of_Z (2 ^ 23)); vm_compute; discriminate].
  destruct H as (Ex & Bi & Bj & Bk & dyv & dxv & dyv' & dxv' & fyv & fxv & fy & fx & c & Ny & Nx & Ny' & Nx' & Cy & Cx & Vy & Vx & Vy' & Vx' & Vfy & Vfx & Vs & Vc & By & Bx & Bc).
  exists g, og, l, s. split; [exact G|]. split; [exact Ex|]. split; [exact N|].
  destruct (m_lengths G) as [Ly Lx]. destruct m_ends as (M1 & M2 & A1 & A2).
  assert (Sm : Forall (@small f64) [PInt 0; PInt 2; PInt 2; PInt 0; PInt (2 ^ 23); PInt 2; PInt 2; PInt 2]) by (repeat (apply Forall_cons; [cbn; lia|]); apply Forall_nil).
  assert (K := @grid_mirrored env_calc _ calc_accurate e_range (PInt 2) g (rc_new _ _ _ _ _ _ _ _ G) (PInt 0) (PInt 2) (PInt 2) (PInt 0) (PInt (2 ^ 23)) (PInt 2) (PInt 2) (PInt 2) 2 8388608
    Sm G eq_refl eq_refl eq_refl eq_refl M1 M2 A1 A2 ltac:(cbn; lia) ltac:(cbn; lia) _ _ _ _ _ _ N). cbv zeta in K. rewrite Ly, Lx in K.
  destruct (K 2%nat 0%nat 0%nat dyv dxv fyv fxv 8388608 2 fy fx (- / 4194304)) as (dyv1 & dxv1 & dy1 & dx1 & rv & iv & tv & r & ic & t & c' & R & m & Z); auto; try (apply ex_loose_y || exact ex_loose || lra); try (apply ordinary_between; lra).
  destruct Z as (Y1 & Y2 & Y3 & Y4 & Z1 & Z2 & Z3 & Z4 & Z5 & Z6 & Z7 & Z8 & Z9 & Z10). cbn [e_libm env_calc] in Z7. rewrite Vc in Z7. injection Z7 as <-.
  rewrite Ny' in Y1. apply some_same in Y1. rewrite <- Y1, Vy' in Y3. injection Y3 as <-. rewrite Nx' in Y2. apply some_same in Y2. rewrite <- Y2, Vx' in Y4. injection Y4 as <-.
  destruct (@ex_size fx fy c R m By Bx Bc Z8 Z9) as (S1 & S2 & S3). unfold example_disk.
  exists rv, iv, tv, r, ic, t, fx, fy, c, R, m. repeat (split; [assumption|]). split; [lra|]. revert Z10. apply near_casts.
  apply (@bound_ex R m 2 2 8388608 552); auto; try lra. apply Rabs_pos_eq. lra.
Qed.

(** an ellipse twice as wide as high, and the disk of the point (1, 1) with fy = 2 *)
Lemma wide_edge : exists rv iv tv r i t, disk_parameters Libm_nearest (n_ofZ 2) (n_ofZ 1) (n_ofZ 0) (n_ofZ 1) = (rv, iv, tv) /\
  f64_val rv = XFin r /\ f64_val iv = XFin i /\ f64_val tv = XFin t /\ forall dx dy, edge_within (/ 1000000000000) dx dy 2 1 0 1 r i t.
Proof.
  assert (V0 : f64_val (n_ofZ 0) = XFin 0) by (apply (of_Z 0); vm_compute; discriminate).
  assert (V1 : f64_val (n_ofZ 1) = XFin 1) by (apply (of_Z 1); vm_compute; discriminate).
  assert (V2 : f64_val (n_ofZ 2) = XFin 2) by (apply (of_Z 2); vm_compute; discriminate).
  assert (Q : B (-51) = 4 * ulp1). { unfold ulp1. change 4 with (B 2). rewrite <- bpow_plus. reflexivity. }
  assert (U := ulp1_pos). assert (E : B (-52) <= B (-51) <= / 1000000) by (split; [apply bpow_le; lia|lra]).
  destruct (@edge64 Libm_nearest (B (-51)) (n_ofZ 2) (n_ofZ 1) (n_ofZ 0) (n_ofZ 1) 2 1 0 1 nearest_accurate E V2 V1 V0 V1)
    as (rv & iv & tv & r & i & t & R & m & G & G1 & G2 & G3 & LR & Sm & _ & _ & _ & W); try lra; try (apply ordinary_between; lra); [left; reflexivity|].
  exists rv, iv, tv, r, i, t. repeat (split; [assumption|]).
  assert (X1 : R = 2) by (apply (largest_unique LR); apply wide_ellipse). assert (X2 : m = 1) by (apply (smallest_unique Sm); apply wide_ellipse). subst R m.
  intros dx dy. assert (K : 525 * B (-51) * (2 * 2) / 1 <= / 1000000000000).
  { replace (525 * B (-51) * (2 * 2) / 1) with (2100 * B (-51)) by field. change (B (-51)) with (/ 2251799813685248). lra. }
  destruct (W dx dy) as [W1 W2]. split; intros x y HH; [destruct (W1 x y HH) as (x' & y' & D1 & D2)|destruct (W2 x y HH) as (x' & y' & D1 & D2)]; exists x', y'; (split; [exact D1|]); lra.
Qed.
Lemma point_casts : exists rv iv tv r i t, disk_parameters Libm_nearest (determine_fx (n_ofZ 2) (n_ofZ 1)) (n_ofZ 2) (shear_at (n_ofZ 1) (n_ofZ 1)) (circular_radius Libm_nearest (n_ofZ 1)) = (rv, iv, tv) /\
  f64_val rv = XFin r /\ f64_val iv = XFin i /\ f64_val tv = XFin t /\ casts_within (/ 10000000000) 1 1 r i t.
Proof.
  destruct point_exact as [S F]. assert (V1 : f64_val (n_ofZ 1) = XFin 1) by (apply (of_Z 1); vm_compute; discriminate).
  assert (V2 : f64_val (n_ofZ 2) = XFin 2) by (apply (of_Z 2); vm_compute; discriminate).
  assert (U := ulp1_pos). assert (Q : B (-51) = / 2251799813685248) by reflexivity. assert (Q' : B (-48) = / 281474976710656) by reflexivity.
  assert (E : B (-52) <= B (-51) <= / 1000000) by (split; [apply bpow_le; lia|lra]).
  assert (A1 : Rabs 1 = 1) by (apply Rabs_pos_eq; lra).
  assert (O1 : Rabs 1 <= B 99) by (rewrite A1; apply (bpow_le radix2 0 99); lia).
  assert (OA : SpecF64.ordinary (-1)). { unfold SpecF64.ordinary. assert (X : Rabs (-1) = 1) by (rewrite Rabs_left; lra). rewrite X. split; [apply (bpow_le radix2 (-100) 0)|apply (bpow_le radix2 0 100)]; lia. }
  destruct (@casts64 Libm_nearest (B (-51)) (n_ofZ 1) (n_ofZ 1) (n_ofZ 2) 1 1 (/ 2) 2 (-1) nearest_accurate E V1 V1 V2)
    as (rv & iv & tv & r & i & t & c & R & m & G & G1 & G2 & G3 & Vc & LR & Sm & _ & _ & _ & W); auto; try lra; try (right; exact OA); try (right; apply ordinary_between; lra); try (apply ordinary_between; lra).
  exists rv, iv, tv, r, i, t. repeat (split; [assumption|]). revert W. apply near_casts. rewrite A1.
  destruct (@radius_accurate Libm_nearest (B (-51)) (n_ofZ 1) 1 nearest_accurate) as (c' & Vc' & Pc & _ & Ec); auto; [lra|]. rewrite Vc in Vc'. injection Vc' as <-.
  assert (Hs : 11 / 10 <= sqrt (/ 2 * / 2 + 1 * 1) <= 112 / 100).
  { split; [rewrite <- (sqrt_square (11 / 10)) by lra|rewrite <- (sqrt_square (112 / 100)) by lra]; apply sqrt_le_1_alt; lra. }
  assert (T : B (-1000) <= B (-51)) by (apply bpow_le; lia). apply Rabs_le_inv in Ec.
  assert (Hc : 1 <= c <= 12 / 10). { rewrite Q in *. lra. }
  destruct (@axes_bound (/ 2) 2 (-1) c R m) as (AA & [PM ML] & RS); auto; try lra.
  assert (RB : R <= 35 / 10) by (apply Rnot_lt_le; intros X; nra).
  assert (K : R * R / m <= 50). { apply Rmult_le_reg_r with m; [exact PM|]. replace (R * R / m * m) with (R * R) by (field; lra). assert (K1 : 1 <= R * m) by nra. assert (K2 : / 4 <= m) by nra. nra. }
  replace (528 * B (-51) * (R * R) / m) with (528 * B (-51) * (R * R / m)) by (field; lra). rewrite Q, Q'. lra.
Qed.
