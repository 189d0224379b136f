(** Adjacent rings share their edge bit by bit; a ring for which the outlines are known. *)
From Coq Require Import ZArith Reals Lra Lia List Bool.
From Flocq Require Import Core BinarySingleNaN.
From Verif Require Import Num NumP BuildFP Py Ring RingPatchP SpecPatch SpecF64 Round64P GeomF64P EdgeExP PatchF64P.
Import ListNotations SpecF64.
Local Open Scope R_scope.
Local Notation B := (bpow radix2).

Lemma overflow_sign s : binary_overflow 53 1024 mode_NE s = SpecFloat.S754_infinity s.
Proof. reflexivity. Qed.
Lemma inf_of (z : f64) s : B2SF z = SpecFloat.S754_infinity s -> z = B754_infinity s.
Proof. destruct z; cbn; intros H; try discriminate. now injection H as ->. Qed.
Lemma mul_neg (x y : f64) : n_mul x (n_neg y) = n_neg (n_mul x y).
Proof.
  cbn [n_mul n_neg Num_f64]. destruct x as [sx|sx| |sx mx ex Hx], y as [sy|sy| |sy my ey Hy]; try (cbn; destruct sx, sy; reflexivity); try reflexivity.
  set (x := B754_finite sx mx ex Hx : f64). set (y := B754_finite sy my ey Hy : f64).
  assert (C := Bmult_correct 53 1024 _ _ mode_NE x y). assert (D := Bmult_correct 53 1024 _ _ mode_NE x (Bopp y)).
  rewrite B2R_Bopp, Ropp_mult_distr_r_reverse in D. cbn [round_mode] in *. rewrite round_NE_opp, Rabs_Ropp in D.
  destruct (Rlt_bool _ _).
  - destruct C as (C1 & C2 & C3), D as (D1 & D2 & D3). cbn [is_finite x y Bopp andb] in C2, D2.
    assert (N : forall z : f64, is_finite z = true -> is_nan z = false) by (intros []; cbn; auto; discriminate).
    specialize (C3 (N _ C2)). specialize (D3 (N _ D2)). apply B2R_Bsign_inj; [exact D2|now rewrite is_finite_Bopp| |].
    + now rewrite B2R_Bopp, C1, D1.
    + rewrite Bsign_Bopp by now apply N. rewrite C3, D3, Bsign_Bopp by reflexivity. cbn. now destruct sx, sy.
  - rewrite overflow_sign in C, D. apply inf_of in C. apply inf_of in D. rewrite C, D, Bsign_Bopp by reflexivity. cbn. now destruct sx, sy.
Qed.
Lemma mul_one (x : f64) : n_mul x n_one = x.
Proof.
  destruct x as [sx|sx| |sx mx ex Hx]; try (now destruct sx); try reflexivity.
  set (x := B754_finite sx mx ex Hx : f64). destruct (f64_val_fin _ of_one) as [F1 E1].
  change (n_mul x n_one) with (Bmult mode_NE x (n_one : f64)). set (u := (n_one : f64)) in *. assert (S1 : Bsign u = false) by reflexivity. clearbody u.
  assert (C := Bmult_correct 53 1024 _ _ mode_NE x u). rewrite E1, Rmult_1_r in C. cbn [round_mode] in C.
  rewrite round_generic in C; [|apply valid_rnd_N|apply generic_format_B2R]. rewrite Rlt_bool_true in C by apply abs_B2R_lt_emax.
  destruct C as (C1 & C2 & C3). rewrite F1 in C2. cbn [is_finite x andb] in C2.
  assert (N : is_nan (Bmult mode_NE x u) = false) by (destruct (Bmult mode_NE x u); cbn in *; auto; discriminate).
  apply B2R_Bsign_inj; [exact C2|reflexivity|exact C1|]. rewrite (C3 N). now rewrite S1, xorb_false_r.
Qed.

(** the circle traced the other way *)
Definition mirrored (v : f64 * f64) : f64 * f64 := (n_neg (fst v), snd v).
Lemma vertex_shared (L : Libm f64) (r1 r2 : ring f64) radius shift v : r_inc r2 = r_inc r1 -> r_tilt r2 = r_tilt r1 ->
  patch_vertex L r2 radius (n_neg n_one) shift (mirrored v) = patch_vertex L r1 radius n_one shift v.
Proof.
  intros I T. unfold patch_vertex, mirrored. rewrite I, T. cbn [fst snd].
  replace (radius * n_neg (fst v) * n_neg n_one)%num with (radius * fst v * n_one)%num; [reflexivity|].
  rewrite !mul_neg, (mul_one (n_neg (n_mul radius (fst v)))), mul_one. cbn [n_neg Num_f64]. now rewrite Bopp_involutive.
Qed.
Lemma outline_shared (L : Libm f64) (r1 r2 : ring f64) shift vs : r_inc r2 = r_inc r1 -> r_tilt r2 = r_tilt r1 -> r_in r2 = r_out r1 ->
  skipn (List.length vs) (patch_vertices L r2 shift (map mirrored vs)) = firstn (List.length vs) (patch_vertices L r1 shift vs).
Proof.
  intros I T E. unfold patch_vertices. rewrite <- (map_length (patch_vertex L r1 (r_out r1) n_one shift) vs) at 2. rewrite firstn_app, Nat.sub_diag, firstn_O, app_nil_r, firstn_all.
  rewrite <- (map_length mirrored vs) at 1. rewrite <- (map_length (patch_vertex L r2 (r_out r2) n_one shift) (map mirrored vs)) at 1. rewrite skipn_app, Nat.sub_diag, skipn_all.
  cbn [skipn app]. rewrite map_map, E. apply map_ext. intros v. now apply vertex_shared.
Qed.

Definition fz (z : Z) : f64 := n_ofZ z.
Definition ex_ring : ring f64 := mkRing (fz 1) (fz 2) (fz 1) (fz 45) (fz 30).
Lemma outline_ex : accurate Libm_calc (/ 1000000) /\ B (-52) <= / 1000000 <= / 1000000 /\
  f64_val (r_in ex_ring) = XFin 1 /\ f64_val (r_out ex_ring) = XFin 2 /\ f64_val (r_inc ex_ring) = XFin 45 /\ f64_val (r_tilt ex_ring) = XFin 30 /\
  f64_val (fz 7) = XFin 7 /\ 2 <= B 200 /\ Rabs 7 <= B 200 /\ Rabs 45 <= 180 /\ Rabs 30 <= 180 /\
  Forall2 (fun v th => point_within (/ 1000000) v (cos th, sin th)) [(fz 1, fz 0); (fz 0, fz 1)] [0; PI / 2].
Proof.
  split; [exact calc_accurate|]. split; [exact e_range|]. assert (V : forall z, (Z.abs z <= 2 ^ 53)%Z -> f64_val (fz z) = XFin (IZR z)) by exact of_Z.
  assert (B2 : 7 <= B 200) by (apply Rle_trans with (B 3); [change (B 3) with 8; lra|apply bpow_le; lia]).
  cbn [r_in r_out r_inc r_tilt ex_ring]. split; [apply V; lia|]. split; [apply V; lia|]. split; [apply V; lia|]. split; [apply V; lia|]. split; [apply V; lia|].
  split; [lra|]. rewrite !Rabs_pos_eq by lra. split; [exact B2|]. split; [lra|]. split; [lra|].
  assert (V0 : f64_val (fz 0) = XFin 0) by (apply V; lia). assert (V1 : f64_val (fz 1) = XFin 1) by (apply V; lia).
  assert (Z : forall a, Rabs (a - a) <= / 1000000) by (intros a; rewrite Rminus_diag_eq, Rabs_R0 by reflexivity; lra).
  constructor; [|constructor; [|constructor]].
  - exists 1, 0. cbn [fst snd]. rewrite cos_0, sin_0. split; [exact V1|]. split; [exact V0|]. split; apply Z.
  - exists 0, 1. cbn [fst snd]. rewrite cos_PI2, sin_PI2. split; [exact V0|]. split; [exact V1|]. split; apply Z.
Qed.
Lemma touching_ex : exists r1 r2 : ring f64, r_inc r2 = r_inc r1 /\ r_tilt r2 = r_tilt r1 /\ r_in r2 = r_out r1 /\ r_in r1 <> r_out r2.
Proof.
  exists ex_ring, (mkRing (fz 2) (fz 3) (fz 0) (fz 45) (fz 30)). cbn [r_in r_out r_inc r_tilt ex_ring]. repeat split.
  intros H. assert (V1 : f64_val (fz 1) = XFin 1) by (apply (of_Z 1); lia). assert (V3 : f64_val (fz 3) = XFin 3) by (apply (of_Z 3); lia). rewrite H, V3 in V1. injection V1. lra.
Qed.
