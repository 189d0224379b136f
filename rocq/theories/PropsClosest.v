(** C98: the closest grid point in binary64. *)
From Coq Require Import ZArith Reals List Bool.
From Flocq Require Import Core BinarySingleNaN.
From Verif Require Import Num Py Ring GridParams GridProp SpecProp Build SpecBuild Shallot ShallotOps SpecOps OpsExP SpecGrad SpecAxis SpecFit SpecClosest ClosestF64P ClosestExP.
Import ListNotations.
Local Open Scope R_scope.
Local Open Scope list_scope.

(** C98.  The point returned is, up to eight roundings, no further than any other point in a row clearly on the side of the
    impact parameter, plus two steps between rows. *)
Theorem C98_near (E : env f64) (s s' : shallot f64) n lo hi v1 v2 v3 v4 m c y x q d r i t b a y' x' q' a' : sreach E s -> rows_ok s n lo hi ->
  determine_closest v1 v2 v3 v4 (PBool m) s = (s', Ok (c, (y, x, q), d)) ->
  f64_val (num_of v1) = XFin r -> f64_val (num_of v2) = XFin i -> f64_val (num_of v3) = XFin t -> f64_val (num_of v4) = XFin b -> Forall (sized 200) [r; i; t; b] ->
  disk_at s m y x q a -> disk_at s m y' x' q' a' -> on_side (row_step n lo hi) b (snd a') ->
  (1 - bpow radix2 (-53)) ^ 8 * gap a (r, i, t, b) <= gap a' (r, i, t, b) + 2 * row_step n lo hi.
Proof. exact (@closest64 E s s' n lo hi v1 v2 v3 v4 m c y x q d r i t b a y' x' q' a'). Qed.
Print Assumptions C98_near.
(** the distance returned is off by at most four roundings and one step, never too small by more; in a row clearly on the
    side of the impact parameter never too large by more *)
Theorem C98_reported (E : env f64) (s s' : shallot f64) n lo hi v1 v2 v3 v4 m c y x q d r i t b a : sreach E s -> rows_ok s n lo hi ->
  determine_closest v1 v2 v3 v4 (PBool m) s = (s', Ok (c, (y, x, q), d)) ->
  f64_val (num_of v1) = XFin r -> f64_val (num_of v2) = XFin i -> f64_val (num_of v3) = XFin t -> f64_val (num_of v4) = XFin b -> Forall (sized 200) [r; i; t; b] ->
  disk_at s m y x q a ->
  exists e g, f64_val d = XFin e /\ agrees 4 e g /\ gap a (r, i, t, b) <= g + row_step n lo hi /\ (on_side (row_step n lo hi) b (snd a) -> Rabs (g - gap a (r, i, t, b)) <= row_step n lo hi).
Proof. exact (@reported64 E s s' n lo hi v1 v2 v3 v4 m c y x q d r i t b a). Qed.
Print Assumptions C98_reported.
(** for points merely not on the other side of the star the bound fails: rows on the axis are passed over *)
Theorem C98_axis_refuted : ~ (forall (E : env f64) s s' n lo hi v1 v2 v3 v4 m c y x q d r i t b a y' x' q' a', sreach E s -> rows_ok s n lo hi ->
  determine_closest v1 v2 v3 v4 (PBool m) s = (s', Ok (c, (y, x, q), d)) ->
  f64_val (num_of v1) = XFin r -> f64_val (num_of v2) = XFin i -> f64_val (num_of v3) = XFin t -> f64_val (num_of v4) = XFin b -> Forall (sized 200) [r; i; t; b] ->
  disk_at s m y x q a -> disk_at s m y' x' q' a' -> 0 <= b * snd a' ->
  (1 - bpow radix2 (-53)) ^ 8 * gap a (r, i, t, b) <= gap a' (r, i, t, b) + 2 * row_step n lo hi).
Proof. exact axis_refuted. Qed.
Print Assumptions C98_axis_refuted.
Example C98_ex : exists s s' c d a a', sreach env2 s /\ rows_ok s 3 (-1) 1 /\ determine_closest (PInt 5) (PInt 30) (PInt 80) (PInt 1) (PBool false) s = (s', Ok (c, (2%nat, 2%nat, 2%nat), d)) /\
  Forall (sized 200) [5; 30; 80; 1] /\ disk_at s false 2 2 2 a /\ disk_at s false 2 2 1 a' /\ on_side (row_step 3 (-1) 1) 1 (snd a').
Proof. exact closest_ex. Qed.
