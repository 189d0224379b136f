(** Splitting rings in two steps. *)
From Coq Require Import ZArith Reals List Bool Lra Lia.
From Verif Require Import Num NumP Py Validate SpecNum ValidateP Ring RingSystem SpecRing RingP RingSystemP RingOrderP RingMergeP RingSplitP RingMoreP.
Import ListNotations.

Lemma seq_add a n : forall k, seq (a + k) n = map (Nat.add a) (seq k n).
Proof. induction n as [|n IH]; intros k; [reflexivity|]. cbn [seq map]. f_equal. rewrite <- IH. f_equal. lia. Qed.
Lemma seq_mul N : forall M, seq 0 (M * N) = flat_map (fun k => map (fun j => k * N + j) (seq 0 N)) (seq 0 M).
Proof.
  induction M as [|M IH]; [reflexivity|]. rewrite seq_S, flat_map_app, <- IH. replace (S M * N) with (M * N + N) by lia. rewrite seq_app. f_equal. cbn [flat_map]. rewrite app_nil_r.
  cbn [plus]. rewrite <- (Nat.add_0_r (M * N)) at 1. rewrite seq_add. reflexivity.
Qed.

Section S.
Variables (inc tilt : xr).
Let tri := triple_ring inc tilt.
Definition cut (d : Z) (rs : list (ring xr)) : list (ring xr) := flat_map (fun r => map tri (ringlets r d)) rs.
Lemma cut_parts d rs : List.concat (split_list inc tilt rs (repeat d (List.length rs))) = cut d rs.
Proof. unfold split_list, cut. induction rs as [|r rs IH]; [reflexivity|]. cbn. now rewrite IH. Qed.
Lemma ringlet_twice (r : ring xr) m n k j : good_ring r -> (1 <= m)%Z -> (1 <= n)%Z -> k < Z.to_nat m ->
  tri (ringlet (tri (ringlet r m k)) n j) = tri (ringlet r (m * n) (k * Z.to_nat n + j)).
Proof.
  intros G Hm Hn Hk. destruct (good_fin G) as (a & b & Ha & Hb & Hab). rewrite (ringlet_xr r k Ha Hb Hm).
  assert (Hmn : (1 <= m * n)%Z) by nia. rewrite (ringlet_xr r _ Ha Hb Hmn). set (q := tri (_, _, r_tr r)). assert (Qi : r_in q = XFin (a + INR k * ((b - a) / IZR m))) by reflexivity. assert (Qo : r_out q = XFin (a + INR (S k) * ((b - a) / IZR m))) by reflexivity.
  rewrite (ringlet_xr q j Qi Qo Hn).
  assert (M : (IZR m <> 0)%R) by (apply not_0_IZR; lia). assert (N : (IZR n <> 0)%R) by (apply not_0_IZR; lia).
  assert (E : INR (Z.to_nat n) = IZR n) by (rewrite INR_IZR_INZ; f_equal; lia).
  unfold tri, triple_ring. cbn [fst snd r_tr]. unfold q. cbn [tri triple_ring fst snd r_tr]. f_equal; f_equal; rewrite ?S_INR, plus_INR, mult_INR, E, mult_IZR; field; auto.
Qed.
Lemma cut_one (r : ring xr) m n : good_ring r -> (1 <= m)%Z -> (1 <= n)%Z -> cut n (map tri (ringlets r m)) = map tri (ringlets r (m * n)).
Proof.
  intros G Hm Hn. unfold ringlets at 2. rewrite Z2Nat.inj_mul, seq_mul by lia. unfold cut, ringlets at 2. rewrite map_map.
  assert (F : forall k, In k (seq 0 (Z.to_nat m)) -> k < Z.to_nat m) by (intros k Hk; apply in_seq in Hk; lia).
  induction (seq 0 (Z.to_nat m)) as [|k l IH]; [reflexivity|]. cbn [map flat_map]. rewrite !map_app. f_equal.
  - unfold ringlets. rewrite !map_map. apply map_ext. intros j. apply ringlet_twice; auto. apply F. now left.
  - apply IH. intros; apply F; now right.
Qed.
Lemma cut_twice m n rs : (forall r, In r rs -> good_ring r) -> (1 <= m)%Z -> (1 <= n)%Z -> cut n (cut m rs) = cut (m * n) rs.
Proof.
  intros G Hm Hn. induction rs as [|r rs IH]; [reflexivity|]. unfold cut at 2 3. cbn [flat_map]. unfold cut at 1. rewrite flat_map_app. f_equal.
  - apply cut_one; auto. apply G. now left.
  - apply IH. intros; apply G; now right.
Qed.
End S.

Lemma by_int (n : nat) (d : Z) : (2 <= d)%Z -> valid_divisions (T := xr) n (PInt d) (repeat d n).
Proof. intros H. left. split; [constructor|]. split; [exact H|reflexivity]. Qed.
Lemma split_cut (h : list (ring xr)) s d : good_sys h s -> (2 <= d)%Z -> exists h' s', split_rings h s (PInt d) = (h', s', Ok tt) /\ good_sys h' s' /\
  s_inc s' = s_inc s /\ s_tilt s' = s_tilt s /\ rings_of h' s' = cut (s_inc s) (s_tilt s) d (rings_of h s).
Proof.
  intros Hs Hd. destruct (split_exact Hs (by_int (List.length (s_rings s)) d Hd)) as (h' & s' & parts & E & R & _ & G & Ep & Eh & Es).
  exists h', s'. split; [exact E|]. split; [|subst s'; split; [reflexivity|]; split; [reflexivity|]].
  - split; [subst s'; exact (proj1 Hs)|]. split.
    + intros l Hl. subst s' h'. cbn in Hl. apply in_seq in Hl. rewrite app_length. lia.
    + intros l Hl. apply G. unfold rings_of. now apply in_map.
  - rewrite R, Ep. replace (List.length (s_rings s)) with (List.length (rings_of h s)) by (unfold rings_of; apply map_length). apply cut_parts.
Qed.
Theorem split_steps (h : list (ring xr)) s m n : good_sys h s -> (2 <= m)%Z -> (2 <= n)%Z ->
  exists h1 s1 h2 s2 h3 s3, split_rings h s (PInt m) = (h1, s1, Ok tt) /\ split_rings h1 s1 (PInt n) = (h2, s2, Ok tt) /\
    split_rings h s (PInt (m * n)) = (h3, s3, Ok tt) /\ rings_of h2 s2 = rings_of h3 s3.
Proof.
  intros Hs Hm Hn. destruct (split_cut h s m Hs Hm) as (h1 & s1 & E1 & G1 & I1 & T1 & R1). destruct (split_cut h1 s1 n G1 Hn) as (h2 & s2 & E2 & _ & _ & _ & R2).
  destruct (split_cut h s (m * n) Hs ltac:(nia)) as (h3 & s3 & E3 & _ & _ & _ & R3).
  exists h1, s1, h2, s2, h3, s3. split; [exact E1|]. split; [exact E2|]. split; [exact E3|]. rewrite R2, R3, R1, I1, T1. apply cut_twice; [|lia|lia]. intros r Hr. eapply good_sys_rings; [exact Hs|exact Hr].
Qed.

(** in binary64: from 1 to 2 in thirds and halves, and in sixths *)
Definition step_b : bool :=
  let h := fst (one_ring (fz 1) (fz 2)) in let s := snd (one_ring (fz 1) (fz 2)) in
  match split_rings h s (PInt 3), split_rings h s (PInt 6) with
  | (h1, s1, Ok _), (h3, s3, Ok _) =>
    match split_rings h1 s1 (PInt 2) with
    | (h2, s2, Ok _) => match get_outer_radii h2 s2, get_outer_radii h3 s3 with a :: _, b :: _ => n_lt a b | _, _ => false end
    | _ => false end
  | _, _ => false end.
Lemma step_b_true : step_b = true. Proof. vm_compute. reflexivity. Qed.
Theorem split_steps_f64 : exists (h : list (ring f64)) s h1 s1 h2 s2 h3 s3 a b, good_sys h s /\
  split_rings h s (PInt 3) = (h1, s1, Ok tt) /\ split_rings h1 s1 (PInt 2) = (h2, s2, Ok tt) /\ split_rings h s (PInt 6) = (h3, s3, Ok tt) /\
  hd_error (get_outer_radii h2 s2) = Some a /\ hd_error (get_outer_radii h3 s3) = Some b /\ xlt (val a) (val b).
Proof.
  assert (G : good_sys (fst (one_ring (fz 1) (fz 2))) (snd (one_ring (fz 1) (fz 2)))).
  { split; [|split; intros l Hl; cbn in Hl; destruct Hl as [<-|[]]; [cbn; lia|apply (@fz_good 1 2 1); lia]].
    split; right; cbn [s_inc s_tilt snd one_ring]; rewrite val_zero; split; first [left; cbn; lra|right; split; [reflexivity|discriminate]]. }
  pose proof step_b_true as K. unfold step_b in K. cbv zeta in K.
  set (h := fst (one_ring (fz 1) (fz 2))) in *. set (s := snd (one_ring (fz 1) (fz 2))) in *. clearbody h s.
  destruct (split_rings h s (PInt 3)) as [[h1 s1] [[]|]] eqn:E1; [|discriminate]. destruct (split_rings h s (PInt 6)) as [[h3 s3] [[]|]] eqn:E3; [|discriminate].
  destruct (split_rings h1 s1 (PInt 2)) as [[h2 s2] [[]|]] eqn:E2; [|discriminate].
  destruct (get_outer_radii h2 s2) as [|a la] eqn:A; [discriminate|]. destruct (get_outer_radii h3 s3) as [|b lb] eqn:B; [discriminate|].
  exists h, s, h1, s1, h2, s2, h3, s3, a, b. rewrite A, B. repeat (split; [solve [auto]|]). now apply nlt_iff.
Qed.
Lemma split_steps_ex : good_sys x_heap x_sys /\ (2 <= 3)%Z /\ (2 <= 2)%Z.
Proof. split; [exact x_good|]. split; lia. Qed.
