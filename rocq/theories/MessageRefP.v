(** Texts that mislead, in binary64. *)
From Coq Require Import ZArith Reals List Bool String Ascii Lia Lra.
From Flocq Require Import Core BinarySingleNaN.
From Verif Require Import Num Py Validate Ring RingSystem Fmt Text Message NumP SpecNum ValidateP RingP FmtP
  SpecFmt SpecText TextRingP SpecMsg MessageP MessageSpecP MessageRingP MessageExP.
Import ListNotations.
Set Implicit Arguments.
Local Open Scope string_scope.

Definition quot (m n : Z) : f64 := n_div (n_ofZ m) (n_ofZ n).
(** a number that is rejected as too low, and a text that demands less than it *)
Definition tiny_v : f64 := quot 1 100000.
Definition tiny_lo : f64 := quot 2 100000.
Definition text_is (x : option string) (t : string) : bool := match x with Some s => String.eqb s t | None => false end.
Definition err_text A (x : mres A) : option string := match x with MErr ValueError t => t | _ => None end.
Lemma err_is A (x : mres A) t : text_is (err_text x) t = true -> x = MErr ValueError (Some t).
Proof.
  destruct x as [a|[] [s|]]; cbn; try discriminate. intros H. apply String.eqb_eq in H. rewrite H. reflexivity.
Qed.
Lemma tiny_rejected : number_m fmt_fixed "x" (PFloat tiny_v) false (PFloat tiny_lo) p_inf false =
  MErr ValueError (Some "The x argument must be greater than or equal to 0.0000").
Proof. apply err_is. vm_compute. exact eq_refl. Qed.
Lemma lt_f64 (a b : f64) : n_lt a b = true -> xlt (val a) (val b).
Proof. intros H. rewrite l_lt in H. apply x_lt_iff, H. Qed.
Lemma tiny_positive : xlt (XFin 0) (val tiny_v).
Proof.
  assert (H : xlt (val (n_zero : f64)) (val tiny_v)).
  { apply lt_f64. vm_compute. exact eq_refl. }
  rewrite val_zero in H. exact H.
Qed.
(** the number printed in the text *)
Theorem printed_bound_refuted :
  ~ (forall (v lo : f64) name w n, read_number w = Some (false, n, 4) ->
     number_m fmt_fixed name (PFloat v) false (PFloat lo) p_inf false =
       MErr ValueError (Some ("The " ++ name ++ " argument must be " ++ at_least false w)) ->
     xlt (val v) (XFin (IZR n / 10000))).
Proof.
  intros H. specialize (H tiny_v tiny_lo "x" "0.0000" 0%Z eq_refl tiny_rejected).
  replace (IZR 0 / 10000)%R with 0%R in H by lra. apply (@xlt_irrefl (XFin 0)). eapply xlt_trans; [exact tiny_positive | exact H].
Qed.

(** overlapping rings whose text shows two equal radii; touching rings, which the text forbids, are accepted *)
Definition ring_of (i o : f64) : ring f64 := mkRing i o n_one n_zero n_zero.
Definition sys0 (l : list nat) : rsys f64 := mkSys n_one n_zero n_zero l.
Definition h0 : list (ring f64) := [ring_of n_one (quot 2002 1000); ring_of (quot 2001 1000) (n_ofZ 3); ring_of (quot 2002 1000) (n_ofZ 3)].
Lemma overlap_equal : snd (add_ring_m fmt_fixed h0 (sys0 [0]) (PInt 1) (PObj "Ring" 1)) =
  MErr ValueError (Some "Ring must have an inner radius (2.00) > the preceding ring's outer radius (2.00)").
Proof. apply err_is. vm_compute. exact eq_refl. Qed.
Lemma touching_accepted : snd (add_ring_m fmt_fixed h0 (sys0 [0]) (PInt 1) (PObj "Ring" 2)) = MOk tt.
Proof. vm_compute. exact eq_refl. Qed.
Theorem overlap_text_refuted :
  ~ (forall (h : list (ring f64)) (s : rsys f64) (index rg : pyval f64) a b,
     snd (add_ring_m fmt_fixed h s index rg) = MErr ValueError (Some ("Ring must have an inner radius (" ++ a ++ ") > the preceding ring's outer radius (" ++ b ++ ")")) ->
     a <> b).
Proof. intros H. specialize (H h0 (sys0 [0]) (PInt 1) (PObj "Ring" 1) "2.00" "2.00" overlap_equal). apply H. reflexivity. Qed.
(** "must be >": a ring whose inner radius is not greater than its predecessor's outer one *)
Theorem demand_refuted :
  ~ (forall (h : list (ring f64)) (s : rsys f64) (index : pyval f64) l p, neighbour h s index (-1) p ->
     snd (add_ring_m fmt_fixed h s index (PObj "Ring" l)) = MOk tt -> xlt (val (r_out p)) (val (r_in (deref h l)))).
Proof.
  intros H. specialize (H h0 (sys0 [0]) (PInt 1) 2 (deref h0 0)).
  apply (@xlt_irrefl (val (quot 2002 1000))). apply H; [|exact touching_accepted].
  exists 1%Z, 0. split; [reflexivity|]. split; [lia|]. split; reflexivity.
Qed.
(** the bound as printed *)
Theorem bound_written (b : pyval f64) : numberlike b -> small b ->
  val (num_of b) = value b /\ writes 4 (num_of b) (f4 fmt_fixed b).
Proof.
  intros Nb Sb. destruct (proj1 (num_scal_of b) Nb) as [q Eq]. destruct (scal_of_value _ Eq) as [Vq Sq]. split.
  - unfold num_of. rewrite Eq, (@num_scal_value f64 _ _ q (Sq Sb)). exact Vq.
  - apply writes_fmt.
Qed.
