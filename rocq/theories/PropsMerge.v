(** C106: merging rings in several steps. *)
From Coq Require Import ZArith Reals List.
From Verif Require Import Num Py SpecNum Ring RingSystem SpecRing RingMoreP SpecMerge MergeStepP MergeStepExP MergeGapP.
Import ListNotations.

(** C106.  Merging with one tolerance and then with a larger one gives the rings that merging with the larger one gives at once. *)
Theorem C106_steps {T} {NT : Num T} {LT : NumLaws T} (h : list (ring T)) s (t1 t2 : T) :
  good_sys h s -> ordered (rings_of h s) -> s_rings s <> [] -> (forall r, In r (rings_of h s) -> not_nan (r_tr r)) ->
  xlt (XFin 0) (val t1) -> xle (val t1) (val t2) ->
  exists h1 s1 h2 s2 h3 s3, merge_rings h s t1 = (h1, s1, Ok tt) /\ merge_rings h1 s1 t2 = (h2, s2, Ok tt) /\
    merge_rings h s t2 = (h3, s3, Ok tt) /\ rings_of h2 s2 = rings_of h3 s3.
Proof. exact (@merge_steps T NT LT h s t1 t2). Qed.
Print Assumptions C106_steps.
(** merging afterwards with a smaller tolerance changes nothing *)
Theorem C106_back {T} {NT : Num T} {LT : NumLaws T} (h : list (ring T)) s (t1 t2 : T) :
  good_sys h s -> ordered (rings_of h s) -> s_rings s <> [] -> (forall r, In r (rings_of h s) -> not_nan (r_tr r)) ->
  xlt (XFin 0) (val t1) -> xle (val t1) (val t2) ->
  exists h1 s1 h2 s2, merge_rings h s t2 = (h1, s1, Ok tt) /\ merge_rings h1 s1 t1 = (h2, s2, Ok tt) /\ rings_of h2 s2 = rings_of h1 s1.
Proof. exact (@merge_back T NT LT h s t1 t2). Qed.
Print Assumptions C106_back.
(** a larger tolerance leaves no more rings than a smaller one, and neither more than there were *)
Theorem C106_fewer {T} {NT : Num T} {LT : NumLaws T} (h : list (ring T)) s (t1 t2 : T) h1 s1 h2 s2 :
  good_sys h s -> ordered (rings_of h s) -> s_rings s <> [] -> (forall r, In r (rings_of h s) -> not_nan (r_tr r)) ->
  xlt (XFin 0) (val t1) -> xle (val t1) (val t2) ->
  merge_rings h s t1 = (h1, s1, Ok tt) -> merge_rings h s t2 = (h2, s2, Ok tt) ->
  List.length (s_rings s2) <= List.length (s_rings s1) <= List.length (s_rings s).
Proof. exact (fun A B C D E F => @merge_fewer T NT LT h s t1 t2 A B C D E F h1 s1 h2 s2). Qed.
Print Assumptions C106_fewer.
(** no two neighbours that are left could be merged *)
Theorem C106_apart {T} {NT : Num T} {LT : NumLaws T} (h : list (ring T)) s (tol : T) h1 s1 l1 a b l2 :
  good_sys h s -> ordered (rings_of h s) -> s_rings s <> [] -> (forall r, In r (rings_of h s) -> not_nan (r_tr r)) ->
  xlt (XFin 0) (val tol) -> merge_rings h s tol = (h1, s1, Ok tt) -> rings_of h1 s1 = (l1 ++ a :: b :: l2)%list ->
  ~ (xlt (val (n_abs (r_in b - r_out a)%num)) (val tol) /\ val (r_tr a) = val (r_tr b) /\ not_nan (r_tr a)).
Proof. exact (fun A B C D E => @merge_apart T NT LT h s tol A B C D E h1 s1 l1 a b l2). Qed.
Print Assumptions C106_apart.
(** over the reals, merging n rings adds at most n - 1 times the tolerance to what they cover ... *)
Theorem C106_closed (h : list (ring xr)) s t h1 s1 :
  good_sys h s -> ordered (rings_of h s) -> s_rings s <> [] -> (forall r, In r (rings_of h s) -> not_nan (r_tr r)) ->
  (0 < t)%R -> merge_rings h s (XFin t) = (h1, s1, Ok tt) ->
  (covered (rings_of h1 s1) <= covered (rings_of h s) + INR (List.length (s_rings s) - 1) * t)%R.
Proof. exact (@merge_closed h s t h1 s1). Qed.
Print Assumptions C106_closed.
(** ... but it may add more than the tolerance *)
Theorem C106_closed_refuted : exists (h : list (ring f64)) s tol t h1 s1,
  good_sys h s /\ ordered (rings_of h s) /\ (forall r, In r (rings_of h s) -> not_nan (r_tr r)) /\
  f64_val tol = XFin t /\ merge_rings h s tol = (h1, s1, Ok tt) /\ (covered (rings_of h s) + t < covered (rings_of h1 s1))%R.
Proof. exact gap_witness. Qed.
Print Assumptions C106_closed_refuted.
Example C106_ex_closed : good_sys real_heap real_sys /\ ordered (rings_of real_heap real_sys) /\ s_rings real_sys <> [] /\
  (forall r, In r (rings_of real_heap real_sys) -> not_nan (r_tr r)) /\ (0 < 3)%R /\ (exists h1 s1, merge_rings real_heap real_sys (XFin 3) = (h1, s1, Ok tt)).
Proof. exact real_ex. Qed.
(** three rings of one transmission, two of which touch *)
Example C106_ex : good_sys ex_heap step_sys /\ ordered (rings_of ex_heap step_sys) /\ s_rings step_sys <> [] /\
  (forall r, In r (rings_of ex_heap step_sys) -> not_nan (r_tr r)) /\ xlt (XFin 0) (val (fz 1)) /\ xle (val (fz 1)) (val (fz 4)) /\
  num_rings (snd (fst (merge_rings ex_heap step_sys (fz 1)))) = 2%Z /\ num_rings (snd (fst (merge_rings ex_heap step_sys (fz 4)))) = 1%Z.
Proof. exact step_ex. Qed.
