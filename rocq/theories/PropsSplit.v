(** C105: splitting and merging rings in binary64. *)
From Coq Require Import ZArith Reals List String.
From Flocq Require Import Core.
From Verif Require Import Num Py SpecNum Ring RingSystem SpecRing SpecSplit SplitSysP SplitGapP SplitExP.
Import ListNotations.
Local Open Scope R_scope.

(** C105.  When the pieces are wide compared with the rounding of the radii, splitting succeeds and replaces every ring by as
    many rings as asked, of its transmission; the first one begins where the ring does, and the radii of all are those of equal
    pieces up to 8 half ulps of the outer radius. *)
Theorem C105_split (h : list (ring f64)) (s : rsys f64) (nd : pyval f64) (ds : list Z) :
  good_sys h s -> valid_divisions (List.length (s_rings s)) nd ds ->
  (forall r d, In (r, d) (List.combine (rings_of h s) ds) -> wide r d) ->
  exists h' s', split_rings h s nd = (h', s', Ok tt) /\ exists parts, rings_of h' s' = List.concat parts /\
    Forall2 (fun rd l => even_pieces (fst rd) (snd rd) l) (List.combine (rings_of h s) ds) parts.
Proof. exact (@split64 h s nd ds). Qed.
Print Assumptions C105_split.
(** merging the pieces, with a tolerance above 14 half ulps of the outer radii, brings every ring back: its inner radius and
    transmission exactly, its outer radius up to rounding *)
Theorem C105_merge (h : list (ring f64)) (s : rsys f64) (nd : pyval f64) (ds : list Z) (tol : f64) t :
  good_sys h s -> valid_divisions (List.length (s_rings s)) nd ds ->
  (forall r d, In (r, d) (List.combine (rings_of h s) ds) -> wide r d) ->
  f64_val tol = XFin t -> s_rings s <> [] ->
  (forall r o, In r (rings_of h s) -> f64_val (r_out r) = XFin o -> 14 * half_ulp1 * o + bpow radix2 (-990) < t) ->
  (forall r, In r (rings_of h s) -> not_nan (r_tr r)) ->
  (forall l1 a b l2, rings_of h s = (l1 ++ a :: b :: l2)%list -> f64_val (r_tr b) <> f64_val (r_tr a)) ->
  exists h' s' h2 s2, split_rings h s nd = (h', s', Ok tt) /\ merge_rings h' s' tol = (h2, s2, Ok tt) /\ Forall2 restored (rings_of h s) (rings_of h2 s2).
Proof. exact (fun A C D => @merge64 h s nd ds A C D tol t). Qed.
Print Assumptions C105_merge.
(** the pieces need not touch (C14_split_ordered_refuted), but gaps and overlaps stay below 13 half ulps of the outer radius, and the
    last piece ends where the ring does up to 8 *)
Theorem C105_gaps (r : ring f64) (d : Z) (l : list (ring f64)) : (1 <= d)%Z -> even_pieces r d l ->
  (forall k p q, nth_error l k = Some p -> nth_error l (S k) = Some q ->
     exists o b a, f64_val (r_out r) = XFin o /\ f64_val (r_out p) = XFin b /\ f64_val (r_in q) = XFin a /\ Rabs (a - b) <= 13 * half_ulp1 * o + 2 * bpow radix2 (-1000)) /\
  (forall p, nth_error l (List.length l - 1) = Some p ->
     exists o b, f64_val (r_out r) = XFin o /\ f64_val (r_out p) = XFin b /\ Rabs (b - o) <= 8 * half_ulp1 * o + bpow radix2 (-1000)).
Proof. exact (fun Hd H => conj (fun k p q => @pieces_gap r d l k p q H) (fun p => @pieces_end r d l p Hd H)). Qed.
Print Assumptions C105_gaps.
(** two touching rings, cut in halves and in thirds *)
Example C105_ex : good_sys ex_heap ex_sys /\ valid_divisions 2 ex_nd [2%Z; 3%Z] /\
  (forall r d, In (r, d) (List.combine (rings_of ex_heap ex_sys) [2%Z; 3%Z]) -> wide r d) /\
  f64_val (n_ofZ 1) = XFin 1 /\ s_rings ex_sys <> [] /\
  (forall r o, In r (rings_of ex_heap ex_sys) -> f64_val (r_out r) = XFin o -> 14 * half_ulp1 * o + bpow radix2 (-990) < 1) /\
  (forall r, In r (rings_of ex_heap ex_sys) -> not_nan (r_tr r)) /\
  (forall l1 a b l2, rings_of ex_heap ex_sys = (l1 ++ a :: b :: l2)%list -> f64_val (r_tr b) <> f64_val (r_tr a)).
Proof. exact sys_ex. Qed.
