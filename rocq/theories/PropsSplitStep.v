(** C107: splitting rings in two steps. *)
From Coq Require Import ZArith Reals List.
From Verif Require Import Num Py SpecNum Ring RingSystem SpecRing RingSplitP RingMoreP SplitStepP.
Import ListNotations.

(** C107.  In exact arithmetic splitting every ring in m and the ringlets in n gives the rings that splitting in m n gives at once ... *)
Theorem C107_steps (h : list (ring xr)) s m n : good_sys h s -> (2 <= m)%Z -> (2 <= n)%Z ->
  exists h1 s1 h2 s2 h3 s3, split_rings h s (PInt m) = (h1, s1, Ok tt) /\ split_rings h1 s1 (PInt n) = (h2, s2, Ok tt) /\
    split_rings h s (PInt (m * n)) = (h3, s3, Ok tt) /\ rings_of h2 s2 = rings_of h3 s3.
Proof. exact (@split_steps h s m n). Qed.
Print Assumptions C107_steps.
(** ... in binary64 it need not: the ring from 1 to 2 in thirds and then halves, or in sixths *)
Theorem C107_steps_refuted : exists (h : list (ring f64)) s h1 s1 h2 s2 h3 s3 a b, good_sys h s /\
  split_rings h s (PInt 3) = (h1, s1, Ok tt) /\ split_rings h1 s1 (PInt 2) = (h2, s2, Ok tt) /\ split_rings h s (PInt 6) = (h3, s3, Ok tt) /\
  hd_error (get_outer_radii h2 s2) = Some a /\ hd_error (get_outer_radii h3 s3) = Some b /\ xlt (val a) (val b).
Proof. exact split_steps_f64. Qed.
Print Assumptions C107_steps_refuted.
Example C107_ex : good_sys x_heap x_sys /\ (2 <= 3)%Z /\ (2 <= 2)%Z.
Proof. exact split_steps_ex. Qed.
