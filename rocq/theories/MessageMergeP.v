(** Texts of the errors of merging rings. *)
From Coq Require Import ZArith List Bool String.
From Verif Require Import Num Py SpecNum Message Ring RingSystem SpecRing SpecMsg SpecMsgGrid MessageSpecP MessageRingP MessageGridP MessageExP.
Import ListNotations.

Section P.
Context {T : Type} {NT : Num T} {LT : NumLaws T}.
Variable fmt : nat -> T -> string.
Lemma merge_text (h : list (ring T)) (s : rsys T) (tol : T) :
  (s_rings s = [] -> merge_rings_m fmt h s tol = (h, s, MErr IndexError None)) /\
  (forall r0 rs, rings_of h s = r0 :: rs ->
     reports (snd (merge_rings_m fmt h s tol)) (rings_checks fmt (s_inc s) (s_tilt s) (merge_loop tol (r0 :: rs) (r_in r0) (r_in r0) (r_tr r0)))).
Proof.
  split.
  - intros H. unfold merge_rings_m, rings_of. now rewrite H.
  - intros r0 rs H. apply first_checks. unfold merge_rings_m. rewrite H. assert (F := rings_follow fmt (s_inc s) (s_tilt s) (merge_loop tol (r0 :: rs) (r_in r0) (r_in r0) (r_tr r0))).
    destruct (make_rings_m fmt (s_inc s) (s_tilt s) _); [|exact F]. destruct (alloc h a). exact F.
Qed.
End P.
