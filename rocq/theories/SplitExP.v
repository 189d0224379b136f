(** A system of two rings for which splitting and merging in binary64 is known. *)
From Coq Require Import ZArith Reals Lra Lia List Bool String.
From Flocq Require Import Core BinarySingleNaN.
From Verif Require Import Num NumP BuildFP Py SpecNum Ring RingSystem SpecRing SpecSplit Round64P GeomF64P SplitF64P.
Import ListNotations.
Local Open Scope R_scope.
Local Notation B := (bpow radix2).

Definition sz (z : Z) : f64 := n_ofZ z.
Definition ex_in : ring f64 := mkRing (sz 1) (sz 2) (sz 1) (sz 45) (sz 30).
Definition ex_out : ring f64 := mkRing (sz 2) (sz 4) (sz 0) (sz 45) (sz 30).
Definition ex_heap : list (ring f64) := [ex_in; ex_out].
Definition ex_sys : rsys f64 := mkSys (sz 1) (sz 45) (sz 30) [0%nat; 1%nat].
Definition ex_nd : pyval f64 := PArr "int64" [2%nat] [SI 2; SI 3].

Lemma sz_val z : (Z.abs z <= 2 ^ 53)%Z -> f64_val (sz z) = XFin (IZR z). Proof. apply of_Z. Qed.
Local Ltac vals := unfold ex_in, ex_out, ex_sys; cbn [r_in r_out r_tr r_inc r_tilt s_inc s_tilt]; rewrite ?sz_val by (cbn; lia).
Local Ltac small := change (val (T := f64)) with f64_val; vals; first [cbn; lra|exact I|left; cbn; lra|right; split; [reflexivity|discriminate]].
Lemma tiny : 16 * half_ulp1 * 4 + B (-990) <= / 3.
Proof.
  assert (U : half_ulp1 <= / 1024). { change (/ 1024) with (B (-10)). apply bpow_le. lia. }
  assert (V : B (-990) <= / 1024). { change (/ 1024) with (B (-10)). apply bpow_le. lia. } lra.
Qed.
Lemma sys_ex : good_sys ex_heap ex_sys /\ valid_divisions 2 ex_nd [2%Z; 3%Z] /\
  (forall r d, In (r, d) (List.combine (rings_of ex_heap ex_sys) [2%Z; 3%Z]) -> wide r d) /\
  f64_val (sz 1) = XFin 1 /\ s_rings ex_sys <> [] /\
  (forall r o, In r (rings_of ex_heap ex_sys) -> f64_val (r_out r) = XFin o -> 14 * half_ulp1 * o + B (-990) < 1) /\
  (forall r, In r (rings_of ex_heap ex_sys) -> not_nan (r_tr r)) /\
  (forall l1 a b l2, rings_of ex_heap ex_sys = (l1 ++ a :: b :: l2)%list -> f64_val (r_tr b) <> f64_val (r_tr a)).
Proof.
  assert (R : rings_of ex_heap ex_sys = [ex_in; ex_out]) by reflexivity. rewrite R. assert (T := tiny). assert (U : 0 < half_ulp1) by apply bpow_gt_0. assert (V : 0 < B (-990)) by apply bpow_gt_0.
  assert (O : 4 <= B 1000) by (change 4 with (B 2); apply bpow_le; lia).
  split; [|split; [|split; [|split; [|split; [|split; [|split]]]]]].
  - split; [|split].
    + split; right; split; small.
    + intros l [<-|[<-|[]]]; cbn; lia.
    + intros l [<-|[<-|[]]]; cbn [deref nth ex_heap]; (split; [split; [|split]|right; split]); small.
  - right. split; [reflexivity|]. split; [reflexivity|]. constructor; [lia|]. constructor; [lia|constructor].
  - intros r d [E|[E|[]]]; injection E as <- <-.
    + exists 1, 2. vals. split; [reflexivity|]. split; [reflexivity|]. split; lra.
    + exists 2, 4. vals. split; [reflexivity|]. split; [reflexivity|]. split; lra.
  - apply sz_val. cbn. lia.
  - discriminate.
  - intros r o [<-|[<-|[]]]; vals; intros E; injection E as <-; lra.
  - intros r [<-|[<-|[]]]; unfold not_nan; change (val (T := f64)) with f64_val; vals; discriminate.
  - intros [|x l1] a b l2 E; [injection E as <- <- _|].
    + vals. intros H. injection H. lra.
    + exfalso. apply (f_equal (@List.length _)) in E. cbn in E. rewrite app_length in E. cbn in E. lia.
Qed.
