(** Three rings of one transmission, two of which touch: small tolerances join two, larger ones all. *)
From Coq Require Import ZArith Reals List Bool Lra Lia.
From Verif Require Import Num NumP Py SpecNum Ring RingSystem SpecRing RingP RingSystemP RingMoreP.
Import ListNotations.

Definition step_sys : rsys f64 := mkSys (fz 1) (fz 10) (fz 20) [0; 1; 3].
Lemma step_ex : good_sys ex_heap step_sys /\ ordered (rings_of ex_heap step_sys) /\ s_rings step_sys <> [] /\
  (forall r, In r (rings_of ex_heap step_sys) -> not_nan (r_tr r)) /\ xlt (XFin 0) (val (fz 1)) /\ xle (val (fz 1)) (val (fz 4)) /\
  num_rings (snd (fst (merge_rings ex_heap step_sys (fz 1)))) = 2%Z /\ num_rings (snd (fst (merge_rings ex_heap step_sys (fz 4)))) = 1%Z.
Proof.
  split; [|split; [|split; [|split; [|split; [|split; [|split]]]]]].
  - split; [exact ex_geo|]. split; [intros l Hl; cbn in Hl |- *; lia|]. intros l Hl. apply ex_rings_good. unfold deref. apply nth_In. cbn in Hl |- *. lia.
  - cbv [rings_of step_sys s_rings map deref ex_heap nth].
    constructor; [cbn [r_in r_out]; fzs; right; split; [reflexivity|discriminate]|].
    constructor; [cbn [r_in r_out]; fzs; left; cbn; lra|]. constructor.
  - discriminate.
  - intros r H. cbv [rings_of step_sys s_rings map deref ex_heap nth In] in H. unfold not_nan. destruct H as [<-|[<-|[<-|[]]]]; cbn [r_tr]; fzs; discriminate.
  - fzs. cbn. lra.
  - fzs. left. cbn. lra.
  - vm_compute. reflexivity.
  - vm_compute. reflexivity.
Qed.
