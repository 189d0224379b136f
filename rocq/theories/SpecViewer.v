(** Specification vocabulary for the viewer. *)
From Coq Require Import ZArith List Bool String.
From Verif Require Import Num Py SpecNum FS GridParams GridProp SpecProp SpecGrid Viewer.
Import ListNotations.
Set Implicit Arguments.

Section S.
Context {T : Type} {NT : Num T}.

Definition scrolls (v : viewer T) (l : list bool) : viewer T := fold_left onscroll l v.

(** viewers of reachable properties, after any scroll events *)
Inductive vreach : viewer T -> Prop :=
  | vr_new ax axis p masked index frozen co p' v : preach p -> reachable (p_params p) ->
      new_viewer ax axis (EIs p) masked index frozen co = (p', Ok v) -> vreach v
  | vr_scroll v b : vreach v -> vreach (onscroll v b).

Definition num_slices (v : viewer T) : Z := Z.of_nat (List.length (v_slices v)).

(** one scroll event on a line of [n] slices *)
Definition clamp_move (n i : Z) (up : bool) : Z := Z.max 0 (Z.min (n - 1) (if up then i + 1 else i - 1)%Z).
Definition clamp_moves (n i : Z) (l : list bool) : Z := fold_left (clamp_move n) l i.

(** the slices visited: the first one and the one after each event *)
Fixpoint visited (n i : Z) (l : list bool) : list Z :=
  match l with [] => [i] | b :: l => i :: visited n (clamp_move n i b) l end.

(** [shown]: the points of the slices visited since the last slice without points *)
Definition since_empty {P} (pts : Z -> list P) (vis : list Z) (shown : list P) : Prop :=
  exists l1 l2, vis = l1 ++ l2 /\ (forall i, In i l2 -> pts i <> []) /\
    (l1 = [] \/ exists k i, l1 = k ++ [i] /\ pts i = []) /\ shown = List.concat (map pts l2).

(** accepted constructor arguments *)
Definition plain_index (n : Z) (v : pyval T) : Prop := index_ok n v /\ is_bool_v v = false.
End S.
