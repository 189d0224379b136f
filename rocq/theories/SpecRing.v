(** Specifications for rings and ring systems, independent of the code's algorithms. *)
From Coq Require Import ZArith Reals List Bool String.
From Verif Require Import Num Py SpecNum Ring RingSystem.
Import ListNotations.
Set Implicit Arguments.

Section S.
Context {T : Type} {NT : Num T} {LT : NumLaws T}.

Definition not_nan (x : T) : Prop := val x <> XNaN.
Definition ring_no_nan (r : ring T) : Prop :=
  not_nan (r_in r) /\ not_nan (r_out r) /\ not_nan (r_tr r) /\ not_nan (r_inc r) /\ not_nan (r_tilt r).

(** the documented ranges of a ring's attributes (Ring.py docstrings) *)
Definition ring_ranges (r : ring T) : Prop :=
  xlt (XFin 0) (val (r_in r)) /\ xlt (val (r_in r)) (val (r_out r)) /\ xlt (val (r_out r)) XPInf /\
  xle (XFin 0) (val (r_tr r)) /\ xle (val (r_tr r)) (XFin 1) /\
  xle (XFin 0) (val (r_inc r)) /\ xle (val (r_inc r)) (XFin 90) /\
  xle (XFin (-180)) (val (r_tilt r)) /\ xle (val (r_tilt r)) (XFin 180).

(** rings ordered outwards, none overlapping the next *)
Inductive ordered : list (ring T) -> Prop :=
  | ord_nil : ordered []
  | ord_one r : ordered [r]
  | ord_cons r s l : xle (val (r_out r)) (val (r_in s)) -> ordered (s :: l) -> ordered (r :: s :: l).

(** radius [x] lies in the (half open) annulus of ring [r] *)
Definition covers (r : ring T) (x : xr) : Prop := xle (val (r_in r)) x /\ xlt x (val (r_out r)).

(** a value inside [a, b], or NaN (validation lets NaN through) *)
Definition range_or_nan (a b : R) (x : T) : Prop :=
  val x = XNaN \/ (xle (XFin a) (val x) /\ xle (val x) (XFin b)).

(** radii as documented: 0 < inner < outer < infinity *)
Definition good_radii (r : ring T) : Prop :=
  xlt (XFin 0) (val (r_in r)) /\ xlt (val (r_in r)) (val (r_out r)) /\ xlt (val (r_out r)) XPInf.
Definition good_ring (r : ring T) : Prop := good_radii r /\ range_or_nan 0 1 (r_tr r).

(** the geometry of a system is one its constructor accepts *)
Definition geo_ok (s : rsys T) : Prop :=
  range_or_nan 0 90 (s_inc s) /\ range_or_nan (-180) 180 (s_tilt s).

(** all ring identities of the system are objects on the heap *)
Definition sys_wf (h : list (ring T)) (s : rsys T) : Prop := forall l, In l (s_rings s) -> l < List.length h.

(** [r] fits between its neighbours: it is not found to start before the end of [prev], nor to
    end after the start of [next] *)
Definition fits (prev next : option (ring T)) (r : ring T) : Prop :=
  (forall p, prev = Some p -> ~ xlt (val (r_in r)) (val (r_out p))) /\
  (forall q, next = Some q -> ~ xlt (val (r_in q)) (val (r_out r))).
(** entry before / at / after position [k] of a list *)
Definition before {A} (k : nat) (l : list A) : option A :=
  match k with O => None | S m => nth_error l m end.

(** the ring with the geometry of the system *)
Definition regeo (s : rsys T) (r : ring T) : ring T :=
  mkRing (r_in r) (r_out r) (r_tr r) (s_inc s) (s_tilt s).

(** histories: what a user can do with one system and the ring objects around it *)
Inductive op :=
  | OpNew (i o t inc tilt : pyval T)   (* ring = Ring(...) *)
  | OpAdd (index rg : pyval T) | OpRemove (index : pyval T) | OpReplace (index rg : pyval T)
  | OpSplit (nd : pyval T) | OpMerge (tol : T).
Definition do_op (st : list (ring T) * rsys T) (o : op) : list (ring T) * rsys T * res unit :=
  let (h, s) := st in
  match o with
  | OpNew i o t inc tilt =>
    match new_ring i o t inc tilt with Ok r => (h ++ [r], s, Ok tt) | Err e => (h, s, Err e) end
  | OpAdd i r => add_ring h s i r
  | OpRemove i => remove_ring h s i
  | OpReplace i r => replace_ring h s i r
  | OpSplit nd => split_rings h s nd
  | OpMerge tol => merge_rings h s tol
  end.
Definition do_ops (st : list (ring T) * rsys T) (l : list op) : list (ring T) * rsys T :=
  fold_left (fun st o => fst (do_op st o)) l st.

(** the ring objects named by an operation exist, and new rings have no NaN *)
Definition op_valid (h : list (ring T)) (o : op) : Prop :=
  match o with
  | OpAdd _ (PObj _ l) | OpReplace _ (PObj _ l) => l < List.length h
  | OpNew i o t inc tilt => forall r, new_ring i o t inc tilt = Ok r -> ring_no_nan r
  | _ => True
  end.
Fixpoint ops_valid (st : list (ring T) * rsys T) (l : list op) : Prop :=
  match l with
  | [] => True
  | o :: l => op_valid (fst st) o /\ ops_valid (fst (do_op st o)) l
  end.

(** radius [x] lies in a gap, computed as smaller than [tol], between two consecutive rings of [l] *)
Definition in_small_gap (tol : T) (l : list (ring T)) (x : xr) (tr : xr) : Prop :=
  exists l1 a b l2, l = l1 ++ a :: b :: l2 /\ xle (val (r_out a)) x /\ xlt x (val (r_in b)) /\
    n_lt (n_abs (n_sub (r_in b) (r_out a))) tol = true /\ val (r_tr b) = tr.

(** [l] are [d] pieces of ring [r]: equally wide, end to end from the inner to the outer radius,
    with the transmission of [r] *)
Inductive end_to_end : T -> list (ring T) -> T -> Prop :=
  | ete_nil x : end_to_end x [] x
  | ete_cons r l y : end_to_end (r_out r) l y -> end_to_end (r_in r) (r :: l) y.
Definition pieces (r : ring T) (d : Z) (l : list (ring T)) : Prop :=
  Z.of_nat (List.length l) = d /\ end_to_end (r_in r) l (r_out r) /\
  Forall (fun p => r_tr p = r_tr r /\
            n_sub (r_out p) (r_in p) = n_div (n_sub (r_out r) (r_in r)) (n_ofZ d)) l.

(** what split_rings accepts for a system of [n] rings: an integer >= 2, or an int64 vector
    with one entry >= 1 per ring; [ds] are the divisions per ring *)
Definition valid_divisions (n : nat) (nd : pyval T) (ds : list Z) : Prop :=
  (int_like nd /\ (2 <= int_of nd)%Z /\ ds = repeat (int_of nd) n) \/
  (nd = PArr "int64" [n] (map (@SI T) ds) /\ List.length ds = n /\ Forall (fun d => 1 <= d <= 2 ^ 53)%Z ds).

(** a triple (inner, outer, transmission) that describes a ring; [stored_inner] is the inner
    radius the ring gets *)
Definition stored_inner (i : T) : T := if n_eq i n_zero then n_pow10m 16 else i.
Definition valid_triple (x : T * T * T) : Prop :=
  let '(i, o, t) := x in
  (val i = XFin 0 \/ xlt (XFin 0) (val i)) /\ xlt (val (stored_inner i)) (val o) /\ xlt (val o) XPInf /\
  range_or_nan 0 1 t.
Definition vec (l : list T) : pyval T := PArr "float64" [List.length l] (map (@SF T) l).

(** attribute assignments: the value given, the bounds it is compared with, the value stored and
    the ring with only that attribute changed *)
Definition given (s : setter (T:=T)) : pyval T :=
  match s with SetInner v | SetOuter v | SetTr v | SetInc v | SetTilt v => v end.
Definition stored_value (s : setter (T:=T)) : T :=
  match s with SetInner v => stored_inner (num_of v) | _ => num_of (given s) end.
Definition within (r : ring T) (s : setter (T:=T)) (x : T) : Prop :=
  match s with
  | SetInner _ => respects true (XFin 0) (val (r_out r)) (val x)
  | SetOuter _ => respects true (val (r_in r)) XPInf (val x)
  | SetTr _ => respects false (XFin 0) (XFin 1) (val x)
  | SetInc _ => respects false (XFin 0) (XFin 90) (val x)
  | SetTilt _ => respects false (XFin (-180)) (XFin 180) (val x)
  end.
Definition assigned (r : ring T) (s : setter (T:=T)) (x : T) : ring T :=
  match s with
  | SetInner _ => mkRing x (r_out r) (r_tr r) (r_inc r) (r_tilt r)
  | SetOuter _ => mkRing (r_in r) x (r_tr r) (r_inc r) (r_tilt r)
  | SetTr _ => mkRing (r_in r) (r_out r) x (r_inc r) (r_tilt r)
  | SetInc _ => mkRing (r_in r) (r_out r) (r_tr r) x (r_tilt r)
  | SetTilt _ => mkRing (r_in r) (r_out r) (r_tr r) (r_inc r) x
  end.

(** a usable system: accepted geometry, live ring objects with valid data *)
Definition good_sys (h : list (ring T)) (s : rsys T) : Prop :=
  geo_ok s /\ sys_wf h s /\ (forall l, In l (s_rings s) -> good_ring (deref h l)).
(** state of a history: usable system over valid ring objects, rings ordered *)
Definition hist_inv (st : list (ring T) * rsys T) : Prop :=
  geo_ok (snd st) /\ sys_wf (fst st) (snd st) /\ (forall r, In r (fst st) -> good_ring r) /\
  ordered (rings_of (fst st) (snd st)).
Definition no_split (o : op) : Prop := match o with OpSplit _ => False | _ => True end.
(** the ring made from a triple *)
Definition stored (inc tilt : T) (x : T * T * T) : ring T :=
  let '(i, o, t) := x in mkRing (stored_inner i) o t inc tilt.
(** the neighbouring radius an assigned radius is compared with is not itself out of range *)
Definition setter_ready (r : ring T) (s : setter (T:=T)) : Prop :=
  match s with SetInner _ => ~ xlt (val (r_out r)) (XFin 0) | SetOuter _ => ~ xlt XPInf (val (r_in r)) | _ => True end.

(** several systems over one heap of ring objects *)
Definition world : Type := list (ring T) * list (rsys T).
(** operation [o] called on system number [k] *)
Definition do_wop (w : world) (ko : nat * op) : world :=
  match nth_error (snd w) (fst ko) with
  | Some s => let '(h', s', _) := do_op (fst w, s) (snd ko) in (h', replace_nth (fst ko) s' (snd w))
  | None => w
  end.
Definition do_wops (w : world) (l : list (nat * op)) : world := fold_left do_wop l w.
(** ring object [l] is handed over by operation [o] *)
Definition op_gives (o : op) (l : nat) : Prop :=
  match o with OpAdd _ (PObj _ m) | OpReplace _ (PObj _ m) => l = m | _ => False end.
Definition op_valid_obj (h : list (ring T)) (o : op) : Prop :=
  match o with OpAdd _ (PObj _ m) | OpReplace _ (PObj _ m) => m < List.length h | _ => True end.
(** the history respects an ownership of ring objects by systems: a system is only handed
    objects it owns, and the objects it creates itself (split, merge) are its own *)
Definition wop_valid (owner : nat -> nat) (w : world) (ko : nat * op) : Prop :=
  op_valid_obj (fst w) (snd ko) /\ (forall l, op_gives (snd ko) l -> owner l = fst ko) /\
  (forall s, nth_error (snd w) (fst ko) = Some s -> forall l, List.length (fst w) <= l ->
     In l (s_rings (snd (fst (do_op (fst w, s) (snd ko))))) -> owner l = fst ko).
Fixpoint wops_valid (owner : nat -> nat) (w : world) (l : list (nat * op)) : Prop :=
  match l with
  | [] => True
  | ko :: l => wop_valid owner w ko /\ wops_valid owner (do_wop w ko) l
  end.

(** every ring held by system [k] is owned by it and has its inclination and tilt *)
Definition geometry_inv (owner : nat -> nat) (w : world) : Prop :=
  forall k s, nth_error (snd w) k = Some s -> geo_ok s /\ sys_wf (fst w) s /\
    forall l, In l (s_rings s) -> owner l = k /\ r_inc (deref (fst w) l) = s_inc s /\ r_tilt (deref (fst w) l) = s_tilt s.
End S.
Arguments world : clear implicits.

(** split arguments given as arrays: integers, one per ring *)
Definition op_split_wf (s : rsys xr) (o : @op xr) : Prop :=
  match o with OpSplit (PArr d sh el) => exists zs, el = map (@SI xr) zs /\ List.length zs = List.length (s_rings s) /\ Forall (fun z => Z.abs z <= 2 ^ 53)%Z zs | _ => True end.
Fixpoint splits_wf (st : list (ring xr) * rsys xr) (l : list (@op xr)) : Prop :=
  match l with
  | [] => True
  | o :: l => op_split_wf (snd st) o /\ splits_wf (fst (do_op st o)) l
  end.
