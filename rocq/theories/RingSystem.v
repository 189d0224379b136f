(** Model of /repo/RingSystem.py.  Ring objects live on a heap (a list of rings, an object is
    its index) because the code stores and mutates the caller's objects.
    Simplifications: the logger, which only reads the object, is left to Log.v;
    rings allocated by a call that raises are unreachable and are left out of the heap;
    a bool used as an index behaves like the integer of the same value. *)
From Coq Require Import ZArith List Bool String.
From Verif Require Import Num Py Validate Ring.
Import ListNotations.
Set Implicit Arguments.

Section RingSystem.
Context {T : Type} {NT : Num T}.
Notation pyval := (pyval T).
Notation ring := (ring T).

Definition heap := list ring.
(** RingSystem.py:71-78 *)
Record rsys := mkSys { s_planet : T; s_inc : T; s_tilt : T; s_rings : list nat }.

Definition dead_ring : ring := mkRing n_nan n_nan n_nan n_nan n_nan.
Definition deref (h : heap) (l : nat) : ring := nth l h dead_ring.
(** the ring objects of a system, in order *)
Definition rings_of (h : heap) (s : rsys) : list ring := map (deref h) (s_rings s).

(** RingSystem.py:263-265: Ring(in, out, tr, inclination, tilt) for zipped data *)
Fixpoint make_rings (inc tilt : T) (l : list (T * T * T)) : res (list ring) :=
  match l with
  | [] => Ok []
  | (i, o, t) :: l =>
    let* r := new_ring (PNpFloat i) (PNpFloat o) (PNpFloat t) (PNpFloat inc) (PNpFloat tilt) in
    let* rs := make_rings inc tilt l in
    Ok (r :: rs)
  end.

(** allocation of new ring objects *)
Definition alloc (h : heap) (rs : list ring) : heap * list nat :=
  (h ++ rs, seq (List.length h) (List.length rs)).

Definition elems_of (v : pyval) : list T :=
  match v with PArr _ _ el => map (@num_scal T _) el | _ => [] end.

(** RingSystem.py:223-265 _set_rings, 71-79 constructor; the logging level is validated last
    (RingSystem.py:165-166) *)
Definition new_system (h : heap) (planet inner outer trans inc tilt level : pyval)
  : res (heap * rsys) :=
  let* planet := number planet false (PFloat n_zero) p_inf false in
  let* inc := number inc false (PFloat n_zero) (PFloat (n_ofZ 90)) false in
  let* tilt := number tilt false (PFloat (n_ofZ (-180))) (PFloat (n_ofZ 180)) false in
  let f := Some "float64"%string in
  let* inner := array inner (Some (PInt 0)) None false f (Some 1%Z) in
  let* outer := array outer (Some (PInt 0)) None false f (Some 1%Z) in
  let* trans := array trans (Some (PInt 0)) (Some (PInt 1)) false f (Some 1%Z) in
  let* _ := same_shape_arrays [inner; outer; trans] 3 in
  let* rs := make_rings (num_of inc) (num_of tilt)
               (combine (combine (elems_of inner) (elems_of outer)) (elems_of trans)) in
  let* _ := number level true (PInt 10) (PInt 50) false in
  let (h', ls) := alloc h rs in
  Ok (h', mkSys (num_of planet) (num_of inc) (num_of tilt) ls).

(** RingSystem.py:267-356 getters *)
Definition get_inner_radii (h : heap) (s : rsys) : list T := map (@r_in T) (rings_of h s).
Definition get_outer_radii (h : heap) (s : rsys) : list T := map (@r_out T) (rings_of h s).
Definition get_transmissions (h : heap) (s : rsys) : list T := map (@r_tr T) (rings_of h s).
Definition num_rings (s : rsys) : Z := Z.of_nat (List.length (s_rings s)).

Definition int_of (v : pyval) : Z :=
  match scal_of v with Some s => match int_scal s with Some z => z | None => 0 end | None => 0 end.

(** element [z] of the ring list (z >= 0), IndexError beyond the end *)
Definition ring_at (h : heap) (s : rsys) (z : Z) : res ring :=
  match nth_error (s_rings s) (Z.to_nat z) with Some l => Ok (deref h l) | None => Err IndexError end.

(** RingSystem.py:358-406 _prevent_ring_overlap; returns the ring's identity *)
Definition prevent_overlap (h : heap) (s : rsys) (index rg : pyval) (replace : bool) : res (Z * nat) :=
  let n := num_rings s in
  let* index := number index true (PInt 0) (PInt n) false in
  let* l := class_object "Ring" rg in
  let i := int_of index in
  let r := deref h l in
  let* lower := (if Z.eqb i 0 then Ok n_ninf
                 else let* p := ring_at h s (i - 1) in Ok (r_out p)) in
  if n_lt (r_in r) lower then Err ValueError
  else
    let j := if replace then (i + 1)%Z else i in
    let* upper := (if Z.eqb j n then Ok n_inf
                   else let* p := ring_at h s j in Ok (r_in p)) in
    if n_lt upper (r_out r) then Err ValueError else Ok (i, l).

Fixpoint replace_nth {A} (n : nat) (x : A) (l : list A) : list A :=
  match l, n with
  | [], _ => []
  | _ :: l, O => x :: l
  | a :: l, S n => a :: replace_nth n x l
  end.

(** RingSystem.py:408-436 _override_ring_geometry: two attribute assignments on the caller's
    object *)
Definition override (h : heap) (s : rsys) (l : nat) : heap * res unit :=
  let (r1, e1) := set_ring (deref h l) (SetInc (PNpFloat (s_inc s))) in
  match e1 with
  | Err e => (h, Err e)
  | Ok _ =>
    let (r2, e2) := set_ring r1 (SetTilt (PNpFloat (s_tilt s))) in
    (replace_nth l r2 h, e2)
  end.

Definition with_rings (s : rsys) (ls : list nat) : rsys := mkSys (s_planet s) (s_inc s) (s_tilt s) ls.

(** RingSystem.py:438-462 add_ring (np.insert) *)
Definition add_ring (h : heap) (s : rsys) (index rg : pyval) : heap * rsys * res unit :=
  match prevent_overlap h s index rg false with
  | Err e => (h, s, Err e)
  | Ok (i, l) =>
    match override h s l with
    | (h', Err e) => (h', s, Err e)
    | (h', Ok _) =>
      let k := Z.to_nat i in
      (h', with_rings s (firstn k (s_rings s) ++ l :: skipn k (s_rings s)), Ok tt)
    end
  end.

(** RingSystem.py:464-482 remove_ring (np.delete) *)
Definition remove_ring (h : heap) (s : rsys) (index : pyval) : heap * rsys * res unit :=
  match number index true (PInt 0) (PInt (num_rings s - 1)) false with
  | Err e => (h, s, Err e)
  | Ok i =>
    let k := Z.to_nat (int_of i) in
    (h, with_rings s (firstn k (s_rings s) ++ skipn (S k) (s_rings s)), Ok tt)
  end.

(** RingSystem.py:484-509 replace_ring *)
Definition replace_ring (h : heap) (s : rsys) (index rg : pyval) : heap * rsys * res unit :=
  match number index true (PInt 0) (PInt (num_rings s - 1)) false with
  | Err e => (h, s, Err e)
  | Ok i =>
    match prevent_overlap h s index rg true with
    | Err e => (h, s, Err e)
    | Ok (_, l) =>
      match override h s l with
      | (h', Err e) => (h', s, Err e)
      | (h', Ok _) => (h', with_rings s (replace_nth (Z.to_nat (int_of i)) l (s_rings s)), Ok tt)
      end
    end
  end.

(** RingSystem.py:523-531: the divisions per ring *)
Definition divisions (s : rsys) (nd : pyval) : res (list Z) :=
  match number nd true (PInt 2) p_inf false with
  | Ok v => Ok (repeat (int_of v) (List.length (s_rings s)))
  | Err TypeError =>
    let* a := array nd (Some (PInt 1)) None false (Some "int64"%string) (Some 1%Z) in
    let* _ := same_shape_arrays [a; PArr "object" [List.length (s_rings s)] []] 2 in
    Ok (match a with
        | PArr _ _ el => map (fun e => match int_scal e with Some z => z | None => 0%Z end) el
        | _ => [] end)
  | Err e => Err e
  end.

(** RingSystem.py:542-549: the ringlets of one ring *)
Definition ringlet (r : ring) (d : Z) (i : nat) : T * T * T :=
  let delta := ((r_out r - r_in r) / n_ofZ d)%num in
  let ri := (r_in r + n_ofnat i * delta)%num in
  (ri, (ri + delta)%num, r_tr r).
Definition ringlets (r : ring) (d : Z) : list (T * T * T) := map (ringlet r d) (seq 0 (Z.to_nat d)).

(** RingSystem.py:511-559 split_rings *)
Definition split_rings (h : heap) (s : rsys) (nd : pyval) : heap * rsys * res unit :=
  let out :=
    let* ds := divisions s nd in
    make_rings (s_inc s) (s_tilt s)
      (flat_map (fun rd => ringlets (fst rd) (snd rd)) (combine (rings_of h s) ds)) in
  match out with
  | Err e => (h, s, Err e)
  | Ok rs => let (h', ls) := alloc h rs in (h', with_rings s ls, Ok tt)
  end.

(** RingSystem.py:582-601: loop of merge_rings; the list of (in, out, transmission) from
    which Ring objects are made, in order *)
Fixpoint merge_loop (tol : T) (rs : list ring) (inner outer tr : T) : list (T * T * T) :=
  match rs with
  | [] => [(inner, outer, tr)]
  | r :: rs =>
    if n_lt (n_abs (r_in r - outer)%num) tol && n_eq (r_tr r) tr
    then merge_loop tol rs inner (r_out r) tr
    else (inner, outer, tr) :: merge_loop tol rs (r_in r) (r_out r) (r_tr r)
  end.

(** RingSystem.py:561-608 merge_rings (tolerance a number; it is not validated) *)
Definition merge_rings (h : heap) (s : rsys) (tol : T) : heap * rsys * res unit :=
  match rings_of h s with
  | [] => (h, s, Err IndexError)
  | r0 :: _ =>
    match make_rings (s_inc s) (s_tilt s)
            (merge_loop tol (rings_of h s) (r_in r0) (r_in r0) (r_tr r0)) with
    | Err e => (h, s, Err e)
    | Ok rs => let (h', ls) := alloc h rs in (h', with_rings s ls, Ok tt)
    end
  end.

(** RingSystem.py:655-704 plot: the axis limits (xmin, xmax, ymin, ymax) *)
Definition plot_limits (h : heap) (s : rsys) (x_shift y_shift : T) : res (T * T * T * T) :=
  match rev (get_outer_radii h s) with
  | [] => Err IndexError
  | d :: _ =>
    let two := n_ofZ 2 in
    Ok ((x_shift - d - two)%num, (x_shift + d + two)%num,
        (y_shift - d - two)%num, (x_shift + d + two)%num)
  end.
End RingSystem.
Arguments rsys : clear implicits.
