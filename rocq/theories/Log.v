(** Model of what the loggers of /repo write.  A record has a level, the name of the function that logs and a text;
    str(np.random.normal(0, 1)), the name of the logger, is taken to be new for every object, so that no two objects share a
    logger; the time of a record is left out. *)
From Coq Require Import ZArith List Bool String.
From Verif Require Import Num Py Validate Ring RingSystem SpecRing Fmt Text Message.
Import ListNotations.
Set Implicit Arguments.
Local Open Scope string_scope.
Local Open Scope list_scope.

Record record := mkRec { l_level : Z; l_func : string; l_text : string }.
Notation log := (list record).
(** logging.DEBUG, logging.INFO *)
Definition debug (func text : string) : record := mkRec 10 func text.
Definition info (func text : string) : record := mkRec 20 func text.

(** RingSystem.py:165-183 and Shallot.py:330-348: the records that reach the console, for the logging level of the
    object; logger and console handler have the same level, and nothing is passed on to other loggers *)
Definition console (level : Z) (l : log) : log := filter (fun r => Z.leb level (l_level r)) l.
(** "%(levelname)-8s - %(funcName)s: %(message)s" (RingSystem.py:173, Shallot.py:338) *)
Definition level_name (z : Z) : string := if Z.eqb z 10 then "DEBUG   " else "INFO    ".
Definition line_of (r : record) : string := (level_name (l_level r) ++ " - " ++ l_func r ++ ": " ++ l_text r)%string.

(** str of an int, a numpy integer or a bool *)
Definition str_index {T} (v : pyval T) : string :=
  match v with
  | PBool b => if b then "True" else "False"
  | PInt z | PNpInt z => str_int z
  | _ => ""
  end.

Section R.
Context {T : Type} {NT : Num T}.
Variable fmt : nat -> T -> string.
Notation pyval := (pyval T).
Notation rsys := (rsys T).
Notation heap := (list (ring T)).

(** RingSystem.py:425-431 *)
Definition override_log (h : heap) (s : rsys) (l : nat) : log :=
  let r := deref h l in
  (if n_eq (r_inc r) (s_inc s) then []
   else [info "_override_ring_geometry" ("ring inclination overridden from " ++ fmt 2 (r_inc r) ++ " to " ++ fmt 2 (s_inc s))%string]) ++
  (if n_eq (r_tilt r) (s_tilt s) then []
   else [info "_override_ring_geometry" ("ring tilt overridden from " ++ fmt 2 (r_tilt r) ++ " to " ++ fmt 2 (s_tilt s))%string]).

(** the texts before and after (RingSystem.py:456-461 and so on) *)
Definition changes (func : string) (h : heap) (s : rsys) (h' : heap) (s' : rsys) : record :=
  debug func (print_changes fmt (func ++ "()") true h s ++ print_changes fmt (func ++ "()") false h' s')%string.

(** RingSystem.py:438-462 add_ring *)
Definition add_ring_l (h : heap) (s : rsys) (index rg : pyval) : heap * rsys * res unit * log :=
  match prevent_overlap h s index rg false with
  | Err e => (h, s, Err e, [])
  | Ok (i, l) =>
    let o := override_log h s l in
    match override h s l with
    | (h', Err e) => (h', s, Err e, o)
    | (h', Ok _) =>
      let k := Z.to_nat i in
      let s' := with_rings s (firstn k (s_rings s) ++ l :: skipn k (s_rings s)) in
      (h', s', Ok tt, o ++ [changes "add_ring" h' s h' s'; info "add_ring" ("added ring at index " ++ str_index index)])
    end
  end.

(** RingSystem.py:464-482 remove_ring *)
Definition remove_ring_l (h : heap) (s : rsys) (index : pyval) : heap * rsys * res unit * log :=
  match number index true (PInt 0) (PInt (num_rings s - 1)) false with
  | Err e => (h, s, Err e, [])
  | Ok i =>
    let k := Z.to_nat (int_of i) in
    let s' := with_rings s (firstn k (s_rings s) ++ skipn (S k) (s_rings s)) in
    (h, s', Ok tt, [changes "remove_ring" h s h s'; info "remove_ring" ("removed ring at index " ++ str_index i)])
  end.

(** RingSystem.py:484-509 replace_ring *)
Definition replace_ring_l (h : heap) (s : rsys) (index rg : pyval) : heap * rsys * res unit * log :=
  match number index true (PInt 0) (PInt (num_rings s - 1)) false with
  | Err e => (h, s, Err e, [])
  | Ok i =>
    match prevent_overlap h s index rg true with
    | Err e => (h, s, Err e, [])
    | Ok (_, l) =>
      let o := override_log h s l in
      match override h s l with
      | (h', Err e) => (h', s, Err e, o)
      | (h', Ok _) =>
        let s' := with_rings s (replace_nth (Z.to_nat (int_of i)) l (s_rings s)) in
        (h', s', Ok tt, o ++ [changes "replace_ring" h' s h' s'; info "replace_ring" ("replaced ring at index " ++ str_index i)])
      end
    end
  end.

(** RingSystem.py:511-559 split_rings *)
Definition split_rings_l (h : heap) (s : rsys) (nd : pyval) : heap * rsys * res unit * log :=
  match divisions s nd with
  | Err e => (h, s, Err e, [])
  | Ok ds =>
    match make_rings (s_inc s) (s_tilt s)
            (flat_map (fun rd => ringlets (fst rd) (snd rd)) (combine (rings_of h s) ds)) with
    | Err e => (h, s, Err e, [])
    | Ok rs =>
      let (h', ls) := alloc h rs in
      let s' := with_rings s ls in
      (h', s', Ok tt,
       [changes "split_rings" h s h' s';
        info "split_rings" ("split rings from " ++ str_nat (List.length ds) ++ " to " ++ str_int (fold_right Z.add 0%Z ds))%string])
    end
  end.

(** RingSystem.py:561-608 merge_rings *)
Definition merge_rings_l (h : heap) (s : rsys) (tol : T) : heap * rsys * res unit * log :=
  match rings_of h s with
  | [] => (h, s, Err IndexError, [])
  | r0 :: _ =>
    match make_rings (s_inc s) (s_tilt s)
            (merge_loop tol (rings_of h s) (r_in r0) (r_in r0) (r_tr r0)) with
    | Err e => (h, s, Err e, [])
    | Ok rs =>
      let (h', ls) := alloc h rs in
      let s' := with_rings s ls in
      (h', s', Ok tt,
       [changes "merge_rings" h s h' s';
        info "merge_rings" ("merged rings from " ++ str_nat (List.length (rings_of h s)) ++ " to " ++ str_nat (List.length (s_rings s')))%string])
    end
  end.

(** the calls of a history (SpecRing.v), with what they log *)
Definition do_op_l (st : heap * rsys) (o : @op T) : heap * rsys * res unit * log :=
  let (h, s) := st in
  match o with
  | OpNew _ _ _ _ _ => (do_op st o, [])
  | OpAdd i r => add_ring_l h s i r
  | OpRemove i => remove_ring_l h s i
  | OpReplace i r => replace_ring_l h s i r
  | OpSplit nd => split_rings_l h s nd
  | OpMerge tol => merge_rings_l h s tol
  end.
(** what system number [k] logs during a history of several systems *)
Fixpoint world_log (k : nat) (w : world T) (l : list (nat * @op T)) : log :=
  match l with
  | [] => []
  | ko :: l =>
    match nth_error (snd w) (fst ko) with
    | Some s => if Nat.eqb (fst ko) k then snd (do_op_l (fst w, s) (snd ko)) else []
    | None => []
    end ++ world_log k (do_wop w ko) l
  end.
End R.
