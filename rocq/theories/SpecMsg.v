(** Specification vocabulary for the texts of exceptions: what a check demands, and what is said when the demand is
    not met.  [show] writes a bound. *)
From Coq Require Import ZArith Reals List Bool String.
From Verif Require Import Num Py SpecNum.
Import ListNotations.
Set Implicit Arguments.
Local Open Scope string_scope.

(** one check: when it passes, and the exception and text when it does not *)
Record check := mkCheck { passes : Prop; complains : exn -> string -> Prop }.
(** the error of a sequence of checks is the error of the first one that does not pass *)
Inductive first_error : list check -> exn -> string -> Prop :=
  | fe_here c l e s : complains c e s -> first_error (c :: l) e s
  | fe_later c l e s : passes c -> first_error l e s -> first_error (c :: l) e s.

Section S.
Context {T : Type} {NT : Num T} {LT : NumLaws T}.
Variable show : pyval T -> string.
Notation pyval := (pyval T).

(** the argument has one of the documented types *)
Definition typed (ci : bool) (v : pyval) : Prop := int_like v \/ (ci = false /\ float_like v).
(** on the wrong side of a bound *)
Definition low (ex : bool) (lo v : xr) : Prop := if ex then xle v lo else xlt v lo.
Definition high (ex : bool) (up v : xr) : Prop := if ex then xle up v else xlt up v.
Definition than (ex : bool) : string := if ex then "than " else "than or equal to ".
Definition at_least (ex : bool) (w : string) : string := "greater " ++ than ex ++ w.
Definition at_most (ex : bool) (w : string) : string := "less " ++ than ex ++ w.
(** the caller gave bounds in the wrong order *)
Definition reversed_text (lo up : pyval) : string :=
  "The upper_bound argument (" ++ show up ++ ") must be greater than the lower_bound (" ++ show lo ++ ") argument.".

(** *** one number *)
Inductive number_error (name : string) (ci : bool) (lo up : pyval) (ex : bool) (v : pyval) : exn -> string -> Prop :=
  | ne_type : ~ typed ci v ->
      number_error name ci lo up ex v TypeError (name ++ " is not of type " ++ (if ci then "integer" else "'number'"))
  | ne_reversed : typed ci v -> xlt (value up) (value lo) ->
      number_error name ci lo up ex v ValueError (reversed_text lo up)
  | ne_low : typed ci v -> ~ xlt (value up) (value lo) -> low ex (value lo) (value v) -> ~ high ex (value up) (value v) ->
      number_error name ci lo up ex v ValueError ("The " ++ name ++ " argument must be " ++ at_least ex (show lo))
  | ne_high : typed ci v -> ~ xlt (value up) (value lo) -> ~ low ex (value lo) (value v) -> high ex (value up) (value v) ->
      number_error name ci lo up ex v ValueError ("The " ++ name ++ " argument must be " ++ at_most ex (show up))
  | ne_both : typed ci v -> ~ xlt (value up) (value lo) -> low ex (value lo) (value v) -> high ex (value up) (value v) ->
      number_error name ci lo up ex v ValueError
        ("The " ++ name ++ " argument must be " ++ at_least ex (show lo) ++ at_most ex (show up)).
Definition number_passes (ci : bool) (lo up : pyval) (ex : bool) (v : pyval) : Prop :=
  typed ci v /\ ~ xlt (value up) (value lo) /\ respects ex (value lo) (value up) (value v).
Definition number_check (name : string) (v : pyval) (ci : bool) (lo up : pyval) (ex : bool) : check :=
  mkCheck (number_passes ci lo up ex v) (number_error name ci lo up ex v).

(** *** an array; an absent bound is infinite *)
Definition lo_of (o : option pyval) : pyval := match o with Some l => l | None => PFloat n_ninf end.
Definition up_of (o : option pyval) : pyval := match o with Some u => u | None => PFloat n_inf end.
Definition some_low ex lo (el : list (scal T)) : Prop := exists s, In s el /\ low ex (eff_lo lo) (svalue s).
Definition some_high ex up (el : list (scal T)) : Prop := exists s, In s el /\ high ex (eff_up up) (svalue s).
(** Python's str of a tuple of sizes is in [tuple_text]; integers are written by [int_text] *)
Variable int_text : Z -> string.
Variable tuple_text : list nat -> string.
Inductive array_error (name : string) (d : string) (sh : list nat) (el : list (scal T)) (lo up : option pyval) (ex : bool)
    (dt : option string) (nd : option Z) : exn -> string -> Prop :=
  | ae_reversed : (lo <> None \/ up <> None) -> xlt (eff_up up) (eff_lo lo) ->
      array_error name d sh el lo up ex dt nd ValueError (reversed_text (lo_of lo) (up_of up))
  | ae_low : (lo <> None \/ up <> None) -> ~ xlt (eff_up up) (eff_lo lo) -> some_low ex lo el -> ~ some_high ex up el ->
      array_error name d sh el lo up ex dt nd ValueError
        ("The " ++ name ++ " argument must contain solely values " ++ at_least ex (show (lo_of lo)))
  | ae_high : (lo <> None \/ up <> None) -> ~ xlt (eff_up up) (eff_lo lo) -> ~ some_low ex lo el -> some_high ex up el ->
      array_error name d sh el lo up ex dt nd ValueError
        ("The " ++ name ++ " argument must contain solely values " ++ at_most ex (show (up_of up)))
  | ae_both : (lo <> None \/ up <> None) -> ~ xlt (eff_up up) (eff_lo lo) -> some_low ex lo el -> some_high ex up el ->
      array_error name d sh el lo up ex dt nd ValueError
        ("The " ++ name ++ " argument must contain solely values " ++ at_least ex (show (lo_of lo)) ++ " and " ++ at_most ex (show (up_of up)))
  | ae_dims n : entries_ok lo up ex el -> nd = Some n -> Z.of_nat (List.length sh) <> n ->
      array_error name d sh el lo up ex dt nd InvalidDims
        ("The " ++ name ++ " (" ++ int_text (Z.of_nat (List.length sh)) ++ " dimensions) should have " ++ int_text n ++ " dimensions")
  | ae_type t : entries_ok lo up ex el -> dims_ok sh nd -> dt = Some t -> d <> t ->
      array_error name d sh el lo up ex dt nd TypeError (name ++ " (" ++ d ++ ") is not of type " ++ t).
Definition not_array (v : pyval) : Prop := forall d sh el, v <> PArr d sh el.
Inductive argument_error (name : string) (v : pyval) (lo up : option pyval) (ex : bool) (dt : option string) (nd : option Z)
    : exn -> string -> Prop :=
  | ge_kind : not_array v -> argument_error name v lo up ex dt nd TypeError (name ++ " is not of type np.ndarray")
  | ge_array d sh el e s : v = PArr d sh el -> array_error name d sh el lo up ex dt nd e s ->
      argument_error name v lo up ex dt nd e s.
Definition array_passes (v : pyval) (lo up : option pyval) (ex : bool) (dt : option string) (nd : option Z) : Prop :=
  exists d sh el, v = PArr d sh el /\ entries_ok lo up ex el /\ dims_ok sh nd /\ type_ok d dt.
Definition array_check (name : string) (v : pyval) (lo up : option pyval) (ex : bool) (dt : option string) (nd : option Z) : check :=
  mkCheck (array_passes v lo up ex dt nd) (argument_error name v lo up ex dt nd).

(** *** arrays of one shape *)
Definition shapes_text (names : list string) (shapes : list (list nat)) : string :=
  String.concat ", " (map (fun ns => fst ns ++ " " ++ tuple_text (snd ns)) (combine names shapes)) ++ " should all have the same shape.".
Inductive shapes_error (l : list pyval) (names : list string) : exn -> string -> Prop :=
  | se_shapes shapes : map (@shape_of T) l = map Some shapes -> ~ equal_shapes l ->
      shapes_error l names InvalidShape (shapes_text names shapes).
Definition shapes_check (l : list pyval) (names : list string) : check :=
  mkCheck (equal_shapes l) (shapes_error l names).
End S.

(** *** an object of a given kind *)
Definition kind_check (ok : Prop) (name shown : string) : check :=
  mkCheck ok (fun e s => ~ ok /\ e = TypeError /\ s = name ++ " is not of type " ++ shown).
(** *** a condition with its own text *)
Definition own_check (ok : Prop) (e : exn) (s : string) : check :=
  mkCheck ok (fun e' s' => ~ ok /\ e' = e /\ s' = s).

(** *** rings *)
From Verif Require Import Ring RingSystem.
Section R.
Context {T : Type} {NT : Num T} {LT : NumLaws T}.
(** [show k x] writes the number [x] with [k] decimals *)
Variable show : nat -> T -> string.
Notation pyval := (pyval T).
Notation bound := (fun v : pyval => show 4 (num_of v)).
Notation num := (number_check bound).

(** no array and no scalar of a type that validation does not know *)
Definition plain (v : pyval) : Prop := not_array v /\ forall s, v <> PNpOther s.
(** an inner radius of zero is replaced *)
Definition nonzero (v : pyval) : pyval :=
  match scal_of v with Some s => if s_eq s (SF n_zero) then PFloat (n_pow10m 16) else v | None => v end.
Definition ring_checks (i o t inc tilt : pyval) : list check :=
  [num "inner_radius" (nonzero i) false (PFloat n_zero) (PFloat n_inf) true;
   num "outer_radius" o false (PFloat (num_of (nonzero i))) (PFloat n_inf) true;
   num "transmission" t false (PFloat n_zero) (PFloat n_one) false;
   num "inclination" inc false (PInt 0) (PInt 90) false;
   num "tilt" tilt false (PInt (-180)) (PInt 180) false].
Definition setter_check (r : ring T) (s : setter) : check :=
  match s with
  | SetInner v => num "inner_radius" (nonzero v) false (PFloat n_zero) (PFloat (r_out r)) true
  | SetOuter v => num "outer_radius" v false (PFloat (r_in r)) (PFloat n_inf) true
  | SetTr v => num "transmission" v false (PFloat n_zero) (PFloat n_one) false
  | SetInc v => num "inclination" v false (PInt 0) (PInt 90) false
  | SetTilt v => num "tilt" v false (PInt (-180)) (PInt 180) false
  end.
Definition setter_arg (s : setter) : pyval :=
  match s with SetInner v | SetOuter v | SetTr v | SetInc v | SetTilt v => v end.

(** *** ring systems *)
Variable int_text : Z -> string.
Variable tuple_text : list nat -> string.
Notation arr := (array_check bound int_text).
Definition rings_checks (inc tilt : T) (l : list (T * T * T)) : list check :=
  flat_map (fun x => let '(i, o, t) := x in ring_checks (PNpFloat i) (PNpFloat o) (PNpFloat t) (PNpFloat inc) (PNpFloat tilt)) l.
Definition system_checks (planet inner outer trans inc tilt level : pyval) : list check :=
  [num "planet_radius" planet false (PFloat n_zero) (PFloat n_inf) false;
   num "inclination" inc false (PFloat n_zero) (PFloat (n_ofZ 90)) false;
   num "tilt" tilt false (PFloat (n_ofZ (-180))) (PFloat (n_ofZ 180)) false;
   arr "inner_radii" inner (Some (PInt 0)) None false (Some "float64") (Some 1%Z);
   arr "outer_radii" outer (Some (PInt 0)) None false (Some "float64") (Some 1%Z);
   arr "transmissions" trans (Some (PInt 0)) (Some (PInt 1)) false (Some "float64") (Some 1%Z);
   shapes_check tuple_text [inner; outer; trans] ["inner_radii"; "outer_radii"; "transmissions"]] ++
  (rings_checks (num_of inc) (num_of tilt) (combine (combine (elems_of inner) (elems_of outer)) (elems_of trans)) ++
  [num "logging_level" level true (PInt 10) (PInt 50) false]).

(** the ring at position [i + k] of the system, [i] the value of [index] *)
Definition neighbour (h : list (ring T)) (s : rsys T) (index : pyval) (k : Z) (p : ring T) : Prop :=
  exists i l, value index = XFin (IZR i) /\ (0 <= i + k)%Z /\ nth_error (s_rings s) (Z.to_nat (i + k)) = Some l /\ p = deref h l.
Definition before_check (h : list (ring T)) (s : rsys T) (index rg : pyval) : check :=
  mkCheck (forall l p, rg = PObj "Ring" l -> neighbour h s index (-1) p -> ~ xlt (val (r_in (deref h l))) (val (r_out p)))
    (fun e t => exists l p, rg = PObj "Ring" l /\ neighbour h s index (-1) p /\ xlt (val (r_in (deref h l))) (val (r_out p)) /\
       e = ValueError /\ t = "Ring must have an inner radius (" ++ show 2 (r_in (deref h l)) ++
         ") > the preceding ring's outer radius (" ++ show 2 (r_out p) ++ ")").
Definition after_check (h : list (ring T)) (s : rsys T) (index rg : pyval) (k : Z) : check :=
  mkCheck (forall l p, rg = PObj "Ring" l -> neighbour h s index k p -> ~ xlt (val (r_in p)) (val (r_out (deref h l))))
    (fun e t => exists l p, rg = PObj "Ring" l /\ neighbour h s index k p /\ xlt (val (r_in p)) (val (r_out (deref h l))) /\
       e = ValueError /\ t = "Ring must have an outer radius (" ++ show 2 (r_out (deref h l)) ++
         ") less than the succeeding ring's inner radius (" ++ show 2 (r_in p) ++ ")").
Definition count (s : rsys T) : Z := Z.of_nat (List.length (s_rings s)).
Definition place_checks (h : list (ring T)) (s : rsys T) (index rg : pyval) (k : Z) : list check :=
  [num "index" index true (PInt 0) (PInt (count s)) false;
   kind_check (exists l, rg = PObj "Ring" l) "ring" "Ring";
   before_check h s index rg;
   after_check h s index rg k;
   num "inclination" (PNpFloat (s_inc s)) false (PInt 0) (PInt 90) false;
   num "tilt" (PNpFloat (s_tilt s)) false (PInt (-180)) (PInt 180) false].
Definition remove_checks (s : rsys T) (index : pyval) : list check :=
  [num "index" index true (PInt 0) (PInt (count s - 1)) false].
End R.
