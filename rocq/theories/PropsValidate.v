(** Property theorems for validate.py: C01 - C04. *)
From Coq Require Import ZArith Reals List Bool String Lra Lia.
From Verif Require Import Num NumP Py Validate SpecNum ValidateP.
Import ListNotations.

(** C01.  For every number system satisfying the laws (exact reals and binary64), every Python
    value and every pair of bounds (integers at most 2^53 in magnitude). *)
Theorem C01_number_accepts {T} {NT : Num T} {LT : NumLaws T} (v lo up w : pyval T) (ci ex : bool) :
  small v -> small lo -> small up ->
  number v ci lo up ex = Ok w <->
  w = v /\ (int_like v \/ (ci = false /\ float_like v)) /\ numberlike lo /\ numberlike up /\
  ~ xlt (value up) (value lo) /\ respects ex (value lo) (value up) (value v).
Proof. exact (@number_ok T NT LT v ci lo up ex w). Qed.
Print Assumptions C01_number_accepts.

Theorem C01_number_errors {T} {NT : Num T} {LT : NumLaws T} (v lo up : pyval T) (ci ex : bool) (e : exn) :
  small v -> small lo -> small up -> number v ci lo up ex = Err e ->
  (e = TypeError /\ (~ (int_like v \/ (ci = false /\ float_like v)) \/ ~ numberlike lo \/ ~ numberlike up)) \/
  (e = ValueError /\ (int_like v \/ (ci = false /\ float_like v)) /\ numberlike lo /\ numberlike up /\
   (xlt (value up) (value lo) \/ ~ respects ex (value lo) (value up) (value v))).
Proof. exact (@number_err T NT LT v ci lo up ex e). Qed.
Print Assumptions C01_number_errors.

(** off NaN, not being found outside of the bounds is being inside of them *)
Theorem C01_number_in_range (ex : bool) (lo up v : xr) :
  lo <> XNaN -> up <> XNaN -> v <> XNaN -> (respects ex lo up v <-> inside ex lo up v).
Proof. exact (@respects_inside ex lo up v). Qed.
Print Assumptions C01_number_in_range.

(** non-vacuity, in binary64: 1 is accepted as a number in (0, 2), 2 is not, "a" is no number *)
Example C01_ex :
  number (T:=f64) (PInt 1) true (PInt 0) (PFloat (n_ofZ 2)) true = Ok (PInt 1) /\
  number (T:=f64) (PInt 2) true (PInt 0) (PFloat (n_ofZ 2)) true = Err ValueError /\
  number (T:=f64) (PStr "a") false (PInt 0) (PInt 2) false = Err TypeError /\
  number (T:=f64) (PBool true) true (PInt 0) (PInt 2) false = Ok (PBool true) /\
  small (T:=f64) (PInt 1).
Proof. repeat split; try (vm_compute; reflexivity); try (cbn; lia). Qed.

(** C02.  NaN is accepted whatever the bounds are. *)
Theorem C02_nan_accepted {T} {NT : Num T} {LT : NumLaws T} (x : T) (lo up : pyval T) (ex : bool) (mk : T -> pyval T) :
  (mk = PFloat \/ mk = PNpFloat) -> val x = XNaN -> small lo -> small up ->
  numberlike lo -> numberlike up -> ~ xlt (value up) (value lo) ->
  number (mk x) false lo up ex = Ok (mk x).
Proof. exact (@number_nan T NT LT x lo up ex mk). Qed.
Print Assumptions C02_nan_accepted.

(** the naive reading "what number accepts lies within the bounds" is refuted ... *)
Theorem C02_accepted_is_inside_refuted :
  ~ (forall (v lo up w : pyval f64), number v false lo up false = Ok w ->
       xle (value lo) (value v) /\ xle (value v) (value up)).
Proof. exact accepted_inside_refuted. Qed.
Print Assumptions C02_accepted_is_inside_refuted.

(** ... and NaN is its only exception. *)
Theorem C02_only_nan {T} {NT : Num T} {LT : NumLaws T} (v lo up w : pyval T) (ci ex : bool) :
  small v -> small lo -> small up -> value v <> XNaN -> value lo <> XNaN -> value up <> XNaN ->
  number v ci lo up ex = Ok w -> inside ex (value lo) (value up) (value v).
Proof. exact (@number_only_nan T NT LT v lo up w ci ex). Qed.
Print Assumptions C02_only_nan.

Theorem C02_array_nan_invisible {T} {NT : Num T} {LT : NumLaws T} (d : string) (sh : list nat)
    (el1 el2 : list (scal T)) (x : T) lo up ex dt nd :
  val x = XNaN -> osmall lo -> osmall up -> onum lo -> onum up -> (forall s, In s (el1 ++ el2) -> ssmall s) ->
  (is_ok (array (PArr d sh (el1 ++ SF x :: el2)) lo up ex dt nd) = true <->
   is_ok (array (PArr d sh (el1 ++ el2)) lo up ex dt nd) = true).
Proof. exact (@array_nan_invisible T NT LT d sh el1 el2 x lo up ex dt nd). Qed.
Print Assumptions C02_array_nan_invisible.

Example C02_ex : number (T:=f64) (PFloat n_nan) false (PInt 0) (PInt 1) true = Ok (PFloat n_nan) /\
  number (T:=f64) (PFloat (n_ofZ 2)) false (PInt 0) (PInt 1) true = Err ValueError.
Proof. split; vm_compute; reflexivity. Qed.

(** C03.  validate.array, completely. *)
Theorem C03_array_on_ndarray {T} {NT : Num T} {LT : NumLaws T} (d : string) (sh : list nat) (el : list (scal T))
    (lo up : option (pyval T)) (ex : bool) (dt : option string) (nd : option Z) :
  osmall lo -> osmall up -> onum lo -> onum up -> (forall s, In s el -> ssmall s) ->
  (entries_ok lo up ex el -> dims_ok sh nd -> type_ok d dt ->
     array (PArr d sh el) lo up ex dt nd = Ok (PArr d sh el)) /\
  (~ entries_ok lo up ex el -> array (PArr d sh el) lo up ex dt nd = Err ValueError) /\
  (entries_ok lo up ex el -> ~ dims_ok sh nd -> array (PArr d sh el) lo up ex dt nd = Err InvalidDims) /\
  (entries_ok lo up ex el -> dims_ok sh nd -> ~ type_ok d dt ->
     array (PArr d sh el) lo up ex dt nd = Err TypeError).
Proof. exact (@array_ndarray T NT LT d sh el lo up ex dt nd). Qed.
Print Assumptions C03_array_on_ndarray.

Theorem C03_array_on_others {T} {NT : Num T} (v : pyval T) lo up ex dt nd :
  (forall d sh el, v <> PArr d sh el) -> array v lo up ex dt nd = Err TypeError.
Proof. exact (@array_not_ndarray T NT v lo up ex dt nd). Qed.
Print Assumptions C03_array_on_others.

(** one offending entry anywhere is enough *)
Theorem C03_one_bad_entry {T} {NT : Num T} {LT : NumLaws T} (d : string) (sh : list nat) (el : list (scal T))
    (s : scal T) (lo up : option (pyval T)) (ex : bool) (dt : option string) (nd : option Z) :
  osmall lo -> osmall up -> onum lo -> onum up -> (forall s, In s el -> ssmall s) -> In s el ->
  (lo <> None \/ up <> None) -> ~ respects ex (eff_lo lo) (eff_up up) (svalue s) ->
  array (PArr d sh el) lo up ex dt nd = Err ValueError.
Proof. exact (@array_one_bad T NT LT d sh el s lo up ex dt nd). Qed.
Print Assumptions C03_one_bad_entry.

Example C03_ex :
  let a := PArr (T:=f64) "float64" [3] [SF (n_ofZ 0); SF (n_ofZ 1); SF n_half] in
  array a (Some (PInt 0)) (Some (PInt 1)) false (Some "float64"%string) (Some 1%Z) = Ok a /\
  array a (Some (PInt 0)) (Some (PInt 1)) true (Some "float64"%string) (Some 1%Z) = Err ValueError /\
  array a (Some (PInt 0)) None false (Some "float64"%string) (Some 2%Z) = Err InvalidDims /\
  array a (Some (PInt 0)) None false (Some "int64"%string) (Some 1%Z) = Err TypeError.
Proof. repeat split; vm_compute; reflexivity. Qed.

(** C04 *)
Theorem C04_same_shape {T} {NT : Num T} {LT : NumLaws T} (l : list (pyval T)) (n : nat) :
  (List.length l < 2 \/ List.length l <> n -> same_shape_arrays l n = Err AttributeError) /\
  (2 <= List.length l -> List.length l = n -> all_arrays l -> equal_shapes l -> same_shape_arrays l n = Ok tt) /\
  (2 <= List.length l -> List.length l = n -> all_arrays l -> ~ equal_shapes l -> same_shape_arrays l n = Err InvalidShape) /\
  (~ all_arrays l -> exists e, same_shape_arrays l n = Err e /\ (e = AttributeError \/ e = TypeError)).
Proof. exact (same_shape_spec l n). Qed.
Print Assumptions C04_same_shape.

Example C04_ex :
  let a := PArr (T:=f64) "float64" [2; 1] [SF n_half; SF n_half] in
  let b := PArr (T:=f64) "int64" [2; 1] [SI 1; SI 2] in
  let c := PArr (T:=f64) "int64" [2] [SI 1; SI 2] in
  same_shape_arrays [a; b] 2 = Ok tt /\ same_shape_arrays [a; b; c] 3 = Err InvalidShape /\
  all_arrays [a; b] /\ equal_shapes [a; b] /\ ~ equal_shapes [a; b; c].
Proof.
  repeat split; try (vm_compute; reflexivity).
  - intros v [<-|[<-|[]]]; repeat eexists.
  - exists [2; 1]. intros v [<-|[<-|[]]]; reflexivity.
  - intros [sh H]. pose proof (H _ (or_introl eq_refl)) as H1.
    pose proof (H _ (or_intror (or_intror (or_introl eq_refl)))) as H2. cbn in H1, H2. congruence.
Qed.
