(** Model of the __str__ and __repr__ methods of /repo.  [fmt k] is the formatting "{:.kf}" of a float
    (Fmt.v gives the one of binary64); [mean] and [median] stand for np.nanmean and np.nanmedian, which
    never raise on the arrays they get here.  No formatted number contains a line break, so a text that
    is split into its lines again (GridProperty.py:89, 416) is a list of lines here.  Ints beyond the range
    of floats, which cannot be formatted with "f" (OverflowError), are not modelled. *)
From Coq Require Import ZArith List Bool String Ascii.
From Verif Require Import Num Py Validate Ring FS GridParams GridDiag Names GridProp Viewer ViewerDraw Fmt.
From Verif Require RingSystem.
From Verif Require Import Geometry Build Shallot ShallotOps.
Import ListNotations.
Set Implicit Arguments.
Local Open Scope string_scope.

Definition newline : string := String (ascii_of_nat 10) "".
(** newline.join(lines) *)
Fixpoint join (sep : string) (l : list string) : string :=
  match l with [] => "" | [a] => a | a :: l => a ++ sep ++ join sep l end.
Definition copies (n : nat) (s : string) : string := String.concat "" (repeat s n).
(** str.center for an even width *)
Definition center (n : nat) (s : string) : string :=
  let pad := n - String.length s in spaces (Nat.div2 pad) ++ s ++ spaces (pad - Nat.div2 pad).

Section T.
Context {T : Type} {NT : Num T}.
Variable fmt : nat -> T -> string.
Variables mean median : list T -> T.
Notation pyval := (pyval T).

(** format(v, ".kf") of a value: numbers, among them bools, are written; None raises TypeError, as do
    arrays and other objects, and a str raises ValueError *)
Definition fv (k : nat) (v : pyval) : res string :=
  match v with
  | PNone | PArr _ _ _ | PObj _ _ => Err TypeError
  | PStr _ => Err ValueError
  | _ => Ok (fmt k (num_of v))
  end.
Definition fo (k : nat) (v : option pyval) : res string := fv k (dflt PNone v).

(** Ring.py:50-81 __str__ *)
Definition ring_str (r : ring T) : string :=
  let bar := copies 28 "=" in
  join newline
    [""; bar; "***** RING INFORMATION *****"; bar ++ newline;
     "Inner Radius: " ++ rjust 8 (fmt 4 (r_in r)) ++ " [R*]";
     "Outer Radius: " ++ rjust 8 (fmt 4 (r_out r)) ++ " [R*]";
     "Transmission: " ++ rjust 8 (fmt 4 (r_tr r)) ++ " [-]";
     "Inclination: " ++ rjust 9 (fmt 4 (r_inc r)) ++ " [deg]";
     "Tilt: " ++ rjust 16 (fmt 4 (r_tilt r)) ++ " [deg]";
     newline ++ bar].

(** RingSystem.py:130-144: the line of ring number [n] *)
Definition ring_line (n : nat) (r : ring T) : string :=
  join "     " [rjust 4 (str_nat n); rjust 11 (fmt 2 (r_in r)); rjust 11 (fmt 2 (r_out r)); rjust 13 (fmt 2 (r_tr r))].
Fixpoint ring_lines (n : nat) (l : list (ring T)) : list string :=
  match l with [] => [] | r :: l => ring_line n r :: ring_lines (S n) l end.
(** RingSystem.py:94-153 __repr__, also __str__ (82-92) *)
Definition rsys_repr (h : list (ring T)) (s : RingSystem.rsys T) : string :=
  join newline
    (app [newline ++ copies 70 "=";
      "********************** RING SYSTEM INFORMATION ***********************";
      copies 70 "=" ++ newline;
      "Geometric Parameters"; "--------------------" ++ newline;
      "Planet Radius: " ++ rjust 7 (fmt 2 (RingSystem.s_planet s)) ++ " [R*]";
      "Inclination: " ++ rjust 9 (fmt 2 (RingSystem.s_inc s)) ++ " [deg]";
      "Tilt: " ++ rjust 16 (fmt 2 (RingSystem.s_tilt s)) ++ " [deg]";
      newline;
      "Ring Parameters"; "---------------" ++ newline;
      "Ring #     Inner Radius     Outer Radius     Transmission"]
     (app (ring_lines 1 (RingSystem.rings_of h s)) [""; copies 70 "="])).
(** RingSystem.py:188-221 _print_changes *)
Definition print_changes (action : string) (before : bool) (h : list (ring T)) (s : RingSystem.rsys T) : string :=
  join newline
    ("" :: app (if before then [copies 70 "="; center 66 ("Before: " ++ action)] else [center 66 ("After: " ++ action)])
               [String.substring 1 (String.length (rsys_repr h s) - 1) (rsys_repr h s)]).

(** GridDiagnostics.py:44-60 __repr__ *)
Definition diag_repr (d : gdiag T) : string :=
  join newline [""; "Grid Diagnostics"; copies 28 "-"; "diagnostics saved: " ++ str_nat (List.length (d_fy d))].

(** GridParameters.py:70-100 __repr__, also __str__ *)
Definition str_shape (sh : nat * nat * nat) : string :=
  let '(a, b, c) := sh in "(" ++ str_nat a ++ ", " ++ str_nat b ++ ", " ++ str_nat c ++ ")".
Definition range_line (name : string) (lo hi : T) (n : nat) : string :=
  name ++ ": " ++ rjust 6 (fmt 2 lo) ++ " -> " ++ rjust 6 (fmt 2 hi) ++ " (" ++ str_nat n ++ ")".
Definition params_repr (g : gparams T) : res string :=
  let* x := ends (g_dx g) in
  let* y := ends (g_dy g) in
  let* r := ends (g_rfa g) in
  let one := rjust 6 (fmt 2 n_one) in let top := rjust 6 (fmt 2 (fst r)) in
  Ok (join newline
    [""; "Grid Parameters"; copies 28 "-";
     range_line "dx" (fst x) (snd x) (List.length (g_dx g));
     range_line "dy" (fst y) (snd y) (List.length (g_dy g));
     "rf: " ++ top ++ " -> " ++ one ++ " -> " ++ top ++ " (" ++ str_nat (List.length (g_rfa g)) ++ ")";
     "grid_shape: " ++ str_shape (g_shape g)]).

(** GridProperty.py:96-127 __repr__, as lines; the sum over a mask counts its entries that are True
    (masks of other types, only possible after load, are not modelled) *)
Definition count_true (l : list (scal T)) : nat := List.length (filter (@scal_true T _) l).
Definition percent (n v : nat) : T := n_mul (n_ofZ 100) (n_div (n_ofZ (Z.of_nat n)) (n_ofZ (Z.of_nat v))).
Definition gprop_lines (p : gprop T) : res (list string) :=
  let* lo := fo 4 (p_vmin p) in
  let* up := fo 4 (p_vmax p) in
  Ok (app ["";
       get_name (p_name p) ++ " [" ++ get_unit (p_unit p) ++ "]";
       copies 28 "-";
       "min value:    " ++ rjust 13 lo;
       "max value:    " ++ rjust 13 up;
       "mean value:   " ++ rjust 13 (fmt 4 (mean (p_data p)));
       "median value: " ++ rjust 13 (fmt 4 (median (p_data p)))]
      match p_mask p with
      | None => []
      | Some m => [""; "mask [out]:  " ++ rjust 14 (fmt 4 (percent (count_true (ma_elems m)) (volume (ma_shape m)))) ++ "%"]
      end).
Definition gprop_repr (p : gprop T) : res string := let* l := gprop_lines p in Ok (join newline l).
(** GridProperty.py:79-93 __str__ *)
Definition gprop_str (p : gprop T) : res string :=
  let* l := gprop_lines p in
  let* g := params_repr (p_params p) in
  Ok (join newline (app l [g])).

(** GridProperty.py:404-431 __repr__ of a gradient *)
Definition ggrad_lines (g : ggrad T) : res (list string) :=
  let* l := gprop_lines (gg_prop g) in
  let* pos := fv 4 (gg_pos g) in
  let l := match l with a :: b :: l => a :: (b ++ " @ pos = " ++ rjust 7 pos) :: l | l => l end in
  match p_mask (gg_prop g) with
  | None => Ok l
  | Some _ =>
    let* m := fo 4 (gg_meas g) in
    let* e := fo 4 (gg_err g) in
    let* o := fo 4 (gg_orb g) in
    let* t := fo 4 (gg_trans g) in
    Ok (app l ["measured gradient:   " ++ rjust 6 m; "measured error:      " ++ rjust 6 e;
              "orbital scale:    " ++ rjust 9 o; "transmission change: " ++ rjust 6 t])
  end.
Definition ggrad_repr (g : ggrad T) : res string := let* l := ggrad_lines g in Ok (join newline l).

Fixpoint map_res {A B} (f : A -> res B) (l : list A) : res (list B) :=
  match l with [] => Ok [] | a :: l => let* b := f a in let* m := map_res f l in Ok (b :: m) end.

(** Shallot.py:130-172 __repr__, also __str__ (117-127) *)
Definition shallot_repr (s : shallot T) : res string :=
  let* d := match s_dmap s with None => Err AttributeError | Some m => Ok (p_data m) end in
  let worst := dflt n_nan (nanmax (map n_abs d)) in
  let* m := combined_mask s in
  let masked := percent (List.length (filter (fun b => b) m)) (volume (shape3 (s_params s))) in
  let bar := copies 42 "=" in
  let* g := params_repr (s_params s) in
  let* a := gprop_repr (s_dr s) in
  let* b := gprop_repr (s_tilt s) in
  let* c := gprop_repr (s_inc s) in
  let* gr := map_res ggrad_repr (dflt [] (s_grads s)) in
  Ok (join newline
    (app ["" ; bar; "******** SHALLOT GRID INFORMATION ********"; bar; g; a; b; c] (app gr (app
     match s_diag s with None => [] | Some d => [diag_repr d] end
     [""; "Grid Information"; copies 28 "-"; "percentage masked: " ++ fmt 2 masked ++ "%";
      "worst interpolation fit: " ++ fmt 9 worst; ""; bar])))).
End T.
