(** Model of the pure part of building a grid in /repo/Shallot.py: the scale factor search, the
    interpolation on the rf axis, and the quadrant extension.
    Simplifications: logging is left to LogOps.v, progress bars are dropped; a [while] loop that has not ended after
    [e_fuel] rounds gives [OutOfFuel]. *)
From Coq Require Import ZArith List Bool String.
From Verif Require Import Num Py Validate Ring RingSystem FS GridParams Names GridProp Geometry.
Import ListNotations.
Set Implicit Arguments.

(** what the model is parametrised by: the elementary functions; the search for an interval in
    np.interp (numpy's is a bisection started from a guess, the previous result); the formatting
    "{:.4f}"; the fuel of the loops *)
Record env (T : Type) := mkEnv {
  e_libm : Libm T;
  e_search : T -> list T -> Z -> Z;
  e_fmt : T -> string;
  e_fuel : nat }.

Section B.
Context {T : Type} {NT : Num T}.
Notation pyval := (pyval T).

(** operator.index, as np.linspace applies it to its third argument, which must not be negative *)
Definition num_index (v : pyval) : res nat :=
  match v with
  | PBool b => Ok (if b then 1 else 0)
  | PInt z | PNpInt z => if Z.ltb z 0 then Err ValueError else Ok (Z.to_nat z)
  | _ => Err TypeError
  end.

(** ndarray.max: NaN if an entry is; the arrays it is applied to have entries *)
Definition amax (l : list T) : T := match l with [] => n_nan | x :: l => fold_left np_max l x end.

(** np.nanmin: NaN if all entries are; no entries: ValueError *)
Definition nan_min (l : list T) : res T :=
  match l with [] => Err ValueError | _ => Ok (dflt n_nan (nanmin l)) end.

(** ndarray.argmin of an array without NaN: the first of the least entries *)
Fixpoint argmin_from (l : list T) (i : nat) (best : T) (bi : nat) : nat :=
  match l with
  | [] => bi
  | x :: l => if n_lt x best then argmin_from l (S i) x i else argmin_from l (S i) best bi
  end.
Definition argmin (l : list T) : nat := match l with [] => 0 | x :: l => argmin_from l 1 x 0 end.
(** np.nanargmin: NaN replaced by infinity, then argmin; ValueError if all are NaN or none is there *)
Definition nanargmin (l : list T) : res nat :=
  if forallb n_isnan l then Err ValueError
  else Ok (argmin (map (fun x => if n_isnan x then n_inf else x) l)).

Context (E : env T).
Notation L := (e_libm E).

(** Shallot.py:393-422 _generate_fxy_array *)
Definition fxy_array (nf : pyval) (max : T) (shift : Z) : res (list T) :=
  let lo := if Z.eqb shift 1 then n_one else n_mul (n_ofZ (shift - 1)) max in
  let hi := n_mul (n_ofZ shift) max in
  let* n := num_index nf in
  Ok (linspace lo hi n).

(** Shallot.py:596-663 _determine_disk_parameters on arrays, with the checks of 521-523, 573-579
    (fx and fy are float arrays) *)
Definition disk_arrays (fx fy : list T) (s c : T) : res (list (T * T * T)) :=
  let* _ := number (PNpFloat s) false m_inf p_inf false in
  let* _ := number (PNpFloat c) false (PInt 0) p_inf false in
  Ok (map (fun p => disk_parameters L (fst p) (snd p) s c) (combine fx fy)).
Definition radii (l : list (T * T * T)) : list T := map (fun p => fst (fst p)) l.

(** Shallot.py:749-777 and 821-849: the loop.  [new] gives the fy and the radii of one round, [join]
    adds them to the previous ones, [outer] selects the entry compared with the maximum rf *)
Fixpoint stretch (fuel : nat) (new : Z -> res (list T * list T)) (join : list T -> list T -> list T)
    (outer : list T -> option T) (max max_rf : T) (shift : Z) (fys drs : list T) : res (list T * list T) :=
  match fuel with
  | O => Err OutOfFuel
  | S fuel =>
    let* fd := new shift in
    let fys := join (fst fd) fys in
    let drs := join (snd fd) drs in
    let* m := nan_min drs in
    match outer (snd fd) with
    | None => Err IndexError
    | Some r =>
      let again := n_lt (n_div r m) max_rf in
      let shift := if again then (shift + 1)%Z else shift in
      if n_gt (n_ofZ shift) (n_mul (num2 100) max) then Err AttributeError
      else if again then stretch fuel new join outer max max_rf shift fys drs
      else Ok (fys, drs)
    end
  end.

Definition first_opt (l : list T) : option T := match l with [] => None | x :: _ => Some x end.
Definition final_opt (l : list T) : option T := first_opt (rev l).

(** Shallot.py:754-761, one round of the horizontal loop *)
Definition new_horizontal (nf : pyval) (max dy s c : T) (shift : Z) : res (list T * list T) :=
  let* fx := fxy_array nf max shift in
  let fy := map (fun x => determine_fy x dy) fx in
  let* d := disk_arrays (rev fx) (rev fy) s c in
  Ok (rev fy, radii d).
(** Shallot.py:826-833, one round of the vertical loop *)
Definition new_vertical (nf : pyval) (max dy s c : T) (shift : Z) : res (list T * list T) :=
  let* fy := fxy_array nf max shift in
  let fx := map (fun y => determine_fx y dy) fy in
  let* d := disk_arrays fx fy s c in
  Ok (fy, radii d).

(** Shallot.py:708-777 _extend_grid_horizontally *)
Definition extend_horizontally (nf : pyval) (max max_rf dy s c : T) (fys drs : list T) : res (list T * list T) :=
  stretch (e_fuel E) (new_horizontal nf max dy s c) (fun new old => new ++ old) first_opt max max_rf 1 fys drs.
(** Shallot.py:780-849 _extend_grid_vertically *)
Definition extend_vertically (nf : pyval) (max max_rf dy s c : T) (fys drs : list T) : res (list T * list T) :=
  stretch (e_fuel E) (new_vertical nf max dy s c) (fun new old => old ++ new) final_opt max max_rf 1 fys drs.

(** np.interp (numpy/core/src/multiarray/compiled_base.c, arr_interp, not in /repo) at [x], in the
    interval [j] found by the search *)
Definition interp_in (xp fp : list T) (x : T) (j : Z) : T :=
  let n := Z.of_nat (List.length xp) in
  let X i := nth (Z.to_nat i) xp n_nan in
  let F i := nth (Z.to_nat i) fp n_nan in
  if Z.eqb j (-1) then F 0%Z
  else if Z.eqb j n then F (n - 1)%Z
  else if Z.eqb j (n - 1) then F j
  else if n_eq (X j) x then F j
  else
    let slope := ((F (j + 1)%Z - F j) / (X (j + 1)%Z - X j))%num in
    let r := (slope * (x - X j) + F j)%num in
    if negb (n_isnan r) then r
    else
      let r := (slope * (x - X (j + 1)%Z) + F (j + 1)%Z)%num in
      if n_isnan r && n_eq (F j) (F (j + 1)%Z) then F j else r.
Fixpoint interp_from (xp fp : list T) (xs : list T) (j : Z) : list T :=
  match xs with
  | [] => []
  | x :: xs =>
    if n_isnan x then x :: interp_from xp fp xs j
    else let j := e_search E x xp j in interp_in xp fp x j :: interp_from xp fp xs j
  end.
Definition np_interp (xs xp fp : list T) : res (list T) :=
  match xp, fp with
  | [], _ => Err ValueError
  | [p], v :: _ => Ok (map (fun x => v) xs)
  | _, _ => Ok (interp_from xp fp xs 0)
  end.

(** Shallot.py:852-902 _interpolate_scale_values: (fx_valid, fy_valid) *)
Definition interpolate (rf : list T) (dy : T) (fys drs : list T) : res (list T * list T) :=
  let* m := nan_min drs in
  let frac := map (fun d => n_div d m) drs in
  let* k := nanargmin drs in
  let* ix := np_interp rf (rev (firstn (S k) frac)) (rev (firstn (S k) fys)) in
  let* iy := np_interp rf (skipn k frac) (skipn k fys) in
  let fy := removelast (rev ix) ++ [nth k fys n_nan] ++ tl iy in
  Ok (map (fun y => determine_fx y dy) fy, fy).

(** the values computed at one grid point *)
Record column := mkCol { c_dr : list T; c_inc : list T; c_tilt : list T; c_fx : list T; c_fy : list T;
                         c_fys : list T; c_drs : list T }.

(** Shallot.py:973-987, the computation of one grid point; [dy] is its row's, [s] its shear, [c] its
    circular radius *)
Definition grid_point (g : gparams T) (nf : pyval) (dy s c : T) : res column :=
  let* max_rf := last_opt (g_rf g) in
  let* h := extend_horizontally nf (amax (g_dx g)) max_rf dy s c [] [] in
  let* v := extend_vertically nf (amax (g_dy g)) max_rf dy s c (fst h) (snd h) in
  let* i := interpolate (g_rf g) dy (fst v) (snd v) in
  let* d := disk_arrays (fst i) (snd i) s c in
  Ok (mkCol (radii d) (map (fun p => snd (fst p)) d) (map snd d) (fst i) (snd i) (fst v) (snd v)).

(** data[y, x] = row on a C-order array of the given shape; a row of length 1, which numpy would
    broadcast, only has another length than the axis if the files of a loaded grid contradict each other *)
Definition splice (l : list T) (off : nat) (row : list T) : list T :=
  firstn off l ++ row ++ skipn (off + List.length row) l.
Definition put_column (p : gprop T) (y x : nat) (row : list T) : res (gprop T) :=
  match p_shape p with
  | [ny; nx; nr] =>
    if Nat.ltb y ny && Nat.ltb x nx then
      if Nat.eqb (List.length row) nr then Ok (with_data p (splice (p_data p) ((y * nx + x) * nr) row))
      else Err ValueError
    else Err IndexError
  | _ => Err IndexError
  end.

(** a flat list cut into pieces of [n] *)
Fixpoint chunk_f {A} (fuel n : nat) (l : list A) : list (list A) :=
  match fuel with
  | O => []
  | S fuel => firstn n l :: chunk_f fuel n (skipn n l)
  end.
(** C-order data of shape (a, b, n) as a list of [a] rows of [b] columns of [n] entries *)
Definition cube {A} (a b n : nat) (l : list A) : list (list (list A)) := chunk_f a b (chunk_f (a * b) n l).
Definition flat {A} (c : list (list (list A))) : list A := List.concat (List.concat c).
Definition remove_at {A} (n : nat) (l : list A) : list A := firstn n l ++ skipn (S n) l.

(** Shallot.py:1253-1278: the four quadrants, without the duplicate row and column *)
Definition quadrants (is_tilt : bool) (ny nx : nat) (q1 : list (list (list T))) : list (list (list T)) :=
  let q2 := map (@rev _) q1 in
  let q3 := rev q2 in
  let q4 := rev q1 in
  let adjust q := if is_tilt then map (map (map (fun x => n_sub (num2 180) x))) q else q in
  let beside a b := map (fun p => fst p ++ snd p) (combine a b) in
  let full := beside q3 (adjust q4) ++ beside (adjust q2) q1 in
  map (remove_at nx) (remove_at ny full).

(** Shallot.py:1224-1286 _fill_quadrants; [g] are the grid's extended parameters *)
Definition fill_quadrants (g : gparams T) (p : gprop T) (is_tilt : bool) : res (gprop T) :=
  match p_shape p with
  | [ny; nx; nr] =>
    let sh := [2 * ny - 1; 2 * nx - 1; nr] in
    if negb (shape_eqb (shape3 g) sh) then Err AttributeError
    else
      let l := flat (quadrants is_tilt ny nx (cube ny nx nr (p_data p))) in
      let* q := new_gprop (EIs (p_name p)) (EIs (p_unit p)) (PArr "float64" sh (map (@SF T) l)) (EIs g) in
      if is_tilt then
        match set_contrast q None None (Some (PStr "twilight")) None with (q, Ok _) => Ok q | (_, Err e) => Err e end
      else Ok q
  | _ => Err ValueError
  end.

(** Shallot.py:1176-1181: disk radius over the smallest one, minus the expected fraction; an empty rf
    would select the last entry.  Simplification: the cube is taken to be of the shape of the parameters, as it
    is for every built grid; when the files of a loaded grid contradict each other (rf_array of another length
    than the third axis) numpy would broadcast or raise, which is not modelled. *)
Definition diagnostic_values (g : gparams T) (p : gprop T) : res (list T) :=
  match p_shape p with
  | [ny; nx; nr] =>
    let k := match List.length (g_rf g) with O => (nr - 1)%nat | S k => k end in
    if Nat.ltb k nr then
      Ok (List.concat (map (fun col => map (fun de => n_sub (n_div (fst de) (nth k col n_nan)) (snd de)) (combine col (g_rfa g)))
                      (chunk_f (ny * nx) nr (p_data p))))
    else Err IndexError
  | _ => Err IndexError
  end.
(** Shallot.py:1166-1189 diagnose_fxfy_resolution *)
Definition diagnose (g : gparams T) (p : gprop T) : res (gprop T) :=
  let* v := diagnostic_values g p in
  new_gprop (EIs DIAGNOSTIC_MAP) (EIs ECLIPSE_DURATION) (PArr "float64" (p_shape p) (map (@SF T) v)) (EIs g).
End B.
Arguments column : clear implicits.
