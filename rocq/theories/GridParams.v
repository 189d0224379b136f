(** Model of /repo/GridParameters.py.
    Simplifications: dx, dy are the flat vectors (the code stores them with shapes (1, n, 1) and
    (n, 1, 1)); grid_shape and slice_shape are one triple; integers beyond the float range and memory
    exhaustion are not modelled; __str__/__repr__ are in Text.v. *)
From Coq Require Import ZArith List Bool String.
From Verif Require Import Num Py Validate Ring RingSystem FS.
Import ListNotations.
Set Implicit Arguments.

Section GP.
Context {T : Type} {NT : Num T}.
Notation pyval := (pyval T).

(** np.linspace(start, stop, num), num >= 1 (numpy/core/function_base.py, not in /repo) *)
Definition linspace (start stop : T) (num : nat) : list T :=
  let delta := (stop - start)%num in
  let div := n_ofnat (num - 1) in
  let step := (delta / div)%num in
  let raw i :=
    (match (num - 1)%nat with
     | O => n_ofnat i * delta
     | S _ => if n_eq step n_zero then n_ofnat i / div * delta else n_ofnat i * step
     end)%num in
  map (fun i => if Nat.ltb 1 num && Nat.eqb i (num - 1) then stop else (raw i + start)%num) (seq 0 num).

(** GridParameters.py:49-54 *)
Record gparams := mkGP { g_dx : list T; g_dy : list T; g_rf : list T; g_rfa : list T;
                         g_shape : nat * nat * nat; g_ext : bool }.

(** GridParameters.py:103-133 _determine_dx; _determine_dy (136-166) is the same code *)
Definition determine_axis (mn mx num : pyval) : res (list T) :=
  let* mn := number mn false m_inf p_inf false in
  let* mx := number mx false m_inf p_inf false in
  if v_cmp (@s_ge T _) mn mx then Err ValueError
  else
    let* num := number num true (PInt 1) p_inf false in
    Ok (linspace (num_of mn) (num_of mx) (Z.to_nat (int_of num))).

(** GridParameters.py:169-196 _determine_rf *)
Definition determine_rf (max_rf num_rf : pyval) : res (list T * list T) :=
  let* max_rf := number max_rf false (PInt 1) p_inf false in
  let* num_rf := number num_rf true (PInt 1) p_inf false in
  let rf := linspace n_one (num_of max_rf) (Z.to_nat (int_of num_rf)) in
  Ok (rf, rev rf ++ tl rf).

(** GridParameters.py:208-214 _set_extendable: dy[0] == 0 and dx[0] == 0 *)
Definition extendable_of (dx dy : list T) : res bool :=
  match dy with
  | [] => Err IndexError
  | y :: _ => if n_eq y n_zero then match dx with [] => Err IndexError | x :: _ => Ok (n_eq x n_zero) end else Ok false
  end.

Definition shape_of_vectors (dx dy rfa : list T) : nat * nat * nat :=
  (List.length dy, List.length dx, List.length rfa).

(** GridParameters.py:199-214 *)
Definition finish (dx dy rf rfa : list T) : res gparams :=
  let* e := extendable_of dx dy in
  Ok (mkGP dx dy rf rfa (shape_of_vectors dx dy rfa) e).

(** GridParameters.py:24-54 constructor *)
Definition new_params (min_x max_x num_x min_y max_y num_y max_rf num_rf : pyval) : res gparams :=
  let* dx := determine_axis min_x max_x num_x in
  let* dy := determine_axis min_y max_y num_y in
  let* r := determine_rf max_rf num_rf in
  finish dx dy (fst r) (snd r).

Definition last_opt (l : list T) : res T := match rev l with [] => Err IndexError | x :: _ => Ok x end.

(** GridParameters.py:217-232 extend_grid: dx is replaced before dy is computed *)
Definition extend_grid (g : gparams) : gparams * res unit :=
  if negb (g_ext g) then (g, Err AttributeError)
  else
    let '(ny, nx, _) := g_shape g in
    match last_opt (g_dy g), last_opt (g_dx g) with
    | Ok max_y, Ok max_x =>
      match determine_axis (PNpFloat (n_neg max_x)) (PNpFloat max_x) (PInt (2 * Z.of_nat nx - 1)) with
      | Err e => (g, Err e)
      | Ok dx =>
        let g1 := mkGP dx (g_dy g) (g_rf g) (g_rfa g) (g_shape g) (g_ext g) in
        match determine_axis (PNpFloat (n_neg max_y)) (PNpFloat max_y) (PInt (2 * Z.of_nat ny - 1)) with
        | Err e => (g1, Err e)
        | Ok dy =>
          let sh := shape_of_vectors dx dy (g_rfa g) in
          match extendable_of dx dy with
          | Err e => (mkGP dx dy (g_rf g) (g_rfa g) sh (g_ext g), Err e)
          | Ok ex => (mkGP dx dy (g_rf g) (g_rfa g) sh ex, Ok tt)
          end
        end
      end
    | Err e, _ | _, Err e => (g, Err e)
    end.

Definition float_arr (shape : list nat) (l : list T) : content T := CNpy "float64" shape (map (@SF T) l).

(** GridParameters.py:260-269 save, in a directory given as a string *)
Definition params_save (g : gparams) (d : string) : list (step T) :=
  [ SMkdirIf d;
    SWrite (under d "dx.npy") (float_arr [1; List.length (g_dx g); 1] (g_dx g));
    SWrite (under d "dy.npy") (float_arr [List.length (g_dy g); 1; 1] (g_dy g));
    SWrite (under d "rf.npy") (float_arr [List.length (g_rf g)] (g_rf g));
    SWrite (under d "rf_array.npy") (float_arr [List.length (g_rfa g)] (g_rfa g)) ].

(** GridParameters.py:259: a directory that is not a string raises before any effect *)
Definition params_save_v (g : gparams) (v : pyval) : list (step T) :=
  match string_v v with Ok d => params_save g d | Err e => [SRaise e] end.

Definition load_floats (f : fs T) (p : string) : res (list T) :=
  let* x := np_load f p in Ok (map (@num_scal T _) (snd x)).

(** GridParameters.py:272-302 load (the object of line 289 is made from valid literals); arrays
    are read as flat vectors *)
Definition params_load (f : fs T) (d : string) : res gparams :=
  match
   (let* dx := load_floats f (under d "dx.npy") in
    let* dy := load_floats f (under d "dy.npy") in
    let* rf := load_floats f (under d "rf.npy") in
    let* rfa := load_floats f (under d "rf_array.npy") in
    finish dx dy rf rfa)
  with Ok g => Ok g | Err _ => Err LoadErr end.
End GP.
Arguments gparams : clear implicits.
