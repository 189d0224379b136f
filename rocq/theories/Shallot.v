(** Model of /repo/Shallot.py: the object, its construction, saving and loading.
    Simplifications: objects are values (the parameters given to the constructor, which it extends, are
    returned); logging and progress bars are dropped; __str__/__repr__ are in Text.v. *)
From Coq Require Import ZArith List Bool String Ascii.
From Verif Require Import Num Py Validate Ring RingSystem FS GridParams GridDiag Names GridProp Geometry Build.
Import ListNotations.
Set Implicit Arguments.
Local Open Scope string_scope.
Local Open Scope list_scope.

(** Shallot.py:21 TEMP_SAVE_DIR *)
Definition TEMP : string := "./.temp_shallot".

Section S.
Context {T : Type} {NT : Num T} (E : env T).
Notation pyval := (pyval T).

(** the attributes of a ShallotGrid (Shallot.py:86-114); the five cubes are the ones set by
    _initialise_grid_properties or _load_grid_attributes *)
Record shallot := mkSh {
  s_params : gparams T; s_nf : pyval; s_diag : option (gdiag T);
  s_radius : list T; s_shear : list T;
  s_dr : gprop T; s_inc : gprop T; s_tilt : gprop T; s_fx : gprop T; s_fy : gprop T;
  s_dmap : option (gprop T); s_grads : option (list (ggrad T)); s_fit : option (gprop T);
  s_ecl : option pyval; s_vel : option pyval; s_limb : option pyval }.

Definition with_cubes (s : shallot) dr inc tilt fx fy :=
  mkSh (s_params s) (s_nf s) (s_diag s) (s_radius s) (s_shear s) dr inc tilt fx fy
       (s_dmap s) (s_grads s) (s_fit s) (s_ecl s) (s_vel s) (s_limb s).
Definition with_diag (s : shallot) d :=
  mkSh (s_params s) (s_nf s) d (s_radius s) (s_shear s) (s_dr s) (s_inc s) (s_tilt s) (s_fx s) (s_fy s)
       (s_dmap s) (s_grads s) (s_fit s) (s_ecl s) (s_vel s) (s_limb s).
Definition with_dmap (s : shallot) m :=
  mkSh (s_params s) (s_nf s) (s_diag s) (s_radius s) (s_shear s) (s_dr s) (s_inc s) (s_tilt s) (s_fx s) (s_fy s)
       m (s_grads s) (s_fit s) (s_ecl s) (s_vel s) (s_limb s).
Definition with_grads (s : shallot) gr fit :=
  mkSh (s_params s) (s_nf s) (s_diag s) (s_radius s) (s_shear s) (s_dr s) (s_inc s) (s_tilt s) (s_fx s) (s_fy s)
       (s_dmap s) gr fit (s_ecl s) (s_vel s) (s_limb s).
Definition with_eclipse (s : shallot) ecl vel limb :=
  mkSh (s_params s) (s_nf s) (s_diag s) (s_radius s) (s_shear s) (s_dr s) (s_inc s) (s_tilt s) (s_fx s) (s_fy s)
       (s_dmap s) (s_grads s) (s_fit s) ecl vel limb.

(** a sequence of file-system effects, and the result if none of them raises *)
Definition prog (A : Type) : Type := list (step T) * res A.
Definition perform {A} (f : fs T) (p : prog A) : fs T * res A :=
  match run f (fst p) with (f', Ok _) => (f', snd p) | (f', Err e) => (f', Err e) end.

(** Shallot.py:354-359; 362-390: row by row *)
Definition radius_of_params (g : gparams T) : list T := map (circular_radius (e_libm E)) (g_dy g).
Definition shear_of_params (g : gparams T) : list T :=
  flat_map (fun dy => map (fun dx => shear_at dx dy) (g_dx g)) (g_dy g).

(** Shallot.py:666-683 _initialise_grid_properties *)
Definition empty_cube (g : gparams T) (n : pname) (u : punit) : res (gprop T) :=
  new_gprop (EIs n) (EIs u) (PArr "float64" (shape3 g) (repeat (SF n_nan) (volume (shape3 g)))) (EIs g).
Definition init_props (s : shallot) : res shallot :=
  let g := s_params s in
  let* dr := empty_cube g DISK_RADIUS ECLIPSE_DURATION in
  let* inc := empty_cube g INCLINATION DEGREE in
  let* tilt := empty_cube g TILT DEGREE in
  let* fx := empty_cube g FX_MAP NONE in
  let* fy := empty_cube g FY_MAP NONE in
  Ok (with_cubes s dr inc tilt fx fy).

(** Shallot.py:175-212 save; diagnostics.save() of line 212 lacks its argument *)
Definition save_files (s : shallot) (d : string) : list (step T) :=
  [SWrite (under d "num_fxfy.npy") (np_array [Some (s_nf s)])] ++
  params_save (s_params s) d ++
  gprop_save (s_dr s) d ++ gprop_save (s_inc s) d ++ gprop_save (s_tilt s) d ++
  gprop_save (s_fx s) d ++ gprop_save (s_fy s) d ++
  match s_grads s with None => [] | Some gs => flat_map (fun g => grad_save (e_fmt E) g d) gs end ++
  match s_diag s with None => [] | Some _ => [SRaise TypeError] end.
Definition shallot_save (s : shallot) (directory : pyval) (y_value : option pyval) : list (step T) :=
  match string_v directory with
  | Err e => [SRaise e]
  | Ok d =>
    (if String.eqb d TEMP then SMkdirIf d else SMkdir d) ::
    match y_value with
    | None => save_files s d
    | Some v =>
      match number v true (PInt 0) (PInt (Z.of_nat (List.length (g_dy (s_params s))))) false with
      | Err e => [SRaise e]
      | Ok v => SWrite (under d "y_value.npy") (np_array [Some v]) :: save_files s d
      end
    end
  end.

(** Shallot.py:966-998, one grid point of _build_grid *)
Definition build_point (y : nat) (s : shallot) (x : nat) : res shallot :=
  let g := s_params s in
  let c := nth y (s_radius s) n_nan in
  let sh := nth (y * List.length (g_dx g) + x) (s_shear s) n_nan in
  if n_isnan sh then Ok s
  else
    let* col := grid_point E g (s_nf s) (nth y (g_dy g) n_nan) sh c in
    let* dr := put_column (s_dr s) y x (c_dr col) in
    let* inc := put_column (s_inc s) y x (c_inc col) in
    let* tilt := put_column (s_tilt s) y x (c_tilt col) in
    let* fx := put_column (s_fx s) y x (c_fx col) in
    let* fy := put_column (s_fy s) y x (c_fy col) in
    let s := with_cubes s dr inc tilt fx fy in
    match s_diag s with
    | None => Ok s
    | Some d =>
      let v l := PArr "float64" [List.length l] (map (@SF T) l) in
      match save_diagnostic d (PInt (Z.of_nat y)) (PInt (Z.of_nat x)) (v (c_fys col)) (v (c_drs col)) with
      | (d, Ok _) => Ok (with_diag s (Some d))
      | (_, Err e) => Err e
      end
    end.

Fixpoint fold_res {A S} (f : S -> A -> res S) (l : list A) (s : S) : res S :=
  match l with [] => Ok s | a :: l => let* s := f s a in fold_res f l s end.

(** Shallot.py:964-998, one row *)
Definition build_row (s : shallot) (y : nat) : res shallot :=
  fold_res (build_point y) (seq 0 (List.length (g_dx (s_params s)))) s.
(** Shallot.py:961-1001 *)
Fixpoint build_rows (intermittent : bool) (ys : list nat) (s : shallot) : prog shallot :=
  match ys with
  | [] => ([], Ok s)
  | y :: ys =>
    match build_row s y with
    | Err e => ([], Err e)
    | Ok s =>
      let save := if intermittent then shallot_save s (PStr TEMP) (Some (PInt (Z.of_nat y))) else [] in
      let '(l, r) := build_rows intermittent ys s in (save ++ l, r)
    end
  end.

Definition contrast (p : gprop T) (cmap : string) : res (gprop T) :=
  match set_contrast p None None (Some (PStr cmap)) None with (p, Ok _) => Ok p | (_, Err e) => Err e end.
Definition contrast_plain (p : gprop T) : res (gprop T) :=
  match set_contrast_default p with (p, Ok _) => Ok p | (_, Err e) => Err e end.
Definition contrast_grad (g : ggrad T) : res (ggrad T) :=
  let* p := contrast_plain (gg_prop g) in Ok (with_prop g p).
Fixpoint map_res {A B} (f : A -> res B) (l : list A) : res (list B) :=
  match l with [] => Ok [] | a :: l => let* b := f a in let* bs := map_res f l in Ok (b :: bs) end.
Definition opt_res {A B} (f : A -> res B) (o : option A) : res (option B) :=
  match o with None => Ok None | Some a => let* b := f a in Ok (Some b) end.
(** Shallot.py:905-922 _set_grid_property_contrast_parameters *)
Definition set_contrasts (s : shallot) : res shallot :=
  let* dr := contrast (s_dr s) "viridis" in
  let* inc := contrast (s_inc s) "viridis" in
  let* tilt := contrast (s_tilt s) "twilight" in
  let* fx := contrast (s_fx s) "viridis" in
  let* fy := contrast (s_fy s) "viridis" in
  let* m := opt_res contrast_plain (s_dmap s) in
  let* gs := opt_res (map_res contrast_grad) (s_grads s) in
  Ok (with_grads (with_dmap (with_cubes s dr inc tilt fx fy) m) gs (s_fit s)).

(** Shallot.py:925-1004 _build_grid; 686-705 for the temporary directory *)
Definition build_grid (s : shallot) (intermittent : bool) (start_y : pyval) : prog shallot :=
  match number start_y true (PInt 0) (PInt (Z.of_nat (List.length (g_dy (s_params s))))) false with
  | Err e => ([], Err e)
  | Ok v =>
    match (if Z.eqb (int_of v) 0 then init_props s else Ok s) with
    | Err e => ([], Err e)
    | Ok s =>
      let mk := if intermittent then [SRmtree TEMP; SMkdir TEMP] else [] in
      let k := Z.to_nat (int_of v) in
      match build_rows intermittent (seq k (List.length (g_dy (s_params s)) - k)) s with
      | (l, Err e) => (mk ++ l, Err e)
      | (l, Ok s) =>
        match set_contrasts s with
        | Err e => (mk ++ l, Err e)
        | Ok s => (mk ++ l ++ [SRmtree TEMP], Ok s)
        end
      end
    end
  end.

(** Shallot.py:1289-1313 _extend_grid; also gives the parameters as the caller's object then is *)
Definition extend_shallot (s : shallot) : gparams T * res shallot :=
  match extend_grid (s_params s) with
  | (g, Err AttributeError) => (g, Ok s)
  | (g, Err e) => (g, Err e)
  | (g, Ok _) =>
    (g,
     let* dr := fill_quadrants g (s_dr s) false in
     let* inc := fill_quadrants g (s_inc s) false in
     let* tilt := fill_quadrants g (s_tilt s) true in
     let* fx := fill_quadrants g (s_fx s) false in
     let* fy := fill_quadrants g (s_fy s) false in
     Ok (mkSh g (s_nf s) (option_map (@diag_extend T) (s_diag s)) (radius_of_params g) (shear_of_params g)
              dr inc tilt fx fy (s_dmap s) (s_grads s) (s_fit s) (s_ecl s) (s_vel s) (s_limb s)))
  end.

(** Shallot.py:1166-1189 diagnose_fxfy_resolution *)
Definition diagnose_shallot (s : shallot) : res shallot :=
  let* m := diagnose (s_params s) (s_dr s) in Ok (with_dmap s (Some m)).

(** extend and diagnose after building (Shallot.py:113-114, 294-295) *)
Definition finish_shallot (s : shallot) : gparams T * res shallot :=
  match extend_shallot s with
  | (g, Ok s) => (g, diagnose_shallot s)
  | (g, Err e) => (g, Err e)
  end.

(** the object before its cubes exist (Shallot.py:86-107); the placeholders for the cubes are replaced
    before they are read *)
Definition blank_cube (g : gparams T) (n : pname) (u : punit) : gprop T :=
  mkGPr n u g (shape3 g) (repeat n_nan (volume (shape3 g))) None None "viridis" (PInt 11) None.
Definition fresh_shallot (g : gparams T) (nf : pyval) (d : option (gdiag T)) : shallot :=
  mkSh g nf d (radius_of_params g) (shear_of_params g)
       (blank_cube g DISK_RADIUS ECLIPSE_DURATION) (blank_cube g INCLINATION DEGREE) (blank_cube g TILT DEGREE)
       (blank_cube g FX_MAP NONE) (blank_cube g FY_MAP NONE) None None None None None None.

(** Shallot.py:56-114 constructor: the parameters afterwards, and effects with the result *)
Definition new_shallot (parameters : earg (gparams T)) (num_fxfy logging_level keep_diagnostics intermittent : pyval)
  : option (gparams T) * prog shallot :=
  let fail e := (match parameters with EIs g => Some g | EOther => None end, ([], Err e)) in
  match
   (let* _ := number logging_level true (PInt 10) (PInt 50) false in
    let* g := class_arg parameters in
    let* nf := number num_fxfy true (PInt 1) p_inf false in
    let* keep := boolean_v keep_diagnostics in
    let* inter := boolean_v intermittent in
    Ok (fresh_shallot g nf (if keep then Some (new_diag g) else None), inter))
  with
  | Err e => fail e
  | Ok (s, inter) =>
    match build_grid s inter (PInt 0) with
    | (l, Err e) => (Some (s_params s), (l, Err e))
    | (l, Ok s) => let '(g, r) := finish_shallot s in (Some g, (l, r))
    end
  end.

(** os.path.splitext(name)[1] == "" for a name without slash: no dot, or only dots before the last one *)
Fixpoint has_char (c : ascii) (s : string) : bool :=
  match s with EmptyString => false | String a s => Ascii.eqb a c || has_char c s end.
Fixpoint no_ext (s : string) : bool :=
  match s with
  | EmptyString => true
  | String a s => if Ascii.eqb a "." then no_ext s else negb (has_char "." s)
  end.

(** Shallot.py:215-258 _load_grid_attributes on the object [s]; GridGradient.load_gradient (249) does not
    exist, so any entry without an extension raises AttributeError.  np.load(...)[0] of num_fxfy. *)
Definition load_attributes (f : fs T) (s : shallot) (d : string) : res shallot :=
  let* x := np_load f (under d "num_fxfy.npy") in
  let* nf := match snd x with n :: _ => Ok (np_item n) | [] => Err IndexError end in
  let* g := params_load f d in
  let* dr := gprop_load f (PStr d) (EIs DISK_RADIUS) (EIs ECLIPSE_DURATION) in
  let* inc := gprop_load f (PStr d) (EIs INCLINATION) (EIs DEGREE) in
  let* tilt := gprop_load f (PStr d) (EIs TILT) (EIs DEGREE) in
  let* fx := gprop_load f (PStr d) (EIs FX_MAP) (EIs NONE) in
  let* fy := gprop_load f (PStr d) (EIs FY_MAP) (EIs NONE) in
  let diag := match diag_load f d with Ok g => Some g | Err _ => s_diag s end in
  if String.eqb d "" then Err FileNotFound
  else if existsb no_ext (listdir f d) then Err AttributeError
  else Ok (mkSh g nf diag (radius_of_params g) (shear_of_params g) dr inc tilt fx fy
                (s_dmap s) None (s_fit s) (s_ecl s) (s_vel s) (s_limb s)).

(** Shallot.py:281-282: the throw-away grid that load builds first *)
Definition dummy : option (gparams T) * prog shallot :=
  match new_params (PInt 0) (PInt 1) (PInt 2) (PInt 0) (PInt 1) (PInt 2) (PInt 2) (PInt 2) with
  | Err e => (None, ([], Err e))
  | Ok g => new_shallot (EIs g) (PInt 100) (PInt 50) (PBool false) (PBool false)
  end.

(** Shallot.py:285-295, after the throw-away grid [s] has been built *)
Definition load_into (f : fs T) (s : shallot) (d : string) (logging_level : pyval) : fs T * res shallot :=
  match load_attributes f s d with
  | Err e => (f, Err e)
  | Ok s =>
    match number logging_level true (PInt 10) (PInt 50) false with
    | Err e => (f, Err e)
    | Ok _ =>
      if fs_exists f (under d "y_value.npy") then
        match
         (let* x := np_load f (under d "y_value.npy") in
          match snd x with n :: _ => Ok (np_item n) | [] => Err IndexError end)
        with
        | Err e => (f, Err e)
        | Ok v =>
          match perform f (build_grid s true v) with
          | (f, Err e) => (f, Err e)
          | (f, Ok s) => (f, snd (finish_shallot s))
          end
        end
      else (f, snd (finish_shallot s))
    end
  end.
(** Shallot.py:261-297 load *)
Definition shallot_load (f : fs T) (directory logging_level : pyval) : fs T * res shallot :=
  match string_v directory with
  | Err e => (f, Err e)
  | Ok d =>
    match perform f (snd dummy) with
    | (f, Err e) => (f, Err e)
    | (f, Ok s) => load_into f s d logging_level
    end
  end.
End S.
Arguments shallot : clear implicits.
