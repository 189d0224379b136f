(** Model of /repo/Shallot.py, the methods of a finished grid: getters, masks, gradients, fit, solutions.
    A method takes the object and gives the object as it then is, also when it raises.
    Simplifications: logging is left to LogOps.v, progress bars are dropped; arrays are flat C-order lists with a shape;
    data arrays returned by the getters are shared with the object in Python, so later writes by the
    caller would change the object: here the returned data are values, and writes made by the methods
    themselves (extract_solutions) are made on the object. *)
From Coq Require Import ZArith List Bool String.
From Verif Require Import Num Py Validate Ring RingSystem FS GridParams GridDiag Names GridProp Geometry Build Shallot.
Import ListNotations.
Set Implicit Arguments.
Local Open Scope string_scope.
Local Open Scope list_scope.

Section O.
Context {T : Type} {NT : Num T} (E : env T).
Notation pyval := (pyval T).
Notation shallot := (shallot T).

(** a method *)
Definition M (A : Type) : Type := shallot -> shallot * res A.
Definition ret {A} (a : A) : M A := fun s => (s, Ok a).
Definition raise {A} (e : exn) : M A := fun s => (s, Err e).
Definition lift {A} (r : res A) : M A := fun s => (s, r).
Definition mbind {A B} (m : M A) (f : A -> M B) : M B :=
  fun s => match m s with (s, Ok a) => f a s | (s, Err e) => (s, Err e) end.
Notation "'do' x <- a ; b" := (mbind a (fun x => b)) (at level 200, x pattern, a at level 100, b at level 200).

Definition set_dr (s : shallot) p := with_cubes s p (s_inc s) (s_tilt s) (s_fx s) (s_fy s).
Definition set_inc (s : shallot) p := with_cubes s (s_dr s) p (s_tilt s) (s_fx s) (s_fy s).
Definition set_tilt (s : shallot) p := with_cubes s (s_dr s) (s_inc s) p (s_fx s) (s_fy s).
Definition set_fx (s : shallot) p := with_cubes s (s_dr s) (s_inc s) (s_tilt s) p (s_fy s).
Definition set_fy (s : shallot) p := with_cubes s (s_dr s) (s_inc s) (s_tilt s) (s_fx s) p.
Definition set_dmap (s : shallot) p := with_dmap s (Some p).
Definition set_fit (s : shallot) p := with_grads s (s_grads s) (Some p).

(** Shallot.py:1910-1915: the masks that are combined *)
Definition all_masks (s : shallot) : list (option (marr T)) :=
  [p_mask (s_dr s); p_mask (s_inc s); p_mask (s_tilt s)] ++
  match s_grads s with None => [] | Some gs => map (fun g => p_mask (gg_prop g)) gs end.
(** Shallot.py:1919-1920.  A mask of another shape (only after loading files not written by this
    program) is taken to raise ValueError; numpy would broadcast some of them. *)
Definition add_mask (sh : list nat) (acc : list T) (m : option (marr T)) : res (list T) :=
  match m with
  | None => Ok acc
  | Some m =>
    if shape_eqb (ma_shape m) sh
    then Ok (map (fun p => n_add (fst p) (num_scal (snd p))) (combine acc (ma_elems m)))
    else Err ValueError
  end.
(** Shallot.py:1899-1922 get_combined_mask *)
Definition combined_mask (s : shallot) : res (list bool) :=
  let sh := shape3 (s_params s) in
  let* v := fold_res (add_mask sh) (all_masks s) (repeat n_zero (volume sh)) in
  Ok (map (fun x => negb (n_eq x n_zero)) v).

(** data[mask] = np.nan *)
Definition erase (l : list T) (m : list bool) : list T := blank l (map (@SB T) m).

(** the body shared by the getters (Shallot.py:1028-1035 and so on): the property [p] of the object,
    [put] puts it back *)
Definition read_property (p : gprop T) (put : gprop T -> shallot) (masked property_masked : pyval) : shallot * res (list nat * list T) :=
  match get_data p property_masked with
  | (p, Err e) => (put p, Err e)
  | (p, Ok d) =>
    match boolean_v masked with
    | Err e => (put p, Err e)
    | Ok false => (put p, Ok d)
    | Ok true =>
      match combined_mask (put p) with
      | Err e => (put p, Err e)
      | Ok m =>
        if shape_eqb (fst d) (shape3 (s_params (put p))) then
          let p := with_data p (erase (p_data p) m) in (put p, Ok (fst d, p_data p))
        else (put p, Err IndexError)
      end
    end
  end.

(** Shallot.py:1007-1035 *)
Definition get_disk_radius (masked pm : pyval) : M (list nat * list T) := fun s => read_property (s_dr s) (set_dr s) masked pm.
(** Shallot.py:1038-1067 *)
Definition get_inclination (masked pm : pyval) : M (list nat * list T) := fun s => read_property (s_inc s) (set_inc s) masked pm.
(** Shallot.py:1070-1098 *)
Definition get_tilt (masked pm : pyval) : M (list nat * list T) := fun s => read_property (s_tilt s) (set_tilt s) masked pm.
(** Shallot.py:1101-1130 *)
Definition get_fx_map (masked pm : pyval) : M (list nat * list T) := fun s => read_property (s_fx s) (set_fx s) masked pm.
(** Shallot.py:1133-1163 *)
Definition get_fy_map (masked pm : pyval) : M (list nat * list T) := fun s => read_property (s_fy s) (set_fy s) masked pm.
(** Shallot.py:1192-1221 *)
Definition get_diagnostic_map (masked pm : pyval) : M (list nat * list T) := fun s =>
  match s_dmap s with None => (s, Err AttributeError) | Some m => read_property m (set_dmap s) masked pm end.
(** Shallot.py:1769-1801 *)
Definition get_gradient_fit (masked pm : pyval) : M (option (list nat * list T)) := fun s =>
  match s_fit s with
  | None => (s, Ok None)
  | Some p => match read_property p (set_fit s) masked pm with (s, Ok d) => (s, Ok (Some d)) | (s, Err e) => (s, Err e) end
  end.

(** Shallot.py:1875-1896 generate_hill_radius_mask *)
Definition hill_mask (h : T) (l : list T) : list bool := map (fun x => n_isnan x || n_gt x h) l.
Definition generate_hill_radius_mask (hill_radius : pyval) : M unit := fun s =>
  match number hill_radius false (PFloat n_zero) p_inf false with
  | Err e => (s, Err e)
  | Ok h =>
    let '(p, r) := set_mask (s_dr s) (PArr "bool" (shape3 (s_params s)) (map (@SB T) (hill_mask (num_of h) (p_data (s_dr s))))) in
    (set_dr s p, r)
  end.

(** Shallot.py:1346-1358: one position, all grid points *)
Definition gradient_values (s : shallot) (position : T) : list T :=
  let g := s_params s in
  let nx := List.length (g_dx g) in let nr := List.length (g_rfa g) in
  map (fun k => let y := (k / (nx * nr))%nat in let x := (k / nr mod nx)%nat in
         gradient_at (e_libm E) position (nth x (g_dx g) n_nan) (nth y (g_dy g) n_nan) (nth (y * nx + x) (s_shear s) n_nan)
                     (nth k (p_data (s_fx s)) n_nan) (nth k (p_data (s_fy s)) n_nan))
      (seq 0 (volume (shape3 g))).
(** Shallot.py:1341-1360 *)
Fixpoint append_gradients (positions : list T) : M unit :=
  match positions with
  | [] => ret tt
  | p :: ps => fun s =>
    match new_grad (PArr "float64" (shape3 (s_params s)) (map (@SF T) (gradient_values s p))) (EIs (s_params s)) (PNpFloat p) with
    | Err e => (s, Err e)
    | Ok g => append_gradients ps (with_grads s (Some (dflt [] (s_grads s) ++ [g])) (s_fit s))
    end
  end.
(** Shallot.py:1316-1360 _determine_disk_gradients (its argument is a one-dimensional float array) *)
Definition determine_disk_gradients (positions : list T) : M unit := fun s =>
  append_gradients positions (with_grads s (Some (dflt [] (s_grads s))) (s_fit s)).

(** the number types of Python's own, for which division by zero raises *)
Definition own_number (v : pyval) : bool := match v with PBool _ | PInt _ | PFloat _ => true | _ => false end.
Definition is_number (v : pyval) : bool := match scal_of v with Some _ => true | None => false end.
(** Shallot.py:1363-1382 _determine_orbital_scale.  The attributes are None or what was stored:
    update_gradient_scaling stores unchecked values.  Values other than numbers raise TypeError
    (numpy scalars of other types and arrays, with which numpy would compute, are not modelled;
    neither are integers beyond 2^53). *)
Definition determine_orbital_scale (s : shallot) : res pyval :=
  match s_limb s, s_vel s with
  | Some u, Some v =>
    if is_number u && is_number v then
      let x := num_of u in let y := num_of v in
      let den := n_add (n_sub (num2 12) (n_mul (num2 12) x)) (n_mul (n_mul (num2 3) (m_pi (e_libm E))) x) in
      if own_number u && n_eq den n_zero then Err ZeroDivision
      else if own_number v && n_eq y n_zero then Err ZeroDivision
      else let o := orbital_scale_of (e_libm E) x y in
           Ok (if own_number u && own_number v then PFloat o else PNpFloat o)
    else Err TypeError
  | _, _ => Err TypeError
  end.

(** a loop over objects of a list together with other values, as zip does; it ends at the first exception *)
Fixpoint each2 {A B C} (f : A -> B -> A * res C) (l : list A) (m : list B) : list A * res (list C) :=
  match l, m with
  | a :: l, b :: m =>
    match f a b with
    | (a, Err e) => (a :: l, Err e)
    | (a, Ok c) => match each2 f l m with (l, Ok cs) => (a :: l, Ok (c :: cs)) | (l, Err e) => (a :: l, Err e) end
    end
  | _, _ => (l, Ok [])
  end.

(** Shallot.py:1385-1449 _set_measured_gradients_and_masks; the first argument was checked in add_gradients.
    gradients[-0:] (1443) is the whole list, but zip then stops at once, as here with the empty rest. *)
Definition ones_like (v : pyval) : pyval :=
  match v with PArr dt sh el => PArr dt sh (map (fun _ => SF n_one) el) | _ => v end.
Definition set_measured (lcg : pyval) (errors transmissions : option pyval) : M unit := fun s =>
  match
   (let* er := array (dflt (ones_like lcg) errors) (Some (PFloat n_zero)) None false (Some "float64") (Some 1%Z) in
    let* tr := array (dflt (ones_like lcg) transmissions) (Some (PInt 0)) (Some (PInt 1)) false (Some "float64") (Some 1%Z) in
    let* _ := same_shape_arrays [lcg; er; tr] 3 in
    let* o := determine_orbital_scale s in
    Ok (o, combine (map n_abs (elems_of lcg)) (combine (elems_of er) (elems_of tr))))
  with
  | Err e => (s, Err e)
  | Ok (o, values) =>
    let gs := dflt [] (s_grads s) in
    let k := (List.length gs - List.length (elems_of lcg))%nat in
    let '(new, r) := each2 (fun g v => determine_mask g (PNpFloat (fst v)) o (Some (PNpFloat (snd (snd v)))) (Some (PNpFloat (fst (snd v)))))
                           (skipn k gs) values in
    (with_grads s (Some (firstn k gs ++ new)) (s_fit s), let* _ := r in Ok tt)
  end.

(** Shallot.py:1452-1459 _reset_gradient_fit *)
Definition reset_fit : M unit := fun s => (with_grads s (s_grads s) None, Ok tt).

(** Shallot.py:1462-1528 add_gradients *)
Definition add_gradients (times lcg : pyval) (errors transmissions : option pyval) : M unit := fun s =>
  match s_limb s, s_ecl s, s_vel s with
  | Some _, Some ecl, Some _ =>
    match
     (let* t := array times None None false (Some "float64") (Some 1%Z) in
      let* l := array lcg (Some (PFloat n_zero)) None false (Some "float64") (Some 1%Z) in
      let* _ := same_shape_arrays [t; l] 2 in Ok (t, l))
    with
    | Err e => (s, Err e)
    | Ok (t, l) =>
      (do _ <- determine_disk_gradients (map (fun x => n_div (n_neg x) (num_of ecl)) (elems_of t)) ;
       do _ <- set_measured l errors transmissions ;
       reset_fit) s
    end
  | _, _, _ => (s, Ok tt)
  end.

(** np.flip(np.sort(indices)): descending *)
Fixpoint insert_desc (z : Z) (l : list Z) : list Z :=
  match l with [] => [z] | a :: l => if Z.ltb z a then a :: insert_desc z l else z :: a :: l end.
Definition sort_desc (l : list Z) : list Z := fold_right insert_desc [] l.
(** Shallot.py:1549-1550: del gradients[index], one after the other *)
Fixpoint delete_all {A} (l : list A) (is : list Z) : list A * res unit :=
  match is with
  | [] => (l, Ok tt)
  | i :: is => if Z.ltb i 0 || Z.leb (Z.of_nat (List.length l)) i then (l, Err IndexError)
               else delete_all (remove_at (Z.to_nat i) l) is
  end.
Definition ints_of (v : pyval) : list Z :=
  match v with PArr _ _ el => map (fun e => match int_scal e with Some z => z | None => 0%Z end) el | _ => [] end.
(** Shallot.py:1531-1552 remove_gradients *)
Definition remove_gradients (indices : pyval) : M unit := fun s =>
  match s_grads s with
  | None => (s, Ok tt)
  | Some gs =>
    match array indices (Some (PInt 0)) (Some (PInt (Z.of_nat (List.length gs) - 1))) false (Some "int64") (Some 1%Z) with
    | Err e => (s, Err e)
    | Ok v =>
      match delete_all gs (sort_desc (ints_of v)) with
      | (gs, Err e) => (with_grads s (Some gs) (s_fit s), Err e)
      | (gs, Ok _) => reset_fit (with_grads s (Some gs) (s_fit s))
      end
    end
  end.

(** Shallot.py:1555-1587 set_eclipse_parameters: each attribute is stored as soon as it has been validated *)
Definition set_eclipse_parameters (eclipse velocity limb : pyval) : M unit := fun s =>
  match number eclipse false (PFloat n_zero) p_inf false with
  | Err e => (s, Err e)
  | Ok a =>
    let s := with_eclipse s (Some a) (s_vel s) (s_limb s) in
    match number velocity false (PFloat n_zero) p_inf false with
    | Err e => (s, Err e)
    | Ok b =>
      let s := with_eclipse s (s_ecl s) (Some b) (s_limb s) in
      match number limb false (PFloat n_zero) (PFloat n_one) false with
      | Err e => (s, Err e)
      | Ok c =>
        let s := with_eclipse s (s_ecl s) (s_vel s) (Some c) in
        match s_grads s with
        | None => (s, Ok tt)
        | Some _ => reset_fit (with_grads s None (s_fit s))
        end
      end
    end
  end.

(** Shallot.py:1590-1674 update_gradient_scaling; an argument None is [None] *)
Definition update_gradient_scaling (velocity limb transmissions : option pyval) : M unit := fun s =>
  let s := match velocity with None => s | Some v => with_eclipse s (s_ecl s) (Some v) (s_limb s) end in
  let s := match limb with None => s | Some u => with_eclipse s (s_ecl s) (s_vel s) (Some u) end in
  let scale := match velocity, limb with None, None => false | _, _ => true end in
  match
    (match transmissions with
     | None => Ok None
     | Some t =>
       let* t := array t (Some (PInt (-1))) (Some (PInt 1)) false (Some "float64") (Some 1%Z) in
       let gs := match s_grads s with None => PArr "object" [] [] | Some gs => PArr "object" [List.length gs] [] end in
       let* _ := same_shape_arrays [t; gs] 2 in Ok (Some (elems_of t))
     end)
  with
  | Err e => (s, Err e)
  | Ok tr =>
    match scale, tr with
    | false, None => (s, Ok tt)
    | _, _ =>
      match s_grads s with
      | None => (s, Err TypeError)
      | Some gs =>
        let update (g : ggrad T) (t : option T) :=
          match (if scale then determine_orbital_scale s else Ok (dflt PNone (gg_orb g))) with
          | Err e => (g, Err e)
          | Ok o =>
            let t := match t with Some t => Some (PNpFloat t) | None => gg_trans g end in
            determine_mask g (dflt PNone (gg_meas g)) o t (gg_err g)
          end in
        let '(gs, r) := each2 update gs (match tr with Some l => map Some l | None => repeat None (List.length gs) end) in
        let s := with_grads s (Some gs) (s_fit s) in
        match r with Err e => (s, Err e) | Ok _ => reset_fit s end
      end
    end
  end.

(** Shallot.py:1677-1730 get_gradients: per gradient (position, scaled gradient, error, data); None stored
    into a float array is NaN *)
Definition get_gradients (masked pm : pyval) : M (list (T * T * T * list T)) := fun s =>
  match s_grads s with
  | None => (s, Err TypeError)
  | Some gs =>
    match
     (let* b := boolean_v masked in
      if b then combined_mask s else Ok (repeat false (volume (shape3 (s_params s)))))
    with
    | Err e => (s, Err e)
    | Ok m =>
      let read (g : ggrad T) (_ : unit) :=
        match scaled_gradient g with
        | Err e => (g, Err e)
        | Ok sc =>
          match get_data (gg_prop g) pm with
          | (p, Err x) => (with_prop g p, Err x)
          | (p, Ok d) => (with_prop g p, Ok (num_of (gg_pos g), dflt n_nan sc, num_of (dflt PNone (gg_err g)), erase (snd d) m))
          end
        end in
      let '(gs, r) := each2 read gs (repeat tt (List.length gs)) in
      (with_grads s (Some gs) (s_fit s), r)
    end
  end.

(** Shallot.py:1755-1763, one gradient; the square of the error, a numpy scalar, is taken as the product *)
Definition fit_term (weighted : bool) (data : list T) (g : ggrad T) : res (list T) :=
  let* w := (if weighted then match gg_err g with None => Err TypeError | Some e => Ok (n_sq (num_of e)) end else Ok n_one) in
  let* sc := scaled_gradient g in
  match sc with
  | None => Err TypeError
  | Some sc => Ok (map (fun p => n_add (fst p) (n_div (n_sq (n_sub (snd p) sc)) w)) (combine data (p_data (gg_prop g))))
  end.
(** Shallot.py:1733-1766 determine_gradient_fit, for a bool [weighted] *)
Definition determine_gradient_fit (weighted : bool) : M unit := fun s =>
  match s_grads s with
  | None => (s, Ok tt)
  | Some gs =>
    let sh := shape3 (s_params s) in
    match
     (let* data := fold_res (fit_term weighted) gs (repeat n_zero (volume sh)) in
      let* p := new_gprop (EIs GRADIENT_FIT) (EIs NONE) (PArr "float64" sh (map (@SF T) data)) (EIs (s_params s)) in
      Ok (data, p))
    with
    | Err e => (s, Err e)
    | Ok (data, p) =>
      let '(p, r) := set_mask p (PArr "bool" sh (map (fun x => SB (n_isnan x)) data)) in
      (with_grads s (s_grads s) (Some p), r)
    end
  end.

(** array[y, x, r] with indices that are not negative *)
Definition entry (d : list nat * list T) (y x r : Z) : res T :=
  match fst d with
  | [ny; nx; nr] =>
    if Z.ltb y (Z.of_nat ny) && Z.ltb x (Z.of_nat nx) && Z.ltb r (Z.of_nat nr)
    then match nth_error (snd d) ((Z.to_nat y * nx + Z.to_nat x) * nr + Z.to_nat r) with Some v => Ok v | None => Err IndexError end
    else Err IndexError
  | _ => Err IndexError
  end.
Definition item (l : list T) (i : Z) : res T := match nth_error l (Z.to_nat i) with Some v => Ok v | None => Err IndexError end.

(** the result of get_grid_point_data *)
Record point_data := mkPD {
  pd_dr : T; pd_inc : T; pd_tilt : T; pd_dx : T; pd_dy : T;
  pd_rf : T; pd_fx : T; pd_fy : T; pd_diag : T;
  pd_grads : option (list (T * T)) }.
(** Shallot.py:2107-2117: (position, value) of each gradient *)
Definition point_gradients (y x r : Z) (masked : pyval) : M (option (list (T * T))) := fun s =>
  match s_grads s with
  | None => (s, Ok None)
  | Some gs =>
    let read (g : ggrad T) (_ : unit) :=
      match get_data (gg_prop g) masked with
      | (p, Err e) => (with_prop g p, Err e)
      | (p, Ok d) => (with_prop g p, let* v := entry d y x r in Ok (num_of (gg_pos g), v))
      end in
    let '(gs, res) := each2 read gs (repeat tt (List.length gs)) in
    (with_grads s (Some gs) (s_fit s), let* l := res in Ok (Some l))
  end.
(** Shallot.py:2035-2119 get_grid_point_data; a bool used as an index, which numpy takes for a mask, is
    treated as the integer of the same value *)
Definition get_grid_point_data (y_index x_index rf_index masked : pyval) : M point_data :=
  let t := PBool true in
  fun s =>
  let g := s_params s in
  let '(my, mx, mr) := g_shape g in
  (do y <- lift (number y_index true (PInt 0) (PInt (Z.of_nat my)) false) ;
   do x <- lift (number x_index true (PInt 0) (PInt (Z.of_nat mx)) false) ;
   do r <- lift (number rf_index true (PInt 0) (PInt (Z.of_nat mr)) false) ;
   let y := int_of y in let x := int_of x in let r := int_of r in
   do d <- get_disk_radius masked t ; do dr <- lift (entry d y x r) ;
   do d <- get_inclination masked t ; do inc <- lift (entry d y x r) ;
   do d <- get_tilt masked t ; do tilt <- lift (entry d y x r) ;
   do dx <- lift (item (g_dx g) x) ;
   do dy <- lift (item (g_dy g) y) ;
   do rf <- lift (item (g_rfa g) r) ;
   do d <- get_fx_map masked t ; do fx <- lift (entry d y x r) ;
   do d <- get_fy_map masked t ; do fy <- lift (entry d y x r) ;
   do d <- get_diagnostic_map masked t ; do dg <- lift (entry d y x r) ;
   do gr <- point_gradients y x r masked ;
   ret (mkPD dr inc tilt dx dy rf fx fy dg gr)) s.

(** np.unravel_index for three axes *)
Definition unravel (sh : list nat) (k : nat) : nat * nat * nat :=
  match sh with
  | [_; nx; nr] => ((k / (nx * nr))%nat, (k / nr mod nx)%nat, (k mod nr)%nat)
  | _ => (0, 0, 0)
  end.
(** one solution: fit, disk radius, inclination, tilt, dx, dy *)
Definition solution : Type := T * point_data.
(** Shallot.py:1851-1869; gradient_fit is the data array of the property itself.  Without a fit
    np.nanargmin(None) gives 0 and None.shape raises. *)
Fixpoint extract_loop (k : nat) : M (list solution) :=
  match k with
  | O => ret []
  | S k => fun s =>
    match s_fit s with
    | None => (s, Err AttributeError)
    | Some p =>
      match nanargmin (p_data p) with
      | Err e => (s, Err e)
      | Ok i =>
        let '(y, x, r) := unravel (p_shape p) i in
        (do d <- get_grid_point_data (PNpInt (Z.of_nat y)) (PNpInt (Z.of_nat x)) (PNpInt (Z.of_nat r)) (PBool false) ;
         do _ <- (fun s => (with_grads s (s_grads s) (option_map (fun p => with_data p (replace_nth i n_nan (p_data p))) (s_fit s)), Ok tt)) ;
         do l <- extract_loop k ;
         ret ((nth i (p_data p) n_nan, d) :: l)) s
      end
    end
  end.
(** Shallot.py:1804-1872 extract_solutions; num_solutions None is [None] *)
Definition count_unmasked (m : list bool) : nat := List.length (filter negb m).
Definition extract_solutions (num_solutions : option pyval) : M (list solution) := fun s =>
  match
   (let* m := combined_mask s in
    let mx := PNpInt (Z.of_nat (count_unmasked m)) in
    number (dflt mx num_solutions) true (PInt 0) mx false)
  with
  | Err e => (s, Err e)
  | Ok n =>
    (do _ <- get_gradient_fit (PBool true) (PBool true) ;
     extract_loop (Z.to_nat (int_of n))) s
  end.

(** Shallot.py:1991-2002: the row coordinate *)
Definition row_coordinate (g : gparams T) (b : T) (y : nat) : T :=
  let lo := nth 0 (g_dy g) n_nan in let hi := nth (List.length (g_dy g) - 1) (g_dy g) n_nan in
  let v := n_add (n_mul (n_div (n_ofnat y) (n_ofnat (List.length (g_dy g)))) (n_sub hi lo)) lo in
  if n_lt b n_zero then (if n_gt v n_zero then n_ofZ 10000000 else v)
  else if n_gt b n_zero then (if n_lt v n_zero then n_ofZ (-10000000) else v)
  else v.
(** Shallot.py:2005-2010 *)
Definition distance (a b c d : T) : T := n_sqrt (n_add (n_add (n_add (n_sq a) (n_sq b)) (n_sq c)) (n_sq d)).
Definition distances (g : gparams T) (dr inc tilt : list T) (r i t b : T) : list T :=
  let nx := List.length (g_dx g) in let nr := List.length (g_rfa g) in
  map (fun k => distance (n_sub (nth k dr n_nan) r) (n_sub (nth k inc n_nan) i) (n_sub (nth k tilt n_nan) t)
                         (n_sub (row_coordinate g b (k / (nx * nr))) b))
      (seq 0 (List.length dr)).
(** Shallot.py:1925-2032 determine_closest_grid_point *)
Definition determine_closest (disk_radius inclination tilt impact masked : pyval) : M ((T * T * T) * (nat * nat * nat) * T) :=
  fun s =>
  let g := s_params s in
  let t := PBool true in
  (do r <- lift (number disk_radius false (PInt 0) p_inf false) ;
   do i <- lift (number inclination false (PInt 0) (PInt 90) false) ;
   do ti <- lift (number tilt false (PInt (-180)) (PInt 180) false) ;
   do b <- lift (number impact false m_inf p_inf false) ;
   do m <- lift (boolean_v masked) ;
   do dr <- get_disk_radius (PBool m) t ;
   do inc <- get_inclination (PBool m) t ;
   do til <- get_tilt (PBool m) t ;
   let ds := distances g (snd dr) (snd inc) (snd til) (num_of r) (num_of i) (num_of ti) (num_of b) in
   do k <- lift (nanargmin ds) ;
   let '(y, x, q) := unravel (fst dr) k in
   do cy <- lift (item (g_dy g) (Z.of_nat y)) ;
   do cx <- lift (item (g_dx g) (Z.of_nat x)) ;
   do cr <- lift (item (g_rfa g) (Z.of_nat q)) ;
   do d <- lift (nan_min ds) ;
   ret ((cy, cx, cr), (y, x, q), d)) s.
End O.
