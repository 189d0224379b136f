(** The texts of the exceptions of /repo/Shallot.py and of GridPropertyViewer in /repo/GridProperty.py.
    Each function here is the one of the same name in Build.v, Shallot.v, ShallotOps.v and Viewer.v, with the text
    of the exception it raises; [None] is the text of an exception raised by Python or numpy itself. *)
From Coq Require Import ZArith List Bool String.
From Verif Require Import Num Py Validate Ring RingSystem FS GridParams GridDiag Names GridProp Geometry Build Shallot ShallotOps Viewer Fmt Text Message.
Import ListNotations.
Set Implicit Arguments.
Local Open Scope string_scope.
Local Open Scope list_scope.

Section O.
Context {T : Type} {NT : Num T} (E : env T).
Variable fmt : nat -> T -> string.
Notation pyval := (pyval T).
Notation shallot := (shallot T).

(** *** GridPropertyViewer *)
(** GridProperty.py:633-674 constructor *)
Definition new_viewer_m (ax : earg unit) (axis : pyval) (prop : earg (gprop T)) (masked : pyval)
    (index : option pyval) (frozen : option pyval) (co : coords T) : option (gprop T) * mres (viewer T) :=
  match number_m fmt "axis" axis true (PInt 0) (PInt 2) false with
  | MErr e t => (None, MErr e t)
  | MOk axis =>
    match class_arg_m "ax" "Axes" ax with
    | MErr e t => (None, MErr e t)
    | MOk _ =>
      match class_arg_m "grid_property" "GridProperty" prop with
      | MErr e t => (None, MErr e t)
      | MOk p =>
        let '(p, r) := get_data_m p masked in
        (Some p,
         let! d := r in
         let a := Z.to_nat (int_of axis) in
         let slices := vector_at (p_params p) a in
         let n := Z.of_nat (List.length slices) in
         let! index := number_m fmt "index" (dflt (PInt (n / 2)) index) true (PInt 0) (PInt (n - 1)) false in
         let! co :=
           match co with
           | CoNone => MOk None
           | CoOther => raise TypeError (class_text "coordinates" "List")
           | CoList l => if forallb (fun c => Nat.eqb (List.length c) 3) l then MOk (Some l)
                         else raise ValueError "all input coordinates must be tuples with three values"
           end in
         let! tol :=
           match slices with
           | a :: b :: _ => MOk (n_div (n_abs (n_sub b a)) (n_ofZ 3))
           | _ => MErr IndexError None
           end in
         if is_bool_v index || is_bool_v axis then MErr TypeError None
         else
           let v := update (mkV a (fst d) (snd d) slices (int_of index) co tol false [] []) in
           match frozen with
           | None => MOk v
           | Some b => let! b := boolean_m "frozen" b in MOk (with_frozen v b)
           end)
      end
    end
  end.

(** *** methods of a finished grid *)
Definition MM (A : Type) : Type := shallot -> shallot * mres A.
Definition tret {A} (a : A) : MM A := fun s => (s, MOk a).
Definition tlift {A} (r : mres A) : MM A := fun s => (s, r).
Definition tbind {A B} (m : MM A) (f : A -> MM B) : MM B :=
  fun s => match m s with (s, MOk a) => f a s | (s, MErr e t) => (s, MErr e t) end.
Notation "'do!' x <- a ; b" := (tbind a (fun x => b)) (at level 200, x pattern, a at level 100, b at level 200).

(** the body shared by the getters (Shallot.py:1028-1035 and so on) *)
Definition read_property_m (p : gprop T) (put : gprop T -> shallot) (masked property_masked : pyval) : shallot * mres (list nat * list T) :=
  match get_data_m p property_masked with
  | (p, MErr e t) => (put p, MErr e t)
  | (p, MOk d) =>
    match boolean_m "masked" masked with
    | MErr e t => (put p, MErr e t)
    | MOk false => (put p, MOk d)
    | MOk true =>
      match combined_mask (put p) with
      | Err e => (put p, MErr e None)
      | Ok m =>
        if shape_eqb (fst d) (shape3 (s_params (put p))) then
          let p := with_data p (erase (p_data p) m) in (put p, MOk (fst d, p_data p))
        else (put p, MErr IndexError None)
      end
    end
  end.
(** Shallot.py:1007-1035 *)
Definition get_disk_radius_m (masked pm : pyval) : MM (list nat * list T) := fun s => read_property_m (s_dr s) (set_dr s) masked pm.
(** Shallot.py:1038-1067 *)
Definition get_inclination_m (masked pm : pyval) : MM (list nat * list T) := fun s => read_property_m (s_inc s) (set_inc s) masked pm.
(** Shallot.py:1070-1098 *)
Definition get_tilt_m (masked pm : pyval) : MM (list nat * list T) := fun s => read_property_m (s_tilt s) (set_tilt s) masked pm.
(** Shallot.py:1101-1130 *)
Definition get_fx_map_m (masked pm : pyval) : MM (list nat * list T) := fun s => read_property_m (s_fx s) (set_fx s) masked pm.
(** Shallot.py:1133-1163 *)
Definition get_fy_map_m (masked pm : pyval) : MM (list nat * list T) := fun s => read_property_m (s_fy s) (set_fy s) masked pm.
(** Shallot.py:1192-1221 *)
Definition get_diagnostic_map_m (masked pm : pyval) : MM (list nat * list T) := fun s =>
  match s_dmap s with None => (s, MErr AttributeError None) | Some m => read_property_m m (set_dmap s) masked pm end.
(** Shallot.py:1769-1801 *)
Definition get_gradient_fit_m (masked pm : pyval) : MM (option (list nat * list T)) := fun s =>
  match s_fit s with
  | None => (s, MOk None)
  | Some p => match read_property_m p (set_fit s) masked pm with (s, MOk d) => (s, MOk (Some d)) | (s, MErr e t) => (s, MErr e t) end
  end.

(** Shallot.py:1875-1896 generate_hill_radius_mask *)
Definition generate_hill_radius_mask_m (hill_radius : pyval) : MM unit := fun s =>
  match number_m fmt "hill_radius" hill_radius false (PFloat n_zero) p_inf false with
  | MErr e t => (s, MErr e t)
  | MOk h =>
    let '(p, r) := set_mask_m fmt (s_dr s) (PArr "bool" (shape3 (s_params s)) (map (@SB T) (hill_mask (num_of h) (p_data (s_dr s))))) in
    (set_dr s p, r)
  end.

(** Shallot.py:1341-1360 *)
Fixpoint append_gradients_m (positions : list T) : MM unit :=
  match positions with
  | [] => tret tt
  | p :: ps => fun s =>
    match new_grad_m fmt (PArr "float64" (shape3 (s_params s)) (map (@SF T) (gradient_values E s p))) (EIs (s_params s)) (PNpFloat p) with
    | MErr e t => (s, MErr e t)
    | MOk g => append_gradients_m ps (with_grads s (Some (dflt [] (s_grads s) ++ [g])) (s_fit s))
    end
  end.
(** Shallot.py:1316-1360 *)
Definition determine_disk_gradients_m (positions : list T) : MM unit := fun s =>
  append_gradients_m positions (with_grads s (Some (dflt [] (s_grads s))) (s_fit s)).

(** a loop over objects of a list together with other values; it ends at the first exception *)
Fixpoint each2_m {A B C} (f : A -> B -> A * mres C) (l : list A) (m : list B) : list A * mres (list C) :=
  match l, m with
  | a :: l, b :: m =>
    match f a b with
    | (a, MErr e t) => (a :: l, MErr e t)
    | (a, MOk c) => match each2_m f l m with (l, MOk cs) => (a :: l, MOk (c :: cs)) | (l, MErr e t) => (a :: l, MErr e t) end
    end
  | _, _ => (l, MOk [])
  end.

(** Shallot.py:1385-1449 _set_measured_gradients_and_masks *)
Definition set_measured_m (lcg : pyval) (errors transmissions : option pyval) : MM unit := fun s =>
  match
   (let! er := array_m fmt "light_curve_gradient_errors" (dflt (ones_like lcg) errors) (Some (PFloat n_zero)) None false (Some "float64") (Some 1%Z) in
    let! tr := array_m fmt "transmission_changes" (dflt (ones_like lcg) transmissions) (Some (PInt 0)) (Some (PInt 1)) false (Some "float64") (Some 1%Z) in
    let! _ := same_shape_m [lcg; er; tr] ["light_curve_gradients"; "light_curve_gradient_errors"; "transmission_changes"] in
    let! o := silent (determine_orbital_scale E s) in
    MOk (o, combine (map n_abs (elems_of lcg)) (combine (elems_of er) (elems_of tr))))
  with
  | MErr e t => (s, MErr e t)
  | MOk (o, values) =>
    let gs := dflt [] (s_grads s) in
    let k := (List.length gs - List.length (elems_of lcg))%nat in
    let '(new, r) := each2_m (fun g v => determine_mask_m fmt g (PNpFloat (fst v)) o (Some (PNpFloat (snd (snd v)))) (Some (PNpFloat (fst (snd v)))))
                             (skipn k gs) values in
    (with_grads s (Some (firstn k gs ++ new)) (s_fit s), let! _ := r in MOk tt)
  end.

(** Shallot.py:1452-1459 *)
Definition reset_fit_m : MM unit := fun s => (with_grads s (s_grads s) None, MOk tt).

(** Shallot.py:1462-1528 add_gradients *)
Definition add_gradients_m (times lcg : pyval) (errors transmissions : option pyval) : MM unit := fun s =>
  match s_limb s, s_ecl s, s_vel s with
  | Some _, Some ecl, Some _ =>
    match
     (let! t := array_m fmt "times" times None None false (Some "float64") (Some 1%Z) in
      let! l := array_m fmt "light_curve_gradients" lcg (Some (PFloat n_zero)) None false (Some "float64") (Some 1%Z) in
      let! _ := same_shape_m [t; l] ["times"; "light_curve_gradients"] in MOk (t, l))
    with
    | MErr e t => (s, MErr e t)
    | MOk (t, l) =>
      (do! _ <- determine_disk_gradients_m (map (fun x => n_div (n_neg x) (num_of ecl)) (elems_of t)) ;
       do! _ <- set_measured_m l errors transmissions ;
       reset_fit_m) s
    end
  | _, _, _ => (s, MOk tt)
  end.

(** Shallot.py:1531-1552 remove_gradients *)
Definition remove_gradients_m (indices : pyval) : MM unit := fun s =>
  match s_grads s with
  | None => (s, MOk tt)
  | Some gs =>
    match array_m fmt "indices" indices (Some (PInt 0)) (Some (PInt (Z.of_nat (List.length gs) - 1))) false (Some "int64") (Some 1%Z) with
    | MErr e t => (s, MErr e t)
    | MOk v =>
      match delete_all gs (sort_desc (ints_of v)) with
      | (gs, Err e) => (with_grads s (Some gs) (s_fit s), MErr e None)
      | (gs, Ok _) => reset_fit_m (with_grads s (Some gs) (s_fit s))
      end
    end
  end.

(** Shallot.py:1555-1587 set_eclipse_parameters *)
Definition set_eclipse_parameters_m (eclipse velocity limb : pyval) : MM unit := fun s =>
  match number_m fmt "eclipse_duration" eclipse false (PFloat n_zero) p_inf false with
  | MErr e t => (s, MErr e t)
  | MOk a =>
    let s := with_eclipse s (Some a) (s_vel s) (s_limb s) in
    match number_m fmt "transverse_velocity" velocity false (PFloat n_zero) p_inf false with
    | MErr e t => (s, MErr e t)
    | MOk b =>
      let s := with_eclipse s (s_ecl s) (Some b) (s_limb s) in
      match number_m fmt "limb_darkening" limb false (PFloat n_zero) (PFloat n_one) false with
      | MErr e t => (s, MErr e t)
      | MOk c =>
        let s := with_eclipse s (s_ecl s) (s_vel s) (Some c) in
        match s_grads s with
        | None => (s, MOk tt)
        | Some _ => reset_fit_m (with_grads s None (s_fit s))
        end
      end
    end
  end.

(** Shallot.py:1590-1674 update_gradient_scaling *)
Definition update_gradient_scaling_m (velocity limb transmissions : option pyval) : MM unit := fun s =>
  let s := match velocity with None => s | Some v => with_eclipse s (s_ecl s) (Some v) (s_limb s) end in
  let s := match limb with None => s | Some u => with_eclipse s (s_ecl s) (s_vel s) (Some u) end in
  let scale := match velocity, limb with None, None => false | _, _ => true end in
  match
    (match transmissions with
     | None => MOk None
     | Some t =>
       let! t := array_m fmt "transmission_changes" t (Some (PInt (-1))) (Some (PInt 1)) false (Some "float64") (Some 1%Z) in
       let gs := match s_grads s with None => PArr "object" [] [] | Some gs => PArr "object" [List.length gs] [] end in
       let! _ := same_shape_m [t; gs] ["transmission_changes"; "gradients"] in MOk (Some (elems_of t))
     end)
  with
  | MErr e t => (s, MErr e t)
  | MOk tr =>
    match scale, tr with
    | false, None => (s, MOk tt)
    | _, _ =>
      match s_grads s with
      | None => (s, MErr TypeError None)
      | Some gs =>
        let update (g : ggrad T) (t : option T) :=
          match (if scale then determine_orbital_scale E s else Ok (dflt PNone (gg_orb g))) with
          | Err e => (g, MErr e None)
          | Ok o =>
            let t := match t with Some t => Some (PNpFloat t) | None => gg_trans g end in
            determine_mask_m fmt g (dflt PNone (gg_meas g)) o t (gg_err g)
          end in
        let '(gs, r) := each2_m update gs (match tr with Some l => map Some l | None => repeat None (List.length gs) end) in
        let s := with_grads s (Some gs) (s_fit s) in
        match r with MErr e t => (s, MErr e t) | MOk _ => reset_fit_m s end
      end
    end
  end.

(** Shallot.py:1677-1730 get_gradients *)
Definition get_gradients_m (masked pm : pyval) : MM (list (T * T * T * list T)) := fun s =>
  match s_grads s with
  | None => (s, MErr TypeError None)
  | Some gs =>
    match
     (let! b := boolean_m "masked" masked in
      if b then silent (combined_mask s) else MOk (repeat false (volume (shape3 (s_params s)))))
    with
    | MErr e t => (s, MErr e t)
    | MOk m =>
      let read (g : ggrad T) (_ : unit) :=
        match scaled_gradient_m g with
        | MErr e t => (g, MErr e t)
        | MOk sc =>
          match get_data_m (gg_prop g) pm with
          | (p, MErr x t) => (with_prop g p, MErr x t)
          | (p, MOk d) => (with_prop g p, MOk (num_of (gg_pos g), dflt n_nan sc, num_of (dflt PNone (gg_err g)), erase (snd d) m))
          end
        end in
      let '(gs, r) := each2_m read gs (repeat tt (List.length gs)) in
      (with_grads s (Some gs) (s_fit s), r)
    end
  end.

(** Shallot.py:2107-2117 *)
Definition point_gradients_m (y x r : Z) (masked : pyval) : MM (option (list (T * T))) := fun s =>
  match s_grads s with
  | None => (s, MOk None)
  | Some gs =>
    let read (g : ggrad T) (_ : unit) :=
      match get_data_m (gg_prop g) masked with
      | (p, MErr e t) => (with_prop g p, MErr e t)
      | (p, MOk d) => (with_prop g p, let! v := silent (entry d y x r) in MOk (num_of (gg_pos g), v))
      end in
    let '(gs, res) := each2_m read gs (repeat tt (List.length gs)) in
    (with_grads s (Some gs) (s_fit s), let! l := res in MOk (Some l))
  end.
(** Shallot.py:2035-2119 get_grid_point_data *)
Definition get_grid_point_data_m (y_index x_index rf_index masked : pyval) : MM (point_data (T := T)) :=
  let t := PBool true in
  fun s =>
  let g := s_params s in
  let '(my, mx, mr) := g_shape g in
  (do! y <- tlift (number_m fmt "y_index" y_index true (PInt 0) (PInt (Z.of_nat my)) false) ;
   do! x <- tlift (number_m fmt "x_index" x_index true (PInt 0) (PInt (Z.of_nat mx)) false) ;
   do! r <- tlift (number_m fmt "rf_index" rf_index true (PInt 0) (PInt (Z.of_nat mr)) false) ;
   let y := int_of y in let x := int_of x in let r := int_of r in
   do! d <- get_disk_radius_m masked t ; do! dr <- tlift (silent (entry d y x r)) ;
   do! d <- get_inclination_m masked t ; do! inc <- tlift (silent (entry d y x r)) ;
   do! d <- get_tilt_m masked t ; do! tilt <- tlift (silent (entry d y x r)) ;
   do! dx <- tlift (silent (item (g_dx g) x)) ;
   do! dy <- tlift (silent (item (g_dy g) y)) ;
   do! rf <- tlift (silent (item (g_rfa g) r)) ;
   do! d <- get_fx_map_m masked t ; do! fx <- tlift (silent (entry d y x r)) ;
   do! d <- get_fy_map_m masked t ; do! fy <- tlift (silent (entry d y x r)) ;
   do! d <- get_diagnostic_map_m masked t ; do! dg <- tlift (silent (entry d y x r)) ;
   do! gr <- point_gradients_m y x r masked ;
   tret (mkPD dr inc tilt dx dy rf fx fy dg gr)) s.

(** Shallot.py:1851-1869 *)
Fixpoint extract_loop_m (k : nat) : MM (list (solution (T := T))) :=
  match k with
  | O => tret []
  | S k => fun s =>
    match s_fit s with
    | None => (s, MErr AttributeError None)
    | Some p =>
      match nanargmin (p_data p) with
      | Err e => (s, MErr e None)
      | Ok i =>
        let '(y, x, r) := unravel (p_shape p) i in
        (do! d <- get_grid_point_data_m (PNpInt (Z.of_nat y)) (PNpInt (Z.of_nat x)) (PNpInt (Z.of_nat r)) (PBool false) ;
         do! _ <- (fun s => (with_grads s (s_grads s) (option_map (fun p => with_data p (replace_nth i n_nan (p_data p))) (s_fit s)), MOk tt)) ;
         do! l <- extract_loop_m k ;
         tret ((nth i (p_data p) n_nan, d) :: l)) s
      end
    end
  end.
(** Shallot.py:1804-1872 extract_solutions *)
Definition extract_solutions_m (num_solutions : option pyval) : MM (list (solution (T := T))) := fun s =>
  match
   (let! m := silent (combined_mask s) in
    let mx := PNpInt (Z.of_nat (count_unmasked m)) in
    number_m fmt "num_solutions" (dflt mx num_solutions) true (PInt 0) mx false)
  with
  | MErr e t => (s, MErr e t)
  | MOk n =>
    (do! _ <- get_gradient_fit_m (PBool true) (PBool true) ;
     extract_loop_m (Z.to_nat (int_of n))) s
  end.

(** Shallot.py:1925-2032 determine_closest_grid_point *)
Definition determine_closest_m (disk_radius inclination tilt impact masked : pyval) : MM ((T * T * T) * (nat * nat * nat) * T) :=
  fun s =>
  let g := s_params s in
  let t := PBool true in
  (do! r <- tlift (number_m fmt "disk_radius" disk_radius false (PInt 0) p_inf false) ;
   do! i <- tlift (number_m fmt "inclination" inclination false (PInt 0) (PInt 90) false) ;
   do! ti <- tlift (number_m fmt "tilt" tilt false (PInt (-180)) (PInt 180) false) ;
   do! b <- tlift (number_m fmt "impact_parameter" impact false m_inf p_inf false) ;
   do! m <- tlift (boolean_m "masked" masked) ;
   do! dr <- get_disk_radius_m (PBool m) t ;
   do! inc <- get_inclination_m (PBool m) t ;
   do! til <- get_tilt_m (PBool m) t ;
   let ds := distances g (snd dr) (snd inc) (snd til) (num_of r) (num_of i) (num_of ti) (num_of b) in
   do! k <- tlift (silent (nanargmin ds)) ;
   let '(y, x, q) := unravel (fst dr) k in
   do! cy <- tlift (silent (item (g_dy g) (Z.of_nat y))) ;
   do! cx <- tlift (silent (item (g_dx g) (Z.of_nat x))) ;
   do! cr <- tlift (silent (item (g_rfa g) (Z.of_nat q))) ;
   do! d <- tlift (silent (nan_min ds)) ;
   tret ((cy, cx, cr), (y, x, q), d)) s.

(** *** building *)
(** Shallot.py:596-663 with the checks of 521-523, 573-579 *)
Definition disk_arrays_m (fx fy : list T) (s c : T) : mres (list (T * T * T)) :=
  let! _ := number_m fmt "shear_value" (PNpFloat s) false m_inf p_inf false in
  let! _ := number_m fmt "circular_radius_value" (PNpFloat c) false (PInt 0) p_inf false in
  MOk (map (fun p => disk_parameters (e_libm E) (fst p) (snd p) s c) (combine fx fy)).
(** Shallot.py:749-777 and 821-849 *)
Fixpoint stretch_m (fuel : nat) (new : Z -> mres (list T * list T)) (join : list T -> list T -> list T)
    (outer : list T -> option T) (max max_rf : T) (shift : Z) (fys drs : list T) : mres (list T * list T) :=
  match fuel with
  | O => MErr OutOfFuel None
  | S fuel =>
    let! fd := new shift in
    let fys := join (fst fd) fys in
    let drs := join (snd fd) drs in
    let! m := silent (nan_min drs) in
    match outer (snd fd) with
    | None => MErr IndexError None
    | Some r =>
      let again := n_lt (n_div r m) max_rf in
      let shift := if again then (shift + 1)%Z else shift in
      if n_gt (n_ofZ shift) (n_mul (num2 100) max) then raise AttributeError "check code or user input"
      else if again then stretch_m fuel new join outer max max_rf shift fys drs
      else MOk (fys, drs)
    end
  end.
(** Shallot.py:754-761 *)
Definition new_horizontal_m (nf : pyval) (max dy s c : T) (shift : Z) : mres (list T * list T) :=
  let! fx := silent (fxy_array nf max shift) in
  let fy := map (fun x => determine_fy x dy) fx in
  let! d := disk_arrays_m (rev fx) (rev fy) s c in
  MOk (rev fy, radii d).
(** Shallot.py:826-833 *)
Definition new_vertical_m (nf : pyval) (max dy s c : T) (shift : Z) : mres (list T * list T) :=
  let! fy := silent (fxy_array nf max shift) in
  let fx := map (fun y => determine_fx y dy) fy in
  let! d := disk_arrays_m fx fy s c in
  MOk (fy, radii d).
(** Shallot.py:973-987 *)
Definition grid_point_m (g : gparams T) (nf : pyval) (dy s c : T) : mres (column T) :=
  let! max_rf := silent (last_opt (g_rf g)) in
  let! h := stretch_m (e_fuel E) (new_horizontal_m nf (amax (g_dx g)) dy s c) (fun new old => new ++ old) (@first_opt T) (amax (g_dx g)) max_rf 1 [] [] in
  let! v := stretch_m (e_fuel E) (new_vertical_m nf (amax (g_dy g)) dy s c) (fun new old => old ++ new) (@final_opt T) (amax (g_dy g)) max_rf 1 (fst h) (snd h) in
  let! i := silent (interpolate E (g_rf g) dy (fst v) (snd v)) in
  let! d := disk_arrays_m (fst i) (snd i) s c in
  MOk (mkCol (radii d) (map (fun p => snd (fst p)) d) (map snd d) (fst i) (snd i) (fst v) (snd v)).
(** Shallot.py:966-998 *)
Definition build_point_m (y : nat) (s : shallot) (x : nat) : mres shallot :=
  let g := s_params s in
  let c := nth y (s_radius s) n_nan in
  let sh := nth (y * List.length (g_dx g) + x) (s_shear s) n_nan in
  if n_isnan sh then MOk s
  else
    let! col := grid_point_m g (s_nf s) (nth y (g_dy g) n_nan) sh c in
    let! dr := silent (put_column (s_dr s) y x (c_dr col)) in
    let! inc := silent (put_column (s_inc s) y x (c_inc col)) in
    let! tilt := silent (put_column (s_tilt s) y x (c_tilt col)) in
    let! fx := silent (put_column (s_fx s) y x (c_fx col)) in
    let! fy := silent (put_column (s_fy s) y x (c_fy col)) in
    let s := with_cubes s dr inc tilt fx fy in
    match s_diag s with
    | None => MOk s
    | Some d =>
      let v l := PArr "float64" [List.length l] (map (@SF T) l) in
      match save_diagnostic_m fmt d (PInt (Z.of_nat y)) (PInt (Z.of_nat x)) (v (c_fys col)) (v (c_drs col)) with
      | (d, MOk _) => MOk (with_diag s (Some d))
      | (_, MErr e t) => MErr e t
      end
    end.
Fixpoint fold_mres {A S} (f : S -> A -> mres S) (l : list A) (s : S) : mres S :=
  match l with [] => MOk s | a :: l => let! s := f s a in fold_mres f l s end.
(** Shallot.py:964-998 *)
Definition build_row_m (s : shallot) (y : nat) : mres shallot :=
  fold_mres (build_point_m y) (seq 0 (List.length (g_dx (s_params s)))) s.
(** Shallot.py:961-1001 *)
Fixpoint build_rows_m (intermittent : bool) (ys : list nat) (s : shallot) : list (step T) * mres shallot :=
  match ys with
  | [] => ([], MOk s)
  | y :: ys =>
    match build_row_m s y with
    | MErr e t => ([], MErr e t)
    | MOk s =>
      let save := if intermittent then shallot_save E s (PStr TEMP) (Some (PInt (Z.of_nat y))) else [] in
      let '(l, r) := build_rows_m intermittent ys s in (save ++ l, r)
    end
  end.
(** Shallot.py:925-1004 _build_grid; creating empty properties and setting contrasts (905-922) cannot say anything,
    as their arguments are fixed: an exception there is given without text *)
Definition build_grid_m (s : shallot) (intermittent : bool) (start_y : pyval) : list (step T) * mres shallot :=
  match number_m fmt "start_y" start_y true (PInt 0) (PInt (Z.of_nat (List.length (g_dy (s_params s))))) false with
  | MErr e t => ([], MErr e t)
  | MOk v =>
    match (if Z.eqb (int_of v) 0 then init_props s else Ok s) with
    | Err e => ([], MErr e None)
    | Ok s =>
      let mk := if intermittent then [SRmtree TEMP; SMkdir TEMP] else [] in
      let k := Z.to_nat (int_of v) in
      match build_rows_m intermittent (seq k (List.length (g_dy (s_params s)) - k)) s with
      | (l, MErr e t) => (mk ++ l, MErr e t)
      | (l, MOk s) =>
        match set_contrasts s with
        | Err e => (mk ++ l, MErr e None)
        | Ok s => (mk ++ l ++ [SRmtree TEMP], MOk s)
        end
      end
    end
  end.
(** Shallot.py:1224-1286 _fill_quadrants *)
Definition fill_quadrants_m (g : gparams T) (p : gprop T) (is_tilt : bool) : mres (gprop T) :=
  match p_shape p with
  | [ny; nx; nr] =>
    let sh := [2 * ny - 1; 2 * nx - 1; nr]%nat in
    if negb (shape_eqb (shape3 g) sh)
    then raise AttributeError ("the new parameter shape " ++ str_tuple sh ++ " doesn't match the grid shape " ++ str_tuple (shape3 g))%string
    else silent (fill_quadrants g p is_tilt)
  | _ => MErr ValueError None
  end.
(** Shallot.py:1289-1313 _extend_grid *)
Definition extend_shallot_m (s : shallot) : gparams T * mres shallot :=
  match extend_grid_m fmt (s_params s) with
  | (g, MErr AttributeError _) => (g, MOk s)
  | (g, MErr e t) => (g, MErr e t)
  | (g, MOk _) =>
    (g,
     let! dr := fill_quadrants_m g (s_dr s) false in
     let! inc := fill_quadrants_m g (s_inc s) false in
     let! tilt := fill_quadrants_m g (s_tilt s) true in
     let! fx := fill_quadrants_m g (s_fx s) false in
     let! fy := fill_quadrants_m g (s_fy s) false in
     MOk (mkSh g (s_nf s) (option_map (@diag_extend T) (s_diag s)) (radius_of_params E g) (shear_of_params g)
               dr inc tilt fx fy (s_dmap s) (s_grads s) (s_fit s) (s_ecl s) (s_vel s) (s_limb s)))
  end.
Definition finish_shallot_m (s : shallot) : gparams T * mres shallot :=
  match extend_shallot_m s with
  | (g, MOk s) => (g, silent (diagnose_shallot s))
  | (g, MErr e t) => (g, MErr e t)
  end.
(** Shallot.py:56-114 constructor *)
Definition new_shallot_m (parameters : earg (gparams T)) (num_fxfy logging_level keep_diagnostics intermittent : pyval)
  : option (gparams T) * (list (step T) * mres shallot) :=
  let fail e t := (match parameters with EIs g => Some g | EOther => None end, ([], MErr e t)) in
  match
   (let! _ := number_m fmt "logging_level" logging_level true (PInt 10) (PInt 50) false in
    let! g := class_arg_m "parameters" "GridParameters" parameters in
    let! nf := number_m fmt "num_fxfy" num_fxfy true (PInt 1) p_inf false in
    let! keep := boolean_m "keep_diagnostics" keep_diagnostics in
    let! inter := boolean_m "intermittent_saving" intermittent in
    MOk (fresh_shallot E g nf (if keep then Some (new_diag g) else None), inter))
  with
  | MErr e t => fail e t
  | MOk (s, inter) =>
    match build_grid_m s inter (PInt 0) with
    | (l, MErr e t) => (Some (s_params s), (l, MErr e t))
    | (l, MOk s) => let '(g, r) := finish_shallot_m s in (Some g, (l, r))
    end
  end.

(** *** saving and loading *)
(** Shallot.py:175-212 save: the effects before an exception of the function itself, and that exception;
    diagnostics.save() of line 212 lacks its argument *)
Definition shallot_save_m (s : shallot) (directory : pyval) (y_value : option pyval) : list (step T) * mres unit :=
  let end_m := match s_diag s with None => MOk tt | Some _ => MErr TypeError None end in
  let files d := save_files E (with_diag s None) d in
  match string_m "directory" directory with
  | MErr e t => ([], MErr e t)
  | MOk d =>
    let mk := if String.eqb d TEMP then SMkdirIf d else SMkdir d in
    match y_value with
    | None => (mk :: files d, end_m)
    | Some v =>
      match number_m fmt "y_value" v true (PInt 0) (PInt (Z.of_nat (List.length (g_dy (s_params s))))) false with
      | MErr e t => ([mk], MErr e t)
      | MOk v => (mk :: SWrite (under d "y_value.npy") (np_array [Some v]) :: files d, end_m)
      end
    end
  end.
(** Shallot.py:215-258 _load_grid_attributes *)
Definition load_attributes_m (f : fs T) (s : shallot) (d : string) : mres shallot :=
  let! x := silent (np_load f (under d "num_fxfy.npy")) in
  let! nf := match snd x with n :: _ => MOk (np_item n) | [] => MErr IndexError None end in
  let! g := params_load_m f d in
  let! dr := gprop_load_m f (PStr d) (EIs DISK_RADIUS) (EIs ECLIPSE_DURATION) in
  let! inc := gprop_load_m f (PStr d) (EIs INCLINATION) (EIs DEGREE) in
  let! tilt := gprop_load_m f (PStr d) (EIs TILT) (EIs DEGREE) in
  let! fx := gprop_load_m f (PStr d) (EIs FX_MAP) (EIs NONE) in
  let! fy := gprop_load_m f (PStr d) (EIs FY_MAP) (EIs NONE) in
  let diag := match diag_load f d with Ok g => Some g | Err _ => s_diag s end in
  if String.eqb d "" then MErr FileNotFound None
  else if existsb no_ext (listdir f d) then MErr AttributeError None
  else MOk (mkSh g nf diag (radius_of_params E g) (shear_of_params g) dr inc tilt fx fy
                (s_dmap s) None (s_fit s) (s_ecl s) (s_vel s) (s_limb s)).
(** effects, then the exception of the function itself; an exception of an effect has no text of the program *)
Definition perform_m {A} (f : fs T) (p : list (step T) * mres A) : fs T * mres A :=
  match run f (fst p) with (f', Ok _) => (f', snd p) | (f', Err e) => (f', MErr e None) end.
(** Shallot.py:285-295 *)
Definition load_into_m (f : fs T) (s : shallot) (d : string) (logging_level : pyval) : fs T * mres shallot :=
  match load_attributes_m f s d with
  | MErr e t => (f, MErr e t)
  | MOk s =>
    match number_m fmt "logging_level" logging_level true (PInt 10) (PInt 50) false with
    | MErr e t => (f, MErr e t)
    | MOk _ =>
      if fs_exists f (under d "y_value.npy") then
        match
         (let* x := np_load f (under d "y_value.npy") in
          match snd x with n :: _ => Ok (np_item n) | [] => Err IndexError end)
        with
        | Err e => (f, MErr e None)
        | Ok v =>
          match perform_m f (build_grid_m s true v) with
          | (f, MErr e t) => (f, MErr e t)
          | (f, MOk s) => (f, snd (finish_shallot_m s))
          end
        end
      else (f, snd (finish_shallot_m s))
    end
  end.
(** Shallot.py:281-282 *)
Definition dummy_m : option (gparams T) * (list (step T) * mres shallot) :=
  match new_params_m fmt (PInt 0) (PInt 1) (PInt 2) (PInt 0) (PInt 1) (PInt 2) (PInt 2) (PInt 2) with
  | MErr e t => (None, ([], MErr e t))
  | MOk g => new_shallot_m (EIs g) (PInt 100) (PInt 50) (PBool false) (PBool false)
  end.
(** Shallot.py:261-297 load *)
Definition shallot_load_m (f : fs T) (directory logging_level : pyval) : fs T * mres shallot :=
  match string_m "directory" directory with
  | MErr e t => (f, MErr e t)
  | MOk d =>
    match perform_m f (snd dummy_m) with
    | (f, MErr e t) => (f, MErr e t)
    | (f, MOk s) => load_into_m f s d logging_level
    end
  end.
End O.
