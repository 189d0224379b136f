(** What grids log: the calls of ShallotOps.v that log, with their records, and the records of level INFO of building a grid.
    The records of level DEBUG of building and loading ("origin corrected", "cleared temp folder", ...) are left out. *)
From Coq Require Import ZArith List Bool String.
From Verif Require Import Num Py Validate Ring RingSystem FS GridParams GridDiag Names GridProp Geometry Build Shallot ShallotOps SpecOps Fmt Text Message Log.
Import ListNotations.
Set Implicit Arguments.
Local Open Scope string_scope.
Local Open Scope list_scope.

Section O.
Context {T : Type} {NT : Num T} (E : env T).
Variable fmt : nat -> T -> string.
Notation pyval := (pyval T).
Notation shallot := (shallot T).

(** a method that logs *)
Definition L (A : Type) : Type := shallot -> shallot * res A * log.
Definition quiet {A} (m : M A) : L A := fun s => (m s, []).
Definition says {A} (l : log) (m : L A) : L A := fun s => let '(x, l') := m s in (x, l ++ l').
Definition lbind {A B} (m : L A) (f : A -> L B) : L B :=
  fun s => match m s with (s, Ok a, l) => let '(x, l') := f a s in (x, l ++ l') | (s, Err e, l) => (s, Err e, l) end.
Notation "'dol' x <- a ; b" := (lbind a (fun x => b)) (at level 200, x pattern, a at level 100, b at level 200).

(** Shallot.py:1452-1459 _reset_gradient_fit *)
Definition reset_fit_l : L unit := fun s =>
  match s_fit s with
  | None => (s, Ok tt, [])
  | Some _ => (with_grads s (s_grads s) None, Ok tt, [info "_reset_gradient_fit" "gradient fit has been cleared"])
  end.

(** len(array) *)
Definition len_text (v : pyval) : string := match shape_of v with Some (n :: _) => str_nat n | _ => "" end.
(** Shallot.py:1462-1528 add_gradients *)
Definition add_gradients_l (times lcg : pyval) (errors transmissions : option pyval) : L unit := fun s =>
  match s_limb s, s_ecl s, s_vel s with
  | Some _, Some ecl, Some _ =>
    match
     (let* t := array times None None false (Some "float64") (Some 1%Z) in
      let* l := array lcg (Some (PFloat n_zero)) None false (Some "float64") (Some 1%Z) in
      let* _ := same_shape_arrays [t; l] 2 in Ok (t, l))
    with
    | Err e => (s, Err e, [])
    | Ok (t, l) =>
      says [info "add_gradients" ("adding " ++ len_text t ++ " gradients")%string]
      (dol _ <- quiet (determine_disk_gradients E (map (fun x => n_div (n_neg x) (num_of ecl)) (elems_of t))) ;
       dol _ <- quiet (set_measured E l errors transmissions) ;
       reset_fit_l) s
    end
  | _, _, _ => (s, Ok tt, [info "add_gradients" "eclipse parameters missing, use .set_eclipse_parameters()"])
  end.

(** Shallot.py:1531-1552 remove_gradients *)
Definition remove_gradients_l (indices : pyval) : L unit := fun s =>
  match s_grads s with
  | None => (s, Ok tt, [info "remove_gradients" "no gradients found"])
  | Some gs =>
    match array indices (Some (PInt 0)) (Some (PInt (Z.of_nat (List.length gs) - 1))) false (Some "int64") (Some 1%Z) with
    | Err e => (s, Err e, [])
    | Ok v =>
      match delete_all gs (sort_desc (ints_of v)) with
      | (gs, Err e) => (with_grads s (Some gs) (s_fit s), Err e, [])
      | (gs, Ok _) => reset_fit_l (with_grads s (Some gs) (s_fit s))
      end
    end
  end.

(** Shallot.py:1555-1587 set_eclipse_parameters *)
Definition set_eclipse_parameters_l (eclipse velocity limb : pyval) : L unit := fun s =>
  match number eclipse false (PFloat n_zero) p_inf false with
  | Err e => (s, Err e, [])
  | Ok a =>
    let s := with_eclipse s (Some a) (s_vel s) (s_limb s) in
    match number velocity false (PFloat n_zero) p_inf false with
    | Err e => (s, Err e, [])
    | Ok b =>
      let s := with_eclipse s (s_ecl s) (Some b) (s_limb s) in
      match number limb false (PFloat n_zero) (PFloat n_one) false with
      | Err e => (s, Err e, [])
      | Ok c =>
        let s := with_eclipse s (s_ecl s) (s_vel s) (Some c) in
        match s_grads s with
        | None => (s, Ok tt, [])
        | Some _ =>
          says [info "set_eclipse_parameters" "gradients set to None due to dependency on eclipse duration"]
               reset_fit_l (with_grads s None (s_fit s))
        end
      end
    end
  end.

(** Shallot.py:1590-1674 update_gradient_scaling *)
Definition update_gradient_scaling_l (velocity limb transmissions : option pyval) : L unit := fun s =>
  let s := match velocity with None => s | Some v => with_eclipse s (s_ecl s) (Some v) (s_limb s) end in
  let s := match limb with None => s | Some u => with_eclipse s (s_ecl s) (s_vel s) (Some u) end in
  let scale := match velocity, limb with None, None => false | _, _ => true end in
  match
    (match transmissions with
     | None => Ok None
     | Some t =>
       let* t := array t (Some (PInt (-1))) (Some (PInt 1)) false (Some "float64") (Some 1%Z) in
       let gs := match s_grads s with None => PArr "object" [] [] | Some gs => PArr "object" [List.length gs] [] end in
       let* _ := same_shape_arrays [t; gs] 2 in Ok (Some (elems_of t))
     end)
  with
  | Err e => (s, Err e, [])
  | Ok tr =>
    match scale, tr with
    | false, None => (s, Ok tt, [info "update_gradient_scaling" "no changes passed"])
    | _, _ =>
      match s_grads s with
      | None => (s, Err TypeError, [])
      | Some gs =>
        let update (g : ggrad T) (t : option T) :=
          match (if scale then determine_orbital_scale E s else Ok (dflt PNone (gg_orb g))) with
          | Err e => (g, Err e)
          | Ok o =>
            let t := match t with Some t => Some (PNpFloat t) | None => gg_trans g end in
            determine_mask g (dflt PNone (gg_meas g)) o t (gg_err g)
          end in
        let '(gs, r) := each2 update gs (match tr with Some l => map Some l | None => repeat None (List.length gs) end) in
        let s := with_grads s (Some gs) (s_fit s) in
        match r with Err e => (s, Err e, []) | Ok _ => reset_fit_l s end
      end
    end
  end.

(** Shallot.py:1733-1766 determine_gradient_fit *)
Definition determine_gradient_fit_l (weighted : bool) : L unit := fun s =>
  match s_grads s with
  | None => (s, Ok tt, [info "determine_gradient_fit" "no gradients present"])
  | Some gs =>
    says [info "determine_gradient_fit" ("determining " ++ str_nat (List.length gs) ++ " gradient rms's")%string]
      (quiet (determine_gradient_fit weighted)) s
  end.

(** Shallot.py:1769-1801 get_gradient_fit *)
Definition get_gradient_fit_l (masked pm : pyval) : L (option (list nat * list T)) := fun s =>
  match s_fit s with
  | None => (s, Ok None, [info "get_gradient_fit" "no gradient fit found"])
  | Some _ => quiet (get_gradient_fit masked pm) s
  end.

(** Shallot.py:1804-1872 extract_solutions; the calls in its loop do not log *)
Definition extract_solutions_l (num_solutions : option pyval) : L (list (solution (T:=T))) := fun s =>
  match combined_mask s with
  | Err e => (s, Err e, [])
  | Ok m =>
    let mx := PNpInt (Z.of_nat (count_unmasked m)) in
    match number (dflt mx num_solutions) true (PInt 0) mx false with
    | Err e => (s, Err e, [])
    | Ok n =>
      says [info "extract_solutions" ("extracting " ++ str_index n ++ " out of " ++ str_nat (count_unmasked m) ++ " possible solutions")%string]
      (dol _ <- get_gradient_fit_l (PBool true) (PBool true) ;
       quiet (extract_loop (Z.to_nat (int_of n)))) s
    end
  end.

(** Shallot.py:1925-2032 determine_closest_grid_point *)
Definition closest_log (r i t b : pyval) (dr inc til row d : T) : log :=
  let line name v g := info "determine_closest_grid_point" (name ++ ": " ++ fmt 2 (num_of v) ++ " --> " ++ fmt 2 g)%string in
  [info "determine_closest_grid_point" "property_name: input_value --> grid_value";
   line "disk_radius" r dr; line "inclination" i inc; line "tilt" t til; line "impact_parameter" b row;
   info "determine_closest_grid_point" ("'fit': " ++ fmt 6 d)%string].
Definition determine_closest_l (disk_radius inclination tilt impact masked : pyval) : L ((T * T * T) * (nat * nat * nat) * T) :=
  fun s =>
  let g := s_params s in
  let t := PBool true in
  (dol r <- quiet (lift (number disk_radius false (PInt 0) p_inf false)) ;
   dol i <- quiet (lift (number inclination false (PInt 0) (PInt 90) false)) ;
   dol ti <- quiet (lift (number tilt false (PInt (-180)) (PInt 180) false)) ;
   dol b <- quiet (lift (number impact false m_inf p_inf false)) ;
   dol m <- quiet (lift (boolean_v masked)) ;
   dol dr <- quiet (get_disk_radius (PBool m) t) ;
   dol inc <- quiet (get_inclination (PBool m) t) ;
   dol til <- quiet (get_tilt (PBool m) t) ;
   let ds := distances g (snd dr) (snd inc) (snd til) (num_of r) (num_of i) (num_of ti) (num_of b) in
   dol k <- quiet (lift (nanargmin ds)) ;
   let '(y, x, q) := unravel (fst dr) k in
   dol cy <- quiet (lift (item (g_dy g) (Z.of_nat y))) ;
   dol cx <- quiet (lift (item (g_dx g) (Z.of_nat x))) ;
   dol cr <- quiet (lift (item (g_rfa g) (Z.of_nat q))) ;
   dol d <- quiet (lift (nan_min ds)) ;
   says (closest_log r i ti b (nth k (snd dr) n_nan) (nth k (snd inc) n_nan) (nth k (snd til) n_nan) (row_coordinate g (num_of b) y) d)
     (quiet (ret ((cy, cx, cr), (y, x, q), d)))) s.

(** the calls of SpecOps.v: whether they raise, and what they log; the masks are set through the properties *)
Definition done {A} (x : shallot * res A * log) : option exn * log :=
  (match snd (fst x) with Ok _ => None | Err e => Some e end, snd x).
Definition op_log (s : shallot) (o : @op T) : option exn * log :=
  match o with
  | OAdd t l e tr => done (add_gradients_l t l e tr s)
  | ORemove i => done (remove_gradients_l i s)
  | OEclipse a b c => done (set_eclipse_parameters_l a b c s)
  | OScale v u t => done (update_gradient_scaling_l v u t s)
  | OFit w => done (determine_gradient_fit_l w s)
  | OHill h => done (quiet (generate_hill_radius_mask h) s)
  | OMask w m => (match snd (set_mask (the_cube w s) m) with Ok _ => None | Err e => Some e end, [])
  | OMaskGrad k m => (None, [])
  | OGet w m pm => done (quiet (get_cube w m pm) s)
  | OGetDiag m pm => done (quiet (get_diagnostic_map m pm) s)
  | OGetFit m pm => done (get_gradient_fit_l m pm s)
  | OGrads m pm => done (quiet (get_gradients m pm) s)
  | OExtract n => done (extract_solutions_l n s)
  | OClosest a b c d m => done (determine_closest_l a b c d m s)
  | OPoint y x r m => done (quiet (get_grid_point_data y x r m) s)
  end.

(** what is logged during a history *)
Fixpoint ops_log (s : shallot) (l : list (@op T)) : log :=
  match l with [] => [] | o :: l => snd (op_log s o) ++ ops_log (do_op E s o) l end.

(** *** building *)
(** Shallot.py:961-1001: the records of the rows *)
Fixpoint rows_l (intermittent : bool) (n : nat) (ys : list nat) (s : shallot) : prog shallot * log :=
  match ys with
  | [] => (([], Ok s), [])
  | y :: ys =>
    let start := info "_build_grid" ("building y = " ++ str_nat (y + 1) ++ "/" ++ str_nat n)%string in
    match build_row E s y with
    | Err e => (([], Err e), [start])
    | Ok s =>
      let save := if intermittent then shallot_save E s (PStr TEMP) (Some (PInt (Z.of_nat y))) else [] in
      let '((l, r), lg) := rows_l intermittent n ys s in ((save ++ l, r), start :: lg)
    end
  end.
(** Shallot.py:925-1004 _build_grid; exceptions of the file system are not accounted for in the log: when saving fails, the
    records of the later rows are not written *)
Definition build_grid_l (s : shallot) (intermittent : bool) (start_y : pyval) : prog shallot * log :=
  match number start_y true (PInt 0) (PInt (Z.of_nat (List.length (g_dy (s_params s))))) false with
  | Err e => (([], Err e), [])
  | Ok v =>
    match (if Z.eqb (int_of v) 0 then init_props s else Ok s) with
    | Err e => (([], Err e), [])
    | Ok s =>
      let mk := if intermittent then [SRmtree TEMP; SMkdir TEMP] else [] in
      let k := Z.to_nat (int_of v) in
      let n := List.length (g_dy (s_params s)) in
      match rows_l intermittent n (seq k (n - k)) s with
      | ((l, Err e), lg) => ((mk ++ l, Err e), lg)
      | ((l, Ok s), lg) =>
        match set_contrasts s with
        | Err e => ((mk ++ l, Err e), lg)
        | Ok s => ((mk ++ l ++ [SRmtree TEMP], Ok s), lg)
        end
      end
    end
  end.
(** Shallot.py:1187-1189; np.nanmax of an array without numbers is NaN *)
Definition deviation_log (p : gprop T) : log :=
  [info "diagnose_fxfy_resolution" ("maximum deviation is " ++ fmt 4 (dflt n_nan (nanmax (map n_abs (p_data p)))) ++ " - explore by plotting")%string].
Definition finish_l (s : shallot) : gparams T * res shallot * log :=
  match extend_shallot E s with
  | (g, Ok s) =>
    match diagnose (s_params s) (s_dr s) with
    | Err e => (g, Err e, [])
    | Ok m => (g, Ok (with_dmap s (Some m)), deviation_log m)
    end
  | (g, Err e) => (g, Err e, [])
  end.
(** Shallot.py:56-114 constructor *)
Definition new_shallot_l (parameters : earg (gparams T)) (num_fxfy logging_level keep_diagnostics intermittent : pyval)
  : option (gparams T) * prog shallot * log :=
  let fail e := (match parameters with EIs g => Some g | EOther => None end, ([], Err e), []) in
  match
   (let* _ := number logging_level true (PInt 10) (PInt 50) false in
    let* g := class_arg parameters in
    let* nf := number num_fxfy true (PInt 1) p_inf false in
    let* keep := boolean_v keep_diagnostics in
    let* inter := boolean_v intermittent in
    Ok (fresh_shallot E g nf (if keep then Some (new_diag g) else None), inter))
  with
  | Err e => fail e
  | Ok (s, inter) =>
    match build_grid_l s inter (PInt 0) with
    | ((l, Err e), lg) => (Some (s_params s), (l, Err e), lg)
    | ((l, Ok s), lg) => let '(g, r, lg') := finish_l s in (Some g, (l, r), lg ++ lg')
    end
  end.
End O.
