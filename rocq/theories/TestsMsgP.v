(** The texts asserted in the test files of /repo, evaluated in the binary64 instance of the model: messages of exceptions
    and __str__/__repr__.  np.nanmean and np.nanmedian are not modelled; the fixtures' 423 is given. *)
From Coq Require Import ZArith List Bool String Ascii.
From Verif Require Import Num Py Validate Ring RingSystem FS GridParams GridDiag Names GridProp Fmt Text Message TestsP.
Import ListNotations.
Local Open Scope string_scope.

(** the exception [e] with the text [t] *)
Definition says {A} (e : exn) (t : string) (x : mres A) : bool :=
  raises e (outcome x) && match x with MErr _ (Some s) => String.eqb s t | _ => false end.
Definition text_of (x : res string) (t : string) : bool := match x with Ok s => String.eqb s t | Err _ => false end.
Definition nl := newline.
Definition num := @number_m f64 _ fmt_fixed "parameter".
Definition arr := @array_m f64 _ fmt_fixed "parameter".

(** test_validate.py:14-66 test_boolean_*, test_string_* *)
Example test_boolean_string_texts :
  forallb (fun b => b) [
    says TypeError "parameter is not of type boolean" (boolean_m "parameter" (pi 7));
    says TypeError "parameter is not of type boolean" (boolean_m "parameter" (PObj "list" 0 : pv));
    says TypeError "parameter is not of type string" (string_m "parameter" (pi 7));
    says TypeError "parameter is not of type string" (string_m "parameter" (PObj "list" 0 : pv))] = true.
Proof. vm_compute. reflexivity. Qed.

(** test_validate.py:100-205 test_number_* *)
Example test_number_texts :
  forallb (fun b => b) [
    says TypeError "parameter is not of type integer" (num (pf 7 1) true m_inf p_inf false);
    says TypeError "lower_bound is not of type 'number'" (num (pi 1) false (PStr "invalid") p_inf false);
    says TypeError "upper_bound is not of type 'number'" (num (pi 1) false m_inf (PStr "invalid") false);
    says ValueError "The upper_bound argument (-1.0000) must be greater than the lower_bound (0.0000) argument." (num (pi 1) false (pi 0) (pi (-1)) false);
    says ValueError "The parameter argument must be greater than or equal to 2.0000" (num (pi 1) false (pi 2) p_inf false);
    says ValueError "The parameter argument must be greater than 1.0000" (num (pi 1) false (pi 1) p_inf true);
    says ValueError "The parameter argument must be less than or equal to 0.0000" (num (pi 1) false m_inf (pi 0) false);
    says ValueError "The parameter argument must be less than 1.0000" (num (pi 1) false m_inf (pi 1) true)] = true.
Proof. vm_compute. reflexivity. Qed.

Definition normal3 := farr1 [dec (-13) 1; dec 4 1; dec 11 1].
(** test_validate.py:257-505 test_array_* *)
Example test_array_texts :
  forallb (fun b => b) [
    says TypeError "parameter is not of type np.ndarray" (arr (pi 7) None None false None None);
    says TypeError "parameter is not of type np.ndarray" (arr (PObj "list" 0) None None false None None);
    says TypeError "lower_bound is not of type 'number'" (arr normal3 (Some (PStr "invalid")) None false None None);
    says TypeError "upper_bound is not of type 'number'" (arr normal3 None (Some (PStr "invalid")) false None None);
    says ValueError "The upper_bound argument (-1.0000) must be greater than the lower_bound (0.0000) argument." (arr normal3 (Some (pi 0)) (Some (pi (-1))) false None None);
    says ValueError "The parameter argument must contain solely values greater than or equal to 200.0000" (arr normal3 (Some (pi 200)) None false None None);
    says ValueError "The parameter argument must contain solely values greater than or equal to -0.5000" (arr (iarr [-1; 0; 1]%Z) (Some (pf (-5) 1)) None false None None);
    says ValueError "The parameter argument must contain solely values greater than -1.3000" (arr normal3 (Some (pf (-13) 1)) None true None None);
    says ValueError "The parameter argument must contain solely values greater than -1.0000" (arr (iarr [-1; 0; 1]%Z) (Some (pi (-1))) None true None None);
    says ValueError "The parameter argument must contain solely values less than or equal to -200.0000" (arr normal3 None (Some (pi (-200))) false None None);
    says ValueError "The parameter argument must contain solely values less than or equal to 0.5000" (arr (iarr [-1; 0; 1]%Z) None (Some (pf 5 1)) false None None);
    says ValueError "The parameter argument must contain solely values less than 1.1000" (arr normal3 None (Some (pf 11 1)) true None None);
    says ValueError "The parameter argument must contain solely values less than 1.0000" (arr (iarr [-1; 0; 1]%Z) None (Some (pi 1)) true None None);
    says InvalidDims "The parameter (2 dimensions) should have 1 dimensions" (arr (farr [1; 1]%nat (zs [1]%Z)) None None false None (Some 1%Z));
    says TypeError "parameter (float64) is not of type <U32" (arr (farr1 (zs [1; 1]%Z)) None None false (Some "<U32") None)] = true.
Proof. vm_compute. reflexivity. Qed.

(** test_validate.py:515-567 test_same_shape_arrays_* *)
Example test_same_shape_texts :
  forallb (fun b => b) [
    says AttributeError "arrays_list argument should contain at least two arrays" (same_shape_m [farr1 (zs [0]%Z)] ["parameter"]);
    says AttributeError "arrays_list (2) should have the same length as names_list (1)" (same_shape_m [farr1 (zs [0]%Z); farr1 (zs [1]%Z)] ["parameter"]);
    says InvalidShape "parameter (2,), parameterparameter (1,) should all have the same shape." (same_shape_m [farr1 (zs [0; 0]%Z); farr1 (zs [1]%Z)] ["parameter"; "parameterparameter"]);
    says TypeError "parameterparameter is not of type np.ndarray" (same_shape_m [farr1 (zs [0; 0]%Z); PStr "string"] ["parameter"; "parameterparameter"])] = true.
Proof. vm_compute. reflexivity. Qed.

Definition ring3_m (i o t : pv) := new_ring_m fmt_fixed i o t (pi 0) (pi 0).
Definition assign_m (x : res (ring f64)) (st : setter) : mres unit :=
  match x with Ok r => snd (set_ring_m fmt_fixed r st) | Err e => MErr e None end.
Definition r01 := ring3 (pi 0) (pi 1) half.
(** test_ring.py:35-250 *)
Example test_ring_texts :
  forallb (fun b => b) [
    says ValueError "The inner_radius argument must be greater than 0.0000" (ring3_m (pi (-1)) (pi 1) half);
    says ValueError "The inner_radius argument must be greater than 0.0000" (assign_m r01 (SetInner (pi (-1))));
    says ValueError "The inner_radius argument must be less than 1.0000" (assign_m r01 (SetInner (pi 2)));
    says ValueError "The outer_radius argument must be greater than 1.0000" (ring3_m (pi 1) (pf 2 1) half);
    says ValueError "The outer_radius argument must be greater than 0.1000" (assign_m (ring3 (pf 1 1) (pf 2 1) half) (SetOuter (PFloat (n_sub (dec 1 1) (dec 1 1)))));
    says ValueError "The transmission argument must be greater than or equal to 0.0000" (ring3_m (pi 0) (pi 1) (pi (-1)));
    says ValueError "The transmission argument must be less than or equal to 1.0000" (ring3_m (pi 0) (pi 1) (pi 2));
    says ValueError "The transmission argument must be greater than or equal to 0.0000" (assign_m r01 (SetTr (pi (-1))));
    says ValueError "The transmission argument must be less than or equal to 1.0000" (assign_m r01 (SetTr (pi 2)));
    says ValueError "The inclination argument must be greater than or equal to 0.0000" (new_ring_m fmt_fixed (pi 0) (pi 1) half (pi (-1)) (pi 0));
    says ValueError "The inclination argument must be less than or equal to 90.0000" (new_ring_m fmt_fixed (pi 0) (pi 1) half (pi 100) (pi 0));
    says ValueError "The inclination argument must be greater than or equal to 0.0000" (assign_m r01 (SetInc (pi (-1))));
    says ValueError "The inclination argument must be less than or equal to 90.0000" (assign_m r01 (SetInc (pi 100)));
    says ValueError "The tilt argument must be greater than or equal to -180.0000" (new_ring_m fmt_fixed (pi 0) (pi 1) half (pi 0) (pi (-200)));
    says ValueError "The tilt argument must be less than or equal to 180.0000" (new_ring_m fmt_fixed (pi 0) (pi 1) half (pi 0) (pi 200));
    says ValueError "The tilt argument must be greater than or equal to -180.0000" (assign_m r01 (SetTilt (pi (-200))));
    says ValueError "The tilt argument must be less than or equal to 180.0000" (assign_m r01 (SetTilt (pi 200)));
    match r01 with
    | Ok r => String.eqb (ring_str fmt_fixed r)
        (nl ++ "============================" ++ nl ++ "***** RING INFORMATION *****" ++ nl ++ "============================" ++ nl ++ nl ++
         "Inner Radius:   0.0000 [R*]" ++ nl ++ "Outer Radius:   1.0000 [R*]" ++ nl ++ "Transmission:   0.5000 [-]" ++ nl ++
         "Inclination:    0.0000 [deg]" ++ nl ++ "Tilt:           0.0000 [deg]" ++ nl ++ nl ++ "============================")
    | Err _ => false end] = true.
Proof. vm_compute. reflexivity. Qed.

Definition after_m (nr : res (ring f64)) (op : list (ring f64) -> rsys f64 -> pv -> list (ring f64) * rsys f64 * mres unit) : mres unit :=
  match fixture, nr with
  | Ok (h, y), Ok r => snd (op (h ++ [r])%list y (PObj "Ring" (List.length h)))
  | _, _ => MErr KeyError None
  end.
Definition adds_m i nr := after_m nr (fun h y r => add_ring_m fmt_fixed h y (pi i) r).
Definition replaces_m i nr := after_m nr (fun h y r => replace_ring_m fmt_fixed h y (pi i) r).
(** test_ring_system.py:48-57, 120-226 *)
Example test_ring_system_texts :
  forallb (fun b => b) [
    says InvalidShape "inner_radii (2,), outer_radii (2,), transmissions (1,) should all have the same shape."
      (new_system_m fmt_fixed [] (pf 5 1) (farr1 (zs [0; 2]%Z)) (farr1 (zs [1; 4]%Z)) (farr1 (zs [1]%Z)) (pi 83) (pi 12) (pi 20));
    says ValueError "Ring must have an inner radius (14.00) > the preceding ring's outer radius (15.00)" (adds_m 3 (ring3 (pi 14) (pi 18) fourth));
    says ValueError "Ring must have an outer radius (22.00) less than the succeeding ring's inner radius (20.00)" (adds_m 3 (ring3 (pi 16) (pi 22) fourth));
    says ValueError "Ring must have an inner radius (14.00) > the preceding ring's outer radius (15.00)" (adds_m 3 (ring3 (pi 14) (pi 22) fourth));
    says ValueError "Ring must have an inner radius (8.00) > the preceding ring's outer radius (10.00)" (replaces_m 2 (ring3 (pi 8) (pi 18) fourth));
    says ValueError "Ring must have an outer radius (22.00) less than the succeeding ring's inner radius (20.00)" (replaces_m 2 (ring3 (pi 16) (pi 22) fourth));
    says InvalidShape "num_divisions (2,), self.rings (4,) should all have the same shape." (after_m any (fun h y _ => split_rings_m fmt_fixed h y (iarr [1; 3]%Z)))] = true.
Proof. vm_compute. reflexivity. Qed.
(** test_ring_system.py:288-346 test_repr, test_str *)
Example test_ring_system_repr :
  match fixture with
  | Ok (h, y) => String.eqb (rsys_repr fmt_fixed h y) (String.concat nl
      [nl ++ "======================================================================";
       "********************** RING SYSTEM INFORMATION ***********************";
       "======================================================================" ++ nl;
       "Geometric Parameters"; "--------------------" ++ nl;
       "Planet Radius:    0.50 [R*]"; "Inclination:     75.00 [deg]"; "Tilt:            37.00 [deg]"; nl;
       "Ring Parameters"; "---------------" ++ nl; "Ring #     Inner Radius     Outer Radius     Transmission";
       "   1            1.00            6.00              0.20"; "   2            6.00           10.00              0.80";
       "   3           10.00           15.00              0.30"; "   4           20.00           30.00              0.70";
       ""; "======================================================================"])
  | Err _ => false
  end = true.
Proof. vm_compute. reflexivity. Qed.

Definition line28 := "----------------------------".
(** test_grid_parameters.py:9-36, 108-127, 184-190 *)
Example test_grid_parameters_texts :
  forallb (fun b => b) [
    match gp8 (pi 0) (pi 1) 2 (pi 0) (pi 1) 2 2 2 with
    | Ok g => text_of (params_repr fmt_fixed g) (String.concat nl [""; "Grid Parameters"; line28; "dx:   0.00 ->   1.00 (2)"; "dy:   0.00 ->   1.00 (2)";
        "rf:   2.00 ->   1.00 ->   2.00 (3)"; "grid_shape: (2, 2, 3)"])
    | Err _ => false end;
    says ValueError "max_y must be greater than min_y" (new_params_m fmt_fixed (pi 0) (pi 1) (pi 2) (pi 2) (pi 1) (pi 2) (pi 2) (pi 2));
    says ValueError "max_x must be greater than min_x" (new_params_m fmt_fixed (pi 1) (pi 0) (pi 2) (pi 0) (pi 1) (pi 2) (pi 2) (pi 2));
    match gp8 half (pi 1) 2 (pi 0) (pi 1) 4 5 4 with
    | Ok g => says AttributeError "This grid parameter object can not be extended. That is only possible when dx[0] = dy[0] = 0." (snd (extend_grid_m fmt_fixed g))
    | Err _ => false end;
    says LoadErr "failed to load grid parameters from invalid directory" (params_load_m ([] : fs f64) "invalid directory")] = true.
Proof. vm_compute. reflexivity. Qed.

Definition diag00 := fst (save_diagnostic diag0 (pi 0) (pi 0) (farr1 (zs [0]%Z)) (farr1 (zs [1]%Z))).
Definition key_text_is (x : mres dkey) (t : string) : bool := match x with MOk k => String.eqb (str_key k) t | _ => false end.
(** test_grid_diagnostics.py:22-88, 126-137, 192-231 *)
Example test_grid_diagnostics_texts :
  forallb (fun b => b) [
    String.eqb (diag_repr diag0) (nl ++ "Grid Diagnostics" ++ nl ++ line28 ++ nl ++ "diagnostics saved: 0");
    String.eqb (diag_repr diag00) (nl ++ "Grid Diagnostics" ++ nl ++ line28 ++ nl ++ "diagnostics saved: 1");
    key_text_is (gen_key_m fmt_fixed diag0 (pi 1) (pi 0)) "(1, 0)";
    key_text_is (gen_key_m fmt_fixed diag0 (pi 0) (pi 1)) "(0, 1)";
    says ValueError "The y argument must be less than or equal to 1.0000" (gen_key_m fmt_fixed diag0 (pi 2) (pi 0));
    says ValueError "The x argument must be less than or equal to 1.0000" (gen_key_m fmt_fixed diag0 (pi 0) (pi 2));
    says ValueError "The y argument must be less than or equal to 1.0000" (gen_key_m fmt_fixed diag0 (pi 10) (pi 10));
    says KeyError "'(0, 1)'" (get_diagnostic_m fmt_fixed diag10 (pi 0) (pi 1));
    says RuntimeError "diagnostics have been extended and can not be changed"
      (snd (save_diagnostic_m fmt_fixed (diag_extend diag0) (pi 0) (pi 0) (farr1 (zs [0]%Z)) (farr1 (zs [1]%Z))));
    says KeyError "'(2, 2)'" (get_diagnostic_m fmt_fixed (diag_extend diag00) (pi 0) (pi 0));
    key_text_is (gen_key_m fmt_fixed (diag_extend diag00) (pi 0) (pi 0)) "(2, 2)";
    says LoadErr "failed to load grid diagnostics from invalid" (diag_load_m ([] : fs f64) "invalid")] = true.
Proof. vm_compute. reflexivity. Qed.

Definition m423 (_ : list f64) : f64 := n_ofZ 423.
Definition values423 := ["min value:           0.0000"; "max value:         846.0000"; "mean value:        423.0000"; "median value:      423.0000"].
Definition params117 := ["dx:   0.00 ->   1.00 (11)"; "dy:   0.00 ->   1.00 (11)"; "rf:   5.00 ->   1.00 ->   5.00 (7)"; "grid_shape: (11, 11, 7)"].
Definition disk_lines := ([""; "Disk Radius [$t_{ecl}$]"; line28] ++ values423)%list.
(** test_grid_property.py:27-76, 155-161 *)
Example test_grid_property_texts :
  forallb (fun b => b) [
    on gprop0 (fun p => text_of (gprop_repr fmt_fixed m423 m423 p) (String.concat nl disk_lines));
    on gprop0 (fun p => text_of (gprop_str fmt_fixed m423 m423 p) (String.concat nl (disk_lines ++ [""; "Grid Parameters"; line28] ++ params117)));
    on gprop0 (fun p => text_of (gprop_repr fmt_fixed m423 m423 (fst (set_mask p (barr sh117 all_true))))
      (String.concat nl (disk_lines ++ [""; "mask [out]:        100.0000%"])));
    on gprop0 (fun p => says InvalidShape "mask (3,), data (11, 11, 7) should all have the same shape." (snd (set_mask_m fmt_fixed p (barr [3%nat] [true; true; true]))));
    says LoadErr "failed to load Disk Radius [Eclipse Duration] from invalid"
      (gprop_load_m ([] : fs f64) (PStr "invalid") (EIs DISK_RADIUS) (EIs ECLIPSE_DURATION))] = true.
Proof. vm_compute. reflexivity. Qed.
Definition grad_head := ([""; "Gradient [-] @ pos =  0.2000"; line28] ++ values423)%list.
(** test_grid_gradient.py:26-76, 106-112, 232-238 *)
Example test_grid_gradient_texts :
  forallb (fun b => b) [
    on ggrad0 (fun g => text_of (ggrad_repr fmt_fixed m423 m423 g) (String.concat nl grad_head));
    on ggrad0 (fun g => text_of (ggrad_repr fmt_fixed m423 m423 (fst (determine_mask g (pf 3 1) (pf 12 1) None None)))
      (String.concat nl (grad_head ++ [""; "mask [out]:          0.1181%"; "measured gradient:   0.3000"; "measured error:      1.0000";
        "orbital scale:       1.2000"; "transmission change: 1.0000"])));
    on ggrad0 (fun g => says InvalidShape "mask (3,), data (11, 11, 7) should all have the same shape." (snd (set_mask_m fmt_fixed (gg_prop g) (barr [3%nat] [true; true; true]))));
    on ggrad0 (fun g => says ValueError "scaled gradient is greater than one, check the measured gradient, orbital scale and transmission change"
      (snd (determine_mask_m fmt_fixed g (pi 2) (pi 2) (Some (pf 1 2)) None)));
    says LoadErr "failed to load Gradient [None] from invalid" (grad_load_m ([] : fs f64) "invalid")] = true.
Proof. vm_compute. reflexivity. Qed.
