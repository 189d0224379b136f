(** The assertions of the test files of /repo, evaluated in the binary64 instance of the model.  Each
    Example bears the name of the test(s) it transcribes.  Texts are in TestsMsgP.v.  Left out are
    drawing, arguments of a type the model excludes (check_integer, exclusive, num_dimensions,
    dtype), and random inputs, for which one value is taken. *)
From Coq Require Import ZArith List Bool String.
From Verif Require Import Num Py Validate Ring RingSystem FS GridParams GridDiag Names GridProp Viewer.
Import ListNotations.
Local Open Scope string_scope.

Notation pv := (pyval f64).
(** the literal m / 10^e, e.g. 0.25 = dec 25 2: the quotient is correctly rounded, as the literal is *)
Definition dec (m : Z) (e : Z) : f64 := n_div (n_ofZ m) (n_ofZ (10 ^ e)).
Definition pf (m e : Z) : pv := PFloat (dec m e).
Definition pi (z : Z) : pv := PInt z.
Definition raises {A} (e : exn) (x : res A) : bool :=
  match x, e with
  | Err TypeError, TypeError | Err ValueError, ValueError | Err AttributeError, AttributeError
  | Err InvalidDims, InvalidDims | Err InvalidShape, InvalidShape | Err KeyError, KeyError
  | Err RuntimeError, RuntimeError | Err LoadErr, LoadErr => true
  | _, _ => false
  end.
Definition farr (sh : list nat) (l : list f64) : pv := PArr "float64" sh (map (@SF f64) l).
Definition farr1 (l : list f64) : pv := farr [List.length l] l.
Definition iarr (l : list Z) : pv := PArr "int64" [List.length l] (map (@SI f64) l).
Definition zs (l : list Z) : list f64 := map n_ofZ l.

Fixpoint same (a b : list f64) : bool :=
  match a, b with
  | [], [] => true
  | x :: a, y :: b => n_eq x y && same a b
  | _, _ => false
  end.
Fixpoint same_nan (a b : list f64) : bool :=
  match a, b with
  | [], [] => true
  | x :: a, y :: b => (n_eq x y || n_isnan x && n_isnan y) && same_nan a b
  | _, _ => false
  end.
Definition sfl (l : list (scal f64)) : list f64 := map (@num_scal f64 _) l.

(** *** test_validate.py *)

(** test_validate.py:14-75 test_boolean_*, test_string_* *)
Example test_boolean_string :
  forallb (fun b => b) [
    raises TypeError (boolean_v (pi 7));
    raises TypeError (boolean_v (PObj "list" 0 : pv));
    is_ok (boolean_v (PBool true : pv));
    raises TypeError (string_v (pi 7));
    raises TypeError (string_v (PObj "list" 0 : pv));
    is_ok (string_v (PStr "test" : pv))] = true.
Proof. vm_compute. reflexivity. Qed.

(** test_validate.py:83-248 test_number_* *)
Example test_number :
  forallb (fun b => b) [
    is_ok (number (pi 7) false m_inf p_inf false);
    is_ok (number (pf 7 1) false m_inf p_inf false);
    is_ok (number (pi 7) true m_inf p_inf false);
    raises TypeError (number (pf 7 1) true m_inf p_inf false);
    raises TypeError (number (pi 1) false (PStr "invalid") p_inf false);
    raises TypeError (number (pi 1) false m_inf (PStr "invalid") false);
    raises ValueError (number (pi 1) false (PInt 0) (PInt (-1)) false);
    raises ValueError (number (pi 1) false (PInt 2) p_inf false);
    raises ValueError (number (pi 1) false (PInt 1) p_inf true);
    raises ValueError (number (pi 1) false m_inf (PInt 0) false);
    raises ValueError (number (pi 1) false m_inf (PInt 1) true);
    is_ok (number (pi 1) false (PInt 1) p_inf false);
    is_ok (number (pi 1) false m_inf (PInt 1) false);
    is_ok (number (pi 0) false (PInt 0) (PInt 0) false)] = true.
Proof. vm_compute. reflexivity. Qed.

(** test_validate.py:257-512 test_array_* *)
Example test_array :
  forallb (fun b => b) [
    raises TypeError (array (pi 7) None None false None None);
    raises TypeError (array (PObj "list" 0 : pv) None None false None None);
    is_ok (array (farr1 (zs [1; 1; 1]%Z)) None None false None None);
    raises TypeError (array (farr1 (zs [1; 1; 1]%Z)) (Some (PStr "invalid")) None false None None);
    raises TypeError (array (farr1 (zs [1; 1; 1]%Z)) None (Some (PStr "invalid")) false None None);
    raises ValueError (array (farr1 (zs [1; 1; 1]%Z)) (Some (pi 0)) (Some (pi (-1))) false None None);
    raises ValueError (array (farr1 [dec (-13) 1; dec 4 1; dec 11 1]) (Some (pi 200)) None false None None);
    raises ValueError (array (iarr [-1; 0; 1]%Z) (Some (pf (-5) 1)) None false None None);
    raises ValueError (array (farr1 [dec (-13) 1; dec 4 1; dec 11 1]) (Some (pf (-13) 1)) None true None None);
    is_ok (array (farr1 [dec (-13) 1; dec 4 1; dec 11 1]) (Some (pf (-13) 1)) None false None None);
    raises ValueError (array (iarr [-1; 0; 1]%Z) (Some (pi (-1))) None true None None);
    raises ValueError (array (farr1 [dec (-13) 1; dec 4 1; dec 11 1]) None (Some (pi (-200))) false None None);
    raises ValueError (array (iarr [-1; 0; 1]%Z) None (Some (pf 5 1)) false None None);
    raises ValueError (array (farr1 [dec (-13) 1; dec 4 1; dec 11 1]) None (Some (pf 11 1)) true None None);
    raises ValueError (array (iarr [-1; 0; 1]%Z) None (Some (pi 1)) true None None);
    is_ok (array (farr1 [dec (-13) 1; dec 4 1; dec 11 1]) None None false None None);
    is_ok (array (farr1 [dec (-13) 1; dec 4 1; dec 11 1]) (Some (pi (-200))) None false None None);
    is_ok (array (farr1 [dec (-13) 1; dec 4 1; dec 11 1]) None (Some (pi 200)) false None None);
    is_ok (array (farr1 (zs [0; 0; 0]%Z)) (Some (pi 0)) (Some (pi 0)) false None None);
    is_ok (array (farr1 (zs [1; 1; 1]%Z)) None None false None (Some 1%Z));
    is_ok (array (farr [1; 1]%nat (zs [1]%Z)) None None false None (Some 2%Z));
    raises InvalidDims (array (farr [1; 1]%nat (zs [1]%Z)) None None false None (Some 1%Z));
    is_ok (array (farr1 (zs [1; 1; 1]%Z)) None None false (Some "float64") None);
    raises TypeError (array (farr1 (zs [1; 1; 1]%Z)) None None false (Some "<U32") None)] = true.
Proof. vm_compute. reflexivity. Qed.

(** test_validate.py:520-582 test_same_shape_arrays* *)
Example test_same_shape_arrays :
  forallb (fun b => b) [
    is_ok (same_shape_arrays [farr1 (zs [0]%Z); farr1 (zs [1]%Z)] 2);
    raises AttributeError (same_shape_arrays [farr1 (zs [0]%Z)] 1);
    raises AttributeError (same_shape_arrays [farr1 (zs [0]%Z); farr1 (zs [1]%Z)] 1);
    raises InvalidShape (same_shape_arrays [farr1 (zs [0; 0]%Z); farr1 (zs [1]%Z)] 2);
    raises TypeError (same_shape_arrays [farr1 (zs [0; 0]%Z); PStr "string"] 2)] = true.
Proof. vm_compute. reflexivity. Qed.

(** *** test_ring.py *)
Definition ring_is (x : res (ring f64)) (i o t inc tilt : f64) : bool :=
  match x with
  | Ok r => same [r_in r; r_out r; r_tr r; r_inc r; r_tilt r] [i; o; t; inc; tilt]
  | Err _ => false
  end.
Definition half := pf 5 1.
Definition ring3 (i o t : pv) : res (ring f64) := new_ring i o t (pi 0) (pi 0).
(** the assignment [st] on a new ring *)
Definition assign (x : res (ring f64)) (st : setter) : res (ring f64) :=
  match x with
  | Ok r => match set_ring r st with (r', Ok _) => Ok r' | (_, Err e) => Err e end
  | Err e => Err KeyError
  end.

(** test_ring.py:5-36, 87-110: test_create_ring*, constructor arguments refused *)
Example test_create_ring :
  forallb (fun b => b) [
    ring_is (ring3 (pf 2 1) (pi 1) half) (dec 2 1) n_one (dec 5 1) n_zero n_zero;
    ring_is (new_ring half (pi 12) (pf 3 1) (pi 74) (pi 37)) (dec 5 1) (n_ofZ 12) (dec 3 1) (n_ofZ 74) (n_ofZ 37);
    ring_is (ring3 (pi 0) (pi 1) half) (dec 1 16) n_one (dec 5 1) n_zero n_zero;
    raises ValueError (ring3 (pi (-1)) (pi 1) half);
    raises ValueError (ring3 (pi 1) (pf 2 1) half);
    raises ValueError (ring3 (pi 0) (pi 1) (pi (-1)));
    raises ValueError (ring3 (pi 0) (pi 1) (pi 2));
    raises ValueError (new_ring (pi 0) (pi 1) half (pi (-1)) (pi 0));
    raises ValueError (new_ring (pi 0) (pi 1) half (pi 100) (pi 0));
    raises ValueError (new_ring (pi 0) (pi 1) half (pi 0) (pi (-200)));
    raises ValueError (new_ring (pi 0) (pi 1) half (pi 0) (pi 200))] = true.
Proof. vm_compute. reflexivity. Qed.

(** test_ring.py:44-243 test_set_ring_* *)
Example test_set_ring :
  forallb (fun b => b) [
    ring_is (assign (ring3 (pf 1 1) (pi 1) half) (SetInner (pf 3 1))) (dec 3 1) n_one (dec 5 1) n_zero n_zero;
    raises ValueError (assign (ring3 (pi 0) (pi 1) half) (SetInner (pi (-1))));
    raises ValueError (assign (ring3 (pi 0) (pi 1) half) (SetInner (pi 2)));
    ring_is (assign (ring3 (pi 0) (pi 1) half) (SetOuter (pi 2))) (dec 1 16) (n_ofZ 2) (dec 5 1) n_zero n_zero;
    raises ValueError (assign (ring3 (pf 1 1) (pf 2 1) half) (SetOuter (PFloat (n_sub (dec 1 1) (dec 1 1)))));
    ring_is (assign (ring3 (pi 0) (pi 1) half) (SetTr (pf 3 1))) (dec 1 16) n_one (dec 3 1) n_zero n_zero;
    raises ValueError (assign (ring3 (pi 0) (pi 1) half) (SetTr (pi (-1))));
    raises ValueError (assign (ring3 (pi 0) (pi 1) half) (SetTr (pi 2)));
    ring_is (assign (new_ring (pi 0) (pi 1) half (pi 12) (pi 0)) (SetInc (pi 70))) (dec 1 16) n_one (dec 5 1) (n_ofZ 70) n_zero;
    raises ValueError (assign (ring3 (pi 0) (pi 1) half) (SetInc (pi (-1))));
    raises ValueError (assign (ring3 (pi 0) (pi 1) half) (SetInc (pi 100)));
    ring_is (assign (new_ring (pi 0) (pi 1) half (pi 0) (pi 15)) (SetTilt (pi 60))) (dec 1 16) n_one (dec 5 1) n_zero (n_ofZ 60);
    raises ValueError (assign (ring3 (pi 0) (pi 1) half) (SetTilt (pi (-200))));
    raises ValueError (assign (ring3 (pi 0) (pi 1) half) (SetTilt (pi 200)))] = true.
Proof. vm_compute. reflexivity. Qed.

(** *** test_ring_system.py; the fixture, lines 11-31 *)
Definition fx_inner := zs [1; 6; 10; 20]%Z.
Definition fx_outer := zs [6; 10; 15; 30]%Z.
Definition fx_trans := [dec 2 1; dec 8 1; dec 3 1; dec 7 1].
Definition fixture : res (list (ring f64) * rsys f64) :=
  new_system [] (pf 5 1) (farr1 fx_inner) (farr1 fx_outer) (farr1 fx_trans) (pi 75) (pi 37) (pi 20).
Definition data_is (h : list (ring f64)) (y : rsys f64) (i o t : list f64) : bool :=
  same (get_inner_radii h y) i && same (get_outer_radii h y) o && same (get_transmissions h y) t.
(** the fixture and a new ring, then the operation [op] on the system and the ring's object *)
Definition after (nr : res (ring f64)) (op : list (ring f64) -> rsys f64 -> pv -> list (ring f64) * rsys f64 * res unit) : res (list (ring f64) * rsys f64) :=
  match fixture, nr with
  | Ok (h, y), Ok r => let '(h, y, x) := op (h ++ [r])%list y (PObj "Ring" (List.length h)) in
                       match x with Ok _ => Ok (h, y) | Err e => Err e end
  | _, _ => Err KeyError
  end.
Definition has (x : res (list (ring f64) * rsys f64)) (i o t : list f64) : bool :=
  match x with Ok (h, y) => data_is h y i o t | Err _ => false end.
Definition adds i nr := after nr (fun h y r => add_ring h y (pi i) r).
Definition replaces i nr := after nr (fun h y r => replace_ring h y (pi i) r).
Definition fourth := pf 4 1.

(** test_ring_system.py:33-99 test_init*, test_get_* *)
Example test_init :
  forallb (fun b => b) [
    match fixture with Ok (h, y) =>
        data_is h y fx_inner fx_outer fx_trans && same [s_planet y; s_inc y; s_tilt y] [dec 5 1; n_ofZ 75; n_ofZ 37] &&
        forallb (fun r => same [r_inc r; r_tilt r] [n_ofZ 75; n_ofZ 37]) (rings_of h y) && Z.eqb (num_rings y) 4
      | Err _ => false end;
    raises InvalidShape (new_system [] (pf 5 1) (farr1 (zs [0; 2]%Z)) (farr1 (zs [1; 4]%Z)) (farr1 (zs [1]%Z)) (pi 83) (pi 12) (pi 20))] = true.
Proof. vm_compute. reflexivity. Qed.

(** test_ring_system.py:102-221 test_*_ring *)
Example test_add_replace :
  forallb (fun b => b) [
    has (adds 4 (ring3 (pi 35) (pi 40) fourth)) (zs [1; 6; 10; 20; 35]%Z) (zs [6; 10; 15; 30; 40]%Z) [dec 2 1; dec 8 1; dec 3 1; dec 7 1; dec 4 1];
    has (adds 0 (ring3 (pf 1 1) half fourth)) (dec 1 1 :: fx_inner) (dec 5 1 :: fx_outer) [dec 4 1; dec 2 1; dec 8 1; dec 3 1; dec 7 1];
    has (adds 3 (ring3 (pi 16) (pi 18) fourth)) (zs [1; 6; 10; 16; 20]%Z) (zs [6; 10; 15; 18; 30]%Z) [dec 2 1; dec 8 1; dec 3 1; dec 4 1; dec 7 1];
    raises ValueError (adds 3 (ring3 (pi 14) (pi 18) fourth));
    raises ValueError (adds 3 (ring3 (pi 16) (pi 22) fourth));
    raises ValueError (adds 3 (ring3 (pi 14) (pi 22) fourth));
    has (after (ring3 (pi 1) (pi 2) fourth) (fun h y _ => remove_ring h y (pi 2))) (zs [1; 6; 20]%Z) (zs [6; 10; 30]%Z) [dec 2 1; dec 8 1; dec 7 1];
    has (replaces 2 (ring3 (pi 12) (pi 18) fourth)) (zs [1; 6; 12; 20]%Z) (zs [6; 10; 18; 30]%Z) [dec 2 1; dec 8 1; dec 4 1; dec 7 1];
    raises ValueError (replaces 2 (ring3 (pi 8) (pi 18) fourth));
    raises ValueError (replaces 2 (ring3 (pi 16) (pi 22) fourth))] = true.
Proof. vm_compute. reflexivity. Qed.

Definition any := ring3 (pi 1) (pi 2) fourth.
Definition merged (x : res (list (ring f64) * rsys f64)) (tol : f64) : res (list (ring f64) * rsys f64) :=
  match x with
  | Ok (h, y) => let '(h, y, x) := merge_rings h y tol in match x with Ok _ => Ok (h, y) | Err e => Err e end
  | Err e => Err e
  end.
(** tolerance = 1e-8, RingSystem.py:590 *)
Definition tol8 := dec 1 8.
Definition noisy : res (list (ring f64) * rsys f64) :=
  match after any (fun h y _ => split_rings h y (pi 2)) with
  | Ok (h, y) =>
    new_system h (PFloat (s_planet y)) (farr1 (get_inner_radii h y)) (farr1 (get_outer_radii h y))
      (farr1 (map (fun tn => n_add (fst tn) (snd tn)) (combine (get_transmissions h y) (map (fun z => dec z 7) [3; -12; 7; -8; 15; 2; -4; -21]%Z))))
      (PFloat (s_inc y)) (PFloat (s_tilt y)) (pi 20)
  | Err e => Err e
  end.

(** test_ring_system.py:224-303 test_split_rings_*, test_merge_rings_* *)
Example test_split_merge :
  forallb (fun b => b) [
    has (after any (fun h y _ => split_rings h y (pi 2))) [dec 10 1; dec 35 1; dec 60 1; dec 80 1; dec 100 1; dec 125 1; dec 200 1; dec 250 1] [dec 35 1; dec 60 1; dec 80 1; dec 100 1; dec 125 1; dec 150 1; dec 250 1; dec 300 1] [dec 2 1; dec 2 1; dec 8 1; dec 8 1; dec 3 1; dec 3 1; dec 7 1; dec 7 1];
    has (after any (fun h y _ => split_rings h y (iarr [1; 2; 1; 4]%Z))) [dec 10 1; dec 60 1; dec 80 1; dec 100 1; dec 200 1; dec 225 1; dec 250 1; dec 275 1] [dec 60 1; dec 80 1; dec 100 1; dec 150 1; dec 225 1; dec 250 1; dec 275 1; dec 300 1] [dec 2 1; dec 8 1; dec 8 1; dec 3 1; dec 7 1; dec 7 1; dec 7 1; dec 7 1];
    raises InvalidShape (after any (fun h y _ => split_rings h y (iarr [1; 3]%Z)));
    has (merged (after any (fun h y _ => split_rings h y (pi 2))) tol8) fx_inner fx_outer fx_trans;
    has (merged fixture tol8) fx_inner fx_outer fx_trans;
    match merged noisy tol8 with Ok (_, y) => Z.eqb (num_rings y) 8 | Err _ => false end] = true.
Proof. vm_compute. reflexivity. Qed.

(** *** test_grid_parameters.py *)
Definition gp8 (a b : pv) (c : Z) (d e : pv) (f g h : Z) : res (gparams f64) := new_params a b (pi c) d e (pi f) (pi g) (pi h).
Definition tri_eq (a b : nat * nat * nat) : bool :=
  let '(x, y, z) := a in let '(x', y', z') := b in Nat.eqb x x' && Nat.eqb y y' && Nat.eqb z z'.
Definition gp_is (x : res (gparams f64)) (dx dy rf : list f64) (ext : bool) : bool :=
  match x with
  | Ok g => same (g_dx g) dx && same (g_dy g) dy && same (g_rf g) rf && same (g_rfa g) (rev rf ++ tl rf)%list &&
            tri_eq (g_shape g) (List.length dy, List.length dx, 2 * List.length rf - 1)%nat && Bool.eqb (g_ext g) ext
  | Err _ => false
  end.
Definition extended (x : res (gparams f64)) : res (gparams f64) :=
  match x with Ok g => match extend_grid g with (g, Ok _) => Ok g | (_, Err e) => Err e end | Err e => Err e end.
Definition files (l : list (step f64)) : fs f64 := fst (run [] l).
Definition arrays_are (f : fs f64) (p : string) (l : list f64) : bool :=
  match np_load f p with Ok (_, _, el) => same_nan (sfl el) l | Err _ => false end.
Definition rf4 := n_one :: [n_add n_one (n_div (n_ofZ 4) (n_ofZ 3)); n_add n_one (n_mul (n_ofZ 2) (n_div (n_ofZ 4) (n_ofZ 3))); n_ofZ 5].
Definition thirds := [n_zero; n_div n_one (n_ofZ 3); n_mul (n_ofZ 2) (n_div n_one (n_ofZ 3)); n_one].
Definition quarters := [n_zero; dec 25 2; dec 5 1; dec 75 2; n_one].

(** test_grid_parameters.py:26-200 *)
Example test_grid_parameters :
  forallb (fun b => b) [
    raises ValueError (gp8 (pi 0) (pi 1) 2 (pi 2) (pi 1) 2 2 2);
    raises ValueError (gp8 (pi 1) (pi 0) 2 (pi 0) (pi 1) 2 2 2);
    gp_is (gp8 (pi 0) (pi 1) 2 (pi 0) (pi 1) 4 5 4) (zs [0; 1]%Z) thirds rf4 true;
    gp_is (gp8 half (pi 1) 2 (pi 0) (pi 1) 4 5 4) [dec 5 1; n_one] thirds rf4 false;
    raises AttributeError (extended (gp8 half (pi 1) 2 (pi 0) (pi 1) 4 5 4));
    gp_is (extended (gp8 (pi 0) (pi 1) 2 (pi 0) (pi 1) 5 5 4)) (zs [-1; 0; 1]%Z) [n_ofZ (-1); dec (-75) 2; dec (-5) 1; dec (-25) 2; n_zero; dec 25 2; dec 5 1; dec 75 2; n_one] rf4 false] = true.
Proof. vm_compute. reflexivity. Qed.

(** test_grid_parameters.py:202-273 test_save, test_load_* *)
Example test_grid_parameters_files :
  forallb (fun b => b) [
    match (gp8 (pi 0) (pi 1) 2 (pi 0) (pi 1) 5 5 4) with Ok g => let f := files (params_save g "test_data") in
        arrays_are f "test_data/dx.npy" (g_dx g) && arrays_are f "test_data/dy.npy" (g_dy g) && arrays_are f "test_data/rf.npy" (g_rf g) &&
        arrays_are f "test_data/rf_array.npy" (g_rfa g) | Err _ => false end;
    raises LoadErr (params_load ([] : fs f64) "invalid directory");
    gp_is (params_load (files [SMkdir "test_data"; SWrite "test_data/dx.npy" (float_arr [2%nat] (zs [0; 1]%Z));
        SWrite "test_data/dy.npy" (float_arr [3%nat] (zs [0; 1; 2]%Z)); SWrite "test_data/rf.npy" (float_arr [2%nat] (zs [1; 3]%Z));
        SWrite "test_data/rf_array.npy" (float_arr [3%nat] (zs [3; 1; 3]%Z))]) "test_data") (zs [0; 1]%Z) (zs [0; 1; 2]%Z) (zs [1; 3]%Z) true] = true.
Proof. vm_compute. reflexivity. Qed.

(** *** test_grid_diagnostics.py; GRID_PARAMETERS, lines 11-20 *)
Definition diag0 : gdiag f64 :=
  match gp8 (pi 0) (pi 1) 2 (pi 0) (pi 1) 2 2 1 with Ok g => new_diag g | Err _ => mkGD 0 0 [] [] false end.
Definition key_is (x : res dkey) (y z : Z) : bool :=
  match x with Ok (KInt a, KInt b) => Z.eqb a y && Z.eqb b z | _ => false end.
Definition fy3 := [n_zero; dec 5 1; n_one] : list f64.
Definition dr3 := zs [1; 1; 1]%Z.
Definition diag10 : gdiag f64 := fst (save_diagnostic diag0 (pi 1) (pi 0) (farr1 fy3) (farr1 dr3)).
Definition pair_is (x : res (list (scal f64) * list (scal f64))) (a b : list f64) : bool :=
  match x with Ok (c, d) => same (sfl c) a && same (sfl d) b | Err _ => false end.
Definition stored (x : res (list (dkey * list (scal f64)))) (l : list f64) : bool :=
  match x with Ok [((KInt y, KInt z), el)] => Z.eqb y 1 && Z.eqb z 0 && same (sfl el) l | _ => false end.

(** test_grid_diagnostics.py:22-283 *)
Example test_grid_diagnostics :
  forallb (fun b => b) [
    Nat.eqb (List.length (d_fy diag0)) 0 && Nat.eqb (List.length (d_fy diag10)) 1;
    key_is (gen_key diag0 (pi 1) (pi 0)) 1 0;
    key_is (gen_key diag0 (pi 0) (pi 1)) 0 1;
    raises ValueError (gen_key diag0 (pi 2) (pi 0));
    raises ValueError (gen_key diag0 (pi 0) (pi 2));
    raises ValueError (gen_key diag0 (pi 10) (pi 10));
    pair_is (get_diagnostic diag10 (pi 1) (pi 0)) fy3 dr3;
    raises KeyError (get_diagnostic diag10 (pi 0) (pi 1));
    stored (np_load_dict (files (diag_save diag10 "test_data")) "test_data/fy_dict.npy") fy3;
    stored (np_load_dict (files (diag_save diag10 "test_data")) "test_data/disk_radius_dict.npy") dr3;
    d_ext (diag_extend diag0);
    raises RuntimeError (snd (save_diagnostic (diag_extend diag0) (pi 0) (pi 0) (farr1 (zs [0]%Z)) (farr1 (zs [1]%Z))));
    raises KeyError (get_diagnostic (diag_extend (fst (save_diagnostic diag0 (pi 0) (pi 0) (farr1 (zs [0]%Z)) (farr1 (zs [1]%Z))))) (pi 0) (pi 0));
    key_is (gen_key (diag_extend (fst (save_diagnostic diag0 (pi 1) (pi 1) (farr1 (zs [0]%Z)) (farr1 (zs [1]%Z))))) (pi 0) (pi 0)) 2 2;
    raises LoadErr (diag_load ([] : fs f64) "invalid");
    match diag_load (files [SMkdir "test_data"; SWrite "test_data/fy_dict.npy" (CDict [((KInt 1, KInt 0), map (@SF f64) (zs [0; 0]%Z))]);
        SWrite "test_data/disk_radius_dict.npy" (CDict [((KInt 1, KInt 0), map (@SF f64) (zs [1; 1]%Z))]);
        SWrite "test_data/max_yx.npy" (CNpy "int64" [2%nat] [SI 3; SI 2])]) "test_data" with
      | Ok d => stored (Ok (d_fy d)) (zs [0; 0]%Z) && stored (Ok (d_dr d)) (zs [1; 1]%Z) && Z.eqb (d_mx d) 2 && Z.eqb (d_my d) 3
      | Err _ => false end] = true.
Proof. vm_compute. reflexivity. Qed.

(** test_grid_property_name.py, test_grid_property_unit.py *)
Example test_grid_property_names :
  forallb (fun b => b) [
    String.eqb (get_name DISK_RADIUS) "Disk Radius";
    String.eqb (get_name INCLINATION) "Inclination";
    String.eqb (get_name TILT) "Tilt";
    String.eqb (get_name FX_MAP) "Fx Map";
    String.eqb (get_name FY_MAP) "Fy Map";
    String.eqb (get_name DIAGNOSTIC_MAP) "Diagnostic Map";
    String.eqb (get_name GRADIENT) "Gradient";
    String.eqb (get_name GRADIENT_FIT) "Gradient Fit";
    String.eqb (get_unit ECLIPSE_DURATION) "$t_{ecl}$";
    String.eqb (get_unit DEGREE) "$^o$";
    String.eqb (get_unit NONE) "-";
    String.eqb (unit_display ECLIPSE_DURATION) "Eclipse Duration";
    String.eqb (unit_display DEGREE) "Degree";
    String.eqb (unit_display NONE) "None"] = true.
Proof. vm_compute. reflexivity. Qed.

(** *** test_grid_property.py and test_grid_gradient.py; the fixtures, lines 14-25 and 13-24 *)
Definition arange (n : nat) : list f64 := map (fun k => n_ofZ (Z.of_nat k)) (seq 0 n).
Definition sh117 := [11; 11; 7]%nat.
Definition data847 := arange 847.
Definition gp117 := gp8 (pi 0) (pi 1) 11 (pi 0) (pi 1) 11 5 4.
Definition gprop0 : res (gprop f64) :=
  match gp117 with Ok g => new_gprop (EIs DISK_RADIUS) (EIs ECLIPSE_DURATION) (farr sh117 data847) (EIs g) | Err e => Err e end.
Definition ggrad0 : res (ggrad f64) :=
  match gp117 with Ok g => new_grad (farr sh117 data847) (EIs g) (pf 2 1) | Err e => Err e end.
Definition barr (sh : list nat) (l : list bool) : pv := PArr "bool" sh (map (@SB f64) l).
Definition truths (m : option (marr f64)) : list bool :=
  match m with Some m => map (@scal_true f64 _) (ma_elems m) | None => [] end.
Fixpoint bools (a b : list bool) : bool :=
  match a, b with [], [] => true | x :: a, y :: b => Bool.eqb x y && bools a b | _, _ => false end.
Definition on {A} (x : res A) (f : A -> bool) : bool := match x with Ok a => f a | Err _ => false end.
Definition all_true := repeat true 847.
Definition m37 := map (fun x => n_lt x (n_ofZ 37)) data847.
Definition lim_is (v : option pv) (x : f64) : bool := match v with Some v => n_eq (num_of v) x | None => false end.
Definition none {A} (o : option A) : bool := match o with None => true | Some _ => false end.
Definition colors_are (p : gprop f64) (c : string) (n : Z) : bool := String.eqb (p_cmap p) c && Z.eqb (int_of (p_ncol p)) n.
Definition data_out (x : gprop f64 * res (list nat * list f64)) (l : list f64) : bool :=
  match snd x with Ok (_, d) => same_nan d l | Err _ => false end.
Definition masked_out := map (fun x => if n_lt x (n_ofZ 37) then n_nan else x) data847.
Definition prop_tests (p : gprop f64) : bool :=
  (* set_mask *)
  let (q, x) := set_mask p (barr sh117 all_true) in is_ok x && bools (truths (p_mask q)) all_true &&
  raises InvalidShape (snd (set_mask p (barr [3%nat] [true; true; true]))) &&
  (* get_data *)
  data_out (get_data q (PBool false)) data847 && data_out (get_data (fst (set_mask p (barr sh117 m37))) (PBool true)) masked_out &&
  data_out (get_data p (PBool true)) data847 &&
  (* set_contrast_parameters *)
  lim_is (p_vmin p) n_zero && lim_is (p_vmax p) (n_ofZ 846) && colors_are p "viridis" 11 &&
  (let (q, x) := set_contrast_default (with_data p (map (fun v => n_mul n_nan v) (p_data p))) in
   is_ok x && none (p_vmin q) && none (p_vmax q) && colors_are q "viridis" 11) &&
  (let (q, x) := set_contrast p (Some (pi 0)) (Some (pi 2)) (Some (PStr "twilight")) (Some (pi 3)) in
   is_ok x && lim_is (p_vmin q) n_zero && lim_is (p_vmax q) (n_ofZ 2) && colors_are q "twilight" 3).

(** test_grid_property.py:28-125 and the same tests of test_grid_gradient.py *)
Example test_grid_property :
  forallb (fun b => b) [
    on gprop0 prop_tests;
    on ggrad0 (fun g => prop_tests (gg_prop g))] = true.
Proof. vm_compute. reflexivity. Qed.

Definition saved_as (f : fs f64) (n : string) (l : list f64) : bool := arrays_are f ("test_data/" ++ n ++ ".npy") l.
Definition mask_saved (f : fs f64) (n : string) (l : list bool) : bool :=
  match np_load f ("test_data/" ++ n ++ "_mask.npy") with Ok (_, _, el) => bools (map (@scal_true f64 _) el) l | Err _ => false end.

(** test_grid_property.py:128-200 test_save_*, test_load_* *)
Example test_grid_property_files :
  forallb (fun b => b) [
    on gprop0 (fun p => saved_as (files (gprop_save p "test_data")) "DISK_RADIUS_ECLIPSE_DURATION" data847);
    on gprop0 (fun p => let q := fst (set_mask p (barr sh117 all_true)) in let f := files (gprop_save q "test_data") in
        saved_as f "DISK_RADIUS_ECLIPSE_DURATION" data847 && mask_saved f "DISK_RADIUS_ECLIPSE_DURATION" all_true);
    raises LoadErr (gprop_load ([] : fs f64) (PStr "invalid") (EIs DISK_RADIUS) (EIs ECLIPSE_DURATION));
    on gprop0 (fun p => on (gprop_load (files (gprop_save p "test_data")) (PStr "test_data") (EIs DISK_RADIUS) (EIs ECLIPSE_DURATION))
        (fun q => same (p_data q) data847 && none (p_mask q)));
    on gprop0 (fun p => on (gprop_load (files (gprop_save (fst (set_mask p (barr sh117 all_true))) "test_data")) (PStr "test_data")
        (EIs DISK_RADIUS) (EIs ECLIPSE_DURATION)) (fun q => same (p_data q) data847 && bools (truths (p_mask q)) all_true))] = true.
Proof. vm_compute. reflexivity. Qed.

Definition scaled_is (x : res (option f64)) (y : f64) : bool := match x with Ok (Some z) => n_eq z y | _ => false end.
Definition is {A} (o : option A) (f : A -> bool) : bool := match o with Some a => f a | None => false end.
Definition num_is (x : f64) (v : pv) : bool := n_eq (num_of v) x.

(** test_grid_gradient.py:81-189: scaled gradients, determine_mask, sorting *)
Example test_grid_gradient :
  forallb (fun b => b) [
    on ggrad0 (fun g => let (g', x) := determine_mask g half (pf 12 1) (Some (pf 9 1)) None in
        is_ok x && scaled_is (scaled_gradient g') (n_div (n_mul (dec 5 1) (dec 12 1)) (dec 9 1)));
    on ggrad0 (fun g => let (g', x) := determine_mask g half (pf 15 1) None None in is_ok x &&
        bools (truths (p_mask (gg_prop g'))) (map (fun v => n_gt (dec 75 2) v) data847) && scaled_is (scaled_gradient g') (dec 75 2) &&
        is (gg_meas g') (num_is (dec 5 1)) && is (gg_orb g') (num_is (dec 15 1)) && is (gg_err g') (num_is n_one) && is (gg_trans g') (num_is n_one));
    on ggrad0 (fun g => raises ValueError (snd (determine_mask g (pi 2) (pi 2) (Some (pf 1 2)) None)));
    on ggrad0 (fun g => on (scaled_gradient g) none);
    on ggrad0 (fun g => scaled_is (scaled_gradient (fst (determine_mask g (pf 2 1) (pf 13 1) (Some (pf 8 1)) None))) (dec 325 3));
    on ggrad0 (fun g => let h := mkGG (gg_prop g) (pf (-2) 1) None None None None in grad_lt h g && negb (grad_lt g h))] = true.
Proof. vm_compute. reflexivity. Qed.

(** "{:.4f}" of 0.2 *)
Definition fmt02 (_ : f64) : string := "0.2000".
Definition gname := "gradient_0.2000/GRADIENT_NONE".
Definition grad_files (g : ggrad f64) : fs f64 := files (SMkdir "test_data" :: grad_save fmt02 g "test_data").

(** test_grid_gradient.py:192-270 test_save_*, test_load_* *)
Example test_grid_gradient_files :
  forallb (fun b => b) [
    on ggrad0 (fun g => saved_as (grad_files g) gname data847);
    on ggrad0 (fun g => let f := grad_files (with_prop g (fst (set_mask (gg_prop g) (barr sh117 all_true)))) in
        saved_as f gname data847 && mask_saved f gname all_true);
    raises LoadErr (grad_load ([] : fs f64) "invalid");
    on ggrad0 (fun g => on (grad_load (grad_files g) "test_data/gradient_0.2000")
        (fun h => same (p_data (gg_prop h)) data847 && none (p_mask (gg_prop h))));
    on ggrad0 (fun g => let g' := fst (determine_mask g (pf 3 1) (pf 12 1) (Some (pf 9 1)) None) in
        on (grad_load (grad_files g') "test_data/gradient_0.2000")
        (fun h => same (p_data (gg_prop h)) data847 && bools (truths (p_mask (gg_prop h))) (truths (p_mask (gg_prop g')))))] = true.
Proof. vm_compute. reflexivity. Qed.

(** *** test_grid_property_viewer.py; the fixture, lines 16-29 *)
Definition data1089 := arange 1089.
Definition gp119 := gp8 (pi 0) (pi 1) 11 (pi 0) (pi 2) 11 5 5.
Definition gprop1 : res (gprop f64) :=
  match gp119 with
  | Ok g => match new_gprop (EIs DISK_RADIUS) (EIs ECLIPSE_DURATION) (farr [11; 11; 9]%nat data1089) (EIs g) with
            | Ok p => Ok (fst (set_mask p (barr [11; 11; 9]%nat (map (fun x => n_lt x (n_ofZ 100)) data1089))))
            | Err e => Err e end
  | Err e => Err e
  end.
Definition blanked := map (fun x => if n_lt x (n_ofZ 100) then n_nan else x) data1089.
Definition view (axis : Z) (masked : bool) (index : option Z) (frozen : option bool) (co : coords f64) (p : gprop f64) : res (viewer f64) :=
  snd (new_viewer (EIs tt) (pi axis) (EIs p) (PBool masked) (option_map pi index) (option_map (fun b => PBool b) frozen) co).
Definition view_is (x : res (viewer f64)) (axis : nat) (l : list f64) (index : Z) (frozen : bool) (slices : list f64) : bool :=
  on x (fun v => Nat.eqb (v_axis v) axis && same_nan (v_data v) l && Z.eqb (v_index v) index && Bool.eqb (v_frozen v) frozen &&
                 same (v_slices v) slices).
Definition rfa9 := zs [5; 4; 3; 2; 1; 2; 3; 4; 5]%Z.
Definition tenths (n : Z) := map (fun k => n_mul (n_ofZ k) (dec n 1)) [0; 1; 2; 3; 4; 5; 6; 7; 8; 9]%Z.
Definition dx11 := (tenths 1 ++ [n_one])%list.
Definition dy11 := (tenths 2 ++ [n_ofZ 2])%list.
Definition scrolled (x : res (viewer f64)) (up : bool) : res (viewer f64) := match x with Ok v => Ok (onscroll v up) | Err e => Err e end.
Definition two := CoList [[dec 1 1; dec 3 1; n_one]; [dec 2 1; dec 2 1; n_ofZ 3]].

(** test_grid_property_viewer.py:32-435 without the titles *)
Example test_grid_property_viewer :
  forallb (fun b => b) [
    on gprop1 (fun p => view_is (view 2 false None None CoNone p) 2 data1089 4 false rfa9);
    on gprop1 (fun p => view_is (view 2 true None None CoNone p) 2 blanked 4 false rfa9);
    on gprop1 (fun p => view_is (view 2 true (Some 0%Z) None CoNone p) 2 blanked 0 false rfa9);
    on gprop1 (fun p => view_is (view 0 true (Some 0%Z) None CoNone p) 0 blanked 0 false dy11);
    on gprop1 (fun p => view_is (view 1 true (Some 0%Z) None CoNone p) 1 blanked 0 false dx11);
    on gprop1 (fun p => view_is (scrolled (view 2 true (Some 0%Z) None CoNone p) true) 2 blanked 1 false rfa9);
    on gprop1 (fun p => view_is (scrolled (view 2 true (Some 8%Z) None CoNone p) true) 2 blanked 8 false rfa9);
    on gprop1 (fun p => view_is (scrolled (view 2 true (Some 8%Z) None CoNone p) false) 2 blanked 7 false rfa9);
    on gprop1 (fun p => view_is (scrolled (view 2 true (Some 0%Z) None CoNone p) false) 2 blanked 0 false rfa9);
    on gprop1 (fun p => view_is (view 2 true (Some 0%Z) (Some true) CoNone p) 2 blanked 0 true rfa9);
    on gprop1 (fun p => view_is (scrolled (view 2 true (Some 0%Z) (Some true) CoNone p) true) 2 blanked 0 true rfa9);
    on gprop1 (fun p => view_is (view 2 true (Some 8%Z) None two p) 2 blanked 8 false rfa9);
    on gprop1 (fun p => view_is (view 2 true (Some 4%Z) None two p) 2 blanked 4 false rfa9);
    on gprop1 (fun p => raises ValueError (view 2 true (Some 8%Z) None (CoList [[n_ofZ 12]]) p))] = true.
Proof. vm_compute. reflexivity. Qed.

