(** The texts of the exceptions: /repo/errors.py, /repo/validate.py and the raise statements of /repo/Ring.py,
    /repo/RingSystem.py, /repo/GridParameters.py, /repo/GridDiagnostics.py and /repo/GridProperty.py.
    Each function here is the one of the same name in the other model files, with the text of the exception it
    raises; [None] is the text of an exception raised by Python or numpy itself. *)
From Coq Require Import ZArith List Bool String Ascii.
From Verif Require Import Num Py Validate Ring RingSystem FS GridParams GridDiag Names GridProp Fmt Text.
Import ListNotations.
Set Implicit Arguments.
Local Open Scope string_scope.

(** a result, or an exception with its text *)
Inductive mres (A : Type) := MOk (a : A) | MErr (e : exn) (text : option string).
Arguments MOk {A} _. Arguments MErr {A} _ _.
Definition mbind {A B} (x : mres A) (f : A -> mres B) : mres B :=
  match x with MOk a => f a | MErr e t => MErr e t end.
Notation "'let!' x ':=' a 'in' b" := (mbind a (fun x => b))
  (at level 200, x pattern, a at level 100, b at level 200).
(** the result without the text *)
Definition outcome {A} (x : mres A) : res A := match x with MOk a => Ok a | MErr e _ => Err e end.
(** raise e(t) *)
Definition raise {A} (e : exn) (t : string) : mres A := MErr e (Some t).
(** the single place where a function raises *)
Definition saying {A} (t : string) (x : res A) : mres A := match x with Ok a => MOk a | Err e => raise e t end.
(** exceptions of Python itself *)
Definition silent {A} (x : res A) : mres A := match x with Ok a => MOk a | Err e => MErr e None end.

(** s[:-n] *)
Definition drop_last (n : nat) (s : string) : string := String.substring 0 (String.length s - n) s.
(** str of an int *)
Definition str_int (z : Z) : string := if Z.ltb z 0 then "-" ++ whole (- z) else whole z.
(** str of a tuple of ints *)
Definition str_tuple (l : list nat) : string :=
  match l with
  | [] => "()"
  | [n] => "(" ++ str_nat n ++ ",)"
  | _ => "(" ++ String.concat ", " (map str_nat l) ++ ")"
  end.

(** errors.py:7-22 LoadError *)
Definition load_text (kind directory : string) : string := "failed to load " ++ kind ++ " from " ++ directory.
(** errors.py:24-46 InvalidShapeError *)
Definition shape_text (names : list string) (shapes : list (list nat)) : string :=
  let message := String.concat "" (map (fun ns => fst ns ++ " " ++ str_tuple (snd ns) ++ ", ") (combine names shapes)) in
  drop_last 2 message ++ " should all have the same shape.".
(** errors.py:48-69 InvalidDimensionsError *)
Definition dims_text (name : string) (shape : list nat) (num_dimensions : Z) : string :=
  "The " ++ name ++ " (" ++ str_nat (List.length shape) ++ " dimensions) should have " ++ str_int num_dimensions ++ " dimensions".

Section M.
Context {T : Type} {NT : Num T}.
Variable fmt : nat -> T -> string.
Notation pyval := (pyval T).
Notation ring := (ring T).
Notation rsys := (rsys T).

(** f"{v:.4f}" of a number *)
Definition f4 (v : pyval) : string := fmt 4 (num_of v).

(** validate.py:404-432 class_object *)
Definition class_text (name cls : string) : string := name ++ " is not of type " ++ cls.
(** validate.py:71-110 _number_type, 434-494 *)
Definition type_text (check_integer : bool) (name : string) : string :=
  if check_integer then name ++ " is not of type integer" else name ++ " is not of type 'number'".
Definition number_type_m (check_integer : bool) (name : string) (v : pyval) : mres pyval :=
  saying (type_text check_integer name) (number_type check_integer v).

(** validate.py:142-144, 281-283 *)
Definition order_text (lower upper : pyval) : string :=
  "The upper_bound argument (" ++ f4 upper ++ ") must be greater than the lower_bound (" ++ f4 lower ++ ") argument.".

(** validate.py:112-176 _number_bounds *)
Definition number_bounds_m (name : string) (v lower upper : pyval) (exclusive : bool) : mres pyval :=
  let! _ := number_type_m false "lower_bound" lower in
  let! _ := number_type_m false "upper_bound" upper in
  if v_cmp (@s_gt T _) lower upper then raise ValueError (order_text lower upper)
  else
    let message := "The " ++ name ++ " argument must be " in
    let message_addition := if exclusive then "than" else "than or equal to" in
    let low := if exclusive then v_cmp (@s_le T _) v lower else v_cmp (@s_lt T _) v lower in
    let message := if low then message ++ "greater " ++ message_addition ++ " " ++ f4 lower else message in
    let upp := if exclusive then v_cmp (@s_ge T _) v upper else v_cmp (@s_gt T _) v upper in
    let message := if upp then message ++ "less " ++ message_addition ++ " " ++ f4 upper else message in
    if low || upp then raise ValueError message else MOk v.

(** validate.py:39-69 number *)
Definition number_m (name : string) (v : pyval) (check_integer : bool) (lower upper : pyval) (exclusive : bool) : mres pyval :=
  let! v := number_type_m check_integer name v in
  number_bounds_m name v lower upper exclusive.

(** validate.py:25-37 string, 11-23 boolean *)
Definition string_m (name : string) (v : pyval) : mres string := saying (class_text name "string") (string_v v).
Definition boolean_m (name : string) (v : pyval) : mres bool := saying (class_text name "boolean") (boolean_v v).
(** validate.py:404-432 for a class of the package; [shown] is the class name given for the text *)
Definition class_m (name cls shown : string) (v : pyval) : mres nat := saying (class_text name shown) (class_object cls v).
Definition class_arg_m {A} (name shown : string) (e : earg A) : mres A := saying (class_text name shown) (class_arg e).

(** validate.py:251-316 _array_bounds *)
Definition array_bounds_m (name : string) (elems : list (scal T)) (lower upper : pyval) (exclusive : bool) : mres unit :=
  let! _ := number_type_m false "lower_bound" lower in
  let! _ := number_type_m false "upper_bound" upper in
  if v_cmp (@s_gt T _) lower upper then raise ValueError (order_text lower upper)
  else match scal_of lower, scal_of upper with
  | Some l, Some u =>
    let message := "The " ++ name ++ " argument must contain solely values " in
    let message_addition := if exclusive then "than" else "than or equal to" in
    let low := existsb (fun e => if exclusive then s_le e l else s_lt e l) elems in
    let message := if low then message ++ "greater " ++ message_addition ++ " " ++ f4 lower ++ " and " else message in
    let upp := existsb (fun e => if exclusive then s_ge e u else s_gt e u) elems in
    let message := if upp then message ++ "less " ++ message_addition ++ " " ++ f4 upper ++ " and " else message in
    if low || upp then raise ValueError (drop_last 5 message) else MOk tt
  | _, _ => MErr TypeError None
  end.

(** validate.py:178-232 array, with 318-368 *)
Definition array_m (name : string) (v : pyval) (lower upper : option pyval) (exclusive : bool)
    (dtype : option string) (num_dimensions : option Z) : mres pyval :=
  match v with
  | PArr dt sh el =>
    let! _ :=
      match lower, upper with
      | None, None => MOk tt
      | _, _ =>
        array_bounds_m name el (match lower with Some l => l | None => m_inf end)
                               (match upper with Some u => u | None => p_inf end) exclusive
      end in
    let! _ := match num_dimensions with Some n => saying (dims_text name sh n) (array_dimensions sh n) | None => MOk tt end in
    let! _ := match dtype with
              | Some d => saying (name ++ " (" ++ dt ++ ") is not of type " ++ d) (array_type dt d)
              | None => MOk tt end in
    MOk v
  | _ => raise TypeError (class_text name "np.ndarray")
  end.

(** validate.py:396-399: the loop of same_shape_arrays *)
Fixpoint same_shape_loop_m (shape : list nat) (l : list (pyval * string)) (error : bool) : mres bool :=
  match l with
  | [] => MOk error
  | (PArr _ sh _, _) :: l => same_shape_loop_m shape l (error || negb (shape_eqb sh shape))
  | (_, name) :: _ => raise TypeError (class_text name "np.ndarray")
  end.
(** the shape of an object, when it has one *)
Definition shape_or_nil (v : pyval) : list nat := match Py.shape_of v with Some s => s | None => [] end.
(** validate.py:370-402 same_shape_arrays *)
Definition same_shape_m (arrays : list pyval) (names : list string) : mres unit :=
  if Nat.ltb (List.length arrays) 2 then raise AttributeError "arrays_list argument should contain at least two arrays"
  else if negb (Nat.eqb (List.length arrays) (List.length names))
  then raise AttributeError ("arrays_list (" ++ str_nat (List.length arrays) ++ ") should have the same length as names_list ("
                             ++ str_nat (List.length names) ++ ")")
  else match arrays with
  | [] => MErr AttributeError None
  | a :: _ =>
    match Py.shape_of a with
    | None => MErr AttributeError None
    | Some shape =>
      let! error := same_shape_loop_m shape (combine arrays names) false in
      if error then raise InvalidShape (shape_text names (map shape_or_nil arrays)) else MOk tt
    end
  end.

(** *** Ring.py *)
(** Ring.py:95-116 *)
Definition check_inner_m (upper : T) (v : pyval) : mres T :=
  let! z := silent (eq_zero v) in
  let v := if z then PFloat (n_pow10m 16) else v in
  let! w := number_m "inner_radius" v false (PFloat n_zero) (PFloat upper) true in
  MOk (num_of w).
(** Ring.py:130-141 *)
Definition check_outer_m (inner : T) (v : pyval) : mres T :=
  let! w := number_m "outer_radius" v false (PFloat inner) p_inf true in MOk (num_of w).
(** Ring.py:155-166 *)
Definition check_tr_m (v : pyval) : mres T :=
  let! w := number_m "transmission" v false (PFloat n_zero) (PFloat n_one) false in MOk (num_of w).
(** Ring.py:180-191 *)
Definition check_inc_m (v : pyval) : mres T :=
  let! w := number_m "inclination" v false (PInt 0) (PInt 90) false in MOk (num_of w).
(** Ring.py:205-216 *)
Definition check_tilt_m (v : pyval) : mres T :=
  let! w := number_m "tilt" v false (PInt (-180)) (PInt 180) false in MOk (num_of w).
(** Ring.py:18-48 *)
Definition new_ring_m (i o t inc tilt : pyval) : mres ring :=
  let! i := check_inner_m n_inf i in
  let! o := check_outer_m i o in
  let! t := check_tr_m t in
  let! inc := check_inc_m inc in
  let! tilt := check_tilt_m tilt in
  MOk (mkRing i o t inc tilt).
Definition upd_m {A} (r : ring) (x : mres A) (f : A -> ring) : ring * mres unit :=
  match x with MOk a => (f a, MOk tt) | MErr e t => (r, MErr e t) end.
(** one attribute assignment *)
Definition set_ring_m (r : ring) (s : setter) : ring * mres unit :=
  match s with
  | SetInner v => upd_m r (check_inner_m (r_out r) v) (fun x => mkRing x (r_out r) (r_tr r) (r_inc r) (r_tilt r))
  | SetOuter v => upd_m r (check_outer_m (r_in r) v) (fun x => mkRing (r_in r) x (r_tr r) (r_inc r) (r_tilt r))
  | SetTr v => upd_m r (check_tr_m v) (fun x => mkRing (r_in r) (r_out r) x (r_inc r) (r_tilt r))
  | SetInc v => upd_m r (check_inc_m v) (fun x => mkRing (r_in r) (r_out r) (r_tr r) x (r_tilt r))
  | SetTilt v => upd_m r (check_tilt_m v) (fun x => mkRing (r_in r) (r_out r) (r_tr r) (r_inc r) x)
  end.

(** *** RingSystem.py *)
(** RingSystem.py:263-265 *)
Fixpoint make_rings_m (inc tilt : T) (l : list (T * T * T)) : mres (list ring) :=
  match l with
  | [] => MOk []
  | (i, o, t) :: l =>
    let! r := new_ring_m (PNpFloat i) (PNpFloat o) (PNpFloat t) (PNpFloat inc) (PNpFloat tilt) in
    let! rs := make_rings_m inc tilt l in
    MOk (r :: rs)
  end.
(** RingSystem.py:71-79, 223-265, 165-166 *)
Definition new_system_m (h : list ring) (planet inner outer trans inc tilt level : pyval) : mres (list ring * rsys) :=
  let! planet := number_m "planet_radius" planet false (PFloat n_zero) p_inf false in
  let! inc := number_m "inclination" inc false (PFloat n_zero) (PFloat (n_ofZ 90)) false in
  let! tilt := number_m "tilt" tilt false (PFloat (n_ofZ (-180))) (PFloat (n_ofZ 180)) false in
  let f := Some "float64" in
  let! inner := array_m "inner_radii" inner (Some (PInt 0)) None false f (Some 1%Z) in
  let! outer := array_m "outer_radii" outer (Some (PInt 0)) None false f (Some 1%Z) in
  let! trans := array_m "transmissions" trans (Some (PInt 0)) (Some (PInt 1)) false f (Some 1%Z) in
  let! _ := same_shape_m [inner; outer; trans] ["inner_radii"; "outer_radii"; "transmissions"] in
  let! rs := make_rings_m (num_of inc) (num_of tilt)
               (combine (combine (elems_of inner) (elems_of outer)) (elems_of trans)) in
  let! _ := number_m "logging_level" level true (PInt 10) (PInt 50) false in
  let (h', ls) := alloc h rs in
  MOk (h', mkSys (num_of planet) (num_of inc) (num_of tilt) ls).

(** RingSystem.py:389-392 *)
Definition inner_text (inner lower : T) : string :=
  "Ring must have an inner radius (" ++ fmt 2 inner ++ ") > the preceding ring's outer radius (" ++ fmt 2 lower ++ ")".
(** RingSystem.py:403-406 *)
Definition outer_text (outer upper : T) : string :=
  "Ring must have an outer radius (" ++ fmt 2 outer ++ ") less than the succeeding ring's inner radius (" ++ fmt 2 upper ++ ")".
(** RingSystem.py:358-406 _prevent_ring_overlap *)
Definition prevent_overlap_m (h : list ring) (s : rsys) (index rg : pyval) (replace : bool) : mres (Z * nat) :=
  let n := num_rings s in
  let! index := number_m "index" index true (PInt 0) (PInt n) false in
  let! l := class_m "ring" "Ring" "Ring" rg in
  let i := int_of index in
  let r := deref h l in
  let! lower := (if Z.eqb i 0 then MOk n_ninf
                 else let! p := silent (ring_at h s (i - 1)) in MOk (r_out p)) in
  if n_lt (r_in r) lower then raise ValueError (inner_text (r_in r) lower)
  else
    let j := if replace then (i + 1)%Z else i in
    let! upper := (if Z.eqb j n then MOk n_inf
                   else let! p := silent (ring_at h s j) in MOk (r_in p)) in
    if n_lt upper (r_out r) then raise ValueError (outer_text (r_out r) upper) else MOk (i, l).
(** RingSystem.py:408-436 *)
Definition override_m (h : list ring) (s : rsys) (l : nat) : list ring * mres unit :=
  let (r1, e1) := set_ring_m (deref h l) (SetInc (PNpFloat (s_inc s))) in
  match e1 with
  | MErr e t => (h, MErr e t)
  | MOk _ =>
    let (r2, e2) := set_ring_m r1 (SetTilt (PNpFloat (s_tilt s))) in
    (replace_nth l r2 h, e2)
  end.
(** RingSystem.py:438-462 *)
Definition add_ring_m (h : list ring) (s : rsys) (index rg : pyval) : list ring * rsys * mres unit :=
  match prevent_overlap_m h s index rg false with
  | MErr e t => (h, s, MErr e t)
  | MOk (i, l) =>
    match override_m h s l with
    | (h', MErr e t) => (h', s, MErr e t)
    | (h', MOk _) =>
      let k := Z.to_nat i in
      (h', with_rings s (firstn k (s_rings s) ++ l :: skipn k (s_rings s))%list, MOk tt)
    end
  end.
(** RingSystem.py:464-482 *)
Definition remove_ring_m (h : list ring) (s : rsys) (index : pyval) : list ring * rsys * mres unit :=
  match number_m "index" index true (PInt 0) (PInt (num_rings s - 1)) false with
  | MErr e t => (h, s, MErr e t)
  | MOk i =>
    let k := Z.to_nat (int_of i) in
    (h, with_rings s (firstn k (s_rings s) ++ skipn (S k) (s_rings s))%list, MOk tt)
  end.
(** RingSystem.py:484-509 *)
Definition replace_ring_m (h : list ring) (s : rsys) (index rg : pyval) : list ring * rsys * mres unit :=
  match number_m "index" index true (PInt 0) (PInt (num_rings s - 1)) false with
  | MErr e t => (h, s, MErr e t)
  | MOk i =>
    match prevent_overlap_m h s index rg true with
    | MErr e t => (h, s, MErr e t)
    | MOk (_, l) =>
      match override_m h s l with
      | (h', MErr e t) => (h', s, MErr e t)
      | (h', MOk _) => (h', with_rings s (replace_nth (Z.to_nat (int_of i)) l (s_rings s)), MOk tt)
      end
    end
  end.
(** RingSystem.py:523-531: the first TypeError is caught *)
Definition divisions_m (s : rsys) (nd : pyval) : mres (list Z) :=
  match number_m "num_divisions" nd true (PInt 2) p_inf false with
  | MOk v => MOk (repeat (int_of v) (List.length (s_rings s)))
  | MErr TypeError _ =>
    let! a := array_m "num_divisions" nd (Some (PInt 1)) None false (Some "int64") (Some 1%Z) in
    let! _ := same_shape_m [a; PArr "object" [List.length (s_rings s)] []] ["num_divisions"; "self.rings"] in
    MOk (match a with
        | PArr _ _ el => map (fun e => match int_scal e with Some z => z | None => 0%Z end) el
        | _ => [] end)
  | MErr e t => MErr e t
  end.
(** RingSystem.py:511-559 *)
Definition split_rings_m (h : list ring) (s : rsys) (nd : pyval) : list ring * rsys * mres unit :=
  let out :=
    let! ds := divisions_m s nd in
    make_rings_m (s_inc s) (s_tilt s)
      (flat_map (fun rd => ringlets (fst rd) (snd rd)) (combine (rings_of h s) ds)) in
  match out with
  | MErr e t => (h, s, MErr e t)
  | MOk rs => let (h', ls) := alloc h rs in (h', with_rings s ls, MOk tt)
  end.
(** RingSystem.py:561-608 *)
Definition merge_rings_m (h : list ring) (s : rsys) (tol : T) : list ring * rsys * mres unit :=
  match rings_of h s with
  | [] => (h, s, MErr IndexError None)
  | r0 :: _ =>
    match make_rings_m (s_inc s) (s_tilt s)
            (merge_loop tol (rings_of h s) (r_in r0) (r_in r0) (r_tr r0)) with
    | MErr e t => (h, s, MErr e t)
    | MOk rs => let (h', ls) := alloc h rs in (h', with_rings s ls, MOk tt)
    end
  end.

(** *** GridParameters.py *)
(** GridParameters.py:103-166; [x] is "x" or "y" *)
Definition determine_axis_m (x : string) (mn mx num : pyval) : mres (list T) :=
  let! mn := number_m ("min_" ++ x) mn false m_inf p_inf false in
  let! mx := number_m ("max_" ++ x) mx false m_inf p_inf false in
  if v_cmp (@s_ge T _) mn mx then raise ValueError ("max_" ++ x ++ " must be greater than min_" ++ x)
  else
    let! num := number_m ("num_" ++ x) num true (PInt 1) p_inf false in
    MOk (linspace (num_of mn) (num_of mx) (Z.to_nat (int_of num))).
(** GridParameters.py:169-196 *)
Definition determine_rf_m (max_rf num_rf : pyval) : mres (list T * list T) :=
  let! max_rf := number_m "max_rf" max_rf false (PInt 1) p_inf false in
  let! num_rf := number_m "num_rf" num_rf true (PInt 1) p_inf false in
  let rf := linspace n_one (num_of max_rf) (Z.to_nat (int_of num_rf)) in
  MOk (rf, (rev rf ++ tl rf)%list).
(** GridParameters.py:24-54 *)
Definition new_params_m (min_x max_x num_x min_y max_y num_y max_rf num_rf : pyval) : mres (gparams T) :=
  let! dx := determine_axis_m "x" min_x max_x num_x in
  let! dy := determine_axis_m "y" min_y max_y num_y in
  let! r := determine_rf_m max_rf num_rf in
  silent (finish dx dy (fst r) (snd r)).
(** GridParameters.py:217-232 *)
Definition extend_grid_m (g : gparams T) : gparams T * mres unit :=
  if negb (g_ext g)
  then (g, raise AttributeError "This grid parameter object can not be extended. That is only possible when dx[0] = dy[0] = 0.")
  else
    let '(ny, nx, _) := g_shape g in
    match last_opt (g_dy g), last_opt (g_dx g) with
    | Ok max_y, Ok max_x =>
      match determine_axis_m "x" (PNpFloat (n_neg max_x)) (PNpFloat max_x) (PInt (2 * Z.of_nat nx - 1)) with
      | MErr e t => (g, MErr e t)
      | MOk dx =>
        let g1 := mkGP dx (g_dy g) (g_rf g) (g_rfa g) (g_shape g) (g_ext g) in
        match determine_axis_m "y" (PNpFloat (n_neg max_y)) (PNpFloat max_y) (PInt (2 * Z.of_nat ny - 1)) with
        | MErr e t => (g1, MErr e t)
        | MOk dy =>
          let sh := shape_of_vectors dx dy (g_rfa g) in
          match extendable_of dx dy with
          | Err e => (mkGP dx dy (g_rf g) (g_rfa g) sh (g_ext g), MErr e None)
          | Ok ex => (mkGP dx dy (g_rf g) (g_rfa g) sh ex, MOk tt)
          end
        end
      end
    | Err e, _ | _, Err e => (g, MErr e None)
    end.
(** GridParameters.py:272-302 *)
Definition params_load_m (f : fs T) (d : string) : mres (gparams T) := saying (load_text "grid parameters" d) (params_load f d).

(** *** GridDiagnostics.py *)
(** GridDiagnostics.py:96: the text of a key *)
Definition str_kcomp (k : kcomp) : string := match k with KInt z => str_int z | KBool true => "True" | KBool false => "False" end.
Definition str_key (k : dkey) : string := "(" ++ str_kcomp (fst k) ++ ", " ++ str_kcomp (snd k) ++ ")".
(** GridDiagnostics.py:63-98 *)
Definition gen_key_m (d : gdiag T) (y x : pyval) : mres dkey :=
  let uy := if d_ext d then (2 * (d_my d - 1))%Z else (d_my d - 1)%Z in
  let ux := if d_ext d then (2 * (d_mx d - 1))%Z else (d_mx d - 1)%Z in
  let! y := number_m "y" y true (PInt 0) (PInt uy) false in
  let! x := number_m "x" x true (PInt 0) (PInt ux) false in
  if d_ext d
  then MOk (KInt (Z.abs (int_of y - d_my d)), KInt (Z.abs (int_of x - d_mx d)))
  else MOk (kcomp_of y, kcomp_of x).
(** GridDiagnostics.py:101-129; the text of a KeyError is the repr of the key *)
Definition get_diagnostic_m (d : gdiag T) (y x : pyval) : mres (list (scal T) * list (scal T)) :=
  let! k := gen_key_m d y x in
  match dget (d_fy d) k, dget (d_dr d) k with
  | Some a, Some b => MOk (a, b)
  | _, _ => raise KeyError ("'" ++ str_key k ++ "'")
  end.
(** GridDiagnostics.py:132-165 *)
Definition save_diagnostic_m (d : gdiag T) (y x fy dr : pyval) : gdiag T * mres unit :=
  if d_ext d then (d, raise RuntimeError "diagnostics have been extended and can not be changed")
  else
    match
      (let! fy := array_m "fy" fy None None false (Some "float64") (Some 1%Z) in
       let! dr := array_m "disk_radius" dr None None false (Some "float64") (Some 1%Z) in
       let! _ := same_shape_m [fy; dr] ["fy"; "disk_radius"] in
       let! k := gen_key_m d y x in
       MOk (k, elems fy, elems dr))
    with
    | MErr e t => (d, MErr e t)
    | MOk (k, a, b) => (mkGD (d_my d) (d_mx d) (dput (d_fy d) k a) (dput (d_dr d) k b) (d_ext d), MOk tt)
    end.
(** GridDiagnostics.py:196-230 *)
Definition diag_load_m (f : fs T) (d : string) : mres (gdiag T) := saying (load_text "grid diagnostics" d) (diag_load f d).

(** *** GridProperty.py *)
(** GridProperty.py:171-217 *)
Definition set_limits_m (p : gprop T) (vmin vmax : option pyval) : gprop T * mres unit :=
  if all_nans (p_data p) then (with_limits p None None, MOk tt)
  else
    let lo := match vmin, nanmin (p_data p) with Some v, _ => v | None, Some x => PNpFloat x | None, None => PNone end in
    match number_m "vmin" lo false m_inf p_inf false with
    | MErr e t => (p, MErr e t)
    | MOk lo =>
      let p := with_limits p (Some lo) (p_vmax p) in
      let up := match vmax, nanmax (p_data p) with Some v, _ => v | None, Some x => PNpFloat x | None, None => PNone end in
      match number_m "vmax" up false m_inf p_inf false with
      | MErr e t => (p, MErr e t)
      | MOk up => (with_limits p (p_vmin p) (Some up), MOk tt)
      end
    end.
Definition set_contrast_m (p : gprop T) (vmin vmax color_map num_colors : option pyval) : gprop T * mres unit :=
  match set_limits_m p vmin vmax with
  | (p, MErr e t) => (p, MErr e t)
  | (p, MOk _) =>
    match string_m "color_map" (dflt (PStr "viridis") color_map) with
    | MErr e t => (p, MErr e t)
    | MOk c =>
      let p := with_colors p c (p_ncol p) in
      match number_m "num_colors" (dflt (PInt 11) num_colors) true (PInt 2) p_inf false with
      | MErr e t => (p, MErr e t)
      | MOk n => (with_colors p c n, MOk tt)
      end
    end
  end.
(** GridProperty.py:38-76; the class name of the first check is misspelt there *)
Definition new_gprop_m (name : earg pname) (unit : earg punit) (data : pyval) (params : earg (gparams T)) : mres (gprop T) :=
  let! n := class_arg_m "name" "GridpropertyName" name in
  let! u := class_arg_m "unit" "GridPropertyUnit" unit in
  let! g := class_arg_m "grid_parameters" "GridParameters" params in
  let! d := array_m "data" data None None false (Some "float64") (Some 3%Z) in
  let! _ := same_shape_m [data; PArr "float64" (shape3 g) (repeat (SF n_one) (volume (shape3 g)))] ["data"; "data_structure"] in
  match d with
  | PArr _ sh el =>
    match set_contrast_m (mkGPr n u g sh (map (@num_scal T _) el) None None "" PNone None) None None None None with
    | (p, MOk _) => MOk p
    | (_, MErr e t) => MErr e t
    end
  | _ => MErr TypeError None
  end.
(** GridProperty.py:130-144 *)
Definition set_mask_m (p : gprop T) (mask : pyval) : gprop T * mres unit :=
  match array_m "mask" mask None None false (Some "bool") None with
  | MOk (PArr dt sh el) =>
    match same_shape_m [mask; data_arr p] ["mask"; "data"] with
    | MOk _ => (with_mask p (Some (mkMarr dt sh el)), MOk tt)
    | MErr e t => (p, MErr e t)
    end
  | MOk _ => (p, MErr TypeError None)
  | MErr e t => (p, MErr e t)
  end.
(** GridProperty.py:147-168 *)
Definition get_data_m (p : gprop T) (masked : pyval) : gprop T * mres (list nat * list T) :=
  match boolean_m "masked" masked with
  | MErr e t => (p, MErr e t)
  | MOk _ => let '(p', r) := get_data p masked in (p', silent r)
  end.
(** GridProperty.py:311-355 *)
Definition gprop_load_m (f : fs T) (directory : pyval) (name : earg pname) (unit : earg punit) : mres (gprop T) :=
  let! d := string_m "directory" directory in
  let! n := class_arg_m "name" "GridPropertyName" name in
  let! u := class_arg_m "unit" "GridPropertyUnit" unit in
  saying (load_text (get_name n ++ " [" ++ unit_display u ++ "]") d) (gprop_load f directory name unit).
(** GridProperty.py:373-401 *)
Definition new_grad_m (data : pyval) (params : earg (gparams T)) (position : pyval) : mres (ggrad T) :=
  let! p := new_gprop_m (EIs GRADIENT) (EIs NONE) data params in
  let! pos := number_m "position" position false m_inf p_inf false in
  MOk (mkGG p pos None None None None).
(** GridProperty.py:447-470 *)
Definition scaled_gradient_m (g : ggrad T) : mres (option T) :=
  match gg_meas g with
  | None => MOk None
  | Some m =>
    match gg_trans g with
    | None => MErr TypeError None
    | Some t =>
      let! ts := silent (reciprocal t) in
      match gg_orb g with
      | None => MErr TypeError None
      | Some o =>
        let total := n_mul (num_of o) ts in
        let scaled := n_mul (num_of m) total in
        if n_gt scaled n_one
        then raise ValueError "scaled gradient is greater than one, check the measured gradient, orbital scale and transmission change"
        else MOk (Some scaled)
      end
    end
  end.
(** GridProperty.py:473-519 *)
Definition determine_mask_m (g : ggrad T) (measured orbital : pyval) (transmission error : option pyval) : ggrad T * mres unit :=
  match number_m "measured_gradient" measured false (PInt 0) p_inf false with
  | MErr e t => (g, MErr e t)
  | MOk m =>
    let g := mkGG (gg_prop g) (gg_pos g) (Some m) (gg_err g) (gg_orb g) (gg_trans g) in
    match number_m "orbital_scale" orbital false (PInt 0) p_inf false with
    | MErr e t => (g, MErr e t)
    | MOk o =>
      let g := mkGG (gg_prop g) (gg_pos g) (gg_meas g) (gg_err g) (Some o) (gg_trans g) in
      match number_m "transmission_change" (dflt (PInt 1) transmission) false (PInt 0) (PInt 1) false with
      | MErr e t => (g, MErr e t)
      | MOk t =>
        let g := mkGG (gg_prop g) (gg_pos g) (gg_meas g) (gg_err g) (gg_orb g) (Some t) in
        match number_m "measured_error" (dflt (PInt 1) error) false (PFloat n_zero) p_inf false with
        | MErr e t => (g, MErr e t)
        | MOk e =>
          let g := mkGG (gg_prop g) (gg_pos g) (gg_meas g) (Some e) (gg_orb g) (gg_trans g) in
          match scaled_gradient_m g with
          | MErr e t => (g, MErr e t)
          | MOk None => (g, MErr TypeError None)
          | MOk (Some s) =>
            let p := gg_prop g in
            (with_prop g (with_mask p (Some (bool_marr (p_shape p) (mask_of s (p_data p))))), MOk tt)
          end
        end
      end
    end
  end.
(** GridProperty.py:551-588 *)
Definition grad_load_m (f : fs T) (d : string) : mres (ggrad T) :=
  saying (load_text (get_name GRADIENT ++ " [" ++ unit_display NONE ++ "]") d) (grad_load f d).
End M.
