(** Specification vocabulary for the texts of the exceptions of grids and viewers: the checks of each call, in order. *)
From Coq Require Import ZArith Reals List Bool String.
From Verif Require Import Num Py SpecNum Ring RingSystem FS GridParams Names GridProp Build Shallot ShallotOps Viewer Message SpecMsg SpecMsgGrid.
Import ListNotations.
Set Implicit Arguments.
Local Open Scope string_scope.

(** an exception with a text of the program is exactly the one of the first check that does not pass; when all pass
    the call returns or Python itself raises *)
Definition announces {A} (x : mres A) (l : list check) : Prop :=
  (forall e s, x = MErr e (Some s) <-> first_error l e s) /\
  (((exists a, x = MOk a) \/ (exists e, x = MErr e None)) <-> Forall passes l).

Section O.
Context {T : Type} {NT : Num T} {LT : NumLaws T} (E : env T).
Variable show : nat -> T -> string.
Variable int_text : Z -> string.
Variable tuple_text : list nat -> string.
Notation pyval := (pyval T).
Notation shallot := (shallot T).
Notation bound := (fun v : pyval => show 4 (num_of v)).
Notation num := (number_check bound).
Notation arr := (array_check bound int_text).
Notation minf := (PFloat n_ninf).
Notation inf := (PFloat n_inf).

Definition is_bool (v : pyval) : Prop := exists b, v = PBool b.
Definition bool_check (name : string) (v : pyval) : check := kind_check (is_bool v) name "boolean".

(** integers among the entries are within 2^53 *)
Definition tame_array (v : pyval) : Prop := forall d sh el s, v = PArr d sh el -> In s el -> ssmall s.

(** the axes of the grid have at most 2^53 values *)
Definition within (g : gparams T) : Prop := (Z.of_nat (List.length (g_dy g)) <= 2 ^ 53)%Z /\ (Z.of_nat (List.length (g_dx g)) <= 2 ^ 53)%Z /\ (Z.of_nat (List.length (g_rfa g)) <= 2 ^ 53)%Z.

(** *** viewers *)
(** the values along the axis *)
Definition along (prop : earg (gprop T)) (axis : pyval) : list T :=
  match prop with
  | EOther => []
  | EIs p => match int_of axis with 0 => g_dy (p_params p) | 1 => g_dx (p_params p) | _ => g_rfa (p_params p) end%Z
  end.
(** there are two slices, and numpy takes the axis and the index for integers *)
Definition drawable (axis : pyval) (index : option pyval) (n : nat) : Prop :=
  2 <= n /\ ~ is_bool axis /\ (forall v, index = Some v -> ~ is_bool v).
Definition viewer_checks (ax : earg unit) (axis : pyval) (prop : earg (gprop T)) (masked : pyval)
    (index frozen : option pyval) (co : coords T) : list check :=
  let n := List.length (along prop axis) in
  [num "axis" axis true (PInt 0) (PInt 2) false;
   kind_check (is_a ax) "ax" "Axes";
   kind_check (is_a prop) "grid_property" "GridProperty";
   bool_check "masked" masked;
   num "index" (or_else (PInt (Z.of_nat n / 2)) index) true (PInt 0) (PInt (Z.of_nat n - 1)) false;
   kind_check (co <> CoOther) "coordinates" "List";
   own_check (forall l, co = CoList l -> Forall (fun c => List.length c = 3) l) ValueError "all input coordinates must be tuples with three values";
   guarded (drawable axis index n) (bool_check "frozen" (or_else (PBool false) frozen))].

(** *** reading *)
(** both masks are called "masked" *)
Definition getter_checks (masked pm : pyval) : list check := [bool_check "masked" pm; bool_check "masked" masked].
Definition hill_checks (h : pyval) : list check := [num "hill_radius" h false (PFloat n_zero) inf false].
(** the indices may be as large as the number of points of each axis *)
Definition point_checks (g : gparams T) (y x r masked : pyval) : list check :=
  [num "y_index" y true (PInt 0) (PInt (Z.of_nat (List.length (g_dy g)))) false;
   num "x_index" x true (PInt 0) (PInt (Z.of_nat (List.length (g_dx g)))) false;
   num "rf_index" r true (PInt 0) (PInt (Z.of_nat (List.length (g_rfa g)))) false;
   bool_check "masked" masked].
(** [n] points are not masked *)
Definition extract_checks (n : nat) (v : option pyval) : list check :=
  [num "num_solutions" (or_else (PNpInt (Z.of_nat n)) v) true (PInt 0) (PNpInt (Z.of_nat n)) false].
Definition closest_checks (radius inclination tilt impact masked : pyval) : list check :=
  [num "disk_radius" radius false (PInt 0) inf false;
   num "inclination" inclination false (PInt 0) (PInt 90) false;
   num "tilt" tilt false (PInt (-180)) (PInt 180) false;
   num "impact_parameter" impact false minf inf false;
   bool_check "masked" masked].
(** the gradients are read one after the other, each with the second mask *)
Definition gradients_checks (gs : list (ggrad T)) (masked pm : pyval) : list check :=
  [bool_check "masked" masked; guarded (gs <> []) (bool_check "masked" pm)].

(** *** gradients *)
Definition eclipse_checks (duration velocity limb : pyval) : list check :=
  [num "eclipse_duration" duration false (PFloat n_zero) inf false;
   num "transverse_velocity" velocity false (PFloat n_zero) inf false;
   num "limb_darkening" limb false (PFloat n_zero) (PFloat n_one) false].
Definition removal_checks (s : shallot) (indices : pyval) : list check :=
  match s_grads s with
  | None => []
  | Some gs => [arr "indices" indices (Some (PInt 0)) (Some (PInt (Z.of_nat (List.length gs) - 1))) false (Some "int64") (Some 1%Z)]
  end.
(** the checks of the scaled gradients, made when the orbital scale [o] exists *)
Definition each_measure (o : res pyval) (values : list (pyval * option pyval * option pyval)) : list check :=
  match o with
  | Ok o => flat_map (fun v => measure_checks show (fst (fst v)) o (snd (fst v)) (snd v)) values
  | Err _ => []
  end.
(** the entries of an array argument, 1 where it is left out *)
Definition entries (v : option pyval) (like : list T) : list T :=
  match v with Some v => elems_of v | None => map (fun _ => n_one) like end.
Definition ready (s : shallot) : Prop := s_limb s <> None /\ s_ecl s <> None /\ s_vel s <> None.
Definition addition_checks (s : shallot) (times lcg : pyval) (errors transmissions : option pyval) : list check :=
  ([arr "times" times None None false (Some "float64") (Some 1%Z);
    arr "light_curve_gradients" lcg (Some (PFloat n_zero)) None false (Some "float64") (Some 1%Z);
    shapes_check tuple_text [times; lcg] ["times"; "light_curve_gradients"];
    guarded (errors <> None)
      (arr "light_curve_gradient_errors" (or_else lcg errors) (Some (PFloat n_zero)) None false (Some "float64") (Some 1%Z));
    guarded (transmissions <> None)
      (arr "transmission_changes" (or_else lcg transmissions) (Some (PInt 0)) (Some (PInt 1)) false (Some "float64") (Some 1%Z));
    shapes_check tuple_text [lcg; or_else lcg errors; or_else lcg transmissions]
      ["light_curve_gradients"; "light_curve_gradient_errors"; "transmission_changes"]] ++
   each_measure (determine_orbital_scale E s)
     (map (fun v => (PNpFloat (n_abs (fst v)), Some (PNpFloat (snd (snd v))), Some (PNpFloat (fst (snd v)))))
        (combine (elems_of lcg) (combine (entries errors (elems_of lcg)) (entries transmissions (elems_of lcg))))))%list.
(** the velocity and the limb darkening are taken over unchecked *)
Definition taken (s : shallot) (v u : option pyval) : shallot :=
  with_eclipse s (s_ecl s) (match v with Some v => Some v | None => s_vel s end) (match u with Some u => Some u | None => s_limb s end).
Definition scaling_checks (s : shallot) (v u tr : option pyval) : list check :=
  let gs := match s_grads s with Some gs => gs | None => [] end in
  let shape := match s_grads s with Some gs => [List.length gs] | None => [] end in
  ([guarded (tr <> None) (arr "transmission_changes" (or_else PNone tr) (Some (PInt (-1))) (Some (PInt 1)) false (Some "float64") (Some 1%Z));
    guarded (tr <> None) (shapes_check tuple_text [or_else PNone tr; PArr "object" shape []] ["transmission_changes"; "gradients"])] ++
   (* each gradient with its measurement and error, the new or its own scale and transmission *)
   match v, u, tr with
   | None, None, None => []
   | None, None, Some t =>
     flat_map (fun p => measure_checks show (or_else PNone (gg_meas (fst p))) (or_else PNone (gg_orb (fst p))) (Some (PNpFloat (snd p))) (gg_err (fst p)))
              (combine gs (elems_of t))
   | _, _, None =>
     each_measure (determine_orbital_scale E (taken s v u)) (map (fun g => (or_else PNone (gg_meas g), gg_trans g, gg_err g)) gs)
   | _, _, Some t =>
     each_measure (determine_orbital_scale E (taken s v u))
       (map (fun p => (or_else PNone (gg_meas (fst p)), Some (PNpFloat (snd p)), gg_err (fst p))) (combine gs (elems_of t)))
   end)%list.
(** what a gradient holds: numbers within 2^53, the transmission not zero *)
Definition tame_gradient (g : ggrad T) : Prop :=
  osmall (gg_meas g) /\ osmall (gg_orb g) /\ osmall (gg_trans g) /\ osmall (gg_err g) /\ value (or_else (PInt 1) (gg_trans g)) <> XFin 0.

(** *** construction, saving, loading *)
Definition grid_checks (parameters : earg (gparams T)) (nf level keep inter : pyval) : list check :=
  [num "logging_level" level true (PInt 10) (PInt 50) false;
   kind_check (is_a parameters) "parameters" "GridParameters";
   num "num_fxfy" nf true (PInt 1) inf false;
   bool_check "keep_diagnostics" keep;
   bool_check "intermittent_saving" inter].
Definition save_checks (g : gparams T) (directory : pyval) (y : option pyval) : list check :=
  [kind_check (exists d, directory = PStr d) "directory" "string";
   guarded (y <> None) (num "y_value" (or_else PNone y) true (PInt 0) (PInt (Z.of_nat (List.length (g_dy g)))) false)].
(** the parts are loaded one after the other once the number of scale factors has been read *)
Definition part_check (f : fs T) (d : string) (n : pname) (u : punit) (shown : string) : check :=
  own_check (exists p, gprop_load f (PStr d) (EIs n) (EIs u) = Ok p) LoadErr ("failed to load " ++ shown ++ " from " ++ d).
Definition numbered (f : fs T) (d : string) : Prop := exists dt sh n l, np_load f (under d "num_fxfy.npy") = Ok (dt, sh, n :: l).
Definition load_checks (f : fs T) (d : string) : list check :=
  map (guarded (numbered f d))
    [own_check (exists g, params_load f d = Ok g) LoadErr ("failed to load grid parameters from " ++ d);
     part_check f d DISK_RADIUS ECLIPSE_DURATION "Disk Radius [Eclipse Duration]";
     part_check f d INCLINATION DEGREE "Inclination [Degree]";
     part_check f d TILT DEGREE "Tilt [Degree]";
     part_check f d FX_MAP NONE "Fx Map [None]";
     part_check f d FY_MAP NONE "Fy Map [None]"].
(** the four quadrants fit into the extended grid *)
Definition quadrant_checks (g : gparams T) (p : gprop T) : list check :=
  match p_shape p with
  | [ny; nx; nr] =>
    let full := [2 * ny - 1; 2 * nx - 1; nr] in
    [own_check (given_shape (EIs g) = full) AttributeError
       ("the new parameter shape " ++ tuple_text full ++ " doesn't match the grid shape " ++ tuple_text (given_shape (EIs g)))]
  | _ => []
  end.
End O.
