(** Model of /repo/GridProperty.py: GridProperty (19-355) and GridGradient (360-588).
    Simplifications: objects are values, so the sharing of the data array, the mask array and the
    grid parameters with the caller is not visible; arrays are flat C-order lists with a shape;
    __str__/__repr__ are in Text.v, plotting is in ViewerDraw.v. *)
From Coq Require Import ZArith List Bool String.
From Verif Require Import Num Py Validate Ring FS GridParams Names.
Import ListNotations.
Set Implicit Arguments.

(** an argument checked with validate.class_object: an instance of the class, or anything else *)
Inductive earg (A : Type) := EIs (a : A) | EOther.
Arguments EIs {A} _. Arguments EOther {A}.
Definition class_arg {A} (e : earg A) : res A := match e with EIs a => Ok a | EOther => Err TypeError end.

(** product of the dimensions *)
Fixpoint volume (sh : list nat) : nat := match sh with [] => 1 | n :: sh => n * volume sh end.

Section GPr.
Context {T : Type} {NT : Num T}.
Notation pyval := (pyval T).

(** a mask as stored: dtype, shape, entries *)
Record marr := mkMarr { ma_dtype : string; ma_shape : list nat; ma_elems : list (scal T) }.

(** GridProperty.py:63-76 *)
Record gprop := mkGPr {
  p_name : pname; p_unit : punit; p_params : gparams T;
  p_shape : list nat; p_data : list T;
  p_vmin : option pyval; p_vmax : option pyval; p_cmap : string; p_ncol : pyval;
  p_mask : option marr }.

Definition with_data (p : gprop) (l : list T) : gprop :=
  mkGPr (p_name p) (p_unit p) (p_params p) (p_shape p) l (p_vmin p) (p_vmax p) (p_cmap p) (p_ncol p) (p_mask p).
Definition with_mask (p : gprop) (m : option marr) : gprop :=
  mkGPr (p_name p) (p_unit p) (p_params p) (p_shape p) (p_data p) (p_vmin p) (p_vmax p) (p_cmap p) (p_ncol p) m.
Definition with_limits (p : gprop) (lo up : option pyval) : gprop :=
  mkGPr (p_name p) (p_unit p) (p_params p) (p_shape p) (p_data p) lo up (p_cmap p) (p_ncol p) (p_mask p).
Definition with_colors (p : gprop) (c : string) (n : pyval) : gprop :=
  mkGPr (p_name p) (p_unit p) (p_params p) (p_shape p) (p_data p) (p_vmin p) (p_vmax p) c n (p_mask p).

Definition shape3 (g : gparams T) : list nat := let '(ny, nx, nr) := g_shape g in [ny; nx; nr].

(** truth value of an array entry *)
Definition scal_true (s : scal T) : bool :=
  match s with SB b => b | SI z => negb (Z.eqb z 0) | SF x => negb (n_eq x n_zero) end.

(** np.nanmin / np.nanmax of an array with a number in it (None: all NaN) *)
Fixpoint nanmin (l : list T) : option T :=
  match l with
  | [] => None
  | x :: l => if n_isnan x then nanmin l
              else match nanmin l with None => Some x | Some m => Some (if n_lt m x then m else x) end
  end.
Fixpoint nanmax (l : list T) : option T :=
  match l with
  | [] => None
  | x :: l => if n_isnan x then nanmax l
              else match nanmax l with None => Some x | Some m => Some (if n_lt x m then m else x) end
  end.

(** GridProperty.py:196: np.sum(np.isnan(data)) == np.prod(data.shape) *)
Definition all_nans (l : list T) : bool := forallb n_isnan l.

(** an optional argument, None replaced by its default *)
Definition dflt {A} (d : A) (o : option A) : A := match o with Some a => a | None => d end.

(** GridProperty.py:171-217 set_contrast_parameters; each attribute is stored as soon as it has
    been validated *)
Definition set_limits (p : gprop) (vmin vmax : option pyval) : gprop * res unit :=
  if all_nans (p_data p) then (with_limits p None None, Ok tt)
  else
    let lo := match vmin, nanmin (p_data p) with Some v, _ => v | None, Some x => PNpFloat x | None, None => PNone end in
    match number lo false m_inf p_inf false with
    | Err e => (p, Err e)
    | Ok lo =>
      let p := with_limits p (Some lo) (p_vmax p) in
      let up := match vmax, nanmax (p_data p) with Some v, _ => v | None, Some x => PNpFloat x | None, None => PNone end in
      match number up false m_inf p_inf false with
      | Err e => (p, Err e)
      | Ok up => (with_limits p (p_vmin p) (Some up), Ok tt)
      end
    end.
Definition set_contrast (p : gprop) (vmin vmax color_map num_colors : option pyval) : gprop * res unit :=
  match set_limits p vmin vmax with
  | (p, Err e) => (p, Err e)
  | (p, Ok _) =>
    match string_v (dflt (PStr "viridis") color_map) with
    | Err e => (p, Err e)
    | Ok c =>
      let p := with_colors p c (p_ncol p) in
      match number (dflt (PInt 11) num_colors) true (PInt 2) p_inf false with
      | Err e => (p, Err e)
      | Ok n => (with_colors p c n, Ok tt)
      end
    end
  end.
Definition set_contrast_default (p : gprop) : gprop * res unit := set_contrast p None None None None.

(** GridProperty.py:38-76 constructor; the attributes not yet set when set_contrast_parameters is
    called (line 74) have placeholder values, all of which it overwrites or the caller drops *)
Definition new_gprop (name : earg pname) (unit : earg punit) (data : pyval) (params : earg (gparams T)) : res gprop :=
  let* n := class_arg name in
  let* u := class_arg unit in
  let* g := class_arg params in
  let* d := array data None None false (Some "float64"%string) (Some 3%Z) in
  let* _ := same_shape_arrays [data; PArr "float64" (shape3 g) (repeat (SF n_one) (volume (shape3 g)))] 2 in
  match d with
  | PArr _ sh el =>
    match set_contrast_default (mkGPr n u g sh (map (@num_scal T _) el) None None "" PNone None) with
    | (p, Ok _) => Ok p
    | (_, Err e) => Err e
    end
  | _ => Err TypeError
  end.

Definition data_arr (p : gprop) : pyval := PArr "float64" (p_shape p) (map (@SF T) (p_data p)).

(** GridProperty.py:130-144 set_mask *)
Definition set_mask (p : gprop) (mask : pyval) : gprop * res unit :=
  match array mask None None false (Some "bool"%string) None with
  | Ok (PArr dt sh el) =>
    match same_shape_arrays [mask; data_arr p] 2 with
    | Ok _ => (with_mask p (Some (mkMarr dt sh el)), Ok tt)
    | Err e => (p, Err e)
    end
  | Ok _ => (p, Err TypeError)
  | Err e => (p, Err e)
  end.

(** data[mask] = np.nan for a mask of the same shape *)
Fixpoint blank (l : list T) (m : list (scal T)) : list T :=
  match l, m with
  | x :: l, s :: m => (if scal_true s then n_nan else x) :: blank l m
  | _, _ => l
  end.

(** GridProperty.py:147-168 get_data: the assignment of line 166 changes the stored array, which is
    also the result.  A mask that is not a bool array of the data's shape (only possible after load)
    raises IndexError; integer masks and masks with fewer axes, which numpy would accept, cannot be
    saved by this program and are not modelled. *)
Definition get_data (p : gprop) (masked : pyval) : gprop * res (list nat * list T) :=
  match boolean_v masked with
  | Err e => (p, Err e)
  | Ok b =>
    match (if b then p_mask p else None) with
    | None => (p, Ok (p_shape p, p_data p))
    | Some m =>
      if String.eqb (ma_dtype m) "bool" && shape_eqb (ma_shape m) (p_shape p)
      then let p' := with_data p (blank (p_data p) (ma_elems m)) in (p', Ok (p_shape p', p_data p'))
      else (p, Err IndexError)
    end
  end.

(** GridProperty.py:288-308 save into a directory given as a string *)
Definition gprop_files (p : gprop) : list (string * content T) :=
  (data_file (p_name p) (p_unit p), float_arr (p_shape p) (p_data p)) ::
  match p_mask p with
  | None => []
  | Some m => [(mask_file (p_name p) (p_unit p), CNpy (ma_dtype m) (ma_shape m) (ma_elems m))]
  end.
Definition gprop_save (p : gprop) (d : string) : list (step T) :=
  SMkdirIf d :: map (fun nc => SWrite (under d (fst nc)) (snd nc)) (gprop_files p) ++ params_save (p_params p) d.

(** GridProperty.py:311-355 load *)
Definition gprop_load (f : fs T) (directory : pyval) (name : earg pname) (unit : earg punit) : res gprop :=
  let* d := string_v directory in
  let* n := class_arg name in
  let* u := class_arg unit in
  match
   (let* x := np_load f (under d (data_file n u)) in
    let '(dt, sh, el) := x in
    let* g := params_load f d in
    let* p := new_gprop (EIs n) (EIs u) (PArr dt sh el) (EIs g) in
    let* p :=
      (if fs_exists f (under d (mask_file n u)) then
         let* m := np_load f (under d (mask_file n u)) in
         let '(mt, msh, mel) := m in Ok (with_mask p (Some (mkMarr mt msh mel)))
       else Ok p) in
    match set_contrast_default p with (p, Ok _) => Ok p | (_, Err e) => Err e end)
  with Ok p => Ok p | Err _ => Err LoadErr end.

(** *** GridGradient, GridProperty.py:360-588 *)
Record ggrad := mkGG { gg_prop : gprop; gg_pos : pyval;
                       gg_meas : option pyval; gg_err : option pyval;
                       gg_orb : option pyval; gg_trans : option pyval }.
Definition with_prop (g : ggrad) (p : gprop) : ggrad :=
  mkGG p (gg_pos g) (gg_meas g) (gg_err g) (gg_orb g) (gg_trans g).

(** GridProperty.py:373-401 constructor *)
Definition new_grad (data : pyval) (params : earg (gparams T)) (position : pyval) : res ggrad :=
  let* p := new_gprop (EIs GRADIENT) (EIs NONE) data params in
  let* pos := number position false m_inf p_inf false in
  Ok (mkGG p pos None None None None).

(** GridProperty.py:434-444 __lt__ *)
Definition grad_lt (a b : ggrad) : bool := v_cmp (@s_lt T _) (gg_pos a) (gg_pos b).

(** Python's 1 / t: ZeroDivisionError for a zero of Python's own types, infinity for numpy's *)
Definition reciprocal (t : pyval) : res T :=
  match t with
  | PBool _ | PInt _ | PFloat _ => if n_eq (num_of t) n_zero then Err ZeroDivision else Ok (n_div n_one (num_of t))
  | PNpInt _ | PNpFloat _ => Ok (n_div n_one (num_of t))
  | _ => Err TypeError
  end.

(** GridProperty.py:447-470 get_scaled_gradient *)
Definition scaled_gradient (g : ggrad) : res (option T) :=
  match gg_meas g with
  | None => Ok None
  | Some m =>
    match gg_trans g with
    | None => Err TypeError
    | Some t =>
      let* ts := reciprocal t in
      match gg_orb g with
      | None => Err TypeError
      | Some o =>
        let total := n_mul (num_of o) ts in
        let scaled := n_mul (num_of m) total in
        if n_gt scaled n_one then Err ValueError else Ok (Some scaled)
      end
    end
  end.

(** GridProperty.py:515-518 *)
Definition mask_of (scaled : T) (l : list T) : list bool := map (fun x => n_gt scaled x || n_isnan x) l.
Definition bool_marr (sh : list nat) (l : list bool) : marr := mkMarr "bool" sh (map (@SB T) l).

(** GridProperty.py:473-519 determine_mask *)
Definition determine_mask (g : ggrad) (measured orbital : pyval) (transmission error : option pyval) : ggrad * res unit :=
  match number measured false (PInt 0) p_inf false with
  | Err e => (g, Err e)
  | Ok m =>
    let g := mkGG (gg_prop g) (gg_pos g) (Some m) (gg_err g) (gg_orb g) (gg_trans g) in
    match number orbital false (PInt 0) p_inf false with
    | Err e => (g, Err e)
    | Ok o =>
      let g := mkGG (gg_prop g) (gg_pos g) (gg_meas g) (gg_err g) (Some o) (gg_trans g) in
      match number (dflt (PInt 1) transmission) false (PInt 0) (PInt 1) false with
      | Err e => (g, Err e)
      | Ok t =>
        let g := mkGG (gg_prop g) (gg_pos g) (gg_meas g) (gg_err g) (gg_orb g) (Some t) in
        match number (dflt (PInt 1) error) false (PFloat n_zero) p_inf false with
        | Err e => (g, Err e)
        | Ok e =>
          let g := mkGG (gg_prop g) (gg_pos g) (gg_meas g) (Some e) (gg_orb g) (gg_trans g) in
          match scaled_gradient g with
          | Err e => (g, Err e)
          | Ok None => (g, Err TypeError)
          | Ok (Some s) =>
            let p := gg_prop g in
            (with_prop g (with_mask p (Some (bool_marr (p_shape p) (mask_of s (p_data p))))), Ok tt)
          end
        end
      end
    end
  end.

(** np.array of Python numbers: dtype bool if all are bools, else int64 if none is a float, else
    float64 (integers beyond int64, which give an object array, are not modelled); None among them
    gives an object array, which np.save pickles *)
Definition all_some {A} (l : list (option A)) : option (list A) :=
  fold_right (fun o r => match o, r with Some a, Some l => Some (a :: l) | _, _ => None end) (Some []) l.
Definition is_bool_v (v : pyval) : bool := match v with PBool _ => true | _ => false end.
Definition is_float_v (v : pyval) : bool := match v with PFloat _ | PNpFloat _ => true | _ => false end.
Definition int_or_0 (v : pyval) : Z :=
  match v with PBool b => if b then 1 else 0 | PInt z | PNpInt z => z | _ => 0 end%Z.
Definition np_array (l : list (option pyval)) : content T :=
  match all_some l with
  | None => CPickle
  | Some l =>
    let n := [List.length l] in
    if forallb is_bool_v l then CNpy "bool" n (map (fun v => SB (negb (Z.eqb (int_or_0 v) 0))) l)
    else if existsb is_float_v l then CNpy "float64" n (map (fun v => SF (num_of v)) l)
    else CNpy "int64" n (map (fun v => SI (int_or_0 v)) l)
  end.

(** an element of a loaded array: a numpy scalar *)
Definition np_item (s : scal T) : pyval :=
  match s with SB b => PNpOther (SB b) | SI z => PNpInt z | SF x => PNpFloat x end.

(** GridProperty.py:522-548 save_gradient; [fmt] is the formatting "{:.4f}" of line 534 *)
Definition gradient_dir (fmt : T -> string) (g : ggrad) (d : string) : string :=
  under d ("gradient_" ++ fmt (num_of (gg_pos g))).
Definition grad_save (fmt : T -> string) (g : ggrad) (d : string) : list (step T) :=
  let gd := gradient_dir fmt g d in
  SMkdirIf gd :: gprop_save (gg_prop g) gd ++
  [SWrite (under gd "position.npy") (np_array [Some (gg_pos g)])] ++
  match gg_meas g with
  | None => []
  | Some m => [SWrite (under gd "mask_values.npy") (np_array [gg_meas g; gg_orb g; gg_trans g; gg_err g])]
  end ++ params_save (p_params (gg_prop g)) d.

(** GridProperty.py:551-588 load; determine_mask gets the array's elements as arguments *)
Definition grad_load (f : fs T) (d : string) : res ggrad :=
  match
   (let* x := np_load f (under d (data_file GRADIENT NONE)) in
    let '(dt, sh, el) := x in
    let* g := params_load f d in
    let* y := np_load f (under d "position.npy") in
    let* pos := match snd y with s :: _ => Ok (np_item s) | [] => Err IndexError end in
    let* gr := new_grad (PArr dt sh el) (EIs g) pos in
    if fs_exists f (under d "mask_values.npy") then
      let* z := np_load f (under d "mask_values.npy") in
      let '(gr', r) :=
        match snd z with
        | [m; o] => determine_mask gr (np_item m) (np_item o) None None
        | [m; o; t] => determine_mask gr (np_item m) (np_item o) (Some (np_item t)) None
        | [m; o; t; e] => determine_mask gr (np_item m) (np_item o) (Some (np_item t)) (Some (np_item e))
        | _ => (gr, Err TypeError)
        end in
      let* _ := r in Ok gr'
    else Ok gr)
  with Ok g => Ok g | Err _ => Err LoadErr end.
End GPr.
Arguments marr : clear implicits.
Arguments gprop : clear implicits.
Arguments ggrad : clear implicits.
