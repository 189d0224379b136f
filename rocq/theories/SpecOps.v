(** Specification vocabulary for the methods of a grid. *)
From Coq Require Import ZArith Reals List Bool String.
From Verif Require Import Num Py SpecNum Ring RingSystem FS GridParams GridProp Names SpecGrid SpecProp Geometry Build SpecBuild Shallot ShallotOps.
Import ListNotations.
Set Implicit Arguments.

Section S.
Context {T : Type} {NT : Num T} {LT : NumLaws T} (E : env T).
Notation pyval := (pyval T).
Notation shallot := (shallot T).

(** the cube a name stands for, and its getter *)
Definition the_cube (w : which) (s : shallot) : gprop T :=
  match w with WRadius => s_dr s | WInclination => s_inc s | WTilt => s_tilt s | WFx => s_fx s | WFy => s_fy s end.
Definition get_cube (w : which) (masked pm : pyval) : M (T := T) (list nat * list T) :=
  match w with
  | WRadius => get_disk_radius masked pm | WInclination => get_inclination masked pm | WTilt => get_tilt masked pm
  | WFx => get_fx_map masked pm | WFy => get_fy_map masked pm
  end.
(** grid.disk_radius.set_mask(mask) and so on *)
Definition mask_cube (w : which) (m : pyval) (s : shallot) : shallot :=
  match w with
  | WRadius => set_dr s (fst (set_mask (s_dr s) m)) | WInclination => set_inc s (fst (set_mask (s_inc s) m))
  | WTilt => set_tilt s (fst (set_mask (s_tilt s) m)) | WFx => set_fx s (fst (set_mask (s_fx s) m))
  | WFy => set_fy s (fst (set_mask (s_fy s) m))
  end.

(** grid.gradients[k].set_mask(mask), for a gradient that exists *)
Definition mask_gradient (k : nat) (m : pyval) (s : shallot) : shallot :=
  match s_grads s with
  | Some gs => match nth_error gs k with
               | Some g => with_grads s (Some (replace_nth k (with_prop g (fst (set_mask (gg_prop g) m))) gs)) (s_fit s)
               | None => s
               end
  | None => s
  end.

(** calls on a grid *)
Inductive op :=
  | OAdd (times lcg : pyval) (errors transmissions : option pyval)
  | ORemove (indices : pyval)
  | OEclipse (duration velocity limb : pyval)
  | OScale (velocity limb transmissions : option pyval)
  | OFit (weighted : bool)
  | OHill (h : pyval)
  | OMask (w : which) (mask : pyval)
  | OMaskGrad (k : nat) (mask : pyval)
  | OGet (w : which) (masked pm : pyval)
  | OGetDiag (masked pm : pyval)
  | OGetFit (masked pm : pyval)
  | OGrads (masked pm : pyval)
  | OExtract (n : option pyval)
  | OClosest (radius inclination tilt impact masked : pyval)
  | OPoint (y x r masked : pyval).
Definition do_op (s : shallot) (o : op) : shallot :=
  match o with
  | OAdd t l e tr => fst (add_gradients E t l e tr s)
  | ORemove i => fst (remove_gradients i s)
  | OEclipse a b c => fst (set_eclipse_parameters a b c s)
  | OScale v u t => fst (update_gradient_scaling E v u t s)
  | OFit w => fst (determine_gradient_fit w s)
  | OHill h => fst (generate_hill_radius_mask h s)
  | OMask w m => mask_cube w m s
  | OMaskGrad k m => mask_gradient k m s
  | OGet w m pm => fst (get_cube w m pm s)
  | OGetDiag m pm => fst (get_diagnostic_map m pm s)
  | OGetFit m pm => fst (get_gradient_fit m pm s)
  | OGrads m pm => fst (get_gradients m pm s)
  | OExtract n => fst (extract_solutions n s)
  | OClosest a b c d m => fst (determine_closest a b c d m s)
  | OPoint y x r m => fst (get_grid_point_data y x r m s)
  end.
Definition do_ops (s : shallot) (l : list op) : shallot := fold_left do_op l s.
(** masks given by the caller are arrays *)
Definition op_wf (o : op) : Prop := match o with OMask _ m | OMaskGrad _ m => arr_wf m | _ => True end.

(** grids built by the constructor and changed by any calls, successful or not *)
Inductive sreach : shallot -> Prop :=
  | sr_new g nf ll keep inter og l s : reachable g -> new_shallot E (EIs g) nf ll keep inter = (og, (l, Ok s)) -> sreach s
  | sr_op s o : op_wf o -> sreach s -> sreach (do_op s o).

(** point [i] is masked by the mask of the disk radius, the inclination, the tilt or of some gradient *)
Definition masked_at (s : shallot) (i : nat) : Prop :=
  marked (p_mask (s_dr s)) i = true \/ marked (p_mask (s_inc s)) i = true \/ marked (p_mask (s_tilt s)) i = true \/
  exists gs g, s_grads s = Some gs /\ In g gs /\ marked (p_mask (gg_prop g)) i = true.

(** number of grid points *)
Definition points (s : shallot) : nat := List.length (g_dy (s_params s)) * List.length (g_dx (s_params s)) * List.length (g_rfa (s_params s)).

(** [l'] is [l] with some entries replaced by NaN *)
Definition thinned (l l' : list T) : Prop := Forall2 (fun x y => y = x \/ y = n_nan) l l'.

(** [l] with NaN at the positions satisfying [f] *)
Definition hidden (l : list T) (f : nat -> bool) : list T := map (fun i => if f i then n_nan else nth i l n_nan) (seq 0 (List.length l)).

(** what calls on a grid can do to a property: its mask may change, values may be replaced by NaN *)
Definition worn (p p' : gprop T) : Prop :=
  p_name p' = p_name p /\ p_unit p' = p_unit p /\ p_params p' = p_params p /\ p_shape p' = p_shape p /\ thinned (p_data p) (p_data p').
Record aged (s s' : shallot) : Prop := {
  ag_params : s_params s' = s_params s;
  ag_nf : s_nf s' = s_nf s;
  ag_diag : s_diag s' = s_diag s;
  ag_radius : s_radius s' = s_radius s;
  ag_shear : s_shear s' = s_shear s;
  ag_cubes : forall w, worn (the_cube w s) (the_cube w s');
  ag_dmap : match s_dmap s, s_dmap s' with Some m, Some m' => worn m m' | None, None => True | _, _ => False end }.

(** a one-dimensional float array *)
Definition farr (l : list T) : pyval := PArr "float64" [List.length l] (map (@SF T) l).
(** an optional array: ones when it is left out *)
Definition given (v : option pyval) (like l : list T) : Prop :=
  match v with Some v => v = farr l | None => l = map (fun _ => n_one) like end.

(** the term of a gradient in the fit at point [i]: (value - scaled gradient)^2 / weight, the weight
    being the squared error or 1 *)
Definition term_of (weighted : bool) (i : nat) (g : ggrad T) (t : T) : Prop :=
  exists v sc wt, nth_error (p_data (gg_prop g)) i = Some v /\ scaled_gradient g = Ok (Some sc) /\
    (if weighted then exists e, gg_err g = Some e /\ wt = n_sq (num_of e) else wt = n_one) /\
    t = n_div (n_sq (n_sub v sc)) wt.

(** the value seen at point [i] of a property: NaN if the point is masked, by the property's own mask or,
    if [m], by any *)
Definition seen (s : shallot) (m : bool) (p : gprop T) (i : nat) (v : T) : Prop :=
  (marked (p_mask p) i = true \/ m = true /\ masked_at s i) /\ v = n_nan \/
  marked (p_mask p) i = false /\ ~ (m = true /\ masked_at s i) /\ nth_error (p_data p) i = Some v.
(** the number of point (y, x, r) *)
Definition place (s : shallot) (y x r : nat) : nat := (y * List.length (g_dx (s_params s)) + x) * List.length (g_rfa (s_params s)) + r.
(** a description of that point: the values seen there, its coordinates, and the value of each gradient,
    NaN if [m] and the gradient's mask marks the point *)
Definition describes (s : shallot) (m : bool) (y x r : nat) (d : point_data) : Prop :=
  let i := place s y x r in
  seen s m (s_dr s) i (pd_dr d) /\ seen s m (s_inc s) i (pd_inc d) /\ seen s m (s_tilt s) i (pd_tilt d) /\
  seen s m (s_fx s) i (pd_fx d) /\ seen s m (s_fy s) i (pd_fy d) /\
  (exists q, s_dmap s = Some q /\ seen s m q i (pd_diag d)) /\
  nth_error (g_dx (s_params s)) x = Some (pd_dx d) /\ nth_error (g_dy (s_params s)) y = Some (pd_dy d) /\ nth_error (g_rfa (s_params s)) r = Some (pd_rf d) /\
  match s_grads s, pd_grads d with
  | None, None => True
  | Some gs, Some l => Forall2 (fun g z => fst z = num_of (gg_pos g) /\
      if m && marked (p_mask (gg_prop g)) i then snd z = n_nan else nth_error (p_data (gg_prop g)) i = Some (snd z)) gs l
  | _, _ => False
  end.

(** solution [z] is that of point [q], which is not masked: the fit, disk radius, inclination and tilt stored
    there and its coordinates *)
Definition at_point (s : shallot) (fit : gprop T) (q : nat * nat * nat) (z : solution) : Prop :=
  let '(y, x, r) := q in let i := place s y x r in
  (y < List.length (g_dy (s_params s)) /\ x < List.length (g_dx (s_params s)) /\ r < List.length (g_rfa (s_params s))) /\ ~ masked_at s i /\
  nth_error (p_data fit) i = Some (fst z) /\ nth_error (p_data (s_dr s)) i = Some (pd_dr (snd z)) /\
  nth_error (p_data (s_inc s)) i = Some (pd_inc (snd z)) /\ nth_error (p_data (s_tilt s)) i = Some (pd_tilt (snd z)) /\
  nth_error (g_dx (s_params s)) x = Some (pd_dx (snd z)) /\ nth_error (g_dy (s_params s)) y = Some (pd_dy (snd z)).
(** the points that are not masked *)
Definition unmasked (s : shallot) (is : list nat) : Prop := NoDup is /\ forall i, In i is <-> i < points s /\ ~ masked_at s i.
(** there the fit is a number *)
Definition fit_finite (s : shallot) (fit : gprop T) : Prop :=
  forall i, i < points s -> ~ masked_at s i -> marked (p_mask fit) i = false /\ exists v a, nth_error (p_data fit) i = Some v /\ val v = XFin a.
(** the argument of extract_solutions asks for [k] of [n] *)
Definition asks (v : option pyval) (n k : nat) : Prop :=
  match v with None => k = n | Some v => int_like v /\ int_of v = Z.of_nat k /\ k <= n end.

(** the row coordinate used: between the first and last dy, at y/n of the way; rows on the other side of
    the star are moved to 10^7 *)
Definition row_of (s : shallot) (b : T) (y : nat) : T :=
  let dy := g_dy (s_params s) in let n := List.length dy in
  let first := nth 0 dy n_nan in let last := nth (n - 1) dy n_nan in
  let v := n_add (n_mul (n_div (n_ofnat y) (n_ofnat n)) (n_sub last first)) first in
  if n_lt b n_zero then (if n_gt v n_zero then n_ofZ 10000000 else v)
  else if n_gt b n_zero then (if n_lt v n_zero then n_ofZ (-10000000) else v)
  else v.
(** the distance of point (y, x, q) from a disk radius, inclination, tilt and impact parameter *)
Definition away (s : shallot) (m : bool) (r i t b : T) (y x q : nat) (w : T) : Prop :=
  exists R I Ti, seen s m (s_dr s) (place s y x q) R /\ seen s m (s_inc s) (place s y x q) I /\ seen s m (s_tilt s) (place s y x q) Ti /\
  let sq u := n_mul u u in
  w = n_sqrt (n_add (n_add (n_add (sq (n_sub R r)) (sq (n_sub I i))) (sq (n_sub Ti t))) (sq (n_sub (row_of s b y) b))).

(** the same distance with the dy of the row, as documented *)
Definition documented (s : shallot) (m : bool) (r i t b : T) (y x q : nat) (w : T) : Prop :=
  exists R I Ti dy, seen s m (s_dr s) (place s y x q) R /\ seen s m (s_inc s) (place s y x q) I /\ seen s m (s_tilt s) (place s y x q) Ti /\
  nth_error (g_dy (s_params s)) y = Some dy /\
  let sq u := n_mul u u in
  w = n_sqrt (n_add (n_add (n_add (sq (n_sub R r)) (sq (n_sub I i))) (sq (n_sub Ti t))) (sq (n_sub dy b))).
(** an array of integers *)
Definition indices (is : list Z) : pyval := PArr "int64" [List.length is] (map (@SI T) is).
(** an array argument that may be left out *)
Definition o_wf (o : option pyval) : Prop := match o with Some v => arr_wf v | None => True end.
(** the call changes the gradients, or would if it succeeded *)
Definition changes (s : shallot) (o : op) : Prop :=
  match o with
  | OAdd _ _ _ _ => s_limb s <> None /\ s_ecl s <> None /\ s_vel s <> None
  | ORemove _ => s_grads s <> None
  | OEclipse _ _ _ => True
  | OScale v u t => v <> None \/ u <> None \/ t <> None
  | _ => False
  end.
(** the call returns *)
Definition returns (s : shallot) (o : op) : Prop :=
  match o with
  | OAdd t l e tr => snd (add_gradients E t l e tr s) = Ok tt
  | ORemove i => snd (remove_gradients i s) = Ok tt
  | OEclipse a b c => snd (set_eclipse_parameters a b c s) = Ok tt
  | OScale v u t => snd (update_gradient_scaling E v u t s) = Ok tt
  | _ => False
  end.

(** the positions of [l] that are not in [is] *)
Definition without (n : nat) (is : list Z) : list nat := filter (fun k => negb (existsb (Z.eqb (Z.of_nat k)) is)) (seq 0 n).
Definition pick {A} (l : list A) (ks : list nat) : list A := flat_map (fun k => match nth_error l k with Some a => [a] | None => [] end) ks.

(** the entry of gradient [g] in the list read with the combined mask if [m] and its own mask if [b]: its
    position, scaled gradient and error, NaN for those it lacks, and its values, NaN where masked *)
Definition listed (s : shallot) (m b : bool) (g : ggrad T) (z : T * T * T * list T) : Prop :=
  let '(pos, sc, er, l) := z in
  pos = num_of (gg_pos g) /\ (exists o, scaled_gradient g = Ok o /\ sc = match o with Some x => x | None => n_nan end) /\
  er = match gg_err g with Some e => num_of e | None => n_nan end /\
  List.length l = points s /\
  forall i x, nth_error (p_data (gg_prop g)) i = Some x ->
    ((b = true /\ marked (p_mask (gg_prop g)) i = true) \/ (m = true /\ masked_at s i) -> nth_error l i = Some n_nan) /\
  (~ (b = true /\ marked (p_mask (gg_prop g)) i = true) -> ~ (m = true /\ masked_at s i) -> nth_error l i = Some x).
(** what reading a gradient leaves: the same gradient, with NaN under its own mask if [b] *)
Definition once_read (b : bool) (g g' : ggrad T) : Prop :=
  g' = with_prop g (with_data (gg_prop g) (p_data (gg_prop g'))) /\ List.length (p_data (gg_prop g')) = List.length (p_data (gg_prop g)) /\
  forall i x, nth_error (p_data (gg_prop g)) i = Some x -> nth_error (p_data (gg_prop g')) i = Some (if b && marked (p_mask (gg_prop g)) i then n_nan else x).

(** a gradient as it is before its measurement, at position [p] *)
Definition bare (s : shallot) (p : T) (g : ggrad T) : Prop :=
  gg_pos g = PNpFloat p /\ p_data (gg_prop g) = gradient_values E s p /\ p_mask (gg_prop g) = None /\
  gg_meas g = None /\ gg_err g = None /\ gg_orb g = None /\ gg_trans g = None.

(** [g'] is [g] rescaled with the orbital scale [o] and the transmission [t], 1 if missing: data, position,
    measurement and error are kept (the error 1 if it had none) and the mask marks the values that are
    NaN or less than the scaled gradient, which is not over 1 *)
Definition rescaled (o : pyval) (t : option pyval) (g g' : ggrad T) : Prop :=
  exists m mk, gg_meas g = Some m /\
    let tv := match t with Some t => t | None => PInt 1 end in
    let ev := match gg_err g with Some e => e | None => PInt 1 end in
    let r := n_mul (num_of m) (n_mul (num_of o) (n_div n_one (num_of tv))) in
    ~ xlt (XFin 1) (val r) /\
    g' = mkGG (with_mask (gg_prop g) (Some (mkMarr "bool" (p_shape (gg_prop g)) mk))) (gg_pos g) (Some m) (Some ev) (Some o) (Some tv) /\
    forall i x, nth_error (p_data (gg_prop g)) i = Some x ->
      (marked (Some (mkMarr "bool" (p_shape (gg_prop g)) mk)) i = true <-> val x = XNaN \/ xlt (val x) (val r)).
(** the grid with the velocity and the limb darkening replaced, where given *)
Definition revalued (s : shallot) (v u : option pyval) : shallot :=
  with_eclipse s (s_ecl s) (match v with Some v => Some v | None => s_vel s end) (match u with Some u => Some u | None => s_limb s end).
End S.
