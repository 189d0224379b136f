(** Property theorems for GridPropertyViewer (C60, C61, C67). *)
From Coq Require Import ZArith Reals List Bool String Lia.
From Verif Require Import Num Py SpecNum FS GridParams SpecGrid GridProp SpecProp GridPropP Viewer SpecViewer ViewerP.
Import ListNotations.

(** C60.  The index is always that of a slice, and the image is that slice of the data. *)
Theorem C60_range {T} {NT : Num T} {LT : NumLaws T} (v : viewer T) : vreach v ->
  (0 <= v_index v < num_slices v)%Z /\ List.length (v_slices v) = dim (v_axis v) (v_shape v) /\
  v_image v = take (v_axis v) (v_shape v) (v_data v) (Z.to_nat (v_index v)).
Proof. exact (@view_range T NT LT v). Qed.
Print Assumptions C60_range.

(** what a slice of a cube is, entry by entry *)
Theorem C60_slice {T} {NT : Num T} a b c (l : list T) i : List.length l = volume [a; b; c] ->
  (i < a -> List.length (take 0 [a; b; c] l i) = b * c /\ forall j k, j < b -> k < c ->
     nth_error (take 0 [a; b; c] l i) (j * c + k) = nth_error l ((i * b + j) * c + k)) /\
  (i < b -> List.length (take 1 [a; b; c] l i) = a * c /\ forall j k, j < a -> k < c ->
     nth_error (take 1 [a; b; c] l i) (j * c + k) = nth_error l ((j * b + i) * c + k)) /\
  (i < c -> List.length (take 2 [a; b; c] l i) = a * b /\ forall j k, j < a -> k < b ->
     nth_error (take 2 [a; b; c] l i) (j * b + k) = nth_error l ((j * b + k) * c + i)).
Proof. exact (@take_spec T NT a b c l i). Qed.
Print Assumptions C60_slice.

(** any list of events moves the index as a clamped walk *)
Theorem C60_walk {T} {NT : Num T} {LT : NumLaws T} (v : viewer T) l : vreach v -> v_frozen v = false ->
  v_index (scrolls v l) = clamp_moves (num_slices v) (v_index v) l.
Proof. exact (@view_moves T NT LT v l). Qed.
Print Assumptions C60_walk.

(** one event *)
Theorem C60_step {T} {NT : Num T} {LT : NumLaws T} (v : viewer T) b : vreach v -> v_frozen v = false ->
  (b = true -> (v_index v < num_slices v - 1)%Z -> v_index (onscroll v b) = (v_index v + 1)%Z) /\
  (b = true -> (v_index v = num_slices v - 1)%Z -> v_index (onscroll v b) = v_index v) /\
  (b = false -> (0 < v_index v)%Z -> v_index (onscroll v b) = (v_index v - 1)%Z) /\
  (b = false -> (v_index v = 0)%Z -> v_index (onscroll v b) = v_index v).
Proof. exact (@view_step T NT LT v b). Qed.
Print Assumptions C60_step.

(** k events in one direction *)
Theorem C60_many {T} {NT : Num T} {LT : NumLaws T} (v : viewer T) k : vreach v -> v_frozen v = false ->
  v_index (scrolls v (repeat true k)) = Z.min (num_slices v - 1) (v_index v + Z.of_nat k) /\
  v_index (scrolls v (repeat false k)) = Z.max 0 (v_index v - Z.of_nat k).
Proof. exact (@view_ups T NT LT v k). Qed.
Print Assumptions C60_many.

Theorem C60_frozen {T} {NT : Num T} (v : viewer T) l : v_frozen v = true -> scrolls v l = v.
Proof. exact (@scrolls_frozen T NT l v). Qed.
Print Assumptions C60_frozen.

(** a scroll event changes the index, the image and the points only *)
Theorem C60_frame {T} {NT : Num T} (v : viewer T) b : let w := onscroll v b in
  v_axis w = v_axis v /\ v_shape w = v_shape v /\ v_data w = v_data v /\ v_slices w = v_slices v /\ v_coords w = v_coords v /\
  v_tol w = v_tol v /\ v_frozen w = v_frozen v.
Proof. exact (@onscroll_frame T NT v b). Qed.
Print Assumptions C60_frame.

(** a viewer of two slices, showing the second *)
Example C60_ex : exists v : viewer xr, vreach v /\ v_frozen v = false /\ num_slices v = 2%Z /\ v_index v = 1%Z /\ v_image v = [XFin 8].
Proof.
  destruct view_ex as (p & p' & v & Hp & Hr & Hv & Hi & Hn & Hf & _ & _ & _ & _ & Him). exists v.
  split; [exact (@vr_new xr _ _ _ p _ _ _ _ p' v Hp Hr Hv)|auto].
Qed.
Example C60_ex_walk : clamp_moves 3 1 [true; true; true; false; false; true] = 1%Z.
Proof. reflexivity. Qed.

(** C61.  The points shown are those of the slices visited since the last slice without points. *)
Theorem C61_shown {T} {NT : Num T} {LT : NumLaws T} ax axis (p : gprop T) masked index frozen co p' (v : viewer T) l evs :
  preach p -> reachable (p_params p) ->
  new_viewer ax axis (EIs p) masked index frozen co = (p', Ok v) -> v_coords v = Some l ->
  (v_frozen v = false -> since_empty (points_at v) (visited (num_slices v) (v_index v) evs) (v_shown (scrolls v evs))) /\
  (v_frozen v = true -> v_shown (scrolls v evs) = points_at v (v_index v)).
Proof. exact (@view_points T NT LT ax axis p masked index frozen co p' v l evs). Qed.
Print Assumptions C61_shown.

Theorem C61_current {T} {NT : Num T} {LT : NumLaws T} (v : viewer T) q : vreach v ->
  In q (points_at v (v_index v)) -> In q (v_shown v).
Proof. exact (@current_shown T NT LT v q). Qed.
Print Assumptions C61_current.

(** which points belong to a slice: those closer than the tolerance; x and y are the other two coordinates *)
Theorem C61_points {T} {NT : Num T} {LT : NumLaws T} (v : viewer T) i q l : vreach v -> v_coords v = Some l ->
  (In q (points_at v i) <-> exists c, In c l /\
     xlt (val (n_abs (n_sub (nth (Z.to_nat i) (v_slices v) n_nan) (nth (v_axis v) c n_nan)))) (val (v_tol v)) /\
     ((v_axis v = 0 /\ q = (nth 2 c n_nan, nth 1 c n_nan)) \/ (v_axis v = 1 /\ q = (nth 2 c n_nan, nth 0 c n_nan)) \/
      (v_axis v = 2 /\ q = (nth 1 c n_nan, nth 0 c n_nan)))).
Proof. exact (@points_spec T NT LT v i q l). Qed.
Print Assumptions C61_points.

(** not only those of the current slice *)
Theorem C61_current_only_refuted :
  ~ (forall (v : viewer xr) q, vreach v -> In q (v_shown v) -> In q (points_at v (v_index v))).
Proof. exact current_only_refuted. Qed.
Print Assumptions C61_current_only_refuted.

Example C61_ex : exists (p : gprop xr) p' (v : viewer xr) co l, preach p /\ reachable (p_params p) /\
  new_viewer (EIs tt) (PInt 1) (EIs p) (PBool false) None None co = (p', Ok v) /\ v_coords v = Some l /\ List.length l = 2 /\
  points_at v 0 = [(XFin 1, XFin 0)] /\ points_at v 1 = [(XFin 3, XFin 0)].
Proof.
  destruct view_ex as (p & p' & v & Hp & Hr & Hv & _ & _ & _ & Hc & P0 & P1 & _). exists p, p', v. do 2 eexists. eauto 10.
Qed.

(** C67.  Making a viewer: the accepted arguments and the viewer made. *)
Theorem C67_constructor {T} {NT : Num T} {LT : NumLaws T} ax axis (p : gprop T) masked index frozen co p' v : preach p ->
  new_viewer ax axis (EIs p) masked index frozen co = (p', Ok v) <->
  ax = EIs tt /\ plain_index 3 axis /\
  let a := Z.to_nat (zof axis) in let n := Z.of_nat (List.length (vector_at (p_params p) a)) in
  exists b fr, masked = PBool b /\ (forall i, index = Some i -> plain_index n i) /\ (frozen = None /\ fr = false \/ frozen = Some (PBool fr)) /\
    co_ok co /\ (2 <= n)%Z /\ p' = Some (fst (get_data p (PBool b))) /\
    v = with_frozen (first_view (fst (get_data p (PBool b))) a (match index with Some i => zof i | None => n / 2 end)%Z (co_val co)) fr.
Proof. exact (@new_viewer_iff T NT LT ax axis p masked index frozen co p' v). Qed.
Print Assumptions C67_constructor.

(** looking at a property with masked = True destroys its masked values for ever *)
Theorem C67_viewing_pure_refuted {T} {NT : Num T} {LT : NumLaws T} ax axis (p : gprop T) index frozen co p' r l i :
  preach p -> new_viewer ax axis (EIs p) (PBool true) index frozen co = (Some p', r) ->
  i < List.length (p_data p) -> marked (p_mask p) i = true -> nan_at (do_pops p' l) i.
Proof. exact (@viewing_destroys T NT LT ax axis p index frozen co p' r l i). Qed.
Print Assumptions C67_viewing_pure_refuted.

(** a property whose grid has one slice along the axis cannot be viewed along it *)
Theorem C67_one_slice_refuted {T} {NT : Num T} {LT : NumLaws T} ax axis (p : gprop T) masked index frozen co p' v :
  preach p -> index_ok 3 axis ->
  List.length (vector_at (p_params p) (Z.to_nat (zof axis))) = 1 -> new_viewer ax axis (EIs p) masked index frozen co <> (p', Ok v).
Proof. exact (@one_slice T NT LT ax axis p masked index frozen co p' v). Qed.
Print Assumptions C67_one_slice_refuted.

(** the two-point property can be viewed along x only, and its masked value is lost *)
Example C67_ex (x y : xr) : exists p : gprop xr, preach p /\ marked (p_mask p) 0 = true /\
  List.length (p_data p) = 2 /\
  (exists v, new_viewer (EIs tt) (PInt 1) (EIs p) (PBool true) None None CoNone = (Some (fst (get_data p (PBool true))), Ok v)) /\
  List.length (vector_at (p_params p) 0) = 1.
Proof. exact (view_masked_ex x y). Qed.
