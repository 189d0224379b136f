(** C100: what is drawn of a ring system. *)
From Coq Require Import ZArith Reals List Bool String.
From Verif Require Import Num Py XLibm SpecNum Ring RingSystem SpecRing RingMoreP GridProp RingDraw SpecDraw RingDrawP.
Import ListNotations.
Local Open Scope list_scope.

(** C100.  The patches: the planet, then one per ring in order, all at the given shift and in the given colour. *)
Theorem C100_patches {T} {NT : Num T} {LT : NumLaws T} (L : Libm T) (circle : list (T * T)) (h : list (ring T)) (s : rsys T) x y v ps :
  get_patches L circle h s x y v = Ok ps <->
  numberlike x /\ numberlike y /\ exists c, v = PStr c /\
  ps = Disk (num_of x, num_of y) (s_planet s) c ::
       map (fun r => Annulus (patch_vertices L r (num_of x, num_of y) circle) (n_sub n_one (r_tr r)) c) (rings_of h s).
Proof. exact (@get_patches_iff T NT LT L circle h s x y v ps). Qed.
Print Assumptions C100_patches.
(** anything else is a TypeError *)
Theorem C100_patches_fail {T} {NT : Num T} {LT : NumLaws T} (L : Libm T) (circle : list (T * T)) (h : list (ring T)) (s : rsys T) x y v e :
  get_patches L circle h s x y v = Err e <-> e = TypeError /\ ~ (numberlike x /\ numberlike y /\ exists c, v = PStr c).
Proof. exact (@get_patches_fails T NT LT L circle h s x y v e). Qed.
Print Assumptions C100_patches_fail.
(** plot of a system with rings adds the patches to what the axes hold and sets labels and limits *)
Theorem C100_drawn {T} {NT : Num T} {LT : NumLaws T} (L : Libm T) (circle : list (T * T)) cur (h : list (ring T)) (s : rsys T) ax x y c :
  ax <> Some EOther -> numberlike x -> numberlike y -> s_rings s <> [] ->
  exists ps lim, get_patches L circle h s x y (PStr c) = Ok ps /\ plot_limits h s (num_of x) (num_of y) = Ok lim /\
  plot L circle cur h s ax x y (PStr c) =
    (Some (mkAxes (a_patches (match ax with Some (EIs a) => a | _ => cur end) ++ ps) (Some ("$x [R_*]$"%string, "$y [R_*]$"%string)) (Some lim)), Ok tt).
Proof. exact (@plot_drawn T NT LT L circle cur h s ax x y c). Qed.
Print Assumptions C100_drawn.
(** such a plot fails only with a TypeError, and then leaves the axes alone *)
Theorem C100_refused {T} {NT : Num T} {LT : NumLaws T} (L : Libm T) (circle : list (T * T)) cur (h : list (ring T)) (s : rsys T) ax x y v a' e :
  plot L circle cur h s ax x y v = (a', Err e) -> s_rings s <> [] ->
  e = TypeError /\ (ax = Some EOther /\ a' = None \/
    ~ (numberlike x /\ numberlike y /\ exists c, v = PStr c) /\ a' = Some (match ax with Some (EIs a) => a | _ => cur end)).
Proof. exact (@plot_refused T NT LT L circle cur h s ax x y v a' e). Qed.
Print Assumptions C100_refused.
(** a system without rings: the planet is drawn and the labels are set before the IndexError *)
Theorem C100_empty {T} {NT : Num T} {LT : NumLaws T} (L : Libm T) (circle : list (T * T)) cur (h : list (ring T)) (s : rsys T) ax x y c :
  ax <> Some EOther -> numberlike x -> numberlike y -> s_rings s = [] ->
  let a := match ax with Some (EIs a) => a | _ => cur end in
  plot L circle cur h s ax x y (PStr c) =
    (Some (mkAxes (a_patches a ++ [Disk (num_of x, num_of y) (s_planet s) c]) (Some ("$x [R_*]$"%string, "$y [R_*]$"%string)) (a_limits a)), Err IndexError).
Proof. exact (@plot_empty T NT LT L circle cur h s ax x y c). Qed.
Print Assumptions C100_empty.
(** so a failed plot can leave traces *)
Theorem C100_atomic_refuted : ~ (forall (L : Libm xr) circle cur h s ax x y v a' e,
  plot L circle cur h s (Some (EIs ax)) x y v = (Some a', Err e) -> a' = ax).
Proof. exact atomic_refuted. Qed.
Print Assumptions C100_atomic_refuted.
(** the window shows every outline from side to side and down to its bottom, and up to its top if
    the y shift is at most 2 above the x shift *)
Theorem C100_shown (h : list (ring xr)) (s : rsys xr) (xs ys : R) ths col ps a b c d vs op col' p :
  ordered (rings_of h s) -> (forall r, In r (rings_of h s) -> real_ring r) ->
  get_patches Libm_xr (map on_circle ths) h s (PFloat (XFin xs)) (PFloat (XFin ys)) (PStr col) = Ok ps ->
  plot_limits h s (XFin xs) (XFin ys) = Ok (a, b, c, d) ->
  In (Annulus vs op col') ps -> In p vs ->
  shown a b (fst p) /\ xle c (snd p) /\ ((ys <= xs + 2)%R -> xle (snd p) d).
Proof. exact (@outlines_shown h s xs ys ths col ps a b c d vs op col' p). Qed.
Print Assumptions C100_shown.
(** not in general *)
Theorem C100_top_refuted : ~ (forall (h : list (ring xr)) s (xs ys : R) ths col ps a b c d vs op col' p,
  ordered (rings_of h s) -> (forall r, In r (rings_of h s) -> real_ring r) ->
  get_patches Libm_xr (map on_circle ths) h s (PFloat (XFin xs)) (PFloat (XFin ys)) (PStr col) = Ok ps ->
  plot_limits h s (XFin xs) (XFin ys) = Ok (a, b, c, d) ->
  In (Annulus vs op col') ps -> In p vs -> xle (snd p) d).
Proof. exact top_refuted. Qed.
Print Assumptions C100_top_refuted.
(** the planet is shown from side to side exactly if it is at most 2 wider than the last ring *)
Theorem C100_planet (h : list (ring xr)) (s : rsys xr) (xs ys o P : R) l a b c d :
  get_outer_radii h s = l ++ [XFin o] -> plot_limits h s (XFin xs) (XFin ys) = Ok (a, b, c, d) ->
  (shown a b (XFin (xs - P)) /\ shown a b (XFin (xs + P)) <-> (- (o + 2) <= P <= o + 2)%R).
Proof. exact (@planet_shown h s xs ys o P l a b c d). Qed.
Print Assumptions C100_planet.
(** which need not be so *)
Theorem C100_planet_refuted : ~ (forall (h : list (ring xr)) s (xs ys P : R) a b c d,
  ordered (rings_of h s) -> (forall r, In r (rings_of h s) -> real_ring r) -> s_planet s = XFin P ->
  plot_limits h s (XFin xs) (XFin ys) = Ok (a, b, c, d) -> shown a b (XFin (xs + P))).
Proof. exact planet_refuted. Qed.
Print Assumptions C100_planet_refuted.
(** a system meeting the hypotheses *)
Example C100_ex ths : exists ps, get_patches Libm_xr (map on_circle ths) x_heap x_sys (PFloat (XFin 1)) (PFloat (XFin 2)) (PStr "red") = Ok ps /\
  List.length ps = 3%nat /\ nth_error ps 0 = Some (Disk (XFin 1, XFin 2) (XFin 1) "red") /\
  plot_limits x_heap x_sys (XFin 1) (XFin 2) = Ok (XFin (1 - 6 - 2), XFin (1 + 6 + 2), XFin (2 - 6 - 2), XFin (1 + 6 + 2)) /\
  ordered (rings_of x_heap x_sys) /\ forall r, In r (rings_of x_heap x_sys) -> real_ring r.
Proof. exact (draw_ex ths). Qed.
Print Assumptions C100_ex.
