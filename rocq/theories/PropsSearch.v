(** Properties C82 and C83: gradients as sines of tangents, and the search for disks that explain measured gradients. *)
From Coq Require Import ZArith Reals List.
From Verif Require Import Num NumP Py SpecNum XLibm FS GridParams SpecGrid GridProp SpecProp Geometry SpecGeom SpecError Build SpecBuild Shallot BuildDP BuildEP BuildExP AddLaws ShallotOps SpecOps WholeExP SpecSearch TangentP SearchP SearchGP.
Import ListNotations.
Local Open Scope R_scope.

(** ** C82: the gradient of a disk *)
(** through every point of the star's path except the centre goes a ring of the disk, with a tangent *)
Theorem C82_tangent_exists i t dx dy p : 0 < cos (degrees i) -> p <> dx \/ dy <> 0 -> exists vx vy, tangent dx dy i t p vx vy.
Proof. exact (fun Hc Q => @tangent_exists i t dx dy p Hc Q). Qed.
Print Assumptions C82_tangent_exists.
(** the gradient is the sine of its angle, unless it is vertical *)
Theorem C82_gradient_is_sine dx dy fx fy r i t p g : casts_eclipse dx dy fx fy r i t -> (dy = 0 -> dx = 0) ->
  gradient_at Libm_xr (XFin p) (XFin dx) (XFin dy) (shear_at (XFin dx) (XFin dy)) (XFin fx) (XFin fy) = XFin g <-> sine dx dy i t p g /\ g < 1.
Proof. exact (fun C O => @cast_value dx dy fx fy r i t C O p g). Qed.
Print Assumptions C82_gradient_is_sine.
(** the gradients that add_gradients stores for a grid *)
Theorem C82_grid_gradients (E : env xr) s s' t l e tr u d v D : e_libm E = Libm_xr -> sreach E s -> disk_grid s -> arr_wf t -> arr_wf l -> o_wf e -> o_wf tr ->
  s_limb s = Some u -> s_ecl s = Some d -> s_vel s = Some v -> small d -> numberlike d -> value d = XFin D -> D <> 0 -> add_gradients E t l e tr s = (s', Ok tt) ->
  exists ts new, t = farr ts /\ s_grads s' = Some (dflt [] (s_grads s) ++ new) /\ List.length new = List.length ts /\
  forall n time, nth_error ts n = Some (XFin time) -> exists g, nth_error new n = Some g /\
    forall y x k dx dy r i a, let at_ c := cell (List.length (g_dx (s_params s))) (List.length (g_rfa (s_params s))) (p_data (the_cube c s)) y x k in
      nth_error (g_dy (s_params s)) y = Some (XFin dy) -> nth_error (g_dx (s_params s)) x = Some (XFin dx) -> (k < List.length (g_rfa (s_params s)))%nat ->
      at_ WRadius = Some (XFin r) -> at_ WInclination = Some (XFin i) -> at_ WTilt = Some (XFin a) ->
      exists gv, nth_error (p_data (gg_prop g)) (place s y x k) = Some gv /\
        ((exists q, sine dx dy i a (- time / D) q /\ q < 1 /\ gv = XFin q) \/ gv = XNaN /\ forall q, sine dx dy i a (- time / D) q -> q = 1).
Proof. exact (@grid_gradients E s s' t l e tr u d v D). Qed.
Print Assumptions C82_grid_gradients.
Example C82_ex : exists fx fy r i t g, casts_eclipse (-1) (-1) fx fy r i t /\ sine (-1) (-1) i t (- / 2) g /\ 0 < g < 1.
Proof. exact sine_example. Qed.

(** ** C83: the search *)
(** every grid the constructor builds of axes reaching at least 1 can be searched *)
Theorem C83_built (E : env xr) nf n mnx mxx nx mny mxy ny mxr nr g x0 x1 y0 y1 r1 ll keep inter og l s :
  e_libm E = Libm_xr -> brackets (e_search E) -> num_index nf = Ok n -> (2 <= n)%nat ->
  Forall small [mnx; mxx; nx; mny; mxy; ny; mxr; nr] ->
  value mnx = XFin x0 -> value mxx = XFin x1 -> value mny = XFin y0 -> value mxy = XFin y1 -> value mxr = XFin r1 ->
  new_params mnx mxx nx mny mxy ny mxr nr = Ok g -> (2 <= zof nx)%Z -> (2 <= zof ny)%Z -> (2 * zof nx <= 2 ^ 53)%Z -> (2 * zof ny <= 2 ^ 53)%Z ->
  1 <= x1 -> 1 <= y1 -> 1 < r1 -> new_shallot E (EIs g) nf ll keep inter = (og, (l, Ok s)) -> searchable E s.
Proof.
  exact (fun HE HS Hnf Hn Sml V1 V2 V3 V4 V5 Hg Nx Ny Bx By =>
    @built_searchable E HE HS nf n Hnf Hn mnx mxx nx mny mxy ny mxr nr g x0 x1 y0 y1 r1 Sml V1 V2 V3 V4 V5 Hg Nx Ny Bx By ll keep inter og l s).
Qed.
Print Assumptions C83_built.
(** setting the eclipse, adding the gradients, masking by the Hill radius, fitting and extracting all succeed; what
    is returned are disks that cast the eclipse and explain every gradient, each once, in the order of the misfit;
    asked for fewer than there are, it returns the best; nothing else is ever returned *)
Theorem C83_search (E : env xr) s (a v u h : pyval xr) d vel limb hill os w :
  searchable E s -> settings a v u h d vel limb hill -> Forall (measurable limb vel) os -> (w = true -> Forall (fun o => 0 < o_err o) os) ->
  exists s1 s2 s3 s4 all, searched E a v u h os w s s1 s2 s3 s4 /\
    NoDup all /\ (forall q, In q all <-> exists dx dy r i t chi, found s w d limb vel hill os q dx dy r i t chi) /\
    (forall y x k, (y < List.length (g_dy (s_params s)))%nat -> (x < List.length (g_dx (s_params s)))%nat -> (k < List.length (g_rfa (s_params s)))%nat ->
       (~ masked_at s4 (place s y x k) <-> In (y, x, k) all)) /\
    forall n k, asks n (List.length all) k -> exists s5 qs l, extract_solutions n s4 = (s5, Ok l) /\ List.length l = k /\ NoDup qs /\
      Forall2 (solves s w d limb vel hill os) qs l /\
      (forall i j x y, (i < j)%nat -> nth_error l i = Some x -> nth_error l j = Some y -> xle (fst x) (fst y)) /\
      (forall z q dx dy r i t chi, In z l -> found s w d limb vel hill os q dx dy r i t chi -> ~ In q qs -> xle (fst z) (XFin chi)).
Proof. exact (@search E s a v u h d vel limb hill os w). Qed.
Print Assumptions C83_search.
(** a disk whose tangent is vertical when a gradient was measured would explain any slope, but is never found *)
Theorem C83_vertical_refuted : ~ (forall (E : env xr) a v u h D V U hill os w s s1 s2 s3 s4, searchable E s -> settings a v u h D V U hill -> Forall (measurable U V) os -> searched E a v u h os w s s1 s2 s3 s4 ->
  forall y x k dx dy r i t, let at_ c := cell (List.length (g_dx (s_params s))) (List.length (g_rfa (s_params s))) (p_data (the_cube c s)) y x k in
    nth_error (g_dy (s_params s)) y = Some (XFin dy) -> nth_error (g_dx (s_params s)) x = Some (XFin dx) -> (k < List.length (g_rfa (s_params s)))%nat ->
    at_ WRadius = Some (XFin r) -> at_ WInclination = Some (XFin i) -> at_ WTilt = Some (XFin t) -> r <= hill ->
    Forall (fun o => exists g, sine dx dy i t (- o_time o / D) g /\ required U V o <= g) os -> ~ masked_at s4 (place s y x k)).
Proof. exact vertical_refuted. Qed.
Print Assumptions C83_vertical_refuted.
(** one gradient, explained by the disk at the corner of the grid load starts from *)
Example C83_ex : exists og l s o hill r i t chi, dummy env_xr = (og, (l, Ok s)) /\ searchable env_xr s /\
  settings (PInt 1 : pyval xr) (PInt 1) (PInt 0) (PFloat (XFin hill)) 1 1 0 hill /\ Forall (measurable 0 1) [o] /\ 0 < o_slope o /\ 0 < o_err o /\
  found s true 1 0 1 hill [o] (0, 0, 0)%nat (-1) (-1) r i t chi.
Proof. exact search_example. Qed.
