(** Property theorems for what the viewer writes and draws (C68, C69). *)
From Coq Require Import ZArith Reals List Bool String Lia Lra.
From Verif Require Import Num Py SpecNum FS GridParams SpecGrid GridProp SpecProp Viewer SpecViewer ViewerP ViewerDraw ViewerDrawP.
Import ListNotations.
Local Open Scope R_scope.

(** C68.  The title of a slice along rf names its rf and its half; the middle slice is that of the
    first rf and carries neither word. *)
Theorem C68_title_rf {T} {NT : Num T} {LT : NumLaws T} (fmt : T -> string) prefix (v : viewer T) : vreach v -> v_axis v = 2%nat ->
  exists rf, rf <> [] /\ List.length (v_slices v) = (2 * List.length rf - 1)%nat /\
  let m := (List.length rf - 1)%nat in let i := Z.to_nat (v_index v) in
  let base x := (prefix ++ " - $R_f$ = " ++ fmt x)%string in
  ((i < m)%nat -> title fmt prefix v = (base (nth (m - i) rf n_nan) ++ " - horizontal")%string) /\
  (i = m -> title fmt prefix v = base (nth 0 rf n_nan)) /\
  ((m < i)%nat -> title fmt prefix v = (base (nth (i - m) rf n_nan) ++ " - vertical")%string).
Proof. exact (@title_rf T NT LT fmt prefix v). Qed.
Print Assumptions C68_title_rf.

Theorem C68_title_xy {T} {NT : Num T} (fmt : T -> string) prefix (v : viewer T) : (v_axis v < 2)%nat ->
  title fmt prefix v = (prefix ++ " - " ++ (match v_axis v with O => "$y$" | _ => "$x$" end) ++ " = " ++ fmt (nth (Z.to_nat (v_index v)) (v_slices v) n_nan))%string.
Proof. exact (@title_xy T NT fmt prefix v). Qed.
Print Assumptions C68_title_xy.

(** the extent of the image *)
Theorem C68_extent (mnx mxx nx mny mxy ny mxr nr : pyval xr) (g : gparams xr) x0 x1 y0 y1 r1 :
  Forall small [mnx; mxx; nx; mny; mxy; ny; mxr; nr] ->
  value mnx = XFin x0 -> value mxx = XFin x1 -> value mny = XFin y0 -> value mxy = XFin y1 -> value mxr = XFin r1 ->
  new_params mnx mxx nx mny mxy ny mxr nr = Ok g -> (2 <= zof nx)%Z -> (2 <= zof ny)%Z -> (2 <= zof nr)%Z ->
  let w := 2 * (r1 - 1) in
  extent g 0 = Ok (XFin 0, XFin w, XFin x0, XFin x1) /\ extent g 1 = Ok (XFin 0, XFin w, XFin y0, XFin y1) /\
  extent g 2 = Ok (XFin x0, XFin x1, XFin y0, XFin y1).
Proof. exact (@extent_xr mnx mxx nx mny mxy ny mxr nr g x0 x1 y0 y1 r1). Qed.
Print Assumptions C68_extent.

(** the number written at the place of a column is the rf of that column *)
Theorem C68_ticks (mnx mxx nx mny mxy ny mxr nr : pyval xr) (g : gparams xr) x0 x1 y0 y1 r1 :
  Forall small [mnx; mxx; nx; mny; mxy; ny; mxr; nr] ->
  value mnx = XFin x0 -> value mxx = XFin x1 -> value mny = XFin y0 -> value mxy = XFin y1 -> value mxr = XFin r1 ->
  new_params mnx mxx nx mny mxy ny mxr nr = Ok g -> (2 <= zof nr)%Z ->
  forall k, let n := Z.to_nat (zof nr) in (k < 2 * n - 1)%nat ->
  exists x, nth_error (g_rfa g) k = Some x /\ tick_label g (XFin (spaced 0 (2 * (r1 - 1)) (2 * n - 1) k)) = Ok x.
Proof. exact (@ticks_xr mnx mxx nx mny mxy ny mxr nr g x0 x1 y0 y1 r1). Qed.
Print Assumptions C68_ticks.

(** a point of the grid is inside its own pixel, in the centre of it only in the middle of the axis *)
Theorem C68_own_pixel lo hi n i : lo < hi -> (2 <= n)%nat -> (i < n)%nat ->
  in_pixel lo hi n i (spaced lo hi n i) /\ (spaced lo hi n i = pixel_centre lo hi n i <-> (2 * i + 1 = n)%nat).
Proof. exact (@own_pixel lo hi n i). Qed.
Print Assumptions C68_own_pixel.

(** plot_slice shows a slice that never changes; plot_cube starts in the middle and scrolls *)
Theorem C68_plot_slice {T} {NT : Num T} {LT : NumLaws T} (p : gprop T) axis index ax masked p' v l : preach p -> reachable (p_params p) ->
  plot_slice p axis index ax masked = (p', Ok v) ->
  scrolls v l = v /\ v_shown v = [] /\ vreach v /\
  exists b, masked = PBool b /\ p' = Some (fst (get_data p (PBool b))) /\
    v_image v = take (Z.to_nat (zof axis)) (p_shape p) (p_data (fst (get_data p (PBool b)))) (Z.to_nat (v_index v)) /\
    (forall i, index = Some i -> v_index v = zof i).
Proof. exact (@plot_slice_frozen T NT LT p axis index ax masked p' v l). Qed.
Print Assumptions C68_plot_slice.

Theorem C68_plot_cube {T} {NT : Num T} {LT : NumLaws T} (p : gprop T) axis co masked p' v : preach p -> reachable (p_params p) ->
  plot_cube p axis co masked = (p', Ok v) -> vreach v /\ v_frozen v = false /\ v_index v = (num_slices v / 2)%Z /\
  exists b, masked = PBool b /\ p' = Some (fst (get_data p (PBool b))).
Proof. exact (@plot_cube_scrolls T NT LT p axis co masked p' v). Qed.
Print Assumptions C68_plot_cube.

Example C68_ex : exists v : viewer xr, vreach v /\ v_axis v = 2%nat /\ title (fun _ => "3.0000"%string) "Disk radius [Rd]" v = "Disk radius [Rd] - $R_f$ = 3.0000 - horizontal"%string.
Proof.
  destruct draw_ex as (p & p' & v & Hp & Hr & Hv & Ha & Hi & Hs & _). exists v.
  split; [exact (@vr_new xr _ _ _ p _ _ _ _ p' v Hp Hr Hv)|]. split; [exact Ha|]. unfold title. rewrite Ha, Hi, Hs. reflexivity.
Qed.
Example C68_ex_grid : exists g : gparams xr, Forall (@small xr) [PInt 0; PInt 2; PInt 3; PInt 0; PInt 3; PInt 2; PInt 3; PInt 2] /\
  new_params (PInt 0) (PInt 2) (PInt 3) (PInt 0) (PInt 3) (PInt 2) (PInt 3) (PInt 2) = Ok g.
Proof. exact draw_grid. Qed.
Example C68_ex_plot : exists (p : gprop xr) p' w, preach p /\ reachable (p_params p) /\
  plot_slice p (PInt 2) (Some (PInt 2)) None (PBool false) = (p', Ok w).
Proof. destruct draw_ex as (p & p' & v & Hp & Hr & _ & _ & _ & _ & _ & _ & _ & w & Hw). exists p, p', w. auto. Qed.

(** C69.  On an axis that shows rf a coordinate is drawn at x = rf, where the axis reads
    1 + |rf - (rf_max - 1)|: the right number only if rf_max = 2 or rf = rf_max / 2. *)
Theorem C69_drawn_at {T} {NT : Num T} {LT : NumLaws T} (v : viewer T) i q : vreach v -> v_axis v <> 2%nat -> In q (points_at v i) ->
  exists l c, v_coords v = Some l /\ In c l /\ fst q = nth 2 c n_nan /\ (v_axis v = 0%nat -> snd q = nth 1 c n_nan) /\ (v_axis v = 1%nat -> snd q = nth 0 c n_nan).
Proof. exact (@drawn_at T NT LT v i q). Qed.
Print Assumptions C69_drawn_at.

Theorem C69_reading (mnx mxx nx mny mxy ny mxr nr : pyval xr) (g : gparams xr) x0 x1 y0 y1 r1 r :
  Forall small [mnx; mxx; nx; mny; mxy; ny; mxr; nr] ->
  value mnx = XFin x0 -> value mxx = XFin x1 -> value mny = XFin y0 -> value mxy = XFin y1 -> value mxr = XFin r1 ->
  new_params mnx mxx nx mny mxy ny mxr nr = Ok g -> (2 <= zof nr)%Z -> 1 <= r <= r1 ->
  (tick_label g (XFin r) = Ok (XFin r) <-> r1 = 2 \/ r = r1 / 2) /\ (~ (0 <= r <= 2 * (r1 - 1)) <-> 2 * (r1 - 1) < r).
Proof. exact (@rf_reading mnx mxx nx mny mxy ny mxr nr g x0 x1 y0 y1 r1 r). Qed.
Print Assumptions C69_reading.

Theorem C69_place_refuted : ~ (forall (mnx mxx nx mny mxy ny mxr nr : pyval xr) g r M,
  Forall small [mnx; mxx; nx; mny; mxy; ny; mxr; nr] -> new_params mnx mxx nx mny mxy ny mxr nr = Ok g ->
  value mxr = XFin M -> (2 <= zof nr)%Z -> 1 <= r <= M -> tick_label g (XFin r) = Ok (XFin r)).
Proof. exact rf_place_refuted. Qed.
Print Assumptions C69_place_refuted.

(** scrolling along rf, a coordinate is shown in both halves *)
Theorem C69_both_halves {T} {NT : Num T} {LT : NumLaws T} (v : viewer T) j : vreach v -> v_axis v = 2%nat -> (0 <= j < num_slices v)%Z ->
  points_at v (num_slices v - 1 - j) = points_at v j.
Proof. exact (@both_halves T NT LT v j). Qed.
Print Assumptions C69_both_halves.

Example C69_ex : exists v : viewer xr, vreach v /\ v_axis v = 2%nat /\ num_slices v = 3%Z /\ points_at v 0 = [(XFin 0, XFin 0)] /\ points_at v 1 = [].
Proof.
  destruct draw_ex as (p & p' & v & Hp & Hr & Hv & Ha & Hi & Hs & _ & P0 & P1 & _). exists v.
  split; [exact (@vr_new xr _ _ _ p _ _ _ _ p' v Hp Hr Hv)|]. split; [exact Ha|]. unfold num_slices. rewrite Hs. auto.
Qed.
Example C69_ex_x : exists v : viewer xr, vreach v /\ v_axis v = 1%nat /\ v_coords v = Some [[XFin 0; XFin 0; XFin 1]; [XFin 0; XFin 2; XFin 3]] /\ points_at v 1 = [(XFin 3, XFin 0)].
Proof.
  destruct view_ex as (p & p' & v & Hp & Hr & Hv & _ & _ & _ & Hc & _ & P1 & _). exists v.
  split; [exact (@vr_new xr _ _ _ p _ _ _ _ p' v Hp Hr Hv)|]. split; [|auto].
  apply new_viewer_iff in Hv; [|exact Hp]. destruct Hv as (_ & _ & b & fr & _ & _ & _ & _ & _ & _ & ->). reflexivity.
Qed.
