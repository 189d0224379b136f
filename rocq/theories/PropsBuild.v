(** Building the grid: the scale-factor search, the interpolation, the degenerate points and the
    mirrored quadrants. *)
From Coq Require Import ZArith List Bool String Reals Lra Lia.
From Verif Require Import Num NumP Py SpecNum Validate XLibm FS GridParams SpecGrid GridProp SpecProp Names Geometry Build SpecBuild InterpP Shallot
  BuildGP BuildCP StretchP BuildXP BuildDP BuildEP BuildFP BuildExP BuildQP GeomP BuildHP.
Import ListNotations.
Local Open Scope list_scope.

(** C37.  Filling the quadrants: the value at (i, j) is that of the built quadrant at the distances
    from the middle, for the tilt replaced by 180 - value when exactly one of i < ny and j < nx holds. *)
Theorem C37_fill {T} {NT : Num T} {LT : NumLaws T} (g : gparams T) (p : gprop T) t ny nx nr :
  p_shape p = [ny; nx; nr] -> List.length (p_data p) = ny * nx * nr -> 1 <= ny -> 1 <= nx -> shape3 g = [2 * ny - 1; 2 * nx - 1; nr] ->
  exists q, fill_quadrants g p t = Ok q /\ p_shape q = [2 * ny - 1; 2 * nx - 1; nr] /\
    p_name q = p_name p /\ p_unit q = p_unit p /\ p_mask q = None /\ List.length (p_data q) = (2 * ny - 1) * (2 * nx - 1) * nr /\
    forall i j r v, i < 2 * ny - 1 -> j < 2 * nx - 1 -> r < nr ->
      cell nx nr (p_data p) (from_middle ny i) (from_middle nx j) r = Some v ->
      cell (2 * nx - 1) nr (p_data q) i j r =
      Some (if t && xorb (Nat.ltb i ny) (Nat.ltb j nx) then n_sub (n_ofZ 180) v else v).
Proof. exact (@fill_cells T NT LT g p t ny nx nr). Qed.
Print Assumptions C37_fill.
Theorem C37_fill_mismatch {T} {NT : Num T} {LT : NumLaws T} (g : gparams T) (p : gprop T) t ny nx nr : p_shape p = [ny; nx; nr] ->
  shape3 g <> [2 * ny - 1; 2 * nx - 1; nr] -> fill_quadrants g p t = Err AttributeError.
Proof. exact (@fill_mismatch T NT g p t ny nx nr). Qed.
Print Assumptions C37_fill_mismatch.
(** the constructor extends the parameters it was given and mirrors each cube it has built *)
Theorem C37_constructor {T} {NT : Num T} {LT : NumLaws T} (E : env T) (g : gparams T) nf ll keep inter og l s : reachable g -> g_ext g = true ->
  new_shallot E (EIs g) nf ll keep inter = (og, (l, Ok s)) ->
  let ny := List.length (g_dy g) in let nx := List.length (g_dx g) in let nr := List.length (g_rfa g) in
  extend_grid g = (s_params s, Ok tt) /\
  forall w, exists data, quadrant E g nf w data /\
    forall i j r v, i < 2 * ny - 1 -> j < 2 * nx - 1 -> r < nr ->
      cell nx nr data (from_middle ny i) (from_middle nx j) r = Some v ->
      cell (2 * nx - 1) nr (p_data (cube_of w s)) i j r =
      Some (match w with WTilt => if xorb (Nat.ltb i ny) (Nat.ltb j nx) then n_sub (n_ofZ 180) v else v | _ => v end).
Proof. exact (@constructor_reflects T NT LT E g nf ll keep inter og l s). Qed.
Print Assumptions C37_constructor.
(** a grid starting at 0, 0 is built and mirrored in binary64: 3 rows of 5 points *)
Example C37_fill_ex : match built_f64 with Ok s => p_shape (s_tilt s) = [3; 5; 5]%nat /\ g_ext (s_params s) = false | Err _ => False end.
Proof. vm_compute. auto. Qed.

(** C40.  Once the number 1 + k of rounds exceeds 100 times the maximum, more fuel makes no
    difference: the loops have ended. *)
Theorem C40_terminates {T} {NT : Num T} (E E' : env T) nf mx max_rf dy s c fys drs k :
  e_libm E' = e_libm E -> 1 <= k -> k <= e_fuel E -> k <= e_fuel E' -> n_gt (n_ofZ (1 + Z.of_nat k)) (n_mul (n_ofZ 100) mx) = true ->
  extend_horizontally E' nf mx max_rf dy s c fys drs = extend_horizontally E nf mx max_rf dy s c fys drs /\
  extend_vertically E' nf mx max_rf dy s c fys drs = extend_vertically E nf mx max_rf dy s c fys drs /\
  extend_horizontally E nf mx max_rf dy s c fys drs <> Err OutOfFuel /\ extend_vertically E nf mx max_rf dy s c fys drs <> Err OutOfFuel.
Proof. exact (@fuel_irrelevant T NT E E' nf mx max_rf dy s c fys drs k). Qed.
Print Assumptions C40_terminates.
Theorem C40_rounds (E : env xr) nf M max_rf dy s c fys drs : (100 * M <= INR (e_fuel E))%R -> (1 <= e_fuel E) ->
  extend_horizontally E nf (XFin M) max_rf dy s c fys drs <> Err OutOfFuel /\ extend_vertically E nf (XFin M) max_rf dy s c fys drs <> Err OutOfFuel.
Proof. exact (@rounds_xr E nf M max_rf dy s c fys drs). Qed.
Print Assumptions C40_rounds.
(** on return the outermost radius is not below max_rf times the least one *)
Theorem C40_reaches {T} {NT : Num T} (E : env T) nf mx max_rf dy s c fys drs fys' drs' :
  (extend_horizontally E nf mx max_rf dy s c fys drs = Ok (fys', drs') ->
   exists r m, nth_error drs' 0 = Some r /\ nan_min drs' = Ok m /\ n_lt (n_div r m) max_rf = false) /\
  (extend_vertically E nf mx max_rf dy s c fys drs = Ok (fys', drs') ->
   exists r m, nth_error drs' (List.length drs' - 1) = Some r /\ nan_min drs' = Ok m /\ n_lt (n_div r m) max_rf = false).
Proof. exact (conj (@horizontal_reaches T NT E nf mx max_rf dy s c fys drs fys' drs') (@vertical_reaches T NT E nf mx max_rf dy s c fys drs fys' drs')). Qed.
Print Assumptions C40_reaches.
(** a maximum below 0.01 *)
Theorem C40_small {T} {NT : Num T} {LT : NumLaws T} (E : env T) nf n mx max_rf dy s c : num_index nf = Ok (S n) -> 1 <= e_fuel E ->
  number (PNpFloat s) false m_inf p_inf false = Ok (PNpFloat s) -> number (PNpFloat c) false (PInt 0) p_inf false = Ok (PNpFloat c) ->
  n_gt (n_ofZ 1) (n_mul (n_ofZ 100) mx) = true ->
  extend_horizontally E nf mx max_rf dy s c [] [] = Err AttributeError /\
  forall fys drs, extend_vertically E nf mx max_rf dy s c fys drs = Err AttributeError.
Proof. exact (@loop_small_error T NT LT E nf n mx max_rf dy s c). Qed.
Print Assumptions C40_small.
Theorem C40_small_grid (E : env xr) (g : gparams xr) nf ll keep inter og l s M y x dy dx : reachable g ->
  amax (g_dx g) = XFin M \/ amax (g_dy g) = XFin M -> (M < 1 / 100)%R ->
  nth_error (g_dy g) y = Some (XFin dy) -> nth_error (g_dx g) x = Some (XFin dx) -> (dy <> 0 \/ dx = 0)%R ->
  new_shallot E (EIs g) nf ll keep inter <> (og, (l, Ok s)).
Proof. exact (@small_xr E g nf ll keep inter og l s M y x dy dx). Qed.
Print Assumptions C40_small_grid.
(** grids with enough room are built *)
Theorem C40_succeeds (E : env xr) nf n (mnx mxx nx mny mxy ny mxr nr : pyval xr) g x0 x1 y0 y1 r1 ll inter :
  e_libm E = Libm_xr -> num_index nf = Ok n -> 2 <= n ->
  Forall small [mnx; mxx; nx; mny; mxy; ny; mxr; nr] ->
  value mnx = XFin x0 -> value mxx = XFin x1 -> value mny = XFin y0 -> value mxy = XFin y1 -> value mxr = XFin r1 ->
  new_params mnx mxx nx mny mxy ny mxr nr = Ok g ->
  (2 <= zof nx)%Z -> (2 <= zof ny)%Z -> (2 <= zof nr)%Z -> (2 * zof nx <= 2 ^ 53)%Z -> (2 * zof ny <= 2 ^ 53)%Z ->
  number ll true (PInt 10) (PInt 50) false = Ok ll -> number nf true (PInt 1) p_inf false = Ok nf ->
  (forall i j, i < List.length (g_dy g) -> j < List.length (g_dx g) ->
     let dy := spaced y0 y1 (Z.to_nat (zof ny)) i in let dx := spaced x0 x1 (Z.to_nat (zof nx)) j in
     (dy <> 0 \/ dx = 0 -> 1 <= x1 /\ 1 <= y1 /\ r1 * (Rabs (dx / dy) + 1) <= (100 * x1 - 1) * x1 /\ r1 * (Rabs (dx / dy) + 1) <= (100 * y1 - 1) * y1)%R) ->
  (100 * x1 <= INR (e_fuel E))%R -> (100 * y1 <= INR (e_fuel E))%R ->
  exists og l s, new_shallot E (EIs g) nf ll (PBool false) (PBool inter) = (og, (l, Ok s)).
Proof. exact (@grid_succeeds E nf n mnx mxx nx mny mxy ny mxr nr g x0 x1 y0 y1 r1 ll inter). Qed.
Print Assumptions C40_succeeds.
(** such grids exist, built in exact arithmetic and in binary64 *)
Example C40_ex : (exists og l s, dummy env_xr = (og, (l, Ok s))) /\ is_ok built_f64 = true.
Proof. split; [apply dummy_builds; [reflexivity|cbn; lia]|exact built_f64_ok]. Qed.
Example C40_small_ex : extend_horizontally env_f64 (PInt 4) (n_div (n_ofZ 1) (n_ofZ 128)) (n_ofZ 2) n_zero n_zero n_one [] [] = Err AttributeError.
Proof. vm_compute. reflexivity. Qed.

(** C41.  Every entry of the samples belongs to the disk of its scale factor, and the entry at the
    middle of the rf axis is the disk of the sample of least radius. *)
Theorem C41_middle {T} {NT : Num T} {LT : NumLaws T} (E : env T) (g : gparams T) nf dy s c col : g_rf g <> [] -> grid_point E g nf dy s c = Ok col ->
  let mid := List.length (g_rf g) - 1 in
  List.length (c_fy col) = 2 * List.length (g_rf g) - 1 /\
  Forall2 (from_disk E dy s c) (c_fys col) (c_drs col) /\
  exists k fy r, nanargmin (c_drs col) = Ok k /\ nth_error (c_fys col) k = Some fy /\ nth_error (c_drs col) k = Some r /\
    nth_error (c_fy col) mid = Some fy /\ nth_error (c_fx col) mid = Some (determine_fx fy dy) /\
    nth_error (c_dr col) mid = Some (fst (fst (disk_parameters (e_libm E) (determine_fx fy dy) fy s c))) /\
    (val r <> XNaN -> forall r', In r' (c_drs col) -> val r' <> XNaN -> xle (val r) (val r')).
Proof. exact (@point_middle T NT LT E g nf dy s c col). Qed.
Print Assumptions C41_middle.
Theorem C41_least (E : env xr) nf n (g : gparams xr) dy s c Mx My col : e_libm E = Libm_xr -> num_index nf = Ok n -> 2 <= n -> (0 < c)%R -> g_rf g <> [] -> (dy = 0 -> s = 0)%R ->
  amax (g_dx g) = XFin Mx -> amax (g_dy g) = XFin My -> (1 <= Mx)%R -> (1 <= My)%R ->
  grid_point E g nf (XFin dy) (XFin s) (XFin c) = Ok col ->
  exists r, nth_error (c_dr col) (List.length (g_rf g) - 1) = Some (XFin r) /\ In (XFin r) (c_drs col) /\ (0 < r)%R /\
    forall r', In r' (c_drs col) -> exists q, r' = XFin q /\ (r <= q)%R.
Proof. exact (fun HE Hnf Hn Hc => @middle_radius E HE nf n Hnf Hn dy s c Hc g Mx My col). Qed.
Print Assumptions C41_least.
(** to either side the scale factor follows the straight lines between neighbouring samples *)
Theorem C41_lines (E : env xr) (rf ys ds : list R) dy fx fy : brackets (e_search E) -> rf <> [] -> List.length ys = List.length ds -> Forall (fun d => 0 < d)%R ds ->
  interpolate E (map XFin rf) (XFin dy) (map XFin ys) (map XFin ds) = Ok (fx, fy) ->
  exists k m, nth_error ds k = Some m /\ (forall d, In d ds -> m <= d)%R /\ (forall j d, (j < k)%nat -> nth_error ds j = Some d -> m < d)%R /\
    nth_error fy (List.length rf - 1) = option_map XFin (nth_error ys k) /\
    forall j q, 1 <= j -> nth_error rf j = Some q ->
      (exists v, nth_error fy (List.length rf - 1 + j) = Some (XFin v) /\ broken_line (map (fun d => d / m)%R (skipn k ds)) (skipn k ys) q v) /\
      (exists v, nth_error fy (List.length rf - 1 - j) = Some (XFin v) /\ broken_line (map (fun d => d / m)%R (rev (firstn (S k) ds))) (rev (firstn (S k) ys)) q v).
Proof. exact (fun H => @interpolate_lines E H rf ys ds dy fx fy). Qed.
Print Assumptions C41_lines.
Theorem C41_range xs ys q v : List.length ys = List.length xs -> broken_line xs ys q v -> exists f h, In f ys /\ In h ys /\ (f <= v <= h)%R.
Proof. exact (@broken_line_between xs ys q v). Qed.
Print Assumptions C41_range.
(** numpy's search meets the condition above *)
Theorem C41_search : brackets (np_search : xr -> _) /\ brackets (np_search : f64 -> _).
Proof. exact (conj (np_search_brackets (T := xr)) (np_search_brackets (T := f64))). Qed.
Print Assumptions C41_search.
(** the diagnostic value at the middle, in binary64 *)
Theorem C41_diagnostic (E : env f64) (mnx mxx nx mny mxy ny mxr nr : pyval f64) g rm nf ll keep inter og l s :
  Forall small [mnx; mxx; nx; mny; mxy; ny; mxr; nr] -> new_params mnx mxx nx mny mxy ny mxr nr = Ok g -> value mxr = XFin rm ->
  new_shallot E (EIs g) nf ll keep inter = (og, (l, Ok s)) ->
  exists m, s_dmap s = Some m /\
    let p := s_params s in let mid := List.length (g_rf p) - 1 in
    forall y x d r, y < List.length (g_dy p) -> x < List.length (g_dx p) ->
      cell (List.length (g_dx p)) (List.length (g_rfa p)) (p_data (s_dr s)) y x mid = Some d -> f64_val d = XFin r -> r <> 0%R ->
      exists v, cell (List.length (g_dx p)) (List.length (g_rfa p)) (p_data m) y x mid = Some v /\ f64_val v = XFin 0.
Proof. exact (@diagnostic_zero E mnx mxx nx mny mxy ny mxr nr g rm nf ll keep inter og l s). Qed.
Print Assumptions C41_diagnostic.
(** three samples 3, 1, 2 with radii 4, 2, 3 and rf = 1, 1.5 : the middle is 1; 2 on the left, 2 on the right *)
Example C41_ex : match interpolate env_f64 [n_ofZ 1; n_div (n_ofZ 3) (n_ofZ 2)] n_zero [n_ofZ 3; n_ofZ 1; n_ofZ 2] [n_ofZ 4; n_ofZ 2; n_ofZ 3] with
  | Ok (_, [a; b; c]) => n_eq a (n_ofZ 2) = true /\ n_eq b (n_ofZ 1) = true /\ n_eq c (n_ofZ 2) = true | _ => False end.
Proof. vm_compute. auto. Qed.
Example C41_diagnostic_ex : match built_f64 with
  | Ok s => match s_dmap s with Some m => option_map (fun v => n_eq v n_zero) (cell 5 5 (p_data m) 0 0 2) = Some true | None => False end | Err _ => False end.
Proof. vm_compute. reflexivity. Qed.

(** C42.  The shear. *)
Theorem C42_shear dx dy : shear_at (XFin dx) (XFin dy) = if Req_EM_T dy 0 then (if Req_EM_T dx 0 then XFin 0 else XNaN) else XFin (- dx / dy).
Proof. exact (shear_xr dx dy). Qed.
Print Assumptions C42_shear.
Theorem C42_shear_binary64 (dx dy : f64) a b : f64_val dx = XFin a -> f64_val dy = XFin b ->
  (f64_val (shear_at dx dy) = XNaN <-> b = 0%R /\ a <> 0%R) /\
  (a = 0%R -> b = 0%R -> f64_val (shear_at dx dy) = XFin 0) /\ (b <> 0%R -> shear_at dx dy = n_div (n_neg dx) dy).
Proof. exact (@shear_f64 dx dy a b). Qed.
Print Assumptions C42_shear_binary64.
(** each point of each cube of the quadrant: NaN if the shear is NaN, else the column of the point *)
Theorem C42_columns {T} {NT : Num T} {LT : NumLaws T} (E : env T) (g : gparams T) nf ll keep inter og l s : reachable g ->
  new_shallot E (EIs g) nf ll keep inter = (og, (l, Ok s)) ->
  (g_ext g = false -> s_params s = g) /\
  forall w, exists data, (g_ext g = false -> data = p_data (cube_of w s)) /\
    forall y x dy dx, nth_error (g_dy g) y = Some dy -> nth_error (g_dx g) x = Some dx ->
      let column := column_at (List.length (g_dx g)) (List.length (g_rfa g)) data y x in
      if n_isnan (shear_at dx dy) then column = repeat n_nan (List.length (g_rfa g))
      else exists col, grid_point E g nf dy (shear_at dx dy) (circular_radius (e_libm E) dy) = Ok col /\
        column = match w with WRadius => c_dr col | WInclination => c_inc col | WTilt => c_tilt col | WFx => c_fx col | WFy => c_fy col end.
Proof. exact (@constructor_columns T NT LT E g nf ll keep inter og l s). Qed.
Print Assumptions C42_columns.
(** exactly the points with dy = 0 and dx <> 0 have no disk: elsewhere the middle radius is positive *)
Theorem C42_degenerate (E : env xr) (g : gparams xr) nf ll keep inter og l s : e_libm E = Libm_xr -> reachable g -> g_ext g = false ->
  new_shallot E (EIs g) nf ll keep inter = (og, (l, Ok s)) ->
  forall n Mx My y x dy dx, num_index nf = Ok n -> 2 <= n -> amax (g_dx g) = XFin Mx -> amax (g_dy g) = XFin My -> (1 <= Mx)%R -> (1 <= My)%R ->
  nth_error (g_dy g) y = Some (XFin dy) -> nth_error (g_dx g) x = Some (XFin dx) ->
  let v := cell (List.length (g_dx g)) (List.length (g_rfa g)) (p_data (s_dr s)) y x (List.length (g_rf g) - 1) in
  (dy = 0%R /\ dx <> 0%R /\ v = Some XNaN) \/ (~ (dy = 0%R /\ dx <> 0%R) /\ exists r, v = Some (XFin r) /\ (0 < r)%R).
Proof. exact (@degenerate_xr E g nf ll keep inter og l s). Qed.
Print Assumptions C42_degenerate.
(** the middle row dy = 0 of the grid above: a number at the origin, NaN beside it *)
Example C42_ex : match built_f64 with
  | Ok s => map (fun j => option_map n_isnan (cell 5 5 (p_data (s_dr s)) 1 j 3)) [0; 1; 2; 3; 4] = [Some true; Some true; Some false; Some true; Some true]
  | Err _ => False end.
Proof. vm_compute. reflexivity. Qed.
