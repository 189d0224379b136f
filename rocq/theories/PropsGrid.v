(** Property theorems for GridParameters.py and GridDiagnostics.py: C20 - C27, C63. *)
From Coq Require Import ZArith Reals List Bool String Lra Lia.
From Flocq Require Import BinarySingleNaN.
From Verif Require Import Num NumP Py Validate SpecNum Ring RingMoreP FS FSP GridParams GridDiag SpecGrid GridParamsP GridParamsXP GridDiagP GridCrashP.
Import ListNotations.

(** C20.  Which arguments are accepted (integers of magnitude at most 2^53). *)
Theorem C20_accepted {T} {NT : Num T} {LT : NumLaws T} (mnx mxx nx mny mxy ny mxr nr : pyval T) :
  Forall small [mnx; mxx; nx; mny; mxy; ny; mxr; nr] ->
  (exists g, new_params mnx mxx nx mny mxy ny mxr nr = Ok g) <->
  axis_ok mnx mxx nx /\ axis_ok mny mxy ny /\ rf_ok mxr nr.
Proof. exact (@new_params_accepted T NT LT mnx mxx nx mny mxy ny mxr nr). Qed.
Print Assumptions C20_accepted.

(** sizes, shapes and last entries *)
Theorem C20_sizes {T} {NT : Num T} {LT : NumLaws T} (mnx mxx nx mny mxy ny mxr nr : pyval T) g :
  Forall small [mnx; mxx; nx; mny; mxy; ny; mxr; nr] ->
  new_params mnx mxx nx mny mxy ny mxr nr = Ok g ->
  Z.of_nat (List.length (g_dx g)) = zof nx /\ Z.of_nat (List.length (g_dy g)) = zof ny /\
  Z.of_nat (List.length (g_rf g)) = zof nr /\ Z.of_nat (List.length (g_rfa g)) = (2 * zof nr - 1)%Z /\
  g_shape g = (List.length (g_dy g), List.length (g_dx g), List.length (g_rfa g)) /\
  ((2 <= zof nx)%Z -> nth_error (g_dx g) (List.length (g_dx g) - 1) = Some (num_of mxx)) /\
  ((2 <= zof ny)%Z -> nth_error (g_dy g) (List.length (g_dy g) - 1) = Some (num_of mxy)) /\
  ((2 <= zof nr)%Z -> nth_error (g_rf g) (List.length (g_rf g) - 1) = Some (num_of mxr)).
Proof. exact (@new_params_sizes T NT LT mnx mxx nx mny mxy ny mxr nr g). Qed.
Print Assumptions C20_sizes.

(** rf_array is rf mirrored about its first entry *)
Theorem C20_rf_array {T} {NT : Num T} {LT : NumLaws T} (mnx mxx nx mny mxy ny mxr nr : pyval T) g j :
  Forall small [mnx; mxx; nx; mny; mxy; ny; mxr; nr] ->
  new_params mnx mxx nx mny mxy ny mxr nr = Ok g -> (Z.of_nat j < zof nr)%Z ->
  nth_error (g_rfa g) (Z.to_nat (zof nr) - 1 + j) = nth_error (g_rf g) j /\
  nth_error (g_rfa g) (Z.to_nat (zof nr) - 1 - j) = nth_error (g_rf g) j.
Proof. exact (@rfa_mirror T NT LT mnx mxx nx mny mxy ny mxr nr g j). Qed.
Print Assumptions C20_rf_array.

(** exact arithmetic: equal spacing; the grid can be extended iff both axes start at 0 *)
Theorem C20_spacing (mnx mxx nx mny mxy ny mxr nr : pyval xr) g x0 x1 y0 y1 r1 :
  Forall small [mnx; mxx; nx; mny; mxy; ny; mxr; nr] ->
  value mnx = XFin x0 -> value mxx = XFin x1 -> value mny = XFin y0 -> value mxy = XFin y1 -> value mxr = XFin r1 ->
  new_params mnx mxx nx mny mxy ny mxr nr = Ok g ->
  (x0 < x1)%R /\ (y0 < y1)%R /\ (1 <= r1)%R /\
  ((2 <= zof nx)%Z -> equally_spaced (g_dx g) x0 x1 (Z.to_nat (zof nx))) /\ (zof nx = 1%Z -> g_dx g = [XFin x0]) /\
  ((2 <= zof ny)%Z -> equally_spaced (g_dy g) y0 y1 (Z.to_nat (zof ny))) /\ (zof ny = 1%Z -> g_dy g = [XFin y0]) /\
  ((2 <= zof nr)%Z -> equally_spaced (g_rf g) 1 r1 (Z.to_nat (zof nr))) /\ (zof nr = 1%Z -> g_rf g = [XFin 1]) /\
  (g_ext g = true <-> x0 = 0%R /\ y0 = 0%R).
Proof. exact (@new_params_spaced mnx mxx nx mny mxy ny mxr nr g x0 x1 y0 y1 r1). Qed.
Print Assumptions C20_spacing.

(** binary64: a vector starts at its lower limit unless the width overflows *)
Theorem C20_first_binary64 (a b : f64) n :
  1 <= n -> (Z.of_nat n <= 2 ^ 53)%Z -> is_finite a = true -> is_finite (n_sub b a) = true ->
  exists x l, linspace a b n = x :: l /\ f64_val x = f64_val a.
Proof. exact (@linspace_first_f64 a b n). Qed.
Print Assumptions C20_first_binary64.

Example C20_ex : Forall (@small f64) [PInt 0; PInt 2; PInt 5; PInt 0; PInt 1; PInt 3; PInt 2; PInt 3] /\
  match new_params (T:=f64) (PInt 0) (PInt 2) (PInt 5) (PInt 0) (PInt 1) (PInt 3) (PInt 2) (PInt 3) with
  | Ok g => g_shape g = (3, 5, 5) /\ g_ext g = true /\
      forallb2 n_eq (g_dx g) [n_ofZ 0; n_half; n_ofZ 1; n_div (n_ofZ 3) (n_ofZ 2); n_ofZ 2] = true /\
      forallb2 n_eq (g_rfa g) [n_ofZ 2; n_div (n_ofZ 3) (n_ofZ 2); n_ofZ 1; n_div (n_ofZ 3) (n_ofZ 2); n_ofZ 2] = true
  | Err _ => False end.
Proof. split; [repeat (apply Forall_cons; [cbn; lia|]); apply Forall_nil|vm_compute; repeat split]. Qed.

(** C21. *)
Theorem C21_extend_mirrors (mnx mxx nx mny mxy ny mxr nr : pyval xr) g x0 x1 y0 y1 :
  Forall small [mnx; mxx; nx; mny; mxy; ny; mxr; nr] ->
  value mnx = XFin x0 -> value mxx = XFin x1 -> value mny = XFin y0 -> value mxy = XFin y1 ->
  new_params mnx mxx nx mny mxy ny mxr nr = Ok g -> g_ext g = true ->
  (2 <= zof nx)%Z -> (2 <= zof ny)%Z -> (2 * zof nx <= 2 ^ 53)%Z -> (2 * zof ny <= 2 ^ 53)%Z ->
  exists g', extend_grid g = (g', Ok tt) /\ mirrored (g_dx g) (g_dx g') /\ mirrored (g_dy g) (g_dy g') /\
    g_rf g' = g_rf g /\ g_rfa g' = g_rfa g /\
    g_shape g' = (List.length (g_dy g'), List.length (g_dx g'), List.length (g_rfa g')) /\
    extend_grid g' = (g', Err AttributeError).
Proof. exact (@extend_mirrors mnx mxx nx mny mxy ny mxr nr g x0 x1 y0 y1). Qed.
Print Assumptions C21_extend_mirrors.

Theorem C21_not_extendable {T} {NT : Num T} (g : gparams T) :
  g_ext g = false -> extend_grid g = (g, Err AttributeError).
Proof. exact (@extend_refused T NT g). Qed.
Print Assumptions C21_not_extendable.

Example C21_ex : exists g, new_params (T:=xr) (PInt 0) (PInt 2) (PInt 3) (PInt 0) (PInt 1) (PInt 2) (PInt 2) (PInt 3) = Ok g /\ g_ext g = true.
Proof. exact grid_xr_ex. Qed.

(** C22. *)
Theorem C22_one_column {T} {NT : Num T} {LT : NumLaws T} (g : gparams T) :
  reachable g -> g_ext g = true -> List.length (g_dx g) = 1 -> extend_grid g = (g, Err ValueError).
Proof. exact (@extend_one_column T NT LT g). Qed.
Print Assumptions C22_one_column.

Theorem C22_one_row {T} {NT : Num T} {LT : NumLaws T} (g : gparams T) m :
  reachable g -> g_ext g = true -> List.length (g_dy g) = 1 -> 2 <= List.length (g_dx g) ->
  (2 * Z.of_nat (List.length (g_dx g)) <= 2 ^ 53)%Z ->
  nth_error (g_dx g) (List.length (g_dx g) - 1) = Some m -> xlt (XFin 0) (val m) ->
  exists g', extend_grid g = (g', Err ValueError) /\ List.length (g_dx g') = 2 * List.length (g_dx g) - 1 /\
    g_shape g' = g_shape g /\ snd (fst (g_shape g')) <> List.length (g_dx g').
Proof. exact (@extend_one_row_state T NT LT g m). Qed.
Print Assumptions C22_one_row.

(** a grid that says it can be extended need not be *)
Theorem C22_extendable_refuted :
  ~ (forall g : gparams f64, reachable g -> g_ext g = true -> snd (extend_grid g) = Ok tt).
Proof. exact extendable_refuted. Qed.
Print Assumptions C22_extendable_refuted.

Example C22_ex :
  match new_params (T:=f64) (PInt 0) (PInt 2) (PInt 3) (PInt 0) (PInt 1) (PInt 1) (PInt 2) (PInt 3) with
  | Ok g => g_ext g = true /\ List.length (g_dy g) = 1 /\
      match extend_grid g with (g', Err ValueError) => List.length (g_dx g') = 5 /\ g_shape g' = (1, 3, 5) | _ => False end
  | Err _ => False end.
Proof. vm_compute. repeat split. Qed.

(** C23.  The binary64 grid 0..1 with 50 points has no zero after extension. *)
Theorem C23_extended_grid_contains_zero_refuted :
  exists g g' : gparams f64, reachable g /\ extend_grid g = (g', Ok tt) /\
    List.length (g_dx g') = 99 /\ (forall x, In x (g_dx g') -> val x <> XFin 0) /\
    exists x y, nth_error (g_dx g') 49 = Some x /\ nth_error (g_dy g') 49 = Some y /\ val (n_neg (n_div x y)) = XFin (-1).
Proof. exact no_zero_after_extend. Qed.
Print Assumptions C23_extended_grid_contains_zero_refuted.

(** C24. *)
Theorem C24_load_after_save {T} {NT : Num T} (g : gparams T) (f f' : fs T) d :
  reachable g -> run f (params_save g d) = (f', Ok tt) -> params_load f' d = Ok g.
Proof. exact (@params_load_save T NT g f f' d). Qed.
Print Assumptions C24_load_after_save.

Theorem C24_save_succeeds {T} (g : gparams T) (f : fs T) d :
  usable f d -> (forall n, In n param_files -> fs_get f (under d n) <> Some NDir) ->
  exists f', run f (params_save g d) = (f', Ok tt).
Proof. exact (@params_save_succeeds T g f d). Qed.
Print Assumptions C24_save_succeeds.

Theorem C24_other_files_untouched {T} (g : gparams T) (f : fs T) d p :
  p <> d -> (forall n, In n ["dx.npy"; "dy.npy"; "rf.npy"; "rf_array.npy"]%string -> p <> under d n) ->
  fs_get (fst (run f (params_save g d))) p = fs_get f p.
Proof. exact (@params_save_others T g f d p). Qed.
Print Assumptions C24_other_files_untouched.

Theorem C24_load_error {T} {NT : Num T} (f : fs T) d n :
  In n ["dx.npy"; "dy.npy"; "rf.npy"; "rf_array.npy"]%string -> ~ readable f (under d n) -> params_load f d = Err LoadErr.
Proof. exact (@params_load_missing T NT f d n). Qed.
Print Assumptions C24_load_error.

(** the object left behind by a failed extension (C22) does not survive: the shape changes *)
Theorem C24_half_extended_refuted :
  exists (g g' : gparams f64), reachable g /\ fst (extend_grid g) = g' /\
    forall f f' d, run f (params_save g' d) = (f', Ok tt) -> params_load f' d <> Ok g'.
Proof. exact half_extended_load. Qed.
Print Assumptions C24_half_extended_refuted.

Example C24_ex : match new_params (T:=f64) (PInt 0) (PInt 2) (PInt 3) (PInt 0) (PInt 1) (PInt 2) (PInt 2) (PInt 3) with
  | Ok g => is_ok (snd (run [("out"%string, NDir)] (params_save g "out/grid"))) = true /\
            snd (run [] (params_save g "out/grid")) = Err FileNotFound
  | Err _ => False end.
Proof. vm_compute. split; reflexivity. Qed.

(** C25. *)
Theorem C25_get_returns_latest_save {T} {NT : Num T} (g : gparams T) (l : list dop) y x a b :
  Forall (fun o => o <> DExtend) l ->
  get_diagnostic (do_dops (new_diag g) l) y x = Ok (a, b) <->
  index_ok (fst (diag_size g)) y /\ index_ok (snd (diag_size g)) x /\ latest (fst (diag_size g)) (snd (diag_size g)) y x l a b.
Proof. exact (@get_latest T NT g l y x a b). Qed.
Print Assumptions C25_get_returns_latest_save.

Theorem C25_get_errors {T} {NT : Num T} (g : gparams T) (l : list dop) y x e :
  Forall (fun o => o <> DExtend) l ->
  get_diagnostic (do_dops (new_diag g) l) y x = Err e ->
  (index_ok (fst (diag_size g)) y /\ index_ok (snd (diag_size g)) x /\ e = KeyError) \/
  (~ (index_ok (fst (diag_size g)) y /\ index_ok (snd (diag_size g)) x) /\ e = index_error (fst (diag_size g)) y x).
Proof. exact (@get_errors T NT g l y x e). Qed.
Print Assumptions C25_get_errors.

Theorem C25_extended_refuses_saves {T} {NT : Num T} (d : gdiag T) (l1 l2 : list dop) y x fy dr :
  do_dops d (l1 ++ DExtend :: l2) = diag_extend (do_dops d l1) /\
  save_diagnostic (do_dops d (l1 ++ DExtend :: l2)) y x fy dr = (do_dops d (l1 ++ DExtend :: l2), Err RuntimeError).
Proof. exact (@extend_refuses T NT d l1 l2 y x fy dr). Qed.
Print Assumptions C25_extended_refuses_saves.

(** True and 1 are equal in Python, but are different points here *)
Theorem C25_bool_index_refuted : exists (g : gparams f64) (l : list dop) a b,
  get_diagnostic (do_dops (new_diag g) l) (PBool true) (PInt 0) = Ok (a, b) /\
  get_diagnostic (do_dops (new_diag g) l) (PInt 1) (PInt 0) = Err KeyError.
Proof. exact bool_index. Qed.
Print Assumptions C25_bool_index_refuted.

Example C25_ex (a b c d : scal f64) :
  get_diagnostic (do_dops (new_diag diag_grid) (diag_hist a b c d)) (PInt 1) (PInt 0) = Ok ([a], [b]) /\
  get_diagnostic (do_dops (new_diag diag_grid) (diag_hist a b c d)) (PInt 0) (PInt 0) = Err KeyError /\
  get_diagnostic (do_dops (new_diag diag_grid) (diag_hist a b c d)) (PInt 2) (PInt 0) = Err ValueError /\
  Forall (fun o => o <> DExtend) (diag_hist a b c d).
Proof. split; [vm_compute; reflexivity|]. split; [vm_compute; reflexivity|]. split; [vm_compute; reflexivity|]. repeat (apply Forall_cons; [discriminate|]). apply Forall_nil. Qed.

(** C26. *)
Theorem C26_extended_lookup {T} {NT : Num T} (g : gparams T) (l : list dop) y x :
  Forall (fun o => o <> DExtend) l ->
  let ny := fst (diag_size g) in let nx := snd (diag_size g) in
  let d := do_dops (new_diag g) l in
  index_ok (2 * ny - 1) y -> index_ok (2 * nx - 1) x ->
  get_diagnostic (diag_extend d) y x =
    if (Z.eqb (zof y) 0 || Z.eqb (zof x) 0) then Err KeyError
    else get_diagnostic d (PInt (Z.abs (zof y - ny))) (PInt (Z.abs (zof x - nx))).
Proof. exact (@extended_lookup T NT g l y x). Qed.
Print Assumptions C26_extended_lookup.

(** the expected mirror image is not what is found *)
Theorem C26_mirror_lookup_refuted :
  ~ (forall (g : gparams f64) (l : list dop) y x, Forall (fun o => o <> DExtend) l ->
      index_ok (2 * fst (diag_size g) - 1) y -> index_ok (2 * snd (diag_size g) - 1) x ->
      get_diagnostic (diag_extend (do_dops (new_diag g) l)) y x =
      get_diagnostic (do_dops (new_diag g) l) (PInt (Z.abs (zof y - (fst (diag_size g) - 1)))) (PInt (Z.abs (zof x - (snd (diag_size g) - 1))))).
Proof. exact mirror_lookup_refuted. Qed.
Print Assumptions C26_mirror_lookup_refuted.

(** already the centre of the extended grid returns the data of the diagonal neighbour *)
Example C26_ex (a b c d : scal f64) :
  get_diagnostic (diag_extend (do_dops (new_diag diag_grid) (diag_full a b c d))) (PInt 1) (PInt 1) = Ok ([c], [d]) /\
  get_diagnostic (do_dops (new_diag diag_grid) (diag_full a b c d)) (PInt 0) (PInt 0) = Ok ([a], [b]) /\
  get_diagnostic (do_dops (new_diag diag_grid) (diag_full a b c d)) (PInt 1) (PInt 1) = Ok ([c], [d]).
Proof. repeat split; vm_compute; reflexivity. Qed.

(** C27. *)
Theorem C27_load_after_save {T} {NT : Num T} (d : gdiag T) (f f' : fs T) dir :
  run f (diag_save d dir) = (f', Ok tt) ->
  diag_load f' dir = Ok (mkGD (d_my d) (d_mx d) (d_fy d) (d_dr d) false).
Proof. exact (@diag_load_save T d f f' dir). Qed.
Print Assumptions C27_load_after_save.

Theorem C27_save_succeeds {T} (d : gdiag T) (f : fs T) dir : usable f dir ->
  (forall n, In n diag_files -> fs_get f (under dir n) <> Some NDir) -> exists f', run f (diag_save d dir) = (f', Ok tt).
Proof. exact (@diag_save_succeeds T d f dir). Qed.
Print Assumptions C27_save_succeeds.

Theorem C27_flag_lost_refuted :
  ~ (forall (d : gdiag f64) f f' dir, run f (diag_save d dir) = (f', Ok tt) -> diag_load f' dir = Ok d).
Proof. exact diag_flag_lost. Qed.
Print Assumptions C27_flag_lost_refuted.

(** C63.  A crash while saving grid parameters into a new directory leaves nothing that loads as
    another object. *)
Theorem C63_interrupted_save {T} {NT : Num T} (g : gparams T) (f f' : fs T) d :
  reachable g -> fs_get f (under d "rf_array.npy") = None -> crash f (params_save g d) f' ->
  params_load f' d = Err LoadErr \/ params_load f' d = Ok g.
Proof. exact (@interrupted_save T NT g f f' d). Qed.
Print Assumptions C63_interrupted_save.

(** Overwriting an older save is not protected: a crash can leave a loadable mixture of both. *)
Theorem C63_interrupted_overwrite_refuted :
  ~ (forall (g h : gparams f64) f f1 f' d, reachable g -> reachable h -> run f (params_save h d) = (f1, Ok tt) ->
      crash f1 (params_save g d) f' ->
      params_load f' d = Err LoadErr \/ params_load f' d = Ok g \/ params_load f' d = Ok h).
Proof. exact interrupted_overwrite. Qed.
Print Assumptions C63_interrupted_overwrite_refuted.

Example C63_ex : match new_params (T:=f64) (PInt 0) (PInt 2) (PInt 3) (PInt 0) (PInt 1) (PInt 2) (PInt 2) (PInt 3) with
  | Ok g => crash [] (params_save g "out") (fst (run [] (firstn 4 (params_save g "out")))) /\
            params_load (fst (run [] (firstn 4 (params_save g "out")))) "out" = Err LoadErr
  | Err _ => False end.
Proof. destruct (new_params _ _ _ _ _ _ _ _) as [g|] eqn:E; [|exact (grid_ex_not_err E)]. split; [apply cr_clean|reflexivity]. Qed.
