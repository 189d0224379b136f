(** Property theorems for GridProperty.py, GridPropertyName.py and GridPropertyUnit.py: C28 - C34, C62, C64 - C66. *)
From Coq Require Import ZArith Reals List Bool String Lra Lia.
From Verif Require Import Num NumP Py Validate SpecNum Ring RingSystem FS FSP GridParams GridParamsP SpecGrid Names GridProp SpecProp GridPropP GridGradP GridPropFSP GridPropExP.
Import ListNotations.

(** C28.  A masked read: NaN at the masked points, the stored value at the others, same shape. *)
Theorem C28_masked {T} {NT : Num T} {LT : NumLaws T} (p : gprop T) : preach p -> exists l,
  get_data p (PBool true) = (with_data p l, Ok (p_shape p, l)) /\ List.length l = List.length (p_data p) /\
  forall i x, nth_error (p_data p) i = Some x -> nth_error l i = Some (if marked (p_mask p) i then n_nan else x).
Proof. exact (@masked_read T NT LT p). Qed.
Print Assumptions C28_masked.

(** other reads *)
Theorem C28_unmasked {T} {NT : Num T} (p : gprop T) :
  get_data p (PBool false) = (p, Ok (p_shape p, p_data p)) /\
  (p_mask p = None -> get_data p (PBool true) = (p, Ok (p_shape p, p_data p))) /\
  (forall v, (forall b, v <> PBool b) -> get_data p v = (p, Err TypeError)).
Proof. exact (@unmasked_read T NT p). Qed.
Print Assumptions C28_unmasked.

Example C28_ex (x y : xr) : exists p : gprop xr, preach p /\ marked (p_mask p) 0 = true /\ marked (p_mask p) 1 = false /\
  p_data p = [x; y] /\ snd (get_data p (PBool true)) = Ok ([1; 2; 1], [XNaN; y]) /\ snd (get_data p (PBool false)) = Ok ([1; 2; 1], [x; y]).
Proof.
  destruct (prop_ex x y DISK_RADIUS DEGREE) as (p & Hp & _ & _ & _ & Hs & Hd & Hm). exists p. split; [exact Hp|].
  unfold get_data. cbn [boolean_v]. rewrite Hm, Hs, Hd. cbn. rewrite Hs. repeat split.
Qed.

(** C29.  What a masked read blanked is NaN in the stored data for ever. *)
Theorem C29_destroyed {T} {NT : Num T} {LT : NumLaws T} (p : gprop T) i l :
  preach p -> i < List.length (p_data p) -> marked (p_mask p) i = true ->
  nan_at (do_pops (fst (get_data p (PBool true))) l) i.
Proof. exact (@masked_read_destroys T NT LT p i l). Qed.
Print Assumptions C29_destroyed.

Theorem C29_nan_stays {T} {NT : Num T} {LT : NumLaws T} (p : gprop T) l i : nan_at p i -> nan_at (do_pops p l) i.
Proof. exact (@nan_forever T NT LT p l i). Qed.
Print Assumptions C29_nan_stays.

(** points never masked keep their value; without reads nothing changes *)
Theorem C29_unmasked_kept {T} {NT : Num T} {LT : NumLaws T} (p : gprop T) l i :
  preach p -> Forall pop_wf l -> Forall (spares i) l -> marked (p_mask p) i = false ->
  nth_error (p_data (do_pops p l)) i = nth_error (p_data p) i.
Proof. exact (@unmasked_kept T NT LT p l i). Qed.
Print Assumptions C29_unmasked_kept.

Theorem C29_only_reads {T} {NT : Num T} (p : gprop T) l :
  Forall (fun o => forall v, o <> PRead v) l -> p_data (do_pops p l) = p_data p.
Proof. exact (@only_reads_change T NT p l). Qed.
Print Assumptions C29_only_reads.

Theorem C29_pure_read_refuted {T} {NT : Num T} {LT : NumLaws T} :
  ~ (forall (p : gprop T) v, preach p -> fst (get_data p v) = p).
Proof. exact (@read_pure_refuted T NT LT). Qed.
Print Assumptions C29_pure_read_refuted.

(** the mask is even cleared again before the last read *)
Example C29_ex (x y : xr) : exists p : gprop xr, preach p /\ p_data p = [x; y] /\ marked (p_mask p) 0 = true /\
  snd (get_data (do_pops p [PRead (PBool true); PSetMask (PArr "bool" [1; 2; 1] [SB false; SB false])]) (PBool false)) = Ok ([1; 2; 1], [XNaN; y]).
Proof.
  destruct (prop_ex x y DISK_RADIUS DEGREE) as (p & Hp & _ & _ & _ & Hs & Hd & Hm). exists p. split; [exact Hp|]. split; [exact Hd|]. rewrite Hm. split; [reflexivity|].
  cbn [do_pops fold_left do_pop]. unfold get_data at 2. cbn [boolean_v]. rewrite Hm, Hs, Hd. cbn. unfold set_mask, get_data. cbn. rewrite Hs.
  change (shape_eqb [1; 2; 1] [1; 2; 1]) with true. cbn. rewrite Hs. reflexivity.
Qed.

(** C30.  What can be constructed, what set_mask accepts, and what always holds. *)
Theorem C30_constructed {T} {NT : Num T} {LT : NumLaws T} (name : earg pname) (unit : earg punit) (data : pyval T) (params : earg (gparams T)) :
  (exists p, new_gprop name unit data params = Ok p) <->
  exists n u g el, name = EIs n /\ unit = EIs u /\ params = EIs g /\ data = PArr "float64" (shape3 g) el.
Proof. exact (@constructed_iff T NT LT name unit data params). Qed.
Print Assumptions C30_constructed.

Theorem C30_fields {T} {NT : Num T} {LT : NumLaws T} n u sh el (g : gparams T) p :
  new_gprop (EIs n) (EIs u) (PArr "float64" sh el) (EIs g) = Ok p ->
  p_name p = n /\ p_unit p = u /\ p_params p = g /\ p_shape p = sh /\ p_data p = map (@num_scal T _) el /\ p_mask p = None.
Proof. exact (@constructed_fields T NT LT n u sh el g p). Qed.
Print Assumptions C30_fields.

Theorem C30_set_mask {T} {NT : Num T} (p p' : gprop T) v :
  set_mask p v = (p', Ok tt) <->
  exists el, v = PArr "bool" (p_shape p) el /\ p' = with_mask p (Some (mkMarr "bool" (p_shape p) el)).
Proof. exact (@set_mask_ok T NT p p' v). Qed.
Print Assumptions C30_set_mask.

Theorem C30_set_mask_refused {T} {NT : Num T} (p : gprop T) v :
  (forall el, v <> PArr "bool" (p_shape p) el) -> exists e, set_mask p v = (p, Err e).
Proof. exact (@set_mask_refused T NT p v). Qed.
Print Assumptions C30_set_mask_refused.

Theorem C30_shapes {T} {NT : Num T} {LT : NumLaws T} (p : gprop T) : preach p ->
  p_shape p = shape3 (p_params p) /\ List.length (p_data p) = volume (p_shape p) /\
  (forall m, p_mask p = Some m -> ma_dtype m = "bool"%string /\ ma_shape m = p_shape p /\
     List.length (ma_elems m) = volume (p_shape p)).
Proof. exact (@reach_shapes T NT LT p). Qed.
Print Assumptions C30_shapes.

(** the grid parameters are shared: extending them behind the property's back breaks the agreement,
    and what is saved then cannot be loaded *)
Theorem C30_extended_refuted {T} {NT : Num T} {LT : NumLaws T} (p : gprop T) g' mx my :
  preach p -> reachable (p_params p) -> g_ext (p_params p) = true ->
  2 <= List.length (g_dx (p_params p)) -> 2 <= List.length (g_dy (p_params p)) ->
  (2 * Z.of_nat (List.length (g_dx (p_params p))) <= 2 ^ 53)%Z -> (2 * Z.of_nat (List.length (g_dy (p_params p))) <= 2 ^ 53)%Z ->
  nth_error (g_dx (p_params p)) (List.length (g_dx (p_params p)) - 1) = Some mx ->
  nth_error (g_dy (p_params p)) (List.length (g_dy (p_params p)) - 1) = Some my ->
  xlt (XFin 0) (val mx) -> xlt (XFin 0) (val my) ->
  g' = fst (extend_grid (p_params p)) ->
  snd (extend_grid (p_params p)) = Ok tt /\ p_shape (with_params p g') <> shape3 g' /\
  forall f f' d, run f (gprop_save (with_params p g') d) = (f', Ok tt) ->
    gprop_load f' (PStr d) (EIs (p_name p)) (EIs (p_unit p)) = Err LoadErr.
Proof. exact (@extended_under T NT LT p g' mx my). Qed.
Print Assumptions C30_extended_refuted.

Example C30_ex (x y : xr) : exists p : gprop xr, preach p /\ reachable (p_params p) /\ shape3 (p_params p) = [1; 2; 1] /\
  snd (set_mask p (PArr "bool" [1; 1; 2] [SB true; SB true])) = Err InvalidShape /\
  snd (set_mask p (PArr "float64" [1; 2; 1] [SF x; SF y])) <> Ok tt /\
  snd (set_mask p (PArr "bool" [1; 2; 1] [SB true; SB true])) = Ok tt.
Proof.
  destruct (prop_ex x y DISK_RADIUS DEGREE) as (p & Hp & Hr & _ & _ & Hs & _). exists p. split; [exact Hp|]. split; [exact Hr|].
  split; [rewrite <- (proj1 (C30_shapes p Hp)); exact Hs|]. unfold set_mask, data_arr. rewrite Hs. cbn. split; [reflexivity|]. split; [discriminate|reflexivity].
Qed.

(** C31.  Default contrast. *)
Theorem C31_limits {T} {NT : Num T} {LT : NumLaws T} (p : gprop T) : exists p', set_contrast_default p = (p', Ok tt) /\
  p_data p' = p_data p /\ p_mask p' = p_mask p /\ p_shape p' = p_shape p /\
  ((forall x, In x (p_data p) -> val x = XNaN) -> p_vmin p' = None /\ p_vmax p' = None) /\
  ((exists x, In x (p_data p) /\ val x <> XNaN) ->
    exists a b, p_vmin p' = Some (PNpFloat a) /\ p_vmax p' = Some (PNpFloat b) /\ In a (p_data p) /\ In b (p_data p) /\
      forall x, In x (p_data p) -> val x <> XNaN -> xle (val a) (val x) /\ xle (val x) (val b)).
Proof. exact (@default_limits T NT LT p). Qed.
Print Assumptions C31_limits.

Theorem C31_colors {T} {NT : Num T} {LT : NumLaws T} (p : gprop T) a b c v e p' :
  small v -> int_like v -> (zof v < 2)%Z -> set_contrast p a b c (Some v) <> (p', Ok e).
Proof. exact (@few_colors T NT LT p a b c v e p'). Qed.
Print Assumptions C31_colors.

Example C31_ex : exists p : gprop xr, preach p /\ p_data p = [XNaN; XFin 3] /\
  p_vmin (fst (set_contrast_default p)) = Some (PNpFloat (XFin 3)) /\ p_vmax (fst (set_contrast_default p)) = Some (PNpFloat (XFin 3)).
Proof.
  destruct (prop_ex XNaN (XFin 3) DISK_RADIUS DEGREE) as (p & Hp & _ & _ & _ & _ & Hd & _). exists p. split; [exact Hp|]. split; [exact Hd|].
  destruct (C31_limits p) as (p' & E & _ & _ & _ & _ & L). rewrite E. cbn [fst].
  destruct L as (a & b & -> & -> & Ha & Hb & L); [exists (XFin 3); rewrite Hd; cbn; split; [auto|discriminate]|].
  rewrite Hd in *. cbn [val Laws_xr] in L. assert (L3 := L (XFin 3) (or_intror (or_introl eq_refl)) ltac:(discriminate)). cbn in Ha, Hb.
  destruct Ha as [<-|[<-|[]]]; [destruct L3 as [[[]|[L3 _]] _]; discriminate L3|]. destruct Hb as [<-|[<-|[]]]; [destruct L3 as [_ [[]|[L3 _]]]; discriminate L3|].
  split; reflexivity.
Qed.

(** C32.  After a successful determine_mask. *)
Theorem C32_mask {T} {NT : Num T} {LT : NumLaws T} (g g' : ggrad T) m s t e :
  small m -> small s -> osmall t -> osmall e ->
  determine_mask g m s t e = (g', Ok tt) ->
  exists r, scaled_gradient g' = Ok (Some r) /\
    r = n_mul (num_of m) (n_mul (num_of s) (n_div n_one (num_of (transmission t)))) /\ ~ xlt (XFin 1) (val r) /\
    p_data (gg_prop g') = p_data (gg_prop g) /\ p_shape (gg_prop g') = p_shape (gg_prop g) /\ gg_pos g' = gg_pos g /\
    gg_meas g' = Some m /\ gg_orb g' = Some s /\ gg_trans g' = Some (transmission t) /\
    forall i x, nth_error (p_data (gg_prop g)) i = Some x ->
      (marked (p_mask (gg_prop g')) i = false <-> val x <> XNaN /\ ~ xlt (val x) (val r)).
Proof. exact (@mask_exact T NT LT g g' m s t e). Qed.
Print Assumptions C32_mask.

(** which measurements are accepted *)
Theorem C32_accepted {T} {NT : Num T} {LT : NumLaws T} (g : ggrad T) m s t e :
  small m -> small s -> osmall t -> osmall e -> measure_ok m s t e ->
  let tt' := transmission t in
  let g1 := set_fields g m s tt' (err_or_1 e) in
  (py_zero tt' -> determine_mask g m s t e = (g1, Err ZeroDivision)) /\
  (~ py_zero tt' -> xlt (XFin 1) (val (scaled_of m s tt')) -> determine_mask g m s t e = (g1, Err ValueError)) /\
  (~ py_zero tt' -> ~ xlt (XFin 1) (val (scaled_of m s tt')) ->
     determine_mask g m s t e = (masked_with g1 (scaled_of m s tt'), Ok tt)).
Proof. exact (@determine_cases T NT LT g m s t e). Qed.
Print Assumptions C32_accepted.

(** exact arithmetic: the threshold is measured * scale / transmission *)
Theorem C32_real (g : ggrad xr) m s t e a b c :
  Forall (@small xr) [m; s] -> osmall t -> osmall e -> measure_ok m s t e ->
  value m = XFin a -> value s = XFin b -> value (transmission t) = XFin c -> c <> 0%R ->
  (is_ok (snd (determine_mask g m s t e)) = true <-> (a * b / c <= 1)%R) /\
  ((a * b / c <= 1)%R -> scaled_gradient (fst (determine_mask g m s t e)) = Ok (Some (XFin (a * b / c))) /\
    forall i x, nth_error (p_data (gg_prop g)) i = Some x ->
      (marked (p_mask (gg_prop (fst (determine_mask g m s t e)))) i = false <->
        x = XPInf \/ exists r, x = XFin r /\ (a * b / c <= r)%R)).
Proof. exact (@mask_real g m s t e a b c). Qed.
Print Assumptions C32_real.

Example C32_ex : exists g g' : ggrad xr, measured g /\ reachable (p_params (gg_prop g)) /\ gg_pos g = PFloat (XFin (1/8)) /\
  determine_mask g (PFloat (XFin (1/2))) (PInt 1) None None = (g', Ok tt) /\
  measured g' /\ reachable (p_params (gg_prop g')) /\ storable g' /\ gg_meas g' = Some (PFloat (XFin (1/2))) /\
  p_data (gg_prop g') = [XFin (1/4); XFin (3/4)] /\
  marked (p_mask (gg_prop g')) 0 = true /\ marked (p_mask (gg_prop g')) 1 = false.
Proof. exact grad_half_ex. Qed.

(** C33.  A scaled gradient above one: the values are stored, the mask is not, and
    get_scaled_gradient raises until the next measurement. *)
Theorem C33_rejected {T} {NT : Num T} {LT : NumLaws T} (g g' : ggrad T) m s t e :
  small m -> small s -> osmall t -> osmall e -> measure_ok m s t e ->
  ~ py_zero (transmission t) -> xlt (XFin 1) (val (scaled_of m s (transmission t))) ->
  g' = fst (determine_mask g m s t e) ->
  snd (determine_mask g m s t e) = Err ValueError /\ gg_prop g' = gg_prop g /\
  gg_meas g' = Some m /\ gg_orb g' = Some s /\ gg_trans g' = Some (transmission t) /\
  forall l : list (pop T), scaled_gradient (do_gops g' (map GProp l)) = Err ValueError.
Proof. exact (@rejected_scaled T NT LT g g' m s t e). Qed.
Print Assumptions C33_rejected.

(** no failure touches data or mask *)
Theorem C33_mask_kept {T} {NT : Num T} (g g' : ggrad T) m s t e x :
  determine_mask g m s t e = (g', Err x) -> gg_prop g' = gg_prop g /\ gg_pos g' = gg_pos g.
Proof. exact (@determine_err_prop T NT g g' m s t e x). Qed.
Print Assumptions C33_mask_kept.

(** the next valid measurement repairs everything: its result does not depend on older ones *)
Theorem C33_repaired {T} {NT : Num T} {LT : NumLaws T} (g h : ggrad T) m s t e :
  small m -> small s -> osmall t -> osmall e -> gg_prop g = gg_prop h -> gg_pos g = gg_pos h ->
  is_ok (snd (determine_mask g m s t e)) = true -> determine_mask g m s t e = determine_mask h m s t e.
Proof. exact (@next_measurement T NT LT g h m s t e). Qed.
Print Assumptions C33_repaired.

Theorem C33_atomic_refuted : ~ (forall (g : ggrad xr) m s t e x, measured g ->
  snd (determine_mask g m s t e) = Err x -> scaled_gradient (fst (determine_mask g m s t e)) = scaled_gradient g).
Proof. exact determine_atomic_refuted. Qed.
Print Assumptions C33_atomic_refuted.

Example C33_ex (g : ggrad xr) : snd (determine_mask g (PInt 2) (PInt 1) None None) = Err ValueError /\
  gg_meas (fst (determine_mask g (PInt 2) (PInt 1) None None)) = Some (PInt 2) /\
  gg_prop (fst (determine_mask g (PInt 2) (PInt 1) None None)) = gg_prop g.
Proof. exact (two_rejected g). Qed.

(** C34.  Saved and loaded gradients; [fmt] is the "{:.4f}" formatting of the position. *)
Theorem C34_survives {T} {NT : Num T} {LT : NumLaws T} fmt (g : ggrad T) d (f f' : fs T) :
  measured g -> reachable (p_params (gg_prop g)) -> storable g ->
  (gg_meas g = None -> fs_get f (under (gradient_dir fmt g d) "mask_values.npy") = None) ->
  run f (grad_save fmt g d) = (f', Ok tt) ->
  exists g', grad_load f' (gradient_dir fmt g d) = Ok g' /\ same_grad g g'.
Proof. exact (@grad_load_save T NT LT fmt g d f f'). Qed.
Print Assumptions C34_survives.

Theorem C34_save_succeeds {T} {NT : Num T} fmt (g : ggrad T) d (f : fs T) : let gd := gradient_dir fmt g d in
  fs_get f d = Some NDir -> slashfree (fmt (num_of (gg_pos g))) = true ->
  (fs_get f gd = None \/ fs_get f gd = Some NDir) -> (forall n, fs_get f (under gd n) <> Some NDir) ->
  (forall n, In n param_files -> fs_get f (under d n) <> Some NDir) ->
  exists f', run f (grad_save fmt g d) = (f', Ok tt).
Proof. exact (@grad_save_succeeds T NT fmt g d f). Qed.
Print Assumptions C34_save_succeeds.

(** a gradient at a bool position (accepted by the constructor) cannot be loaded again *)
Theorem C34_bool_position_refuted {T} {NT : Num T} {LT : NumLaws T} fmt (g : ggrad T) b d (f f' : fs T) :
  measured g -> gg_pos g = PBool b ->
  run f (grad_save fmt g d) = (f', Ok tt) -> grad_load f' (gradient_dir fmt g d) = Err LoadErr.
Proof. exact (@bool_position T NT LT fmt g b d f f'). Qed.
Print Assumptions C34_bool_position_refuted.

Example C34_ex : exists (g : ggrad xr) f f', measured g /\ reachable (p_params (gg_prop g)) /\ storable g /\ gg_meas g <> None /\
  run f (grad_save (fun _ => "0.1250"%string) g "d") = (f', Ok tt).
Proof.
  destruct grad_half_ex as (_ & g & _ & _ & _ & _ & Hg & Hr & Hs & Hm & _). exists g, [("d"%string, NDir)].
  destruct (@C34_save_succeeds xr _ (fun _ => "0.1250"%string) g "d" [("d"%string, NDir)]) as [f' Hf].
  - reflexivity.
  - reflexivity.
  - left. reflexivity.
  - intros n. discriminate.
  - intros n Hn. cbn in Hn. destruct Hn as [<-|[<-|[<-|[<-|[]]]]]; discriminate.
  - exists f'. split; [exact Hg|]. split; [exact Hr|]. split; [exact Hs|]. split; [congruence|exact Hf].
Qed.

(** C62.  [prop_file k n u]: the data file (k = false) or mask file (k = true) of property n in unit u. *)
Theorem C62_distinct (k k' : bool) n u n' u' :
  (prop_file k n u = prop_file k' n' u' -> k = k' /\ n = n' /\ u = u') /\
  ~ In (prop_file k n u) fixed_files.
Proof. exact (@names_distinct k k' n u n' u'). Qed.
Print Assumptions C62_distinct.

(** also on file systems that ignore case *)
Theorem C62_distinct_caseless (k k' : bool) n u n' u' :
  (lower_str (prop_file k n u) = lower_str (prop_file k' n' u') -> k = k' /\ n = n' /\ u = u') /\
  (forall s, In s fixed_files -> lower_str (prop_file k n u) <> lower_str s).
Proof. exact (@names_distinct_caseless k k' n u n' u'). Qed.
Print Assumptions C62_distinct_caseless.

Theorem C62_display n n' : get_name n = get_name n' -> n = n'.
Proof. exact (@display_names_distinct n n'). Qed.
Print Assumptions C62_display.
Theorem C62_display_units u u' : unit_display u = unit_display u' \/ get_unit u = get_unit u' -> u = u'.
Proof. exact (@display_units_distinct u u'). Qed.
Print Assumptions C62_display_units.

Example C62_ex : prop_file true DISK_RADIUS ECLIPSE_DURATION = "DISK_RADIUS_ECLIPSE_DURATION_mask.npy"%string /\
  get_name FX_MAP = "Fx Map"%string /\ unit_display ECLIPSE_DURATION = "Eclipse Duration"%string /\ List.length fixed_files = 11.
Proof. repeat split. Qed.

(** C64.  A property survives save and load: everything but the contrast, which is set anew. *)
Theorem C64_survives {T} {NT : Num T} {LT : NumLaws T} (f f' : fs T) d (p : gprop T) :
  preach p -> reachable (p_params p) ->
  (p_mask p = None -> fs_get f (under d (mask_file (p_name p) (p_unit p))) = None) ->
  run f (gprop_save p d) = (f', Ok tt) ->
  gprop_load f' (PStr d) (EIs (p_name p)) (EIs (p_unit p)) = Ok (fst (set_contrast_default p)).
Proof. exact (@prop_load_save T NT LT f f' d p). Qed.
Print Assumptions C64_survives.

Theorem C64_save_succeeds {T} {NT : Num T} (f : fs T) d (p : gprop T) : usable f d ->
  (forall n, In n (map fst (gprop_files p ++ params_files (p_params p))) -> fs_get f (under d n) <> Some NDir) ->
  exists f', run f (gprop_save p d) = (f', Ok tt).
Proof. exact (@prop_save_succeeds T f d p). Qed.
Print Assumptions C64_save_succeeds.

Example C64_ex (x y : xr) : exists (p : gprop xr) f', preach p /\ reachable (p_params p) /\ p_mask p <> None /\
  run [] (gprop_save p "d") = (f', Ok tt).
Proof.
  destruct (prop_ex x y DISK_RADIUS DEGREE) as (p & Hp & Hr & _ & _ & _ & _ & Hm). destruct (save_new p) as [f' Hf].
  exists p, f'. split; [exact Hp|]. split; [exact Hr|]. split; [congruence|exact Hf].
Qed.

(** C65.  Saving over an older save leaves the older mask or measurement in place, and it comes back. *)
Theorem C65_stale_mask {T} {NT : Num T} {LT : NumLaws T} (f f1 f2 : fs T) d (p q : gprop T) m :
  preach p -> reachable (p_params p) -> p_mask p = None -> p_mask q = Some m ->
  p_name q = p_name p -> p_unit q = p_unit p ->
  run f (gprop_save q d) = (f1, Ok tt) -> run f1 (gprop_save p d) = (f2, Ok tt) ->
  exists r, gprop_load f2 (PStr d) (EIs (p_name p)) (EIs (p_unit p)) = Ok r /\ p_data r = p_data p /\ p_mask r = Some m.
Proof. exact (@prop_overwrite T NT LT f f1 f2 d p q m). Qed.
Print Assumptions C65_stale_mask.

Theorem C65_stale_measurement {T} {NT : Num T} {LT : NumLaws T} fmt (g : ggrad T) d (f f' : fs T) dt sh el :
  measured g -> reachable (p_params (gg_prop g)) ->
  small (gg_pos g) -> is_bool_v (gg_pos g) = false -> gg_meas g = None ->
  fs_get f (under (gradient_dir fmt g d) "mask_values.npy") = Some (NFile (CNpy dt sh el)) ->
  run f (grad_save fmt g d) = (f', Ok tt) ->
  forall g', grad_load f' (gradient_dir fmt g d) = Ok g' -> gg_meas g' <> None.
Proof. exact (@grad_stale_values T NT LT fmt g d f f' dt sh el). Qed.
Print Assumptions C65_stale_measurement.

Example C65_ex (x y : xr) : exists (p q : gprop xr) m f1 f2, preach p /\ reachable (p_params p) /\ p_mask p = None /\ p_mask q = Some m /\
  p_name q = p_name p /\ p_unit q = p_unit p /\ run [] (gprop_save q "d") = (f1, Ok tt) /\ run f1 (gprop_save p "d") = (f2, Ok tt).
Proof.
  destruct (prop_ex_unmasked x y DISK_RADIUS DEGREE) as (p & Hp & Hr & Hn & Hu & _ & _ & Hm).
  destruct (prop_ex y x DISK_RADIUS DEGREE) as (q & _ & _ & Hn' & Hu' & _ & _ & Hm').
  destruct (save_new q) as [f1 Hf]. destruct (@C64_save_succeeds xr _ f1 "d" p) as [f2 Hf2].
  - replace f1 with (fst (run [] (gprop_save q "d"))) by now rewrite Hf. left. change (gprop_save q "d") with ([SMkdirIf "d"] ++ tl (gprop_save q "d")).
    erewrite run_app by reflexivity. apply run_dir; [|reflexivity]. intros s Hs. assert (X : In s (gprop_save q "d")) by (right; exact Hs).
    apply gprop_save_steps in X. destruct X as [->|(? & ? & -> & _)]; intros [].
  - intros n _. replace f1 with (fst (run [] (gprop_save q "d"))) by now rewrite Hf. apply run_notdir; [|discriminate].
    intros s Hs. apply gprop_save_steps in Hs. destruct Hs as [->|(? & ? & -> & _)]; [|intros []]. apply under_neq.
  - exists p, q. eexists. exists f1, f2. rewrite Hm, Hm', Hn, Hn', Hu, Hu'. auto 10.
Qed.

(** C66.  Interrupted saves into a new place. *)
Theorem C66_property {T} {NT : Num T} {LT : NumLaws T} (f f' : fs T) d (p : gprop T) :
  preach p -> reachable (p_params p) ->
  fs_get f (under d "rf_array.npy") = None ->
  (p_mask p = None -> fs_get f (under d (mask_file (p_name p) (p_unit p))) = None) ->
  crash f (gprop_save p d) f' ->
  gprop_load f' (PStr d) (EIs (p_name p)) (EIs (p_unit p)) = Err LoadErr \/
  gprop_load f' (PStr d) (EIs (p_name p)) (EIs (p_unit p)) = Ok (fst (set_contrast_default p)).
Proof. exact (@prop_interrupted T NT LT f f' d p). Qed.
Print Assumptions C66_property.

(** a gradient's may also be read back as never measured *)
Theorem C66_gradient {T} {NT : Num T} {LT : NumLaws T} fmt (g : ggrad T) d (f f' : fs T) :
  measured g -> reachable (p_params (gg_prop g)) -> storable g ->
  let gd := gradient_dir fmt g d in
  fs_get f (under gd "position.npy") = None -> fs_get f (under gd "mask_values.npy") = None ->
  crash f (grad_save fmt g d) f' ->
  grad_load f' gd = Err LoadErr \/ (exists g', grad_load f' gd = Ok g' /\ (same_grad g g' \/ same_grad (unmeasured_of g) g')).
Proof. exact (@grad_interrupted T NT LT fmt g d f f'). Qed.
Print Assumptions C66_gradient.

Theorem C66_gradient_refuted {T} {NT : Num T} {LT : NumLaws T} fmt (g : ggrad T) d (f f' : fs T) :
  measured g -> reachable (p_params (gg_prop g)) -> storable g ->
  let gd := gradient_dir fmt g d in
  fs_get f (under gd "mask_values.npy") = None -> run f (grad_save fmt g d) = (f', Ok tt) ->
  exists f'' g', crash f (grad_save fmt g d) f'' /\ grad_load f'' gd = Ok g' /\ gg_meas g' = None /\ p_mask (gg_prop g') = None.
Proof. exact (@grad_interrupted_loses T NT LT fmt g d f f'). Qed.
Print Assumptions C66_gradient_refuted.

Example C66_ex (x y : xr) : exists (p : gprop xr) f', preach p /\ reachable (p_params p) /\ p_mask p <> None /\
  crash [] (gprop_save p "d") f' /\ gprop_load f' (PStr "d") (EIs (p_name p)) (EIs (p_unit p)) = Err LoadErr.
Proof.
  destruct (prop_ex x y DISK_RADIUS DEGREE) as (p & Hp & Hr & _ & _ & _ & _ & Hm). exists p, []. split; [exact Hp|]. split; [exact Hr|].
  split; [congruence|]. split; [|reflexivity]. change ([] : fs xr) with (fst (run [] (firstn 0 (gprop_save p "d")))) at 2. constructor.
Qed.
