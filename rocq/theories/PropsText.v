(** Property theorems for written numbers and printed texts (C70-C73).
    [fmt] stands for "{:.kf}", [mean] and [median] for np.nanmean and np.nanmedian; [fmt_fixed] is "{:.kf}" of binary64. *)
From Coq Require Import ZArith Reals List Bool String Lra Lia.
From Flocq Require Import BinarySingleNaN.
From Verif Require Import Num NumP Py SpecNum Ring FS FSP GridParams SpecGrid GridProp SpecProp Names Geometry Build Shallot AddLaws ShallotOps SpecOps SpecSave
  Fmt SpecFmt FmtP Text SpecText GridPropFSP GridGradP SaveLoadP OpsExP TextP TextGridP TextRingP GradDirP TextExP.
From Verif Require RingSystem.
Import ListNotations.
Local Open Scope string_scope.
Local Open Scope list_scope.

(** C70.  Numbers are written correctly rounded, ties to even. *)
Theorem C70_rounded k (x : f64) : is_finite x = true ->
  exists n, (0 <= n)%Z /\ read_number (fmt_fixed k x) = Some (Bsign x, n, k) /\
    nearest_even (Rabs (B2R x) * IZR (10 ^ Z.of_nat k)) n.
Proof. exact (fmt_spec k x). Qed.
Print Assumptions C70_rounded.
Theorem C70_special k : fmt_fixed k B754_nan = "nan" /\ fmt_fixed k (B754_infinity false) = "inf" /\ fmt_fixed k (B754_infinity true) = "-inf".
Proof. exact (fmt_special k). Qed.
Print Assumptions C70_special.
(** the same text: same sign and same rounded value *)
Theorem C70_same k (x y : f64) : is_finite x = true -> is_finite y = true ->
  (fmt_fixed k x = fmt_fixed k y <-> Bsign x = Bsign y /\
     exists n, nearest_even (Rabs (B2R x) * IZR (10 ^ Z.of_nat k)) n /\ nearest_even (Rabs (B2R y) * IZR (10 ^ Z.of_nat k)) n).
Proof. exact (fmt_same k x y). Qed.
Print Assumptions C70_same.
Theorem C70_apart k (x y : f64) : is_finite x = true -> is_finite y = true ->
  (/ IZR (10 ^ Z.of_nat k) < Rabs (B2R x - B2R y))%R -> fmt_fixed k x <> fmt_fixed k y.
Proof. exact (fmt_apart k x y). Qed.
Print Assumptions C70_apart.
(** 2.675 (slightly less than that in binary64), 1/8, -10^-5, 1234.5 *)
Example C70_ex : fmt_fixed 2 (n_div (n_ofZ 2675) (n_ofZ 1000)) = "2.67" /\ fmt_fixed 2 (n_div (n_ofZ 1) (n_ofZ 8)) = "0.12" /\
  fmt_fixed 4 (n_div (n_ofZ (-1)) (n_ofZ 100000)) = "-0.0000" /\ fmt_fixed 4 (n_div (n_ofZ 2469) (n_ofZ 2)) = "1234.5000".
Proof. repeat split; vm_compute; exact eq_refl. Qed.

(** C71.  Two gradients share a directory exactly if their positions have the same sign and the same value to four decimals. *)
Theorem C71_directory (g1 g2 : ggrad f64) d : is_finite (num_of (gg_pos g1)) = true -> is_finite (num_of (gg_pos g2)) = true ->
  (gradient_dir (fmt_fixed 4) g1 d = gradient_dir (fmt_fixed 4) g2 d <->
   Bsign (num_of (gg_pos g1)) = Bsign (num_of (gg_pos g2)) /\
   exists n, decimals4 (num_of (gg_pos g1)) n /\ decimals4 (num_of (gg_pos g2)) n).
Proof. exact (dir_same g1 g2 d). Qed.
Print Assumptions C71_directory.
(** more than 10^-4 apart: both come back *)
Theorem C71_apart (g1 g2 : ggrad f64) d (f f1 f2 : fs f64) : let fmt := fmt_fixed 4 in
  measured g1 -> reachable (p_params (gg_prop g1)) -> storable g1 ->
  measured g2 -> reachable (p_params (gg_prop g2)) -> storable g2 ->
  is_finite (num_of (gg_pos g1)) = true -> is_finite (num_of (gg_pos g2)) = true ->
  (/ 10000 < Rabs (B2R (num_of (gg_pos g1)) - B2R (num_of (gg_pos g2))))%R ->
  (gg_meas g1 = None -> fs_get f (under (gradient_dir fmt g1 d) "mask_values.npy") = None) ->
  (gg_meas g2 = None -> fs_get f (under (gradient_dir fmt g2 d) "mask_values.npy") = None) ->
  run f (grad_save fmt g1 d) = (f1, Ok tt) -> run f1 (grad_save fmt g2 d) = (f2, Ok tt) ->
  exists h1 h2, grad_load f2 (gradient_dir fmt g1 d) = Ok h1 /\ same_grad g1 h1 /\
    grad_load f2 (gradient_dir fmt g2 d) = Ok h2 /\ same_grad g2 h2.
Proof. exact (@dir_apart g1 g2 d f f1 f2). Qed.
Print Assumptions C71_apart.
(** the same name: the later gradient replaces the earlier one *)
Theorem C71_last {T} {NT : Num T} {LT : NumLaws T} fmt (g1 g2 : ggrad T) d (f f1 f2 : fs T) :
  measured g2 -> reachable (p_params (gg_prop g2)) -> storable g2 -> gg_meas g2 <> None ->
  fmt (num_of (gg_pos g1)) = fmt (num_of (gg_pos g2)) ->
  run f (grad_save fmt g1 d) = (f1, Ok tt) -> run f1 (grad_save fmt g2 d) = (f2, Ok tt) ->
  gradient_dir fmt g1 d = gradient_dir fmt g2 d /\
  exists h, grad_load f2 (gradient_dir fmt g1 d) = Ok h /\ same_grad g2 h.
Proof. exact (@last_loads T NT LT fmt g1 g2 d f f1 f2). Qed.
Print Assumptions C71_last.
(** an unmeasured gradient takes the measurement of the earlier one *)
Theorem C71_mixed {T} {NT : Num T} {LT : NumLaws T} fmt (g1 g2 : ggrad T) d (f f1 f2 : fs T) m o t e :
  measured g1 -> storable g1 -> gg_meas g1 = Some m -> gg_orb g1 = Some o -> gg_trans g1 = Some t -> gg_err g1 = Some e ->
  measured g2 -> reachable (p_params (gg_prop g2)) -> storable g2 -> gg_meas g2 = None ->
  fmt (num_of (gg_pos g1)) = fmt (num_of (gg_pos g2)) ->
  run f (grad_save fmt g1 d) = (f1, Ok tt) -> run f1 (grad_save fmt g2 d) = (f2, Ok tt) ->
  exists gm h, determine_mask g2 m o (Some t) (Some e) = (gm, Ok tt) /\ grad_load f2 (gradient_dir fmt g2 d) = Ok h /\ same_grad gm h.
Proof. exact (@first_measurement T NT LT fmt g1 g2 d f f1 f2 m o t e). Qed.
Print Assumptions C71_mixed.
(** the names of the directories, as assumed by C55 and C56 *)
Theorem C71_names (E : env f64) (l : list (ggrad f64)) : e_fmt E = fmt_fixed 4 ->
  Forall (printed E) l /\ Forall (fun g => pointed E g = is_finite (num_of (gg_pos g))) l.
Proof. exact (@python_printed E l). Qed.
Print Assumptions C71_names.
Theorem C71_distinct_refuted :
  ~ (forall (g1 g2 : ggrad f64) d (f f1 f2 : fs f64), let fmt := fmt_fixed 4 in
     measured g1 -> reachable (p_params (gg_prop g1)) -> storable g1 ->
     measured g2 -> reachable (p_params (gg_prop g2)) -> storable g2 ->
     val (num_of (gg_pos g1)) <> val (num_of (gg_pos g2)) ->
     (forall n, fs_get f (under (gradient_dir fmt g1 d) n) = None) -> (forall n, fs_get f (under (gradient_dir fmt g2 d) n) = None) ->
     run f (grad_save fmt g1 d) = (f1, Ok tt) -> run f1 (grad_save fmt g2 d) = (f2, Ok tt) ->
     exists h, grad_load f2 (gradient_dir fmt g1 d) = Ok h /\ same_grad g1 h).
Proof. exact both_load_refuted. Qed.
Print Assumptions C71_distinct_refuted.
Theorem C71_own_measurement_refuted :
  ~ (forall (g1 g2 : ggrad f64) d (f f1 f2 : fs f64), let fmt := fmt_fixed 4 in
     measured g1 -> reachable (p_params (gg_prop g1)) -> storable g1 ->
     measured g2 -> reachable (p_params (gg_prop g2)) -> storable g2 ->
     val (num_of (gg_pos g1)) <> val (num_of (gg_pos g2)) ->
     (forall n, fs_get f (under (gradient_dir fmt g1 d) n) = None) -> (forall n, fs_get f (under (gradient_dir fmt g2 d) n) = None) ->
     run f (grad_save fmt g1 d) = (f1, Ok tt) -> run f1 (grad_save fmt g2 d) = (f2, Ok tt) ->
     exists h, grad_load f2 (gradient_dir fmt g2 d) = Ok h /\ same_grad g2 h).
Proof. exact unmeasured_loads_refuted. Qed.
Print Assumptions C71_own_measurement_refuted.
Example C71_ex : exists g1 g2 : ggrad f64, measured g1 /\ storable g1 /\ gg_meas g1 = Some (PInt 0) /\
  measured g2 /\ reachable (p_params (gg_prop g2)) /\ storable g2 /\ gg_meas g2 = None /\
  fmt_fixed 4 (num_of (gg_pos g1)) = fmt_fixed 4 (num_of (gg_pos g2)) /\
  exists f1 f2, run [("d", NDir)] (grad_save (fmt_fixed 4) g1 "d") = (f1, Ok tt) /\ run f1 (grad_save (fmt_fixed 4) g2 "d") = (f2, Ok tt).
Proof.
  destruct grad_zero_ex as (g1 & g2 & M1 & R1 & S1 & P1 & X1 & X2 & X3 & X4 & M2 & R2 & S2 & P2 & N2). exists g1, g2.
  destruct (measured_inv M1) as (_ & _ & I1 & J1 & _). destruct (measured_inv M2) as (_ & _ & I2 & J2 & _).
  split; [exact M1|]. split; [exact S1|]. split; [exact X1|]. split; [exact M2|]. split; [exact R2|]. split; [exact S2|]. split; [exact N2|].
  split; [rewrite P1, P2; destruct pos_ab as (Qa & Qb & _); change (fmt_fixed 4 pos_a = fmt_fixed 4 pos_b); rewrite Qa, Qb; reflexivity|].
  exact (two_saves g1 g2 I1 J1 I2 J2 P1 P2).
Qed.

(** C72.  Which properties, gradients and grids can be printed; the failing ones raise TypeError. *)
Theorem C72_property {T} {NT : Num T} {LT : NumLaws T} fmt mean median (p : gprop T) : preach p ->
  (limited p -> exists t, gprop_repr fmt mean median p = Ok t) /\ (~ limited p -> gprop_repr fmt mean median p = Err TypeError).
Proof. exact (@prop_prints T NT LT fmt mean median p). Qed.
Print Assumptions C72_property.
Theorem C72_property_str {T} {NT : Num T} {LT : NumLaws T} fmt mean median (p : gprop T) : preach p -> reachable (p_params p) ->
  (limited p -> exists t, gprop_str fmt mean median p = Ok t) /\ (~ limited p -> gprop_str fmt mean median p = Err TypeError).
Proof. exact (@str_prints T NT LT fmt mean median p). Qed.
Print Assumptions C72_property_str.
(** a new property: exactly those with a value *)
Theorem C72_new {T} {NT : Num T} {LT : NumLaws T} n u v g (p : gprop T) : arr_wf v -> new_gprop n u v g = Ok p ->
  (limited p <-> exists x, In x (p_data p) /\ val x <> XNaN).
Proof. exact (@unprintable_new T NT LT n u v g p). Qed.
Print Assumptions C72_new.
(** no call repairs one that cannot be printed; set_contrast without limits breaks one whose values were masked away *)
Theorem C72_forever {T} {NT : Num T} {LT : NumLaws T} fmt mean median (p : gprop T) l : preach p -> ~ limited p ->
  gprop_repr fmt mean median (do_pops p l) = Err TypeError.
Proof. exact (@fails_forever T NT LT fmt mean median p l). Qed.
Print Assumptions C72_forever.
Theorem C72_contrast {T} {NT : Num T} {LT : NumLaws T} (p : gprop T) c d :
  (forall x, In x (p_data p) -> val x = XNaN) -> ~ limited (fst (set_contrast p None None c d)).
Proof. exact (@contrast_removes T NT LT p c d). Qed.
Print Assumptions C72_contrast.
Theorem C72_gradient {T} {NT : Num T} {LT : NumLaws T} fmt mean median (g : ggrad T) : greach g ->
  (presentable g -> exists t, ggrad_repr fmt mean median g = Ok t) /\ (~ presentable g -> ggrad_repr fmt mean median g = Err TypeError).
Proof. exact (@grad_prints T NT LT fmt mean median g). Qed.
Print Assumptions C72_gradient.
Theorem C72_grid {T} {NT : Num T} {LT : NumLaws T} {AL : AddLaws T} (E : env T) fmt mean median (s : shallot T) : sreach E s ->
  (printable_grid s -> exists t, shallot_repr fmt mean median s = Ok t) /\ (~ printable_grid s -> shallot_repr fmt mean median s = Err TypeError).
Proof. exact (@grid_prints T NT LT AL E fmt mean median s). Qed.
Print Assumptions C72_grid.
(** a grid just built: exactly if each of its three maps has a value *)
Theorem C72_built {T} {NT : Num T} {LT : NumLaws T} {AL : AddLaws T} (E : env T) fmt mean median g nf ll keep inter og l (s : shallot T) :
  reachable g -> new_shallot E (EIs g) nf ll keep inter = (og, (l, Ok s)) ->
  ((exists t, shallot_repr fmt mean median s = Ok t) <->
   forall p, In p [s_dr s; s_tilt s; s_inc s] -> exists x, In x (p_data p) /\ val x <> XNaN).
Proof. exact (@built_prints T NT LT AL E fmt mean median g nf ll keep inter og l s). Qed.
Print Assumptions C72_built.
Theorem C72_grid_forever {T} {NT : Num T} {LT : NumLaws T} {AL : AddLaws T} (E : env T) fmt mean median (s : shallot T) l p :
  sreach E s -> Forall (@op_wf T) l -> In p [s_dr s; s_tilt s; s_inc s] -> ~ limited p ->
  shallot_repr fmt mean median (do_ops E s l) = Err TypeError.
Proof. exact (@grid_fails_forever T NT LT AL E fmt mean median s l p). Qed.
Print Assumptions C72_grid_forever.
Theorem C72_property_refuted {T} {NT : Num T} {LT : NumLaws T} fmt mean median :
  ~ (forall p : gprop T, preach p -> exists t, gprop_repr fmt mean median p = Ok t).
Proof. exact (@prop_prints_refuted T NT LT fmt mean median). Qed.
Print Assumptions C72_property_refuted.
Theorem C72_gradient_refuted {T} {NT : Num T} {LT : NumLaws T} fmt mean median :
  ~ (forall g : ggrad T, greach g -> limited (gg_prop g) -> exists t, ggrad_repr fmt mean median g = Ok t).
Proof. exact (@grad_prints_refuted T NT LT fmt mean median). Qed.
Print Assumptions C72_gradient_refuted.
Theorem C72_grid_refuted fmt mean median : ~ (forall (E : env f64) (s : shallot f64), sreach E s -> exists t, shallot_repr fmt mean median s = Ok t).
Proof. exact (grid_prints_refuted fmt mean median). Qed.
Print Assumptions C72_grid_refuted.
Example C72_property_ex : exists p q : gprop f64, preach p /\ limited p /\ preach q /\ ~ limited q.
Proof.
  destruct (print_ex (n_one : f64) n_nan) as (p & Hp & _ & _ & Lp). destruct (print_ex (n_nan : f64) n_nan) as (q & Hq & _ & _ & Lq).
  exists p, q. split; [exact Hp|]. split; [apply Lp; left; rewrite RingP.val_one; discriminate|]. split; [exact Hq|].
  rewrite Lq. intros [H|H]; apply H; apply nan_nan.
Qed.
Example C72_grid_ex : exists s, sreach env2 s /\ printable_grid s /\ grads s <> [].
Proof. exact grid_printable. Qed.
Example C72_grid_not_ex : exists s, sreach env2 s /\ ~ printable_grid s /\ limited (s_dr s) /\ limited (s_tilt s) /\ limited (s_inc s).
Proof. exact grid_unprintable. Qed.

(** C73.  The texts of a ring and of a ring system show its numbers, each on its own line. *)
Theorem C73_ring (r : ring f64) : let l := lines_of (ring_str fmt_fixed r) in
  List.length l = 12 /\
  shows l 5 ["Inner"; "Radius:"] "[R*]" 4 (r_in r) /\ shows l 6 ["Outer"; "Radius:"] "[R*]" 4 (r_out r) /\
  shows l 7 ["Transmission:"] "[-]" 4 (r_tr r) /\ shows l 8 ["Inclination:"] "[deg]" 4 (r_inc r) /\ shows l 9 ["Tilt:"] "[deg]" 4 (r_tilt r).
Proof. exact (ring_text r). Qed.
Print Assumptions C73_ring.
Theorem C73_system h (s : RingSystem.rsys f64) : let l := lines_of (rsys_repr fmt_fixed h s) in
  List.length l = 17 + List.length (RingSystem.rings_of h s) + 2 /\
  shows l 8 ["Planet"; "Radius:"] "[R*]" 2 (RingSystem.s_planet s) /\ shows l 9 ["Inclination:"] "[deg]" 2 (RingSystem.s_inc s) /\
  shows l 10 ["Tilt:"] "[deg]" 2 (RingSystem.s_tilt s) /\
  forall i r, nth_error (RingSystem.rings_of h s) i = Some r -> exists line n a b t,
    nth_error l (17 + i) = Some line /\ words line = [n; a; b; t] /\ read_count n = Some (Z.of_nat (i + 1)) /\
    writes 2 (r_in r) a /\ writes 2 (r_out r) b /\ writes 2 (r_tr r) t.
Proof. exact (system_text h s). Qed.
Print Assumptions C73_system.
Example C73_ex : exists (r : ring f64) , lines_of (ring_str fmt_fixed r) =
  [""; "============================"; "***** RING INFORMATION *****"; "============================"; "";
   "Inner Radius:   1.0000 [R*]"; "Outer Radius:   2.5000 [R*]"; "Transmission:   0.5000 [-]"; "Inclination:   30.0000 [deg]"; "Tilt:          -1.0000 [deg]";
   ""; "============================"].
Proof. exists (mkRing (n_ofZ 1) (n_div (n_ofZ 5) (n_ofZ 2)) (n_div (n_ofZ 1) (n_ofZ 2)) (n_ofZ 30) (n_ofZ (-1))). vm_compute. exact eq_refl. Qed.
