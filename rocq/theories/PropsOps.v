(** The methods of a built grid: masks, gradients, the fit, solutions, the closest point and the getters.
    [sreach E s]: the grid [s] was built by the constructor and then changed by any calls. *)
From Coq Require Import ZArith List Bool String Reals Lra Lia.
From Verif Require Import Num NumP Py SpecNum Validate Ring RingSystem FS GridParams SpecGrid GridDiag Names GridProp SpecProp Geometry Build SpecBuild Shallot AddLaws ShallotOps SpecOps
  OpsP OpsReadP OpsEditP OpsGradP OpsFitP OpsPointP OpsExtractP OpsWrapP OpsListP BuildExP OpsExP.
Import ListNotations.
Local Open Scope list_scope.

(** C39.  With a Python number 0 as the transverse velocity, gradients cannot be added. *)
Theorem C39_zero_velocity {T} {NT : Num T} {LT : NumLaws T} (E : env T) (s s' s2 : shallot T) a v u t l e tr x :
  sreach E s -> small a -> small v -> small u -> py_zero v ->
  set_eclipse_parameters a v u s = (s', Ok tt) -> add_gradients E t l e tr s' <> (s2, Ok x).
Proof. exact (@zero_velocity T NT LT E s s' s2 a v u t l e tr x). Qed.
Print Assumptions C39_zero_velocity.
(** although set_eclipse_parameters accepts it *)
Theorem C39_zero_accepted {T} {NT : Num T} {LT : NumLaws T} {AL : AddLaws T} (E : env T) (s : shallot T) a u v :
  sreach E s -> small a -> small v -> small u -> py_zero v ->
  numberlike a -> ~ xlt (value a) (XFin 0) -> numberlike u -> ~ xlt (value u) (XFin 0) -> ~ xlt (XFin 1) (value u) ->
  exists s', set_eclipse_parameters a v u s = (s', Ok tt).
Proof. exact (@zero_accepted T NT LT AL E s a u v). Qed.
Print Assumptions C39_zero_accepted.
Example C39_zero_ex : holds [OEclipse (PInt 2) (PInt 0) (PInt 0)] (fun s => match s_vel s with Some (PInt 0) => true | _ => false end
  && is_err ZeroDivision (snd (add_gradients env2 (F [10]%Z) (F [1]%Z) None None s)) && match s_grads s with None => true | _ => false end) /\
  holds [OEclipse (PInt 2) (PInt 3) (PInt 0)] (fun s => is_ok (snd (add_gradients env2 (F [10]%Z) (F [1]%Z) None None s))).
Proof. split; vm_compute; exact eq_refl. Qed.

(** C43.  The combined mask is the union of the masks. *)
Theorem C43_union {T} {NT : Num T} {LT : NumLaws T} {AL : AddLaws T} (E : env T) (s : shallot T) :
  sreach E s -> exists m, combined_mask s = Ok m /\ List.length m = points s /\
  forall i, i < points s -> (nth i m false = true <-> masked_at s i).
Proof. exact (@union_of_masks T NT LT AL E s). Qed.
Print Assumptions C43_union.
Example C43_ex : holds ops2 (fun s => match combined_mask s with Ok m => Nat.eqb (List.length m) 75 && nth 0 m false && negb (nth 3 m true) | Err _ => false end
  && match s_grads s with Some gs => existsb (fun g => marked (p_mask (gg_prop g)) 0) gs && existsb (fun g => negb (marked (p_mask (gg_prop g)) 0)) gs | None => false end).
Proof. vm_compute. exact eq_refl. Qed.

(** C44.  The Hill mask marks exactly the points whose stored disk radius is NaN or larger. *)
Theorem C44_exact {T} {NT : Num T} {LT : NumLaws T} {AL : AddLaws T} (E : env T) (s : shallot T) h :
  sreach E s -> small h -> numberlike h -> ~ xlt (value h) (XFin 0) ->
  exists s', generate_hill_radius_mask h s = (s', Ok tt) /\ p_data (s_dr s') = p_data (s_dr s) /\ (forall w, w <> WRadius -> the_cube w s' = the_cube w s) /\
  forall i x, nth_error (p_data (s_dr s)) i = Some x -> marked (p_mask (s_dr s')) i = true <-> val x = XNaN \/ xlt (value h) (val x).
Proof. exact (@hill_mask_exact T NT LT AL E s h). Qed.
Print Assumptions C44_exact.
(** once the masked radii have been read the masked points stay masked, whatever happens and whatever the radius *)
Theorem C44_stays {T} {NT : Num T} {LT : NumLaws T} {AL : AddLaws T} (E : env T) (s : shallot T) b i l h :
  sreach E s -> i < points s -> masked_at s i -> Forall (@op_wf T) l ->
  small h -> numberlike h -> ~ xlt (value h) (XFin 0) ->
  let s' := do_ops E (do_op E s (OGet WRadius (PBool true) (PBool b))) l in
  marked (p_mask (s_dr (do_op E s' (OHill h)))) i = true.
Proof. exact (@hill_cannot_relax T NT LT AL E s b i l h). Qed.
Print Assumptions C44_stays.
(** so the mask cannot be relaxed *)
Theorem C44_refuted  :
  ~ (forall (E : env f64) s b h k i x, sreach E s -> small h -> small k -> numberlike h -> numberlike k ->
  xle (XFin 0) (value h) -> xle (value h) (value k) -> nth_error (p_data (s_dr s)) i = Some x -> xle (val x) (value k) ->
  marked (p_mask (s_dr (do_ops E s [OHill h; OGet WRadius (PBool true) (PBool b); OHill k]))) i = false).
Proof. exact (hill_refuted). Qed.
Print Assumptions C44_refuted.
Example C44_ex : holds [OHill (PInt 5)] (fun s => marked (p_mask (s_dr s)) 0 && negb (marked (p_mask (s_dr s)) 7) && n_gt (num_at (p_data (s_dr s)) 0) (n_ofZ 5) && n_lt (num_at (p_data (s_dr s)) 7) (n_ofZ 5))
  /\ holds [OHill (PInt 5); OGet WRadius (PBool true) (PBool true); OGet WTilt (PBool true) (PBool true); OHill (PInt 100)] (fun s => marked (p_mask (s_dr s)) 0 && negb (marked (p_mask (s_dr s)) 7)).
Proof. split; vm_compute; exact eq_refl. Qed.

(** C45.  What add_gradients appends: per time, in order, a gradient at -time / eclipse duration with the given
    measurement, error and transmission, its value at every point, and its mask. *)
Theorem C45_added {T} {NT : Num T} {LT : NumLaws T} {AL : AddLaws T} (E : env T) (s s' : shallot T) t l e tr u d v :
  sreach E s -> arr_wf t -> arr_wf l -> o_wf e -> o_wf tr ->
  s_limb s = Some u -> s_ecl s = Some d -> s_vel s = Some v -> add_gradients E t l e tr s = (s', Ok tt) ->
  exists ts ls es trs o new, t = farr ts /\ l = farr ls /\ given e ls es /\ given tr ls trs /\ List.length ls = List.length ts /\ List.length es = List.length ts /\ List.length trs = List.length ts /\
    determine_orbital_scale E s = Ok o /\
    s' = with_grads s (Some (dflt [] (s_grads s) ++ new)) None /\ List.length new = List.length ts /\
    forall k time lc er tm, nth_error ts k = Some time -> nth_error ls k = Some lc -> nth_error es k = Some er -> nth_error trs k = Some tm ->
      exists g, nth_error new k = Some g /\
        let pos := n_div (n_neg time) (num_of d) in
        let r := n_mul (n_abs lc) (n_mul (num_of o) (n_div n_one tm)) in
        gg_pos g = PNpFloat pos /\ gg_meas g = Some (PNpFloat (n_abs lc)) /\ gg_err g = Some (PNpFloat er) /\ gg_orb g = Some o /\ gg_trans g = Some (PNpFloat tm) /\ scaled_gradient g = Ok (Some r) /\ ~ xlt (XFin 1) (val r) /\
        p_shape (gg_prop g) = shape3 (s_params s) /\
        forall y x q dx dy fx fy, nth_error (g_dy (s_params s)) y = Some dy -> nth_error (g_dx (s_params s)) x = Some dx -> q < List.length (g_rfa (s_params s)) ->
          nth_error (p_data (s_fx s)) (place s y x q) = Some fx -> nth_error (p_data (s_fy s)) (place s y x q) = Some fy ->
          exists gv, gv = gradient_at (e_libm E) pos dx dy (shear_at dx dy) fx fy /\ nth_error (p_data (gg_prop g)) (place s y x q) = Some gv /\
            (marked (p_mask (gg_prop g)) (place s y x q) = true <-> val gv = XNaN \/ xlt (val gv) (val r)).
Proof. exact (@added T NT LT AL E s s' t l e tr u d v). Qed.
Print Assumptions C45_added.
(** without eclipse parameters nothing happens *)
Theorem C45_nothing {T} {NT : Num T} (E : env T) (s : shallot T) t l e tr :
  s_limb s = None \/ s_ecl s = None \/ s_vel s = None -> add_gradients E t l e tr s = (s, Ok tt).
Proof. exact (@add_without T NT E s t l e tr). Qed.
Print Assumptions C45_nothing.
(** removing distinct positions *)
Theorem C45_removed {T} {NT : Num T} {LT : NumLaws T} (s : shallot T) gs is :
  s_grads s = Some gs -> (Z.of_nat (List.length gs) <= 2 ^ 53)%Z -> gs <> [] -> NoDup is ->
  (forall z, In z is -> (0 <= z < Z.of_nat (List.length gs))%Z) ->
  remove_gradients (indices is) s = (with_grads s (Some (pick gs (without (List.length gs) is))) None, Ok tt).
Proof. exact (@remove_exact T NT LT s gs is). Qed.
Print Assumptions C45_removed.
Example C45_ex : holds ops2 (fun s => match s_grads s with Some [a; b; c] => n_eq (num_of (gg_pos a)) (n_div (n_ofZ (-1)) (n_ofZ 2)) && n_eq (num_of (gg_pos b)) (n_ofZ 1) && n_eq (num_of (gg_pos c)) (n_div (n_ofZ (-1)) (n_ofZ 4))
   && match s_grads (fst (remove_gradients (indices [2; 0]%Z) s)) with Some [d] => n_eq (num_of (gg_pos d)) (n_ofZ 1) | _ => false end | _ => false end).
Proof. vm_compute. exact eq_refl. Qed.

(** C46.  With a repeated position, either IndexError is raised with some gradients already deleted and the fit
    kept, or a gradient is deleted that was not named. *)
Theorem C46_repeated {T} {NT : Num T} {LT : NumLaws T} (s s' : shallot T) gs is r :
  s_grads s = Some gs -> (Z.of_nat (List.length gs) <= 2 ^ 53)%Z -> ~ NoDup is ->
  (forall z, In z is -> (0 <= z < Z.of_nat (List.length gs))%Z) ->
  remove_gradients (indices is) s = (s', r) ->
  exists ks, NoDup ks /\ Forall (fun k => k < List.length gs) ks /\
    ((r = Err IndexError /\ s' = with_grads s (Some (pick gs ks)) (s_fit s) /\ List.length ks < List.length gs) \/
     (r = Ok tt /\ s' = with_grads s (Some (pick gs ks)) None /\ List.length ks + List.length is = List.length gs /\
      exists k, k < List.length gs /\ ~ In (Z.of_nat k) is /\ ~ In k ks)).
Proof. exact (@remove_repeated T NT LT s s' gs is r). Qed.
Print Assumptions C46_repeated.
Theorem C46_refuted  :
  ~ (forall (E : env f64) s gs is, sreach E s -> s_grads s = Some gs -> (forall z, In z is -> (0 <= z < Z.of_nat (List.length gs))%Z) ->
  remove_gradients (indices is) s = (with_grads s (Some (pick gs (without (List.length gs) is))) None, Ok tt)).
Proof. exact (remove_refuted). Qed.
Print Assumptions C46_refuted.
Example C46_ex : holds ops2 (fun s => match s_grads (fst (remove_gradients (indices [0; 0]%Z) s)) with Some [d] => n_eq (num_of (gg_pos d)) (n_div (n_ofZ (-1)) (n_ofZ 4)) | _ => false end
   && is_err IndexError (snd (remove_gradients (indices [2; 2]%Z) s)) && match s_grads (fst (remove_gradients (indices [2; 2]%Z) s)), s_fit (fst (remove_gradients (indices [2; 2]%Z) s)) with Some [_; _], Some _ => true | _, _ => false end).
Proof. vm_compute. exact eq_refl. Qed.

(** C47.  A call that changes the gradients and returns leaves no fit behind. *)
Theorem C47_cleared {T} {NT : Num T} {LT : NumLaws T} {AL : AddLaws T} (E : env T) (s : shallot T) o :
  sreach E s -> changes s o -> returns E s o -> s_fit (do_op E s o) = None.
Proof. exact (@change_clears T NT LT AL E s o). Qed.
Print Assumptions C47_cleared.
(** so that a fit found later was made after it *)
Theorem C47_later {T} {NT : Num T} {LT : NumLaws T} {AL : AddLaws T} (E : env T) (s : shallot T) o l :
  sreach E s -> changes s o -> returns E s o -> s_fit (do_ops E (do_op E s o) l) <> None -> exists w, In (OFit w) l.
Proof. exact (@fit_is_new T NT LT AL E s o l). Qed.
Print Assumptions C47_later.
(** and there is a fit only if there are gradients *)
Theorem C47_gradients {T} {NT : Num T} {LT : NumLaws T} {AL : AddLaws T} (E : env T) (s : shallot T) p :
  sreach E s -> s_fit s = Some p -> s_grads s <> None.
Proof. exact (@fit_needs_gradients T NT LT AL E s p). Qed.
Print Assumptions C47_gradients.
Example C47_ex : holds ops2 (fun s => match s_fit s with Some _ => true | None => false end) /\ holds (ops2 ++ [ORemove (indices [0]%Z)]) (fun s => match s_fit s, s_grads s with None, Some [_; _] => true | _, _ => false end)
  /\ holds (ops2 ++ [OScale (Some (PInt 4)) None None]) (fun s => match s_fit s, s_grads s with None, Some [_; _; _] => true | _, _ => false end).
Proof. split; [|split]; vm_compute; exact eq_refl. Qed.

(** C48.  The fit is the sum of the terms, NaN and masked exactly where a term is NaN, and never negative. *)
Theorem C48_sum {T} {NT : Num T} {LT : NumLaws T} {AL : AddLaws T} (E : env T) (s s' : shallot T) w gs :
  sreach E s -> s_grads s = Some gs -> determine_gradient_fit w s = (s', Ok tt) ->
  exists p, s' = with_grads s (Some gs) (Some p) /\ List.length (p_data p) = points s /\
  forall i, i < points s -> exists ts v, Forall2 (term_of w i) gs ts /\ nth_error (p_data p) i = Some v /\ v = fold_left n_add ts n_zero /\
    (val v = XNaN <-> exists t, In t ts /\ val t = XNaN) /\ (marked (p_mask p) i = true <-> val v = XNaN) /\ (val v <> XNaN -> xle (XFin 0) (val v)).
Proof. exact (@fit_sum T NT LT AL E s s' w gs). Qed.
Print Assumptions C48_sum.
(** it is found whenever every gradient has been measured, and has an error if the sum is weighted *)
Theorem C48_total {T} {NT : Num T} {LT : NumLaws T} (E : env T) (s : shallot T) w gs :
  sreach E s -> s_grads s = Some gs ->
  (forall g, In g gs -> (exists sc, scaled_gradient g = Ok (Some sc)) /\ (w = true -> gg_err g <> None)) -> exists s', determine_gradient_fit w s = (s', Ok tt).
Proof. exact (@fit_total T NT LT E s w gs). Qed.
Print Assumptions C48_total.
(** a failing call changes nothing *)
Theorem C48_failed {T} {NT : Num T} {LT : NumLaws T} (s s' : shallot T) w e :
  determine_gradient_fit w s = (s', Err e) -> s' = s.
Proof. exact (@fit_failure T NT LT s s' w e). Qed.
Print Assumptions C48_failed.
(** over the reals it is the sum *)
Theorem C48_reals (E : env xr) (s s' : shallot xr) w gs :
  sreach E s -> s_grads s = Some gs -> determine_gradient_fit w s = (s', Ok tt) ->
  exists p, s_fit s' = Some p /\ forall i rs, i < points s -> Forall2 (fun g r => term_of w i g (XFin r)) gs rs ->
    nth_error (p_data p) i = Some (XFin (fold_left Rplus rs 0%R)) /\ marked (p_mask p) i = false.
Proof. exact (@fit_reals E s s' w gs). Qed.
Print Assumptions C48_reals.
Example C48_ex : holds ops2 (fun s => match s_fit s with Some p => n_lt n_zero (num_at (p_data p) 3) && negb (marked (p_mask p) 3) && n_isnan (num_at (p_data p) 22) && marked (p_mask p) 22 | None => false end
  && is_ok (snd (determine_gradient_fit true s))).
Proof. vm_compute. exact eq_refl. Qed.

(** C49.  When the fit is a number at every unmasked point: the k solutions are those of k different unmasked
    points, in order of the fit, none worse than a point left out. *)
Theorem C49_best {T} {NT : Num T} {LT : NumLaws T} {AL : AddLaws T} (E : env T) (s : shallot T) p is v k :
  sreach E s -> s_fit s = Some p -> fit_finite s p -> unmasked s is -> asks v (List.length is) k ->
  exists s' qs l, extract_solutions v s = (s', Ok l) /\ List.length l = k /\ NoDup qs /\ Forall2 (at_point s p) qs l /\
    (forall a b x y, a < b -> nth_error l a = Some x -> nth_error l b = Some y -> xle (val (fst x)) (val (fst y))) /\
    (forall z, In z l -> forall q z', at_point s p q z' -> ~ In q qs -> xle (val (fst z)) (val (fst z'))).
Proof. exact (@extract_best_r T NT LT AL E s p is v k). Qed.
Print Assumptions C49_best.
(** any other number of solutions is refused *)
Theorem C49_refused {T} {NT : Num T} {LT : NumLaws T} {AL : AddLaws T} (E : env T) (s : shallot T) v is :
  sreach E s -> unmasked s is -> (forall k, ~ asks (Some v) (List.length is) k) ->
  exists e, extract_solutions (Some v) s = (s, Err e) /\ (e = TypeError \/ e = ValueError).
Proof. exact (@extract_refused_r T NT LT AL E s v is). Qed.
Print Assumptions C49_refused.
(** without a fit *)
Theorem C49_nofit {T} {NT : Num T} {LT : NumLaws T} {AL : AddLaws T} (E : env T) (s : shallot T) v is k :
  sreach E s -> s_fit s = None -> unmasked s is -> asks v (List.length is) k ->
  extract_solutions v s = (s, match k with O => Ok [] | S _ => Err AttributeError end).
Proof. exact (@extract_none_r T NT LT AL E s v is k). Qed.
Print Assumptions C49_nofit.
Example C49_ex : holds ops2 (fun s => fit_ok_b s && Nat.eqb (open_points s) 24 && match snd (extract_solutions (Some (PInt 3)) s) with Ok [a; b; c] => n_le (fst a) (fst b) && n_lt (fst b) (fst c) | _ => false end
  && match snd (extract_solutions None s) with Ok l => Nat.eqb (List.length l) 24 | Err _ => false end).
Proof. vm_compute. exact eq_refl. Qed.

(** C50.  A second call goes on where the first ended. *)
Theorem C50_continues {T} {NT : Num T} {LT : NumLaws T} {AL : AddLaws T} (E : env T) (s s2 : shallot T) p is n m l :
  sreach E s -> s_fit s = Some p -> unmasked s is -> n + m <= List.length is ->
  extract_solutions (Some (PInt (Z.of_nat (n + m)))) s = (s2, Ok l) ->
  exists s1, extract_solutions (Some (PInt (Z.of_nat n))) s = (s1, Ok (firstn n l)) /\ extract_solutions (Some (PInt (Z.of_nat m))) s1 = (s2, Ok (skipn n l)).
Proof. exact (@extract_continues_r T NT LT AL E s s2 p is n m l). Qed.
Print Assumptions C50_continues.
(** after all solutions have been extracted, asking for all raises ValueError *)
Theorem C50_all_again {T} {NT : Num T} {LT : NumLaws T} {AL : AddLaws T} (E : env T) (s s1 : shallot T) p is l :
  sreach E s -> s_fit s = Some p -> fit_finite s p -> unmasked s is -> is <> [] ->
  extract_solutions None s = (s1, Ok l) -> exists s2, extract_solutions None s1 = (s2, Err ValueError).
Proof. exact (@extract_all_again_r T NT LT AL E s s1 p is l). Qed.
Print Assumptions C50_all_again.
Theorem C50_refuted  :
  ~ (forall (E : env f64) s p is k, sreach E s -> s_fit s = Some p -> fit_finite s p -> unmasked s is -> (0 <= k <= Z.of_nat (List.length is))%Z ->
  snd (extract_solutions (Some (PInt k)) (fst (extract_solutions (Some (PInt k)) s))) = snd (extract_solutions (Some (PInt k)) s)).
Proof. exact (extract_refuted). Qed.
Print Assumptions C50_refuted.
Example C50_ex : holds ops2 (fun s => fit_ok_b s && is_ok (snd (extract_solutions None s)) && is_err ValueError (snd (extract_solutions None (fst (extract_solutions None s))))).
Proof. vm_compute. exact eq_refl. Qed.

(** C51.  The returned point has the least distance, NaN distances left out, but with a row coordinate that is not
    the dy of the row. *)
Theorem C51_least {T} {NT : Num T} {LT : NumLaws T} {AL : AddLaws T} (E : env T) (s s' : shallot T) v1 v2 v3 v4 m cy cx cr y x q d :
  sreach E s ->
  determine_closest v1 v2 v3 v4 (PBool m) s = (s', Ok ((cy, cx, cr), (y, x, q), d)) ->
  nth_error (g_dy (s_params s)) y = Some cy /\ nth_error (g_dx (s_params s)) x = Some cx /\ nth_error (g_rfa (s_params s)) q = Some cr /\
  let far := away s m (num_of v1) (num_of v2) (num_of v3) (num_of v4) in
  exists w, far y x q w /\
    (val w = XNaN -> forall y' x' q' w', y' < List.length (g_dy (s_params s)) -> x' < List.length (g_dx (s_params s)) -> q' < List.length (g_rfa (s_params s)) -> far y' x' q' w' -> val w' = XNaN \/ val w' = XPInf) /\
    (val w <> XNaN -> val d = val w /\
       forall y' x' q' w', y' < List.length (g_dy (s_params s)) -> x' < List.length (g_dx (s_params s)) -> q' < List.length (g_rfa (s_params s)) -> far y' x' q' w' -> val w' = XNaN \/ xle (val w) (val w')).
Proof. exact (@closest_is_least T NT LT AL E s s' v1 v2 v3 v4 m cy cx cr y x q d). Qed.
Print Assumptions C51_least.
(** a point is found whenever the arguments are valid and some distance is a number *)
Theorem C51_found {T} {NT : Num T} {LT : NumLaws T} {AL : AddLaws T} (E : env T) (s : shallot T) v1 v2 v3 v4 m y x q w :
  sreach E s -> small v1 -> small v2 -> small v3 -> small v4 ->
  numberlike v1 -> numberlike v2 -> numberlike v3 -> numberlike v4 ->
  ~ xlt (value v1) (XFin 0) -> ~ xlt (value v2) (XFin 0) -> ~ xlt (XFin 90) (value v2) -> ~ xlt (value v3) (XFin (-180)) -> ~ xlt (XFin 180) (value v3) ->
  y < List.length (g_dy (s_params s)) -> x < List.length (g_dx (s_params s)) -> q < List.length (g_rfa (s_params s)) ->
  away s m (num_of v1) (num_of v2) (num_of v3) (num_of v4) y x q w -> val w <> XNaN -> exists s' r, determine_closest v1 v2 v3 v4 (PBool m) s = (s', Ok r).
Proof. exact (@closest_total T NT LT AL E s v1 v2 v3 v4 m y x q w). Qed.
Print Assumptions C51_found.
(** the row coordinate agrees with the dy of the row only in row 0 *)
Theorem C51_rows (s : shallot xr) lo hi n y :
  equally_spaced (g_dy (s_params s)) lo hi n -> 2 <= n -> y < n -> (lo < hi)%R ->
  row_of s (XFin 0) y = XFin (lo + INR y / INR n * (hi - lo))%R /\
  (nth_error (g_dy (s_params s)) y = Some (row_of s (XFin 0) y) <-> y = 0).
Proof. exact (@row_shift s lo hi n y). Qed.
Print Assumptions C51_rows.
(** so the point need not be the closest *)
Theorem C51_refuted  :
  ~ (forall (E : env f64) s s' v1 v2 v3 v4 m c y x q d, sreach E s -> determine_closest v1 v2 v3 v4 (PBool m) s = (s', Ok (c, (y, x, q), d)) ->
  forall y' x' q' w, y' < List.length (g_dy (s_params s)) -> x' < List.length (g_dx (s_params s)) -> q' < List.length (g_rfa (s_params s)) ->
    documented s m (num_of v1) (num_of v2) (num_of v3) (num_of v4) y' x' q' w -> val w = XNaN \/ xle (val d) (val w)).
Proof. exact (closest_refuted). Qed.
Print Assumptions C51_refuted.
Example C51_ex : holds [] (fun s => match snd (determine_closest (PInt 5) (PInt 30) (PInt 80) (PFloat (n_ofZ 1)) (PBool true) s) with Ok ((cy, _, _), (y, x, q), d) => Nat.eqb y 2 && n_eq cy (n_ofZ 1) && n_lt n_zero d | Err _ => false end).
Proof. vm_compute. exact eq_refl. Qed.

(** C52.  Indices in range: the data of the point. *)
Theorem C52_inside {T} {NT : Num T} {LT : NumLaws T} {AL : AddLaws T} (E : env T) (s : shallot T) vy vx vr m :
  sreach E s -> int_like vy -> int_like vx -> int_like vr ->
  (0 <= int_of vy < Z.of_nat (List.length (g_dy (s_params s))))%Z -> (0 <= int_of vx < Z.of_nat (List.length (g_dx (s_params s))))%Z -> (0 <= int_of vr < Z.of_nat (List.length (g_rfa (s_params s))))%Z ->
  exists s' d, get_grid_point_data vy vx vr (PBool m) s = (s', Ok d) /\ describes s m (Z.to_nat (int_of vy)) (Z.to_nat (int_of vx)) (Z.to_nat (int_of vr)) d.
Proof. exact (@point_data_in T NT LT AL E s vy vx vr m). Qed.
Print Assumptions C52_inside.
(** negative, too large or not integers: refused *)
Theorem C52_outside {T} {NT : Num T} {LT : NumLaws T} {AL : AddLaws T} (E : env T) (s : shallot T) vy vx vr m :
  sreach E s ->
  ~ (int_like vy /\ (0 <= int_of vy <= Z.of_nat (List.length (g_dy (s_params s))))%Z /\ int_like vx /\ (0 <= int_of vx <= Z.of_nat (List.length (g_dx (s_params s))))%Z /\
     int_like vr /\ (0 <= int_of vr <= Z.of_nat (List.length (g_rfa (s_params s))))%Z) ->
  exists e, get_grid_point_data vy vx vr m s = (s, Err e) /\ (e = TypeError \/ e = ValueError) /\ ((int_like vy /\ int_like vx /\ int_like vr) -> e = ValueError).
Proof. exact (@point_data_out T NT LT AL E s vy vx vr m). Qed.
Print Assumptions C52_outside.
(** an index equal to the length of its axis *)
Theorem C52_edge {T} {NT : Num T} {LT : NumLaws T} {AL : AddLaws T} (E : env T) (s : shallot T) vy vx vr m :
  sreach E s -> int_like vy -> int_like vx -> int_like vr ->
  (0 <= int_of vy <= Z.of_nat (List.length (g_dy (s_params s))))%Z -> (0 <= int_of vx <= Z.of_nat (List.length (g_dx (s_params s))))%Z -> (0 <= int_of vr <= Z.of_nat (List.length (g_rfa (s_params s))))%Z ->
  (int_of vy = Z.of_nat (List.length (g_dy (s_params s))) \/ int_of vx = Z.of_nat (List.length (g_dx (s_params s))) \/ int_of vr = Z.of_nat (List.length (g_rfa (s_params s)))) ->
  exists s', get_grid_point_data vy vx vr (PBool m) s = (s', Err IndexError).
Proof. exact (@point_data_edge T NT LT AL E s vy vx vr m). Qed.
Print Assumptions C52_edge.
Theorem C52_refuted  :
  ~ (forall (E : env f64) s vy vx vr m s' e, sreach E s -> get_grid_point_data vy vx vr (PBool m) s = (s', Err e) -> e = TypeError \/ e = ValueError).
Proof. exact (point_refuted). Qed.
Print Assumptions C52_refuted.
Example C52_ex : holds ops2 (fun s => match snd (get_grid_point_data (PInt 2) (PInt 0) (PInt 3) (PBool true) s) with Ok d => n_eq (pd_dy d) (n_ofZ 1) && n_eq (pd_dx d) (n_ofZ (-2)) && match pd_grads d with Some [_; _; _] => true | _ => false end | Err _ => false end
  && is_err IndexError (snd (get_grid_point_data (PInt 3) (PInt 0) (PInt 3) (PBool true) s)) && is_err ValueError (snd (get_grid_point_data (PInt 4) (PInt 0) (PInt 3) (PBool true) s))
  && is_err TypeError (snd (get_grid_point_data (PFloat n_one) (PInt 0) (PInt 3) (PBool true) s))).
Proof. vm_compute. exact eq_refl. Qed.

(** C53.  What a masked read returns and stores. *)
Theorem C53_read {T} {NT : Num T} {LT : NumLaws T} {AL : AddLaws T} (E : env T) (s : shallot T) w b :
  sreach E s -> exists s' l, get_cube w (PBool true) (PBool b) s = (s', Ok (shape3 (s_params s), l)) /\
  p_data (the_cube w s') = l /\ p_mask (the_cube w s') = p_mask (the_cube w s) /\ (forall w', w' <> w -> the_cube w' s' = the_cube w' s) /\ List.length l = points s /\
  forall i x, nth_error (p_data (the_cube w s)) i = Some x ->
    (masked_at s i \/ (b = true /\ marked (p_mask (the_cube w s)) i = true) -> nth_error l i = Some n_nan) /\
    (~ masked_at s i -> b = false \/ marked (p_mask (the_cube w s)) i = false -> nth_error l i = Some x).
Proof. exact (@masked_read T NT LT AL E s w b). Qed.
Print Assumptions C53_read.
(** the masked values are lost for good *)
Theorem C53_destroyed {T} {NT : Num T} {LT : NumLaws T} {AL : AddLaws T} (E : env T) (s : shallot T) w b i l :
  sreach E s -> i < points s -> masked_at s i -> Forall (@op_wf T) l ->
  let s' := do_ops E (do_op E s (OGet w (PBool true) (PBool b))) l in
  nth_error (p_data (the_cube w s')) i = Some n_nan /\
  exists d, snd (get_cube w (PBool false) (PBool false) s') = Ok (shape3 (s_params s'), d) /\ nth_error d i = Some n_nan.
Proof. exact (@getter_destroys T NT LT AL E s w b i l). Qed.
Print Assumptions C53_destroyed.
(** a read without masks returns the stored values and changes nothing *)
Theorem C53_plain {T} {NT : Num T} {LT : NumLaws T} {AL : AddLaws T} (E : env T) (s : shallot T) w :
  sreach E s -> get_cube w (PBool false) (PBool false) s = (s, Ok (shape3 (s_params s), p_data (the_cube w s))).
Proof. exact (@plain_read T NT LT AL E s w). Qed.
Print Assumptions C53_plain.
(** no call changes the data in another way *)
Theorem C53_only_lost {T} {NT : Num T} {LT : NumLaws T} {AL : AddLaws T} (E : env T) (s : shallot T) l :
  sreach E s -> Forall (@op_wf T) l -> aged s (do_ops E s l).
Proof. exact (@only_lost T NT LT AL E s l). Qed.
Print Assumptions C53_only_lost.
Theorem C53_refuted  :
  ~ (forall (E : env f64) s w, sreach E s -> snd (get_cube w (PBool false) (PBool false) (fst (get_cube w (PBool true) (PBool true) s))) = snd (get_cube w (PBool false) (PBool false) s)).
Proof. exact (read_refuted). Qed.
Print Assumptions C53_refuted.
Example C53_ex : holds ops2 (fun s => negb (n_isnan (num_at (p_data (s_dr s)) 0))) /\ holds (ops2 ++ [OGet WRadius (PBool true) (PBool true); OEclipse (PInt 1) (PInt 1) (PInt 1)])
  (fun s => n_isnan (num_at (p_data (s_dr s)) 0) && negb (n_isnan (num_at (p_data (s_dr s)) 3)) && match s_grads s with None => true | _ => false end).
Proof. split; vm_compute; exact eq_refl. Qed.

(** C54.  set_eclipse_parameters, by its arguments. *)
Theorem C54_outcome {T} {NT : Num T} {LT : NumLaws T} {AL : AddLaws T} (E : env T) (s : shallot T) a b c :
  sreach E s -> small a -> small b -> small c ->
  let okn v := numberlike v /\ ~ xlt (value v) (XFin 0) in
  (~ okn a -> exists e, set_eclipse_parameters a b c s = (s, Err e)) /\
  (okn a -> ~ okn b -> exists e, set_eclipse_parameters a b c s = (with_eclipse s (Some a) (s_vel s) (s_limb s), Err e)) /\
  (okn a -> okn b -> ~ (okn c /\ ~ xlt (XFin 1) (value c)) ->
     exists e, set_eclipse_parameters a b c s = (with_eclipse s (Some a) (Some b) (s_limb s), Err e)) /\
  (okn a -> okn b -> okn c -> ~ xlt (XFin 1) (value c) ->
     set_eclipse_parameters a b c s = (with_grads (with_eclipse s (Some a) (Some b) (Some c)) None None, Ok tt)).
Proof. exact (@eclipse_outcome T NT LT AL E s a b c). Qed.
Print Assumptions C54_outcome.
(** a failing update_gradient_scaling has stored its velocity and limb darkening *)
Theorem C54_scaling {T} {NT : Num T} (E : env T) (s s' : shallot T) v u t e :
  update_gradient_scaling E v u t s = (s', Err e) ->
  s_vel s' = (match v with Some v => Some v | None => s_vel s end) /\ s_limb s' = (match u with Some u => Some u | None => s_limb s end) /\ s_fit s' = s_fit s.
Proof. exact (@scale_stores T NT E s s' v u t e). Qed.
Print Assumptions C54_scaling.
Theorem C54_refuted  :
  ~ (forall (E : env f64) s a b c s' e, sreach E s -> set_eclipse_parameters a b c s = (s', Err e) -> s' = s).
Proof. exact (eclipse_refuted). Qed.
Print Assumptions C54_refuted.
Theorem C54_scaling_refuted  :
  ~ (forall (E : env f64) s v u t s' e, sreach E s -> update_gradient_scaling E v u t s = (s', Err e) -> s' = s).
Proof. exact (scale_refuted). Qed.
Print Assumptions C54_scaling_refuted.
Example C54_ex : holds (ops2 ++ [OEclipse (PInt 5) PNone (PInt 0)]) (fun s => match s_ecl s, s_vel s, s_grads s, s_fit s with Some (PInt 5), Some (PInt 3), Some [_; _; _], Some _ => true | _, _, _, _ => false end).
Proof. vm_compute. exact eq_refl. Qed.

(** C78.  get_gradients gives for each gradient of the grid its position, scaled gradient, error and values,
    NaN where the combined mask or its own mask says so, as asked; it leaves NaN in the gradients under their
    own masks but not under the combined one. *)
Theorem C78_listed {T} {NT : Num T} {LT : NumLaws T} {AL : AddLaws T} (E : env T) (s s' : shallot T) gs m b l :
  sreach E s -> s_grads s = Some gs -> get_gradients (PBool m) (PBool b) s = (s', Ok l) ->
  Forall2 (listed s m b) gs l /\ exists gs', s' = with_grads s (Some gs') (s_fit s) /\ Forall2 (once_read b) gs gs'.
Proof. exact (@list_read T NT LT AL E s s' gs m b l). Qed.
Print Assumptions C78_listed.
(** it succeeds exactly when the scaled gradient of each is defined *)
Theorem C78_returns {T} {NT : Num T} {LT : NumLaws T} {AL : AddLaws T} (E : env T) (s : shallot T) gs m b :
  sreach E s -> s_grads s = Some gs ->
  (exists s' l, get_gradients (PBool m) (PBool b) s = (s', Ok l)) <-> forall g, In g gs -> exists o, scaled_gradient g = Ok o.
Proof. exact (@list_returns T NT LT AL E s gs m b). Qed.
Print Assumptions C78_returns.
(** otherwise it raises the error of the first one for which it is not; those before have been read *)
Theorem C78_raises {T} {NT : Num T} {LT : NumLaws T} {AL : AddLaws T} (E : env T) (s s' : shallot T) gs m b e :
  sreach E s -> s_grads s = Some gs -> get_gradients (PBool m) (PBool b) s = (s', Err e) ->
  exists pre g post, gs = pre ++ g :: post /\ scaled_gradient g = Err e /\
    exists pre', s' = with_grads s (Some (pre' ++ g :: post)) (s_fit s) /\ Forall2 (once_read b) pre pre'.
Proof. exact (@list_raises T NT LT AL E s s' gs m b e). Qed.
Print Assumptions C78_raises.
Theorem C78_none {T} {NT : Num T} (s : shallot T) m b : s_grads s = None -> get_gradients m b s = (s, Err TypeError).
Proof. exact (@list_none T NT s m b). Qed.
Print Assumptions C78_none.
(** the Hill mask hides a value of a gradient in the list but not in the grid *)
Example C78_ex : holds (ops2 ++ [OHill (PInt 0)]) (fun s =>
  match get_gradients (PBool true) (PBool false) s with
  | (s', Ok [(p, sc, er, l); _; _]) =>
    n_eq er n_one && n_lt n_zero sc &&
    match s_grads s' with Some (g :: _) => existsb (fun i => n_isnan (num_at l i) && negb (n_isnan (num_at (p_data (gg_prop g)) i))) (seq 0 75) | _ => false end
  | _ => false end).
Proof. vm_compute. exact eq_refl. Qed.

(** C79.  A failing add_gradients either changes nothing or leaves all its gradients at the end of the list:
    those before the failure are measured and masked, the one that failed has no mask and no scaled
    gradient, those after it are bare.  The fit is the old one. *)
Theorem C79_failed {T} {NT : Num T} {LT : NumLaws T} {AL : AddLaws T} (E : env T) (s s' : shallot T) t l e tr x :
  arr_wf t -> arr_wf l -> o_wf e -> o_wf tr -> add_gradients E t l e tr s = (s', Err x) ->
  s' = s \/
  exists ts d new j, t = farr ts /\ s_ecl s = Some d /\ s' = with_grads s (Some (dflt [] (s_grads s) ++ new)) (s_fit s) /\ List.length new = List.length ts /\
    (forall k time, nth_error ts k = Some time -> exists g, nth_error new k = Some g /\ gg_pos g = PNpFloat (n_div (n_neg time) (num_of d)) /\
       p_data (gg_prop g) = gradient_values E s (n_div (n_neg time) (num_of d)) /\
       (k < j -> p_mask (gg_prop g) <> None /\ exists y, scaled_gradient g = Ok (Some y)) /\
       (j <= k -> p_mask (gg_prop g) = None) /\
       (k = j -> forall y, scaled_gradient g <> Ok (Some y)) /\
       (j < k -> bare E s (n_div (n_neg time) (num_of d)) g)) /\
    (ts <> [] -> j < List.length ts).
Proof. exact (@add_fails T NT LT E s s' t l e tr x). Qed.
Print Assumptions C79_failed.
(** then no fit can be determined *)
Theorem C79_no_fit {T} {NT : Num T} {LT : NumLaws T} {AL : AddLaws T} (E : env T) (s s' : shallot T) t l e tr x w :
  arr_wf t -> arr_wf l -> o_wf e -> o_wf tr -> add_gradients E t l e tr s = (s', Err x) ->
  s' = s \/ t = farr [] \/ exists y, determine_gradient_fit w s' = (s', Err y).
Proof. exact (@add_fails_fit T NT LT E s s' t l e tr x w). Qed.
Print Assumptions C79_no_fit.
Theorem C79_refuted :
  ~ (forall (E : env f64) s t l e tr s' x, sreach E s -> arr_wf t -> arr_wf l -> o_wf e -> o_wf tr -> add_gradients E t l e tr s = (s', Err x) -> s' = s).
Proof. exact (add_refuted). Qed.
Print Assumptions C79_refuted.
(** three gradients more, the first of them masked, the old fit still there *)
Example C79_ex : holds (ops2 ++ [steep]) (fun s =>
  match s_grads s, s_fit s with
  | Some [_; _; _; a; b; c], Some _ =>
    match p_mask (gg_prop a), p_mask (gg_prop b), p_mask (gg_prop c), gg_meas b, gg_meas c with Some _, None, None, Some _, None => true | _, _, _, _, _ => false end &&
    negb (is_ok (snd (determine_gradient_fit false s)))
  | _, _ => false end).
Proof. vm_compute. exact eq_refl. Qed.

(** C80.  A successful update_gradient_scaling: the fit is dropped and each gradient is rescaled with the
    orbital scale of the new velocity and limb darkening (its old one if neither is given) and the given
    transmission (its old one if none is given). *)
Theorem C80_rescaled {T} {NT : Num T} {LT : NumLaws T} (E : env T) (s s' : shallot T) gs v u t :
  s_grads s = Some gs -> o_wf t -> (v <> None \/ u <> None \/ t <> None) -> update_gradient_scaling E v u t s = (s', Ok tt) ->
  exists gs', s' = with_grads (revalued s v u) (Some gs') None /\ List.length gs' = List.length gs /\
  (match t with Some a => List.length (elems_of a) = List.length gs | None => True end) /\
  forall k g, nth_error gs k = Some g -> exists g' o, nth_error gs' k = Some g' /\
    (if match v, u with None, None => true | _, _ => false end then gg_orb g = Some o else determine_orbital_scale E (revalued s v u) = Ok o) /\
    rescaled o (match t with Some a => option_map (@PNpFloat T) (nth_error (elems_of a) k) | None => gg_trans g end) g g'.
Proof. exact (@scaling_done T NT LT E s s' gs v u t). Qed.
Print Assumptions C80_rescaled.
(** rescaling freshly added gradients gives those that the new values would have given at once *)
Theorem C80_same {T} {NT : Num T} {LT : NumLaws T} (E : env T) (s s1 s2 : shallot T) t l e tr v u d v' u' :
  s_grads s = None -> arr_wf t -> arr_wf l -> o_wf e -> o_wf tr ->
  s_ecl s = Some d -> s_vel s = Some v -> s_limb s = Some u -> elems_of t <> [] -> v' <> None \/ u' <> None ->
  add_gradients E t l e tr s = (s1, Ok tt) -> update_gradient_scaling E v' u' None s1 = (s2, Ok tt) ->
  add_gradients E t l e tr (revalued s v' u') = (s2, Ok tt).
Proof. exact (@scaling_same T NT LT E s s1 s2 t l e tr v u d v' u'). Qed.
Print Assumptions C80_same.
Example C80_ex : holds ops2 (fun s =>
  match update_gradient_scaling env2 (Some (PInt 6)) None (Some (F [10; 10; 5]%Z)) s with
  | (s', Ok _) =>
    match s_grads s, s_grads s', s_fit s' with
    | Some [_; a; b], Some [_; a'; b'], None =>
      match scaled_gradient a, scaled_gradient a', scaled_gradient b, scaled_gradient b' with
      | Ok (Some x), Ok (Some x'), Ok (Some y), Ok (Some y') => n_lt x' x && n_lt (n_abs (n_sub y' y)) (n_div n_one (n_ofZ 1000))
      | _, _, _, _ => false end
    | _, _, _ => false end
  | _ => false end).
Proof. vm_compute. exact eq_refl. Qed.
