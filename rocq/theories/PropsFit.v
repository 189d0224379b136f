(** C97: scaled gradients and the gradient fit in binary64. *)
From Coq Require Import ZArith Reals List Bool.
From Flocq Require Import Core BinarySingleNaN.
From Verif Require Import Num Py Ring GridParams GridProp SpecProp Geometry Build SpecBuild Shallot ShallotOps SpecOps OpsExP LibmF64P SpecF64 SpecGrad SpecFit FitGridP FitExP.
Import ListNotations.
Local Open Scope R_scope.
Local Open Scope list_scope.

(** C97.  The scale of the gradients never fails for a limb darkening in [0, 1] and a velocity that is neither tiny nor
    huge, and is off by at most 21 roundings. *)
Theorem C97_scale (E : env f64) (s : shallot f64) u v a b : accurate (e_libm E) (bpow radix2 (-51)) ->
  s_limb s = Some u -> s_vel s = Some v -> is_number u = true -> is_number v = true ->
  f64_val (num_of u) = XFin a -> f64_val (num_of v) = XFin b -> 0 <= a <= 1 -> bpow radix2 (-500) <= b <= bpow radix2 500 ->
  exists o x, determine_orbital_scale E s = Ok o /\ f64_val (num_of o) = XFin x /\ agrees 21 x (orbital a b).
Proof. intros H. exact (@scale64 E H s u v a b). Qed.
Print Assumptions C97_scale.
Example C97_scale_ex : exists s o x, determine_orbital_scale (mkEnv Libm_nearest (e_search env2) (e_fmt env2) 100) s = Ok o /\ f64_val (num_of o) = XFin x /\ agrees 21 x (orbital 1 3).
Proof. exact scale_ex. Qed.
(** each gradient that add_gradients appends has the scaled gradient |m| * scale / transmission change, up to 24 roundings *)
Theorem C97_added (E : env f64) (s s' : shallot f64) t l e tr u d v a b : accurate (e_libm E) (bpow radix2 (-51)) ->
  sreach E s -> arr_wf t -> arr_wf l -> o_wf e -> o_wf tr ->
  s_limb s = Some u -> s_ecl s = Some d -> s_vel s = Some v -> add_gradients E t l e tr s = (s', Ok tt) ->
  f64_val (num_of u) = XFin a -> f64_val (num_of v) = XFin b -> 0 <= a <= 1 -> bpow radix2 (-500) <= b <= bpow radix2 500 ->
  exists ls trs new, l = farr ls /\ given tr ls trs /\ s' = with_grads s (Some (dflt [] (s_grads s) ++ new)) None /\ List.length new = List.length ls /\
    forall k lc tm m c, nth_error ls k = Some lc -> nth_error trs k = Some tm -> f64_val lc = XFin m -> f64_val tm = XFin c -> sized 200 m -> bpow radix2 (-200) <= c <= bpow radix2 200 ->
      exists g sc x, nth_error new k = Some g /\ scaled_gradient g = Ok (Some sc) /\ f64_val sc = XFin x /\ agrees 24 x (scaled_by (Rabs m) (orbital a b) c).
Proof. intros H. exact (@added64 E H s s' t l e tr u d v a b). Qed.
Print Assumptions C97_added.
(** the fit of n gradients at a point is the sum of the squared misfits up to n + 5 roundings, and is not masked *)
Theorem C97_fit (E : env f64) (s s' : shallot f64) w gs : sreach E s -> s_grads s = Some gs -> determine_gradient_fit w s = (s', Ok tt) -> INR (List.length gs) <= bpow radix2 50 ->
  exists p, s' = with_grads s (Some gs) (Some p) /\ forall i r, (i < points s)%nat -> true_fit w gs i r ->
    marked (p_mask p) i = false /\ exists v x, nth_error (p_data p) i = Some v /\ f64_val v = XFin x /\ agrees (List.length gs + 5) x r.
Proof. exact (@fit64 E s s' w gs). Qed.
Print Assumptions C97_fit.
(** it is zero exactly where all gradients are matched *)
Theorem C97_zero (E : env f64) (s s' : shallot f64) w gs : sreach E s -> s_grads s = Some gs -> determine_gradient_fit w s = (s', Ok tt) -> INR (List.length gs) <= bpow radix2 50 ->
  exists p, s_fit s' = Some p /\ forall i xs, (i < points s)%nat -> Forall2 (reading w i) gs xs -> Forall fair xs ->
    exists v, nth_error (p_data p) i = Some v /\ (f64_val v = XFin 0 <-> Forall (fun x => fst (fst x) = snd (fst x)) xs).
Proof. exact (@zero64 E s s' w gs). Qed.
Print Assumptions C97_zero.
(** fits further apart than the roundings are compared rightly *)
Theorem C97_order (E : env f64) (s s' : shallot f64) w gs i j r r' : sreach E s -> s_grads s = Some gs -> determine_gradient_fit w s = (s', Ok tt) -> INR (List.length gs) <= bpow radix2 50 ->
  (i < points s)%nat -> (j < points s)%nat -> true_fit w gs i r -> true_fit w gs j r' -> r < (1 - bpow radix2 (-53)) ^ (2 * (List.length gs + 5)) * r' ->
  exists p v v', s_fit s' = Some p /\ nth_error (p_data p) i = Some v /\ nth_error (p_data p) j = Some v' /\ n_lt v v' = true.
Proof. exact (@order64 E s s' w gs i j r r'). Qed.
Print Assumptions C97_order.
(** the solutions are, up to the roundings, the points of the best true fits in ascending order *)
Theorem C97_best (E : env f64) (s s' : shallot f64) w gs is v k : sreach E s -> s_grads s = Some gs -> determine_gradient_fit w s = (s', Ok tt) -> INR (List.length gs) <= bpow radix2 50 ->
  unmasked s is -> asks v (List.length is) k -> (forall i, In i is -> exists r, true_fit w gs i r) ->
  let u := (1 - bpow radix2 (-53)) ^ (2 * (List.length gs + 5)) in
  exists s'' qs l p, s_fit s' = Some p /\ extract_solutions v s' = (s'', Ok l) /\ List.length l = k /\ NoDup qs /\ Forall2 (at_point s p) qs l /\
    (forall a b y x q y' x' q' r r', (a < b)%nat -> nth_error qs a = Some (y, x, q) -> nth_error qs b = Some (y', x', q') ->
       true_fit w gs (place s y x q) r -> true_fit w gs (place s y' x' q') r' -> u * r <= r') /\
    (forall y x q y' x' q' r r', In (y, x, q) qs -> In (place s y' x' q') is -> ~ In (y', x', q') qs ->
       (y' < List.length (g_dy (s_params s)))%nat -> (x' < List.length (g_dx (s_params s)))%nat -> (q' < List.length (g_rfa (s_params s)))%nat ->
       true_fit w gs (place s y x q) r -> true_fit w gs (place s y' x' q') r' -> u * r <= r').
Proof. exact (@best64 E s s' w gs is v k). Qed.
Print Assumptions C97_best.
Example C97_ex : exists s s' gs is, sreach env2 s /\ s_grads s = Some gs /\ List.length gs = 3%nat /\ determine_gradient_fit false s = (s', Ok tt) /\ unmasked s is /\ (10 <= List.length is)%nat /\
  forall i, In i is -> exists r, true_fit false gs i r.
Proof. exact fair_ex. Qed.
(** refuted: a point that matches a measurement exactly takes part in the fit; with a measured error of zero it is masked *)
Theorem C97_perfect_refuted : ~ (forall (E : env f64) s s' g v sc p, sreach E s -> s_grads s = Some [g] -> determine_gradient_fit true s = (s', Ok tt) -> s_fit s' = Some p -> (0 < points s)%nat ->
  nth_error (p_data (gg_prop g)) 0 = Some v -> scaled_gradient g = Ok (Some sc) -> f64_val v = XFin 0 -> f64_val sc = XFin 0 ->
  marked (p_mask p) 0 = false).
Proof. exact perfect_refuted. Qed.
Print Assumptions C97_perfect_refuted.
(** refuted, without the bounds on the sizes: a fit of zero is an exact match *)
Theorem C97_tiny_refuted : ~ (forall (E : env f64) s s' g v sc p x, sreach E s -> s_grads s = Some [g] -> determine_gradient_fit false s = (s', Ok tt) -> s_fit s' = Some p -> (0 < points s)%nat ->
  nth_error (p_data (gg_prop g)) 0 = Some v -> scaled_gradient g = Ok (Some sc) -> nth_error (p_data p) 0 = Some x -> f64_val x = XFin 0 -> f64_val v = f64_val sc).
Proof. exact tiny_refuted. Qed.
Print Assumptions C97_tiny_refuted.
