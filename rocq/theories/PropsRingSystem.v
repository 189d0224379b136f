(** Property theorems for RingSystem.py: C09 - C19. *)
From Coq Require Import ZArith Reals List Bool String Lra Lia.
From Verif Require Import Num NumP Py XLibm Validate SpecNum Ring RingSystem SpecRing RingP RingSystemP RingOrderP RingMergeP RingSplitP RingShareP RingMoreP.
Import ListNotations.

(** C09.  Any history of ring constructions, add, remove, replace and merge calls (failing ones
    included) starting from an ordered system of valid rings keeps the rings ordered. *)
Theorem C09_history_ordered {T} {NT : Num T} {LT : NumLaws T} (st : list (ring T) * rsys T) (l : list op) :
  hist_inv st -> ops_valid st l -> Forall no_split l ->
  ordered (rings_of (fst (do_ops st l)) (snd (do_ops st l))).
Proof. exact (fun H V N => proj2 (proj2 (proj2 (@history_ordered T NT LT l st H V N)))). Qed.
Print Assumptions C09_history_ordered.

(** in exact arithmetic also with split calls *)
Theorem C09_history_ordered_with_split (st : list (ring xr) * rsys xr) (l : list op) :
  hist_inv st -> ops_valid st l -> splits_wf st l ->
  ordered (rings_of (fst (do_ops st l)) (snd (do_ops st l))).
Proof. exact (fun H V N => proj2 (proj2 (proj2 (@history_ordered_split l st H V N)))). Qed.
Print Assumptions C09_history_ordered_with_split.

Example C09_ex : hist_inv (ex_heap, ex_sys) /\
  ops_valid (ex_heap, ex_sys) [OpAdd (PInt 3) (PObj "Ring" 3); OpRemove (PInt 0); OpMerge (fz 1); OpReplace (PInt 9) (PObj "Ring" 3)] /\
  s_rings (snd (do_ops (ex_heap, ex_sys) [OpAdd (PInt 3) (PObj "Ring" 3); OpRemove (PInt 0)])) = [1; 2; 3].
Proof. split; [exact ex_hist|]. split; [|vm_compute; reflexivity].
  cbn [ops_valid op_valid]. repeat split; vm_compute; repeat constructor. Qed.

(** C10. *)
Theorem C10_add_ring {T} {NT : Num T} {LT : NumLaws T} (h : list (ring T)) s index rg h' s' : geo_ok s ->
  (forall c l, rg = PObj c l -> l < List.length h) ->
  add_ring h s index rg = (h', s', Ok tt) <->
  exists l, rg = PObj "Ring" l /\ int_like index /\ (0 <= int_of index <= num_rings s)%Z /\
    let k := Z.to_nat (int_of index) in
    fits (before k (rings_of h s)) (nth_error (rings_of h s) k) (deref h l) /\
    h' = replace_nth l (regeo s (deref h l)) h /\
    s' = with_rings s (firstn k (s_rings s) ++ l :: skipn k (s_rings s)).
Proof. exact (@add_ring_iff T NT LT h s index rg h' s'). Qed.
Print Assumptions C10_add_ring.

Theorem C10_remove_ring {T} {NT : Num T} (h : list (ring T)) s index h' s' :
  remove_ring h s index = (h', s', Ok tt) <->
  int_like index /\ (0 <= int_of index < num_rings s)%Z /\
    let k := Z.to_nat (int_of index) in
    h' = h /\ s' = with_rings s (firstn k (s_rings s) ++ skipn (S k) (s_rings s)).
Proof. exact (@remove_ring_iff T NT h s index h' s'). Qed.
Print Assumptions C10_remove_ring.

Theorem C10_replace_ring {T} {NT : Num T} {LT : NumLaws T} (h : list (ring T)) s index rg h' s' : geo_ok s ->
  (forall c l, rg = PObj c l -> l < List.length h) ->
  replace_ring h s index rg = (h', s', Ok tt) <->
  exists l, rg = PObj "Ring" l /\ int_like index /\ (0 <= int_of index < num_rings s)%Z /\
    let k := Z.to_nat (int_of index) in
    fits (before k (rings_of h s)) (nth_error (rings_of h s) (S k)) (deref h l) /\
    h' = replace_nth l (regeo s (deref h l)) h /\
    s' = with_rings s (firstn k (s_rings s) ++ l :: skipn (S k) (s_rings s)).
Proof. exact (@replace_ring_iff T NT LT h s index rg h' s'). Qed.
Print Assumptions C10_replace_ring.

Theorem C10_remove_after_add {T} {NT : Num T} {LT : NumLaws T} (h : list (ring T)) s index rg h' s' : geo_ok s ->
  (forall c l, rg = PObj c l -> l < List.length h) ->
  add_ring h s index rg = (h', s', Ok tt) -> remove_ring h' s' index = (h', s, Ok tt).
Proof. exact (@add_remove T NT LT h s index rg h' s'). Qed.
Print Assumptions C10_remove_after_add.

Example C10_ex : geo_ok ex_sys /\
  (let '(_, s, e) := add_ring ex_heap ex_sys (PInt 3) (PObj "Ring" 3) in (s_rings s, e)) = ([0; 1; 2; 3], Ok tt) /\
  (let '(_, s, e) := add_ring ex_heap ex_sys (PInt 1) (PObj "Ring" 3) in (s_rings s, e)) = ([0; 1; 2], Err ValueError) /\
  (let '(_, s, e) := remove_ring ex_heap ex_sys (PInt 1) in (s_rings s, e)) = ([0; 2], Ok tt) /\
  (let '(_, s, e) := replace_ring ex_heap ex_sys (PInt 2) (PObj "Ring" 3) in (s_rings s, e)) = ([0; 1; 3], Ok tt).
Proof. split; [exact ex_geo|]. repeat split; vm_compute; reflexivity. Qed.

(** C11.  For every operation: if it raises, the ring objects and the system are unchanged. *)
Theorem C11_failed_operation_changes_nothing {T} {NT : Num T} {LT : NumLaws T} (h : list (ring T)) s o h' s' e :
  geo_ok s -> op_valid_obj h o -> do_op (h, s) o = (h', s', Err e) -> h' = h /\ s' = s.
Proof. exact (@do_op_err T NT LT h s o h' s' e). Qed.
Print Assumptions C11_failed_operation_changes_nothing.

Example C11_ex : op_valid_obj ex_heap (OpAdd (PInt 0) (PObj "Ring" 3)) /\ geo_ok ex_sys /\
  snd (do_op (ex_heap, ex_sys) (OpAdd (PInt 0) (PObj "Ring" 3))) = Err ValueError.
Proof. split; [cbn; lia|]. split; [exact ex_geo|vm_compute; reflexivity]. Qed.

(** C12.  Every list of individually valid ring data is accepted, ordered or not. *)
Theorem C12_constructor_accepts {T} {NT : Num T} {LT : NumLaws T} (h : list (ring T)) planet inc tilt level (a b c : list T) p' i' t' l' :
  number planet false (PFloat n_zero) p_inf false = Ok p' ->
  number inc false (PFloat n_zero) (PFloat (n_ofZ 90)) false = Ok i' ->
  number tilt false (PFloat (n_ofZ (-180))) (PFloat (n_ofZ 180)) false = Ok t' ->
  number level true (PInt 10) (PInt 50) false = Ok l' ->
  List.length b = List.length a -> List.length c = List.length a ->
  Forall valid_triple (combine (combine a b) c) ->
  let rs := map (stored (num_of i') (num_of t')) (combine (combine a b) c) in
  exists s, new_system h planet (vec a) (vec b) (vec c) inc tilt level = Ok (h ++ rs, s) /\
    rings_of (h ++ rs) s = rs /\ geo_ok s /\ sys_wf (h ++ rs) s /\
    s_inc s = num_of i' /\ s_tilt s = num_of t' /\ s_planet s = num_of p'.
Proof. exact (@new_system_stored T NT LT h planet inc tilt level a b c p' i' t' l'). Qed.
Print Assumptions C12_constructor_accepts.

Theorem C12_rings_disjoint_refuted :
  ~ (forall h planet inner outer trans inc tilt level (h' : list (ring f64)) s,
       new_system h planet inner outer trans inc tilt level = Ok (h', s) -> ordered (rings_of h' s)).
Proof. exact constructor_overlap_refuted. Qed.
Print Assumptions C12_rings_disjoint_refuted.

Example C12_ex : Forall (@valid_triple f64 _ _) (combine (combine [fz 3; fz 1] [fz 5; fz 4]) [fz 1; fz 0]) /\
  is_ok (new_system (T:=f64) [] (PInt 1) (vec [fz 3; fz 1]) (vec [fz 5; fz 4]) (vec [fz 1; fz 0]) (PInt 0) (PInt 0) (PInt 20)) = true.
Proof. split; [exact unordered_valid|vm_compute; reflexivity]. Qed.

(** C13.  split_rings, in exact arithmetic, for every system and every accepted division. *)
Theorem C13_split_exact (h : list (ring xr)) s nd ds : good_sys h s -> valid_divisions (List.length (s_rings s)) nd ds ->
  exists h' s' parts, split_rings h s nd = (h', s', Ok tt) /\ rings_of h' s' = List.concat parts /\
    Forall2 (fun rd l => pieces (fst rd) (snd rd) l) (combine (rings_of h s) ds) parts /\
    (forall r, In r (rings_of h' s') -> good_ring r /\ r_inc r = s_inc s /\ r_tilt r = s_tilt s).
Proof. exact (@split_exact_short h s nd ds). Qed.
Print Assumptions C13_split_exact.

Theorem C13_split_profile (h : list (ring xr)) s nd ds h' s' : good_sys h s ->
  valid_divisions (List.length (s_rings s)) nd ds -> split_rings h s nd = (h', s', Ok tt) ->
  (forall x t, (exists r, In r (rings_of h s) /\ covers r x /\ r_tr r = t) <->
               (exists r, In r (rings_of h' s') /\ covers r x /\ r_tr r = t)) /\
  (ordered (rings_of h s) -> ordered (rings_of h' s')) /\
  num_rings s' = fold_right Z.add 0%Z ds.
Proof. exact (@split_profile h s nd ds h' s'). Qed.
Print Assumptions C13_split_profile.

(** a ring from 1 to 4 split in 3, and two rings split in 1 and 2 *)
Example C13_ex : good_sys x_heap x_sys /\ valid_divisions (T:=xr) 2 (PInt 3) [3; 3]%Z /\
  valid_divisions (T:=xr) 2 (PArr "int64" [2] [SI 1; SI 2]) [1; 2]%Z.
Proof.
  split; [exact x_good|]. split; [left; split; [constructor|split; [cbn; lia|reflexivity]]|].
  right. split; [reflexivity|]. split; [reflexivity|]. repeat constructor; lia.
Qed.

(** C14.  In any arithmetic a successful split has the right counts, transmissions and geometry. *)
Theorem C14_split_counts {T} {NT : Num T} {LT : NumLaws T} (h : list (ring T)) s nd ds h' s' :
  valid_divisions (List.length (s_rings s)) nd ds -> geo_ok s -> split_rings h s nd = (h', s', Ok tt) ->
  num_rings s' = fold_right Z.add 0%Z ds /\
  get_transmissions h' s' = List.concat (map (fun rd => repeat (r_tr (fst rd)) (Z.to_nat (snd rd))) (combine (rings_of h s) ds)) /\
  (forall r, In r (rings_of h' s') -> r_inc r = s_inc s /\ r_tilt r = s_tilt s).
Proof. exact (@split_counts T NT LT h s nd ds h' s'). Qed.
Print Assumptions C14_split_counts.

(** In binary64 the ringlets may overlap: a valid ordered system is not ordered after a split. *)
Theorem C14_split_ordered_refuted : exists (h : list (ring f64)) s nd h' s', good_sys h s /\ ordered (rings_of h s) /\
  split_rings h s nd = (h', s', Ok tt) /\ ~ ordered (rings_of h' s').
Proof. exact split_f64_overlap. Qed.
Print Assumptions C14_split_ordered_refuted.

(** the last ringlet may end beyond the ring *)
Theorem C14_split_end_refuted : exists (h : list (ring f64)) s nd h' s' o, good_sys h s /\ get_outer_radii h s = [o] /\
  split_rings h s nd = (h', s', Ok tt) /\ exists l o', get_outer_radii h' s' = l ++ [o'] /\ xlt (val o) (val o').
Proof. exact split_f64_end. Qed.
Print Assumptions C14_split_end_refuted.

(** a valid division of a valid (narrow) ring may raise *)
Theorem C14_split_succeeds_refuted : exists (h : list (ring f64)) s nd ds, good_sys h s /\
  valid_divisions (List.length (s_rings s)) nd ds /\ split_rings h s nd = (h, s, Err ValueError).
Proof. exact split_f64_fails. Qed.
Print Assumptions C14_split_succeeds_refuted.

Example C14_ex : is_ok (snd (split_rings ex_heap ex_sys (PInt 3))) = true /\ valid_divisions (T:=f64) 3 (PInt 3) [3; 3; 3]%Z.
Proof. split; [vm_compute; reflexivity|left; split; [constructor|split; [cbn; lia|reflexivity]]]. Qed.

(** C15. *)
Theorem C15_merge_profile {T} {NT : Num T} {LT : NumLaws T} (h : list (ring T)) s tol :
  good_sys h s -> ordered (rings_of h s) -> s_rings s <> [] ->
  (forall r, In r (rings_of h s) -> not_nan (r_tr r)) -> xlt (XFin 0) (val tol) ->
  exists h' s', merge_rings h s tol = (h', s', Ok tt) /\ ordered (rings_of h' s') /\
   (forall r x, In r (rings_of h s) -> covers r x ->
      exists q, In q (rings_of h' s') /\ covers q x /\ val (r_tr q) = val (r_tr r)) /\
   (forall q x, In q (rings_of h' s') -> covers q x ->
      (exists r, In r (rings_of h s) /\ covers r x /\ val (r_tr r) = val (r_tr q)) \/
      in_small_gap tol (rings_of h s) x (val (r_tr q))) /\
   hd_error (get_inner_radii h' s') = hd_error (get_inner_radii h s) /\
   hd_error (rev (get_outer_radii h' s')) = hd_error (rev (get_outer_radii h s)) /\
   (exists h'' s'', merge_rings h' s' tol = (h'', s'', Ok tt) /\ rings_of h'' s'' = rings_of h' s').
Proof. exact (@merge_profile T NT LT h s tol). Qed.
Print Assumptions C15_merge_profile.

Example C15_ex : good_sys ex_heap ex_sys /\ ordered (rings_of ex_heap ex_sys) /\
  (forall r, In r (rings_of ex_heap ex_sys) -> not_nan (r_tr r)) /\
  (let '(_, s, _) := merge_rings ex_heap ex_sys (fz 1) in num_rings s) = 2%Z.
Proof. split; [exact ex_good|]. split; [exact ex_ordered|]. split; [exact ex_tr|vm_compute; reflexivity]. Qed.

(** C16. *)
Theorem C16_merge_after_split (h : list (ring xr)) s nd ds tol : good_sys h s -> s_rings s <> [] ->
  valid_divisions (List.length (s_rings s)) nd ds ->
  (forall r, In r (rings_of h s) -> r_tr r <> XNaN) -> xlt (XFin 0) tol ->
  exists h1 s1, split_rings h s nd = (h1, s1, Ok tt) /\
  forall h2 s2, merge_rings h s tol = (h2, s2, Ok tt) ->
  exists h3 s3, merge_rings h1 s1 tol = (h3, s3, Ok tt) /\ rings_of h3 s3 = rings_of h2 s2.
Proof. exact (@merge_after_split h s nd ds tol). Qed.
Print Assumptions C16_merge_after_split.

Theorem C16_merge_after_split_id (h : list (ring xr)) s nd ds tol : good_sys h s -> s_rings s <> [] ->
  ordered (rings_of h s) -> (forall r, In r (rings_of h s) -> r_inc r = s_inc s /\ r_tilt r = s_tilt s) ->
  valid_divisions (List.length (s_rings s)) nd ds ->
  (forall r, In r (rings_of h s) -> r_tr r <> XNaN) -> xlt (XFin 0) tol ->
  (forall l1 a b l2, rings_of h s = l1 ++ a :: b :: l2 -> ~ (xlt (x_abs (x_sub (r_in b) (r_out a))) tol /\ r_tr b = r_tr a)) ->
  exists h1 s1 h3 s3, split_rings h s nd = (h1, s1, Ok tt) /\ merge_rings h1 s1 tol = (h3, s3, Ok tt) /\ rings_of h3 s3 = rings_of h s.
Proof. exact (@merge_after_split_id h s nd ds tol). Qed.
Print Assumptions C16_merge_after_split_id.

Example C16_ex : good_sys x_heap x_sys /\ ordered (rings_of x_heap x_sys) /\
  (forall r, In r (rings_of x_heap x_sys) -> r_tr r <> XNaN) /\
  (forall r, In r (rings_of x_heap x_sys) -> r_inc r = s_inc x_sys /\ r_tilt r = s_tilt x_sys) /\
  (forall l1 a b l2, rings_of x_heap x_sys = l1 ++ a :: b :: l2 -> ~ (xlt (x_abs (x_sub (r_in b) (r_out a))) (XFin 1) /\ r_tr b = r_tr a)).
Proof. exact x_facts. Qed.

(** C17. *)
Theorem C17_merge_empty {T} {NT : Num T} (h : list (ring T)) s tol :
  s_rings s = [] -> merge_rings h s tol = (h, s, Err IndexError).
Proof. exact (@merge_empty T NT h s tol). Qed.
Print Assumptions C17_merge_empty.

Theorem C17_merge_bad_tolerance {T} {NT : Num T} {LT : NumLaws T} (h : list (ring T)) s tol :
  good_sys h s -> ~ xlt (XFin 0) (val tol) ->
  merge_rings h s tol = (h, s, Err (match s_rings s with [] => IndexError | _ => ValueError end)).
Proof. exact (@merge_bad_tolerance T NT LT h s tol). Qed.
Print Assumptions C17_merge_bad_tolerance.

Theorem C17_index_error_only_empty {T} {NT : Num T} {LT : NumLaws T} (h : list (ring T)) s tol h' s' :
  merge_rings h s tol = (h', s', Err IndexError) -> good_sys h s -> s_rings s = [].
Proof. exact (@merge_empty_iff T NT LT h s tol h' s'). Qed.
Print Assumptions C17_index_error_only_empty.

Example C17_ex : good_sys ex_heap ex_sys /\ snd (merge_rings ex_heap ex_sys n_nan) = Err ValueError /\
  snd (merge_rings ex_heap ex_sys (fz 0)) = Err ValueError.
Proof. split; [exact ex_good|]. split; vm_compute; reflexivity. Qed.

(** C18.  Histories over any number of systems in which no ring object is handed to two systems. *)
Theorem C18_own_geometry {T} {NT : Num T} {LT : NumLaws T} (owner : nat -> nat) (w : world T) (ops : list (nat * op)) :
  geometry_inv owner w -> wops_valid owner w ops -> geometry_inv owner (do_wops w ops).
Proof. exact (@world_geometry T NT LT owner ops w). Qed.
Print Assumptions C18_own_geometry.

Theorem C18_geometry_refuted :
  ~ (forall owner (w : world f64) ops, geometry_inv owner w ->
       forall k s l, nth_error (snd (do_wops w ops)) k = Some s -> In l (s_rings s) ->
       r_inc (deref (fst (do_wops w ops)) l) = s_inc s).
Proof. exact sharing_refuted. Qed.
Print Assumptions C18_geometry_refuted.

Example C18_ex : let own l := Nat.min l 1 in geometry_inv own share_world /\
  wops_valid own share_world [(0, OpAdd (PInt 0) (PObj "Ring" 0)); (1, OpAdd (PInt 0) (PObj "Ring" 1)); (1, OpSplit (PInt 2))] /\
  map (@s_rings f64) (snd (do_wops share_world [(0, OpAdd (PInt 0) (PObj "Ring" 0)); (1, OpAdd (PInt 0) (PObj "Ring" 1)); (1, OpSplit (PInt 2))])) = [[0]; [4; 5]].
Proof. exact share_example. Qed.

(** C19. *)
Theorem C19_plot_fails_iff_empty {T} {NT : Num T} (h : list (ring T)) s xs ys :
  plot_limits h s xs ys = Err IndexError <-> s_rings s = [].
Proof. exact (@plot_spec T NT h s xs ys). Qed.
Print Assumptions C19_plot_fails_iff_empty.

Theorem C19_plot_window (h : list (ring xr)) s (xs ys o : R) l a b c d :
  get_outer_radii h s = l ++ [XFin o] -> plot_limits h s (XFin xs) (XFin ys) = Ok (a, b, c, d) ->
  a = XFin (xs - (o + 2)) /\ b = XFin (xs + (o + 2)) /\ c = XFin (ys - (o + 2)) /\
  (d = XFin (ys + (o + 2)) <-> xs = ys).
Proof. exact (@plot_centre h s xs ys o l a b c d). Qed.
Print Assumptions C19_plot_window.

Example C19_ex : get_outer_radii x_heap x_sys = [XFin 4] ++ [XFin 6] /\
  plot_limits x_heap x_sys (XFin 1) (XFin 10) = Ok (XFin (1 - 6 - 2), XFin (1 + 6 + 2), XFin (10 - 6 - 2), XFin (1 + 6 + 2)).
Proof. split; reflexivity. Qed.
