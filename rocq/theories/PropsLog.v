(** Property theorems for the logs of ring systems (C95).  [tells a l b]: the debug records of the log l lead from the system
    with text a to the one with text b without a gap.  [fmt] stands for "{:.kf}". *)
From Coq Require Import ZArith Reals List Bool String.
From Verif Require Import Num Py SpecNum Ring RingSystem SpecRing Fmt SpecFmt Text Message Log SpecLog LogP LogExP.
Import ListNotations.
Local Open Scope string_scope.
Local Open Scope list_scope.

(** C95.  What ring systems log. *)
Theorem C95_add {T} {NT : Num T} {LT : NumLaws T} fmt (h : list (ring T)) s index rg h' s' l : geo_ok s -> (forall c m, rg = PObj c m -> m < List.length h) ->
  add_ring_l fmt h s index rg = (h', s', Ok tt, l) -> exists m a b, rg = PObj "Ring" m /\
    overridden fmt "inclination" (r_inc (deref h m)) (s_inc s) a /\ overridden fmt "tilt" (r_tilt (deref h m)) (s_tilt s) b /\
    l = a ++ b ++ [debug "add_ring" (story "add_ring()" (rsys_repr fmt h s) (rsys_repr fmt h' s')); info "add_ring" ("added ring at index " ++ str_index index)].
Proof. exact (@add_log T NT LT fmt h s index rg h' s' l). Qed.
Print Assumptions C95_add.
Theorem C95_replace {T} {NT : Num T} {LT : NumLaws T} fmt (h : list (ring T)) s index rg h' s' l : geo_ok s -> (forall c m, rg = PObj c m -> m < List.length h) ->
  replace_ring_l fmt h s index rg = (h', s', Ok tt, l) -> exists m a b, rg = PObj "Ring" m /\
    overridden fmt "inclination" (r_inc (deref h m)) (s_inc s) a /\ overridden fmt "tilt" (r_tilt (deref h m)) (s_tilt s) b /\
    l = a ++ b ++ [debug "replace_ring" (story "replace_ring()" (rsys_repr fmt h s) (rsys_repr fmt h' s')); info "replace_ring" ("replaced ring at index " ++ str_index index)].
Proof. exact (@replace_log T NT LT fmt h s index rg h' s' l). Qed.
Print Assumptions C95_replace.
Theorem C95_remove {T} {NT : Num T} fmt (h : list (ring T)) s index h' s' l : remove_ring_l fmt h s index = (h', s', Ok tt, l) ->
  l = [debug "remove_ring" (story "remove_ring()" (rsys_repr fmt h s) (rsys_repr fmt h' s')); info "remove_ring" ("removed ring at index " ++ str_index index)].
Proof. exact (@remove_log T NT fmt h s index h' s' l). Qed.
Print Assumptions C95_remove.
(** the numbers of rings before and after *)
Theorem C95_split {T} {NT : Num T} {LT : NumLaws T} fmt (h : list (ring T)) s nd ds h' s' l : valid_divisions (List.length (s_rings s)) nd ds -> geo_ok s ->
  split_rings_l fmt h s nd = (h', s', Ok tt, l) ->
  exists a b, read_count a = Some (num_rings s) /\ read_count b = Some (num_rings s') /\
    l = [debug "split_rings" (story "split_rings()" (rsys_repr fmt h s) (rsys_repr fmt h' s')); info "split_rings" ("split rings from " ++ a ++ " to " ++ b)%string].
Proof. exact (@split_log T NT LT fmt h s nd ds h' s' l). Qed.
Print Assumptions C95_split.
Theorem C95_merge {T} {NT : Num T} fmt (h : list (ring T)) s tol h' s' l : merge_rings_l fmt h s tol = (h', s', Ok tt, l) ->
  exists a b, read_count a = Some (num_rings s) /\ read_count b = Some (num_rings s') /\
    l = [debug "merge_rings" (story "merge_rings()" (rsys_repr fmt h s) (rsys_repr fmt h' s')); info "merge_rings" ("merged rings from " ++ a ++ " to " ++ b)%string].
Proof. exact (@merge_log T NT fmt h s tol h' s' l). Qed.
Print Assumptions C95_merge.
(** a call that raises logs nothing *)
Theorem C95_error {T} {NT : Num T} {LT : NumLaws T} fmt (h : list (ring T)) s o h' s' e l : geo_ok s -> op_valid_obj h o -> do_op_l fmt (h, s) o = (h', s', Err e, l) -> l = [].
Proof. exact (fun g v => @error_log T NT LT fmt h s o g v h' s' e l). Qed.
Print Assumptions C95_error.
(** any calls on several systems that may share rings: the log of each system leads from what it was to what it is *)
Theorem C95_history {T} {NT : Num T} {LT : NumLaws T} fmt (w : world T) ops k s s' : world_ok w -> objects_ok w ops ->
  nth_error (snd w) k = Some s -> nth_error (snd (do_wops w ops)) k = Some s' ->
  tells (rsys_repr fmt (fst w) s) (world_log fmt k w ops) (rsys_repr fmt (fst (do_wops w ops)) s').
Proof. exact (@history T NT LT fmt ops w k s s'). Qed.
Print Assumptions C95_history.
Theorem C95_levels a l b level : tells a l b ->
  ((level <= 10)%Z -> console level l = l) /\ ((20 < level)%Z -> console level l = []) /\
  ((10 < level <= 20)%Z -> console level l = filter (fun r => Z.eqb (l_level r) 20) l).
Proof. exact (@levels a l b level). Qed.
Print Assumptions C95_levels.
Theorem C95_outcome {T} {NT : Num T} fmt (st : list (ring T) * rsys T) o : fst (do_op_l fmt st o) = do_op st o.
Proof. exact (@op_drop T NT fmt st o). Qed.
Print Assumptions C95_outcome.
(** the index need not be written as a number *)
Theorem C95_numeral_refuted : ~ (forall (h : list (ring f64)) s index rg h' s' l, geo_ok s -> sys_wf h s -> (forall c m, rg = PObj c m -> m < List.length h) ->
  add_ring_l fmt_fixed h s index rg = (h', s', Ok tt, l) -> exists d z, read_count d = Some z /\ In (info "add_ring" ("added ring at index " ++ d)%string) l).
Proof. exact true_refuted. Qed.
Print Assumptions C95_numeral_refuted.
Example C95_ex : world_ok ex_world /\ objects_ok ex_world ex_ops /\
  map line_of (console 20 (world_log fmt_fixed 0 ex_world ex_ops)) =
  ["INFO     - _override_ring_geometry: ring inclination overridden from 3.00 to 10.00";
   "INFO     - _override_ring_geometry: ring tilt overridden from 3.00 to 20.00";
   "INFO     - add_ring: added ring at index 3";
   "INFO     - merge_rings: merged rings from 4 to 3";
   "INFO     - split_rings: split rings from 3 to 4"] /\
  map line_of (console 20 (world_log fmt_fixed 1 ex_world ex_ops)) = ["INFO     - remove_ring: removed ring at index 0"].
Proof. exact ex_history. Qed.
