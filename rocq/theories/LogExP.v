(** Example logs of ring systems in binary64. *)
From Coq Require Import ZArith Reals List Bool String Lia.
From Verif Require Import Num NumP Py SpecNum Ring RingSystem SpecRing RingSystemP RingMoreP Fmt SpecFmt Text Message Log SpecLog LogP.
Import ListNotations.
Local Open Scope string_scope.
Local Open Scope list_scope.

Definition ex_ops : list (nat * @op f64) :=
  [(0, OpAdd (PInt 3) (PObj "Ring" 3)); (1, OpRemove (PInt 0)); (0, OpRemove (PInt 7)); (0, OpMerge n_one); (0, OpSplit (PArr "int64" [3] [SI 1; SI 2; SI 1]))].
Definition ex_world : world f64 := (ex_heap, [ex_sys; ex_sys]).
Theorem ex_history : world_ok ex_world /\ objects_ok ex_world ex_ops /\
  map line_of (console 20 (world_log fmt_fixed 0 ex_world ex_ops)) =
  ["INFO     - _override_ring_geometry: ring inclination overridden from 3.00 to 10.00";
   "INFO     - _override_ring_geometry: ring tilt overridden from 3.00 to 20.00";
   "INFO     - add_ring: added ring at index 3";
   "INFO     - merge_rings: merged rings from 4 to 3";
   "INFO     - split_rings: split rings from 3 to 4"] /\
  map line_of (console 20 (world_log fmt_fixed 1 ex_world ex_ops)) = ["INFO     - remove_ring: removed ring at index 0"].
Proof.
  split; [|split; [|split; vm_compute; exact eq_refl]].
  - intros [|[|[|k]]] s H; try discriminate; injection H as <-; split; [exact ex_geo|exact ex_wf|exact ex_geo|exact ex_wf].
  - cbn [objects_ok ex_ops]. split; [cbn; lia|]. repeat split; cbn; auto.
Qed.

(** the index True *)
Definition gap_sys : rsys f64 := mkSys (fz 1) (fz 10) (fz 20) [0; 2].
Theorem true_refuted : ~ (forall (h : list (ring f64)) s index rg h' s' l, geo_ok s -> sys_wf h s -> (forall c m, rg = PObj c m -> m < List.length h) ->
  add_ring_l fmt_fixed h s index rg = (h', s', Ok tt, l) -> exists d z, read_count d = Some z /\ In (info "add_ring" ("added ring at index " ++ d)%string) l).
Proof.
  intros H.
  assert (G : geo_ok gap_sys) by exact ex_geo.
  assert (W : sys_wf ex_heap gap_sys) by (intros l Hl; apply ex_wf; cbn in *; tauto).
  assert (B : geo_ok gap_sys /\ is_ok (snd (fst (add_ring_l fmt_fixed ex_heap gap_sys (PBool true) (PObj "Ring" 1)))) = true) by (split; [exact G|vm_compute; exact eq_refl]).
  destruct B as [_ B]. destruct (add_ring_l fmt_fixed ex_heap gap_sys (PBool true) (PObj "Ring" 1)) as [[[h' s'] [[]|e]] l] eqn:E; [|discriminate].
  assert (V : forall c m, (PObj "Ring" 1 : pyval f64) = PObj c m -> m < List.length ex_heap) by (intros c m K; injection K as _ <-; cbn; lia).
  destruct (H _ _ _ _ _ _ _ G W V E) as (d & z & R & I).
  destruct (add_log fmt_fixed _ _ G V E) as (m & a & b & _ & A & A' & ->).
  assert (N : forall x y name q, overridden fmt_fixed name x y q -> In (info "add_ring" ("added ring at index " ++ d)%string) q -> False).
  { intros x y name q [[_ ->]|[_ ->]] Q; [destruct Q|]. destruct Q as [Q|[]]. discriminate Q. }
  rewrite !in_app_iff in I. destruct I as [I|[I|I]]; [exact (N _ _ _ _ A I)|exact (N _ _ _ _ A' I)|].
  destruct I as [I|[I|[]]]; [discriminate I|]. unfold info in I. injection I as I. subst d. discriminate R.
Qed.
