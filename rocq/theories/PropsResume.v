(** Builds that are interrupted and resumed from a copy of the temporary directory. *)
From Coq Require Import ZArith List Bool String.
From Verif Require Import Num NumP Py SpecNum Validate FS FSP GridParams SpecGrid GridDiag Names GridProp SpecProp Geometry Build SpecBuild Shallot AddLaws ShallotOps SpecOps SpecSave SpecResume
  BuildExP BuildCP OpsExP SaveLoadP SaveExP ResumeP ResumeCP ResumeExP.
Import ListNotations.
Local Open Scope string_scope.
Local Open Scope list_scope.

(** C57.  With keep_diagnostics=True and intermittent=True the constructor never succeeds. *)
Theorem C57_intermittent {T} {NT : Num T} (E : env T) (f f' : fs T) g nf ll s :
  reachable g -> perform f (snd (new_shallot E (EIs g) nf ll (PBool true) (PBool true))) <> (f', Ok s).
Proof. exact (@never_both T NT E f f' g nf ll s). Qed.
Print Assumptions C57_intermittent.
Example C57_intermittent_ex : exists g : gparams f64, reachable g.
Proof. destruct stopped as (g & _ & _ & _ & _ & _ & Hg & _). exists g. exact Hg. Qed.

(** C58.  The intermittent build of a grid, which would give [s], stops after any number [k] of complete effects,
    of which the first save was complete up to the data of fy; the temporary directory is copied to [d] and loaded.
    The result is [s] itself, but for the type of num_fxfy; the temporary directory is gone and nothing else
    has changed. *)
Theorem C58_resume {T} {NT : Num T} {LT : NumLaws T} (E : env T) g nf ll0 og l (s : shallot T) (f f1 f2 : fs T) k d ll v og0 l0 s0 :
  reachable g -> whole_number nf -> new_shallot E (EIs g) nf ll0 (PBool false) (PBool true) = (og, (l, Ok s)) ->
  1 <= k -> f1 = fst (run f (firstn k l)) -> fs_get f1 (under TEMP (dfile WFy)) <> None ->
  copied f1 f2 d -> d <> "" -> below TEMP d = false ->
  dummy E = (og0, (l0, Ok s0)) -> number ll true (PInt 10) (PInt 50) false = Ok v ->
  exists f', shallot_load E f2 (PStr d) ll = (f', Ok (with_nf s (reread_nf nf))) /\ forall p, fs_get f' p = if below TEMP p then None else fs_get f2 p.
Proof. exact (fun Hg Hw Hn Hk H1 Hf Hc Hd Hb Hdum Hll => @resume_clean T NT LT E g (reachable_proper Hg) nf ll0 og l s Hn Hw f f1 f2 k d ll v og0 l0 s0 Hd Hb Hdum Hll Hk H1 Hf Hc). Qed.
Print Assumptions C58_resume.
Example C58_resume_ex : exists g og l s f1 f2 og0 l0 s0, reachable g /\ whole_number (PInt (T := f64) 4) /\ new_shallot env3 (EIs g) (PInt 4) (PInt 50) (PBool false) (PBool true) = (og, (l, Ok s)) /\
  f1 = fst (run [] (firstn stop l)) /\ stop < List.length l /\ fs_get f1 (under TEMP (dfile WFy)) <> None /\ copied f1 f2 "copy" /\ below TEMP "copy" = false /\ dummy env3 = (og0, (l0, Ok s0)).
Proof.
  destruct stopped as (g & og & l & s & f1 & f2 & A & B & C & D & F & G). destruct dummy3 as (og0 & l0 & s0 & H). exists g, og, l, s, f1, f2, og0, l0, s0.
  split; [exact A|]. split; [exists 4%Z; now left|]. split; [exact B|]. split; [exact C|]. split; [exact G|]. split; [exact D|]. split; [exact F|]. split; [reflexivity|exact H].
Qed.
(** The process dies at any moment, also while writing a file or removing the directory, in a file system without
    temporary directory: loading the copy either raises or gives the grid of the uninterrupted build. *)
Theorem C58_crash {T} {NT : Num T} {LT : NumLaws T} (E : env T) g nf ll0 og l (s : shallot T) (f f1 f2 : fs T) d ll v og0 l0 s0 :
  reachable g -> whole_number nf -> new_shallot E (EIs g) nf ll0 (PBool false) (PBool true) = (og, (l, Ok s)) ->
  no_temp f -> crash f l f1 -> copied f1 f2 d -> d <> "" -> below TEMP d = false ->
  dummy E = (og0, (l0, Ok s0)) -> number ll true (PInt 10) (PInt 50) false = Ok v ->
  match snd (shallot_load E f2 (PStr d) ll) with Ok b => same_grid s b | Err _ => True end.
Proof. exact (fun Hg Hw Hn Ht Hcr Hc Hd Hb Hdum Hll => @resume_crash T NT LT E g (reachable_proper Hg) nf ll0 og l s Hn Hw f f1 f2 d ll v og0 l0 s0 Hd Hb Hdum Hll Ht Hcr Hc). Qed.
Print Assumptions C58_crash.
(** With num_fxfy=True, which the constructor accepts, resuming fails. *)
Theorem C58_bool_refuted :
  ~ (forall (E : env f64) g nf ll0 og l s (f f1 f2 : fs f64) k d ll v og0 l0 s0,
  reachable g -> new_shallot E (EIs g) nf ll0 (PBool false) (PBool true) = (og, (l, Ok s)) -> d <> "" -> below TEMP d = false -> dummy E = (og0, (l0, Ok s0)) ->
  number ll true (PInt 10) (PInt 50) false = Ok v -> 1 <= k -> f1 = fst (run f (firstn k l)) -> fs_get f1 (under TEMP (dfile WFy)) <> None -> copied f1 f2 d ->
  exists f' s', shallot_load E f2 (PStr d) ll = (f', Ok s')).
Proof. exact bool_refuted. Qed.
Print Assumptions C58_bool_refuted.
