(** Property theorems for the texts of grid objects and the labels of pictures (C90). *)
From Coq Require Import ZArith Reals List Bool String.
From Verif Require Import Num Py Validate Ring FS GridParams SpecGrid GridDiag Names GridProp SpecProp GridPropExP Viewer ViewerDraw Fmt SpecFmt SpecText.
From Verif Require RingSystem.
From Verif Require Import Geometry Build Shallot ShallotOps SpecBuild SpecOps AddLaws OpsExP SpecSave Text TextP TextGridP SpecShow TextShowP TextShowMoreP TextShowExP.
Import ListNotations.
Local Open Scope string_scope.

(** C90.  The texts of diagnostics, parameters, properties, gradients and grids show their numbers, each on
    its own line after its own label; those of changes the ring system before or after; the labels of a
    picture name the axes it shows. *)
Theorem C90_diagnostics (d : gdiag f64) : diag_shown d (lines_of (diag_repr d)).
Proof. exact (diag_text d). Qed.
Print Assumptions C90_diagnostics.
Theorem C90_parameters (g : gparams f64) t : params_repr fmt_fixed g = Ok t -> params_shown g (lines_of t).
Proof. exact (@params_text g t). Qed.
Print Assumptions C90_parameters.
Theorem C90_property mean median (p : gprop f64) t : preach p -> gprop_repr fmt_fixed mean median p = Ok t -> let l := lines_of t in
  List.length l = match p_mask p with None => 7 | Some _ => 9 end /\ nth_error l 1 = Some (heading p) /\ prop_shown mean median p l.
Proof. exact (@prop_text mean median p t). Qed.
Print Assumptions C90_property.
Theorem C90_gradient mean median (g : ggrad f64) t : greach g -> ggrad_repr fmt_fixed mean median g = Ok t -> grad_shown mean median g (lines_of t).
Proof. exact (@grad_text mean median g t). Qed.
Print Assumptions C90_gradient.
Theorem C90_grid E mean median (s : shallot f64) t : sreach E s -> shallot_repr fmt_fixed mean median s = Ok t -> grid_shown mean median s (lines_of t).
Proof. exact (@grid_text E mean median s t). Qed.
Print Assumptions C90_grid.
Theorem C90_changes action (before : bool) h (s : RingSystem.rsys f64) : lines_of action = [action] ->
  let l := lines_of (print_changes fmt_fixed action before h s) in
  reads l (if before then 2 else 1) ((if before then "Before:" else "After:") :: words action) /\
  skipn (if before then 3 else 2) l = tl (lines_of (rsys_repr fmt_fixed h s)).
Proof. exact (@changes_text action before h s). Qed.
Print Assumptions C90_changes.
(** the title of a picture and the names at its axes *)
Theorem C90_title (p : gprop f64) : title_prefix p = heading p.
Proof. exact (heading_eq p). Qed.
Print Assumptions C90_title.
Theorem C90_labels (g : gparams f64) axis l r b t : extent g axis = Ok (l, r, b, t) ->
  axis_named g (fst (axis_labels axis)) l r /\ axis_named g (snd (axis_labels axis)) b t /\
  NoDup [slice_name axis; fst (axis_labels axis); snd (axis_labels axis)].
Proof. exact (@labels_name g axis l r b t). Qed.
Print Assumptions C90_labels.
(** "min value" need not be the minimum: it is the limit of the colours *)
Theorem C90_minimum_refuted mean median : ~ (forall (p : gprop f64) t, preach p -> gprop_repr fmt_fixed mean median p = Ok t ->
  exists x w, In x (p_data p) /\ reads (lines_of t) 3 ["min"; "value:"; w] /\ writes 4 x w).
Proof. exact (@minimum_refuted mean median). Qed.
Print Assumptions C90_minimum_refuted.
(** a share shown as 100.0000% need not be all points *)
Theorem C90_full_share_refuted : ~ (forall c v (x : f64), (c <= v)%nat -> share c v x -> fmt_fixed 4 x = "100.0000" -> c = v).
Proof. exact full_share_refuted. Qed.
Print Assumptions C90_full_share_refuted.
Example C90_grid_ex mean median : exists s t, sreach env2 s /\ shallot_repr fmt_fixed mean median s = Ok t /\ grads s <> [].
Proof. exact (@grid_shown_ex mean median). Qed.
(** three dx, five dy and three rf *)
Example C90_params_ex : match new_params (PInt 0 : pyval f64) (PInt 2) (PInt 3) (PInt (-1)) (PInt 1) (PInt 5) (PInt 4) (PInt 2) with
  | Ok g => match params_repr fmt_fixed g with
            | Ok t => lines_of t = [""; "Grid Parameters"; "----------------------------"; "dx:   0.00 ->   2.00 (3)"; "dy:  -1.00 ->   1.00 (5)";
                "rf:   4.00 ->   1.00 ->   4.00 (3)"; "grid_shape: (5, 3, 3)"]
            | Err _ => False end
  | Err _ => False end.
Proof. vm_compute. exact eq_refl. Qed.
Example C90_changes_ex : lines_of "Added Ring" = ["Added Ring"] /\ words "Added Ring" = ["Added"; "Ring"].
Proof. vm_compute. exact (conj eq_refl eq_refl). Qed.
