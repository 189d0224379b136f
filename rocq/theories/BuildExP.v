(** Concrete environments for the examples on building grids. *)
From Coq Require Import ZArith List Bool String.
From Coq Require Import Reals Lra Lia.
From Verif Require Import Num NumP Py SpecNum Validate ValidateP RingP XLibm FS GridParams SpecGrid GridParamsP GridParamsXP Names GridProp Geometry GeomP Build SpecBuild BuildP StretchP InterpP Shallot BuildGP BuildGridP BuildCP BuildDP BuildEP BuildFP.
Import ListNotations.

(** exact arithmetic *)
Definition env_xr : env xr := mkEnv Libm_xr np_search (fun _ => "0.0000"%string) 100.

(** binary64 with crude elementary functions *)
Definition crude : Libm f64 :=
  {| m_pi := n_ofZ 3; m_sin := fun x => x; m_cos := fun _ => n_one; m_asin := fun x => x; m_acos := fun x => x;
     m_atan := fun x => x; m_atan2 := fun y x => n_zero; m_hypot := fun x y => n_add (n_abs x) (n_abs y) |}.
Definition env_f64 : env f64 := mkEnv crude np_search (fun _ => "0.0000"%string) 100.
Definition grid_f64 : res (gparams f64) := new_params (PInt 0) (PInt 2) (PInt 3) (PInt 0) (PInt 1) (PInt 2) (PInt 2) (PInt 3).
Definition built_f64 : res (shallot f64) :=
  let* g := grid_f64 in snd (snd (new_shallot env_f64 (EIs g) (PInt 4) (PInt 50) (PBool false) (PBool false))).

Lemma built_f64_ok : is_ok built_f64 = true. Proof. vm_compute. reflexivity. Qed.

(** the smallest sampled disk is in the middle of the rf axis of the radius cube, for every grid point *)
Section X.
Local Open Scope R_scope.
Context (E : env xr) (HE : e_libm E = Libm_xr) (nf : pyval xr) (n : nat) (Hnf : num_index nf = Ok n) (Hn : (2 <= n)%nat).

(** at a point of a built quadrant the radius in the middle is a positive number or the shear is NaN *)
Theorem middle_of_quadrant (g : gparams xr) data Mx My y x dy dx : quadrant E g nf WRadius data -> proper g ->
  amax (g_dx g) = XFin Mx -> amax (g_dy g) = XFin My -> 1 <= Mx -> 1 <= My ->
  nth_error (g_dy g) y = Some (XFin dy) -> nth_error (g_dx g) x = Some (XFin dx) ->
  let v := cell (List.length (g_dx g)) (List.length (g_rfa g)) data y x (List.length (g_rf g) - 1) in
  (dy = 0 /\ dx <> 0 /\ v = Some XNaN) \/ (~ (dy = 0 /\ dx <> 0) /\ exists r, v = Some (XFin r) /\ 0 < r).
Proof.
  intros [Hl Q] Hpr Mx' My' HMx HMy Hy Hx v.
  assert (Ly : (y < List.length (g_dy g))%nat) by (apply nth_error_Some; congruence). assert (Lx : (x < List.length (g_dx g))%nat) by (apply nth_error_Some; congruence).
  specialize (Q y x Ly Lx). unfold column_spec in Q. cbn zeta in Q. rewrite (nth_error_nth _ _ _ Hy), (nth_error_nth _ _ _ Hx) in Q.
  assert (Hr := pr_rf Hpr). assert (Ha := pr_rfa Hpr).
  assert (Hv : v = nth_error (column_at (List.length (g_dx g)) (List.length (g_rfa g)) data y x) (List.length (g_rf g) - 1)).
  { unfold v, cell, column_at. rewrite nth_error_firstn' by lia. now rewrite nth_error_skipn'. }
  rewrite Hv. clear Hv v. set (c := column_at _ _ _ _ _) in *. clearbody c. rewrite shear_xr in Q.
  destruct (Req_EM_T dy 0) as [Ed|Ed]; [destruct (Req_EM_T dx 0) as [Ex|Ex]|].
  - right. split; [tauto|]. cbn [n_isnan Num_xr x_isnan] in Q. destruct Q as (col & Hc & ->). rewrite HE, radius_xr in Hc.
    destruct (@middle_radius E HE nf n Hnf Hn dy 0 (radius_of dy) (radius_pos dy) g Mx My col) as (r & Hr' & _ & Hp & _); auto; [intros X; rewrite X in Hr; cbn in Hr; lia|]. exists r. auto.
  - left. cbn [n_isnan Num_xr x_isnan] in Q. split; auto. split; auto. rewrite Q. apply nth_error_repeat. lia.
  - right. split; [tauto|]. cbn [n_isnan Num_xr x_isnan] in Q. destruct Q as (col & Hc & ->). rewrite HE, radius_xr in Hc.
    destruct (@middle_radius E HE nf n Hnf Hn dy (- dx / dy) (radius_of dy) (radius_pos dy) g Mx My col) as (r & Hr' & _ & Hp & _); auto; [intros X; rewrite X in Hr; cbn in Hr; lia|contradiction|]. exists r. auto.
Qed.
End X.
