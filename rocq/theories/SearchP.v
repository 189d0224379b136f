(** Searching a grid of disks for those that explain measured gradients. *)
From Coq Require Import ZArith Reals List Bool String Lia Lra.
From Verif Require Import Num NumP Py SpecNum Validate ValidateP XLibm Ring RingP RingSystem FS GridParams SpecGrid GridProp SpecProp Names Geometry SpecGeom SpecError GeomP GeomMoreP Build SpecBuild Shallot AddLaws ShallotOps SpecOps
  GridPropP GridGradP OpsP OpsReadP OpsEditP OpsGradP OpsFitP OpsPointP OpsExtractP OpsWrapP OpsListP SpecSearch TangentP.
Import ListNotations.
Set Implicit Arguments.
Local Open Scope R_scope.

(** a ring does not go through its centre *)
Lemma tangent_off dx dy i t p vx vy : 0 < cos (degrees i) -> tangent dx dy i t p vx vy -> p <> dx \/ dy <> 0.
Proof.
  intros Hc (r & th & Hr & H1 & H2 & _). destruct (Req_dec dy 0) as [Z|Z]; [|now right]. left. intros ->. rewrite Z in H2.
  assert (P := sin2_cos2 (degrees t)). assert (Q := sin2_cos2 th). unfold Rsqr in P, Q. unfold ring_x, ring_y in *.
  set (a := r * cos th) in *. set (b := r * cos (degrees i) * sin th) in *. set (ct := cos (degrees t)) in *. set (st := sin (degrees t)) in *.
  assert (A : a = 0). { transitivity (a * (st * st + ct * ct)); [rewrite P; ring|]. transitivity (ct * (a * ct - b * st) + st * (a * st + b * ct)); [ring|]. replace (a * ct - b * st) with 0 by lra. replace (a * st + b * ct) with 0 by lra. ring. }
  assert (B : b = 0). { transitivity (b * (st * st + ct * ct)); [rewrite P; ring|]. transitivity (ct * (a * st + b * ct) - st * (a * ct - b * st)); [ring|]. replace (a * ct - b * st) with 0 by lra. replace (a * st + b * ct) with 0 by lra. ring. }
  assert (C : cos th = 0). { unfold a in A. apply Rmult_integral in A as [A|A]; lra. }
  assert (S : sin th = 0). { unfold b in B. apply Rmult_integral in B as [B|B]; [apply Rmult_integral in B as [B|B]; lra|auto]. }
  rewrite C, S in Q. lra.
Qed.
Section Cast.
Variables (dx dy fx fy r i t : R).
Hypothesis (H : casts_eclipse dx dy fx fy r i t) (O : dy = 0 -> dx = 0).
Notation grad p := (gradient_at Libm_xr (XFin p) (XFin dx) (XFin dy) (shear_at (XFin dx) (XFin dy)) (XFin fx) (XFin fy)).
Lemma cast_shear : shear_at (XFin dx) (XFin dy) = XFin (- dx / dy).
Proof.
  unfold shear_at. cbn [n_eq n_zero n_ofZ Num_xr x_eq n_neg x_neg]. destruct (Req_EM_T dy (IZR 0)) as [Z|Z]; cbn [negb andb].
  - rewrite Z, (O Z). destruct (Req_EM_T 0 (IZR 0)) as [_|N]; [|lra]. cbn. f_equal. unfold Rdiv. rewrite Ropp_0. ring.
  - rewrite xdiv by auto. reflexivity.
Qed.
Lemma cast_value p g : grad p = XFin g <-> sine dx dy i t p g /\ g < 1.
Proof.
  rewrite cast_shear. assert (Hc := cast_ci H). split.
  - intros G. destruct (@gradient_range p dx dy (- dx / dy) fx fy _ eq_refl) as [N|(g' & G' & Hg')]; [congruence|]. rewrite G in G'. injection G' as <-. split; [|lra].
    assert (Q : p <> dx \/ dy <> 0).
    { destruct (Req_dec p dx) as [->|]; [|auto]. destruct (Req_dec dy 0) as [Z|]; [|auto]. exfalso. rewrite (proj2 (gradient_nan dx dx dy (- dx / dy) fx fy)) in G; [discriminate|]. rewrite Z. ring. }
    destruct (@tangent_exists i t dx dy p Hc Q) as (vx & vy & Ht). exists vx, vy. split; [exact Ht|]. destruct (cast_gradient H Q Ht) as [A B]. destruct (Req_dec vx 0) as [Z|Z]; [rewrite B in G by auto; discriminate|].
    rewrite A in G by auto. injection G as <-. reflexivity.
  - intros ((vx & vy & Ht & ->) & Hg). destruct (cast_gradient H (tangent_off Hc Ht) Ht) as [A _]. apply A. intros ->. apply Rlt_not_le in Hg. apply Hg.
    destruct (Req_dec vy 0) as [->|Hy].
    + exfalso. destruct (tangent_dir Hc Ht) as [V1 V2]. assert (D := det_m i t). assert (X : p - dx = 0 /\ dy = 0).
      { split.
        - apply (Rmult_eq_reg_l (m11 i t * m22 i t - m12 i t * m12 i t)); [|rewrite D; nra]. transitivity (m11 i t * (m22 i t * (p - dx) + m12 i t * dy) - m12 i t * (m12 i t * (p - dx) + m11 i t * dy)); [ring|]. rewrite <- V1, <- V2. ring.
        - apply (Rmult_eq_reg_l (m11 i t * m22 i t - m12 i t * m12 i t)); [|rewrite D; nra]. transitivity (m22 i t * (m12 i t * (p - dx) + m11 i t * dy) - m12 i t * (m22 i t * (p - dx) + m12 i t * dy)); [ring|]. rewrite <- V1, <- V2. ring. }
      destruct (tangent_off Hc Ht); lra.
    + replace (0 * 0 + vy * vy) with (Rsqr vy) by (unfold Rsqr; ring). rewrite sqrt_Rsqr_abs. right. field. now apply Rabs_no_R0.
Qed.
Lemma cast_nan p : grad p = XNaN \/ exists g, grad p = XFin g.
Proof. rewrite cast_shear. destruct (@gradient_range p dx dy (- dx / dy) fx fy _ eq_refl) as [N|(g' & G' & _)]; eauto. Qed.
End Cast.
Lemma sine_unique dx dy fx fy r i t p g g' : casts_eclipse dx dy fx fy r i t -> (dy = 0 -> dx = 0) -> sine dx dy i t p g -> g < 1 -> sine dx dy i t p g' -> g' < 1 -> g = g'.
Proof. intros H O A A' B B'. assert (X := proj2 (cast_value H O p g) (conj A A')). assert (Y := proj2 (cast_value H O p g') (conj B B')). congruence. Qed.

Lemma Injective_map_NoDup_in A B (f : A -> B) (l : list A) : (forall a b, In a l -> In b l -> f a = f b -> a = b) -> NoDup l -> NoDup (map f l).
Proof.
  induction l as [|a l IH]; intros Hf Hn; [constructor|]. inversion Hn as [|a' l' N1 N2]; subst. cbn [map]. constructor.
  - rewrite in_map_iff. intros (b & Hb & Hin). assert (b = a) as -> by (apply Hf; auto; [now right|now left]). auto.
  - apply IH; auto. intros b c Hb Hc. apply Hf; now right.
Qed.
Section Search.
Variables (E : env xr) (HE : e_libm E = Libm_xr) (s0 : shallot xr) (Hs : sreach E s0) (Hg : disk_grid s0).
Hypothesis (Hm : forall c, p_mask (the_cube c s0) = None).
Variables (a v u h : pyval xr) (D V U hill : R) (os : list obs) (w : bool).
Hypothesis (Sa : small a) (Sv : small v) (Su : small u) (Sh : small h) (Na : numberlike a) (Nv : numberlike v) (Nu : numberlike u) (Nh : numberlike h).
Hypothesis (Va : value a = XFin D) (Vv : value v = XFin V) (Vu : value u = XFin U) (Vh : value h = XFin hill).
Hypothesis (D0 : 0 < D) (V0 : 0 < V) (U0 : 0 <= U <= 1) (H0 : 0 <= hill).
Hypothesis (Tr : Forall (fun o => 0 < o_trans o) os) (Er : w = true -> Forall (fun o => 0 < o_err o) os).
Notation arr_of f := (column os f).

Definition s1 : shallot xr := with_grads (with_eclipse s0 (Some a) (Some v) (Some u)) None None.
Lemma step1 : set_eclipse_parameters a v u s0 = (s1, Ok tt).
Proof.
  destruct (@eclipse_result _ _ _ s0 a v u (reached_sinv Hs) Sa Sv Su) as (_ & _ & _ & K). apply K.
  - split; auto. rewrite Va. cbn [xlt]. lra.
  - split; auto. rewrite Vv. cbn [xlt]. lra.
  - split; auto. rewrite Vu. cbn [xlt]. lra.
  - rewrite Vu. cbn [xlt]. lra.
Qed.
Lemma reach1 : sreach E s1.
Proof. assert (X := @sr_op _ _ E s0 (OEclipse a v u) I Hs). cbn [do_op] in X. rewrite step1 in X. exact X. Qed.

Definition grad_of (o : obs) (g : ggrad xr) : Prop :=
  gg_err g = Some (PNpFloat (XFin (o_err o))) /\ scaled_gradient g = Ok (Some (XFin (required U V o))) /\
  forall y x q dx dy fx fy, nth_error (g_dy (s_params s0)) y = Some dy -> nth_error (g_dx (s_params s0)) x = Some dx -> (q < List.length (g_rfa (s_params s0)))%nat ->
    nth_error (p_data (s_fx s0)) (place s0 y x q) = Some fx -> nth_error (p_data (s_fy s0)) (place s0 y x q) = Some fy ->
    exists gv, gv = gradient_at Libm_xr (XFin (- o_time o / D)) dx dy (shear_at dx dy) fx fy /\ nth_error (p_data (gg_prop g)) (place s0 y x q) = Some gv /\
      (marked (p_mask (gg_prop g)) (place s0 y x q) = true <-> gv = XNaN \/ xlt gv (XFin (required U V o))).
Lemma farr_wf (l : list xr) : arr_wf (farr l).
Proof. unfold farr. cbn [arr_wf]. split; [rewrite map_length; cbn; lia|]. split; [|discriminate]. intros _. apply Forall_forall. intros e He. apply in_map_iff in He as (x & <- & _). exact I. Qed.
Lemma farr_inj (l l' : list xr) : farr l = farr l' -> l = l'.
Proof. intros X. rewrite <- (elems_farr l), <- (elems_farr l'). now rewrite X. Qed.
Lemma scale1 o : determine_orbital_scale E s1 = Ok o -> num_of o = XFin (orbital U V).
Proof.
  assert (Qu := @num_of_value xr _ _ u Nu Su). assert (Qv := @num_of_value xr _ _ v Nv Sv). change (num_of u = value u) in Qu. change (num_of v = value v) in Qv. rewrite Vu in Qu. rewrite Vv in Qv.
  unfold determine_orbital_scale. cbn [s1 with_grads with_eclipse s_limb s_vel]. destruct (is_number u && is_number v); [|discriminate]. rewrite Qu, Qv, HE. rewrite orbital_xr by (auto; lra).
  destruct (own_number u && _); [discriminate|]. destruct (own_number v && _); [discriminate|]. intros X. injection X as <-. destruct (own_number u && own_number v); reflexivity.
Qed.
Lemma Forall2_nth A B (P : A -> B -> Prop) : forall l m, List.length l = List.length m -> (forall k x, nth_error l k = Some x -> exists y, nth_error m k = Some y /\ P x y) -> Forall2 P l m.
Proof.
  induction l as [|x l IH]; intros [|y m] L X; cbn in L; try discriminate; constructor.
  - destruct (X 0%nat x eq_refl) as (y' & Hy & Hp). injection Hy as <-. exact Hp.
  - apply IH; [lia|]. intros k z Hz. exact (X (S k) z Hz).
Qed.
Lemma Forall2_nth_r A B (P : A -> B -> Prop) l m k y : Forall2 P l m -> nth_error m k = Some y -> exists x, nth_error l k = Some x /\ P x y.
Proof. intros F. revert k. induction F as [|x y' l m Hp F IH]; intros [|k] H; cbn in *; try discriminate; [injection H as <-; eauto|eauto]. Qed.
Lemma Forall2_nth_l A B (P : A -> B -> Prop) l m k x : Forall2 P l m -> nth_error l k = Some x -> exists y, nth_error m k = Some y /\ P x y.
Proof. intros F. revert k. induction F as [|x' y l m Hp F IH]; intros [|k] H; cbn in *; try discriminate; [injection H as <-; eauto|eauto]. Qed.
Lemma each2_total A B C (f : A -> B -> A * res C) : forall l m, List.length l = List.length m -> (forall k a b, nth_error l k = Some a -> nth_error m k = Some b -> exists a' c, f a b = (a', Ok c)) -> exists l' cs, each2 f l m = (l', Ok cs).
Proof.
  induction l as [|e l IH]; intros [|b m] L H; try discriminate L; cbn [each2]; eauto.
  destruct (H 0%nat e b eq_refl eq_refl) as (e' & c & ->). destruct (IH m) as (l' & cs & ->); [cbn in L; lia|intros k; exact (H (S k))|]. eauto.
Qed.
Lemma arr_ok (f : obs -> R) lo up b1 b2 : lo = Some b1 -> up = Some b2 \/ up = None /\ b2 = p_inf -> small b1 -> small b2 -> numberlike b1 -> numberlike b2 -> 
  ~ xlt (value b2) (value b1) -> (forall o, In o os -> respects false (value b1) (value b2) (XFin (f o))) -> array (arr_of f) lo up false (Some "float64"%string) (Some 1%Z) = Ok (arr_of f).
Proof.
  intros -> Hu S1 S2 N1 N2 Hb Hr. unfold column, farr. cbn [array].
  assert (X : array_bounds (map (@SF xr) (map (fun o => XFin (f o)) os)) b1 b2 false = Ok tt).
  { apply array_bounds_ok; auto.
    - intros e He. apply in_map_iff in He as (y & <- & _). exact I.
    - split; [exact N1|]. split; [exact N2|]. split; [exact Hb|]. intros e He. apply in_map_iff in He as (y & <- & Hy). apply in_map_iff in Hy as (o & <- & Ho). cbn [svalue]. apply Hr, Ho. }
  destruct Hu as [->|[-> ->]]; rewrite X; reflexivity.
Qed.
Lemma scale_ok : exists o, determine_orbital_scale E s1 = Ok o.
Proof.
  assert (Qu := @num_of_value xr _ _ u Nu Su). assert (Qv := @num_of_value xr _ _ v Nv Sv). change (num_of u = value u) in Qu. change (num_of v = value v) in Qv. rewrite Vu in Qu. rewrite Vv in Qv.
  unfold determine_orbital_scale. cbn [s1 with_grads with_eclipse s_limb s_vel].
  assert (Iu : is_number u = true) by (unfold is_number; destruct (proj1 (num_scal_of u) Nu) as [x ->]; reflexivity). assert (Iv : is_number v = true) by (unfold is_number; destruct (proj1 (num_scal_of v) Nv) as [x ->]; reflexivity).
  rewrite Iu, Iv, Qu, Qv, HE. cbn [andb]. assert (P := PI_RGT_0). assert (P3 := PI2_3_2). 
  replace (n_eq (n_add (n_sub (num2 12) (n_mul (num2 12) (XFin U))) (n_mul (n_mul (num2 3) (m_pi Libm_xr)) (XFin U))) n_zero) with false.
  2:{ symmetry. unfold num2, n_zero. cbn [n_eq n_add n_sub n_mul n_ofZ Num_xr m_pi Libm_xr x_mul x_sub x_add x_eq x_neg]. destruct (Req_EM_T _ _) as [Z|]; [exfalso|reflexivity]. nra. }
  replace (n_eq (XFin V) n_zero) with false by (symmetry; unfold n_zero; cbn [n_eq n_ofZ Num_xr x_eq]; destruct (Req_EM_T _ _); [lra|reflexivity]).
  rewrite !andb_false_r. eauto.
Qed.
Lemma add_total : Forall (measurable U V) os -> exists s2, add_gradients E (arr_of o_time) (arr_of o_slope) (Some (arr_of o_err)) (Some (arr_of o_trans)) s1 = (s2, Ok tt).
Proof.
  rewrite Forall_forall. intros M. destruct scale_ok as [o Ho]. assert (Vo := scale1 Ho). destruct (orbital_small E s1 Ho) as [So Fo].
  assert (Ge0 : forall f : obs -> R, (forall x, In x os -> 0 <= f x) -> array (arr_of f) (Some (PFloat n_zero)) None false (Some "float64"%string) (Some 1%Z) = Ok (arr_of f)).
  { intros f Hf. apply (@arr_ok f _ _ (PFloat n_zero) p_inf eq_refl (or_intror (conj eq_refl eq_refl))); [exact I|exact I|right; constructor|right; constructor|cbn; tauto|].
    intros x Hx. specialize (Hf x Hx). split; cbn; [lra|tauto]. }
  unfold add_gradients. cbn [s1 with_grads with_eclipse s_limb s_ecl s_vel]. fold s1.
  replace (array (arr_of o_time) None None false (Some "float64"%string) (Some 1%Z)) with (Ok (arr_of o_time)) by reflexivity. cbn [bind].
  rewrite (Ge0 o_slope) by (intros x Hx; apply (M x Hx)).
  cbn [bind]. assert (S2 : same_shape_arrays [arr_of o_time; arr_of o_slope] 2 = Ok tt) by (unfold column, farr; apply same2; now rewrite !map_length). rewrite S2. clear S2. cbn [bind].
  unfold mbind at 1. rewrite disk_gradients_ok. unfold mbind, set_measured. cbn [dflt].
  rewrite (Ge0 o_err) by (intros x Hx; apply (M x Hx)). cbn [bind].
  assert (A01 : array (arr_of o_trans) (Some (PInt 0)) (Some (PInt 1)) false (Some "float64"%string) (Some 1%Z) = Ok (arr_of o_trans)).
  { apply (@arr_ok o_trans _ _ (PInt 0) (PInt 1) eq_refl (or_introl eq_refl)); [cbn; lia|cbn; lia|left; constructor|left; constructor|cbn; lra|].
    intros x Hx. destruct (M x Hx) as (_ & _ & A & _). split; cbn; lra. }
  rewrite A01. clear A01.
  cbn [bind]. assert (S3 : same_shape_arrays [arr_of o_slope; arr_of o_err; arr_of o_trans] 3 = Ok tt).
  { unfold column, same_shape_arrays, farr. cbn [List.length Nat.ltb Nat.leb negb Nat.eqb Py.shape_of same_shape_loop bind orb]. unfold shape_eqb. rewrite !map_length. destruct (list_eq_dec Nat.eq_dec [List.length os] [List.length os]); [reflexivity|congruence]. }
  rewrite S3. clear S3. unfold column. cbn [bind]. match goal with |- context[determine_orbital_scale E ?z] => change (determine_orbital_scale E z) with (determine_orbital_scale E s1) end.
  rewrite Ho. cbn [bind]. rewrite !elems_farr. cbn [with_grads s1 with_eclipse s_grads s_fit dflt app]. rewrite !map_length, Nat.sub_diag. cbn [firstn skipn app].
  match goal with |- context[each2 ?f ?l ?m] => destruct (@each2_total _ _ _ f l m) as (l' & cs & Ec) end.
  - rewrite !combine_length, !map_length. lia.
  - intros k g z Hgk Hz. rewrite !map_map, nth_error_map in Hgk. destruct (nth_error os k) as [x|] eqn:Ex; [|discriminate].
    assert (Mx := M x (nth_error_In _ _ Ex)). destruct Mx as (M1 & M2 & M3 & M4).
    assert (Z : z = (XFin (Rabs (o_slope x)), (XFin (o_err x), XFin (o_trans x)))).
    { clear - Hz Ex. revert k z Hz Ex. generalize os. intros os'. induction os' as [|y l IH]; intros [|k] z Hz Ex; cbn in *; try discriminate; [|eauto]. injection Ex as ->. injection Hz as <-. reflexivity. }
    subst z. cbn [fst snd]. clear Hz. eexists _, tt. apply determine_iff. cbn [dflt].
    assert (SF_ : forall r, small (PNpFloat (XFin r) : pyval xr)) by (intros; exact I). assert (NF : forall r, numberlike (PNpFloat (XFin r) : pyval xr)) by (intros; right; constructor).
    assert (O0 : 0 <= orbital U V).
    { unfold orbital, Rdiv. assert (P := PI_RGT_0). assert (P3 := PI2_3_2). 
      apply Rmult_le_pos; apply Rmult_le_pos; try lra; left; apply Rinv_0_lt_compat; nra. }
    split; [apply number_ge0; auto; cbn [value]; split; [auto|split; [auto|]]; cbn; assert (X := Rabs_pos (o_slope x)); lra|].
    split; [apply number_ge0; auto; split; [auto|split; [now right|]]; rewrite <- (@num_of_value xr _ _ o (or_intror Fo) So); change (~ xlt (num_of o) (XFin 0)); rewrite Vo; cbn; lra|].
    split; [apply number_01; auto; split; [auto|split; [auto|]]; cbn; lra|].
    split; [apply number_ge0f; auto; split; [auto|split; [auto|]]; cbn; lra|].
    eexists. split; [reflexivity|]. split; [|reflexivity].
    rewrite Vo. cbn [num_of scal_of num_scal]. unfold n_one. cbn [n_ofZ Num_xr n_div n_mul]. rewrite xdiv by lra.
    apply not_true_is_false. unfold n_gt. intros X. apply nlt_iff in X. unfold required in M4. change (1 < Rabs (o_slope x) * (orbital U V * (1 / o_trans x))) in X. lra.
  - rewrite Ec. cbn [bind]. eexists. reflexivity.
Qed.

Variable s2 : shallot xr.
Hypothesis (Add : add_gradients E (arr_of o_time) (arr_of o_slope) (Some (arr_of o_err)) (Some (arr_of o_trans)) s1 = (s2, Ok tt)).

Lemma step2 : exists new, s2 = with_grads s1 (Some new) None /\ Forall2 grad_of os new.
Proof.
  destruct (@added _ _ _ _ E s1 s2 (arr_of o_time) (arr_of o_slope) (Some (arr_of o_err)) (Some (arr_of o_trans)) u a v reach1 (farr_wf _) (farr_wf _) (farr_wf _) (farr_wf _) eq_refl eq_refl eq_refl Add)
    as (ts & ls & es & trs & o & new & Et & El & Ee & Etr & _ & _ & _ & Ho & E2 & Ln & Hn).
  apply farr_inj in Et, El, Ee, Etr. subst ts ls es trs. apply scale1 in Ho. exists new. split; [exact E2|]. rewrite map_length in Ln. apply Forall2_nth; [auto|].
  intros k o1 Ho1. assert (M : forall f : obs -> R, nth_error (map (fun o => XFin (f o)) os) k = Some (XFin (f o1))) by (intros f; now rewrite nth_error_map, Ho1).
  destruct (Hn k _ _ _ _ (M o_time) (M o_slope) (M o_err) (M o_trans)) as (g & Hk & K). exists g. split; [exact Hk|]. cbv zeta in K.
  assert (Tk : 0 < o_trans o1) by (rewrite Forall_forall in Tr; apply Tr; eapply nth_error_In; eauto).
  assert (Qa := @num_of_value xr _ _ a Na Sa). change (num_of a = value a) in Qa. rewrite Va in Qa. rewrite Qa, Ho in K.
  replace (n_mul (n_abs (XFin (o_slope o1))) (n_mul (XFin (orbital U V)) (n_div n_one (XFin (o_trans o1))))) with (XFin (required U V o1)) in K.
  2:{ unfold n_one. cbn [n_mul n_abs n_div n_ofZ Num_xr x_abs]. rewrite xdiv by lra. reflexivity. }
  replace (n_div (n_neg (XFin (o_time o1))) (XFin D)) with (XFin (- o_time o1 / D)) in K by (cbn [n_div n_neg Num_xr x_neg]; rewrite xdiv by lra; reflexivity).
  rewrite HE in K. destruct K as (_ & _ & K1 & _ & _ & K2 & _ & _ & K3). split; [exact K1|]. split; [exact K2|]. exact K3.
Qed.

Definition s3 : shallot xr := fst (generate_hill_radius_mask h s2).
Definition s4 : shallot xr := fst (determine_gradient_fit w s3).
Lemma reach2 : sreach E s2.
Proof. assert (X := @sr_op _ _ E s1 (OAdd (arr_of o_time) (arr_of o_slope) (Some (arr_of o_err)) (Some (arr_of o_trans))) I reach1). cbn [do_op] in X. rewrite Add in X. exact X. Qed.
Lemma step3 : exists m new, generate_hill_radius_mask h s2 = (s3, Ok tt) /\ s3 = set_dr (with_grads s1 (Some new) None) (with_mask (s_dr s0) (Some m)) /\ Forall2 grad_of os new /\
  forall i x, nth_error (p_data (s_dr s0)) i = Some x -> marked (Some m) i = true <-> x = XNaN \/ xlt (XFin hill) x.
Proof.
  destruct step2 as (new & E2 & Hn). destruct (@hill_exact _ _ _ _ E s2 h reach2 Sh Nh) as (m & A & _ & B); [rewrite Vh; cbn [xlt]; lra|]. exists m, new.
  unfold s3. rewrite A. cbn [fst]. split; [reflexivity|]. rewrite E2. split; [reflexivity|]. split; [exact Hn|]. rewrite Vh in B. rewrite E2 in B. exact B.
Qed.
Lemma reach3 : sreach E s3.
Proof. exact (@sr_op _ _ E s2 (OHill h) I reach2). Qed.
Lemma step4 : exists m new p, determine_gradient_fit w s3 = (s4, Ok tt) /\ s4 = with_grads s3 (Some new) (Some p) /\
  s3 = set_dr (with_grads s1 (Some new) None) (with_mask (s_dr s0) (Some m)) /\ Forall2 grad_of os new /\
  (forall i x, nth_error (p_data (s_dr s0)) i = Some x -> marked (Some m) i = true <-> x = XNaN \/ xlt (XFin hill) x) /\
  forall i rs, (i < points s0)%nat -> Forall2 (fun g r => term_of w i g (XFin r)) new rs -> nth_error (p_data p) i = Some (XFin (fold_left Rplus rs 0%R)) /\ marked (p_mask p) i = false.
Proof.
  destruct step3 as (m & new & _ & E3 & Hn & Hb). assert (G3 : s_grads s3 = Some new) by (rewrite E3; reflexivity).
  destruct (@fit_total _ _ _ E s3 w new reach3 G3) as [s' Hf].
  { intros g Hin. apply In_nth_error in Hin as [k Hk]. destruct (Forall2_nth_r k Hn Hk) as (o & Ho & A & B & _). split; [eauto|]. intros _. rewrite A. discriminate. }
  assert (E4 : s' = s4) by (unfold s4; now rewrite Hf). subst s'.
  destruct (@fit_sum _ _ _ _ E s3 s4 w new reach3 G3 Hf) as (p & E4 & _). destruct (@fit_reals E s3 s4 w new reach3 G3 Hf) as (p' & Hp' & Hr). rewrite E4 in Hp'. injection Hp' as <-.
  exists m, new, p. split; [exact Hf|]. split; [exact E4|]. split; [exact E3|]. split; [exact Hn|]. split; [exact Hb|].
  intros i rs Hi. apply Hr. rewrite E3. exact Hi.
Qed.
Lemma reach4 : sreach E s4.
Proof. exact (@sr_op _ _ E s3 (OFit w) I reach3). Qed.

Notation fnd q := (found s0 w D U V hill os q).
Notation inr y x k := (y < List.length (g_dy (s_params s0)) /\ x < List.length (g_dx (s_params s0)) /\ k < List.length (g_rfa (s_params s0)))%nat.
(** what the gradients say at a point *)
Lemma explained l new y x k dx dy fx fy r ic t : Forall2 grad_of l new ->
  nth_error (g_dy (s_params s0)) y = Some (XFin dy) -> nth_error (g_dx (s_params s0)) x = Some (XFin dx) -> (k < List.length (g_rfa (s_params s0)))%nat -> (dy = 0 -> dx = 0) -> casts_eclipse dx dy fx fy r ic t ->
  nth_error (p_data (s_fx s0)) (place s0 y x k) = Some (XFin fx) -> nth_error (p_data (s_fy s0)) (place s0 y x k) = Some (XFin fy) ->
  ((forall g, In g new -> marked (p_mask (gg_prop g)) (place s0 y x k) = false) <-> exists gs, explains D U V l dx dy ic t gs).
Proof.
  intros Hn Hy Hx Hk Ho Hc Hfx Hfy. split.
  - intros Hu. unfold explains. induction Hn as [|o g os' new' Hog Hn IH]; [exists []; constructor|]. destruct IH as [gs Hgs]; [intros g' Hg'; apply Hu; now right|].
    destruct Hog as (_ & _ & K). destruct (K y x k _ _ _ _ Hy Hx Hk Hfx Hfy) as (gv & Eg & _ & M). specialize (Hu g (or_introl eq_refl)).
    destruct (@cast_nan dx dy fx fy Ho (- o_time o / D)) as [N|[g' G]]; [exfalso; rewrite <- Eg in N; rewrite (proj2 M) in Hu by auto; discriminate|].
    exists (g' :: gs). constructor; [|exact Hgs]. destruct (proj1 (cast_value Hc Ho _ _) G) as [S L]. split; [exact S|]. split; [exact L|].
    apply Rnot_lt_le. intros Lt. rewrite (proj2 M) in Hu; [discriminate|]. right. rewrite Eg, G. exact Lt.
  - intros [gs Hgs] g Hin. apply In_nth_error in Hin as [n Hgn]. destruct (Forall2_nth_r n Hn Hgn) as (o & Hon & _ & _ & K).
    destruct (Forall2_nth_l n Hgs Hon) as (g' & _ & S & L & R). destruct (K y x k _ _ _ _ Hy Hx Hk Hfx Hfy) as (gv & Eg & _ & M).
    rewrite (proj2 (cast_value Hc Ho _ _) (conj S L)) in Eg. subst gv. destruct (marked _ _); [|reflexivity]. destruct (proj1 M eq_refl) as [X|X]; [discriminate|]. cbn [xlt] in X. lra.
Qed.
Lemma fit_terms l new y x k dx dy fx fy r ic t gs : Forall2 grad_of l new ->
  nth_error (g_dy (s_params s0)) y = Some (XFin dy) -> nth_error (g_dx (s_params s0)) x = Some (XFin dx) -> (k < List.length (g_rfa (s_params s0)))%nat -> (dy = 0 -> dx = 0) -> casts_eclipse dx dy fx fy r ic t ->
  nth_error (p_data (s_fx s0)) (place s0 y x k) = Some (XFin fx) -> nth_error (p_data (s_fy s0)) (place s0 y x k) = Some (XFin fy) ->
  explains D U V l dx dy ic t gs -> (w = true -> Forall (fun o => 0 < o_err o) l) ->
  Forall2 (fun g r => term_of w (place s0 y x k) g (XFin r)) new
    (map (fun p => (snd p - required U V (fst p)) * (snd p - required U V (fst p)) / (if w then o_err (fst p) * o_err (fst p) else 1)) (combine l gs)).
Proof.
  intros Hn Hy Hx Hk Ho Hc Hfx Hfy Hgs Er'. revert gs Hgs Er'. induction Hn as [|o g os' new' Hog Hn IH]; intros gs Hgs Er'; inversion Hgs as [|o' g' os2 gs' (S & L & R) Hgs' E1 E2]; subst; [constructor|].
  cbn [combine map]. constructor.
  - destruct Hog as (A & B & K). destruct (K y x k _ _ _ _ Hy Hx Hk Hfx Hfy) as (gv & Eg & G & _). rewrite (proj2 (cast_value Hc Ho _ _) (conj S L)) in Eg. subst gv.
    exists (XFin g'), (XFin (required U V o)), (if w then XFin (o_err o * o_err o) else XFin 1). split; [exact G|]. split; [exact B|]. cbn [fst snd].
    destruct w.
    + split; [exists (PNpFloat (XFin (o_err o))); auto|]. assert (P : 0 < o_err o) by (specialize (Er' eq_refl); inversion Er'; auto).
      unfold n_sq. cbn [n_div n_mul n_sub Num_xr x_sub x_mul]. rewrite xdiv by nra. reflexivity.
    + split; [reflexivity|]. unfold n_sq. cbn [n_div n_mul n_sub Num_xr x_sub x_mul]. rewrite xdiv by lra. reflexivity.
  - apply IH; auto. intros W. specialize (Er' W). now inversion Er'.
Qed.

(** a point is unmasked at the end exactly if it holds a disk that is wanted *)
Lemma point_iff m new p y x k : inr y x k -> s4 = with_grads s3 (Some new) (Some p) -> s3 = set_dr (with_grads s1 (Some new) None) (with_mask (s_dr s0) (Some m)) -> Forall2 grad_of os new ->
  (forall i x, nth_error (p_data (s_dr s0)) i = Some x -> marked (Some m) i = true <-> x = XNaN \/ xlt (XFin hill) x) ->
  (~ masked_at s4 (place s0 y x k) <-> exists dx dy r i t chi, fnd (y, x, k) dx dy r i t chi).
Proof.
  intros (Ry & Rx & Rk) E4 E3 Hn Hb. destruct (Hg Ry Rx Rk) as (dx & dy & Hy & Hx & Hd). unfold cell in Hd. cbn [the_cube] in Hd.
  change ((y * List.length (g_dx (s_params s0)) + x) * List.length (g_rfa (s_params s0)) + k)%nat with (place s0 y x k) in Hd.
  assert (MA : masked_at s4 (place s0 y x k) <-> marked (Some m) (place s0 y x k) = true \/ exists g, In g new /\ marked (p_mask (gg_prop g)) (place s0 y x k) = true).
  { assert (I0 := Hm WInclination). assert (T0 := Hm WTilt). cbn [the_cube] in I0, T0. rewrite E4, E3. unfold masked_at.
    cbn [with_grads set_dr with_cubes s1 with_eclipse s_dr s_inc s_tilt s_grads with_mask p_mask]. rewrite I0, T0. cbn [marked]. split.
    - intros [X|[X|[X|(gs & g & X1 & X2 & X3)]]]; try discriminate; [auto|]. injection X1 as <-. eauto.
    - intros [X|(g & X1 & X2)]; [auto|]. do 3 right. eauto. }
  rewrite MA. clear MA. split.
  - intros Hu. assert (U1 : marked (Some m) (place s0 y x k) = false) by (apply not_true_is_false; intros X; auto).
    destruct Hd as [Hd|(Ho & fx & fy & r & ic & t & Hc & Hfx & Hfy & Hrr & Hi & Ht)]; [exfalso; rewrite (proj2 (Hb _ _ Hd)) in U1 by auto; discriminate|].
    destruct (proj1 (@explained os new y x k dx dy fx fy r ic t Hn Hy Hx Rk Ho Hc Hfx Hfy)) as [gs Hgs].
    { intros g Hin. apply not_true_is_false. intros X. eauto. }
    exists dx, dy, r, ic, t, (misfit w U V os gs). cbn [found the_cube]. unfold cell. repeat (split; [assumption|]). split.
    + apply Rnot_lt_le. intros L. rewrite (proj2 (Hb _ _ Hrr)) in U1; [discriminate|]. right. exact L.
    + eauto.
  - intros (dx' & dy' & r & i & t & chi & F). cbn [found the_cube] in F. unfold cell in F. change ((y * List.length (g_dx (s_params s0)) + x) * List.length (g_rfa (s_params s0)) + k)%nat with (place s0 y x k) in F. destruct F as (_ & Fy & Fx & Fr & Fi & Ft & Fh & gs & Hgs & _).
    rewrite Hy in Fy. rewrite Hx in Fx. injection Fy as <-. injection Fx as <-.
    destruct Hd as [Hd|(Ho & fx & fy & r' & ic & t' & Hc & Hfx & Hfy & Hrr & Hi & Ht)]; [rewrite Hd in Fr; discriminate|].
    rewrite Hrr in Fr. injection Fr as ->. rewrite Hi in Fi. injection Fi as ->. rewrite Ht in Ft. injection Ft as ->.
    intros [X|(g & X1 & X2)].
    + apply (Hb _ _ Hrr) in X as [X|X]; [discriminate|]. cbn [xlt] in X. lra.
    + rewrite (proj2 (@explained os new y x k dx dy fx fy r i t Hn Hy Hx Rk Ho Hc Hfx Hfy) (ex_intro _ gs Hgs) g X1) in X2. discriminate.
Qed.
(** such a disk casts the eclipse, and its misfit is the value of the fit there *)
Lemma point_fit m new p y x k dx dy r i t chi : inr y x k -> s4 = with_grads s3 (Some new) (Some p) -> s3 = set_dr (with_grads s1 (Some new) None) (with_mask (s_dr s0) (Some m)) -> Forall2 grad_of os new ->
  (forall i rs, (i < points s0)%nat -> Forall2 (fun g r => term_of w i g (XFin r)) new rs -> nth_error (p_data p) i = Some (XFin (fold_left Rplus rs 0%R)) /\ marked (p_mask p) i = false) ->
  fnd (y, x, k) dx dy r i t chi -> eclipsing_disk dx dy r i t /\ nth_error (p_data p) (place s0 y x k) = Some (XFin chi) /\ marked (p_mask p) (place s0 y x k) = false.
Proof.
  intros (Ry & Rx & Rk) E4 E3 Hn Hf F. destruct (Hg Ry Rx Rk) as (dx' & dy' & Hy & Hx & Hd). unfold cell in Hd. cbn [the_cube] in Hd.
  change ((y * List.length (g_dx (s_params s0)) + x) * List.length (g_rfa (s_params s0)) + k)%nat with (place s0 y x k) in Hd.
  cbn [found the_cube] in F. unfold cell in F. change ((y * List.length (g_dx (s_params s0)) + x) * List.length (g_rfa (s_params s0)) + k)%nat with (place s0 y x k) in F. destruct F as (_ & Fy & Fx & Fr & Fi & Ft & Fh & gs & Hgs & ->).
  rewrite Hy in Fy. rewrite Hx in Fx. injection Fy as ->. injection Fx as ->.
  destruct Hd as [Hd|(Ho & fx & fy & r' & ic & t' & Hc & Hfx & Hfy & Hrr & Hi & Ht)]; [rewrite Hd in Fr; discriminate|].
  rewrite Hrr in Fr. injection Fr as ->. rewrite Hi in Fi. injection Fi as ->. rewrite Ht in Ft. injection Ft as ->.
  split. { destruct Hc as (_ & _ & C1 & C2 & C3 & C4 & _). split; [exact C1|]. split; [exact C2|]. split; assumption. }
  apply Hf; [|eapply fit_terms; eauto]. apply place_range. unfold in_range. auto.
Qed.

Notation solves := (solves s0 w D U V hill os).
Theorem search_best : determine_gradient_fit w s3 = (s4, Ok tt) /\ exists all, NoDup all /\ (forall q, In q all <-> exists dx dy r i t chi, fnd q dx dy r i t chi) /\
  (forall y x k, inr y x k -> (~ masked_at s4 (place s0 y x k) <-> In (y, x, k) all)) /\
  forall n k, asks n (List.length all) k -> exists s5 qs l, extract_solutions n s4 = (s5, Ok l) /\ List.length l = k /\ NoDup qs /\ Forall2 solves qs l /\
    (forall a b x y, (a < b)%nat -> nth_error l a = Some x -> nth_error l b = Some y -> xle (fst x) (fst y)) /\
    (forall z q dx dy r i t chi, In z l -> fnd q dx dy r i t chi -> ~ In q qs -> xle (fst z) (XFin chi)).
Proof.
  destruct step4 as (m & new & p & Hf & E4 & E3 & Hn & Hb & Hfit). split; [exact Hf|].
  assert (P4 : s_params s4 = s_params s0) by (rewrite E4, E3; reflexivity).
  assert (Pl : forall y x k, place s4 y x k = place s0 y x k) by (intros; unfold place; now rewrite P4).
  assert (Iff : forall y x k, inr y x k -> ~ masked_at s4 (place s0 y x k) <-> exists dx dy r i t chi, fnd (y, x, k) dx dy r i t chi) by (intros; eapply point_iff; eauto).
  assert (In_ : forall q dx dy r i t chi, fnd q dx dy r i t chi -> let '(y, x, k) := q in inr y x k).
  { intros [[y x] k] dx dy r i t chi F. cbn [found] in F. destruct F as (A & B & C & _). split; [apply nth_error_Some; congruence|]. split; [apply nth_error_Some; congruence|exact A]. }
  assert (S4 : sinv s4) by exact (reached_sinv reach4).
  destruct (unmasked_exists s4) as [is [Nis Iis]].
  assert (Sp : forall i, (i < points s4)%nat -> let '(y, x, r) := spot s4 i in inr y x r /\ place s0 y x r = i).
  { intros i Hi. assert (X := spot_place S4 Hi). destruct (spot s4 i) as [[y x] r]. rewrite <- Pl. unfold in_range in X. rewrite P4 in X. exact X. }
  assert (All : forall q, In q (map (spot s4) is) <-> exists dx dy r i t chi, fnd q dx dy r i t chi).
  { intros q. rewrite in_map_iff. split.
    + intros (i & <- & Hi). apply Iis in Hi as [Hi Hu]. apply Sp in Hi. destruct (spot s4 i) as [[y x] r]. destruct Hi as [R <-]. apply Iff; auto.
    + intros F. assert (R := In_ q). destruct q as [[y x] k]. assert (R' : inr y x k) by (destruct F as (dx & dy & r & i & t & chi & F); exact (R _ _ _ _ _ _ F)).
      assert (L : (place s0 y x k < points s4)%nat) by (rewrite <- Pl; apply place_range; unfold in_range; now rewrite P4).
      exists (place s0 y x k). split.
      * assert (X := Sp _ L). destruct (spot s4 _) as [[y' x'] k']. destruct X as [(A & B & C) X]. unfold place in X. destruct R' as (A' & B' & C'). clear - A B C X A' B' C'.
        revert X A B C A' B' C'. generalize (Datatypes.length (g_dx (s_params s0))) (Datatypes.length (g_rfa (s_params s0))). intros b c X _ B C _ B' C'.
        assert (k' = k /\ y' * b + x' = y * b + x)%nat as [-> Z].
        { assert (Q := Nat.div_mod_unique c (y' * b + x') (y * b + x) k' k C C'). rewrite !(Nat.mul_comm c) in Q. destruct (Q X). auto. }
        destruct (Nat.div_mod_unique b y' y x' x B B'); [rewrite !(Nat.mul_comm b); exact Z|]. congruence.
      * apply Iis. split; [exact L|]. now apply Iff. }
  exists (map (spot s4) is). split; [|split; [exact All|split]].
  - apply (Injective_map_NoDup_in (spot s4)); [|exact Nis]. intros i j Hi Hj Q. apply Iis in Hi as [Hi _]. apply Iis in Hj as [Hj _]. apply Sp in Hi, Hj. rewrite Q in Hi. destruct (spot s4 j) as [[y x] r]. destruct Hi, Hj. congruence.
  - intros y x k R. rewrite All. apply Iff, R.
  - intros n k Hk. rewrite map_length in Hk.
    assert (Fit : s_fit s4 = Some p) by (rewrite E4; reflexivity).
    assert (PF : forall y x k dx dy r i t chi, fnd (y, x, k) dx dy r i t chi -> eclipsing_disk dx dy r i t /\ nth_error (p_data p) (place s0 y x k) = Some (XFin chi) /\ marked (p_mask p) (place s0 y x k) = false).
    { intros y x k' dx dy r i t chi F. eapply point_fit; eauto. exact (In_ _ _ _ _ _ _ _ F). }
    assert (FF : fit_finite s4 p).
    { intros i Hi Hu. apply Sp in Hi. destruct (spot s4 i) as [[y x] r]. destruct Hi as [R <-]. apply Iff in Hu as (dx & dy & r' & i & t & chi & F); auto. destruct (PF _ _ _ _ _ _ _ _ _ F) as (_ & A & B). split; [exact B|]. exists (XFin chi), chi. auto. }
    destruct (@extract_best_r _ _ _ _ E s4 p is n k reach4 Fit FF (conj Nis Iis) Hk) as (s5 & qs & l & Hx & Hl & Nq & Hq & Hs' & Hbest).
    exists s5, qs, l. split; [exact Hx|]. split; [exact Hl|]. split; [exact Nq|].
    assert (AP : forall q z, at_point s4 p q z <-> solves q z).
    { assert (Da : p_data (s_dr s4) = p_data (s_dr s0) /\ p_data (s_inc s4) = p_data (s_inc s0) /\ p_data (s_tilt s4) = p_data (s_tilt s0)) by (rewrite E4, E3; auto). destruct Da as (Da & Db & Dc).
      intros [[y x] r] z. unfold at_point. rewrite P4, Pl, Da, Db, Dc. split.
      - intros (R & Hu & A & B1 & B2 & B3 & B4 & B5). apply Iff in Hu as (dx & dy & r' & i & t & chi & F); auto. exists dx, dy, r', i, t, chi. split; [exact F|].
        destruct (PF _ _ _ _ _ _ _ _ _ F) as (C1 & C2 & _). split; [exact C1|]. cbn [found the_cube] in F. unfold cell in F. destruct F as (_ & F1 & F2 & F3 & F4 & F5 & _). unfold place in *.
        repeat split; congruence.
      - intros (dx & dy & r' & i & t & chi & F & _ & Z0 & Z1 & Z2 & Z3 & Z4 & Z5). assert (R := In_ _ _ _ _ _ _ _ F). cbv beta iota in R. split; [exact R|]. split; [apply Iff; eauto 8|].
        destruct (PF _ _ _ _ _ _ _ _ _ F) as (_ & C2 & _). cbn [found the_cube] in F. unfold cell in F. destruct F as (_ & F1 & F2 & F3 & F4 & F5 & _). rewrite Z0, Z1, Z2, Z3, Z4, Z5. unfold place in *. repeat split; assumption. }
    split; [clear - Hq AP; induction Hq; constructor; auto; now apply AP|]. split; [exact Hs'|].
    intros z q dx dy r i t chi Hz F Hnq. destruct q as [[y x] k']. destruct (PF _ _ _ _ _ _ _ _ _ F) as (C1 & _).
    refine (Hbest z Hz (y, x, k') (XFin chi, mkPD (XFin r) (XFin i) (XFin t) (XFin dx) (XFin dy) XNaN XNaN XNaN XNaN None) _ Hnq).
    apply AP. exists dx, dy, r, i, t, chi. split; [exact F|]. split; [exact C1|]. cbn [fst snd pd_dx pd_dy pd_dr pd_inc pd_tilt]. auto 8.
Qed.
End Search.

(** the whole search *)
Theorem search (E : env xr) s0 (a v u h : pyval xr) D V U hill os w :
  searchable E s0 -> settings a v u h D V U hill -> Forall (measurable U V) os -> (w = true -> Forall (fun o => 0 < o_err o) os) ->
  exists s1 s2 s3 s4 all, searched E a v u h os w s0 s1 s2 s3 s4 /\
    NoDup all /\ (forall q, In q all <-> exists dx dy r i t chi, found s0 w D U V hill os q dx dy r i t chi) /\
    (forall y x k, (y < List.length (g_dy (s_params s0)))%nat -> (x < List.length (g_dx (s_params s0)))%nat -> (k < List.length (g_rfa (s_params s0)))%nat -> (~ masked_at s4 (place s0 y x k) <-> In (y, x, k) all)) /\
    forall n k, asks n (List.length all) k -> exists s5 qs l, extract_solutions n s4 = (s5, Ok l) /\ List.length l = k /\ NoDup qs /\
      Forall2 (solves s0 w D U V hill os) qs l /\
      (forall i j x y, (i < j)%nat -> nth_error l i = Some x -> nth_error l j = Some y -> xle (fst x) (fst y)) /\
      (forall z q dx dy r i t chi, In z l -> found s0 w D U V hill os q dx dy r i t chi -> ~ In q qs -> xle (fst z) (XFin chi)).
Proof.
  intros (HE & Hs & Hg & Hm) (Sm & Nm & Va & Vv & Vu & Vh & D0 & V0 & U0 & H0) Ms Er. rewrite !Forall_cons_iff in Sm, Nm. destruct Sm as (Sa & Sv & Su & Sh & _). destruct Nm as (Na & Nv & Nu & Nh & _).
  assert (Tr : Forall (fun o => 0 < o_trans o) os) by (eapply Forall_impl; [|exact Ms]; intros o (_ & _ & X & _); lra).
  assert (A : exists s2, add_gradients E (column os o_time) (column os o_slope) (Some (column os o_err)) (Some (column os o_trans)) (s1 s0 a v u) = (s2, Ok tt)) by (eapply add_total; eassumption).
  destruct A as [s2 Add]. destruct (step3 HE Hs Sa Sv Su Sh Na Nv Nu Nh Va Vv Vu Vh D0 V0 U0 H0 Tr Add) as (_ & _ & B & _).
  destruct (search_best HE Hs Hg Hm Sa Sv Su Sh Na Nv Nu Nh Va Vv Vu Vh D0 V0 U0 H0 Tr Er Add) as (C & all & C1 & C2 & C4 & C3).
  exists (s1 s0 a v u), s2, (s3 h s2), (s4 h w s2), all. split; [split; [exact (step1 Hs Sa Sv Su Na Nv Nu Va Vv Vu D0 V0 U0)|auto]|].
  split; [exact C1|]. split; [exact C2|]. split; [intros; apply C4; auto|]. exact C3.
Qed.
