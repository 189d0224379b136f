(** Texts that mislead, texts of loading and of missing diagnostics. *)
From Coq Require Import ZArith Reals List Bool String Ascii Lia Lra.
From Flocq Require Import BinarySingleNaN.
From Verif Require Import Num Py Validate Ring RingSystem FS GridParams GridDiag Names GridProp Fmt Text Message NumP SpecNum ValidateP RingP FmtP
  SpecFmt SpecText TextRingP SpecMsg SpecMsgGrid MessageP MessageSpecP MessageRingP MessageGridP.
Import ListNotations.
Set Implicit Arguments.
Local Open Scope string_scope.

(** what [judges] says, without the word *)
Section J.
Lemma first_checks l A (x : mres A) : follows l x -> reports x l.
Proof. intros H. split; [exact (@judges_err _ _ _ H) | exact (@judges_ok _ _ _ H)]. Qed.
Lemma one_check c A (x : mres A) : judges c x -> reports x [c].
Proof.
  intros H. split.
  - intros e o. rewrite (@judges_err _ _ _ H e o). split; intros (s & -> & X); exists s; (split; [reflexivity|]).
    + apply fe_here, X.
    + inversion_clear X as [? ? ? ? Y|? ? ? ? _ Y]; [exact Y | inversion Y].
  - rewrite (@judges_ok _ _ _ H). split; [intros X; constructor; [exact X | constructor] | intros X; inversion X; assumption].
Qed.
End J.
Arguments one_check {c A x} _.
Arguments first_checks {l A x} _.

Section G.
Context {T : Type} {NT : Num T} {LT : NumLaws T}.
Variable fmt : nat -> T -> string.
Notation pyval := (pyval T).

(** both phrases at once: only when the number is both bounds and they are excluded *)
Lemma both_iff ex lo up v : low ex lo v /\ high ex up v /\ ~ xlt up lo <-> ex = true /\ v <> XNaN /\ lo = v /\ up = v.
Proof.
  split.
  - intros (Hl & Hh & Hr). destruct ex; cbn [low high] in *.
    + split; [reflexivity|]. pose proof (xle_nan Hl) as [Nv Nl]. pose proof (xle_nan Hh) as [Nu _]. split; [exact Nv|].
      assert (Hlu : xle lo up) by (apply not_xlt; assumption).
      assert (lo = v) as ->. { apply xle_antisym; [eapply xle_trans; eassumption | exact Hl]. }
      split; [reflexivity|]. apply xle_antisym; assumption.
    + exfalso. apply Hr. eapply xlt_trans; eassumption.
  - intros (-> & Nv & -> & ->). cbn [low high]. repeat split; try (apply xle_refl, Nv). apply xlt_irrefl.
Qed.

(** removing a ring from a system without rings *)
Theorem empty_text (h : list (ring T)) (s : rsys T) (index : pyval) : s_rings s = [] -> int_like index -> small index ->
  remove_ring_m fmt h s index =
    (h, s, MErr ValueError (Some ("The upper_bound argument (" ++ fmt 4 (n_ofZ (-1)) ++ ") must be greater than the lower_bound (" ++ fmt 4 (n_ofZ 0) ++ ") argument."))).
Proof.
  intros Hs Hi Si. unfold remove_ring_m. unfold num_rings. rewrite Hs. cbn [List.length].
  assert (J : judges (number_check (f4 fmt) "index" index true (PInt 0) (PInt (Z.of_nat 0 - 1)) false) (number_m fmt "index" index true (PInt 0) (PInt (Z.of_nat 0 - 1)) false)).
  { apply number_judges; try assumption; try (left; constructor); cbn; lia. }
  rewrite (proj2 (@judges_err _ _ _ J ValueError (Some ("The upper_bound argument (" ++ fmt 4 (n_ofZ (-1)) ++ ") must be greater than the lower_bound (" ++ fmt 4 (n_ofZ 0) ++ ") argument.")))); [reflexivity|].
  eexists. split; [reflexivity|]. apply ne_reversed; [left; exact Hi|]. cbn [value xlt]. apply IZR_lt. lia.
Qed.

(** a missing diagnostic *)
Theorem key_text (d : gdiag T) y x : sizes_small d -> 
  let uy := (if d_ext d then 2 * (d_my d - 1) else d_my d - 1)%Z in
  let ux := (if d_ext d then 2 * (d_mx d - 1) else d_mx d - 1)%Z in
  (0 <= y <= uy)%Z -> (0 <= x <= ux)%Z ->
  let ky := (if d_ext d then Z.abs (y - d_my d) else y)%Z in
  let kx := (if d_ext d then Z.abs (x - d_mx d) else x)%Z in
  forall e o, get_diagnostic_m fmt d (PInt y) (PInt x) = MErr e o <->
    (dget (d_fy d) (KInt ky, KInt kx) = None \/ dget (d_dr d) (KInt ky, KInt kx) = None) /\
    e = KeyError /\ o = Some ("'(" ++ str_int ky ++ ", " ++ str_int kx ++ ")'").
Proof.
  intros [Dy Dx] uy ux Hy Hx ky kx e o. unfold get_diagnostic_m, gen_key_m. fold uy ux. cbv zeta.
  assert (B : forall name z u, (0 <= z <= u)%Z -> (u <= 2 ^ 53)%Z -> number_m fmt name (PInt z) true (PInt 0) (PInt u) false = MOk (PInt z)).
  { intros name z u H Hu.
    assert (J : judges (number_check (f4 fmt) name (PInt z) true (PInt 0) (PInt u) false) (number_m fmt name (PInt z) true (PInt 0) (PInt u) false)).
    { apply number_judges; try (left; constructor); cbn; lia. }
    destruct (proj2 (@judges_ok _ _ _ J)) as [w E].
    - split; [left; constructor|]. cbn. split; [|split]; apply Rle_not_lt, IZR_le; lia.
    - rewrite E. apply number_valued in E. subst w. reflexivity. }
  rewrite (B "y" y uy) by (unfold uy in *; destruct (d_ext d); lia). rewrite (B "x" x ux) by (unfold ux in *; destruct (d_ext d); lia). cbn [mbind].
  assert (E : (if d_ext d then MOk (KInt (Z.abs (int_of (PInt y : pyval) - d_my d)), KInt (Z.abs (int_of (PInt x : pyval) - d_mx d)))
              else MOk (kcomp_of (PInt y : pyval), kcomp_of (PInt x : pyval))) = MOk (KInt ky, KInt kx)).
  { unfold ky, kx. destruct (d_ext d); reflexivity. }
  rewrite E. cbn [mbind].
  assert (S : "'" ++ str_key (KInt ky, KInt kx) ++ "'" = "'(" ++ str_int ky ++ ", " ++ str_int kx ++ ")'").
  { unfold str_key. cbn [fst snd str_kcomp]. rewrite !app_assoc_s. reflexivity. }
  rewrite S. clear S.
  destruct (dget (d_fy d) (KInt ky, KInt kx)) as [a|]; [destruct (dget (d_dr d) (KInt ky, KInt kx)) as [b|]|].
  - split; [discriminate|]. intros ([X|X] & _); discriminate X.
  - split; [intros X; injection X as <- <-; repeat split; auto | intros (_ & -> & ->); reflexivity].
  - split; [intros X; injection X as <- <-; repeat split; auto | intros (_ & -> & ->); reflexivity].
Qed.

(** loading *)
Lemma load_err A (x : mres A) (r : res A) t : x = saying t r -> (forall e, r = Err e -> e = LoadErr) ->
  forall e o, x = MErr e o <-> (exists e', r = Err e') /\ e = LoadErr /\ o = Some t.
Proof.
  intros -> H e o. destruct r as [a|e0]; cbn [saying raise].
  - split; [discriminate|]. intros ([e' X] & _). discriminate X.
  - specialize (H e0 eq_refl). subst e0. split.
    + intros X. injection X as <- <-. split; [eexists; reflexivity|]. split; reflexivity.
    + intros (_ & -> & ->). reflexivity.
Qed.
Lemma params_load_only (f : fs T) d e : params_load f d = Err e -> e = LoadErr.
Proof. unfold params_load. match goal with |- match ?x with _ => _ end = _ -> _ => destruct x end; [discriminate|]. intros X. injection X as <-. reflexivity. Qed.
Lemma diag_load_only (f : fs T) d e : diag_load f d = Err e -> e = LoadErr.
Proof. unfold diag_load. match goal with |- match ?x with _ => _ end = _ -> _ => destruct x end; [discriminate|]. intros X. injection X as <-. reflexivity. Qed.
Lemma grad_load_only (f : fs T) d e : grad_load f d = Err e -> e = LoadErr.
Proof. unfold grad_load. match goal with |- match ?x with _ => _ end = _ -> _ => destruct x end; [discriminate|]. intros X. injection X as <-. reflexivity. Qed.
Lemma gprop_load_only (f : fs T) d n u e : gprop_load f (PStr d) (EIs n) (EIs u) = Err e -> e = LoadErr.
Proof. unfold gprop_load. cbn [string_v class_arg bind]. match goal with |- match ?x with _ => _ end = _ -> _ => destruct x end; [discriminate|]. intros X. injection X as <-. reflexivity. Qed.
Theorem load_texts (f : fs T) (d : string) (n : pname) (u : punit) e o :
  (params_load_m f d = MErr e o <-> (exists e', params_load f d = Err e') /\ e = LoadErr /\ o = Some ("failed to load grid parameters from " ++ d)) /\
  (diag_load_m f d = MErr e o <-> (exists e', diag_load f d = Err e') /\ e = LoadErr /\ o = Some ("failed to load grid diagnostics from " ++ d)) /\
  (grad_load_m f d = MErr e o <-> (exists e', grad_load f d = Err e') /\ e = LoadErr /\ o = Some ("failed to load Gradient [None] from " ++ d)) /\
  (gprop_load_m f (PStr d) (EIs n) (EIs u) = MErr e o <-> (exists e', gprop_load f (PStr d) (EIs n) (EIs u) = Err e') /\ e = LoadErr /\
     o = Some ("failed to load " ++ get_name n ++ " [" ++ unit_display u ++ "] from " ++ d)).
Proof.
  split; [apply load_err; [reflexivity | apply params_load_only]|].
  split; [apply load_err; [reflexivity | apply diag_load_only]|].
  split; [apply load_err; [reflexivity | apply grad_load_only]|].
  apply load_err; [|apply gprop_load_only].
  unfold gprop_load_m. cbn [string_m saying string_v class_arg_m class_arg mbind]. unfold load_text. rewrite !app_assoc_s. reflexivity.
Qed.
Definition named_text (n : pname) (u : punit) (d : string) : string := "failed to load " ++ get_name n ++ " [" ++ unit_display u ++ "] from " ++ d.
Lemma app_inj a : forall b c : string, a ++ b = a ++ c -> b = c.
Proof. induction a as [|x a IH]; intros b c H; [exact H|]. cbn in H. injection H as H. apply IH, H. Qed.
Theorem load_distinct n u d n' u' d' : 
  "failed to load " ++ get_name n ++ " [" ++ unit_display u ++ "] from " ++ d = "failed to load " ++ get_name n' ++ " [" ++ unit_display u' ++ "] from " ++ d' ->
  n = n' /\ u = u' /\ d = d'.
Proof.
  intros H. destruct n, n', u, u'; try (exfalso; vm_compute in H; discriminate H);
    (split; [reflexivity|]); (split; [reflexivity|]); vm_compute in H; repeat (injection H as H); exact H.
Qed.
(** *** split_rings *)
Lemma division_follows (s : rsys T) (nd : pyval) : small nd -> elements_small nd -> 
  follows (division_checks fmt str_int str_tuple s nd) (divisions_m fmt s nd).
Proof.
  intros Sn Se. unfold divisions_m, division_checks.
  destruct (typed_dec true nd) as [Hi|Hi].
  - assert (Hn : int_like nd) by (destruct Hi as [Hi|[X _]]; [exact Hi | discriminate X]).
    pose proof (@number_judges T NT LT fmt "num_divisions" nd true (PInt 2) p_inf false Sn) as J.
    assert (J' : judges (number_check (f4 fmt) "num_divisions" nd true (PInt 2) (PFloat n_inf) false)
                   (number_m fmt "num_divisions" nd true (PInt 2) p_inf false)).
    { apply J; cbn; try lia; try exact I; [left | right]; constructor. }
    assert (E : match number_m fmt "num_divisions" nd true (PInt 2) p_inf false with
      | MOk v => MOk (repeat (int_of v) (List.length (s_rings s)))
      | MErr TypeError _ =>
        let! a := array_m fmt "num_divisions" nd (Some (PInt 1)) None false (Some "int64") (Some 1%Z) in
        let! _ := same_shape_m [a; PArr "object" [List.length (s_rings s)] []] ["num_divisions"; "self.rings"] in
        MOk (match a with
            | PArr _ _ el => map (fun e => match int_scal e with Some z => z | None => 0%Z end) el
            | _ => [] end)
      | MErr e t => MErr e t
      end = let! v := number_m fmt "num_divisions" nd true (PInt 2) p_inf false in
            let! _ := MOk tt in let! _ := MOk tt in MOk (repeat (int_of v) (List.length (s_rings s)))).
    { destruct (number_m fmt "num_divisions" nd true (PInt 2) p_inf false) as [v|e o]; [reflexivity|].
      destruct (proj1 (@judges_err _ _ _ J' e o) eq_refl) as (t & -> & X). cbn [complains number_check] in X.
      inversion X; try reflexivity. contradiction. }
    rewrite E. apply follows_bind; [apply guard_on; assumption|]. intros v _.
    apply follows_bind; [apply guard_off; tauto|]. intros _ _. apply follows_bind; [apply guard_off; tauto|]. intros _ _. apply follows_ok.
  - assert (Hn : ~ int_like nd) by (intros X; apply Hi; left; exact X).
    unfold number_m. rewrite (type_error "num_divisions" Hi). cbn [mbind raise].
    match goal with |- follows _ ?x => change x with (let! _ := MOk tt in x) end.
    apply follows_bind; [apply guard_off; exact Hn|]. intros _ _.
    apply follows_bind.
    { apply guard_on; [exact Hn|]. apply array_judges; cbn; try lia; try exact I; [left; constructor | exact Se]. }
    intros a Ha. apply array_valued in Ha as Ev. subst a.
    assert (P : array_passes nd (Some (PInt 1)) None false (Some "int64") (Some 1%Z)).
    { apply (@judges_ok (array_check (f4 fmt) str_int "num_divisions" nd (Some (PInt 1)) None false (Some "int64") (Some 1%Z)) _
               (array_m fmt "num_divisions" nd (Some (PInt 1)) None false (Some "int64") (Some 1%Z))).
      - apply array_judges; cbn; try lia; try exact I; [left; constructor | exact Se].
      - exists nd. exact Ha. }
    destruct P as (d & sh & el & Ed & _).
    apply follows_bind.
    { apply guard_on; [exact Hn|]. apply shapes_judge; [cbn; lia | reflexivity |].
      intros v [<-|[<-|[]]]; [exists d, sh, el; exact Ed | eexists _, _, _; reflexivity]. }
    intros _ _. apply follows_ok.
Qed.
Theorem split_text (h : list (ring T)) (s : rsys T) (nd : pyval) : small nd -> elements_small nd -> forall e t,
  first_error (division_checks fmt str_int str_tuple s nd) e t -> split_rings_m fmt h s nd = (h, s, MErr e (Some t)).
Proof.
  intros Sn Se e t H. pose proof (@division_follows s nd Sn Se) as F.
  pose proof (proj2 (@judges_err _ _ _ F e (Some t)) (ex_intro _ t (conj eq_refl H))) as E.
  unfold split_rings_m. rewrite E. reflexivity.
Qed.
(** the text when the grid can not be extended *)
Theorem extend_text (g : gparams T) : g_ext g = false ->
  extend_grid_m fmt g = (g, MErr AttributeError (Some "This grid parameter object can not be extended. That is only possible when dx[0] = dy[0] = 0.")).
Proof. intros H. unfold extend_grid_m. rewrite H. reflexivity. Qed.
(** the key of a mirrored lookup *)
Definition mirrored : gdiag T := mkGD 2 2 [] [] true.
Lemma mirrored_text : get_diagnostic_m fmt mirrored (PInt 0) (PInt 0) = MErr KeyError (Some "'(2, 2)'").
Proof. apply (@key_text mirrored 0 0); cbn; try lia. { split; cbn; lia. } repeat split; auto. Qed.
Lemma mirrored_small : sizes_small mirrored.
Proof. split; cbn; lia. Qed.
Theorem missing_refuted :
  ~ (forall (d : gdiag T) y x o, sizes_small d -> get_diagnostic_m fmt d (PInt y) (PInt x) = MErr KeyError o ->
     o = Some ("'(" ++ str_int y ++ ", " ++ str_int x ++ ")'")).
Proof. intros H. specialize (H mirrored 0%Z 0%Z _ mirrored_small mirrored_text). vm_compute in H. discriminate H. Qed.
End G.

(** *** numerals and tuples *)
Theorem int_text z : exists d, read_count d = Some (Z.abs z) /\ str_int z = (if Z.ltb z 0 then "-" ++ d else d).
Proof.
  unfold str_int. exists (whole (Z.abs z)). split.
  - replace (Z.abs z) with (Z.of_nat (Z.to_nat (Z.abs z))) by lia. exact (read_str_nat (Z.to_nat (Z.abs z))).
  - destruct (Z.ltb_spec z 0); [rewrite Z.abs_neq by lia; reflexivity|rewrite Z.abs_eq by lia; reflexivity].
Qed.
Theorem tuple_text l : exists ds, Forall2 (fun n d => read_count d = Some (Z.of_nat n)) l ds /\
  str_tuple l = match ds with [] => "()" | [d] => "(" ++ d ++ ",)" | _ => "(" ++ String.concat ", " ds ++ ")" end.
Proof.
  exists (map str_nat l). split; [induction l; constructor; [apply read_str_nat|assumption]|]. destruct l as [|a [|b l]]; reflexivity.
Qed.
(** too few arrays, or not one name for each *)
Theorem misuse {T} (l : list (pyval T)) names :
  (List.length l < 2 -> same_shape_m l names = MErr AttributeError (Some "arrays_list argument should contain at least two arrays")) /\
  (2 <= List.length l -> List.length l <> List.length names -> exists a b, read_count a = Some (Z.of_nat (List.length l)) /\ read_count b = Some (Z.of_nat (List.length names)) /\
     same_shape_m l names = MErr AttributeError (Some ("arrays_list (" ++ a ++ ") should have the same length as names_list (" ++ b ++ ")"))).
Proof.
  unfold same_shape_m. split; intros H.
  - rewrite (proj2 (Nat.ltb_lt _ _) H). reflexivity.
  - intros Hn. rewrite (proj2 (Nat.ltb_ge _ _) H), (proj2 (Nat.eqb_neq _ _) Hn). exists (str_nat (List.length l)), (str_nat (List.length names)).
    split; [apply read_str_nat|]. split; [apply read_str_nat|reflexivity].
Qed.
