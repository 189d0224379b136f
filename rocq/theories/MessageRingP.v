(** The texts of rings and ring systems. *)
From Coq Require Import ZArith Reals List Bool String Ascii Lia.
From Verif Require Import Num Py Validate Ring RingSystem Fmt Text Message NumP SpecNum ValidateP FmtP SpecMsg MessageP MessageSpecP.
Import ListNotations.
Set Implicit Arguments.
Local Open Scope string_scope.

Section R.
Context {T : Type} {NT : Num T} {LT : NumLaws T}.
Variable fmt : nat -> T -> string.
Notation pyval := (pyval T).

Ltac tame := solve [exact I | cbn; lia | (right; constructor) | (left; constructor) | assumption | cbn; exact I].

(** a validated number that is stored *)
Lemma stored_judge name (v : pyval) ci lo up ex : small v -> small lo -> small up -> numberlike lo -> numberlike up ->
  judges (number_check (f4 fmt) name v ci lo up ex) (let! w := number_m fmt name v ci lo up ex in MOk (num_of w)).
Proof.
  intros Sv Sl Su Nl Nu. pose proof (@number_judges T NT LT fmt name v ci lo up ex Sv Sl Su Nl Nu) as H.
  destruct (number_m fmt name v ci lo up ex); exact H.
Qed.
Lemma stored_value name (v : pyval) ci lo up ex w : (let! w := number_m fmt name v ci lo up ex in MOk (num_of w)) = MOk w -> w = num_of v.
Proof.
  destruct (number_m fmt name v ci lo up ex) as [x|] eqn:E; [|discriminate]. cbn. intros H. injection H as <-.
  apply number_valued in E. subst. reflexivity.
Qed.
Lemma zero_plain (v : pyval) : plain v -> exists b, eq_zero v = Ok b /\ (if b then PFloat (n_pow10m 16) else v) = nonzero v.
Proof.
  intros [Ha Ho]. unfold nonzero. destruct v; cbn [eq_zero scal_of]; try (eexists; split; reflexivity).
  - exfalso. eapply Ho. reflexivity.
  - exfalso. eapply Ha. reflexivity.
Qed.
Lemma nonzero_small (v : pyval) : small v -> small (nonzero v).
Proof. intros H. unfold nonzero. destruct (scal_of v); [|exact H]. destruct (s_eq _ _); [exact I | exact H]. Qed.
Lemma inner_judge u (v : pyval) : plain v -> small v ->
  judges (number_check (f4 fmt) "inner_radius" (nonzero v) false (PFloat n_zero) (PFloat u) true) (check_inner_m fmt u v) /\
  forall w, check_inner_m fmt u v = MOk w -> w = num_of (nonzero v).
Proof.
  intros Hp Sv. unfold check_inner_m. destruct (zero_plain Hp) as (b & -> & E). cbn [silent mbind]. cbv zeta. rewrite E.
  split; [apply stored_judge; try tame; apply nonzero_small, Sv | intros w; apply stored_value].
Qed.
Theorem ring_follows (i o t inc tilt : pyval) : plain i -> small i -> small o -> small t -> small inc -> small tilt ->
  follows (ring_checks fmt i o t inc tilt) (new_ring_m fmt i o t inc tilt).
Proof.
  intros Hp Si So St Sc Sl. unfold new_ring_m, ring_checks.
  apply follows_bind; [apply inner_judge; assumption|]. intros x Hx. apply (proj2 (@inner_judge n_inf i Hp Si)) in Hx. subst x.
  apply follows_bind; [apply stored_judge; tame|]. intros y _.
  apply follows_bind; [apply stored_judge; tame|]. intros z _.
  apply follows_bind; [apply stored_judge; tame|]. intros a _.
  apply follows_bind; [apply stored_judge; tame|]. intros b _. apply follows_ok.
Qed.
Lemma upd_judge c A (x : mres A) (r : ring T) f : judges c x -> judges c (snd (upd_m r x f)).
Proof. intros H. destruct x; exact H. Qed.
Theorem setter_judges (r : ring T) s : plain (setter_arg s) -> small (setter_arg s) ->
  judges (setter_check fmt r s) (snd (set_ring_m fmt r s)).
Proof.
  intros Hp Hs. destruct s; cbn [setter_arg setter_check set_ring_m] in *; apply upd_judge;
    [apply inner_judge; assumption | apply stored_judge; tame ..].
Qed.
Lemma float_plain (x : T) : plain (PNpFloat x). Proof. split; intros; intros ?; discriminate. Qed.
Lemma rings_follow inc tilt : forall l : list (T * T * T), follows (rings_checks fmt inc tilt l) (make_rings_m fmt inc tilt l).
Proof.
  induction l as [|[[i o] t] l IH]; [apply follows_ok|]. cbn [make_rings_m rings_checks flat_map].
  apply follows_app; [apply ring_follows; [apply float_plain | exact I ..]|]. intros r _.
  pose proof IH as H. unfold follows in *. fold (rings_checks fmt inc tilt l). destruct (make_rings_m fmt inc tilt l); exact H.
Qed.
Definition elements_small (v : pyval) : Prop := forall d sh el s, v = PArr d sh el -> In s el -> ssmall s.
Theorem system_follows (h : list (ring T)) (p i o t inc tilt lv : pyval) :
  small p -> small inc -> small tilt -> small lv -> elements_small i -> elements_small o -> elements_small t ->
  follows (system_checks fmt str_int str_tuple p i o t inc tilt lv) (new_system_m fmt h p i o t inc tilt lv).
Proof.
  intros Sp Sc St Sv Ei Eo Et. unfold new_system_m, system_checks. cbn [app].
  apply follows_bind; [apply number_judges; tame|]. intros x Hx. apply number_valued in Hx. subst x.
  apply follows_bind; [apply number_judges; tame|]. intros x Hx. apply number_valued in Hx. subst x.
  apply follows_bind; [apply number_judges; tame|]. intros x Hx. apply number_valued in Hx. subst x.
  cbv zeta.
  assert (Za : judges (array_check (f4 fmt) str_int "inner_radii" i (Some (PInt 0)) None false (Some "float64") (Some 1%Z))
                 (array_m fmt "inner_radii" i (Some (PInt 0)) None false (Some "float64") (Some 1%Z))).
  { apply array_judges; try tame. }
  assert (Zb : judges (array_check (f4 fmt) str_int "outer_radii" o (Some (PInt 0)) None false (Some "float64") (Some 1%Z))
                 (array_m fmt "outer_radii" o (Some (PInt 0)) None false (Some "float64") (Some 1%Z))).
  { apply array_judges; try tame. }
  assert (Zc : judges (array_check (f4 fmt) str_int "transmissions" t (Some (PInt 0)) (Some (PInt 1)) false (Some "float64") (Some 1%Z))
                 (array_m fmt "transmissions" t (Some (PInt 0)) (Some (PInt 1)) false (Some "float64") (Some 1%Z))).
  { apply array_judges; try tame. }
  apply follows_bind; [exact Za|]. intros x Hx. apply judges_ok in Za. destruct (proj1 Za (ex_intro _ x Hx)) as (d1 & s1 & e1 & E1 & _).
  apply array_valued in Hx. subst x.
  apply follows_bind; [exact Zb|]. intros x Hx. apply judges_ok in Zb. destruct (proj1 Zb (ex_intro _ x Hx)) as (d2 & s2 & e2 & E2 & _).
  apply array_valued in Hx. subst x.
  apply follows_bind; [exact Zc|]. intros x Hx. apply judges_ok in Zc. destruct (proj1 Zc (ex_intro _ x Hx)) as (d3 & s3 & e3 & E3 & _).
  apply array_valued in Hx. subst x.
  apply follows_bind.
  { apply shapes_judge; [cbn; lia | reflexivity |]. intros v [<-|[<-|[<-|[]]]]; do 3 eexists; eassumption. }
  intros u _. apply follows_app; [apply rings_follow|]. intros rs _.
  pose proof (@number_judges T NT LT fmt "logging_level" lv true (PInt 10) (PInt 50) false Sv) as H.
  apply follows_bind; [apply H; tame|]. intros w _. destruct (alloc h rs). apply follows_ok.
Qed.

(** *** placing rings *)
Lemma lt_spec (a b : T) : n_lt a b = true <-> xlt (val a) (val b).
Proof. rewrite l_lt. apply x_lt_iff. Qed.
Lemma index_int (v : pyval) i : int_like v -> value v = XFin (IZR i) <-> int_of v = i.
Proof.
  intros H. inversion H; subst; cbn [value].
  - change (int_of (PBool b)) with (if b then 1%Z else 0%Z). destruct b; split; intros X; try (injection X as X; apply eq_IZR in X; exact X); rewrite <- X; reflexivity.
  - change (int_of (PInt z)) with z. split; intros X; [injection X as X; apply eq_IZR in X; exact X | rewrite X; reflexivity].
  - change (int_of (PNpInt z)) with z. split; intros X; [injection X as X; apply eq_IZR in X; exact X | rewrite X; reflexivity].
Qed.
Lemma index_range (s : rsys T) (v : pyval) n : number_passes true (PInt 0) (PInt n) false v -> int_like v /\ (0 <= int_of v <= n)%Z.
Proof.
  intros ([Hv|[X _]] & _ & Hr); [|discriminate X]. split; [exact Hv|]. destruct (proj2 (@index_int v (int_of v) Hv) eq_refl).
  cbn [respects] in Hr. rewrite (proj2 (@index_int v (int_of v) Hv) eq_refl) in Hr. cbn [value xlt] in Hr. destruct Hr as [H1 H2].
  split; apply le_IZR; apply Rnot_lt_le; assumption.
Qed.
Definition neighbour_at (h : list (ring T)) (s : rsys T) (j : Z) (p : ring T) : Prop :=
  (0 <= j)%Z /\ exists l, nth_error (s_rings s) (Z.to_nat j) = Some l /\ p = deref h l.
Lemma neighbour_int h (s : rsys T) (v : pyval) k p : int_like v -> neighbour h s v k p <-> neighbour_at h s (int_of v + k) p.
Proof.
  intros Hv. unfold neighbour, neighbour_at. split.
  - intros (i & l & Hi & Hk & Hn & ->). apply (index_int _ Hv) in Hi. subst i. split; [exact Hk|]. exists l. split; [exact Hn | reflexivity].
  - intros (Hk & l & Hn & ->). exists (int_of v), l. split; [apply (index_int _ Hv); reflexivity|]. split; [exact Hk|]. split; [exact Hn | reflexivity].
Qed.
Lemma neighbour_fun h (s : rsys T) j p q : neighbour_at h s j p -> neighbour_at h s j q -> p = q.
Proof. intros (_ & l & H & ->) (_ & m & H' & ->). rewrite H in H'. injection H' as ->. reflexivity. Qed.

Lemma before_judge h (s : rsys T) (v : pyval) l : int_like v -> (0 <= int_of v <= num_rings s)%Z ->
  let lower := (if Z.eqb (int_of v) 0 then MOk n_ninf else let! p := silent (ring_at h s (int_of v - 1)) in MOk (r_out p)) in
  exists x, lower = MOk x /\
    judges (before_check fmt h s v (PObj "Ring" l)) (if n_lt (r_in (deref h l)) x then raise ValueError (inner_text fmt (r_in (deref h l)) x) else MOk tt).
Proof.
  intros Hv Hr lower. unfold lower. destruct (Z.eqb_spec (int_of v) 0) as [E|E].
  - exists n_ninf. split; [reflexivity|]. destruct (n_lt _ n_ninf) eqn:X.
    { apply lt_spec in X. rewrite val_ninf in X. destruct (val _); contradiction X. }
    cbn [judges before_check passes complains]. split.
    + intros l' p _ Hn. apply (neighbour_int _ _ _ _ Hv) in Hn. destruct Hn as [Hn _]. rewrite E in Hn. lia.
    + intros e t (l' & p & _ & Hn & _). apply (neighbour_int _ _ _ _ Hv) in Hn. destruct Hn as [Hn _]. rewrite E in Hn. lia.
  - assert (Hl : exists m, nth_error (s_rings s) (Z.to_nat (int_of v - 1)) = Some m).
    { destruct (nth_error (s_rings s) (Z.to_nat (int_of v - 1))) as [m|] eqn:X; [exists m; reflexivity|].
      apply nth_error_None in X. unfold num_rings in Hr. lia. }
    destruct Hl as [m Hm]. unfold ring_at. rewrite Hm. cbn [silent mbind]. exists (r_out (deref h m)). split; [reflexivity|].
    assert (Nb : forall p, neighbour h s v (-1) p <-> p = deref h m).
    { intros p. rewrite (neighbour_int _ _ _ _ Hv). replace (int_of v + -1)%Z with (int_of v - 1)%Z by lia. split.
      - intros (_ & k & Hk & ->). rewrite Hm in Hk. injection Hk as <-. reflexivity.
      - intros ->. split; [lia|]. exists m. split; [exact Hm | reflexivity]. }
    destruct (n_lt (r_in (deref h l)) (r_out (deref h m))) eqn:X; cbn [judges raise before_check passes complains].
    + apply lt_spec in X. split; [intros H; apply (H l (deref h m) eq_refl); [apply Nb; reflexivity | exact X]|].
      eexists. split; [reflexivity|]. intros e t. split.
      * intros (l' & p & El & Hp & _ & -> & ->). injection El as <-. apply Nb in Hp. subst p. split; reflexivity.
      * intros [-> ->]. exists l, (deref h m). split; [reflexivity|]. split; [apply Nb; reflexivity|]. split; [exact X|]. split; reflexivity.
    + split.
      * intros l' p El Hp H. injection El as <-. apply Nb in Hp. subst p. apply lt_spec in H. rewrite H in X. discriminate X.
      * intros e t (l' & p & El & Hp & H & _). injection El as <-. apply Nb in Hp. subst p. apply lt_spec in H. rewrite H in X. discriminate X.
Qed.
Lemma after_judge h (s : rsys T) (v : pyval) l k : int_like v -> (0 <= int_of v + k <= num_rings s)%Z ->
  let upper := (if Z.eqb (int_of v + k) (num_rings s) then MOk n_inf else let! p := silent (ring_at h s (int_of v + k)) in MOk (r_in p)) in
  exists x, upper = MOk x /\
    judges (after_check fmt h s v (PObj "Ring" l) k) (if n_lt x (r_out (deref h l)) then raise ValueError (outer_text fmt (r_out (deref h l)) x) else MOk tt).
Proof.
  intros Hv Hr upper. unfold upper. destruct (Z.eqb_spec (int_of v + k) (num_rings s)) as [E|E].
  - exists n_inf. split; [reflexivity|]. destruct (n_lt n_inf _) eqn:X.
    { apply lt_spec in X. rewrite l_inf in X. destruct (val _); contradiction X. }
    assert (Nb : forall p, ~ neighbour h s v k p).
    { intros p Hn. apply (neighbour_int _ _ _ _ Hv) in Hn. destruct Hn as (_ & m & Hm & _). rewrite E in Hm.
      assert (Hx : nth_error (s_rings s) (Z.to_nat (num_rings s)) <> None) by (rewrite Hm; discriminate).
      apply nth_error_Some in Hx. unfold num_rings in Hx. lia. }
    cbn [judges after_check passes complains]. split.
    + intros l' p _ Hn. destruct (Nb _ Hn).
    + intros e t (l' & p & _ & Hn & _). destruct (Nb _ Hn).
  - assert (Hl : exists m, nth_error (s_rings s) (Z.to_nat (int_of v + k)) = Some m).
    { destruct (nth_error (s_rings s) (Z.to_nat (int_of v + k))) as [m|] eqn:X; [exists m; reflexivity|].
      apply nth_error_None in X. unfold num_rings in *. lia. }
    destruct Hl as [m Hm]. unfold ring_at. rewrite Hm. cbn [silent mbind]. exists (r_in (deref h m)). split; [reflexivity|].
    assert (Nb : forall p, neighbour h s v k p <-> p = deref h m).
    { intros p. rewrite (neighbour_int _ _ _ _ Hv). split.
      - intros (_ & j & Hj & ->). rewrite Hm in Hj. injection Hj as <-. reflexivity.
      - intros ->. split; [lia|]. exists m. split; [exact Hm | reflexivity]. }
    destruct (n_lt (r_in (deref h m)) (r_out (deref h l))) eqn:X; cbn [judges raise after_check passes complains].
    + apply lt_spec in X. split; [intros H; apply (H l (deref h m) eq_refl); [apply Nb; reflexivity | exact X]|].
      eexists. split; [reflexivity|]. intros e t. split.
      * intros (l' & p & El & Hp & _ & -> & ->). injection El as <-. apply Nb in Hp. subst p. split; reflexivity.
      * intros [-> ->]. exists l, (deref h m). split; [reflexivity|]. split; [apply Nb; reflexivity|]. split; [exact X|]. split; reflexivity.
    + split.
      * intros l' p El Hp H. injection El as <-. apply Nb in Hp. subst p. apply lt_spec in H. rewrite H in X. discriminate X.
      * intros e t (l' & p & El & Hp & H & _). injection El as <-. apply Nb in Hp. subst p. apply lt_spec in H. rewrite H in X. discriminate X.
Qed.
Lemma class_judge (rg : pyval) : judges (kind_check (exists l, rg = PObj "Ring" l) "ring" "Ring") (class_m "ring" "Ring" "Ring" rg).
Proof.
  apply kind_judge. destruct rg; cbn [class_object]; try (split; [intros [l X]; discriminate X | reflexivity]).
  destruct (String.eqb_spec cls "Ring") as [->|H]; [eexists; reflexivity|]. split; [|reflexivity].
  intros [m X]. injection X as X _. contradiction.
Qed.
Lemma class_value (rg : pyval) l : class_m "ring" "Ring" "Ring" rg = MOk l -> rg = PObj "Ring" l.
Proof.
  unfold class_m. destruct rg; cbn [class_object saying raise]; try discriminate.
  destruct (String.eqb_spec cls "Ring") as [->|H]; cbn [saying raise]; [|discriminate]. intros X. injection X as <-. reflexivity.
Qed.
Lemma override_follows (h : list (ring T)) (s : rsys T) l :
  follows [number_check (f4 fmt) "inclination" (PNpFloat (s_inc s)) false (PInt 0) (PInt 90) false;
           number_check (f4 fmt) "tilt" (PNpFloat (s_tilt s)) false (PInt (-180)) (PInt 180) false] (snd (override_m fmt h s l)).
Proof.
  unfold override_m.
  pose proof (@setter_judges (deref h l) (SetInc (PNpFloat (s_inc s))) (float_plain _) I) as H1. cbn [setter_check] in H1.
  destruct (set_ring_m fmt (deref h l) (SetInc (PNpFloat (s_inc s)))) as [r1 x1]. cbn [snd] in H1.
  pose proof (@setter_judges r1 (SetTilt (PNpFloat (s_tilt s))) (float_plain _) I) as H2. cbn [setter_check] in H2.
  destruct (set_ring_m fmt r1 (SetTilt (PNpFloat (s_tilt s)))) as [r2 x2]. cbn [snd] in H2.
  replace (snd (match x1 with MOk _ => (replace_nth l r2 h, x2) | MErr e t => (h, MErr e t) end)) with (mbind x1 (fun _ => x2)) by (destruct x1; reflexivity).
  apply follows_bind; [exact H1|]. intros _ _. apply follows_tail, H2.
Qed.
Lemma prevent_follows h (s : rsys T) (index rg : pyval) (b : bool) l2 B (f : Z * nat -> mres B) :
  small index -> (num_rings s <= 2 ^ 53)%Z ->
  (b = true -> number_passes true (PInt 0) (PInt (num_rings s - 1)) false index) ->
  (forall i l, prevent_overlap_m fmt h s index rg b = MOk (i, l) -> follows l2 (f (i, l))) ->
  follows ([number_check (f4 fmt) "index" index true (PInt 0) (PInt (count s)) false;
            kind_check (exists l, rg = PObj "Ring" l) "ring" "Ring"; before_check fmt h s index rg;
            after_check fmt h s index rg (if b then 1 else 0)] ++ l2) (mbind (prevent_overlap_m fmt h s index rg b) f).
Proof.
  intros Si Sn Hb Hf. apply follows_app; [|intros [i l] H; apply Hf, H]. clear Hf. unfold prevent_overlap_m.
  change (count s) with (num_rings s).
  assert (Hi : judges (number_check (f4 fmt) "index" index true (PInt 0) (PInt (num_rings s)) false)
     (number_m fmt "index" index true (PInt 0) (PInt (num_rings s)) false)).
  { apply number_judges; try tame. cbn [small]. unfold num_rings in *. lia. }
  apply follows_bind; [exact Hi|]. intros v Hv. apply judges_ok in Hi. pose proof (proj1 Hi (ex_intro _ v Hv)) as Hp. clear Hi.
  apply number_valued in Hv. subst v. destruct (index_range s Hp) as [Il Ir].
  apply follows_bind; [apply class_judge|]. intros l Hl. apply class_value in Hl. subst rg. cbv zeta.
  destruct (@before_judge h s index l Il Ir) as (x & Ex & Jx). cbv zeta in Ex. rewrite Ex. cbn [mbind].
  assert (Ik : (0 <= int_of index + (if b then 1 else 0) <= num_rings s)%Z).
  { destruct b; [|lia]. destruct (index_range s (Hb eq_refl)) as [_ Hr]. lia. }
  destruct (@after_judge h s index l (if b then 1 else 0)%Z Il Ik) as (y & Ey & Jy). cbv zeta in Ey.
  replace (if b then (int_of index + 1)%Z else int_of index) with (int_of index + (if b then 1 else 0))%Z by (destruct b; lia).
  rewrite Ey. cbn [mbind].
  match goal with |- follows _ (if ?a then _ else _) =>
    replace (if a then raise ValueError (inner_text fmt (r_in (deref h l)) x) else if n_lt y (r_out (deref h l)) then raise ValueError (outer_text fmt (r_out (deref h l)) y) else MOk (int_of index, l))
    with (let! _ := if a then raise ValueError (inner_text fmt (r_in (deref h l)) x) else MOk tt in
          let! _ := if n_lt y (r_out (deref h l)) then raise ValueError (outer_text fmt (r_out (deref h l)) y) else MOk tt in MOk (int_of index, l))
    by (destruct a; [reflexivity|]; destruct (n_lt y (r_out (deref h l))); reflexivity) end.
  apply follows_bind; [exact Jx|]. intros _ _. apply follows_bind; [exact Jy|]. intros _ _. apply follows_ok.
Qed.
Theorem add_follows h (s : rsys T) (index rg : pyval) : small index -> (num_rings s <= 2 ^ 53)%Z ->
  follows (place_checks fmt h s index rg 0) (snd (add_ring_m fmt h s index rg)).
Proof.
  intros Si Sn. pose (f := fun il : Z * nat => snd (override_m fmt h s (snd il))).
  assert (E : snd (add_ring_m fmt h s index rg) = mbind (prevent_overlap_m fmt h s index rg false) f).
  { unfold add_ring_m, f. destruct (prevent_overlap_m fmt h s index rg false) as [[i l]|]; [|reflexivity]. cbn [mbind snd].
    destruct (override_m fmt h s l) as [h' [[]|]]; reflexivity. }
  rewrite E. apply (@prevent_follows h s index rg false _ _ f Si Sn); [discriminate|]. intros i l _. unfold f. cbn [snd]. apply override_follows.
Qed.
Theorem remove_follows h (s : rsys T) (index : pyval) : small index -> (num_rings s <= 2 ^ 53)%Z ->
  follows (remove_checks fmt s index) (snd (remove_ring_m fmt h s index)).
Proof.
  intros Si Sn. apply follows_tail. unfold remove_ring_m. change (count s) with (num_rings s).
  assert (H : judges (number_check (f4 fmt) "index" index true (PInt 0) (PInt (num_rings s - 1)) false)
    (number_m fmt "index" index true (PInt 0) (PInt (num_rings s - 1)) false)).
  { apply number_judges; try tame. cbn [small]. unfold num_rings in *. lia. }
  destruct (number_m fmt "index" index true (PInt 0) (PInt (num_rings s - 1)) false); exact H.
Qed.
Theorem replace_follows h (s : rsys T) (index rg : pyval) : small index -> (num_rings s <= 2 ^ 53)%Z ->
  follows (remove_checks fmt s index ++ place_checks fmt h s index rg 1) (snd (replace_ring_m fmt h s index rg)).
Proof.
  intros Si Sn. pose (f := fun il : Z * nat => snd (override_m fmt h s (snd il))).
  assert (J : judges (number_check (f4 fmt) "index" index true (PInt 0) (PInt (num_rings s - 1)) false)
    (number_m fmt "index" index true (PInt 0) (PInt (num_rings s - 1)) false)).
  { apply number_judges; try tame. cbn [small]. unfold num_rings in *. lia. }
  assert (E : snd (replace_ring_m fmt h s index rg) =
    let! _ := number_m fmt "index" index true (PInt 0) (PInt (num_rings s - 1)) false in mbind (prevent_overlap_m fmt h s index rg true) f).
  { unfold replace_ring_m, f. destruct (number_m _ _ _ _ _ _ _); [|reflexivity]. cbn [mbind].
    destruct (prevent_overlap_m fmt h s index rg true) as [[i l]|]; [|reflexivity]. cbn [mbind snd].
    destruct (override_m fmt h s l) as [h' [[]|]]; reflexivity. }
  rewrite E. cbn [remove_checks app]. apply follows_bind; [exact J|]. intros v Hv.
  pose proof (proj1 (@judges_ok _ _ _ J) (ex_intro _ v Hv)) as Hp.
  apply (@prevent_follows h s index rg true _ _ f Si Sn); [intros _; exact Hp|]. intros i l _. unfold f. cbn [snd]. apply override_follows.
Qed.
End R.
