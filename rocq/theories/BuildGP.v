(** What _build_grid leaves in the five cubes. *)
From Coq Require Import ZArith List Bool String Lia Reals.
From Verif Require Import Num NumP Py SpecNum Validate ValidateP Ring RingP RingSystem FS FSP GridParams SpecGrid GridParamsP GridDiag
  Names GridProp SpecProp GridPropP Geometry Build SpecBuild BuildP BuildQP StretchP Shallot.
Import ListNotations.
Set Implicit Arguments.
Local Open Scope string_scope.
Local Open Scope list_scope.

(** *** columns *)
Lemma block_inj nx a b c d : b < nx -> d < nx -> a * nx + b = c * nx + d -> a = c /\ b = d.
Proof. intros. assert (a = c) by nia. subst. lia. Qed.

Section Columns.
Context {A : Type}.
Lemma column_length ny nx nr (l : list A) y x : List.length l = ny * nx * nr -> y < ny -> x < nx -> List.length (column_at nx nr l y x) = nr.
Proof.
  intros H Hy Hx. unfold column_at. rewrite firstn_length, skipn_length. assert (y * nx + x + 1 <= ny * nx) by nia.
  assert ((y * nx + x + 1) * nr <= ny * nx * nr) by (apply Nat.mul_le_mono_r; auto). lia.
Qed.
Lemma column_ext n (l m : list A) : List.length l = n -> List.length m = n -> (forall r, r < n -> nth_error l r = nth_error m r) -> l = m.
Proof. intros Hl Hm H. apply nth_error_ext'; [congruence|]. intros i Hi. apply H. lia. Qed.
Lemma data_ext ny nx nr (l m : list A) : List.length l = ny * nx * nr -> List.length m = ny * nx * nr ->
  (forall y x, y < ny -> x < nx -> column_at nx nr l y x = column_at nx nr m y x) -> l = m.
Proof.
  intros Hl Hm H. apply nth_error_ext'; [congruence|]. intros i Hi.
  assert (Hr : 0 < nr) by (destruct nr; [rewrite Nat.mul_0_r in Hl; lia|lia]).
  assert (Hx : 0 < nx) by (destruct nx; [rewrite Nat.mul_0_r in Hl; cbn in Hl; lia|lia]).
  set (q := i / nr). set (r := i mod nr). assert (Ei : i = q * nr + r) by (unfold q, r; rewrite Nat.mul_comm; apply Nat.div_mod; lia).
  assert (Hr' : r < nr) by (apply Nat.mod_upper_bound; lia).
  set (y := q / nx). set (x := q mod nx). assert (Eq : q = y * nx + x) by (unfold y, x; rewrite Nat.mul_comm; apply Nat.div_mod; lia).
  assert (Hx' : x < nx) by (apply Nat.mod_upper_bound; lia).
  assert (Hq : q < ny * nx) by (rewrite Hl in Hi; clear - Hi Ei; nia).
  assert (Hy : y < ny) by (clear - Hq Eq; nia).
  specialize (H y x Hy Hx'). apply (f_equal (fun c => nth_error c r)) in H. rewrite !column_cell in H by auto. unfold cell in H.
  now rewrite <- Eq, <- Ei in H.
Qed.
Lemma column_repeat ny nx nr (a : A) y x : y < ny -> x < nx -> column_at nx nr (repeat a (ny * nx * nr)) y x = repeat a nr.
Proof.
  intros Hy Hx. apply (@column_ext nr); [apply (@column_length ny); auto; apply repeat_length|apply repeat_length|].
  intros r Hr. rewrite column_cell by auto. unfold cell.
  assert (Hi : (y * nx + x) * nr + r < ny * nx * nr).
  { assert (y * nx + x + 1 <= ny * nx) by nia. assert ((y * nx + x + 1) * nr <= ny * nx * nr) by (apply Nat.mul_le_mono_r; auto). lia. }
  rewrite !nth_error_repeat; auto.
Qed.
End Columns.

Lemma splice_column {T} ny nx nr (l : list T) row y x y' x' : List.length l = ny * nx * nr -> List.length row = nr ->
  y < ny -> x < nx -> y' < ny -> x' < nx ->
  column_at nx nr (splice l ((y * nx + x) * nr) row) y' x' = if Nat.eqb y' y && Nat.eqb x' x then row else column_at nx nr l y' x'.
Proof.
  intros Hl Hrow Hy Hx Hy' Hx'.
  assert (Hoff : (y * nx + x) * nr + nr <= ny * nx * nr).
  { assert (y * nx + x + 1 <= ny * nx) by nia. assert ((y * nx + x + 1) * nr <= ny * nx * nr) by (apply Nat.mul_le_mono_r; auto). lia. }
  assert (Hsl : List.length (splice l ((y * nx + x) * nr) row) = ny * nx * nr) by (rewrite splice_length; auto; lia).
  apply (@column_ext T nr).
  - apply (@column_length T ny); auto.
  - destruct (_ && _); auto. apply (@column_length T ny); auto.
  - intros r Hr. rewrite column_cell by auto. unfold cell. rewrite splice_nth by lia. rewrite Hrow.
    destruct (Nat.eqb_spec y' y) as [->|Ny]; cbn [andb]; [destruct (Nat.eqb_spec x' x) as [->|Nx]|].
    + destruct (Nat.leb_spec ((y * nx + x) * nr) ((y * nx + x) * nr + r)); [|lia]. destruct (Nat.ltb_spec ((y * nx + x) * nr + r) ((y * nx + x) * nr + nr)); [|lia].
      cbn [andb]. f_equal. lia.
    + rewrite column_cell by auto. unfold cell.
      destruct (Nat.leb_spec ((y * nx + x) * nr) ((y * nx + x') * nr + r)); cbn [andb]; auto.
      destruct (Nat.ltb_spec ((y * nx + x') * nr + r) ((y * nx + x) * nr + nr)); auto. exfalso. nia.
    + rewrite column_cell by auto. unfold cell.
      destruct (Nat.leb_spec ((y * nx + x) * nr) ((y' * nx + x') * nr + r)); cbn [andb]; auto.
      destruct (Nat.ltb_spec ((y' * nx + x') * nr + r) ((y * nx + x) * nr + nr)); auto. exfalso.
      assert (y' * nx + x' = y * nx + x) by nia. destruct (@block_inj nx y' x' y x); auto.
Qed.

Section Cells.
Context {T : Type} {NT : Num T} (E : env T).
Notation pyval := (pyval T).

Definition cube_of (w : which) (s : shallot T) : gprop T :=
  match w with WRadius => s_dr s | WInclination => s_inc s | WTilt => s_tilt s | WFx => s_fx s | WFy => s_fy s end.
Definition part_of (w : which) (c : column T) : list T :=
  match w with WRadius => c_dr c | WInclination => c_inc c | WTilt => c_tilt c | WFx => c_fx c | WFy => c_fy c end.

(** everything but the cubes and the diagnostics *)
Definition others (s : shallot T) :=
  (s_params s, s_nf s, (s_radius s, s_shear s), (s_dmap s, s_grads s, s_fit s), (s_ecl s, s_vel s, s_limb s)).

Definition ny_of (s : shallot T) : nat := List.length (g_dy (s_params s)).
Definition nx_of (s : shallot T) : nat := List.length (g_dx (s_params s)).
Definition shear_of (s : shallot T) (y x : nat) : T := nth (y * nx_of s + x) (s_shear s) n_nan.
Definition point_of (s : shallot T) (y x : nat) : res (column T) :=
  grid_point E (s_params s) (s_nf s) (nth y (g_dy (s_params s)) n_nan) (shear_of s y x) (nth y (s_radius s) n_nan).

(** the five cubes have the shape of the vectors, with [nr] entries per point *)
Definition shapely (nr : nat) (s : shallot T) : Prop :=
  forall w, p_shape (cube_of w s) = [ny_of s; nx_of s; nr] /\ List.length (p_data (cube_of w s)) = ny_of s * nx_of s * nr.

(** the column [new] at (y, x): unchanged if the shear is NaN, else the one computed there *)
Definition result_at (s : shallot T) (w : which) (y x : nat) (old new : list T) : Prop :=
  if n_isnan (shear_of s y x) then new = old else exists col, point_of s y x = Ok col /\ new = part_of w col.

Definition updated (nr : nat) (D : nat -> nat -> bool) (s s' : shallot T) : Prop :=
  others s' = others s /\ (s_diag s = None -> s_diag s' = None) /\
  forall w, exists l, cube_of w s' = with_data (cube_of w s) l /\ List.length l = List.length (p_data (cube_of w s)) /\
    forall y x, y < ny_of s -> x < nx_of s ->
      if D y x then result_at s w y x (column_at (nx_of s) nr (p_data (cube_of w s)) y x) (column_at (nx_of s) nr l y x)
      else column_at (nx_of s) nr l y x = column_at (nx_of s) nr (p_data (cube_of w s)) y x.

Lemma others_sizes s s' : others s' = others s -> ny_of s' = ny_of s /\ nx_of s' = nx_of s /\
  (forall y x, shear_of s' y x = shear_of s y x) /\ forall y x, point_of s' y x = point_of s y x.
Proof.
  unfold others, ny_of, nx_of, shear_of, point_of, shear_of, nx_of. intros H. injection H as H1 H2 H3 H4 _ _ _ _ _ _. rewrite H1, H2, H3, H4. auto.
Qed.
Lemma with_data_data (p : gprop T) l : p_data (with_data p l) = l. Proof. reflexivity. Qed.
Lemma with_data_twice (p : gprop T) l m : with_data (with_data p l) m = with_data p m. Proof. reflexivity. Qed.
Lemma with_data_same (p : gprop T) : with_data p (p_data p) = p. Proof. destruct p; reflexivity. Qed.

Lemma updated_refl nr s : updated nr (fun _ _ => false) s s.
Proof. split; auto. split; auto. intros w. exists (p_data (cube_of w s)). rewrite with_data_same. auto. Qed.
Lemma updated_shapely nr D s s' : updated nr D s s' -> shapely nr s -> shapely nr s'.
Proof.
  intros (Ho & _ & H) Hs w. destruct (others_sizes Ho) as (-> & -> & _). destruct (H w) as (l & -> & Hl & _). destruct (Hs w) as [H1 H2].
  split; [exact H1|]. rewrite with_data_data. congruence.
Qed.
Lemma updated_trans nr D1 D2 s1 s2 s3 : updated nr D1 s1 s2 -> updated nr D2 s2 s3 -> updated nr (fun y x => D1 y x || D2 y x) s1 s3.
Proof.
  intros (Ho1 & Hd1 & H1) (Ho2 & Hd2 & H2). split; [congruence|]. split; [auto|]. intros w.
  destruct (others_sizes Ho1) as (Ey & Ex & Es & Ep).
  destruct (H1 w) as (l1 & E1 & L1 & C1). destruct (H2 w) as (l2 & E2 & L2 & C2). exists l2. rewrite E1 in *. rewrite with_data_data in *. rewrite with_data_twice in E2.
  split; auto. split; [congruence|]. intros y x Hy Hx. specialize (C1 y x Hy Hx). rewrite Ey, Ex in C2. specialize (C2 y x Hy Hx).
  unfold result_at in *. rewrite Es, Ep in C2.
  destruct (D1 y x), (D2 y x); cbn [orb]; destruct (n_isnan (shear_of s1 y x)); try congruence; auto.
  destruct C1 as (col & ? & ?). exists col. split; congruence.
Qed.
Lemma updated_ext nr D D' s s' : (forall y x, y < ny_of s -> x < nx_of s -> D y x = D' y x) -> updated nr D s s' -> updated nr D' s s'.
Proof.
  intros HD (Ho & Hd & H). split; auto. split; auto. intros w. destruct (H w) as (l & E1 & L1 & C1). exists l. split; auto. split; auto.
  intros y x Hy Hx. rewrite <- HD by auto. exact (C1 y x Hy Hx).
Qed.

Lemma put_column_ok (p p' : gprop T) y x row : put_column p y x row = Ok p' ->
  exists ny nx nr, p_shape p = [ny; nx; nr] /\ y < ny /\ x < nx /\ List.length row = nr /\ p' = with_data p (splice (p_data p) ((y * nx + x) * nr) row).
Proof.
  unfold put_column. destruct (p_shape p) as [|ny [|nx [|nr [|]]]]; try discriminate.
  destruct (Nat.ltb_spec y ny); [|discriminate]. destruct (Nat.ltb_spec x nx); [|discriminate]. cbn [andb].
  destruct (Nat.eqb_spec (List.length row) nr); [|discriminate]. intros H'; injection H' as <-. exists ny, nx, nr. auto.
Qed.
Lemma put_column_some (p : gprop T) ny nx nr y x row : p_shape p = [ny; nx; nr] -> y < ny -> x < nx -> List.length row = nr ->
  put_column p y x row = Ok (with_data p (splice (p_data p) ((y * nx + x) * nr) row)).
Proof.
  intros Hs Hy Hx Hr. unfold put_column. rewrite Hs. destruct (Nat.ltb_spec y ny); [|lia]. destruct (Nat.ltb_spec x nx); [|lia]. cbn [andb].
  destruct (Nat.eqb_spec (List.length row) nr); [reflexivity|contradiction].
Qed.

Lemma point_updated nr s y x s' : shapely nr s -> y < ny_of s -> x < nx_of s -> build_point E y s x = Ok s' ->
  updated nr (fun y' x' => Nat.eqb y' y && Nat.eqb x' x) s s'.
Proof.
  intros Hs Hy Hx H. unfold build_point in H. fold (nx_of s) in H. fold (shear_of s y x) in H.
  destruct (n_isnan (shear_of s y x)) eqn:En.
  { injection H as <-. split; auto. split; auto. intros w. exists (p_data (cube_of w s)). rewrite with_data_same. split; auto. split; auto.
    intros y' x' _ _. destruct (Nat.eqb_spec y' y) as [->|]; cbn [andb]; auto. destruct (Nat.eqb_spec x' x) as [->|]; auto. unfold result_at. now rewrite En. }
  fold (point_of s y x) in H. destruct (point_of s y x) as [col|] eqn:Ep; cbn [bind] in H; [|discriminate].
  destruct (put_column (s_dr s) y x (c_dr col)) as [p1|] eqn:E1; cbn [bind] in H; [|discriminate].
  destruct (put_column (s_inc s) y x (c_inc col)) as [p2|] eqn:E2; cbn [bind] in H; [|discriminate].
  destruct (put_column (s_tilt s) y x (c_tilt col)) as [p3|] eqn:E3; cbn [bind] in H; [|discriminate].
  destruct (put_column (s_fx s) y x (c_fx col)) as [p4|] eqn:E4; cbn [bind] in H; [|discriminate].
  destruct (put_column (s_fy s) y x (c_fy col)) as [p5|] eqn:E5; cbn [bind] in H; [|discriminate].
  assert (Hput : forall w, exists p, put_column (cube_of w s) y x (part_of w col) = Ok p /\ cube_of w (with_cubes s p1 p2 p3 p4 p5) = p).
  { intros []; cbn [cube_of part_of with_cubes s_dr s_inc s_tilt s_fx s_fy]; eauto. }
  assert (Hmain : updated nr (fun y' x' => Nat.eqb y' y && Nat.eqb x' x) s (with_cubes s p1 p2 p3 p4 p5)).
  { split; auto. split; auto. intros w. destruct (Hput w) as (p & Hp & ->). apply put_column_ok in Hp as (a & b & c & Hsh & Ha & Hb & Hc & ->).
    destruct (Hs w) as [Hsw Hlw]. rewrite Hsw in Hsh. injection Hsh as <- <- <-.
    exists (splice (p_data (cube_of w s)) ((y * nx_of s + x) * nr) (part_of w col)). split; auto. split.
    { apply splice_length. rewrite Hlw, Hc. assert (y * nx_of s + x + 1 <= ny_of s * nx_of s) by nia. assert ((y * nx_of s + x + 1) * nr <= ny_of s * nx_of s * nr) by (apply Nat.mul_le_mono_r; auto). lia. }
    intros y' x' Hy' Hx'. rewrite (@splice_column T (ny_of s)); auto.
    destruct (Nat.eqb_spec y' y) as [->|]; cbn [andb]; auto. destruct (Nat.eqb_spec x' x) as [->|]; auto. unfold result_at. rewrite En. eauto. }
  destruct (s_diag (with_cubes s p1 p2 p3 p4 p5)) as [d|] eqn:Ed; [|injection H as <-; exact Hmain].
  destruct (save_diagnostic _ _ _ _ _) as [d' [u|]]; [|discriminate]. injection H as <-.
  destruct Hmain as (A & B & C). split; [exact A|]. split; [|exact C]. intros Hd. cbn [with_cubes s_diag] in Ed. congruence.
Qed.

Lemma points_updated nr y xs s s' : shapely nr s -> y < ny_of s -> (forall x, In x xs -> x < nx_of s) -> fold_res (build_point E y) xs s = Ok s' ->
  updated nr (fun y' x' => Nat.eqb y' y && existsb (Nat.eqb x') xs) s s'.
Proof.
  revert s; induction xs as [|x xs IH]; intros s Hs Hy Hxs H; cbn [fold_res] in H.
  - injection H as <-. eapply updated_ext; [|apply updated_refl]. intros. cbn [existsb]. now rewrite andb_false_r.
  - destruct (build_point E y s x) as [s1|] eqn:E1; cbn [bind] in H; [|discriminate].
    assert (U1 := point_updated Hs Hy (Hxs x (or_introl eq_refl)) E1). destruct (others_sizes (proj1 U1)) as (Ey & Ex & _).
    assert (U2 := IH s1 (updated_shapely U1 Hs) ltac:(now rewrite Ey) ltac:(intros z Hz; rewrite Ex; apply Hxs; now right) H).
    eapply updated_ext; [|exact (updated_trans U1 U2)]. intros y' x' _ _. cbn beta. cbn [existsb]. destruct (Nat.eqb y' y); reflexivity.
Qed.

Lemma in_seq0 n x : In x (seq 0 n) <-> x < n.
Proof. rewrite in_seq. lia. Qed.
Lemma existsb_seq n x k : existsb (Nat.eqb x) (seq k n) = Nat.leb k x && Nat.ltb x (k + n).
Proof.
  destruct (existsb (Nat.eqb x) (seq k n)) eqn:Ee.
  - apply existsb_exists in Ee as (z & Hz & Hxz). apply Nat.eqb_eq in Hxz. subst z. apply in_seq in Hz.
    destruct (Nat.leb_spec k x); [|lia]. destruct (Nat.ltb_spec x (k + n)); [reflexivity|lia].
  - destruct (Nat.leb_spec k x); cbn [andb]; auto. destruct (Nat.ltb_spec x (k + n)); auto.
    assert (existsb (Nat.eqb x) (seq k n) = true); [|congruence]. apply existsb_exists. exists x. split; [apply in_seq; lia|apply Nat.eqb_refl].
Qed.

Lemma row_updated nr y s s' : shapely nr s -> y < ny_of s -> build_row E s y = Ok s' -> updated nr (fun y' _ => Nat.eqb y' y) s s'.
Proof.
  intros Hs Hy H. unfold build_row in H. fold (nx_of s) in H.
  eapply updated_ext; [|eapply points_updated; [exact Hs|exact Hy| |exact H]].
  - intros y' x' _ Hx'. cbn beta. rewrite existsb_seq. cbn [Nat.leb Nat.add]. destruct (Nat.ltb_spec x' (nx_of s)); [|lia]. now rewrite !andb_true_r.
  - intros x Hx. now apply in_seq0 in Hx.
Qed.

Theorem rows_updated nr inter ys s l s' : shapely nr s -> (forall y, In y ys -> y < ny_of s) -> build_rows E inter ys s = (l, Ok s') ->
  updated nr (fun y _ => existsb (Nat.eqb y) ys) s s'.
Proof.
  revert s l; induction ys as [|y ys IH]; intros s l Hs Hys H; cbn [build_rows] in H.
  - injection H as <- <-. apply updated_refl.
  - destruct (build_row E s y) as [s1|] eqn:E1; [|discriminate]. destruct (build_rows E inter ys s1) as [l1 r1] eqn:E2. injection H as _ ->.
    assert (U1 := row_updated Hs (Hys y (or_introl eq_refl)) E1). destruct (others_sizes (proj1 U1)) as (Ey & Ex & _).
    assert (U2 := IH s1 l1 (updated_shapely U1 Hs) ltac:(intros z Hz; rewrite Ey; apply Hys; now right) E2).
    eapply updated_ext; [|exact (updated_trans U1 U2)]. intros y' x' _ _. reflexivity.
Qed.
End Cells.
