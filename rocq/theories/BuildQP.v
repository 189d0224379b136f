(** The quadrant extension and the diagnostic cube. *)
From Coq Require Import ZArith Reals List Bool String Lia Lra.
From Verif Require Import Num NumP Py SpecNum Validate ValidateP Ring RingSystem FS GridParams SpecGrid GridParamsP
  Names GridProp SpecProp GridPropP Geometry Build SpecBuild BuildP.
Import ListNotations.
Set Implicit Arguments.

Section Q.
Context {T : Type} {NT : Num T}.

Definition shaped (b n : nat) (c : list (list (list T))) : Prop :=
  Forall (fun row => List.length row = b /\ Forall (fun c => List.length c = n) row) c.

(** 180 - x on the tilt in the second and fourth quadrant *)
Definition adjusted (t : bool) (ny nx i j : nat) (x : T) : T :=
  if t && xorb (Nat.ltb i ny) (Nat.ltb j nx) then n_sub (num2 180) x else x.

Let beside (a b : list (list (list T))) := map (fun p => fst p ++ snd p) (combine a b).
Let adjust (t : bool) (q : list (list (list T))) := if t then map (map (map (fun x => n_sub (num2 180) x))) q else q.

Lemma beside_nth a b i x y : nth_error a i = Some x -> nth_error b i = Some y -> nth_error (beside a b) i = Some (x ++ y).
Proof. intros. unfold beside. rewrite nth_error_map, (combine_nth_error _ _ _ H H0). reflexivity. Qed.
Lemma adjust_nth t q i row : nth_error q i = Some row ->
  nth_error (adjust t q) i = Some (if t then map (map (fun x => n_sub (num2 180) x)) row else row).
Proof. intros H. destruct t; cbn [adjust]; auto. rewrite nth_error_map, H. reflexivity. Qed.
Lemma adjust_length t q : List.length (adjust t q) = List.length q.
Proof. destruct t; cbn [adjust]; auto. apply map_length. Qed.

Lemma row_nth nx (row : list (list T)) (f g : list T -> list T) j col : List.length row = nx -> j < 2 * nx - 1 ->
  nth_error row (from_middle nx j) = Some col ->
  nth_error (remove_at nx (map f (rev row) ++ map g row)) j = Some (if Nat.ltb j nx then f col else g col).
Proof.
  intros Hl Hj Hc. destruct (remove_at_nth nx (map f (rev row) ++ map g row) j) as [->|B];
    [|rewrite app_length, !map_length, rev_length in B; lia].
  unfold from_middle in Hc. destruct (Nat.ltb_spec j nx).
  - destruct (Nat.leb_spec j (nx - 1)); [|lia].
    rewrite nth_error_app1 by (rewrite map_length, rev_length; lia). rewrite nth_error_map, nth_error_rev' by lia.
    rewrite Hl, Hc. reflexivity.
  - rewrite nth_error_app2 by (rewrite map_length, rev_length; lia). rewrite map_length, rev_length, nth_error_map.
    destruct (Nat.leb_spec j (nx - 1)).
    + assert (nx = 0 \/ j = nx - 1) as [|] by lia; [|lia]. subst nx. lia.
    + replace (S j - List.length row) with (j - (nx - 1)) by lia. rewrite Hc. reflexivity.
Qed.

Theorem quadrants_nth t ny nx nr q1 i j row col : 1 <= ny -> 1 <= nx -> List.length q1 = ny -> shaped nx nr q1 ->
  i < 2 * ny - 1 -> j < 2 * nx - 1 ->
  nth_error q1 (from_middle ny i) = Some row -> nth_error row (from_middle nx j) = Some col ->
  exists row', nth_error (quadrants t ny nx q1) i = Some row' /\
    nth_error row' j = Some (map (adjusted t ny nx i j) col).
Proof.
  intros Hy Hx Hl Hs Hi Hj Hr Hc.
  destruct (proj1 (Forall_forall _ _) Hs row) as [Hrow _]; [eapply nth_error_In; eauto|].
  unfold quadrants. fold (adjust t (map (@rev _) q1)) (adjust t (rev q1)).
  change (map (fun p => fst p ++ snd p) (combine (rev (map (@rev _) q1)) (adjust t (rev q1)))) with (beside (rev (map (@rev _) q1)) (adjust t (rev q1))).
  change (map (fun p => fst p ++ snd p) (combine (adjust t (map (@rev _) q1)) q1)) with (beside (adjust t (map (@rev _) q1)) q1).
  set (F := fun x : T => n_sub (num2 180) x).
  assert (Hb1 : List.length (beside (rev (map (@rev _) q1)) (adjust t (rev q1))) = ny).
  { unfold beside. rewrite map_length, combine_length, adjust_length, !rev_length, map_length. lia. }
  assert (Hb2 : List.length (beside (adjust t (map (@rev _) q1)) q1) = ny).
  { unfold beside. rewrite map_length, combine_length, adjust_length, map_length. lia. }
  assert (Hid : forall (l : list (list T)), map (fun x => x) l = l) by (intros; apply map_id).
  destruct (remove_at_nth ny (beside (rev (map (@rev _) q1)) (adjust t (rev q1)) ++ beside (adjust t (map (@rev _) q1)) q1) i) as [E|B];
    [|rewrite app_length in B; lia].
  unfold from_middle in Hr. destruct (Nat.ltb_spec i ny) as [Hlt|Hge].
  - destruct (Nat.leb_spec i (ny - 1)) as [_|]; [|lia].
    rewrite nth_error_app1 in E by lia.
    assert (Q3 : nth_error (rev (map (@rev _) q1)) i = Some (rev row)).
    { rewrite nth_error_rev' by (rewrite map_length; lia). rewrite map_length, nth_error_map, Hl, Hr. reflexivity. }
    assert (Q4 : nth_error (rev q1) i = Some row) by (rewrite nth_error_rev' by lia; rewrite Hl; exact Hr).
    rewrite (beside_nth _ _ _ Q3 (adjust_nth t _ _ Q4)) in E.
    exists (remove_at nx (map (fun x => x) (rev row) ++ map (if t then map F else fun x => x) row)).
    split.
    { rewrite nth_error_map, E. cbn [option_map]. rewrite Hid. destruct t; [|rewrite Hid]; reflexivity. }
    rewrite (@row_nth nx row _ _ j col Hrow Hj Hc). f_equal. unfold adjusted.
    rewrite (proj2 (Nat.ltb_lt i ny) Hlt). destruct (Nat.ltb j nx); cbn [xorb negb andb]; destruct t; cbn [andb]; try (symmetry; apply map_id); reflexivity.
  - destruct (Nat.leb_spec i (ny - 1)) as [|_]; [lia|].
    rewrite nth_error_app2, Hb1 in E by lia.
    replace (S i - ny) with (i - (ny - 1)) in E by lia.
    assert (Q2 : nth_error (map (@rev _) q1) (i - (ny - 1)) = Some (rev row)) by (rewrite nth_error_map, Hr; reflexivity).
    rewrite (beside_nth _ _ _ (adjust_nth t _ _ Q2) Hr) in E.
    exists (remove_at nx (map (if t then map F else fun x => x) (rev row) ++ map (fun x => x) row)).
    split.
    { rewrite nth_error_map, E. cbn [option_map]. rewrite (Hid row). destruct t; [|rewrite Hid]; reflexivity. }
    rewrite (@row_nth nx row _ _ j col Hrow Hj Hc). f_equal. unfold adjusted.
    rewrite (proj2 (Nat.ltb_ge i ny) Hge). destruct (Nat.ltb j nx); cbn [xorb negb andb]; destruct t; cbn [andb]; try (symmetry; apply map_id); reflexivity.
Qed.

Lemma from_middle_lt n i : i < 2 * n - 1 -> from_middle n i < n.
Proof. unfold from_middle. destruct (Nat.leb_spec i (n - 1)); lia. Qed.

Lemma quadrants_shape t ny nx nr q1 : 1 <= ny -> 1 <= nx -> List.length q1 = ny -> shaped nx nr q1 ->
  List.length (quadrants t ny nx q1) = 2 * ny - 1 /\ shaped (2 * nx - 1) nr (quadrants t ny nx q1).
Proof.
  intros Hy Hx Hl Hs.
  assert (HL : List.length (quadrants t ny nx q1) = 2 * ny - 1).
  { unfold quadrants. rewrite map_length. rewrite remove_at_length.
    - rewrite app_length, !map_length, !combine_length. destruct t; rewrite ?map_length, ?rev_length, ?map_length; lia.
    - rewrite app_length, !map_length, !combine_length. destruct t; rewrite ?map_length, ?rev_length, ?map_length; lia. }
  split; auto. unfold shaped. apply Forall_forall. intros row' Hin. apply In_nth_error in Hin as [i Hi].
  assert (Hi2 : i < 2 * ny - 1) by (rewrite <- HL; apply nth_error_Some; congruence).
  destruct (nth_error_Some' q1 (i := from_middle ny i)) as [row Hrow]; [rewrite Hl; now apply from_middle_lt|].
  destruct (proj1 (Forall_forall _ _) Hs row) as [Hlr Hcs]; [eapply nth_error_In; eauto|].
  assert (HR : forall j, j < 2 * nx - 1 -> exists col, nth_error row (from_middle nx j) = Some col /\
     nth_error row' j = Some (map (adjusted t ny nx i j) col)).
  { intros j Hj. destruct (nth_error_Some' row (i := from_middle nx j)) as [col Hcol]; [rewrite Hlr; now apply from_middle_lt|].
    destruct (@quadrants_nth t ny nx nr q1 i j row col Hy Hx Hl Hs Hi2 Hj Hrow Hcol) as (r & E & E').
    rewrite Hi in E. injection E as <-. eauto. }
  assert (HL' : List.length row' = 2 * nx - 1).
  { unfold quadrants in Hi. rewrite nth_error_map in Hi.
    match type of Hi with option_map _ (nth_error ?l i) = _ => destruct (nth_error l i) as [w|] eqn:Ew; [|discriminate] end.
    cbn [option_map] in Hi. injection Hi as <-.
    assert (In w (beside (rev (map (@rev _) q1)) (adjust t (rev q1)) ++ beside (adjust t (map (@rev _) q1)) q1)) as Ew'.
    { apply nth_error_In in Ew. unfold remove_at in Ew. apply in_app_or in Ew. destruct Ew as [Ew|Ew].
      - rewrite <- (firstn_skipn ny). apply in_or_app. left; exact Ew.
      - rewrite <- (firstn_skipn (S ny)). apply in_or_app. right; exact Ew. }
    clear Ew.
    assert (HI : forall a b, (forall r, In r a -> List.length r = nx) -> (forall r, In r b -> List.length r = nx) -> In w (beside a b) -> List.length w = 2 * nx).
    { intros a b Ha Hb H. unfold beside in H. apply in_map_iff in H as ((x, y) & <- & H). cbn [fst snd].
      rewrite app_length. rewrite (Ha x), (Hb y); [lia| |]; [eapply in_combine_r|eapply in_combine_l]; eauto. }
    assert (H1 : forall r, In r q1 -> List.length r = nx) by (intros r Hr; apply (proj1 (Forall_forall _ _) Hs r Hr)).
    assert (H2 : forall r, In r (map (@rev _) q1) -> List.length r = nx) by (intros r Hr; apply in_map_iff in Hr as (x & <- & Hr); rewrite rev_length; auto).
    assert (H3 : forall q, (forall r, In r q -> List.length r = nx) -> forall r, In r (adjust t q) -> List.length r = nx).
    { intros q Hq r Hr. unfold adjust in Hr. destruct t; auto. apply in_map_iff in Hr as (x & <- & Hr). rewrite map_length; auto. }
    assert (Hw : List.length w = 2 * nx).
    { apply in_app_or in Ew' as [Ew'|Ew']; revert Ew'; apply HI; auto.
      - intros r Hr. apply H2. now apply in_rev.
      - apply H3. intros r Hr. apply H1. now apply in_rev.
      - apply H3. exact H2. }
    rewrite remove_at_length; lia. }
  split; auto. apply Forall_forall. intros c Hc. apply In_nth_error in Hc as [j Hj].
  assert (Hj2 : j < 2 * nx - 1) by (rewrite <- HL'; apply nth_error_Some; congruence).
  destruct (HR j Hj2) as (col & Hcol & E). rewrite Hj in E. injection E as ->. rewrite map_length.
  apply (proj1 (Forall_forall _ _) Hcs). eapply nth_error_In; eauto.
Qed.
End Q.

Section F.
Context {T : Type} {NT : Num T} {LT : NumLaws T}.
Notation pyval := (pyval T).

(** set_contrast_parameters with a colour map only always succeeds *)
Definition recoloured (p : gprop T) (c : string) : gprop T :=
  with_colors (with_limits p (fst (limits_of p)) (snd (limits_of p))) c (PInt 11).
Lemma contrast_named (p : gprop T) c : set_contrast p None None (Some (PStr c)) None = (recoloured p c, Ok tt).
Proof.
  assert (H := contrast_default p). unfold set_contrast_default, set_contrast in *. unfold recoloured.
  destruct (set_limits p None None) as [q [[]|e]] eqn:E; [|discriminate].
  cbn [dflt string_v] in *. rewrite number_colors in *. injection H as H.
  destruct q as [n u g sh l a b cm nc mk]. destruct p as [n' u' g' sh' l' a' b' cm' nc' mk'].
  cbn [with_colors with_limits p_name p_unit p_params p_shape p_data p_vmin p_vmax p_mask] in *. inversion H; subst. reflexivity.
Qed.

Lemma volume3 a b c : volume [a; b; c] = a * b * c.
Proof. cbn [volume]. lia. Qed.

Theorem fill_ok (g : gparams T) (p : gprop T) t ny nx nr : p_shape p = [ny; nx; nr] -> List.length (p_data p) = volume (p_shape p) ->
  1 <= ny -> 1 <= nx -> shape3 g = [2 * ny - 1; 2 * nx - 1; nr] ->
  exists q, fill_quadrants g p t = Ok q /\
    p_name q = p_name p /\ p_unit q = p_unit p /\ p_params q = g /\ p_shape q = shape3 g /\ p_mask q = None /\
    List.length (p_data q) = volume (p_shape q) /\
    forall i j r, i < 2 * ny - 1 -> j < 2 * nx - 1 -> r < nr ->
      cell (2 * nx - 1) nr (p_data q) i j r =
      option_map (adjusted t ny nx i j) (cell nx nr (p_data p) (from_middle ny i) (from_middle nx j) r).
Proof.
  intros Hsh Hlen Hy Hx Hg. unfold fill_quadrants. rewrite Hsh, Hg. rewrite (proj2 (shape_eqb_spec _ _) eq_refl). cbn [negb].
  rewrite Hsh, volume3 in Hlen.
  set (l := flat (quadrants t ny nx (cube ny nx nr (p_data p)))).
  assert (Hrows := @cube_rows T ny nx nr (p_data p) Hlen).
  destruct (@quadrants_shape T NT t ny nx nr _ Hy Hx (cube_length _ _ _ _) Hrows) as [HL HS].
  assert (Hl : List.length l = (2 * ny - 1) * (2 * nx - 1) * nr).
  { unfold l. rewrite (@flat_length T (2 * nx - 1) nr _ HS), HL. reflexivity. }
  assert (HC : forall i j r, i < 2 * ny - 1 -> j < 2 * nx - 1 -> r < nr ->
      cell (2 * nx - 1) nr l i j r = option_map (adjusted t ny nx i j) (cell nx nr (p_data p) (from_middle ny i) (from_middle nx j) r)).
  { intros i j r Hi Hj Hr.
    destruct (@cube_cell T ny nx nr (p_data p) (from_middle ny i) (from_middle nx j) r Hlen) as (row & col & E1 & E2 & E3);
      [now apply from_middle_lt|now apply from_middle_lt|auto|].
    destruct (@quadrants_nth T NT t ny nx nr _ i j row col Hy Hx (cube_length _ _ _ _) Hrows Hi Hj E1 E2) as (row' & E4 & E5).
    unfold l. rewrite (@flat_cell T (2 * nx - 1) nr _ i j r row' _ HS E4 E5 Hj Hr). now rewrite nth_error_map, E3. }
  assert (HN : new_gprop (EIs (p_name p)) (EIs (p_unit p)) (PArr "float64" [2 * ny - 1; 2 * nx - 1; nr] (map (@SF T) l)) (EIs g)
    = Ok (fresh (p_name p) (p_unit p) g (map (@SF T) l))).
  { apply new_gprop_iff. eexists _, _, _, _. rewrite Hg. repeat split; reflexivity. }
  rewrite HN. cbn [bind]. destruct t.
  - rewrite contrast_named. eexists; split; [reflexivity|].
    cbn [recoloured fresh with_colors with_limits p_name p_unit p_params p_shape p_mask p_data].
    rewrite num_scal_SF, Hg, volume3. repeat (split; [reflexivity|]). split; auto.
  - eexists; split; [reflexivity|].
    cbn [fresh with_colors with_limits p_name p_unit p_params p_shape p_mask p_data].
    rewrite num_scal_SF, Hg, volume3. repeat (split; [reflexivity|]). split; auto.
Qed.

Theorem fill_mismatch (g : gparams T) (p : gprop T) t ny nx nr : p_shape p = [ny; nx; nr] ->
  shape3 g <> [2 * ny - 1; 2 * nx - 1; nr] -> fill_quadrants g p t = Err AttributeError.
Proof.
  intros Hsh Hg. unfold fill_quadrants. rewrite Hsh. destruct (shape_eqb (shape3 g) _) eqn:E; auto.
  apply shape_eqb_spec in E. contradiction.
Qed.

(** the diagnostic cube *)
Theorem diagnose_ok (g : gparams T) (p : gprop T) ny nx nr : p_shape p = [ny; nx; nr] -> List.length (p_data p) = volume (p_shape p) ->
  shape3 g = p_shape p -> List.length (g_rfa g) = nr -> 1 <= List.length (g_rf g) <= nr ->
  exists q, diagnose g p = Ok q /\ p_name q = DIAGNOSTIC_MAP /\ p_unit q = ECLIPSE_DURATION /\ p_params q = g /\ p_shape q = p_shape p /\ p_mask q = None /\
    List.length (p_data q) = volume (p_shape q) /\
    forall y x r d m e, y < ny -> x < nx ->
      cell nx nr (p_data p) y x r = Some d -> cell nx nr (p_data p) y x (List.length (g_rf g) - 1) = Some m ->
      nth_error (g_rfa g) r = Some e ->
      cell nx nr (p_data q) y x r = Some (n_sub (n_div d m) e).
Proof.
  intros Hsh Hlen Hg Ha Hk. unfold diagnose, diagnostic_values. rewrite Hsh in *. rewrite volume3 in Hlen.
  set (k := match List.length (g_rf g) with O => (nr - 1)%nat | S k => k end).
  assert (Hkk : k = List.length (g_rf g) - 1) by (unfold k; destruct (List.length (g_rf g)); lia).
  destruct (Nat.ltb_spec k nr); [|lia]. cbn [bind].
  set (F := fun col => map (fun de => n_sub (n_div (fst de) (nth k col n_nan)) (snd de)) (combine col (g_rfa g))).
  assert (HF := @chunk_sizes T (ny * nx) nr (p_data p) Hlen).
  assert (HF' : Forall (fun c => List.length c = nr) (map F (chunk_f (ny * nx) nr (p_data p)))).
  { apply Forall_forall. intros c Hc. apply in_map_iff in Hc as (c' & <- & Hc). unfold F. rewrite map_length, combine_length.
    rewrite (proj1 (Forall_forall _ _) HF c' Hc). lia. }
  assert (HN : new_gprop (EIs DIAGNOSTIC_MAP) (EIs ECLIPSE_DURATION) (PArr "float64" [ny; nx; nr] (map (@SF T) (List.concat (map F (chunk_f (ny * nx) nr (p_data p)))))) (EIs g)
    = Ok (fresh DIAGNOSTIC_MAP ECLIPSE_DURATION g (map (@SF T) (List.concat (map F (chunk_f (ny * nx) nr (p_data p))))))).
  { apply new_gprop_iff. eexists _, _, _, _. rewrite Hg. repeat split; reflexivity. }
  rewrite HN. eexists; split; [reflexivity|].
  cbn [fresh with_colors with_limits p_name p_unit p_params p_shape p_mask p_data]. rewrite num_scal_SF.
  repeat (split; [reflexivity|]). split; [exact Hg|]. split; [reflexivity|]. split.
  { rewrite Hg, volume3. rewrite (@concat_length T nr _ HF'), map_length, chunk_length. lia. }
  intros y x r d m e Hy Hx Hd Hm He.
  assert (Hr : r < nr) by (rewrite <- Ha; apply nth_error_Some; congruence).
  assert (Hi : y * nx + x < ny * nx) by nia.
  assert (HC := @chunk_nth T (ny * nx) nr (p_data p) _ Hi).
  set (c := firstn nr (skipn ((y * nx + x) * nr) (p_data p))) in *.
  assert (Hcd : nth_error c r = Some d) by (unfold c; rewrite nth_error_firstn', nth_error_skipn' by auto; exact Hd).
  assert (Hcm : nth_error c k = Some m) by (unfold c; rewrite nth_error_firstn', nth_error_skipn' by auto; rewrite Hkk; exact Hm).
  unfold cell. rewrite (@concat_nth T nr _ _ r (F c) HF'); auto.
  - unfold F. rewrite nth_error_map, (combine_nth_error _ _ _ Hcd He). cbn [option_map fst snd]. now rewrite (nth_error_nth c k n_nan Hcm).
  - rewrite nth_error_map, HC. reflexivity.
Qed.
End F.
