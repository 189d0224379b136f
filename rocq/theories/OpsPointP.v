(** Looking at one grid point. *)
From Coq Require Import ZArith Reals List Bool String Lia Permutation Lra.
From Verif Require Import Num NumP Py SpecNum Validate ValidateP Ring RingP RingSystem RingSystemP FS GridParams SpecGrid GridParamsP GridDiag GridDiagP Names GridProp SpecProp GridPropP GridGradP Geometry
  Build SpecBuild BuildP BuildQP Shallot BuildGP BuildGridP BuildCP AddLaws ShallotOps SpecOps OpsP OpsReadP OpsEditP.
Import ListNotations.
Set Implicit Arguments.
Local Open Scope list_scope.

Section O.
Context {T : Type} {NT : Num T} {LT : NumLaws T} {AL : AddLaws T} (E : env T).
Notation pyval := (pyval T).
Notation shallot := (shallot T).

Definition rd (s : shallot) (m b : bool) (p : gprop T) : gprop T := with_data p (hidden (p_data p) (hid s p m b)).
Definition rdg (m : bool) (g : ggrad T) : ggrad T := with_prop g (with_data (gg_prop g) (hidden (p_data (gg_prop g)) (fun i => m && marked (p_mask (gg_prop g)) i))).
Definition cubed (s : shallot) (m : bool) : shallot :=
  with_cubes s (rd s m true (s_dr s)) (rd s m true (s_inc s)) (rd s m true (s_tilt s)) (rd s m true (s_fx s)) (rd s m true (s_fy s)).
Definition settled (s : shallot) (m : bool) : shallot :=
  with_grads (with_dmap (cubed s m) (option_map (rd s m true) (s_dmap s))) (option_map (map (rdg m)) (s_grads s)) (s_fit s).
Definition peek (s : shallot) (m : bool) (p : gprop T) (i : nat) : T := nth i (p_data (rd s m true p)) n_nan.
Definition view (s : shallot) (m : bool) (y x r : nat) : point_data :=
  let i := place s y x r in let g := s_params s in
  mkPD (peek s m (s_dr s) i) (peek s m (s_inc s) i) (peek s m (s_tilt s) i) (nth x (g_dx g) n_nan) (nth y (g_dy g) n_nan) (nth r (g_rfa g) n_nan)
       (peek s m (s_fx s) i) (peek s m (s_fy s) i) (match s_dmap s with Some q => peek s m q i | None => n_nan end)
       (option_map (map (fun g => (num_of (gg_pos g), nth i (p_data (gg_prop (rdg m g))) n_nan))) (s_grads s)).

Definition in_range (s : shallot) (y x r : nat) : Prop :=
  y < List.length (g_dy (s_params s)) /\ x < List.length (g_dx (s_params s)) /\ r < List.length (g_rfa (s_params s)).
Lemma place_range (s : shallot) y x r : in_range s y x r -> place s y x r < points s.
Proof. intros (A & B & C). unfold place, points.
  revert A B C. generalize (List.length (g_dy (s_params s))) (List.length (g_dx (s_params s))) (List.length (g_rfa (s_params s))). intros a b c A B C.
  assert (X : y * b + x + 1 <= a * b) by nia. nia. Qed.

Lemma shape_of (s : shallot) : sinv s -> g_shape (s_params s) = (List.length (g_dy (s_params s)), List.length (g_dx (s_params s)), List.length (g_rfa (s_params s))).
Proof. intros H. destruct (i_cons H) as [[Hs _] _ _]. exact Hs. Qed.
Lemma shape3_of (s : shallot) : sinv s -> shape3 (s_params s) = [List.length (g_dy (s_params s)); List.length (g_dx (s_params s)); List.length (g_rfa (s_params s))].
Proof. intros H. unfold shape3. now rewrite shape_of. Qed.

Lemma entry_ok (s : shallot) l y x r : sinv s -> List.length l = points s -> in_range s y x r ->
  entry (shape3 (s_params s), l) (Z.of_nat y) (Z.of_nat x) (Z.of_nat r) = Ok (nth (place s y x r) l n_nan).
Proof.
  intros H Hl R. unfold entry. cbn [fst snd]. rewrite shape3_of by auto. destruct R as (A & B & C).
  rewrite !(proj2 (Z.ltb_lt _ _)) by lia. cbn [andb]. rewrite !Nat2Z.id.
  change ((y * Datatypes.length (g_dx (s_params s)) + x) * Datatypes.length (g_rfa (s_params s)) + r) with (place s y x r).
  assert (X : place s y x r < List.length l) by (rewrite Hl; apply place_range; split; auto).
  rewrite (nth_error_nth' l n_nan X). reflexivity.
Qed.
Lemma entry_out (s : shallot) (l : list T) y x r : sinv s -> (Z.of_nat (List.length (g_dy (s_params s))) <= y \/ Z.of_nat (List.length (g_dx (s_params s))) <= x \/ Z.of_nat (List.length (g_rfa (s_params s))) <= r)%Z ->
  entry (shape3 (s_params s), l) y x r = Err IndexError.
Proof.
  intros H R. unfold entry. cbn [fst snd]. rewrite shape3_of by auto.
  destruct (Z.ltb_spec y (Z.of_nat (List.length (g_dy (s_params s))))); [|reflexivity]. destruct (Z.ltb_spec x (Z.of_nat (List.length (g_dx (s_params s))))); [|reflexivity].
  destruct (Z.ltb_spec r (Z.of_nat (List.length (g_rfa (s_params s))))); [|reflexivity]. lia.
Qed.
Lemma item_ok (l : list T) i : i < List.length l -> item l (Z.of_nat i) = Ok (nth i l n_nan).
Proof. intros H. unfold item. rewrite Nat2Z.id, (nth_error_nth' l n_nan H). reflexivity. Qed.

Lemma mbind_ok A B (m : M (T := T) A) (f : A -> M B) s s1 a : m s = (s1, Ok a) -> mbind m f s = f a s1.
Proof. intros H. unfold mbind. now rewrite H. Qed.
Lemma mbind_err A B (m : M (T := T) A) (f : A -> M B) s s1 e : m s = (s1, Err e) -> mbind m f s = (s1, Err e).
Proof. intros H. unfold mbind. now rewrite H. Qed.
Lemma lift_step A B (r : res A) (f : A -> M (T := T) B) s a : r = Ok a -> mbind (lift r) f s = f a s.
Proof. intros ->. reflexivity. Qed.

Lemma rd_length s m b p : List.length (p_data (rd s m b p)) = List.length (p_data p).
Proof. apply hidden_length. Qed.
Lemma cube_points (s : shallot) p : sinv s -> cube_inv (s_params s) p -> List.length (p_data p) = points s.
Proof. intros H Hp. destruct (cube_shape Hp) as [_ ->]. now apply points_volume. Qed.

Lemma cube_got w (s : shallot) m : sinv s -> get_cube w (PBool m) (PBool true) s = (put_cube w s (rd s m true (the_cube w s)), Ok (shape3 (s_params s), p_data (rd s m true (the_cube w s)))).
Proof.
  intros H. rewrite get_cube_read. apply (@read_bool T NT LT AL s (the_cube w s) (put_cube w s)); auto; [apply H|intros; apply put_params|intros; now apply put_masks].
Qed.
Lemma sinv_rd w (s : shallot) m : sinv s -> sinv (put_cube w s (rd s m true (the_cube w s))).
Proof. intros H. apply sinv_put; auto. apply cube_data; [apply H|apply hidden_length]. Qed.

Lemma cube_step w (s : shallot) m y x r B (f : T -> M B) : sinv s -> in_range s y x r ->
  mbind (get_cube w (PBool m) (PBool true)) (fun d => mbind (lift (entry d (Z.of_nat y) (Z.of_nat x) (Z.of_nat r))) f) s =
  f (peek s m (the_cube w s) (place s y x r)) (put_cube w s (rd s m true (the_cube w s))).
Proof.
  intros H R. rewrite (@mbind_ok _ _ _ _ s _ _ (cube_got w m H)). apply lift_step. apply entry_ok; auto.
  rewrite rd_length. apply cube_points; auto. apply H.
Qed.

(** all the gradients are read *)
Lemma grads_read m y x r (s : shallot) : sinv s -> in_range s y x r ->
  point_gradients (Z.of_nat y) (Z.of_nat x) (Z.of_nat r) (PBool m) s =
  (with_grads s (option_map (map (rdg m)) (s_grads s)) (s_fit s), Ok (option_map (map (fun g => (num_of (gg_pos g), nth (place s y x r) (p_data (gg_prop (rdg m g))) n_nan))) (s_grads s))).
Proof.
  intros H R. unfold point_gradients. destruct (s_grads s) as [gs|] eqn:Eg; [|destruct s; cbn in *; subst; reflexivity]. cbn zeta.
  set (F := fun (g : ggrad T) (_ : unit) => match get_data (gg_prop g) (PBool m) with (p, Ok d) => _ | (p, Err e) => _ end).
  assert (K : each2 F gs (repeat tt (List.length gs)) = (map (rdg m) gs, Ok (map (fun g => (num_of (gg_pos g), nth (place s y x r) (p_data (gg_prop (rdg m g))) n_nan)) gs))).
  { assert (G := i_grads H Eg). clear Eg. induction G as [|g gs Hg G IH]; [reflexivity|]. cbn [List.length repeat each2 map].
    assert (X : F g tt = (rdg m g, Ok (num_of (gg_pos g), nth (place s y x r) (p_data (gg_prop (rdg m g))) n_nan))).
    { unfold F. rewrite get_data_hidden by apply Hg. destruct (cube_shape Hg) as [Hs Hl]. rewrite Hs, entry_ok; auto. rewrite hidden_length. now apply cube_points. }
    rewrite X, IH. reflexivity. }
  rewrite K. reflexivity.
Qed.

Lemma dmap_step (s : shallot) m y x r B (f : T -> M B) : sinv s -> in_range s y x r -> exists q, s_dmap s = Some q /\
  mbind (get_diagnostic_map (PBool m) (PBool true)) (fun d => mbind (lift (entry d (Z.of_nat y) (Z.of_nat x) (Z.of_nat r))) f) s =
  f (peek s m q (place s y x r)) (set_dmap s (rd s m true q)).
Proof.
  intros H R. destruct (i_dmap H) as (q & Hq & Hc). exists q. split; auto.
  rewrite (@mbind_ok _ _ _ _ s (set_dmap s (rd s m true q)) (shape3 (s_params s), p_data (rd s m true q))).
  - apply lift_step. apply entry_ok; auto. rewrite rd_length. now apply cube_points.
  - unfold get_diagnostic_map. rewrite Hq. apply (@read_bool T NT LT AL s q (set_dmap s)); auto.
Qed.

(** which indices are refused *)
Definition idx (n : nat) (v : pyval) : Prop := int_like v /\ (0 <= int_of v <= Z.of_nat n)%Z.
Lemma idx_ok n v : idx n v -> number v true (PInt 0) (PInt (Z.of_nat n)) false = Ok v.
Proof. intros [A B]. apply number_index. auto. Qed.
Lemma idx_err n v : ~ idx n v -> exists e, number v true (PInt 0) (PInt (Z.of_nat n)) false = Err e /\ (e = TypeError \/ e = ValueError) /\ (int_like v -> e = ValueError) /\ (~ int_like v -> e = TypeError).
Proof.
  intros H. assert (X := @index_number_err T NT v (Z.of_nat n + 1)). replace (Z.of_nat n + 1 - 1)%Z with (Z.of_nat n) in X by lia.
  rewrite X; [|intros [A B]; apply H; split; auto; rewrite zof_int in * by auto; lia]. destruct (int_like_dec v); eexists; split; [reflexivity| |reflexivity|]; repeat split; tauto.
Qed.

Theorem point_ok (s : shallot) vy vx vr m y x r : sinv s -> in_range s y x r ->
  int_like vy -> int_of vy = Z.of_nat y -> int_like vx -> int_of vx = Z.of_nat x -> int_like vr -> int_of vr = Z.of_nat r ->
  get_grid_point_data vy vx vr (PBool m) s = (settled s m, Ok (view s m y x r)).
Proof.
  intros H R Iy Ey Ix Ex Ir Er. unfold get_grid_point_data. rewrite shape_of by auto. assert (R' := R). destruct R' as (A & B & C).
  rewrite (@lift_step _ _ _ _ s vy) by (apply idx_ok; split; auto; lia). rewrite (@lift_step _ _ _ _ s vx) by (apply idx_ok; split; auto; lia).
  rewrite (@lift_step _ _ _ _ s vr) by (apply idx_ok; split; auto; lia). cbn zeta. rewrite Ey, Ex, Er.
  etransitivity; [apply (@cube_step WRadius s); auto|]. set (s1 := put_cube WRadius s _). assert (H1 : sinv s1) by now apply sinv_rd.
  etransitivity; [apply (@cube_step WInclination s1); auto|]. set (s2 := put_cube WInclination s1 _). assert (H2 : sinv s2) by now apply sinv_rd.
  etransitivity; [apply (@cube_step WTilt s2); auto|]. set (s3 := put_cube WTilt s2 _). assert (H3 : sinv s3) by now apply sinv_rd.
  etransitivity; [apply lift_step, item_ok; auto|]. etransitivity; [apply lift_step, item_ok; auto|]. etransitivity; [apply lift_step, item_ok; auto|].
  etransitivity; [apply (@cube_step WFx s3); auto|]. set (s4 := put_cube WFx s3 _). assert (H4 : sinv s4) by now apply sinv_rd.
  etransitivity; [apply (@cube_step WFy s4); auto|]. set (s5 := put_cube WFy s4 _). assert (H5 : sinv s5) by now apply sinv_rd.
  match goal with |- mbind _ (fun d => mbind _ ?f) s5 = _ => destruct (@dmap_step s5 m y x r _ f H5 R) as (q & Hq & Hd) end.
  etransitivity; [exact Hd|]. clear Hd. set (s6 := set_dmap s5 _). assert (H6 : sinv s6) by (apply sinv_dmap; auto; apply cube_data; [|apply hidden_length]; destruct (i_dmap H5) as (q' & X & Y); congruence).
  etransitivity; [apply mbind_ok, (@grads_read m y x r s6); auto|]. unfold ret. unfold view. change (s_dmap s5) with (s_dmap s) in Hq. rewrite Hq.
  unfold settled. rewrite Hq. reflexivity.
Qed.
Lemma nth_nth_error (l : list T) i : i < List.length l -> nth_error l i = Some (nth i l n_nan).
Proof. intros H. apply nth_error_nth'; auto. Qed.
Lemma peek_seen (s : shallot) m p i : i < List.length (p_data p) -> seen s m p i (peek s m p i).
Proof.
  intros Hi. unfold peek, rd, seen. cbn [with_data p_data]. assert (X := hidden_nth (p_data p) (hid s p m true) i (nth_nth_error _ Hi)).
  rewrite (nth_error_nth _ _ n_nan X). unfold hid. cbn [andb]. destruct (marked (p_mask p) i) eqn:Em; cbn [orb]; [left; auto|].
  destruct m; cbn [andb].
  - destruct (masked_b s i) eqn:Eb; [left; split; auto; right; split; auto; now apply masked_at_dec|]. right. split; auto. split; [|now apply nth_nth_error].
    intros [_ X']. apply masked_at_dec in X'. unfold masked_b in Eb. congruence.
  - right. split; auto. split; [intros [? _]; discriminate|now apply nth_nth_error].
Qed.
Lemma view_describes (s : shallot) m y x r : sinv s -> in_range s y x r -> describes s m y x r (view s m y x r).
Proof.
  intros H R. assert (P := place_range R). assert (K : forall w, place s y x r < List.length (p_data (the_cube w s))) by (intros w; rewrite (cube_points H (i_cubes H w)); auto).
  assert (R' := R). destruct R' as (A & B & C). destruct (i_dmap H) as (q & Hq & Hc). unfold describes, view.
  cbn [pd_dr pd_inc pd_tilt pd_dx pd_dy pd_rf pd_fx pd_fy pd_diag pd_grads].
  split; [apply peek_seen, (K WRadius)|]. split; [apply peek_seen, (K WInclination)|]. split; [apply peek_seen, (K WTilt)|]. split; [apply peek_seen, (K WFx)|]. split; [apply peek_seen, (K WFy)|].
  split; [exists q; rewrite Hq; split; auto; apply peek_seen; rewrite (cube_points H Hc); auto|].
  do 3 (split; [now apply nth_nth_error|]). destruct (s_grads s) as [gs|] eqn:Eg; [|exact I]. cbn [option_map].
  assert (G := i_grads H Eg). clear Eg. induction G as [|g gs Hg G IH]; cbn [map]; constructor; auto. cbn [fst snd]. split; auto.
  assert (Hi : place s y x r < List.length (p_data (gg_prop g))) by (rewrite (cube_points H Hg); auto).
  unfold rdg, with_prop. cbn [gg_prop with_data p_data]. rewrite (nth_error_nth _ _ n_nan (hidden_nth _ _ _ (nth_nth_error _ Hi))).
  destruct (m && marked _ _); auto. now apply nth_nth_error.
Qed.

(** C52 *)
Theorem point_in (s : shallot) vy vx vr m : sinv s -> int_like vy -> int_like vx -> int_like vr ->
  (0 <= int_of vy < Z.of_nat (List.length (g_dy (s_params s))))%Z -> (0 <= int_of vx < Z.of_nat (List.length (g_dx (s_params s))))%Z -> (0 <= int_of vr < Z.of_nat (List.length (g_rfa (s_params s))))%Z ->
  exists s' d, get_grid_point_data vy vx vr (PBool m) s = (s', Ok d) /\ describes s m (Z.to_nat (int_of vy)) (Z.to_nat (int_of vx)) (Z.to_nat (int_of vr)) d.
Proof.
  intros H Iy Ix Ir Ry Rx Rr. assert (R : in_range s (Z.to_nat (int_of vy)) (Z.to_nat (int_of vx)) (Z.to_nat (int_of vr))) by (split; [|split]; lia).
  do 2 eexists. split; [apply point_ok with (y := Z.to_nat (int_of vy)) (x := Z.to_nat (int_of vx)) (r := Z.to_nat (int_of vr)); auto; lia|]. now apply view_describes.
Qed.
Theorem point_refused (s : shallot) vy vx vr m : sinv s ->
  ~ (idx (List.length (g_dy (s_params s))) vy /\ idx (List.length (g_dx (s_params s))) vx /\ idx (List.length (g_rfa (s_params s))) vr) ->
  exists e, get_grid_point_data vy vx vr m s = (s, Err e) /\ (e = TypeError \/ e = ValueError) /\ ((int_like vy /\ int_like vx /\ int_like vr) -> e = ValueError).
Proof.
  intros H N. unfold get_grid_point_data. rewrite shape_of by auto.
  assert (D : forall n v, idx n v \/ ~ idx n v) by (intros n v; destruct (number v true (PInt 0) (PInt (Z.of_nat n)) false) as [w|e] eqn:Ee; [left; apply number_index in Ee; split; tauto|right; intros X; rewrite (idx_ok X) in Ee; discriminate]).
  destruct (D (List.length (g_dy (s_params s))) vy) as [Dy|Dy].
  2:{ destruct (idx_err Dy) as (e & Ee & K1 & K2 & _). exists e. split; [apply mbind_err; unfold lift; now rewrite Ee|]. tauto. }
  rewrite (@lift_step _ _ _ _ s vy) by now apply idx_ok.
  destruct (D (List.length (g_dx (s_params s))) vx) as [Dx|Dx].
  2:{ destruct (idx_err Dx) as (e & Ee & K1 & K2 & _). exists e. split; [apply mbind_err; unfold lift; now rewrite Ee|]. tauto. }
  rewrite (@lift_step _ _ _ _ s vx) by now apply idx_ok.
  destruct (D (List.length (g_rfa (s_params s))) vr) as [Dr|Dr]; [tauto|].
  destruct (idx_err Dr) as (e & Ee & K1 & K2 & _). exists e. split; [apply mbind_err; unfold lift; now rewrite Ee|]. tauto.
Qed.
Theorem point_edge (s : shallot) vy vx vr m : sinv s ->
  idx (List.length (g_dy (s_params s))) vy -> idx (List.length (g_dx (s_params s))) vx -> idx (List.length (g_rfa (s_params s))) vr ->
  (int_of vy = Z.of_nat (List.length (g_dy (s_params s))) \/ int_of vx = Z.of_nat (List.length (g_dx (s_params s))) \/ int_of vr = Z.of_nat (List.length (g_rfa (s_params s)))) ->
  exists s', get_grid_point_data vy vx vr (PBool m) s = (s', Err IndexError).
Proof.
  intros H Iy Ix Ir Re. unfold get_grid_point_data. rewrite shape_of by auto.
  rewrite (@lift_step _ _ _ _ s vy) by now apply idx_ok. rewrite (@lift_step _ _ _ _ s vx) by now apply idx_ok. rewrite (@lift_step _ _ _ _ s vr) by now apply idx_ok. cbn zeta.
  eexists. etransitivity; [apply mbind_ok, (@cube_got WRadius s m H)|]. apply mbind_err. unfold lift. rewrite entry_out; auto. lia.
Qed.
End O.
