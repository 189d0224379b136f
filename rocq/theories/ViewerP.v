(** Lemmas and theorems about the viewer. *)
From Coq Require Import ZArith Reals List Bool String Lia Lra.
From Verif Require Import Num NumP Py Validate SpecNum ValidateP Ring RingP RingSystem FS FSP GridParams GridDiag SpecGrid GridParamsP GridParamsXP GridDiagP GridCrashP
  Names GridProp SpecProp GridPropP GridPropExP Viewer SpecViewer.
Import ListNotations.
Set Implicit Arguments.

Section V.
Context {T : Type} {NT : Num T}.

(** *** moving *)
Lemma onscroll_index (v : viewer T) b : v_frozen v = false -> (0 <= v_index v < num_slices v)%Z ->
  v_index (onscroll v b) = clamp_move (num_slices v) (v_index v) b.
Proof.
  intros Hf Hr. unfold onscroll, clamp_move, num_slices in *. rewrite Hf. cbn [update with_index v_index].
  destruct b; cbn [andb negb].
  - destruct (Z.ltb_spec (v_index v) (Z.of_nat (List.length (v_slices v)) - 1)); lia.
  - destruct (Z.ltb_spec 0 (v_index v)); lia.
Qed.
Lemma onscroll_frozen (v : viewer T) b : v_frozen v = true -> onscroll v b = v.
Proof. intros H. unfold onscroll. rewrite H. reflexivity. Qed.
Lemma scrolls_frozen l : forall v : viewer T, v_frozen v = true -> scrolls v l = v.
Proof. induction l as [|b l IH]; intros v H; auto. cbn. rewrite onscroll_frozen by exact H. apply IH. exact H. Qed.
Lemma onscroll_frame (v : viewer T) b : let w := onscroll v b in
  v_axis w = v_axis v /\ v_shape w = v_shape v /\ v_data w = v_data v /\ v_slices w = v_slices v /\ v_coords w = v_coords v /\
  v_tol w = v_tol v /\ v_frozen w = v_frozen v.
Proof. cbn zeta. unfold onscroll. destruct (v_frozen v) eqn:E; cbn; rewrite ?E; auto 8. Qed.
Lemma clamp_range n i b : (1 <= n)%Z -> (0 <= clamp_move n i b < n)%Z.
Proof. unfold clamp_move. lia. Qed.
Lemma scrolls_index l : forall v : viewer T, v_frozen v = false -> (0 <= v_index v < num_slices v)%Z ->
  v_index (scrolls v l) = clamp_moves (num_slices v) (v_index v) l.
Proof.
  induction l as [|b l IH]; intros v Hf Hr; auto. cbn [scrolls fold_left clamp_moves].
  destruct (onscroll_frame v b) as (_ & _ & _ & E4 & _ & _ & E7).
  assert (N : num_slices (onscroll v b) = num_slices v) by (unfold num_slices; rewrite E4; reflexivity).
  change (fold_left onscroll l (onscroll v b)) with (scrolls (onscroll v b) l). rewrite IH; rewrite ?N, ?onscroll_index; auto.
  - congruence.
  - apply clamp_range. lia.
Qed.
(** k events upwards, k downwards *)
Lemma clamp_up n k : forall i, (0 <= i < n)%Z -> clamp_moves n i (repeat true k) = Z.min (n - 1) (i + Z.of_nat k).
Proof.
  induction k as [|k IH]; intros i H; cbn [repeat clamp_moves fold_left]; [lia|].
  change (fold_left (clamp_move n) (repeat true k) (clamp_move n i true)) with (clamp_moves n (clamp_move n i true) (repeat true k)).
  rewrite IH; [|apply clamp_range; lia]. unfold clamp_move. lia.
Qed.
Lemma clamp_down n k : forall i, (0 <= i < n)%Z -> clamp_moves n i (repeat false k) = Z.max 0 (i - Z.of_nat k).
Proof.
  induction k as [|k IH]; intros i H; cbn [repeat clamp_moves fold_left]; [lia|].
  change (fold_left (clamp_move n) (repeat false k) (clamp_move n i false)) with (clamp_moves n (clamp_move n i false) (repeat false k)).
  rewrite IH; [|apply clamp_range; lia]. unfold clamp_move. lia.
Qed.

(** *** the image *)
Lemma nth_concat_rows {A} (f : nat -> list A) b c j k : (forall j, List.length (f j) = c) -> j < b -> k < c ->
  nth_error (List.concat (map f (seq 0 b))) (j * c + k) = nth_error (f j) k.
Proof.
  intros Hl. assert (G : forall n s j, j < n -> k < c -> nth_error (List.concat (map f (seq s n))) (j * c + k) = nth_error (f (s + j)) k).
  { induction n as [|n IH]; intros s i Hi Hk; [lia|]. cbn [seq map List.concat]. destruct i as [|i].
    - rewrite nth_error_app1 by (rewrite Hl; lia). cbn. f_equal. f_equal. lia.
    - rewrite nth_error_app2 by (rewrite Hl; lia). rewrite Hl. replace (S i * c + k - c) with (i * c + k) by lia. rewrite IH by lia. f_equal. f_equal. lia. }
  intros Hj Hk. rewrite (G b 0 j Hj Hk). reflexivity.
Qed.
Lemma concat_rows_length {A} (f : nat -> list A) b c : (forall j, List.length (f j) = c) -> forall s, List.length (List.concat (map f (seq s b))) = b * c.
Proof. intros Hl. induction b as [|b IH]; intros s; cbn; auto. rewrite app_length, Hl, IH. reflexivity. Qed.
Lemma nth_map_seq {A} (f : nat -> A) c k : k < c -> nth_error (map f (seq 0 c)) k = Some (f k).
Proof.
  intros H. rewrite nth_error_map. rewrite (nth_error_nth' _ 0) by (rewrite seq_length; auto). rewrite seq_nth by auto. reflexivity.
Qed.
Lemma at3_nth a b c (l : list T) i j k : List.length l = volume [a; b; c] -> i < a -> j < b -> k < c ->
  nth_error l ((i * b + j) * c + k) = Some (at3 [a; b; c] l i j k).
Proof.
  intros Hl Hi Hj Hk. unfold at3. apply nth_error_nth'. rewrite Hl. cbn. rewrite Nat.mul_1_r.
  assert (i * b + j < a * b) by nia. nia.
Qed.
(** slice [i] of a cube *)
Theorem take_spec a b c (l : list T) i : List.length l = volume [a; b; c] ->
  (i < a -> List.length (take 0 [a; b; c] l i) = b * c /\ forall j k, j < b -> k < c ->
     nth_error (take 0 [a; b; c] l i) (j * c + k) = nth_error l ((i * b + j) * c + k)) /\
  (i < b -> List.length (take 1 [a; b; c] l i) = a * c /\ forall j k, j < a -> k < c ->
     nth_error (take 1 [a; b; c] l i) (j * c + k) = nth_error l ((j * b + i) * c + k)) /\
  (i < c -> List.length (take 2 [a; b; c] l i) = a * b /\ forall j k, j < a -> k < b ->
     nth_error (take 2 [a; b; c] l i) (j * b + k) = nth_error l ((j * b + k) * c + i)).
Proof.
  intros Hl. unfold take. repeat split.
  - apply concat_rows_length. intros. rewrite map_length, seq_length. reflexivity.
  - intros j k Hj Hk. rewrite (@nth_concat_rows T (fun j => map (fun k => at3 [a; b; c] l i j k) (seq 0 c)) b c j k); auto; [|intros; rewrite map_length, seq_length; reflexivity].
    rewrite nth_map_seq by auto. rewrite at3_nth with (a := a); auto.
  - apply concat_rows_length. intros. rewrite map_length, seq_length. reflexivity.
  - intros j k Hj Hk. rewrite (@nth_concat_rows T (fun j => map (fun k => at3 [a; b; c] l j i k) (seq 0 c)) a c j k); auto; [|intros; rewrite map_length, seq_length; reflexivity].
    rewrite nth_map_seq by auto. rewrite at3_nth with (a := a); auto.
  - apply concat_rows_length. intros. rewrite map_length, seq_length. reflexivity.
  - intros j k Hj Hk. rewrite (@nth_concat_rows T (fun j => map (fun k => at3 [a; b; c] l j k i) (seq 0 b)) a b j k); auto; [|intros; rewrite map_length, seq_length; reflexivity].
    rewrite nth_map_seq by auto. rewrite at3_nth with (a := a); auto.
Qed.

(** *** points *)
Lemma update_shown (v : viewer T) l : v_coords v = Some l ->
  v_shown (update v) = match points_at v (v_index v) with [] => [] | p => v_shown v ++ p end.
Proof. intros H. unfold update. rewrite H. reflexivity. Qed.
Lemma points_frame (v w : viewer T) i : v_axis w = v_axis v -> v_slices w = v_slices v -> v_coords w = v_coords v -> v_tol w = v_tol v ->
  points_at w i = points_at v i.
Proof. intros A B C D. unfold points_at. rewrite A, B, C, D. reflexivity. Qed.

Lemma onscroll_shown (v : viewer T) b l : v_frozen v = false -> (0 <= v_index v < num_slices v)%Z -> v_coords v = Some l ->
  v_shown (onscroll v b) = match points_at v (clamp_move (num_slices v) (v_index v) b) with [] => [] | p => v_shown v ++ p end.
Proof.
  intros Hf Hr Hc. assert (E := onscroll_index v b Hf Hr). unfold onscroll in *. rewrite Hf in *.
  cbn [update with_index v_index] in E. rewrite E. erewrite update_shown by (cbn [with_index v_coords]; exact Hc).
  cbn [with_index v_index v_shown]. erewrite points_frame; reflexivity.
Qed.

Lemma since_step {P} (pts : Z -> list P) vis shown i : since_empty pts vis shown ->
  since_empty pts (vis ++ [i]) (match pts i with [] => [] | p => shown ++ p end).
Proof.
  intros (l1 & l2 & -> & H2 & H1 & ->). destruct (pts i) as [|p l] eqn:E.
  - exists ((l1 ++ l2) ++ [i]), []. split; [rewrite app_nil_r; reflexivity|]. split; [intros ? []|]. split; [right; exists (l1 ++ l2), i; auto|reflexivity].
  - exists l1, (l2 ++ [i]). split; [rewrite app_assoc; reflexivity|]. split.
    + intros j Hj. apply in_app_or in Hj. destruct Hj as [Hj|[<-|[]]]; auto. congruence.
    + split; auto. rewrite map_app, concat_app. cbn. rewrite E, app_nil_r. reflexivity.
Qed.
(** the history with [vis0] before the current slice *)
Lemma scrolls_shown_gen l : forall (v : viewer T) vis0 co, v_frozen v = false -> (0 <= v_index v < num_slices v)%Z -> v_coords v = Some co ->
  since_empty (points_at v) (vis0 ++ [v_index v]) (v_shown v) ->
  since_empty (points_at v) (vis0 ++ visited (num_slices v) (v_index v) l) (v_shown (scrolls v l)).
Proof.
  induction l as [|b l IH]; intros v vis0 co Hf Hr Hc Hs; auto. cbn [visited scrolls fold_left].
  destruct (onscroll_frame v b) as (E1 & _ & _ & E4 & E5 & E6 & E7).
  assert (N : num_slices (onscroll v b) = num_slices v) by (unfold num_slices; rewrite E4; reflexivity).
  assert (Ix := onscroll_index v b Hf Hr).
  assert (Pt : forall i, points_at (onscroll v b) i = points_at v i) by (intros; apply points_frame; auto).
  assert (Hs' := @since_step _ (points_at v) _ _ (clamp_move (num_slices v) (v_index v) b) Hs).
  rewrite <- (onscroll_shown _ b Hf Hr Hc) in Hs'.
  assert (Q : since_empty (points_at (onscroll v b)) ((vis0 ++ [v_index v]) ++ [v_index (onscroll v b)]) (v_shown (onscroll v b))).
  { rewrite Ix. destruct Hs' as (l1 & l2 & A & B & C & D). exists l1, l2. split; auto. split; [intros; rewrite Pt; auto|].
    split; [destruct C as [C|(k & i & C1 & C2)]; [auto|right; exists k, i; rewrite Pt; auto]|]. rewrite D. f_equal. apply map_ext. intros; symmetry; apply Pt. }
  change (fold_left onscroll l (onscroll v b)) with (scrolls (onscroll v b) l).
  assert (R := IH (onscroll v b) (vis0 ++ [v_index v]) co (eq_trans E7 Hf) ltac:(rewrite Ix, N; apply clamp_range; lia) (eq_trans E5 Hc) Q).
  rewrite N, Ix, <- app_assoc in R. cbn [app] in R.
  destruct R as (l1 & l2 & A & B & C & D). exists l1, l2. split; auto. split; [intros; rewrite <- Pt; auto|].
  split; [destruct C as [C|(k & i & C1 & C2)]; [auto|right; exists k, i; rewrite <- Pt; auto]|]. rewrite D. f_equal. apply map_ext. intros; apply Pt.
Qed.
End V.

Section W.
Context {T : Type} {NT : Num T} {LT : NumLaws T}.

(** *** the constructor *)
Definition co_ok (co : coords T) : Prop :=
  match co with CoNone => True | CoOther => False | CoList l => forall c, In c l -> List.length c = 3 end.
Definition co_val (co : coords T) : option (list (list T)) := match co with CoList l => Some l | _ => None end.
Definition first_view (p : gprop T) (a : nat) (i : Z) (co : option (list (list T))) : viewer T :=
  update (mkV a (p_shape p) (p_data p) (vector_at (p_params p) a) i co
    (n_div (n_abs (n_sub (nth 1 (vector_at (p_params p) a) n_nan) (nth 0 (vector_at (p_params p) a) n_nan))) (n_ofZ 3)) false [] []).

Lemma read_params (p : gprop T) v : p_params (fst (get_data p v)) = p_params p /\ p_shape (fst (get_data p v)) = p_shape p.
Proof.
  unfold get_data. destruct (boolean_v v); auto. destruct (if a then p_mask p else None); auto. destruct (_ && _); auto.
Qed.
Lemma read_ok (p : gprop T) b : preach p -> exists p', get_data p (PBool b) = (p', Ok (p_shape p', p_data p')) /\ preach p'.
Proof.
  intros Hp. assert (Hp' : preach (fst (get_data p (PBool b)))) by (apply (@pr_op T NT p (PRead (PBool b))); [exact I|auto]).
  destruct b.
  - destruct (masked_read Hp) as (l & E & _). rewrite E in *. exists (with_data p l). auto.
  - rewrite (proj1 (unmasked_read p)) in *. eauto.
Qed.
Lemma forallb_len3 (l : list (list T)) : forallb (fun c => Nat.eqb (List.length c) 3) l = true <-> forall c, In c l -> List.length c = 3.
Proof. rewrite forallb_forall. split; intros H c Hc; specialize (H c Hc); [apply Nat.eqb_eq; auto|apply Nat.eqb_eq; auto]. Qed.
Lemma int_of_index n (v : pyval T) : index_ok n v -> int_of v = zof v.
Proof. intros [H _]. apply int_zof; auto. Qed.

Theorem new_viewer_iff ax axis (p : gprop T) masked index frozen co p' v : preach p ->
  new_viewer ax axis (EIs p) masked index frozen co = (p', Ok v) <->
  ax = EIs tt /\ plain_index 3 axis /\
  let a := Z.to_nat (zof axis) in let n := Z.of_nat (List.length (vector_at (p_params p) a)) in
  exists b fr, masked = PBool b /\ (forall i, index = Some i -> plain_index n i) /\ (frozen = None /\ fr = false \/ frozen = Some (PBool fr)) /\
    co_ok co /\ (2 <= n)%Z /\ p' = Some (fst (get_data p (PBool b))) /\
    v = with_frozen (first_view (fst (get_data p (PBool b))) a (match index with Some i => zof i | None => n / 2 end)%Z (co_val co)) fr.
Proof.
  intros Hp. cbn zeta. unfold new_viewer. change (PInt 2 : pyval T) with (PInt (3 - 1) : pyval T).
  split.
  - destruct (number axis true (PInt 0) (PInt (3 - 1)) false) as [ax'|] eqn:Ea; [|discriminate].
    apply index_number_inv in Ea. destruct Ea as [-> Ia]. destruct ax as [[]|]; cbn [class_arg]; [|discriminate].
    destruct (get_data p masked) as [q r] eqn:Eg. intros H. inversion H as [[Hq Hv]]. clear H. subst p'.
    assert (Rp := read_params p masked). rewrite Eg in Rp. cbn [fst] in Rp. destruct Rp as [Rp1 Rp2].
    destruct r as [d|]; cbn [bind] in Hv; [|discriminate].
    assert (exists b, masked = PBool b) as [b ->].
    { destruct masked; try (unfold get_data in Eg; cbn [boolean_v] in Eg; discriminate). eauto. }
    destruct (read_ok b Hp) as (q' & Eq & Hq'). rewrite Eg in Eq. inversion Eq; subst q' d. clear Eq. cbn [fst snd] in Hv.
    rewrite Rp1 in Hv. rewrite (int_of_index Ia) in Hv. set (sl := vector_at (p_params p) (Z.to_nat (zof axis))) in *.
    destruct (number _ true _ _ _) as [ix|] eqn:Ei in Hv; cbn [bind] in Hv; [|discriminate]. apply index_number_inv in Ei. destruct Ei as [-> Ii].
    destruct co as [|l|]; cbn [bind] in Hv; [| |discriminate].
    + destruct sl as [|x0 [|x1 sl']] eqn:Es; cbn [bind] in Hv; try discriminate.
      destruct (is_bool_v _ || is_bool_v axis) eqn:Eb; [discriminate|]. apply orb_false_elim in Eb. destruct Eb as [Eb1 Eb2].
      split; auto. split; [split; auto|]. rewrite (int_of_index Ii) in Hv.
      assert (X : exists fr, (frozen = None /\ fr = false \/ frozen = Some (PBool fr)) /\
        v = with_frozen (first_view q (Z.to_nat (zof axis)) (zof (dflt (PInt (Z.of_nat (List.length (x0 :: x1 :: sl')) / 2)) index)) (co_val CoNone)) fr).
      { destruct frozen as [[]|]; cbn [boolean_v bind] in Hv; try discriminate; inversion Hv; unfold first_view; rewrite Rp1; fold sl; rewrite Es; eexists; split; auto; reflexivity. }
      destruct X as (fr & X1 & X2). exists b, fr. split; auto. split; [intros i ->; split; auto|]. split; [exact X1|]. split; [exact I|].
      split; [cbn [List.length]; lia|]. rewrite Eg. split; [reflexivity|]. rewrite X2. cbn [fst]. destruct index; reflexivity.
    + destruct (forallb _ l) eqn:El; cbn [bind] in Hv; [|discriminate].
      destruct sl as [|x0 [|x1 sl']] eqn:Es; cbn [bind] in Hv; try discriminate.
      destruct (is_bool_v _ || is_bool_v axis) eqn:Eb; [discriminate|]. apply orb_false_elim in Eb. destruct Eb as [Eb1 Eb2].
      split; auto. split; [split; auto|]. rewrite (int_of_index Ii) in Hv.
      assert (X : exists fr, (frozen = None /\ fr = false \/ frozen = Some (PBool fr)) /\
        v = with_frozen (first_view q (Z.to_nat (zof axis)) (zof (dflt (PInt (Z.of_nat (List.length (x0 :: x1 :: sl')) / 2)) index)) (co_val (CoList l))) fr).
      { destruct frozen as [[]|]; cbn [boolean_v bind] in Hv; try discriminate; inversion Hv; unfold first_view; rewrite Rp1; fold sl; rewrite Es; eexists; split; auto; reflexivity. }
      destruct X as (fr & X1 & X2). exists b, fr. split; auto. split; [intros i ->; split; auto|]. split; [exact X1|]. split; [exact (proj1 (forallb_len3 l) El)|].
      split; [cbn [List.length]; lia|]. rewrite Eg. split; [reflexivity|]. rewrite X2. cbn [fst]. destruct index; reflexivity.
  - intros (-> & [Ia Na] & b & fr & -> & Hi & Hf & Hc & Hn & -> & ->). rewrite (index_number Ia). cbn [class_arg].
    destruct (read_ok b Hp) as (q & Eg & Hq). assert (Rp := read_params p (PBool b)). rewrite Eg in *. cbn [fst] in *. destruct Rp as [Rp1 Rp2].
    f_equal. cbn [bind fst snd]. rewrite Rp1, (int_of_index Ia). set (sl := vector_at (p_params p) (Z.to_nat (zof axis))) in *.
    set (n := Z.of_nat (List.length sl)) in *.
    assert (Ii : plain_index n (dflt (PInt (n / 2)) index)).
    { destruct index as [i|]; cbn [dflt]; [apply Hi; auto|]. split; [|reflexivity]. split; [constructor|]. cbn [zof]. split; [apply Z.div_pos; lia|]. apply Z.div_lt_upper_bound; lia. }
    destruct Ii as [Ii Bi]. rewrite (index_number Ii). cbn [bind].
    assert (Cc : (match co with CoNone => Ok None | CoList l => if forallb (fun c => Nat.eqb (List.length c) 3) l then Ok (Some l) else Err ValueError | CoOther => Err TypeError end) = Ok (co_val co)).
    { destruct co as [|l|]; auto; [|destruct Hc]. rewrite (proj2 (forallb_len3 l) Hc). reflexivity. }
    rewrite Cc. cbn [bind]. unfold first_view. rewrite Rp1. fold sl.
    destruct sl as [|x0 [|x1 sl']]; [cbn in n; lia|cbn in n; lia|]. cbn [bind nth]. rewrite Bi, Na. cbn [orb]. rewrite (int_of_index Ii).
    destruct Hf as [[-> ->] | ->]; cbn [boolean_v bind]; destruct index; reflexivity.
Qed.

(** *** reachable viewers *)
Definition dim (a : nat) (sh : list nat) : nat := nth a sh 0.
Definition view_inv (v : viewer T) : Prop :=
  (0 <= v_index v < num_slices v)%Z /\ v_axis v < 3 /\ (exists a b c, v_shape v = [a; b; c]) /\ List.length (v_data v) = volume (v_shape v) /\
  List.length (v_slices v) = dim (v_axis v) (v_shape v) /\ v_image v = take (v_axis v) (v_shape v) (v_data v) (Z.to_nat (v_index v)) /\
  (2 <= num_slices v)%Z.

Lemma new_view_inv ax axis (p : gprop T) masked index frozen co p' v : preach p -> reachable (p_params p) ->
  new_viewer ax axis (EIs p) masked index frozen co = (p', Ok v) -> view_inv v.
Proof.
  intros Hp Hr H. apply new_viewer_iff in H; auto. destruct H as (_ & [[Ia1 Ia2] _] & b & fr & -> & Hi & _ & _ & Hn & _ & ->).
  destruct (read_ok b Hp) as (q & E & Hq). assert (Rp := read_params p (PBool b)). rewrite E in *. cbn [fst] in *. destruct Rp as [Rp1 Rp2].
  destruct (reach_shapes Hq) as (S1 & S2 & _). destruct (reachable_consistent Hr) as [C1 _].
  assert (Sh : p_shape q = [List.length (g_dy (p_params p)); List.length (g_dx (p_params p)); List.length (g_rfa (p_params p))]).
  { rewrite S1, Rp1. unfold shape3. rewrite C1. reflexivity. }
  unfold view_inv, first_view, with_frozen, num_slices. cbn [update v_index v_axis v_shape v_data v_slices v_image]. rewrite Rp1.
  set (sl := vector_at (p_params p) (Z.to_nat (zof axis))) in *. set (n := Z.of_nat (List.length sl)) in *.
  split. { destruct index as [i|]; [destruct (Hi i eq_refl) as [[_ ?] _]; lia|]. split; [apply Z.div_pos; lia|apply Z.div_lt_upper_bound; lia]. }
  split; [lia|]. split; [eauto|]. split; [exact S2|]. split; [|split; [reflexivity|exact Hn]].
  rewrite Sh. unfold sl, dim. assert (Q : Z.to_nat (zof axis) = 0 \/ Z.to_nat (zof axis) = 1 \/ Z.to_nat (zof axis) = 2) by lia.
  destruct Q as [-> | [-> | ->]]; reflexivity.
Qed.
Lemma scroll_inv (v : viewer T) b : view_inv v -> view_inv (onscroll v b).
Proof.
  intros H. assert (H' := H). destruct H' as (A1 & A2 & A3 & A4 & A5 & A6 & A7). destruct (v_frozen v) eqn:Ef.
  - rewrite onscroll_frozen; auto.
  - assert (E := onscroll_index v b Ef A1). destruct (onscroll_frame v b) as (E1 & E2 & E3 & E4 & _). unfold view_inv, num_slices in *.
    rewrite E, E1, E2, E3, E4. split; [apply clamp_range; lia|]. split; auto. split; auto. split; auto. split; auto. split; auto.
    rewrite <- E. unfold onscroll. rewrite Ef. reflexivity.
Qed.
Theorem vreach_inv (v : viewer T) : vreach v -> view_inv v.
Proof. induction 1; [eapply new_view_inv; eauto|apply scroll_inv; auto]. Qed.
Lemma vreach_scrolls l : forall v : viewer T, vreach v -> vreach (scrolls v l).
Proof. induction l as [|b l IH]; intros v H; auto. cbn. apply IH. constructor; auto. Qed.

(** *** C60 *)
Theorem view_range (v : viewer T) : vreach v ->
  (0 <= v_index v < num_slices v)%Z /\ List.length (v_slices v) = dim (v_axis v) (v_shape v) /\
  v_image v = take (v_axis v) (v_shape v) (v_data v) (Z.to_nat (v_index v)).
Proof. intros H. apply vreach_inv in H. destruct H as (A1 & A2 & A3 & A4 & A5 & A6 & A7). auto. Qed.
(** which points belong to a slice, and where they are drawn *)
Theorem points_spec (v : viewer T) i q l : vreach v -> v_coords v = Some l ->
  (In q (points_at v i) <-> exists c, In c l /\
     xlt (val (n_abs (n_sub (nth (Z.to_nat i) (v_slices v) n_nan) (nth (v_axis v) c n_nan)))) (val (v_tol v)) /\
     ((v_axis v = 0 /\ q = (nth 2 c n_nan, nth 1 c n_nan)) \/ (v_axis v = 1 /\ q = (nth 2 c n_nan, nth 0 c n_nan)) \/
      (v_axis v = 2 /\ q = (nth 1 c n_nan, nth 0 c n_nan)))).
Proof.
  intros H Hl. apply vreach_inv in H. destruct H as (_ & A2 & _). unfold points_at. rewrite Hl, in_map_iff.
  assert (P : forall c, point_of (v_axis v) c = q <->
     ((v_axis v = 0 /\ q = (nth 2 c n_nan, nth 1 c n_nan)) \/ (v_axis v = 1 /\ q = (nth 2 c n_nan, nth 0 c n_nan)) \/ (v_axis v = 2 /\ q = (nth 1 c n_nan, nth 0 c n_nan)))).
  { intros c. destruct (v_axis v) as [|[|[|n]]]; [..|lia]; cbn [point_of]; (split; [intros <-; auto|intros [[E ->]|[[E ->]|[E ->]]]; (discriminate E || reflexivity)]). }
  split.
  - intros (c & E & Hc). apply filter_In in Hc as [Hc Hn]. exists c. split; [exact Hc|]. split; [|apply P; exact E]. unfold near, n_gt in Hn. apply nlt_iff in Hn. exact Hn.
  - intros (c & Hc & Hn & E). exists c. split; [apply P; exact E|]. apply filter_In. split; [exact Hc|]. unfold near, n_gt. apply nlt_iff. exact Hn.
Qed.
Theorem view_moves (v : viewer T) l : vreach v -> v_frozen v = false ->
  v_index (scrolls v l) = clamp_moves (num_slices v) (v_index v) l.
Proof. intros H Hf. apply vreach_inv in H. apply scrolls_index; auto. apply H. Qed.
Theorem view_step (v : viewer T) b : vreach v -> v_frozen v = false ->
  (b = true -> (v_index v < num_slices v - 1)%Z -> v_index (onscroll v b) = (v_index v + 1)%Z) /\
  (b = true -> (v_index v = num_slices v - 1)%Z -> v_index (onscroll v b) = v_index v) /\
  (b = false -> (0 < v_index v)%Z -> v_index (onscroll v b) = (v_index v - 1)%Z) /\
  (b = false -> (v_index v = 0)%Z -> v_index (onscroll v b) = v_index v).
Proof.
  intros H Hf. apply vreach_inv in H. destruct H as (A1 & _). rewrite (onscroll_index _ b Hf A1). unfold clamp_move.
  split; [|split; [|split]]; intros -> Hi; lia.
Qed.
Theorem view_ups (v : viewer T) k : vreach v -> v_frozen v = false ->
  v_index (scrolls v (repeat true k)) = Z.min (num_slices v - 1) (v_index v + Z.of_nat k) /\
  v_index (scrolls v (repeat false k)) = Z.max 0 (v_index v - Z.of_nat k).
Proof. intros H Hf. rewrite !view_moves; auto. apply vreach_inv in H. rewrite clamp_up, clamp_down by apply H. auto. Qed.

(** *** C61 *)
Theorem view_points ax axis (p : gprop T) masked index frozen co p' (v : viewer T) l evs : preach p -> reachable (p_params p) ->
  new_viewer ax axis (EIs p) masked index frozen co = (p', Ok v) -> v_coords v = Some l ->
  (v_frozen v = false -> since_empty (points_at v) (visited (num_slices v) (v_index v) evs) (v_shown (scrolls v evs))) /\
  (v_frozen v = true -> v_shown (scrolls v evs) = points_at v (v_index v)).
Proof.
  intros Hp Hr H Hc. assert (Hi := @new_view_inv ax axis p masked index frozen co p' v Hp Hr H).
  assert (S0 : v_shown v = points_at v (v_index v)).
  { apply new_viewer_iff in H; auto. destruct H as (_ & _ & b & fr & _ & _ & _ & _ & _ & _ & ->).
    unfold first_view in *. match goal with |- context [update ?w] => set (u := w) in * end.
    change (v_shown (update u) = points_at u (v_index u)). rewrite (@update_shown T NT u l Hc). cbn [u v_shown app].
    destruct (points_at u (v_index u)); reflexivity. }
  split; intros Hf.
  - apply (@scrolls_shown_gen T NT evs v [] l); auto; [apply Hi|]. cbn [app]. rewrite S0. destruct (points_at v (v_index v)) as [|q ps] eqn:E.
    + exists [v_index v], []. split; [reflexivity|]. split; [intros ? []|]. split; [right; exists [], (v_index v); auto|reflexivity].
    + exists [], [v_index v]. split; [reflexivity|]. split; [intros i [<-|[]]; congruence|]. split; [auto|]. cbn. rewrite E, app_nil_r. reflexivity.
  - rewrite scrolls_frozen; auto.
Qed.
(** the points of the current slice are always shown *)
Theorem current_shown (v : viewer T) q : vreach v -> In q (points_at v (v_index v)) -> In q (v_shown v).
Proof.
  intros H. induction H as [ax axis p masked index frozen co p' v Hp Hr H|v b H IH].
  - intros Hq. destruct (v_coords v) as [l|] eqn:Hc; [|unfold points_at in Hq; rewrite Hc in Hq; destruct Hq].
    destruct (v_frozen v) eqn:Hf; destruct (@view_points ax axis p masked index frozen co p' v l [] Hp Hr H Hc) as [A B].
    + specialize (B Hf). cbn in B. rewrite B. auto.
    + specialize (A Hf). cbn [visited scrolls fold_left] in A. destruct A as (l1 & l2 & E & E2 & E1 & ->).
      destruct l2 as [|j l2].
      * destruct E1 as [->|(k & i & -> & Ei)]; [discriminate|]. rewrite app_nil_r in E. destruct k; [|destruct k; discriminate]. inversion E; subst. rewrite Ei in Hq. destruct Hq.
      * destruct l1; [|destruct l1; discriminate]. inversion E; subst. cbn. apply in_or_app. auto.
  - destruct (v_frozen v) eqn:Hf; [rewrite onscroll_frozen; auto|]. intros Hq. assert (Hi := vreach_inv H). destruct Hi as (A1 & _).
    destruct (onscroll_frame v b) as (E1 & _ & _ & E4 & E5 & E6 & E7). rewrite (onscroll_index _ b Hf A1) in Hq.
    rewrite (@points_frame T NT v (onscroll v b)) in Hq by auto.
    destruct (v_coords v) as [l|] eqn:Hc; [|unfold points_at in Hq; rewrite Hc in Hq; destruct Hq].
    rewrite (onscroll_shown _ b Hf A1 Hc). revert Hq; destruct (points_at v (clamp_move (num_slices v) (v_index v) b)) as [|q' ps]; intros Hq; [destruct Hq|]. apply in_or_app. auto.
Qed.

(** opening a viewer with masked = True is a masked read *)
Theorem viewing_destroys ax axis (p : gprop T) index frozen co p' r l i :
  preach p -> new_viewer ax axis (EIs p) (PBool true) index frozen co = (Some p', r) ->
  i < List.length (p_data p) -> marked (p_mask p) i = true -> nan_at (do_pops p' l) i.
Proof.
  intros Hp H Hi Hm. unfold new_viewer in H. destruct (number axis _ _ _ _); [|discriminate]. destruct (class_arg ax); [|discriminate]. cbn [class_arg] in H.
  destruct (get_data p (PBool true)) as [q r'] eqn:E. inversion H; subst. replace p' with (fst (get_data p (PBool true))) by now rewrite E.
  apply masked_read_destroys; auto.
Qed.
(** along an axis with a single slice no viewer can be made *)
Theorem one_slice ax axis (p : gprop T) masked index frozen co p' v : preach p -> index_ok 3 axis ->
  List.length (vector_at (p_params p) (Z.to_nat (zof axis))) = 1 -> new_viewer ax axis (EIs p) masked index frozen co <> (p', Ok v).
Proof. intros Hp Ha H1 H. apply new_viewer_iff in H; auto. destruct H as (_ & _ & b & fr & _ & _ & _ & _ & Hn & _). lia. Qed.
End W.

(** a viewer along x with the slices 0 and 2 and one coordinate near each *)
Lemma view_ex : exists (p : gprop xr) p' (v : viewer xr), preach p /\ reachable (p_params p) /\
  new_viewer (EIs tt) (PInt 1) (EIs p) (PBool false) None None (CoList [[XFin 0; XFin 0; XFin 1]; [XFin 0; XFin 2; XFin 3]]) = (p', Ok v) /\
  v_index v = 1%Z /\ num_slices v = 2%Z /\ v_frozen v = false /\ v_coords v = Some [[XFin 0; XFin 0; XFin 1]; [XFin 0; XFin 2; XFin 3]] /\
  points_at v 0 = [(XFin 1, XFin 0)] /\ points_at v 1 = [(XFin 3, XFin 0)] /\ v_shown v = [(XFin 3, XFin 0)] /\
  v_image v = [XFin 8].
Proof.
  assert (S : Forall (@small xr) [PInt 0; PInt 2; PInt 2; PInt 0; PInt 1; PInt 1; PInt 2; PInt 1]).
  { repeat (apply Forall_cons; [cbn; lia|]). apply Forall_nil. }
  assert (N : forall z, numberlike (PInt z : pyval xr)) by (intros; left; constructor).
  destruct (proj2 (new_params_accepted S)) as [g Hg].
  { split; [|split]; unfold axis_ok, rf_ok, count; cbn [value zof].
    - split; [apply N|]. split; [apply N|]. split; [intros [X|[X _]]; [cbn in X; lra|inversion X; lra]|]. split; [constructor|lia].
    - split; [apply N|]. split; [apply N|]. split; [intros [X|[X _]]; [cbn in X; lra|inversion X; lra]|]. split; [constructor|lia].
    - split; [apply N|]. split; [cbn; lra|]. split; [constructor|lia]. }
  assert (Hr : reachable g) by (eapply rc_new; eauto).
  destruct (new_params_sizes S Hg) as (A & B & _ & D & E & _). cbn [zof] in A, B, D.
  assert (Hs : shape3 g = [1; 2; 1]).
  { unfold shape3. rewrite E. replace (List.length (g_dy g)) with 1 by lia. replace (List.length (g_dx g)) with 2 by lia. replace (List.length (g_rfa g)) with 1 by lia. reflexivity. }
  destruct (@new_params_spaced _ _ _ _ _ _ _ _ g 0 2 0 1 2 S eq_refl eq_refl eq_refl eq_refl eq_refl Hg) as (_ & _ & _ & Sx & _).
  specialize (Sx ltac:(cbn; lia)). change (Z.to_nat (zof (PInt 2 : pyval xr))) with 2 in Sx.
  assert (Gx : g_dx g = [XFin 0; XFin 2]).
  { destruct (@equally_spaced_ends (g_dx g) 0 2 2) as (E1 & E2); auto. destruct (g_dx g) as [|d0 [|d1 [|? ?]]]; cbn [List.length] in A; try (exfalso; lia).
    cbn [nth_error Nat.sub] in E1, E2. inversion E1; inversion E2; auto. }
  set (p := fresh DISK_RADIUS DEGREE g [SF (XFin 5); SF (XFin 8)]).
  assert (Hp : preach p).
  { eapply pr_new; [exact (data_wf (XFin 5) (XFin 8))|]. apply new_gprop_iff. exists DISK_RADIUS, DEGREE, g, [SF (XFin 5); SF (XFin 8)]. rewrite Hs. auto 6. }
  set (w := with_frozen (first_view (fst (get_data p (PBool false))) 1 1 (Some [[XFin 0; XFin 0; XFin 1]; [XFin 0; XFin 2; XFin 3]])) false).
  assert (P0 : p_params p = g) by reflexivity.
  assert (Pt : forall i, points_at w i = map (point_of 1) (filter (near 1 [XFin 0; XFin 2] (XFin (2/3)) i) [[XFin 0; XFin 0; XFin 1]; [XFin 0; XFin 2; XFin 3]])).
  { intros i. unfold points_at, w, first_view. cbn [with_frozen update v_coords v_axis v_slices v_tol]. 
    rewrite (proj1 (unmasked_read p)). cbn [fst]. rewrite P0. cbn [vector_at]. rewrite Gx. cbn [nth].
    assert (Tl : n_div (n_abs (n_sub (XFin 2) (XFin 0))) (n_ofZ 3) = XFin (2/3)).
    { cbn [n_div n_abs n_sub n_ofZ Num_xr x_sub x_abs x_div]. destruct (Req_EM_T _ _) as [X|X]; [exfalso; lra|]. f_equal. rewrite Rabs_right by lra. lra. }
    rewrite Tl. reflexivity. }
  assert (Nr : forall i a b c d, nth (Z.to_nat i) [XFin 0; XFin 2] n_nan = XFin d ->
    near 1 [XFin 0; XFin 2] (XFin (2/3)) i [a; XFin b; c] = if Rlt_dec (Rabs (d - b)) (2/3) then true else false).
  { intros i a b c d Hd. unfold near, n_gt. rewrite Hd. reflexivity. }
  assert (P1 : points_at w 0 = [(XFin 1, XFin 0)]).
  { rewrite Pt. cbn [filter]. rewrite !(Nr 0%Z _ _ _ 0%R) by reflexivity. destruct (Rlt_dec (Rabs (0 - 0)) _) as [X|X].
    2:{ exfalso. apply X. rewrite Rabs_right; lra. }
    destruct (Rlt_dec (Rabs (0 - 2)) _) as [Y|Y]; [exfalso; rewrite Rabs_left in Y; lra|]. reflexivity. }
  assert (P2 : points_at w 1 = [(XFin 3, XFin 0)]).
  { rewrite Pt. cbn [filter]. rewrite !(Nr 1%Z _ _ _ 2%R) by reflexivity. destruct (Rlt_dec (Rabs (2 - 0)) _) as [X|X].
    { exfalso. rewrite Rabs_right in X; lra. }
    destruct (Rlt_dec (Rabs (2 - 2)) _) as [Y|Y]; [|exfalso; apply Y; rewrite Rabs_right; lra]. reflexivity. }
  exists p, (Some (fst (get_data p (PBool false)))), w. split; [exact Hp|]. split; [exact Hr|]. split.
  - apply new_viewer_iff; [exact Hp|]. split; [reflexivity|]. split; [split; [split; [constructor|cbn; lia]|reflexivity]|]. cbn zeta.
    change (Z.to_nat (zof (PInt 1 : pyval xr))) with 1. rewrite P0. cbn [vector_at]. rewrite Gx. cbn [List.length].
    exists false, false. split; [reflexivity|]. split; [discriminate|]. split; [left; auto|]. split; [|split; [lia|auto]].
    intros c [<-|[<-|[]]]; reflexivity.
  - split; [reflexivity|]. split; [unfold num_slices, w, first_view; cbn [with_frozen update v_slices]; rewrite (proj1 (unmasked_read p)); cbn [fst]; rewrite P0; cbn [vector_at]; rewrite Gx; reflexivity|].
    split; [reflexivity|]. split; [reflexivity|]. split; [exact P1|]. split; [exact P2|]. split.
    + unfold w, first_view in *. match goal with |- context [update ?w] => set (u := w) in * end.
      change (v_shown (update u) = [(XFin 3, XFin 0)]). rewrite (@update_shown xr _ u _ eq_refl). change (v_index u) with 1%Z. change (points_at u 1 = [(XFin 3, XFin 0)]) in P2. rewrite P2. reflexivity.
    + unfold w, first_view. cbn [with_frozen update v_image v_axis v_shape v_data v_index]. rewrite (proj1 (unmasked_read p)). cbn [fst].
      replace (p_shape p) with [1; 2; 1] by (unfold p, fresh; cbn [with_mask with_colors with_limits p_shape]; exact (eq_sym Hs)). reflexivity.
Qed.

Theorem current_only_refuted : ~ (forall (v : viewer xr) q, vreach v -> In q (v_shown v) -> In q (points_at v (v_index v))).
Proof.
  intros H. destruct view_ex as (p & p' & v & Hp & Hr & Hv & Hi & Hn & Hf & Hc & P0 & P1 & Hs & _).
  assert (V : vreach v) by (eapply vr_new; eauto).
  specialize (H (onscroll v false) (XFin 3, XFin 0) (vr_scroll false V)).
  assert (R : (0 <= v_index v < num_slices v)%Z) by lia. rewrite (onscroll_index _ false Hf R), (onscroll_shown _ false Hf R Hc) in H.
  destruct (onscroll_frame v false) as (E1 & _ & _ & E4 & E5 & E6 & _). rewrite (@points_frame xr _ v (onscroll v false)) in H by auto.
  rewrite Hi, Hn in H. change (clamp_move 2 1 false) with 0%Z in H. rewrite P0, Hs in H. cbn [In app] in H.
  destruct H as [H|[]]; [left; reflexivity|]. inversion H. lra.
Qed.

(** the two-point property of [prop_ex] *)
Lemma view_masked_ex (x y : xr) : exists p : gprop xr, preach p /\ marked (p_mask p) 0 = true /\
  List.length (p_data p) = 2 /\
  (exists v, new_viewer (EIs tt) (PInt 1) (EIs p) (PBool true) None None CoNone = (Some (fst (get_data p (PBool true))), Ok v)) /\
  List.length (vector_at (p_params p) 0) = 1.
Proof.
  destruct (prop_ex x y DISK_RADIUS DEGREE) as (p & Hp & Hr & _ & _ & Hs & Hd & Hm). exists p. split; [exact Hp|].
  split; [rewrite Hm; reflexivity|]. split; [rewrite Hd; reflexivity|].
  destruct (reach_shapes Hp) as (S1 & _). destruct (reachable_consistent Hr) as [C1 _].
  rewrite S1 in Hs. unfold shape3 in Hs. rewrite C1 in Hs. cbn in Hs. inversion Hs as [[A B C]].
  split; [|cbn [vector_at]; lia].
  eexists. apply new_viewer_iff; [exact Hp|]. split; [reflexivity|]. split; [split; [split; [constructor|cbn; lia]|reflexivity]|]. cbn zeta.
  change (Z.to_nat (zof (PInt 1 : pyval xr))) with 1. cbn [vector_at]. exists true, false. split; [reflexivity|]. split; [discriminate|].
  split; [left; auto|]. split; [exact I|]. split; [lia|]. split; reflexivity.
Qed.
