(** Proofs about RingSystem.py: split_rings over exact arithmetic, merge after split,
    constructor, plot. *)
From Coq Require Import ZArith Reals List Bool String Lra Lia.
From Verif Require Import Num NumP Py Validate SpecNum ValidateP Ring RingSystem SpecRing RingP RingSystemP RingOrderP RingMergeP.
Import ListNotations.
Set Implicit Arguments.

(** ** divisions *)
Section D.
Context {T : Type} {NT : Num T} {LT : NumLaws T}.
Notation pyval := (pyval T).
Notation ring := (ring T).
Notation rsys := (rsys T).

Lemma not_inf_lt (x : T) : n_lt n_inf x = false.
Proof. apply nlt_false. rewrite l_inf. destruct (val x); cbn; tauto. Qed.

Lemma shape_eqb_refl a : shape_eqb a a = true.
Proof. now apply shape_eqb_spec. Qed.

Lemma divisions_ok (s : rsys) nd ds : valid_divisions (List.length (s_rings s)) nd ds -> divisions s nd = Ok ds.
Proof.
  intros [(Hi & H2 & ->)|(-> & Hl & Hf)]; unfold divisions.
  - unfold number, number_type. 
    assert (integer_type nd = Ok nd) as -> by (inversion Hi; reflexivity).
    cbn [bind]. unfold p_inf. rewrite number_bounds_eq; [|left; constructor|right; constructor].
    change (v_cmp (s_lt (T:=T)) (PFloat n_inf) (PInt 2)) with (n_lt n_inf (n_ofZ 2)). rewrite not_inf_lt.
    assert (rejected false nd (PInt 2) (PFloat n_inf) = false) as ->; [|reflexivity].
    unfold rejected.
    assert (v_cmp (s_lt (T:=T)) (PFloat n_inf) nd = false) as ->.
    { rewrite v_cmp_f_lt by (left; auto). apply not_inf_lt. }
    rewrite orb_false_r.
    inversion Hi; subst; cbn in *; apply Z.ltb_ge; auto.
  - set (n := List.length (s_rings s)) in *.
    assert (number (T:=T) (PArr "int64" [n] (map (SI (T:=T)) ds)) true (PInt 2) p_inf false = Err TypeError) as -> by reflexivity.
    pose proof (array_ok_iff "int64" [n] (map (@SI T) ds) (Some (PInt 1)) None false (Some "int64"%string) (Some 1%Z)) as A.
    destruct (array (PArr "int64" [n] (map (SI (T:=T)) ds)) (Some (PInt 1)) None false (Some "int64"%string) (Some 1%Z)) as [a|e] eqn:E.
    + assert (a = PArr "int64" [n] (map (SI (T:=T)) ds)) as ->.
      { revert E. rewrite array_eq. destruct (bounds_step _ _ _ _); cbn; [|discriminate]. intros H; now inversion H. }
      cbn [bind]. unfold same_shape_arrays. cbn -[shape_eqb]. rewrite shape_eqb_refl. cbn. f_equal.
      rewrite map_map. cbn. apply map_id.
    + exfalso. cbn [is_ok] in A. assert (false = true); [|discriminate]. apply A; cbn; auto.
      * lia.
      * left; constructor.
      * intros s0 Hs. apply in_map_iff in Hs. destruct Hs as (z & <- & Hz). rewrite Forall_forall in Hf.
        specialize (Hf z Hz). cbn in *. lia.
      * split; [|split].
        -- right. cbn. split; [tauto|]. intros s0 Hs. apply in_map_iff in Hs. destruct Hs as (z & <- & Hz).
           rewrite Forall_forall in Hf. specialize (Hf z Hz). cbn in Hf |- *. split; [|tauto].
           assert (IZR 1 <= IZR z)%R by (apply IZR_le; lia). lra.
        -- intros k Hk. inversion Hk. reflexivity.
        -- intros k Hk. inversion Hk. reflexivity.
Qed.

Lemma valid_divisions_shape n (nd : pyval) ds : valid_divisions n nd ds -> List.length ds = n /\ Forall (fun d => 1 <= d)%Z ds.
Proof.
  intros [(_ & H2 & ->)|(_ & Hl & Hf)].
  - split; [apply repeat_length|]. apply Forall_forall. intros x Hx. apply repeat_spec in Hx. lia.
  - split; auto. eapply Forall_impl; [|exact Hf]. cbn; intros; lia.
Qed.

(** ** constructor *)
Lemma check_inner_stored (i : T) : val i = XFin 0 \/ (xlt (XFin 0) (val i) /\ xlt (val i) XPInf) ->
  check_inner n_inf (PNpFloat i) = Ok (stored_inner i).
Proof.
  intros H. rewrite check_inner_iff.
  - change (num_of (PNpFloat i)) with i. unfold stored_inner. destruct (n_eq i n_zero) eqn:E.
    + destruct l_tiny as (r & Hr & H0). assert (n_lt (n_pow10m 16) n_inf = true) as ->; auto.
      apply nlt_iff. rewrite l_inf, Hr. exact I.
    + destruct H as [H|[H1 H2]].
      * assert (n_eq i n_zero = true); [|congruence]. apply neq_iff. rewrite val_zero, H. split; [auto|discriminate].
      * assert (n_lt n_zero i = true) as -> by (apply nlt_iff; rewrite val_zero; auto).
        assert (n_lt i n_inf = true) as -> by (apply nlt_iff; rewrite l_inf; auto). reflexivity.
  - right; constructor.
  - change (num_of (PNpFloat i)) with i. unfold not_nan. destruct H as [->|[H _]]; [discriminate|apply (xlt_nan H)].
  - unfold not_nan. rewrite l_inf. discriminate.
  - rewrite l_inf. exact I.
Qed.

Lemma stored_pos (i : T) : (val i = XFin 0 \/ xlt (XFin 0) (val i)) -> xlt (XFin 0) (val (stored_inner i)).
Proof.
  intros H. unfold stored_inner. destruct (n_eq i n_zero) eqn:E.
  - destruct l_tiny as (r & -> & H0). cbn. tauto.
  - destruct H as [H|H]; auto. assert (n_eq i n_zero = true); [|congruence]. apply neq_iff. rewrite val_zero, H. split; [auto|discriminate].
Qed.

Lemma make_rings_stored inc tilt l : range_or_nan 0 90 inc -> range_or_nan (-180) 180 tilt ->
  Forall valid_triple l -> make_rings inc tilt l = Ok (map (stored inc tilt) l).
Proof.
  intros Hi Ht. induction 1 as [|[[i o] t] l (H1 & H2 & H3 & H4) _ IH]; cbn [make_rings map]; auto.
  unfold new_ring. rewrite check_inner_stored.
  - cbn [bind]. rewrite check_outer_np by auto. cbn [bind]. rewrite check_tr_np by auto. cbn [bind].
    rewrite check_inc_np by auto. cbn [bind]. rewrite check_tilt_np by auto. cbn [bind]. rewrite IH. reflexivity.
  - destruct H1 as [H1|H1]; auto. right. split; auto. unfold stored_inner in H2.
    destruct (n_eq i n_zero) eqn:E.
    + apply neq_iff in E. rewrite val_zero in E. destruct E as [-> _]. exact I.
    + eapply xlt_trans; eauto.
Qed.

Lemma number_geo_np a b w : (Z.abs a <= 2 ^ 53)%Z -> (Z.abs b <= 2 ^ 53)%Z ->
  forall v, number v false (PFloat (n_ofZ a)) (PFloat (n_ofZ b)) false = Ok w ->
  val (num_of w) = XNaN \/ (xle (XFin (IZR a)) (val (num_of w)) /\ xle (val (num_of w)) (XFin (IZR b))).
Proof.
  intros Ha Hb v H. apply number_fb in H. destruct H as (-> & Hn & Hab & Hr). rewrite !l_ofZ in * by assumption.
  destruct Hr as [R1 R2]. destruct (val (num_of v)) as [| | |r] eqn:E; auto.
  - exfalso; apply R2; exact I.
  - exfalso; apply R1; exact I.
  - right. split; apply not_xlt; auto; discriminate.
Qed.

Lemma array_vec (l : list T) lo up : osmall lo -> osmall up -> onum lo -> onum up ->
  ~ xlt (eff_up up) (eff_lo lo) ->
  Forall (fun x => ~ xlt (val x) (eff_lo lo) /\ ~ xlt (eff_up up) (val x)) l ->
  array (vec l) lo up false (Some "float64"%string) (Some 1%Z) = Ok (vec l).
Proof.
  intros Sl Su Nl Nu Hb Hf.
  pose proof (array_ok_iff "float64" [List.length l] (map (@SF T) l) lo up false (Some "float64"%string) (Some 1%Z) Sl Su Nl Nu) as A.
  fold (vec l) in A. destruct (array (vec l) lo up false (Some "float64"%string) (Some 1%Z)) as [a|e] eqn:E.
  - revert E. unfold vec. rewrite array_eq. destruct (bounds_step _ _ _ _); cbn; [|discriminate]. auto.
  - exfalso. cbn [is_ok] in A. assert (false = true); [|discriminate]. apply A.
    + intros s0 Hs. apply in_map_iff in Hs. destruct Hs as (z & <- & Hz). exact I.
    + split; [|split].
      * right. split; auto. intros s0 Hs. apply in_map_iff in Hs. destruct Hs as (z & <- & Hz).
        rewrite Forall_forall in Hf. apply (Hf z Hz).
      * intros k Hk. inversion Hk. reflexivity.
      * intros k Hk. inversion Hk. reflexivity.
Qed.

Lemma combine_fst3 (a b c : list T) : List.length b = List.length a -> List.length c = List.length a ->
  map (fun x => fst (fst x)) (combine (combine a b) c) = a /\ map (fun x => snd (fst x)) (combine (combine a b) c) = b /\
  map snd (combine (combine a b) c) = c.
Proof.
  revert b c; induction a as [|x a IH]; intros [|y b] [|z c] Hb Hc; cbn in *; try lia; auto.
  destruct (IH b c) as (E1 & E2 & E3); try lia. rewrite E1, E2, E3. auto.
Qed.

Theorem new_system_stored h planet inc tilt level (a b c : list T) p' i' t' l' :
  number planet false (PFloat n_zero) p_inf false = Ok p' ->
  number inc false (PFloat n_zero) (PFloat (n_ofZ 90)) false = Ok i' ->
  number tilt false (PFloat (n_ofZ (-180))) (PFloat (n_ofZ 180)) false = Ok t' ->
  number level true (PInt 10) (PInt 50) false = Ok l' ->
  List.length b = List.length a -> List.length c = List.length a ->
  Forall valid_triple (combine (combine a b) c) ->
  exists s, new_system h planet (vec a) (vec b) (vec c) inc tilt level
            = Ok (h ++ map (stored (num_of i') (num_of t')) (combine (combine a b) c), s) /\
    rings_of (h ++ map (stored (num_of i') (num_of t')) (combine (combine a b) c)) s
      = map (stored (num_of i') (num_of t')) (combine (combine a b) c) /\
    geo_ok s /\ sys_wf (h ++ map (stored (num_of i') (num_of t')) (combine (combine a b) c)) s /\
    s_inc s = num_of i' /\ s_tilt s = num_of t' /\ s_planet s = num_of p'.
Proof.
  intros Hp Hi Ht Hl Lb Lc Hv.
  assert (Gi : range_or_nan 0 90 (num_of i')) by (apply (@number_geo_np 0 90 i') with (v := inc); auto; lia).
  assert (Gt : range_or_nan (-180) 180 (num_of t')) by (apply (@number_geo_np (-180) 180 t') with (v := tilt); auto; lia).
  destruct (combine_fst3 a b c Lb Lc) as (E1 & E2 & E3).
  assert (Fa : Forall (fun x => ~ xlt (val x) (XFin 0) /\ ~ xlt XPInf (val x)) a).
  { rewrite <- E1. apply Forall_map. eapply Forall_impl; [|exact Hv]. intros [[i o] t] (H & _). cbn.
    destruct H as [->|H]; cbn; [split; [lra|tauto]|]. destruct (val i); cbn in *; try tauto; split; lra || tauto. }
  assert (Fb : Forall (fun x => ~ xlt (val x) (XFin 0) /\ ~ xlt XPInf (val x)) b).
  { rewrite <- E2 at 1. apply Forall_map. eapply Forall_impl; [|exact Hv]. intros [[i o] t] (H & H1 & H2 & _). cbn.
    apply stored_pos in H. assert (H3 := xlt_trans _ _ _ H H1). destruct (val o); cbn in *; try tauto; split; lra || tauto. }
  assert (Fc : Forall (fun x => ~ xlt (val x) (XFin 0) /\ ~ xlt (XFin 1) (val x)) c).
  { rewrite <- E3 at 1. apply Forall_map. eapply Forall_impl; [|exact Hv]. intros [[i o] t] (_ & _ & _ & H). cbn.
    destruct H as [->|[H1 H2]]; [cbn; tauto|]. split; intros H; [exact (not_both H1 H)|exact (not_both H2 H)]. }
  eexists. unfold new_system. rewrite Hp, Hi, Ht. cbn [bind].
  rewrite (array_vec (l:=a)) by (cbn; auto; try lia; left; constructor). cbn [bind].
  rewrite (array_vec (l:=b)) by (cbn; auto; try lia; left; constructor). cbn [bind].
  rewrite (array_vec (l:=c)); [|cbn; lia|cbn; lia|left; constructor|left; constructor|cbn; lra|auto]. cbn [bind].
  assert (same_shape_arrays [vec a; vec b; vec c] 3 = Ok tt) as ->.
  { unfold same_shape_arrays, vec. rewrite Lb, Lc. cbn -[shape_eqb]. rewrite shape_eqb_refl. reflexivity. }
  cbn [bind].
  assert (Ev : forall l, elems_of (vec l) = l) by (intros; unfold vec, elems_of; rewrite map_map; apply map_id).
  rewrite !Ev. rewrite make_rings_stored by assumption. cbn [bind]. rewrite Hl. cbn [bind alloc].
  set (out := map _ _). split; [reflexivity|]. cbn [s_inc s_tilt s_planet]. split; [|split; [|split]].
  - unfold rings_of. cbn [s_rings]. apply map_deref_new.
  - split; auto.
  - intros m Hm. cbn [s_rings] in Hm. apply in_seq in Hm. rewrite app_length. fold out in Hm. lia.
  - auto.
Qed.

(** ** plot *)
Theorem plot_spec h s xs ys : plot_limits h s xs ys = Err IndexError <-> s_rings s = [].
Proof.
  unfold plot_limits, get_outer_radii, rings_of. rewrite map_map. destruct (s_rings s) as [|l ls]; cbn; [tauto|].
  split; [|discriminate]. destruct (rev (map _ ls) ++ [_]) eqn:E; [destruct (rev (map (fun x => r_out (deref h x)) ls)); discriminate|discriminate].
Qed.
End D.

(** ** exact arithmetic *)
Notation xring := (ring xr).
Lemma good_fin (r : xring) : good_ring r -> exists a b, r_in r = XFin a /\ r_out r = XFin b /\ (0 < a < b)%R.
Proof.
  intros ((H0 & H1 & H2) & _). cbn in *. destruct r as [i o t c u]; cbn in *.
  destruct i as [| | |a], o as [| | |b]; cbn in *; try tauto. exists a, b. auto.
Qed.

Lemma x_div_pos a (d : Z) : (1 <= d)%Z -> x_div (XFin a) (XFin (IZR d)) = XFin (a / IZR d).
Proof.
  intros H. cbn. destruct (Req_EM_T (IZR d) 0) as [E|E]; auto. apply eq_IZR in E. lia.
Qed.

Lemma ringlet_xr (r : xring) a b d i : r_in r = XFin a -> r_out r = XFin b -> (1 <= d)%Z ->
  ringlet r d i = (XFin (a + INR i * ((b - a) / IZR d)), XFin (a + INR (S i) * ((b - a) / IZR d)), r_tr r).
Proof.
  intros Ha Hb Hd. unfold ringlet. rewrite Ha, Hb. unfold n_ofnat. cbn [n_sub n_div n_add n_mul n_ofZ Num_xr x_sub].
  rewrite x_div_pos by assumption. cbn [x_mul x_add]. rewrite <- INR_IZR_INZ, S_INR.
  f_equal. f_equal. f_equal. ring.
Qed.

Lemma ringlet_good inc tilt (r : xring) d i : good_ring r -> (1 <= d)%Z -> i < Z.to_nat d ->
  good_ring (triple_ring inc tilt (ringlet r d i)).
Proof.
  intros Hg Hd Hi. destruct (good_fin Hg) as (a & b & Ha & Hb & Hab). rewrite (ringlet_xr r i Ha Hb Hd).
  assert (Hd' : (0 < IZR d)%R) by (apply IZR_lt; lia).
  assert (Hq : (0 < (b - a) / IZR d)%R) by (apply Rdiv_lt_0_compat; lra).
  split; [|exact (proj2 Hg)]. unfold good_radii, triple_ring. cbn [fst snd r_in r_out val Laws_xr]. cbn.
  pose proof (pos_INR i). rewrite ?S_INR.
  assert (0 <= INR i * ((b - a) / IZR d))%R by (apply Rmult_le_pos; lra).
  assert (Hs : INR (S i) = (INR i + 1)%R) by apply S_INR. cbn in Hs.
  split; [lra|]. split; [|exact I]. rewrite Hs. lra.
Qed.

Lemma ete_seq inc tilt (r : xring) a b d : r_in r = XFin a -> r_out r = XFin b -> (1 <= d)%Z -> forall n k,
  end_to_end (XFin (a + INR k * ((b - a) / IZR d))) (map (triple_ring inc tilt) (map (ringlet r d) (seq k n)))
             (XFin (a + INR (k + n) * ((b - a) / IZR d))).
Proof.
  intros Ha Hb Hd. induction n as [|n IH]; intros k; cbn [seq map].
  - rewrite Nat.add_0_r. constructor.
  - rewrite (ringlet_xr r k Ha Hb Hd).
    change (XFin (a + INR k * ((b - a) / IZR d))) with
      (r_in (triple_ring inc tilt (XFin (a + INR k * ((b - a) / IZR d)), XFin (a + INR (S k) * ((b - a) / IZR d)), r_tr r))) at 1.
    constructor. unfold triple_ring at 1. cbn [fst snd r_out]. rewrite <- Nat.add_succ_comm. apply IH.
Qed.

Lemma ringlets_pieces inc tilt (r : xring) d : good_ring r -> (1 <= d)%Z ->
  pieces r d (map (triple_ring inc tilt) (ringlets r d)).
Proof.
  intros Hg Hd. destruct (good_fin Hg) as (a & b & Ha & Hb & Hab). unfold pieces, ringlets. split; [|split].
  - rewrite !map_length, seq_length. lia.
  - rewrite Ha, Hb. assert (Hd' : (0 < IZR d)%R) by (apply IZR_lt; lia).
    pose proof (ete_seq inc tilt r Ha Hb Hd (Z.to_nat d) 0) as E.
    cbn [INR plus] in E. rewrite Rmult_0_l, Rplus_0_r in E.
    rewrite INR_IZR_INZ, Z2Nat.id in E by lia.
    replace (a + IZR d * ((b - a) / IZR d))%R with b in E by (field; lra). exact E.
  - apply Forall_forall. intros p Hp. rewrite map_map in Hp. apply in_map_iff in Hp. destruct Hp as (i & <- & Hi).
    rewrite (ringlet_xr r i Ha Hb Hd). cbn [triple_ring fst snd r_tr r_in r_out]. split; auto.
    rewrite Ha, Hb. cbn [n_sub n_div n_ofZ Num_xr x_sub]. rewrite x_div_pos by assumption. f_equal. rewrite S_INR. ring.
Qed.

Definition split_list (inc tilt : xr) (rs : list xring) (ds : list Z) : list (list xring) :=
  map (fun rd => map (triple_ring inc tilt) (ringlets (fst rd) (snd rd))) (combine rs ds).

Lemma flat_concat inc tilt (rs : list xring) ds :
  map (triple_ring inc tilt) (flat_map (fun rd => ringlets (fst rd) (snd rd)) (combine rs ds)) = List.concat (split_list inc tilt rs ds).
Proof.
  unfold split_list. induction (combine rs ds) as [|[r d] l IH]; cbn; auto. rewrite map_app, IH. reflexivity.
Qed.

Theorem split_exact h (s : rsys xr) nd ds : good_sys h s -> valid_divisions (List.length (s_rings s)) nd ds ->
  exists h' s' parts, split_rings h s nd = (h', s', Ok tt) /\ rings_of h' s' = List.concat parts /\
    Forall2 (fun rd l => pieces (fst rd) (snd rd) l) (combine (rings_of h s) ds) parts /\
    (forall r, In r (rings_of h' s') -> good_ring r /\ r_inc r = s_inc s /\ r_tilt r = s_tilt s) /\
    parts = split_list (s_inc s) (s_tilt s) (rings_of h s) ds /\
    h' = h ++ List.concat parts /\ s' = with_rings s (seq (List.length h) (List.length (List.concat parts))).
Proof.
  intros Hs Hd. pose proof (divisions_ok s Hd) as Ed. destruct (valid_divisions_shape Hd) as [Hl Hf].
  pose proof Hs as ([Gi Gt] & Hw & Hr).
  assert (Hg : forall r, In r (rings_of h s) -> good_ring r) by (intros; eapply good_sys_rings; eauto).
  assert (Hrd : forall r d, In (r, d) (combine (rings_of h s) ds) -> good_ring r /\ (1 <= d)%Z).
  { intros r d H. split; [apply Hg; eapply in_combine_l; eauto|]. rewrite Forall_forall in Hf. apply Hf. eapply in_combine_r; eauto. }
  assert (Hgood : forall x, In x (flat_map (fun rd => ringlets (fst rd) (snd rd)) (combine (rings_of h s) ds)) ->
            good_ring (triple_ring (s_inc s) (s_tilt s) x)).
  { intros x Hx. apply in_flat_map in Hx. destruct Hx as ([r d] & H1 & H2). destruct (Hrd r d H1) as [? ?].
    unfold ringlets in H2. apply in_map_iff in H2. destruct H2 as (i & <- & Hi). apply in_seq in Hi.
    apply ringlet_good; auto. destruct Hi as [_ Hi]. exact Hi. }
  unfold split_rings. rewrite Ed. cbn [bind]. rewrite make_rings_ok by auto. rewrite flat_concat.
  set (parts := split_list (s_inc s) (s_tilt s) (rings_of h s) ds). cbn [alloc].
  eexists _, _, parts. split; [reflexivity|].
  assert (R : rings_of (h ++ List.concat parts) (with_rings s (seq (List.length h) (List.length (List.concat parts)))) = List.concat parts).
  { unfold rings_of. cbn [s_rings with_rings]. apply map_deref_new. }
  split; [exact R|]. split; [|split; auto].
  - unfold parts, split_list. revert Hrd. clear. induction (combine (rings_of h s) ds) as [|[r d] l IH]; cbn; intros H; constructor.
    + destruct (H r d) as [A B]; [now left|]. apply ringlets_pieces; auto.
    + apply IH. intros; apply H; now right.
  - intros r Hr'. rewrite R in Hr'. unfold parts in Hr'. rewrite <- flat_concat in Hr'. apply in_map_iff in Hr'.
    destruct Hr' as (x & <- & Hx). split; auto.
Qed.

(** pieces cover what the ring covered, and are ordered *)
Lemma ete_ordered (l : list xring) x y : (forall r, In r l -> good_ring r) -> end_to_end x l y -> ordered l.
Proof.
  revert x. induction l as [|r l IH]; intros x Hg H; [constructor|]. inversion H as [|r1 l1 y1 H1]; subst.
  destruct l as [|q l]; [constructor|]. inversion H1 as [|q1 l1 y1 H2 Hq]; subst. constructor.
  - rewrite Hq. apply xle_refl. destruct (Hg r) as ((_ & A & _) & _); [now left|]. apply (xlt_nan A).
  - eapply IH; eauto. intros; apply Hg; now right.
Qed.

Lemma ete_covers (l : list xring) x y z : (forall r, In r l -> good_ring r) -> end_to_end x l y ->
  (l = [] \/ xlt x y) /\ ((xle x z /\ xlt z y) <-> (exists p, In p l /\ covers p z)).
Proof.
  revert x. induction l as [|r l IH]; intros x Hg H.
  - inversion H; subst. split; auto. split.
    + intros [A B]. exfalso. eapply not_both; eauto.
    + intros (p & [] & _).
  - inversion H as [|r1 l1 y1 H1]; subst. destruct (IH (r_out r)) as [Hlt Hc]; auto; [intros; apply Hg; now right|].
    destruct (Hg r) as ((A0 & A & A2) & _); [now left|]. cbn in A0, A, A2.
    assert (Hry : xle (r_out r) y).
    { destruct Hlt as [->|Hlt]; [inversion H1; subst; apply xle_refl; apply (xlt_nan A2)|now apply xlt_xle]. }
    split; [right; eapply xlt_le_trans; eauto|]. split.
    + intros [B1 B2]. assert (Nz : z <> XNaN) by (apply (xle_nan B1)).
      destruct (@xle_total (r_out r) z) as [C|C]; auto.
      * apply (xlt_nan A2).
      * destruct (proj1 Hc (conj C B2)) as (p & P1 & P2). exists p. split; [now right|auto].
      * exists r. split; [now left|]. split; auto.
    + intros (p & [<-|Hp] & P).
      * destruct P as [P1 P2]. split; auto. eapply xlt_le_trans; eauto.
      * destruct (proj2 Hc) as [Q1 Q2]; [eauto|]. split; auto. eapply xle_trans; [|exact Q1]. now apply xlt_xle.
Qed.

Lemma ete_head (l : list xring) x y : end_to_end x l y -> match l with [] => x = y | r :: _ => r_in r = x end.
Proof. inversion 1; auto. Qed.
Lemma ete_last (l : list xring) x y : end_to_end x l y -> l <> [] ->
  exists r, nth_error l (pred (List.length l)) = Some r /\ r_out r = y.
Proof.
  revert x. induction l as [|r l IH]; intros x H Hn; [congruence|]. inversion H as [|r1 l1 y1 H1]; subst.
  destruct l as [|q l]; [inversion H1; subst; exists r; auto|].
  destruct (IH _ H1) as (r' & E & Er); [discriminate|]. exists r'. auto.
Qed.

(** the pieces of ordered rings are ordered *)
Lemma parts_ordered (rs : list xring) ds parts : List.length ds = List.length rs -> Forall (fun d => 1 <= d)%Z ds ->
  (forall r, In r rs -> good_ring r) -> ordered rs ->
  Forall2 (fun rd l => pieces (fst rd) (snd rd) l) (combine rs ds) parts ->
  (forall r, In r (List.concat parts) -> good_ring r) -> ordered (List.concat parts) /\
  match rs with [] => True | r :: _ => exists q m, List.concat parts = q :: m /\ r_in q = r_in r end.
Proof.
  revert ds parts. induction rs as [|r rs IH]; intros ds parts Hl Hd Hg Ho HF Hgp; destruct ds as [|d ds]; cbn in Hl; try lia.
  - inversion HF; subst. split; [constructor|exact I].
  - cbn in HF. inversion HF as [|rd p rds ps Hp HF']; subst. cbn in Hp. destruct Hp as (Hlen & Hete & _).
    pose proof (Forall_inv Hd) as Hd1; pose proof (Forall_inv_tail Hd) as Hd2. cbn beta in Hd1.
    destruct (IH ds ps) as [Hop Hh]; auto.
    { intros; apply Hg; now right. } { now apply ordered_tl in Ho. }
    { intros q Hq. apply Hgp. cbn. apply in_app_iff; auto. }
    assert (Hpn : p <> []) by (destruct p; [cbn in Hlen; lia|discriminate]).
    split.
    + cbn. apply ordered_app; auto.
      * eapply ete_ordered; [|exact Hete]. intros q Hq. apply Hgp. cbn. apply in_app_iff; auto.
      * intros a b Ha Hb. destruct (ete_last Hete Hpn) as (r' & E & Er). rewrite E in Ha. inversion Ha; subst r'.
        destruct rs as [|r2 rs]. { destruct ds; cbn in Hl; try lia. inversion HF'; subst. discriminate. }
        destruct Hh as (q & m & Eq & Eqi). rewrite Eq in Hb. inversion Hb; subst b. inversion Ho; subst. rewrite Er, Eqi. auto.
    + destruct p as [|q p]; [congruence|]. cbn. exists q, (p ++ List.concat ps). split; auto. apply ete_head in Hete. exact Hete.
Qed.

Lemma Forall2_combine_l A B C (P : A * B -> C -> Prop) rs ds parts r : List.length ds = List.length rs ->
  Forall2 P (combine rs ds) parts -> In r rs -> exists d l, In (r, d) (combine rs ds) /\ In l parts /\ P (r, d) l.
Proof.
  revert ds parts; induction rs as [|a rs IH]; intros [|d ds] parts Hl HF Hin; cbn in *; try lia; try tauto.
  inversion HF; subst. destruct Hin as [->|Hin].
  - exists d, y. repeat split; auto; now left.
  - destruct (IH ds l') as (d' & l0 & A1 & A2 & A3); auto. exists d', l0. repeat split; auto; now right.
Qed.
Lemma Forall2_combine_r A B C (P : A * B -> C -> Prop) rs ds parts l :
  Forall2 P (combine rs ds) parts -> In l parts -> exists r d, In r rs /\ P (r, d) l.
Proof.
  revert ds parts; induction rs as [|a rs IH]; intros ds parts HF Hin; cbn in *.
  - inversion HF; subst. destruct Hin.
  - destruct ds; inversion HF; subst; [destruct Hin|]. destruct Hin as [->|Hin]; eauto.
    destruct (IH ds l') as (r & d & A1 & A2); eauto.
Qed.

Theorem split_profile h (s : rsys xr) nd ds h' s' : good_sys h s -> valid_divisions (List.length (s_rings s)) nd ds ->
  split_rings h s nd = (h', s', Ok tt) ->
  (forall x t, (exists r, In r (rings_of h s) /\ covers r x /\ r_tr r = t) <->
               (exists r, In r (rings_of h' s') /\ covers r x /\ r_tr r = t)) /\
  (ordered (rings_of h s) -> ordered (rings_of h' s')) /\
  num_rings s' = fold_right Z.add 0%Z ds.
Proof.
  intros Hs Hd H. destruct (split_exact Hs Hd) as (h1 & s1 & parts & E & R & HF & Hg & _ & Eh & Es).
  rewrite E in H. inversion H; subst h' s'. clear H. rewrite R.
  destruct (valid_divisions_shape Hd) as [Hl Hf].
  assert (Hl' : List.length ds = List.length (rings_of h s)) by (unfold rings_of; rewrite map_length; auto).
  assert (Hgp : forall r, In r (List.concat parts) -> good_ring r) by (intros r Hr; rewrite <- R in Hr; apply (Hg r Hr)).
  split; [|split].
  - intros x t. split.
    + intros (r & Hr & Hc & Ht). destruct (Forall2_combine_l _ _ _ Hl' HF Hr) as (d & l & _ & Hin & (Hlen & He & Hp)). cbn in *.
      assert (Hgl : forall q, In q l -> good_ring q) by (intros q Hq; apply Hgp, in_concat; eauto).
      apply (ete_covers x Hgl He) in Hc. destruct Hc as (p & P1 & P2). exists p.
      split; [apply in_concat; eauto|]. split; auto. rewrite Forall_forall in Hp. destruct (Hp p P1) as [-> _]. auto.
    + intros (p & Hp & Hc & Ht). apply in_concat in Hp. destruct Hp as (l & Hin & Hp).
      destruct (Forall2_combine_r _ _ _ HF Hin) as (r & d & Hr & (Hlen & He & Hpc)). cbn in *.
      assert (Hgl : forall q, In q l -> good_ring q) by (intros q Hq; apply Hgp, in_concat; eauto).
      exists r. split; auto. split; [apply (ete_covers x Hgl He); eauto|].
      rewrite Forall_forall in Hpc. destruct (Hpc p Hp) as [E1 _]. congruence.
  - intros Ho. eapply parts_ordered; eauto. intros; eapply good_sys_rings; eauto.
  - subst s1. unfold num_rings. cbn [s_rings with_rings]. rewrite seq_length.
    revert Hl' HF. clear. generalize (rings_of h s). intros rs. revert ds parts.
    induction rs as [|r rs IH]; intros [|d ds] parts Hl HF; cbn in *; try lia; inversion HF; subst; cbn; auto.
    rewrite app_length, Nat2Z.inj_add. destruct H1 as (Hn & _). cbn in Hn. rewrite (IH ds) by auto. lia.
Qed.

(** ** merging after splitting *)
Lemma merge_ringlets inc tilt tol (r : xring) a b d rest : r_in r = XFin a -> r_out r = XFin b -> (1 <= d)%Z ->
  xlt (XFin 0) tol -> r_tr r <> XNaN -> forall n k i t, t = r_tr r ->
  merge_loop tol (map (triple_ring inc tilt) (map (ringlet r d) (seq k n)) ++ rest) i (XFin (a + INR k * ((b - a) / IZR d))) t
  = merge_loop tol rest i (XFin (a + INR (k + n) * ((b - a) / IZR d))) t.
Proof.
  intros Ha Hb Hd Ht Hn. induction n as [|n IH]; intros k i t Et; cbn [seq map app].
  - now rewrite Nat.add_0_r.
  - rewrite (ringlet_xr r k Ha Hb Hd). cbn [merge_loop triple_ring fst snd r_in r_out r_tr].
    assert (n_lt (n_abs (XFin (a + INR k * ((b - a) / IZR d)) - XFin (a + INR k * ((b - a) / IZR d)))%num) tol = true) as ->.
    { apply nlt_iff. cbn [n_sub n_abs Num_xr x_sub x_abs val Laws_xr].
      replace (a + INR k * ((b - a) / IZR d) - (a + INR k * ((b - a) / IZR d)))%R with 0%R by ring. rewrite Rabs_R0. exact Ht. }
    assert (n_eq (r_tr r) t = true) as -> by (apply neq_iff; subst t; split; auto).
    cbn [andb]. rewrite <- Nat.add_succ_comm. apply IH. exact Et.
Qed.

Lemma merge_split_one inc tilt tol (r : xring) d rest i o t : good_ring r -> (1 <= d)%Z ->
  xlt (XFin 0) tol -> r_tr r <> XNaN ->
  merge_loop tol (map (triple_ring inc tilt) (ringlets r d) ++ rest) i o t =
  (if n_lt (n_abs (r_in r - o)%num) tol && n_eq (r_tr r) t then merge_loop tol rest i (r_out r) t
   else (i, o, t) :: merge_loop tol rest (r_in r) (r_out r) (r_tr r)).
Proof.
  intros Hg Hd Ht Hn. destruct (good_fin Hg) as (a & b & Ha & Hb & Hab).
  assert (Hd' : (0 < IZR d)%R) by (apply IZR_lt; lia).
  unfold ringlets. destruct (Z.to_nat d) as [|m] eqn:Em; [lia|]. cbn [seq map app].
  rewrite (ringlet_xr r 0 Ha Hb Hd). cbn [merge_loop triple_ring fst snd r_in r_out r_tr INR].
  rewrite Rmult_0_l, Rplus_0_r. rewrite <- Ha.
  assert (Eb : (a + INR (1 + m) * ((b - a) / IZR d))%R = b).
  { replace (INR (1 + m)) with (IZR d). - field; lra. - rewrite INR_IZR_INZ. f_equal. lia. }
  pose proof (@merge_ringlets inc tilt tol r a b d rest Ha Hb Hd Ht Hn m 1) as M. cbn [INR] in M.
  destruct (n_lt _ _ && n_eq _ _) eqn:E.
  - apply andb_prop in E. destruct E as [_ E]. apply neq_iff in E. cbn [val Laws_xr] in E.
    rewrite M by (symmetry; tauto). rewrite Eb, Hb. reflexivity.
  - f_equal. rewrite M by reflexivity. rewrite Eb, Hb. reflexivity.
Qed.

Lemma merge_split_all inc tilt tol : xlt (XFin 0) tol -> forall (rs : list xring) ds, List.length ds = List.length rs ->
  Forall (fun d => 1 <= d)%Z ds -> (forall r, In r rs -> good_ring r /\ r_tr r <> XNaN) -> forall i o t,
  merge_loop tol (List.concat (split_list inc tilt rs ds)) i o t = merge_loop tol rs i o t.
Proof.
  intros Ht. induction rs as [|r rs IH]; intros [|d ds] Hl Hd Hg i o t; cbn in Hl; try lia; auto.
  inversion Hd; subst. destruct (Hg r) as [G N]; [now left|].
  change (List.concat (split_list inc tilt (r :: rs) (d :: ds))) with
    (map (triple_ring inc tilt) (ringlets r d) ++ List.concat (split_list inc tilt rs ds)).
  rewrite merge_split_one by auto. cbn [merge_loop]. rewrite !IH; auto; try (intros; apply Hg; now right).
Qed.

Theorem merge_after_split h (s : rsys xr) nd ds tol : good_sys h s -> s_rings s <> [] ->
  valid_divisions (List.length (s_rings s)) nd ds ->
  (forall r, In r (rings_of h s) -> r_tr r <> XNaN) -> xlt (XFin 0) tol ->
  exists h1 s1, split_rings h s nd = (h1, s1, Ok tt) /\
  forall h2 s2, merge_rings h s tol = (h2, s2, Ok tt) ->
  exists h3 s3, merge_rings h1 s1 tol = (h3, s3, Ok tt) /\ rings_of h3 s3 = rings_of h2 s2.
Proof.
  intros Hs Hne Hd Hn Ht. destruct (split_exact Hs Hd) as (h1 & s1 & parts & E & R & HF & Hg & Ep & Eh & Es).
  exists h1, s1. split; auto. intros h2 s2 M.
  destruct (valid_divisions_shape Hd) as [Hl Hf].
  assert (Hl' : List.length ds = List.length (rings_of h s)) by (unfold rings_of; rewrite map_length; auto).
  assert (Hgd : forall r, In r (rings_of h s) -> good_ring r) by (intros; eapply good_sys_rings; eauto).
  unfold merge_rings in M. destruct (rings_of h s) as [|r0 rs] eqn:Er; [discriminate|].
  destruct ds as [|d ds]; [cbn in Hl'; lia|].
  assert (G0 : good_ring r0) by (apply Hgd; now left).
  unfold merge_rings. rewrite R, Ep.
  assert (Hhead : exists q m, List.concat (split_list (s_inc s) (s_tilt s) (r0 :: rs) (d :: ds)) = q :: m /\ r_in q = r_in r0 /\ r_tr q = r_tr r0).
  { destruct (good_fin G0) as (a & b & Ha & Hb & Hab). inversion Hf; subst.
    cbn [split_list combine map List.concat fst snd]. unfold ringlets. destruct (Z.to_nat d) as [|m] eqn:Em; [lia|].
    cbn [seq map app]. eexists _, _. split; [reflexivity|]. rewrite (ringlet_xr r0 0 Ha Hb) by assumption. cbn [triple_ring fst snd r_in r_tr INR].
    rewrite Rmult_0_l, Rplus_0_r. auto. }
  destruct Hhead as (q & m & Eq & Ei & Et). rewrite Eq, <- Eq, Ei, Et.
  rewrite merge_split_all; auto.
  assert (Hgs : s_inc s1 = s_inc s /\ s_tilt s1 = s_tilt s) by (subst s1; auto).
  destruct Hgs as [-> ->].
  destruct (make_rings _ _ _) as [out|e]; [|discriminate]. cbn [alloc] in *. inversion M; subst h2 s2.
  eexists _, _. split; [reflexivity|]. unfold rings_of. cbn [s_rings with_rings]. rewrite !map_deref_new. reflexivity.
Qed.

(** if nothing can be merged, merging gives the rings back *)
Lemma merge_nothing {T} {NT : Num T} inc tilt tol (rs : list (ring T)) : forall r0,
  (forall l1 a b l2, r0 :: rs = l1 ++ a :: b :: l2 ->
     n_lt (n_abs (r_in b - r_out a)%num) tol && n_eq (r_tr b) (r_tr a) = false) ->
  map (triple_ring inc tilt) (merge_loop tol rs (r_in r0) (r_out r0) (r_tr r0)) =
  map (fun r => mkRing (r_in r) (r_out r) (r_tr r) inc tilt) (r0 :: rs).
Proof.
  induction rs as [|r rs IH]; intros r0 H; cbn [merge_loop]; auto.
  rewrite (H [] r0 r rs) by reflexivity. cbn [map]. f_equal. apply IH.
  intros l1 a b l2 E. apply (H (r0 :: l1) a b l2). now rewrite E.
Qed.

Theorem merge_after_split_id h (s : rsys xr) nd ds tol : good_sys h s -> s_rings s <> [] ->
  ordered (rings_of h s) -> (forall r, In r (rings_of h s) -> r_inc r = s_inc s /\ r_tilt r = s_tilt s) ->
  valid_divisions (List.length (s_rings s)) nd ds ->
  (forall r, In r (rings_of h s) -> r_tr r <> XNaN) -> xlt (XFin 0) tol ->
  (forall l1 a b l2, rings_of h s = l1 ++ a :: b :: l2 -> ~ (xlt (x_abs (x_sub (r_in b) (r_out a))) tol /\ r_tr b = r_tr a)) ->
  exists h1 s1 h3 s3, split_rings h s nd = (h1, s1, Ok tt) /\ merge_rings h1 s1 tol = (h3, s3, Ok tt) /\ rings_of h3 s3 = rings_of h s.
Proof.
  intros Hs Hne Ho Hgeo Hd Hn Ht Hnm. destruct (merge_after_split tol Hs Hne Hd Hn Ht) as (h1 & s1 & E & M).
  destruct (rings_of h s) as [|r0 rs] eqn:Er. { unfold rings_of in Er. destruct (s_rings s); [congruence|discriminate]. }
  rewrite <- Er in Ho. destruct (merge_success tol Hs Ho Er Ht) as (ls & M1 & R1 & _); [apply (Hn r0); now left|].
  destruct (M _ _ M1) as (h3 & s3 & M3 & R3). exists h1, s1, h3, s3. split; auto. split; auto. rewrite R3, R1.
  rewrite merge_nothing.
  - rewrite <- (map_id (r0 :: rs)) at 2. apply map_ext_in. intros r Hr. destruct (Hgeo r Hr) as [<- <-]. destruct r; reflexivity.
  - intros l1 a b l2 El. destruct (_ && _) eqn:Ec; auto. exfalso. apply andb_prop in Ec. destruct Ec as [E1 E2].
    apply (Hnm l1 a b l2 El). apply nlt_iff in E1. apply neq_iff in E2. split; [exact E1|tauto].
Qed.

(** ** histories with splits, exact arithmetic *)
Lemma divisions_valid (s : rsys xr) nd ds : divisions s nd = Ok ds ->
  (forall d sh el, nd = PArr d sh el -> exists zs, el = map (@SI xr) zs /\ List.length zs = List.length (s_rings s) /\ Forall (fun z => Z.abs z <= 2 ^ 53)%Z zs) ->
  valid_divisions (List.length (s_rings s)) nd ds.
Proof.
  intros H Hwf. unfold divisions in H. unfold number in H.
  destruct (number_type true nd) as [v|e] eqn:E; cbn [bind] in H.
  - apply number_type_ok in E. destruct E as [-> [Hi|[? ?]]]; [|discriminate]. left. split; auto.
    unfold p_inf in H. rewrite number_bounds_eq in H; [|left; constructor|right; constructor].
    change (v_cmp (s_lt (T:=xr)) (PFloat n_inf) (PInt 2)) with (n_lt (n_inf:xr) (n_ofZ 2)) in H. rewrite not_inf_lt in H.
    destruct (rejected false nd (PInt 2) (PFloat n_inf)) eqn:Er; [discriminate|]. inversion H; subst. split; auto.
    unfold rejected in Er. apply orb_false_elim in Er. destruct Er as [Er _].
    inversion Hi; subst; cbn in Er |- *; apply Z.ltb_ge in Er; auto.
  - apply number_type_err in E. destruct E as [-> _].
    destruct nd; try discriminate.
    destruct (Hwf _ _ _ eq_refl) as (zs & -> & Hl & Hz). right.
    pose proof (array_ok_iff dtype shape (map (@SI xr) zs) (Some (PInt 1)) None false (Some "int64"%string) (Some 1%Z)) as A.
    destruct (array (PArr dtype shape (map (SI (T:=xr)) zs)) (Some (PInt 1)) None false (Some "int64"%string) (Some 1%Z)) as [a|e] eqn:E; cbn [bind] in H; [|discriminate].
    assert (a = PArr dtype shape (map (SI (T:=xr)) zs)) as ->.
    { revert E. rewrite array_eq. destruct (bounds_step _ _ _ _); cbn; [|discriminate].
      destruct (array_dimensions _ _); cbn; [|discriminate]. destruct (array_type _ _); cbn; [|discriminate]. intros Q; now inversion Q. }
    cbn [is_ok] in A. destruct A as [A _].
    { cbn; lia. } { exact I. } { left; constructor. } { exact I. }
    { intros s0 Hs0. apply in_map_iff in Hs0. destruct Hs0 as (z & <- & Hz0). rewrite Forall_forall in Hz. apply (Hz z Hz0). }
    destruct (A eq_refl) as (Ae & Ad & At). rewrite (At _ eq_refl) in *.
    destruct (same_shape_arrays _ _) as [u|] eqn:Es; cbn [bind] in H; [|discriminate].
    assert (ds = zs) as ->.
    { inversion H as [H']. clear. induction zs; cbn; f_equal; auto. }
    clear H.
    assert (shape = [List.length (s_rings s)]) as ->.
    { unfold same_shape_arrays in Es. cbn -[shape_eqb] in Es. rewrite shape_eqb_refl in Es. cbn -[shape_eqb] in Es.
      destruct (shape_eqb [List.length (s_rings s)] shape) eqn:Eq; [apply shape_eqb_spec in Eq; auto|discriminate]. }
    split; auto. split; auto. apply Forall_forall. intros z Hzi. destruct Ae as [[? _]|[_ Ae]]; [discriminate|].
    specialize (Ae (SI z) (in_map _ _ _ Hzi)). cbn in Ae. destruct Ae as [Ae _]. rewrite Forall_forall in Hz. specialize (Hz z Hzi).
    assert (1 <= z)%Z; [|lia]. destruct (Z_lt_le_dec z 1) as [Q|Q]; auto. exfalso. apply Ae. apply IZR_lt in Q. exact Q.
Qed.

Lemma hist_step_split (st : list xring * rsys xr) nd : hist_inv st ->
  (forall d sh el, nd = PArr d sh el -> exists zs, el = map (@SI xr) zs /\ List.length zs = List.length (s_rings (snd st)) /\ Forall (fun z => Z.abs z <= 2 ^ 53)%Z zs) ->
  hist_inv (fst (do_op st (OpSplit nd))).
Proof.
  destruct st as [h s]. intros HI Hwf. pose proof HI as (Hg & Hw & Hr & Ho). cbn [fst snd] in *. cbn [do_op].
  destruct (split_rings h s nd) as [[h' s'] [[]|e]] eqn:E; cbn [fst].
  2:{ apply split_rings_err in E. destruct E as [-> ->]. exact HI. }
  assert (Hd : exists ds, divisions s nd = Ok ds).
  { unfold split_rings in E. destruct (divisions s nd); [eauto|discriminate]. }
  destruct Hd as [ds Hd]. apply divisions_valid in Hd; auto.
  pose proof (hist_good HI) as HG.
  destruct (split_profile HG Hd E) as (_ & O & _).
  destruct (split_exact HG Hd) as (h1 & s1 & parts & E1 & R & _ & G & _ & Eh & Es).
  rewrite E1 in E. inversion E; subst h' s'.
  split; [subst s1; exact Hg|]. cbn [fst snd]. split; [|split].
  - intros m Hm. subst. cbn [s_rings with_rings] in Hm. apply in_seq in Hm. rewrite app_length. lia.
  - intros q Hq. subst h1. apply in_app_iff in Hq. destruct Hq as [|Hq]; auto. apply G. rewrite R. exact Hq.
  - auto.
Qed.

Theorem history_ordered_split l : forall st, hist_inv st -> ops_valid st l -> splits_wf st l -> hist_inv (do_ops st l).
Proof.
  induction l as [|o l IH]; intros st HI Hv Hw; cbn; auto. destruct Hv as [Hv1 Hv2], Hw as [Hw1 Hw2]. apply IH; auto.
  destruct o.
  - now apply hist_step_new.
  - now apply hist_step_add.
  - now apply hist_step_remove.
  - now apply hist_step_replace.
  - apply hist_step_split; auto. intros d sh el ->. exact Hw1.
  - now apply hist_step_merge.
Qed.
