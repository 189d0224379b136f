(** How the cubes of a built or loaded grid are drawn: colour maps and limits. *)
From Coq Require Import ZArith Reals List Bool String Lia Lra.
From Verif Require Import Num NumP Py SpecNum Validate ValidateP Ring RingSystem FS GridParams SpecGrid GridDiag Names GridProp SpecProp GridPropP Geometry Build SpecBuild BuildQP Shallot BuildGP BuildGridP.
Import ListNotations.
Set Implicit Arguments.
Local Open Scope list_scope.

Section L.
Context {T : Type} {NT : Num T} {LT : NumLaws T} (E : env T).
Notation pyval := (pyval T).

Lemma look_recoloured (p : gprop T) c : looks (recoloured p c) c.
Proof.
  unfold looks. split; [reflexivity|]. split; [reflexivity|]. cbn [recoloured with_colors with_limits p_data p_vmin p_vmax].
  destruct (default_limits p) as (p' & H & _ & _ & _ & A & B). rewrite contrast_default in H. apply pair_equal_spec in H as [<- _]. cbn [with_colors with_limits p_vmin p_vmax] in A, B. auto.
Qed.
Lemma look_default (p : gprop T) : looks (fst (set_contrast_default p)) "viridis".
Proof. rewrite contrast_default. exact (look_recoloured p "viridis"). Qed.
Lemma look_new n u v g (p : gprop T) : new_gprop n u v g = Ok p -> looks p "viridis".
Proof. intros H. apply new_gprop_iff in H as (n' & u' & g' & el & _ & _ & _ & _ & ->). apply look_recoloured. Qed.
Lemma look_contrast (p q : gprop T) c : contrast p c = Ok q -> looks q c.
Proof. rewrite contrast_ok. intros H. injection H as <-. apply look_recoloured. Qed.
Lemma look_fill g (p q : gprop T) t : fill_quadrants g p t = Ok q -> looks q (if t then "twilight" else "viridis").
Proof.
  unfold fill_quadrants. destruct (p_shape p) as [|a [|b [|c [|]]]]; try discriminate. destruct (negb _); [discriminate|].
  destruct (new_gprop _ _ _ _) as [q0|] eqn:En; cbn [bind]; [|discriminate]. destruct t.
  - rewrite contrast_named. intros H. injection H as <-. apply look_recoloured.
  - intros H. injection H as <-. exact (look_new _ _ _ _ En).
Qed.
Lemma look_diagnose g (p m : gprop T) : diagnose g p = Ok m -> looks m "viridis".
Proof. unfold diagnose. destruct (diagnostic_values g p); cbn [bind]; [|discriminate]. apply look_new. Qed.

Definition dressed (s : shallot T) : Prop := forall w, looks (cube_of w s) (match w with WTilt => "twilight" | _ => "viridis" end).
Lemma look_contrasts (s s' : shallot T) : set_contrasts s = Ok s' -> dressed s'.
Proof.
  unfold set_contrasts. rewrite !contrast_ok. cbn [bind]. destruct (opt_res _ (s_dmap s)); cbn [bind]; [|discriminate]. destruct (opt_res _ (s_grads s)); cbn [bind]; [|discriminate].
  intros H. injection H as <-. intros []; apply look_recoloured.
Qed.
Lemma look_build (s s' : shallot T) i v l : build_grid E s i v = (l, Ok s') -> dressed s'.
Proof.
  unfold build_grid. destruct (number v _ _ _ _) as [z|]; [|discriminate]. destruct (if Z.eqb (int_of z) 0 then _ else _) as [s0|]; [|discriminate]. cbn zeta.
  destruct (build_rows _ _ _ _) as [l1 [s1|]]; [|discriminate]. destruct (set_contrasts s1) as [s2|] eqn:E2; [|discriminate]. intros H. injection H as _ <-. exact (look_contrasts _ E2).
Qed.
Lemma look_extend (s s' : shallot T) g : extend_shallot E s = (g, Ok s') -> s' = s \/ dressed s'.
Proof.
  unfold extend_shallot. destruct (extend_grid (s_params s)) as [g1 [[]|e]]; [|destruct e; try discriminate; intros H; injection H as _ <-; auto].
  destruct (fill_quadrants g1 (s_dr s) false) as [q1|] eqn:E1; cbn [bind]; [|discriminate].
  destruct (fill_quadrants g1 (s_inc s) false) as [q2|] eqn:E2; cbn [bind]; [|discriminate].
  destruct (fill_quadrants g1 (s_tilt s) true) as [q3|] eqn:E3; cbn [bind]; [|discriminate].
  destruct (fill_quadrants g1 (s_fx s) false) as [q4|] eqn:E4; cbn [bind]; [|discriminate].
  destruct (fill_quadrants g1 (s_fy s) false) as [q5|] eqn:E5; cbn [bind]; [|discriminate].
  intros H. injection H as _ <-. right. intros []; [exact (look_fill _ _ _ E1)|exact (look_fill _ _ _ E2)|exact (look_fill _ _ _ E3)|exact (look_fill _ _ _ E4)|exact (look_fill _ _ _ E5)].
Qed.
Lemma look_finish (s s' : shallot T) g : finish_shallot E s = (g, Ok s') ->
  (exists m, s_dmap s' = Some m /\ looks m "viridis") /\ ((forall w, cube_of w s' = cube_of w s) \/ dressed s').
Proof.
  unfold finish_shallot. destruct (extend_shallot E s) as [g1 [s1|]] eqn:Ex; [|discriminate]. unfold diagnose_shallot.
  destruct (diagnose (s_params s1) (s_dr s1)) as [m|] eqn:Em; cbn [bind]; [|discriminate]. intros H. injection H as _ <-. split; [exists m; split; [reflexivity|exact (look_diagnose _ _ Em)]|].
  apply look_extend in Ex as [-> |D]; [left; intros []; reflexivity|]. right. intros w. specialize (D w). destruct w; exact D.
Qed.
Theorem look_constructed g nf ll keep inter og l (s : shallot T) : new_shallot E g nf ll keep inter = (og, (l, Ok s)) ->
  (forall w, looks (cube_of w s) (match w with WTilt => "twilight" | _ => "viridis" end)) /\ exists m, s_dmap s = Some m /\ looks m "viridis".
Proof.
  unfold new_shallot. destruct (number ll _ _ _ _); cbn [bind]; [|discriminate]. destruct (class_arg g) as [g'|]; cbn [bind]; [|discriminate].
  destruct (number nf _ _ _ _) as [nf'|]; cbn [bind]; [|discriminate]. destruct (boolean_v keep) as [k|]; cbn [bind]; [|discriminate]. destruct (boolean_v inter) as [i|]; cbn [bind]; [|discriminate].
  destruct (build_grid E _ i (PInt 0)) as [l1 [s1|]] eqn:Eb; [|discriminate]. destruct (finish_shallot E s1) as [g1 r] eqn:Ef. intros H. injection H as _ _ ->.
  apply look_build in Eb. destruct (look_finish _ Ef) as [M [C|D]]; split; auto. intros w. rewrite C. apply Eb.
Qed.

Lemma look_load (f : fs T) d n u (p : gprop T) : gprop_load f d n u = Ok p -> looks p "viridis".
Proof.
  unfold gprop_load. destruct (string_v d); cbn [bind]; [|discriminate]. destruct (class_arg n); cbn [bind]; [|discriminate]. destruct (class_arg u); cbn [bind]; [|discriminate].
  match goal with |- match ?x with Ok p => Ok p | Err _ => _ end = _ -> _ => destruct x as [q|] eqn:Ex end; [|discriminate]. intros H. injection H as <-. revert Ex.
  destruct (np_load f _) as [[[dt sh] el]|]; cbn [bind]; [|discriminate]. destruct (params_load f _); cbn [bind]; [|discriminate]. destruct (new_gprop _ _ _ _) as [p0|]; cbn [bind]; [|discriminate].
  match goal with |- (let* p := ?x in _) = _ -> _ => destruct x as [p1|]; cbn [bind]; [|discriminate] end. assert (L := look_default p1). destruct (set_contrast_default p1) as [p2 [[]|]]; [|discriminate].
  intros H. injection H as <-. exact L.
Qed.
Lemma look_attributes (f : fs T) (s s' : shallot T) d : load_attributes E f s d = Ok s' -> forall w, looks (cube_of w s') "viridis".
Proof.
  unfold load_attributes. destruct (np_load _ _) as [x|]; cbn [bind]; [|discriminate]. destruct (match snd x with n :: _ => Ok (np_item n) | [] => Err IndexError end); cbn [bind]; [|discriminate].
  destruct (params_load f d); cbn [bind]; [|discriminate].
  destruct (gprop_load f (PStr d) (EIs DISK_RADIUS) _) as [q1|] eqn:E1; cbn [bind]; [|discriminate]. destruct (gprop_load f (PStr d) (EIs INCLINATION) _) as [q2|] eqn:E2; cbn [bind]; [|discriminate].
  destruct (gprop_load f (PStr d) (EIs TILT) _) as [q3|] eqn:E3; cbn [bind]; [|discriminate]. destruct (gprop_load f (PStr d) (EIs FX_MAP) _) as [q4|] eqn:E4; cbn [bind]; [|discriminate].
  destruct (gprop_load f (PStr d) (EIs FY_MAP) _) as [q5|] eqn:E5; cbn [bind]; [|discriminate]. destruct (String.eqb d ""); [discriminate|]. destruct (existsb _ _); [discriminate|].
  intros H. injection H as <-. intros []; [exact (look_load _ _ _ _ E1)|exact (look_load _ _ _ _ E2)|exact (look_load _ _ _ _ E3)|exact (look_load _ _ _ _ E4)|exact (look_load _ _ _ _ E5)].
Qed.
(** a loaded grid: the tilt has the colour map of the others unless load finished or extended the grid *)
Theorem look_loaded (f f' : fs T) d ll (s : shallot T) : shallot_load E f d ll = (f', Ok s) ->
  (exists m, s_dmap s = Some m /\ looks m "viridis") /\
  ((forall w, looks (cube_of w s) "viridis") \/ forall w, looks (cube_of w s) (match w with WTilt => "twilight" | _ => "viridis" end)).
Proof.
  unfold shallot_load. destruct (string_v d) as [dir|]; [|discriminate]. destruct (perform f (snd (dummy E))) as [f1 [s0|]]; [|discriminate]. unfold load_into.
  destruct (load_attributes E f1 s0 dir) as [s1|] eqn:La; [|discriminate]. assert (L1 := look_attributes _ _ _ La). destruct (number ll _ _ _ _); [|discriminate].
  destruct (fs_exists f1 _).
  - match goal with |- match ?x with Ok v => _ | Err _ => _ end = _ -> _ => destruct x as [v|]; [|discriminate] end.
    unfold perform. destruct (build_grid E s1 true v) as [l2 r2] eqn:B. cbn [fst snd]. destruct (run f1 l2) as [f2 [[]|]]; [|discriminate]. destruct r2 as [s2|]; [|discriminate].
    apply look_build in B. destruct (finish_shallot E s2) as [g r] eqn:Ef. cbn [snd]. intros H. injection H as _ ->. destruct (look_finish _ Ef) as [M [C|D]]; split; auto. right. intros w. rewrite C. apply B.
  - destruct (finish_shallot E s1) as [g r] eqn:Ef. cbn [snd]. intros H. injection H as _ ->. destruct (look_finish _ Ef) as [M [C|D]]; split; auto. left. intros w. rewrite C. apply L1.
Qed.
End L.
