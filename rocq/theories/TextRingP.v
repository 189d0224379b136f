(** Proofs about the texts of rings and ring systems. *)
From Coq Require Import ZArith Reals List Bool String Ascii Lia.
From Flocq Require Import Core BinarySingleNaN.
From Verif Require Import Num Py SpecNum Ring Fmt SpecFmt FmtP SpecText.
From Verif Require RingSystem.
From Verif Require Import Text.
Import ListNotations.
Set Implicit Arguments.
Local Open Scope string_scope.

Lemma writes_fmt k (x : f64) : writes k x (fmt_fixed k x).
Proof.
  destruct x as [s|s| |s m e Hb]; cbn [writes].
  - destruct (@fmt_spec k (B754_zero s) eq_refl) as (n & _ & A & B). eauto.
  - destruct s; reflexivity.
  - reflexivity.
  - destruct (@fmt_spec k (B754_finite s m e Hb) eq_refl) as (n & _ & A & B). eauto.
Qed.

(** *** splitting *)
Lemma split_nonnil c s : split c s <> [].
Proof. induction s as [|x s IH]; cbn [split]; [discriminate|]. destruct (Ascii.eqb x c); [discriminate|]. destruct (split c s); [contradiction|discriminate]. Qed.
Lemma split_app c a b : split c (a ++ String c b) = app (split c a) (split c b).
Proof.
  induction a as [|x a IH]; cbn [append split]; [now rewrite Ascii.eqb_refl|]. rewrite IH. destruct (Ascii.eqb x c); [reflexivity|].
  assert (N := split_nonnil c a). destruct (split c a); [contradiction|reflexivity].
Qed.
Lemma split_join c l : l <> [] -> split c (join (String c "") l) = flat_map (split c) l.
Proof.
  induction l as [|a l IH]; intros H; [contradiction|]. destruct l as [|b l]; [cbn [join flat_map]; now rewrite app_nil_r|].
  change (join (String c "") (a :: b :: l)) with (a ++ String c "" ++ join (String c "") (b :: l)). cbn [append]. rewrite split_app, IH by discriminate. reflexivity.
Qed.
Fixpoint lacks (c : ascii) (s : string) : bool := match s with EmptyString => true | String x s => negb (Ascii.eqb x c) && lacks c s end.
Lemma lacks_app c a b : lacks c (a ++ b) = lacks c a && lacks c b.
Proof. induction a as [|x a IH]; cbn [append lacks]; [reflexivity|]. now rewrite IH, andb_assoc. Qed.
Lemma split_lacks c s : lacks c s = true -> split c s = [s].
Proof.
  induction s as [|x s IH]; cbn [lacks split]; [reflexivity|]. intros H. apply andb_prop in H as [H1 H2]. apply negb_true_iff in H1. rewrite H1, IH by auto. reflexivity.
Qed.
Lemma lacks_copies c n s : lacks c s = true -> lacks c (copies n s) = true.
Proof.
  intros H. unfold copies. induction n as [|n IH]; [reflexivity|]. cbn [repeat String.concat]. destruct (repeat s n) eqn:E; [exact H|]. rewrite lacks_app, H. exact IH.
Qed.

(** *** written numbers have neither spaces nor line breaks *)
Definition tidy (s : string) : bool := lacks " "%char s && lacks (ascii_of_nat 10) s.
Lemma tidy_app a b : tidy (a ++ b) = tidy a && tidy b.
Proof. unfold tidy. rewrite !lacks_app. destruct (lacks " " a), (lacks " " b), (lacks (ascii_of_nat 10) a); reflexivity. Qed.
Lemma tidy_digits k : forall n, tidy (digits k n) = true.
Proof.
  induction k as [|k IH]; intros n; cbn [digits]; [reflexivity|]. rewrite tidy_app, IH. cbn [andb].
  assert (H : (0 <= n mod 10 < 10)%Z) by (apply Z.mod_pos_bound; lia). revert H. generalize (n mod 10)%Z. intros d H.
  assert (E : In d [0; 1; 2; 3; 4; 5; 6; 7; 8; 9]%Z) by (cbn; lia).
  cbn [In] in E. repeat (destruct E as [<-|E]; [reflexivity|]). destruct E.
Qed.
Lemma tidy_fixed k n : tidy (fixed_text k n) = true.
Proof. unfold fixed_text, whole. now rewrite !tidy_app, !tidy_digits. Qed.
Lemma tidy_fmt k (x : f64) : tidy (fmt_fixed k x) = true.
Proof. destruct x as [[]|[]| |[] m e Hb]; cbn [fmt_fixed]; rewrite ?tidy_app, ?tidy_fixed; reflexivity. Qed.
Lemma tidy_nat n : tidy (str_nat n) = true. Proof. apply tidy_digits. Qed.
Lemma app_nonempty a b : b <> "" -> a ++ b <> "".
Proof. destruct a; [auto|discriminate]. Qed.
Lemma digits_nonempty k n : k <> 0 -> digits k n <> "".
Proof. destruct k; [contradiction|]. intros _. cbn [digits]. apply app_nonempty. discriminate. Qed.
Lemma width_pos f : forall n, width f n <> 0.
Proof. destruct f; intros n; cbn [width]; [discriminate|]. destruct (_ <? _)%Z; discriminate. Qed.
Lemma fmt_nonempty k (x : f64) : fmt_fixed k x <> "".
Proof.
  assert (F : forall n, fixed_text k n <> "") by (intros n; unfold fixed_text; apply app_nonempty; discriminate).
  destruct x as [[]|[]| |[] m e Hb]; cbn [fmt_fixed]; try discriminate; apply app_nonempty, F.
Qed.
Lemma nat_nonempty n : str_nat n <> "". Proof. apply digits_nonempty, width_pos. Qed.
Lemma read_str_nat n : read_count (str_nat n) = Some (Z.of_nat n).
Proof.
  unfold read_count, str_nat. destruct (@read_whole (Z.of_nat n) 0 (Some 0) "") as (w & _ & H); [lia|]. rewrite app_nil_s in H. rewrite H. reflexivity.
Qed.

(** *** words *)
Lemma words_app a b : words (a ++ String " " b) = app (words a) (words b).
Proof. unfold words. now rewrite split_app, filter_app. Qed.
Lemma words_space b : words (String " " b) = words b.
Proof. exact (words_app "" b). Qed.
Lemma words_spaces n b : words (spaces n ++ b) = words b.
Proof. unfold spaces. induction n as [|n IH]; [reflexivity|]. cbn [repeat string_of_list_ascii append]. now rewrite words_space. Qed.
Lemma words_tidy w : tidy w = true -> w <> "" -> words w = [w].
Proof.
  intros H N. apply andb_prop in H as [H _]. unfold words. rewrite split_lacks by auto. cbn [filter]. destruct (String.eqb_spec w ""); [contradiction|reflexivity].
Qed.
Lemma words_rjust n w : tidy w = true -> w <> "" -> words (rjust n w) = [w].
Proof. intros H N. unfold rjust. rewrite words_spaces. now apply words_tidy. Qed.
Lemma words_rjust_then n w b : tidy w = true -> w <> "" -> words (rjust n w ++ String " " b) = w :: words b.
Proof. intros H N. now rewrite words_app, words_rjust. Qed.
Lemma lacks_spaces n : lacks (ascii_of_nat 10) (spaces n) = true.
Proof. unfold spaces. induction n; auto. Qed.
Lemma lacks_rjust n w : tidy w = true -> lacks (ascii_of_nat 10) (rjust n w) = true.
Proof. intros H. unfold rjust. rewrite lacks_app, lacks_spaces. apply andb_prop in H as [_ H]. exact H. Qed.

(** *** a ring *)
Lemma labelled (label unit : string) n k (x : f64) : lacks (ascii_of_nat 10) label = true -> lacks (ascii_of_nat 10) unit = true ->
  lacks (ascii_of_nat 10) (label ++ " " ++ rjust n (fmt_fixed k x) ++ " " ++ unit) = true.
Proof. intros A B. rewrite !lacks_app, A, B, lacks_rjust by apply tidy_fmt. reflexivity. Qed.
Lemma labelled_words (label unit : string) n k (x : f64) :
  words (label ++ " " ++ rjust n (fmt_fixed k x) ++ " " ++ unit) = app (words label) (fmt_fixed k x :: words unit).
Proof. cbn [append]. rewrite words_app. f_equal. cbn [append]. apply words_rjust_then; [apply tidy_fmt|apply fmt_nonempty]. Qed.
Lemma join_labelled label n k (x : f64) unit : (label ++ " ") ++ rjust n (fmt_fixed k x) ++ " " ++ unit = label ++ " " ++ rjust n (fmt_fixed k x) ++ " " ++ unit.
Proof. now rewrite app_assoc_s. Qed.

Lemma shows_line l i label unit ws n k x : nth_error l i = Some (label ++ " " ++ rjust n (fmt_fixed k x) ++ " " ++ unit) ->
  words label = ws -> words unit = [unit] -> shows l i ws unit k x.
Proof.
  intros H <- U. eexists _, (fmt_fixed k x). split; [exact H|]. rewrite labelled_words, U. split; [reflexivity|apply writes_fmt].
Qed.
Lemma flat_single (l : list string) : Forall (fun s => lacks (ascii_of_nat 10) s = true) l -> flat_map (split (ascii_of_nat 10)) l = l.
Proof. induction 1 as [|a l H _ IH]; [reflexivity|]. cbn [flat_map]. now rewrite split_lacks, IH. Qed.

Definition ring_params (r : ring f64) : list string :=
  ["Inner Radius:" ++ " " ++ rjust 8 (fmt_fixed 4 (r_in r)) ++ " " ++ "[R*]";
   "Outer Radius:" ++ " " ++ rjust 8 (fmt_fixed 4 (r_out r)) ++ " " ++ "[R*]";
   "Transmission:" ++ " " ++ rjust 8 (fmt_fixed 4 (r_tr r)) ++ " " ++ "[-]";
   "Inclination:" ++ " " ++ rjust 9 (fmt_fixed 4 (r_inc r)) ++ " " ++ "[deg]";
   "Tilt:" ++ " " ++ rjust 16 (fmt_fixed 4 (r_tilt r)) ++ " " ++ "[deg]"].
Lemma ring_params_single r : Forall (fun s => lacks (ascii_of_nat 10) s = true) (ring_params r).
Proof. unfold ring_params. repeat constructor; apply labelled; reflexivity. Qed.
Lemma ring_lines_of (r : ring f64) :
  lines_of (ring_str fmt_fixed r) = app [""; copies 28 "="; "***** RING INFORMATION *****"; copies 28 "="; ""] (app (ring_params r) [""; copies 28 "="]).
Proof.
  unfold lines_of, ring_str.
  match goal with |- context [join newline ?l] => change l with (app [""; copies 28 "="; "***** RING INFORMATION *****"; copies 28 "=" ++ newline] (app (ring_params r) [newline ++ copies 28 "="])) end.
  unfold newline at 1. rewrite split_join by discriminate. rewrite !flat_map_app. rewrite (flat_single (ring_params_single r)).
  change (app [""; copies 28 "="; "***** RING INFORMATION *****"; copies 28 "="; ""] (app (ring_params r) [""; copies 28 "="])) with
    (app [""; copies 28 "="; "***** RING INFORMATION *****"; copies 28 "="; ""] (app (ring_params r) [""; copies 28 "="])).
  f_equal. 
Qed.
Theorem ring_text (r : ring f64) : let l := lines_of (ring_str fmt_fixed r) in
  List.length l = 12 /\
  shows l 5 ["Inner"; "Radius:"] "[R*]" 4 (r_in r) /\ shows l 6 ["Outer"; "Radius:"] "[R*]" 4 (r_out r) /\
  shows l 7 ["Transmission:"] "[-]" 4 (r_tr r) /\ shows l 8 ["Inclination:"] "[deg]" 4 (r_inc r) /\ shows l 9 ["Tilt:"] "[deg]" 4 (r_tilt r).
Proof.
  cbn zeta. rewrite ring_lines_of. split; [reflexivity|]. repeat split; (eapply shows_line; [reflexivity|reflexivity|reflexivity]).
Qed.

(** *** a ring system *)
Lemma row_single n (r : ring f64) : lacks (ascii_of_nat 10) (ring_line fmt_fixed n r) = true.
Proof.
  unfold ring_line. cbn [join]. rewrite !lacks_app, !lacks_rjust by (apply tidy_fmt || apply tidy_nat). reflexivity.
Qed.
Lemma row_words n (r : ring f64) : words (ring_line fmt_fixed n r) = [str_nat n; fmt_fixed 2 (r_in r); fmt_fixed 2 (r_out r); fmt_fixed 2 (r_tr r)].
Proof.
  unfold ring_line. cbn [join append].
  rewrite words_rjust_then by (apply tidy_nat || apply nat_nonempty). rewrite !words_space.
  rewrite words_rjust_then by (apply tidy_fmt || apply fmt_nonempty). rewrite !words_space.
  rewrite words_rjust_then by (apply tidy_fmt || apply fmt_nonempty). rewrite !words_space.
  rewrite words_rjust by (apply tidy_fmt || apply fmt_nonempty). reflexivity.
Qed.
Lemma rows_single l : forall n, Forall (fun s => lacks (ascii_of_nat 10) s = true) (ring_lines fmt_fixed n l).
Proof. induction l as [|r l IH]; intros n; cbn [ring_lines]; constructor; auto. apply row_single. Qed.
Lemma rows_nth l : forall n i r, nth_error l i = Some r -> nth_error (ring_lines fmt_fixed n l) i = Some (ring_line fmt_fixed (n + i) r).
Proof.
  induction l as [|a l IH]; intros n [|i] r H; try discriminate; cbn [ring_lines nth_error] in *.
  - injection H as <-. now rewrite Nat.add_0_r.
  - rewrite (IH (S n) i r H). f_equal. f_equal. lia.
Qed.
Lemma rows_length (l : list (ring f64)) : forall n, List.length (ring_lines fmt_fixed n l) = List.length l.
Proof. induction l; intros n; cbn; auto. Qed.
Definition system_params (s : RingSystem.rsys f64) : list string :=
  ["Planet Radius:" ++ " " ++ rjust 7 (fmt_fixed 2 (RingSystem.s_planet s)) ++ " " ++ "[R*]";
   "Inclination:" ++ " " ++ rjust 9 (fmt_fixed 2 (RingSystem.s_inc s)) ++ " " ++ "[deg]";
   "Tilt:" ++ " " ++ rjust 16 (fmt_fixed 2 (RingSystem.s_tilt s)) ++ " " ++ "[deg]"].
Lemma system_params_single s : Forall (fun s => lacks (ascii_of_nat 10) s = true) (system_params s).
Proof. unfold system_params. repeat constructor; apply labelled; reflexivity. Qed.
Definition table_head : list string :=
  ["Ring Parameters"; "---------------"; ""; "Ring #     Inner Radius     Outer Radius     Transmission"].
Lemma system_lines_of h (s : RingSystem.rsys f64) :
  lines_of (rsys_repr fmt_fixed h s) =
  app [""; copies 70 "="; "********************** RING SYSTEM INFORMATION ***********************"; copies 70 "="; "";
       "Geometric Parameters"; "--------------------"; ""]
   (app (system_params s) (app (app [""; ""] table_head) (app (ring_lines fmt_fixed 1 (RingSystem.rings_of h s)) [""; copies 70 "="]))).
Proof.
  unfold lines_of, rsys_repr. set (rows := ring_lines fmt_fixed 1 (RingSystem.rings_of h s)).
  match goal with |- context [join newline ?l] => change l with
    (app [newline ++ copies 70 "="; "********************** RING SYSTEM INFORMATION ***********************"; copies 70 "=" ++ newline;
      "Geometric Parameters"; "--------------------" ++ newline] (app (system_params s) (app [newline; "Ring Parameters"; "---------------" ++ newline;
      "Ring #     Inner Radius     Outer Radius     Transmission"] (app rows [""; copies 70 "="])))) end.
  unfold newline at 1. rewrite split_join by discriminate. rewrite !flat_map_app. rewrite (flat_single (system_params_single s)), (flat_single (rows_single _ _ : Forall _ rows)).
  reflexivity.
Qed.
Theorem system_text h (s : RingSystem.rsys f64) : let l := lines_of (rsys_repr fmt_fixed h s) in
  List.length l = 17 + List.length (RingSystem.rings_of h s) + 2 /\
  shows l 8 ["Planet"; "Radius:"] "[R*]" 2 (RingSystem.s_planet s) /\ shows l 9 ["Inclination:"] "[deg]" 2 (RingSystem.s_inc s) /\
  shows l 10 ["Tilt:"] "[deg]" 2 (RingSystem.s_tilt s) /\
  forall i r, nth_error (RingSystem.rings_of h s) i = Some r -> exists line n a b t,
    nth_error l (17 + i) = Some line /\ words line = [n; a; b; t] /\ read_count n = Some (Z.of_nat (i + 1)) /\
    writes 2 (r_in r) a /\ writes 2 (r_out r) b /\ writes 2 (r_tr r) t.
Proof.
  cbn zeta. rewrite system_lines_of. split; [rewrite !app_length, rows_length; cbn [List.length system_params table_head app]; lia|].
  split; [eapply shows_line; [reflexivity|reflexivity|reflexivity]|]. split; [eapply shows_line; [reflexivity|reflexivity|reflexivity]|]. split; [eapply shows_line; [reflexivity|reflexivity|reflexivity]|].
  intros i r H. set (rows := ring_lines fmt_fixed 1 (RingSystem.rings_of h s)).
  assert (L : i < List.length rows) by (unfold rows; rewrite rows_length; apply nth_error_Some; congruence).
  exists (ring_line fmt_fixed (1 + i) r), (str_nat (1 + i)), (fmt_fixed 2 (r_in r)), (fmt_fixed 2 (r_out r)), (fmt_fixed 2 (r_tr r)). split.
  - cbn [system_params table_head app Nat.add nth_error]. rewrite nth_error_app1 by exact L. apply rows_nth. exact H.
  - split; [apply row_words|]. split; [rewrite read_str_nat; f_equal; lia|]. repeat split; apply writes_fmt.
Qed.
