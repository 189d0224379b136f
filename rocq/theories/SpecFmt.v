(** Specification vocabulary for written numbers: reading a decimal text back. *)
From Coq Require Import ZArith Reals List Bool String Ascii.
Import ListNotations.
Set Implicit Arguments.

Definition digit_value (c : ascii) : option Z :=
  let n := Z.of_N (N_of_ascii c) in if (48 <=? n)%Z && (n <=? 57)%Z then Some (n - 48)%Z else None.

(** read digits, with at most one point: all the digits as one integer, and how many follow the point *)
Fixpoint read_digits (acc : Z) (after : option nat) (s : string) : option (Z * nat) :=
  match s with
  | EmptyString => match after with Some k => Some (acc, k) | None => None end
  | String c s =>
    if Ascii.eqb c "."%char then match after with None => read_digits acc (Some 0) s | Some _ => None end
    else match digit_value c with
         | Some d => read_digits (10 * acc + d) (option_map S after) s
         | None => None
         end
  end.
(** sign, digits, number of decimals *)
Definition read_number (s : string) : option (bool * Z * nat) :=
  match s with
  | String c t => if Ascii.eqb c "-"%char then option_map (fun p => (true, fst p, snd p)) (read_digits 0 None t)
                  else option_map (fun p => (false, fst p, snd p)) (read_digits 0 None s)
  | EmptyString => None
  end.

(** [n] is the integer nearest to [x], an even one if two are *)
Definition nearest_even (x : R) (n : Z) : Prop :=
  (Rabs (x - IZR n) <= / 2 /\ (Rabs (x - IZR n) = / 2 -> Z.even n = true))%R.

(** a natural number, written in digits *)
Definition read_count (s : string) : option Z := option_map fst (read_digits 0 (Some 0) s).

(** the pieces of a text between the characters [c] *)
Fixpoint split (c : ascii) (s : string) : list string :=
  match s with
  | EmptyString => [EmptyString]
  | String x s => if Ascii.eqb x c then EmptyString :: split c s
                  else match split c s with w :: l => String x w :: l | [] => [] end
  end.
Definition lines_of (s : string) : list string := split (ascii_of_nat 10) s.
Definition words (s : string) : list string := filter (fun w => negb (String.eqb w EmptyString)) (split " "%char s).

(** [n] counts ten-thousandths: |x| to four decimals *)
From Flocq Require Import BinarySingleNaN.
From Verif Require Import Num.
Definition decimals4 (x : f64) (n : Z) : Prop := nearest_even (Rabs (B2R x) * 10000) n.
