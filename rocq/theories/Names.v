(** Model of /repo/GridPropertyName.py and /repo/GridPropertyUnit.py, and of the file names that
    GridProperty.save and load build from them. *)
From Coq Require Import List Bool String Ascii.
Import ListNotations.
Set Implicit Arguments.
Local Open Scope string_scope.

(** GridPropertyName.py:6-13 *)
Inductive pname :=
  | DISK_RADIUS | INCLINATION | TILT | FX_MAP | FY_MAP | DIAGNOSTIC_MAP | GRADIENT | GRADIENT_FIT.
(** GridPropertyUnit.py:6-8 *)
Inductive punit := ECLIPSE_DURATION | DEGREE | NONE.

(** Enum.name *)
Definition name_str (n : pname) : string :=
  match n with
  | DISK_RADIUS => "DISK_RADIUS" | INCLINATION => "INCLINATION" | TILT => "TILT"
  | FX_MAP => "FX_MAP" | FY_MAP => "FY_MAP" | DIAGNOSTIC_MAP => "DIAGNOSTIC_MAP"
  | GRADIENT => "GRADIENT" | GRADIENT_FIT => "GRADIENT_FIT"
  end.
Definition unit_str (u : punit) : string :=
  match u with ECLIPSE_DURATION => "ECLIPSE_DURATION" | DEGREE => "DEGREE" | NONE => "NONE" end.

(** str.split("_") *)
Fixpoint split_us (s : string) : list string :=
  match s with
  | EmptyString => [EmptyString]
  | String c r =>
    if Ascii.eqb c "_" then EmptyString :: split_us r
    else match split_us r with w :: l => String c w :: l | [] => [String c EmptyString] end
  end.

Definition is_upper (c : ascii) : bool := Nat.leb 65 (nat_of_ascii c) && Nat.leb (nat_of_ascii c) 90.
Definition is_lower (c : ascii) : bool := Nat.leb 97 (nat_of_ascii c) && Nat.leb (nat_of_ascii c) 122.
Definition to_lower (c : ascii) : ascii := if is_upper c then ascii_of_nat (nat_of_ascii c + 32) else c.
Definition to_upper (c : ascii) : ascii := if is_lower c then ascii_of_nat (nat_of_ascii c - 32) else c.
Fixpoint lower_str (s : string) : string :=
  match s with EmptyString => EmptyString | String c r => String (to_lower c) (lower_str r) end.
(** str.capitalize, on ASCII *)
Definition capitalize (s : string) : string :=
  match s with EmptyString => EmptyString | String c r => String (to_upper c) (lower_str r) end.

(** GridPropertyName.py:26-43 get_name (also __str__, 15-24) *)
Definition get_name (n : pname) : string := String.concat " " (map capitalize (split_us (name_str n))).
(** GridPropertyUnit.py:10-27 __str__ *)
Definition unit_display (u : punit) : string := String.concat " " (map capitalize (split_us (unit_str u))).
(** GridPropertyUnit.py:29-38 get_unit: the values of 6-8 *)
Definition get_unit (u : punit) : string :=
  match u with ECLIPSE_DURATION => "$t_{ecl}$" | DEGREE => "$^o$" | NONE => "-" end.

(** GridProperty.py:301, 339: the file of the data (np.save adds .npy) *)
Definition data_file (n : pname) (u : punit) : string := name_str n ++ "_" ++ unit_str u ++ ".npy".
(** GridProperty.py:305, 345: the file of the mask *)
Definition mask_file (n : pname) (u : punit) : string := name_str n ++ "_" ++ unit_str u ++ "_mask.npy".
