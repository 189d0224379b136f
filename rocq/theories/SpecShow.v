(** Specification vocabulary for the texts of grid objects: what stands on a line. *)
From Coq Require Import ZArith Reals List Bool String.
From Flocq Require Import Core BinarySingleNaN.
From Verif Require Import Num Py Validate Ring SpecNum FS GridParams GridDiag Names GridProp SpecProp Shallot SpecOps SpecFmt SpecText.
Import ListNotations.
Set Implicit Arguments.

(** the words of line [i] *)
Definition reads (l : list string) (i : nat) (ws : list string) : Prop := exists s, nth_error l i = Some s /\ words s = ws.
(** a count in brackets *)
Definition counted (n : nat) (w : string) : Prop := exists c, w = ("(" ++ c ++ ")")%string /\ read_count c = Some (Z.of_nat n).
(** a number followed by a percent sign *)
Definition percented (k : nat) (x : f64) (w : string) : Prop := exists c, w = (c ++ "%")%string /\ writes k x c.
(** the share of [c] in [v], in percent, up to a relative 2^-51 *)
Definition share (c v : nat) (x : f64) : Prop :=
  exists r, f64_val x = XFin r /\ (Rabs (r - 100 * INR c / INR v) <= bpow radix2 (-51) * (100 * INR c / INR v))%R.
(** first and last *)
Definition from_to {A} (l : list A) (a b : A) : Prop := nth_error l 0 = Some a /\ nth_error l (List.length l - 1) = Some b.
(** [c] of the first [n] indices satisfy [P] *)
Definition counts (P : nat -> Prop) (n c : nat) : Prop :=
  exists l, NoDup l /\ (forall i, In i l <-> i < n /\ P i) /\ List.length l = c.
(** the largest size of a number in the list; NaN if there is none *)
Definition largest_size (l : list f64) (x : f64) : Prop :=
  (f64_val x = XNaN /\ forall y, In y l -> f64_val y = XNaN) \/
  (exists y, In y l /\ f64_val x = x_abs (f64_val y) /\ f64_val x <> XNaN) /\
  forall y, In y l -> f64_val y <> XNaN -> xle (x_abs (f64_val y)) (f64_val x).

(** names and units as they are shown *)
Definition heading (p : gprop f64) : string :=
  (match p_name p with
   | DISK_RADIUS => "Disk Radius" | INCLINATION => "Inclination" | TILT => "Tilt" | FX_MAP => "Fx Map" | FY_MAP => "Fy Map"
   | DIAGNOSTIC_MAP => "Diagnostic Map" | GRADIENT => "Gradient" | GRADIENT_FIT => "Gradient Fit"
   end ++ " [" ++ match p_unit p with ECLIPSE_DURATION => "$t_{ecl}$" | DEGREE => "$^o$" | NONE => "-" end ++ "]")%string.

Local Open Scope string_scope.
(** diagnostics: how many are saved *)
Definition diag_shown (d : gdiag f64) (l : list string) : Prop :=
  List.length l = 4 /\ reads l 1 ["Grid"; "Diagnostics"] /\
  exists n, reads l 3 ["diagnostics"; "saved:"; n] /\ read_count n = Some (Z.of_nat (List.length (d_fy d))).
(** parameters: the ends and lengths of the axes, the shape *)
Definition params_shown (g : gparams f64) (l : list string) : Prop :=
  List.length l = 7 /\ reads l 1 ["Grid"; "Parameters"] /\
  (exists x0 x1 a b n, from_to (g_dx g) x0 x1 /\ reads l 3 ["dx:"; a; "->"; b; n] /\ writes 2 x0 a /\ writes 2 x1 b /\ counted (List.length (g_dx g)) n) /\
  (exists y0 y1 a b n, from_to (g_dy g) y0 y1 /\ reads l 4 ["dy:"; a; "->"; b; n] /\ writes 2 y0 a /\ writes 2 y1 b /\ counted (List.length (g_dy g)) n) /\
  (exists r a n, nth_error (g_rfa g) 0 = Some r /\ reads l 5 ["rf:"; a; "->"; "1.00"; "->"; a; n] /\ writes 2 r a /\ counted (List.length (g_rfa g)) n) /\
  (exists a b c, reads l 6 ["grid_shape:"; "(" ++ a ++ ","; b ++ ","; c ++ ")"] /\
     exists i j k, g_shape g = (i, j, k) /\ read_count a = Some (Z.of_nat i) /\ read_count b = Some (Z.of_nat j) /\ read_count c = Some (Z.of_nat k)).
(** the share of masked points *)
Definition masked_share (p : gprop f64) (x : f64) : Prop :=
  exists c, counts (fun i => marked (p_mask p) i = true) (volume (p_shape p)) c /\
    ((0 < volume (p_shape p))%nat -> (Z.of_nat (volume (p_shape p)) <= 2 ^ 53)%Z -> share c (volume (p_shape p)) x).
(** a property: its limits, mean, median and share of masked points; [mean] and [median] stand for np.nanmean
    and np.nanmedian *)
Definition prop_shown (mean median : list f64 -> f64) (p : gprop f64) (l : list string) : Prop :=
  (exists lo w, p_vmin p = Some lo /\ reads l 3 ["min"; "value:"; w] /\ writes 4 (num_of lo) w) /\
  (exists up w, p_vmax p = Some up /\ reads l 4 ["max"; "value:"; w] /\ writes 4 (num_of up) w) /\
  (exists w, reads l 5 ["mean"; "value:"; w] /\ writes 4 (mean (p_data p)) w) /\
  (exists w, reads l 6 ["median"; "value:"; w] /\ writes 4 (median (p_data p)) w) /\
  (p_mask p <> None -> exists w x, reads l 8 ["mask"; "[out]:"; w] /\ percented 4 x w /\ masked_share p x).

(** a gradient: its position, the property, the measurement *)
Definition grad_shown (mean median : list f64 -> f64) (g : ggrad f64) (l : list string) : Prop :=
  (exists w, reads l 1 (app (words (heading (gg_prop g))) ["@"; "pos"; "="; w]) /\ writes 4 (num_of (gg_pos g)) w) /\
  prop_shown mean median (gg_prop g) l /\
  (p_mask (gg_prop g) = None -> List.length l = 7) /\
  (p_mask (gg_prop g) <> None -> List.length l = 13 /\
    (exists v w, gg_meas g = Some v /\ reads l 9 ["measured"; "gradient:"; w] /\ writes 4 (num_of v) w) /\
    (exists v w, gg_err g = Some v /\ reads l 10 ["measured"; "error:"; w] /\ writes 4 (num_of v) w) /\
    (exists v w, gg_orb g = Some v /\ reads l 11 ["orbital"; "scale:"; w] /\ writes 4 (num_of v) w) /\
    (exists v w, gg_trans g = Some v /\ reads l 12 ["transmission"; "change:"; w] /\ writes 4 (num_of v) w)).

(** a grid: the texts of its parts one after the other, then the share of masked points and the largest
    deviation of the interpolation *)
Definition grid_shown (mean median : list f64 -> f64) (s : shallot f64) (l : list string) : Prop :=
  exists g a b c gr dl pl wl,
    l = app [""; "=========================================="; "******** SHALLOT GRID INFORMATION ********"; "=========================================="]
         (app g (app a (app b (app c (app (List.concat gr) (app dl
           [""; "Grid Information"; "----------------------------"; pl; wl; ""; "=========================================="])))))) /\
    params_shown (s_params s) g /\
    prop_shown mean median (s_dr s) a /\ prop_shown mean median (s_tilt s) b /\ prop_shown mean median (s_inc s) c /\
    nth_error a 1 = Some (heading (s_dr s)) /\ nth_error b 1 = Some (heading (s_tilt s)) /\ nth_error c 1 = Some (heading (s_inc s)) /\
    Forall2 (grad_shown mean median) (match s_grads s with Some gs => gs | None => [] end) gr /\
    match s_diag s with None => dl = [] | Some d => diag_shown d dl end /\
    (exists w x n, words pl = ["percentage"; "masked:"; w] /\ percented 2 x w /\ counts (masked_at s) (points s) n /\
      ((Z.of_nat (points s) <= 2 ^ 53)%Z -> share n (points s) x)) /\
    (exists w x d, words wl = ["worst"; "interpolation"; "fit:"; w] /\ writes 9 x w /\ s_dmap s = Some d /\ largest_size (p_data d) x).
(** the ends of the axis with this name in a picture: rf runs from 0 to twice its range *)
Definition axis_named (g : gparams f64) (name : string) (a b : f64) : Prop :=
  (name = "$x$" /\ from_to (g_dx g) a b) \/ (name = "$y$" /\ from_to (g_dy g) a b) \/
  (name = "$R_f$" /\ a = n_zero /\ exists r0 r1, from_to (g_rf g) r0 r1 /\ b = n_mul (n_ofZ 2) (n_sub r1 r0)).
