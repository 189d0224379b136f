(** C104: outlines of rings in binary64. *)
From Coq Require Import ZArith Reals List.
From Flocq Require Import Core.
From Verif Require Import Num Py Ring RingPatchP SpecPatch SpecF64 EdgeExP PatchF64P PatchExP.
Import ListNotations SpecF64.
Local Open Scope R_scope.

(** C104.  With elementary functions and vertices of the unit circle right up to [e], every vertex of the outlines drawn for a
    ring is, in both coordinates, the point of the ring's outer or inner ellipse up to 29 e times its outer radius and the
    distance of its centre from the axes. *)
Theorem C104_outlines (L : Libm f64) e (r : ring f64) i o inc tilt sx sy xs ys (vs : list (f64 * f64)) (ths : list R) :
  accurate L e -> bpow radix2 (-52) <= e <= / 1000000 ->
  f64_val (r_in r) = XFin i -> f64_val (r_out r) = XFin o -> f64_val (r_inc r) = XFin inc -> f64_val (r_tilt r) = XFin tilt ->
  0 <= i <= o -> o <= bpow radix2 200 -> Rabs inc <= 180 -> Rabs tilt <= 180 ->
  f64_val sx = XFin xs -> f64_val sy = XFin ys -> Rabs xs <= bpow radix2 200 -> Rabs ys <= bpow radix2 200 ->
  Forall2 (fun v th => point_within e v (cos th, sin th)) vs ths ->
  Forall2 (point_within (29 * (e * (o + Rabs xs + Rabs ys)) + bpow radix2 (-1000))) (patch_vertices L r (sx, sy) vs)
    (map (fun th => ellipse_point xs ys o (o * cos (rad inc)) (rad tilt) (- th)) ths ++
     map (fun th => ellipse_point xs ys i (i * cos (rad inc)) (rad tilt) (th + PI)) ths).
Proof. exact (fun Acc He => @outlines64 L e Acc He r i o inc tilt sx sy xs ys vs ths). Qed.
Print Assumptions C104_outlines.
(** control points of the curves between them likewise follow the plane of the ring *)
Theorem C104_vertex (L : Libm f64) e (r : ring f64) inc tilt radius flip (sx sy vx vy : f64) R f xs ys a b :
  accurate L e -> bpow radix2 (-52) <= e <= / 1000000 ->
  f64_val (r_inc r) = XFin inc -> f64_val (r_tilt r) = XFin tilt -> Rabs inc <= 180 -> Rabs tilt <= 180 ->
  f64_val radius = XFin R -> 0 <= R <= bpow radix2 200 -> f64_val flip = XFin f -> Rabs f <= 1 -> f64_val sx = XFin xs -> f64_val sy = XFin ys -> Rabs xs <= bpow radix2 200 -> Rabs ys <= bpow radix2 200 ->
  Rabs a <= 1 -> Rabs b <= 1 -> (exists va vb, f64_val vx = XFin va /\ f64_val vy = XFin vb /\ Rabs (va - a) <= e /\ Rabs (vb - b) <= e) ->
  exists x y, f64_val (fst (patch_vertex L r radius flip (sx, sy) (vx, vy))) = XFin x /\ f64_val (snd (patch_vertex L r radius flip (sx, sy) (vx, vy))) = XFin y /\
    Rabs (x - (xs + (R * a * f * cos (rad tilt) + R * b * cos (rad inc) * sin (rad tilt)))) <= 29 * (e * (R + Rabs xs)) + bpow radix2 (-1000) /\
    Rabs (y - (ys + (R * a * f * sin (rad tilt) + R * b * cos (rad inc) * - cos (rad tilt)))) <= 29 * (e * (R + Rabs ys)) + bpow radix2 (-1000).
Proof. exact (fun Acc He => @vertex64 L e Acc He r inc tilt radius flip sx sy vx vy R f xs ys a b). Qed.
Print Assumptions C104_vertex.
(** rings of one plane that touch have the same edge, bit by bit and whatever the elementary functions: the inner outline of
    the outer ring, traced the other way, is the outer outline of the inner ring *)
Theorem C104_shared (L : Libm f64) (r1 r2 : ring f64) shift vs : r_inc r2 = r_inc r1 -> r_tilt r2 = r_tilt r1 -> r_in r2 = r_out r1 ->
  skipn (List.length vs) (patch_vertices L r2 shift (map (fun v => (n_neg (fst v), snd v)) vs)) = firstn (List.length vs) (patch_vertices L r1 shift vs).
Proof. exact (@outline_shared L r1 r2 shift vs). Qed.
Print Assumptions C104_shared.
Example C104_ex : accurate Libm_calc (/ 1000000) /\ bpow radix2 (-52) <= / 1000000 <= / 1000000 /\
  f64_val (r_in ex_ring) = XFin 1 /\ f64_val (r_out ex_ring) = XFin 2 /\ f64_val (r_inc ex_ring) = XFin 45 /\ f64_val (r_tilt ex_ring) = XFin 30 /\
  f64_val (fz 7) = XFin 7 /\ 2 <= bpow radix2 200 /\ Rabs 7 <= bpow radix2 200 /\ Rabs 45 <= 180 /\ Rabs 30 <= 180 /\
  Forall2 (fun v th => point_within (/ 1000000) v (cos th, sin th)) [(fz 1, fz 0); (fz 0, fz 1)] [0; PI / 2].
Proof. exact outline_ex. Qed.
Example C104_ex_shared : exists r1 r2 : ring f64, r_inc r2 = r_inc r1 /\ r_tilt r2 = r_tilt r1 /\ r_in r2 = r_out r1 /\ r_in r1 <> r_out r2.
Proof. exact touching_ex. Qed.
