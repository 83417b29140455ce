(** Vectors with two, three and four coordinates, code/source/math.c:442-575, 1525-1576, over the real numbers:
    rounding is left out; where the code computes with NaN the result is [None]. Vectors are passed by value, so
    that the result does not depend on what d points to. *)
From Coq Require Import Reals.
From Verif Require Import Base Vec Rot.
Local Open Scope R_scope.

(** zpl_vec2_add, sub, mul, div, math.c:445-448 *)
Definition vec2_add (a b : vec2 R) : vec2 R := V2 (x2 a + x2 b) (y2 a + y2 b).
Definition vec2_sub (a b : vec2 R) : vec2 R := V2 (x2 a - x2 b) (y2 a - y2 b).
Definition vec2_mul (a : vec2 R) (s : R) : vec2 R := V2 (x2 a * s) (y2 a * s).
Definition vec2_div (a : vec2 R) (s : R) : vec2 R := V2 (x2 a / s) (y2 a / s).
(** zpl_vec2_dot, zpl_vec2_cross, math.c:484, 488; zpl_vec4_dot, 486 *)
Definition vec2_dot (a b : vec2 R) : R := x2 a * x2 b + y2 a * y2 b.
Definition vec2_cross (a b : vec2 R) : R := x2 a * y2 b - x2 b * y2 a.
Definition vec4_dot (a b : vec4 R) : R := x4 a * x4 b + y4 a * y4 b + z4 a * z4 b + w4 a * w4 b.
(** zpl_vec2_mag2, zpl_vec2_mag and the others, math.c:495-502 *)
Definition vec2_mag2 (v : vec2 R) : R := vec2_dot v v.
Definition vec3_mag2 (v : vec3 R) : R := vec3_dot v v.
Definition vec4_mag2 (v : vec4 R) : R := vec4_dot v v.
Definition vec2_mag (v : vec2 R) : R := sqrt (vec2_dot v v).
Definition vec3_mag (v : vec3 R) : R := sqrt (vec3_dot v v).
Definition vec4_mag (v : vec4 R) : R := sqrt (vec4_dot v v).
(** zpl_vec2_norm and the others, math.c:504-515; 1 / sqrt 0 is infinite, and NaN times zero *)
Definition rsqrt (a : R) : option R := if Rlt_dec 0 a then Some (1 / sqrt a) else None.
Definition vec2_norm (v : vec2 R) : option (vec2 R) := r <- rsqrt (vec2_dot v v) ;; Some (vec2_mul v r).
Definition vec3_norm (v : vec3 R) : option (vec3 R) := r <- rsqrt (vec3_dot v v) ;; Some (vec3_mul v r).
Definition vec4_norm (v : vec4 R) : option (vec4 R) := r <- rsqrt (vec4_dot v v) ;; Some (vec4_mul v r).
(** zpl_vec2_norm0 and the others, math.c:517-537 *)
Definition vec2_norm0 (v : vec2 R) : vec2 R := let mag := vec2_mag v in if Rlt_dec 0 mag then vec2_div v mag else V2 0 0.
Definition vec3_norm0 (v : vec3 R) : vec3 R := let mag := vec3_mag v in if Rlt_dec 0 mag then vec3_div v mag else V3 0 0 0.
Definition vec4_norm0 (v : vec4 R) : vec4 R := let mag := vec4_mag v in if Rlt_dec 0 mag then vec4_div v mag else V4 0 0 0 0.
(** zpl_max, zpl_max3, header/essentials/helpers.h:104-112; zpl_vec2_max, zpl_vec3_max, math.c:442, 450 *)
Definition maxr (a b : R) : R := if Rgt_dec a b then a else b.
Definition vec2_max (v : vec2 R) : R := maxr (x2 v) (y2 v).
Definition vec3_max (v : vec3 R) : R := maxr (maxr (x3 v) (y3 v)) (z3 v).
(** zpl_vec2_side, math.c:443 *)
Definition vec2_side (p q r : vec2 R) : R := (x2 q - x2 p) * (y2 r - y2 p) - (x2 r - x2 p) * (y2 q - y2 p).
(** zpl_vec2_reflect, math.c:539-543 *)
Definition vec2_reflect (i n : vec2 R) : vec2 R := vec2_sub i (vec2_mul n (2 * vec2_dot n i)).
(** zpl_vec2_refract, math.c:551-561. If k is negative zpl_sqrt gives NaN, and NaN times zero is NaN *)
Definition refract2_k (i n : vec2 R) (eta : R) : R := let dv := vec2_dot n i in 1 - eta * eta * (1 - dv * dv).
Definition vec2_refract (i n : vec2 R) (eta : R) : option (vec2 R) :=
  let dv := vec2_dot n i in
  let k := refract2_k i n eta in
  if Rlt_dec k 0 then None
  else Some (vec2_mul (vec2_sub (vec2_mul i eta) (vec2_mul n (eta * dv * sqrt k))) 1).
(** zpl_vec3_refract, math.c:563-573 *)
Definition vec3_refract_real (i n : vec3 R) (eta : R) : option (vec3 R) :=
  let dv := vec3_dot n i in
  let k := 1 - eta * eta * (1 - dv * dv) in
  if Rlt_dec k 0 then None
  else Some (vec3_mul (vec3_sub (vec3_mul i eta) (vec3_mul n (eta * dv * sqrt k))) 1).
(** zpl_vec2_aspect_ratio, math.c:575; 0.0001f as a single *)
Definition aspect_eps : R := 13743895 / 137438953472.
Definition vec2_aspect_ratio (v : vec2 R) : R := if Rlt_dec (y2 v) aspect_eps then 0 else x2 v / y2 v.
(** zpl_vec2_lerp and the others, math.c:1525-1533 *)
Definition vec2_lerp (a b : vec2 R) (t : R) : vec2 R := vec2_add a (vec2_mul (vec2_sub b a) t).
Definition vec3_lerp (a b : vec3 R) (t : R) : vec3 R := vec3_add a (vec3_mul (vec3_sub b a) t).
(** zpl_vec2_cslerp, zpl_vec2_dcslerp, math.c:1537-1549, 1566-1576 *)
Definition vec2_cslerp (a v0 b v1 : vec2 R) (t : R) : vec2 R :=
  let t2 := t * t in let ti := t - 1 in let ti2 := ti * ti in
  let h00 := (1 + 2 * t) * ti2 in let h10 := t * ti2 in let h01 := t2 * (3 - 2 * t) in let h11 := t2 * ti in
  V2 (h00 * x2 a + h10 * x2 v0 + h01 * x2 b + h11 * x2 v1) (h00 * y2 a + h10 * y2 v0 + h01 * y2 b + h11 * y2 v1).
Definition vec2_dcslerp (a v0 b v1 : vec2 R) (t : R) : vec2 R :=
  let t2 := t * t in
  let dh00 := 6 * t2 - 6 * t in let dh10 := 3 * t2 - 4 * t + 1 in let dh01 := - (6) * t2 + 6 * t in let dh11 := 3 * t2 - 2 * t in
  V2 (dh00 * x2 a + dh10 * x2 v0 + dh01 * x2 b + dh11 * x2 v1) (dh00 * y2 a + dh10 * y2 v0 + dh01 * y2 b + dh11 * y2 v1).
