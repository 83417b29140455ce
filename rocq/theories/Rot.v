(** Rotations, interpolation, views and projections, code/source/math.c, over the real numbers: rounding is left
    out, and zpl_sqrt, zpl_sin, zpl_cos, zpl_tan, zpl_arcsin, zpl_arccos and zpl_arctan2 are the functions of the C
    library (math.c:231-239), that is the functions themselves. Where a division by zero or an argument outside
    the domain gives NaN, the result is [None], or the theorem excludes it. *)
From Coq Require Import Reals RealField Field.
From Verif Require Import Base Vec.

#[global] Instance Ops_R : Ops R := {| f0 := 0%R; f1 := 1%R; fadd := Rplus; fmul := Rmult; fsub := Rminus;
  fopp := Ropp; fdiv := Rdiv; finv := Rinv |}.
#[global] Instance Fld_R : Fld R := {| fth := Rfield |}.
Local Open Scope R_scope.

(** atan2f *)
Definition atan2 (y x : R) : R :=
  if Rlt_dec 0 x then atan (y / x)
  else if Rlt_dec x 0 then (if Rle_dec 0 y then atan (y / x) + PI else atan (y / x) - PI)
  else if Rlt_dec 0 y then PI / 2 else if Rlt_dec y 0 then - (PI / 2) else 0.

(** zpl_vec3_norm, math.c:508-511 *)
Definition vec3_norm (v : vec3 R) : vec3 R := vec3_mul v (1 / sqrt (vec3_dot v v)).
(** zpl_vec4_sub, zpl_vec4_mul, math.c:458-459 *)
Definition vec4_sub (a b : vec4 R) : vec4 R := V4 (x4 a - x4 b) (y4 a - y4 b) (z4 a - z4 b) (w4 a - w4 b).
Definition vec4_mul (a : vec4 R) (s : R) : vec4 R := V4 (x4 a * s) (y4 a * s) (z4 a * s) (w4 a * s).

(** ** Rotations *)
(** zpl_mat4_axis_angle, math.c:888-916, with its norm, cosine and sine; zpl_mat4_rotate, math.c:946-950 *)
Definition mat4_rotation (v : vec3 R) (th : R) : mat4 R := mat4_axis_angle (vec3_norm v) (cos th) (sin th).
Definition mat4_rotate (m : mat4 R) (v : vec3 R) (th : R) : mat4 R := mat4_mul m (mat4_rotation v th).
(** zpl_quat_axis_angle, math.c:1153-1159 *)
Definition quat_axis_angle (axis : vec3 R) (th : R) : vec4 R :=
  let v := vec3_mul (vec3_norm axis) (sin (1 / 2 * th)) in
  V4 (x3 v) (y3 v) (z3 v) (cos (1 / 2 * th)).
(** zpl_quat_euler_angles, math.c:1161-1172 *)
Definition quat_euler_angles (pitch yaw roll : R) : vec4 R :=
  let p := quat_axis_angle (V3 1 0 0) pitch in
  let y := quat_axis_angle (V3 0 1 0) yaw in
  let r := quat_axis_angle (V3 0 0 1) roll in
  quat_mul (quat_mul y p) r.
(** zpl_quat_mag, math.c:1210-1213 *)
Definition quat_mag (q : vec4 R) : R := sqrt (quat_dot q q).
(** zpl_quat_axis, math.c:1226-1230; zpl_quat_angle, 1232-1237 *)
Definition quat_axis (q : vec4 R) : vec3 R := vec3_div (qv (quat_norm (quat_mag q) q)) (sin (acos (w4 q))).
Definition quat_angle (q : vec4 R) : R := 2 * acos (w4 q * (1 / quat_mag q)).
(** zpl_quat_roll, zpl_quat_pitch, zpl_quat_yaw, math.c:1239-1245 *)
Definition quat_roll (q : vec4 R) : R :=
  atan2 (2 * x4 q * y4 q + z4 q * w4 q) (x4 q * x4 q + w4 q * w4 q - y4 q * y4 q - z4 q * z4 q).
Definition quat_pitch (q : vec4 R) : R :=
  atan2 (2 * y4 q * z4 q + w4 q * x4 q) (w4 q * w4 q - x4 q * x4 q - y4 q * y4 q + z4 q * z4 q).
Definition quat_yaw (q : vec4 R) : R := asin (-2 * (x4 q * z4 q - w4 q * y4 q)).
(** zpl_quat_from_mat4, math.c:1294-1352 *)
Definition quat_from_mat4 (mm : mat4 R) : vec4 R :=
  let m := el4 mm in
  let fx := m 0%nat 0%nat - m 1%nat 1%nat - m 2%nat 2%nat in
  let fy := m 1%nat 1%nat - m 0%nat 0%nat - m 2%nat 2%nat in
  let fz := m 2%nat 2%nat - m 0%nat 0%nat - m 1%nat 1%nat in
  let fw := m 0%nat 0%nat + m 1%nat 1%nat + m 2%nat 2%nat in
  let (big, i) := (fw, 0%nat) in
  let (big, i) := if Rlt_dec big fx then (fx, 1%nat) else (big, i) in
  let (big, i) := if Rlt_dec big fy then (fy, 2%nat) else (big, i) in
  let (big, i) := if Rlt_dec big fz then (fz, 3%nat) else (big, i) in
  let value := sqrt (big + 1) * (1 / 2) in
  let mult := 1 / 4 / value in
  match i with
  | 0%nat => V4 ((m 1%nat 2%nat - m 2%nat 1%nat) * mult) ((m 2%nat 0%nat - m 0%nat 2%nat) * mult) ((m 0%nat 1%nat - m 1%nat 0%nat) * mult) value
  | 1%nat => V4 value ((m 0%nat 1%nat + m 1%nat 0%nat) * mult) ((m 2%nat 0%nat + m 0%nat 2%nat) * mult) ((m 1%nat 2%nat - m 2%nat 1%nat) * mult)
  | 2%nat => V4 ((m 0%nat 1%nat + m 1%nat 0%nat) * mult) value ((m 1%nat 2%nat + m 2%nat 1%nat) * mult) ((m 2%nat 0%nat - m 0%nat 2%nat) * mult)
  | _ => V4 ((m 2%nat 0%nat + m 0%nat 2%nat) * mult) ((m 1%nat 2%nat + m 2%nat 1%nat) * mult) value ((m 0%nat 1%nat - m 1%nat 0%nat) * mult)
  end.

(** ** Interpolation *)
(** zpl_vec4_lerp, math.c:1525-1533; zpl_quat_lerp, 1591; zpl_quat_nlerp, 1592-1595 *)
Definition quat_lerp (a b : vec4 R) (t : R) : vec4 R := vec4_add a (vec4_mul (vec4_sub b a) t).
Definition quat_nlerp (a b : vec4 R) (t : R) : vec4 R := let d := quat_lerp a b t in quat_norm (quat_mag d) d.
(** zpl_quat_slerp, math.c:1597-1624. [None]: NaN. What zpl_quat_lerp stores in line 1612 is overwritten. *)
Definition quat_slerp (a b : vec4 R) (t : R) : option (vec4 R) :=
  let cos_theta := quat_dot a b in
  let '(z, cos_theta) := if Rlt_dec cos_theta 0 then (V4 (- x4 b) (- y4 b) (- z4 b) (- w4 b), - cos_theta) else (b, cos_theta) in
  if Rlt_dec 1 cos_theta then None (* arccos *) else
  let angle := acos cos_theta in
  let s1 := sin ((1 - t) * angle) in
  let s0 := sin (t * angle) in
  if Req_EM_T (sin angle) 0 then None else
  let is := 1 / sin angle in
  Some (vec4_mul (vec4_add (vec4_mul a s1) (vec4_mul z s0)) is).
(** zpl_quat_slerp_approx, math.c:1626-1633 *)
Definition quat_slerp_approx (a b : vec4 R) (t : R) : vec4 R :=
  let tp := t + (1 - quat_dot a b) / 3 * t * (-2 * t * t + 3 * t - 1) in quat_nlerp a b tp.
(** zpl_quat_nquad, zpl_quat_squad, zpl_quat_squad_approx, math.c:1635-1654 *)
Definition quat_nquad (p a b q : vec4 R) (t : R) : vec4 R := quat_nlerp (quat_nlerp p q t) (quat_nlerp a b t) (2 * t * (1 - t)).
Definition quat_squad (p a b q : vec4 R) (t : R) : option (vec4 R) :=
  x <- quat_slerp p q t ;; y <- quat_slerp a b t ;; quat_slerp x y (2 * t * (1 - t)).
Definition quat_squad_approx (p a b q : vec4 R) (t : R) : vec4 R :=
  quat_slerp_approx (quat_slerp_approx p q t) (quat_slerp_approx a b t) (2 * t * (1 - t)).

(** ** Views and projections *)
(** zpl_mat4_look_at, math.c:1072-1102, with its norms; zpl_mat4_look_at_lh, 1104-1134 *)
Definition look_at (eye centre up : vec3 R) : mat4 R :=
  let f := vec3_norm (vec3_sub centre eye) in
  let s := vec3_norm (vec3_cross f up) in
  mat4_look_at f s eye.
Definition look_at_lh (eye centre up : vec3 R) : mat4 R :=
  let f := vec3_norm (vec3_sub centre eye) in
  let s := vec3_norm (vec3_cross up f) in
  let u := vec3_cross f s in
  M4 (V4 (x3 s) (x3 u) (x3 f) 0) (V4 (y3 s) (y3 u) (y3 f) 0) (V4 (z3 s) (z3 u) (z3 f) 0)
     (V4 (- vec3_dot s eye) (- vec3_dot u eye) (- vec3_dot f eye) 1).
(** zpl_mat4_ortho2d, math.c:964-974; zpl_mat4_ortho2d_dx, 1019-1029, is the same *)
Definition ortho2d (left right bottom top : R) : mat4 R :=
  M4 (V4 (2 / (right - left)) 0 0 0) (V4 0 (2 / (top - bottom)) 0 0) (V4 0 0 (-1) 0)
     (V4 (- (right + left) / (right - left)) (- (top + bottom) / (top - bottom)) 0 1).
(** zpl_mat4_ortho3d, math.c:976-987; zpl_mat4_ortho3d_dx, 1031-1042 *)
Definition ortho3d (left right bottom top near far : R) : mat4 R :=
  M4 (V4 (2 / (right - left)) 0 0 0) (V4 0 (2 / (top - bottom)) 0 0) (V4 0 0 (-2 / (far - near)) 0)
     (V4 (- (right + left) / (right - left)) (- (top + bottom) / (top - bottom)) (- (far + near) / (far - near)) 1).
Definition ortho3d_dx (left right bottom top near far : R) : mat4 R :=
  M4 (V4 (2 / (right - left)) 0 0 0) (V4 0 (2 / (top - bottom)) 0 0) (V4 0 0 (-1 / (far - near)) 0)
     (V4 (- (right + left) / (right - left)) (- (top + bottom) / (top - bottom)) (- near / (far - near)) 1).
(** zpl_mat4_perspective, math.c:989-1000; zpl_mat4_perspective_dx, 1044-1055 *)
Definition perspective (fovy aspect near far : R) : mat4 R :=
  let t := tan (1 / 2 * fovy) in
  M4 (V4 (1 / (aspect * t)) 0 0 0) (V4 0 (1 / t) 0 0) (V4 0 0 (- (far + near) / (far - near)) (-1)) (V4 0 0 (-2 * far * near / (far - near)) 0).
Definition perspective_dx (fovy aspect near far : R) : mat4 R :=
  let t := tan (1 / 2 * fovy) in
  M4 (V4 (1 / (aspect * t)) 0 0 0) (V4 0 (1 / t) 0 0) (V4 0 0 (- far / (far - near)) (-1)) (V4 0 0 (- near / (far - near)) 0).
(** zpl_mat4_infinite_perspective, math.c:1002-1017 and zpl_mat4_infinite_perspective_dx, 1057-1068 *)
Definition infinite_perspective (fovy aspect near : R) : mat4 R :=
  let range := tan (1 / 2 * fovy) * near in
  let left := - range * aspect in let right := range * aspect in let bottom := - range in let top := range in
  M4 (V4 (2 * near / (right - left)) 0 0 0) (V4 0 (2 * near / (top - bottom)) 0 0) (V4 0 0 (-1) (-1)) (V4 0 0 (-2 * near) 0).
Definition infinite_perspective_dx (fovy aspect near : R) : mat4 R :=
  let t := tan (1 / 2 * fovy) in
  M4 (V4 (1 / (aspect * t)) 0 0 0) (V4 0 (1 / t) 0 0) (V4 0 0 (-1) (-1)) (V4 0 0 (- near) 0).
