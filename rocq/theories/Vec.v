(** Vectors, matrices and quaternions, code/source/math.c:355-1292. Rounding is left out:
    numbers are elements of a field, given as a parameter. Matrices are the four (three, two)
    columns of the unions at header/math.h:61-83, so that [el m j i] is m[j][i] as the code
    writes it. The results of zpl_sqrt, zpl_sin and zpl_cos are parameters where needed. *)
From Coq Require Import Field.
From Verif Require Import Base.

Class Ops (R : Type) := {
  f0 : R; f1 : R; fadd : R -> R -> R; fmul : R -> R -> R; fsub : R -> R -> R; fopp : R -> R;
  fdiv : R -> R -> R; finv : R -> R }.
Class Fld (R : Type) := {
  fops :> Ops R;
  fth : field_theory f0 f1 fadd fmul fsub fopp fdiv finv eq }.

Declare Scope fld_scope.
Notation "0" := f0 : fld_scope.
Notation "1" := f1 : fld_scope.
Notation "2" := (fadd f1 f1) : fld_scope.
Infix "+" := fadd : fld_scope.
Infix "*" := fmul : fld_scope.
Infix "-" := fsub : fld_scope.
Infix "/" := fdiv : fld_scope.
Notation "- x" := (fopp x) : fld_scope.
Delimit Scope fld_scope with F.

Record vec2 (R : Type) := V2 { x2 : R; y2 : R }.
Record vec3 (R : Type) := V3 { x3 : R; y3 : R; z3 : R }.
Record vec4 (R : Type) := V4 { x4 : R; y4 : R; z4 : R; w4 : R }.
Arguments V2 {R}. Arguments x2 {R}. Arguments y2 {R}.
Arguments V3 {R}. Arguments x3 {R}. Arguments y3 {R}. Arguments z3 {R}.
Arguments V4 {R}. Arguments x4 {R}. Arguments y4 {R}. Arguments z4 {R}. Arguments w4 {R}.
Record mat2 (R : Type) := M2 { a2 : vec2 R; b2 : vec2 R }.
Record mat3 (R : Type) := M3 { a3 : vec3 R; b3 : vec3 R; c3 : vec3 R }.
Record mat4 (R : Type) := M4 { a4 : vec4 R; b4 : vec4 R; c4 : vec4 R; d4 : vec4 R }.
Arguments M2 {R}. Arguments a2 {R}. Arguments b2 {R}.
Arguments M3 {R}. Arguments a3 {R}. Arguments b3 {R}. Arguments c3 {R}.
Arguments M4 {R}. Arguments a4 {R}. Arguments b4 {R}. Arguments c4 {R}. Arguments d4 {R}.

Section Model.
Context {R : Type} {F : Ops R}.
Local Open Scope fld_scope.

(** m[j][i]; 0 outside *)
Definition ev2 (v : vec2 R) (i : nat) : R := match i with 0%nat => x2 v | 1%nat => y2 v | _ => 0 end.
Definition ev3 (v : vec3 R) (i : nat) : R := match i with 0%nat => x3 v | 1%nat => y3 v | 2%nat => z3 v | _ => 0 end.
Definition ev4 (v : vec4 R) (i : nat) : R := match i with 0%nat => x4 v | 1%nat => y4 v | 2%nat => z4 v | 3%nat => w4 v | _ => 0 end.
Definition el2 (m : mat2 R) (j i : nat) : R := match j with 0%nat => ev2 (a2 m) i | 1%nat => ev2 (b2 m) i | _ => 0 end.
Definition el3 (m : mat3 R) (j i : nat) : R :=
  match j with 0%nat => ev3 (a3 m) i | 1%nat => ev3 (b3 m) i | 2%nat => ev3 (c3 m) i | _ => 0 end.
Definition el4 (m : mat4 R) (j i : nat) : R :=
  match j with 0%nat => ev4 (a4 m) i | 1%nat => ev4 (b4 m) i | 2%nat => ev4 (c4 m) i | 3%nat => ev4 (d4 m) i | _ => 0 end.
(** for (j ...) for (i ...) out[j][i] = f j i *)
Definition tab2 (f : nat -> nat -> R) : mat2 R := M2 (V2 (f 0 0)%nat (f 0 1)%nat) (V2 (f 1 0)%nat (f 1 1)%nat).
Definition tab3 (f : nat -> nat -> R) : mat3 R :=
  let c j := V3 (f j 0%nat) (f j 1%nat) (f j 2%nat) in M3 (c 0%nat) (c 1%nat) (c 2%nat).
Definition tab4 (f : nat -> nat -> R) : mat4 R :=
  let c j := V4 (f j 0%nat) (f j 1%nat) (f j 2%nat) (f j 3%nat) in M4 (c 0%nat) (c 1%nat) (c 2%nat) (c 3%nat).

(** ** Vectors, math.c:452-485 (the -eq variants are the same) *)
Definition vec3_add (a b : vec3 R) := V3 (x3 a + x3 b) (y3 a + y3 b) (z3 a + z3 b).
Definition vec3_sub (a b : vec3 R) := V3 (x3 a - x3 b) (y3 a - y3 b) (z3 a - z3 b).
Definition vec3_mul (a : vec3 R) (s : R) := V3 (x3 a * s) (y3 a * s) (z3 a * s).
Definition vec3_div (a : vec3 R) (s : R) := V3 (x3 a / s) (y3 a / s) (z3 a / s).
Definition vec3_dot (a b : vec3 R) : R := x3 a * x3 b + y3 a * y3 b + z3 a * z3 b.
(** zpl_vec3_cross, math.c:489-493 *)
Definition vec3_cross (a b : vec3 R) : vec3 R :=
  V3 (y3 a * z3 b - z3 a * y3 b) (z3 a * x3 b - x3 a * z3 b) (x3 a * y3 b - y3 a * x3 b).
Definition vec4_add (a b : vec4 R) := V4 (x4 a + x4 b) (y4 a + y4 b) (z4 a + z4 b) (w4 a + w4 b).
Definition vec4_div (a : vec4 R) (s : R) := V4 (x4 a / s) (y4 a / s) (z4 a / s) (w4 a / s).
(** zpl_vec3_reflect, math.c:545-549 *)
Definition vec3_reflect (i n : vec3 R) : vec3 R := vec3_sub i (vec3_mul n (2 * vec3_dot n i)).

(** zpl_vec3_refract, math.c:563-573, for the value [root] of zpl_sqrt(k) and k >= 0 *)
Definition refract_k (i n : vec3 R) (eta : R) : R := let dv := vec3_dot n i in 1 - eta * eta * (1 - dv * dv).
Definition vec3_refract (i n : vec3 R) (eta root : R) : vec3 R :=
  let dv := vec3_dot n i in vec3_sub (vec3_mul i eta) (vec3_mul n (eta * dv * root)).

(** ** 2x2 *)
(** zpl_float22_identity, math.c:583-588 *)
Definition mat2_identity : mat2 R := M2 (V2 1 0) (V2 0 1).
(** zpl_float22_transpose, math.c:603-612 *)
Definition mat2_transpose (m : mat2 R) : mat2 R := tab2 (fun j i => el2 m i j).
(** zpl_float22_mul, math.c:614-628 (arguments equal to out are copied first) *)
Definition mat2_mul (m1 m2 : mat2 R) : mat2 R :=
  tab2 (fun j i => el2 m1 0 i * el2 m2 j 0 + el2 m1 1 i * el2 m2 j 1).
(** zpl_float22_mul_vec2, math.c:630-633 *)
Definition mat2_mul_vec2 (m : mat2 R) (v : vec2 R) : vec2 R :=
  V2 (el2 m 0 0 * x2 v + el2 m 0 1 * y2 v) (el2 m 1 0 * x2 v + el2 m 1 1 * y2 v).
(** zpl_mat2_determinate, math.c:635-638 *)
Definition mat2_determinate (m : mat2 R) : R := el2 m 0 0 * el2 m 1 1 - el2 m 1 0 * el2 m 0 1.
(** zpl_mat2_inverse, math.c:640-650, with out different from in *)
Definition mat2_inverse (m : mat2 R) : mat2 R :=
  let ood := 1 / mat2_determinate m in
  M2 (V2 (el2 m 1 1 * ood) (- el2 m 0 1 * ood)) (V2 (- el2 m 1 0 * ood) (el2 m 0 0 * ood)).
(** the same with out equal to in: each store is seen by the loads after it *)
Definition mat2_inverse_in_place (m : mat2 R) : mat2 R :=
  let ood := 1 / mat2_determinate m in
  let m := M2 (V2 (el2 m 1 1 * ood) (el2 m 0 1)) (b2 m) in
  let m := M2 (V2 (el2 m 0 0) (- el2 m 0 1 * ood)) (b2 m) in
  let m := M2 (a2 m) (V2 (- el2 m 1 0 * ood) (el2 m 1 1)) in
  M2 (a2 m) (V2 (el2 m 1 0) (el2 m 0 0 * ood)).

(** ** 3x3 *)
(** zpl_float33_identity, math.c:663-673 *)
Definition mat3_identity : mat3 R := M3 (V3 1 0 0) (V3 0 1 0) (V3 0 0 1).
(** zpl_float33_transpose, math.c:684-693 *)
Definition mat3_transpose (m : mat3 R) : mat3 R := tab3 (fun j i => el3 m i j).
(** zpl_float33_mul, math.c:695-711 *)
Definition mat3_mul (m1 m2 : mat3 R) : mat3 R :=
  tab3 (fun j i => el3 m1 0 i * el3 m2 j 0 + el3 m1 1 i * el3 m2 j 1 + el3 m1 2 i * el3 m2 j 2).
(** zpl_float33_mul_vec3, math.c:713-717 *)
Definition mat3_mul_vec3 (m : mat3 R) (v : vec3 R) : vec3 R :=
  V3 (el3 m 0 0 * x3 v + el3 m 0 1 * y3 v + el3 m 0 2 * z3 v)
     (el3 m 1 0 * x3 v + el3 m 1 1 * y3 v + el3 m 1 2 * z3 v)
     (el3 m 2 0 * x3 v + el3 m 2 1 * y3 v + el3 m 2 2 * z3 v).
(** zpl_mat3_determinate, math.c:719-726 *)
Definition mat3_determinate (m : mat3 R) : R :=
  let e := el3 m in
  e 0%nat 0%nat * (e 1%nat 1%nat * e 2%nat 2%nat - e 1%nat 2%nat * e 2%nat 1%nat)
  - e 0%nat 1%nat * (e 1%nat 0%nat * e 2%nat 2%nat - e 1%nat 2%nat * e 2%nat 0%nat)
  + e 0%nat 2%nat * (e 1%nat 0%nat * e 2%nat 1%nat - e 1%nat 1%nat * e 2%nat 0%nat).
(** zpl_mat3_inverse, math.c:728-743 *)
Definition mat3_inverse (m : mat3 R) : mat3 R :=
  let ood := 1 / mat3_determinate m in
  let i := el3 m in
  M3 (V3 ((i 1%nat 1%nat * i 2%nat 2%nat - i 2%nat 1%nat * i 1%nat 2%nat) * ood)
         (- (i 1%nat 0%nat * i 2%nat 2%nat - i 2%nat 0%nat * i 1%nat 2%nat) * ood)
         ((i 1%nat 0%nat * i 2%nat 1%nat - i 2%nat 0%nat * i 1%nat 1%nat) * ood))
     (V3 (- (i 0%nat 1%nat * i 2%nat 2%nat - i 2%nat 1%nat * i 0%nat 2%nat) * ood)
         ((i 0%nat 0%nat * i 2%nat 2%nat - i 2%nat 0%nat * i 0%nat 2%nat) * ood)
         (- (i 0%nat 0%nat * i 2%nat 1%nat - i 2%nat 0%nat * i 0%nat 1%nat) * ood))
     (V3 ((i 0%nat 1%nat * i 1%nat 2%nat - i 1%nat 1%nat * i 0%nat 2%nat) * ood)
         (- (i 0%nat 0%nat * i 1%nat 2%nat - i 1%nat 0%nat * i 0%nat 2%nat) * ood)
         ((i 0%nat 0%nat * i 1%nat 1%nat - i 1%nat 0%nat * i 0%nat 1%nat) * ood)).

(** ** 4x4 *)
(** zpl_float44_identity, math.c:757-774 *)
Definition mat4_identity : mat4 R := M4 (V4 1 0 0 0) (V4 0 1 0 0) (V4 0 0 1 0) (V4 0 0 0 1).
(** zpl_float44_transpose, math.c:785-805 *)
Definition mat4_transpose (m : mat4 R) : mat4 R := tab4 (fun j i => el4 m i j).
(** zpl_float44_mul, math.c:807-825 *)
Definition mat4_mul (m1 m2 : mat4 R) : mat4 R :=
  tab4 (fun j i => el4 m1 0 i * el4 m2 j 0 + el4 m1 1 i * el4 m2 j 1 + el4 m1 2 i * el4 m2 j 2 + el4 m1 3 i * el4 m2 j 3).
(** zpl_float44_mul_vec4, math.c:827-832 *)
Definition mat4_mul_vec4 (m : mat4 R) (v : vec4 R) : vec4 R :=
  let row i := el4 m 0 i * x4 v + el4 m 1 i * y4 v + el4 m 2 i * z4 v + el4 m 3 i * w4 v in
  V4 (row 0%nat) (row 1%nat) (row 2%nat) (row 3%nat).
(** zpl_mat4_inverse, math.c:834-886, with out different from in *)
Definition mat4_cofactors (mm : mat4 R) : mat4 R :=
  let m := el4 mm in
  let sf00 := m 2%nat 2%nat * m 3%nat 3%nat - m 3%nat 2%nat * m 2%nat 3%nat in
  let sf01 := m 2%nat 1%nat * m 3%nat 3%nat - m 3%nat 1%nat * m 2%nat 3%nat in
  let sf02 := m 2%nat 1%nat * m 3%nat 2%nat - m 3%nat 1%nat * m 2%nat 2%nat in
  let sf03 := m 2%nat 0%nat * m 3%nat 3%nat - m 3%nat 0%nat * m 2%nat 3%nat in
  let sf04 := m 2%nat 0%nat * m 3%nat 2%nat - m 3%nat 0%nat * m 2%nat 2%nat in
  let sf05 := m 2%nat 0%nat * m 3%nat 1%nat - m 3%nat 0%nat * m 2%nat 1%nat in
  let sf06 := m 1%nat 2%nat * m 3%nat 3%nat - m 3%nat 2%nat * m 1%nat 3%nat in
  let sf07 := m 1%nat 1%nat * m 3%nat 3%nat - m 3%nat 1%nat * m 1%nat 3%nat in
  let sf08 := m 1%nat 1%nat * m 3%nat 2%nat - m 3%nat 1%nat * m 1%nat 2%nat in
  let sf09 := m 1%nat 0%nat * m 3%nat 3%nat - m 3%nat 0%nat * m 1%nat 3%nat in
  let sf10 := m 1%nat 0%nat * m 3%nat 2%nat - m 3%nat 0%nat * m 1%nat 2%nat in
  let sf11 := m 1%nat 1%nat * m 3%nat 3%nat - m 3%nat 1%nat * m 1%nat 3%nat in
  let sf12 := m 1%nat 0%nat * m 3%nat 1%nat - m 3%nat 0%nat * m 1%nat 1%nat in
  let sf13 := m 1%nat 2%nat * m 2%nat 3%nat - m 2%nat 2%nat * m 1%nat 3%nat in
  let sf14 := m 1%nat 1%nat * m 2%nat 3%nat - m 2%nat 1%nat * m 1%nat 3%nat in
  let sf15 := m 1%nat 1%nat * m 2%nat 2%nat - m 2%nat 1%nat * m 1%nat 2%nat in
  let sf16 := m 1%nat 0%nat * m 2%nat 3%nat - m 2%nat 0%nat * m 1%nat 3%nat in
  let sf17 := m 1%nat 0%nat * m 2%nat 2%nat - m 2%nat 0%nat * m 1%nat 2%nat in
  let sf18 := m 1%nat 0%nat * m 2%nat 1%nat - m 2%nat 0%nat * m 1%nat 1%nat in
  let m0 := m 0%nat in let m1 := m 1%nat in
  M4 (V4 (m1 1%nat * sf00 - m1 2%nat * sf01 + m1 3%nat * sf02)
         (- (m0 1%nat * sf00 - m0 2%nat * sf01 + m0 3%nat * sf02))
         (m0 1%nat * sf06 - m0 2%nat * sf07 + m0 3%nat * sf08)
         (- (m0 1%nat * sf13 - m0 2%nat * sf14 + m0 3%nat * sf15)))
     (V4 (- (m1 0%nat * sf00 - m1 2%nat * sf03 + m1 3%nat * sf04))
         (m0 0%nat * sf00 - m0 2%nat * sf03 + m0 3%nat * sf04)
         (- (m0 0%nat * sf06 - m0 2%nat * sf09 + m0 3%nat * sf10))
         (m0 0%nat * sf13 - m0 2%nat * sf16 + m0 3%nat * sf17))
     (V4 (m1 0%nat * sf01 - m1 1%nat * sf03 + m1 3%nat * sf05)
         (- (m0 0%nat * sf01 - m0 1%nat * sf03 + m0 3%nat * sf05))
         (m0 0%nat * sf11 - m0 1%nat * sf09 + m0 3%nat * sf12)
         (- (m0 0%nat * sf14 - m0 1%nat * sf16 + m0 3%nat * sf18)))
     (V4 (- (m1 0%nat * sf02 - m1 1%nat * sf04 + m1 2%nat * sf05))
         (m0 0%nat * sf02 - m0 1%nat * sf04 + m0 2%nat * sf05)
         (- (m0 0%nat * sf08 - m0 1%nat * sf10 + m0 2%nat * sf12))
         (m0 0%nat * sf15 - m0 1%nat * sf17 + m0 2%nat * sf18)).
Definition mat4_inverse (m : mat4 R) : mat4 R :=
  let o := mat4_cofactors m in
  let ood := 1 / (el4 m 0 0 * el4 o 0 0 + el4 m 0 1 * el4 o 1 0 + el4 m 0 2 * el4 o 2 0 + el4 m 0 3 * el4 o 3 0) in
  tab4 (fun j i => el4 o j i * ood).

(** zpl_mat4_to_translate and zpl_mat4_to_scale, math.c:918-932; zpl_mat4_translate and
    zpl_mat4_scale, 940-956 *)
Definition mat4_to_translate (v : vec3 R) : mat4 R := M4 (V4 1 0 0 0) (V4 0 1 0 0) (V4 0 0 1 0) (V4 (x3 v) (y3 v) (z3 v) 1).
Definition mat4_to_scale (v : vec3 R) : mat4 R := M4 (V4 (x3 v) 0 0 0) (V4 0 (y3 v) 0 0) (V4 0 0 (z3 v) 0) (V4 0 0 0 1).
Definition mat4_translate (m : mat4 R) (v : vec3 R) : mat4 R := mat4_mul m (mat4_to_translate v).
Definition mat4_scale (m : mat4 R) (v : vec3 R) : mat4 R := mat4_mul m (mat4_to_scale v).
(** zpl_mat4_axis_angle, math.c:888-916, for the normalised axis and the cosine and sine *)
Definition mat4_axis_angle (axis : vec3 R) (c s : R) : mat4 R :=
  let t := vec3_mul axis (1 - c) in
  M4 (V4 (c + x3 t * x3 axis) (0 + x3 t * y3 axis + s * z3 axis) (0 + x3 t * z3 axis - s * y3 axis) 0)
     (V4 (0 + y3 t * x3 axis - s * z3 axis) (c + y3 t * y3 axis) (0 + y3 t * z3 axis + s * x3 axis) 0)
     (V4 (0 + z3 t * x3 axis + s * y3 axis) (0 + z3 t * y3 axis - s * x3 axis) (c + z3 t * z3 axis) 0)
     (V4 0 0 0 1).
(** zpl_mat4_look_at, math.c:1072-1102, for the normalised f and s *)
Definition mat4_look_at (f s : vec3 R) (eye : vec3 R) : mat4 R :=
  let u := vec3_cross s f in
  M4 (V4 (x3 s) (x3 u) (- x3 f) 0) (V4 (y3 s) (y3 u) (- y3 f) 0) (V4 (z3 s) (z3 u) (- z3 f) 0)
     (V4 (- vec3_dot s eye) (- vec3_dot u eye) (vec3_dot f eye) 1).

(** ** Quaternions: a vec4 whose xyz is the vector part *)
Definition qv (q : vec4 R) : vec3 R := V3 (x4 q) (y4 q) (z4 q).
(** zpl_quat_identity, math.c:1174-1177 *)
Definition quat_identity : vec4 R := V4 0 0 0 1.
(** zpl_quat_mul, math.c:1182-1187 *)
Definition quat_mul (q0 q1 : vec4 R) : vec4 R :=
  V4 (w4 q0 * x4 q1 + x4 q0 * w4 q1 + y4 q0 * z4 q1 - z4 q0 * y4 q1)
     (w4 q0 * y4 q1 - x4 q0 * z4 q1 + y4 q0 * w4 q1 + z4 q0 * x4 q1)
     (w4 q0 * z4 q1 + x4 q0 * y4 q1 - y4 q0 * x4 q1 + z4 q0 * w4 q1)
     (w4 q0 * w4 q1 - x4 q0 * x4 q1 - y4 q0 * y4 q1 - z4 q0 * z4 q1).
(** zpl_quat_dot, math.c:1206-1209 *)
Definition quat_dot (q0 q1 : vec4 R) : R := vec3_dot (qv q0) (qv q1) + w4 q0 * w4 q1.
(** zpl_quat_conj, math.c:1217-1220; zpl_quat_inverse, 1221-1224; zpl_quat_div, 1189-1193 *)
Definition quat_conj (q : vec4 R) : vec4 R := V4 (- x4 q) (- y4 q) (- z4 q) (w4 q).
Definition quat_inverse (q : vec4 R) : vec4 R := vec4_div (quat_conj q) (quat_dot q q).
Definition quat_div (q0 q1 : vec4 R) : vec4 R := quat_mul q0 (quat_inverse q1).
(** zpl_quat_norm, math.c:1215, for the value [mag] of zpl_quat_mag *)
Definition quat_norm (mag : R) (q : vec4 R) : vec4 R := vec4_div q mag.
(** zpl_quat_rotate_vec3, math.c:1247-1260 *)
Definition quat_rotate_vec3 (q : vec4 R) (v : vec3 R) : vec3 R :=
  let t := vec3_mul (vec3_cross (qv q) v) 2 in
  let p := vec3_cross (qv q) t in
  let d := vec3_mul t (w4 q) in
  let d := vec3_add d v in
  vec3_add d p.
(** zpl_mat4_from_quat, math.c:1262-1292, for the value [mag] of zpl_quat_mag *)
Definition mat4_from_quat (mag : R) (q : vec4 R) : mat4 R :=
  let a := quat_norm mag q in
  let xx := x4 a * x4 a in let yy := y4 a * y4 a in let zz := z4 a * z4 a in
  let xy := x4 a * y4 a in let xz := x4 a * z4 a in let yz := y4 a * z4 a in
  let wx := w4 a * x4 a in let wy := w4 a * y4 a in let wz := w4 a * z4 a in
  M4 (V4 (1 - 2 * (yy + zz)) (2 * (xy + wz)) (2 * (xz - wy)) 0)
     (V4 (2 * (xy - wz)) (1 - 2 * (xx + zz)) (2 * (yz + wx)) 0)
     (V4 (2 * (xz + wy)) (2 * (yz - wx)) (1 - 2 * (xx + yy)) 0)
     (V4 0 0 0 1).
End Model.
