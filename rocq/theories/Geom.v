(** Rounding, remainders, rectangles, boxes, frustums and interpolation from code/source/math.c.
    Numbers are exact rationals; conversions to int are undefined outside its range. *)
From Coq Require Import QArith.
From Verif Require Import Base Vec.

#[global] Instance Ops_Q : Ops Q := {| f0 := 0%Q; f1 := 1%Q; fadd := Qplus; fmul := Qmult; fsub := Qminus;
  fopp := Qopp; fdiv := Qdiv; finv := Qinv |}.

Local Open Scope Q_scope.
Definition qlt (x y : Q) : bool := negb (Qle_bool y x).
Definition qle (x y : Q) : bool := Qle_bool x y.

(** (int)x: towards zero, undefined when it does not fit *)
Definition to_int (x : Q) : option Z :=
  let n := Z.quot (Qnum x) (Zpos (Qden x)) in
  if ((-2147483648 <=? n) && (n <=? 2147483647))%Z then Some n else None.
(** zpl_floor, math.c:259. The literal 0.9999999999999999f is the single 1.0 *)
Definition zpl_floor (x : Q) : option Z := if qle 0 x then to_int x else to_int (x - 1).
(** zpl_ceil, math.c:260 *)
Definition zpl_ceil (x : Q) : option Z :=
  if qlt x 0 then to_int x
  else match to_int x with Some n => if (n =? 2147483647)%Z then None else Some (n + 1)%Z | None => None end.
(** zpl_round, math.c:258 *)
Definition zpl_round (x : Q) : option Z := if qle 0 x then zpl_floor (x + (1 # 2)) else zpl_ceil (x - (1 # 2)).
(** zpl_remainder, math.c:41 *)
Definition zpl_remainder (x y : Q) : option Q :=
  match zpl_round (x / y) with Some n => Some (x - inject_Z n * y) | None => None end.
(** zpl_abs, helpers.h:136; zpl_sign, math.h:166; zpl_copy_sign, math.c:29-39, where a zero is positive *)
Definition zpl_abs (x : Q) : Q := if qlt x 0 then - x else x.
Definition zpl_sign (x : Q) : Q := if qle 0 x then 1 else - (1).
Definition zpl_copy_sign (x y : Q) : Q := if qlt y 0 then - zpl_abs x else zpl_abs x.
(** zpl_mod, math.c:43-49 *)
Definition zpl_mod (x y : Q) : option Q :=
  let y := zpl_abs y in
  match zpl_remainder (zpl_abs x) y with
  | None => None
  | Some r => let r := if qlt 0 (zpl_sign r) then r + y else r in Some (zpl_copy_sign r x)
  end.

(** zpl_min and zpl_max, helpers.h:100-104 *)
Definition zmin (a b : Q) : Q := if qlt a b then a else b.
Definition zmax (a b : Q) : Q := if qlt b a then a else b.

(** zpl_rect2 and zpl_aabb2, header/math.h *)
Record rect2 := Rect2 { rpos : vec2 Q; rdim : vec2 Q }.
Record aabb2 := Aabb2 { bmin : vec2 Q; bmax : vec2 Q }.
Definition vec2_add (a b : vec2 Q) : vec2 Q := V2 (x2 a + x2 b) (y2 a + y2 b).
Definition vec2_sub (a b : vec2 Q) : vec2 Q := V2 (x2 a - x2 b) (y2 a - y2 b).
(** zpl_aabb2_rect2 and zpl_rect2_aabb2, math.c:1683-1701 *)
Definition aabb2_rect2 (a : rect2) : aabb2 := Aabb2 (rpos a) (vec2_add (rpos a) (rdim a)).
Definition rect2_aabb2 (a : aabb2) : rect2 := Rect2 (bmin a) (vec2_sub (bmax a) (bmin a)).
(** zpl_rect2_contains, math.c:1709-1716 *)
Definition rect2_contains (a : rect2) (x y : Q) : bool :=
  let min_x := zmin (x2 (rpos a)) (x2 (rpos a) + x2 (rdim a)) in
  let max_x := zmax (x2 (rpos a)) (x2 (rpos a) + x2 (rdim a)) in
  let min_y := zmin (y2 (rpos a)) (y2 (rpos a) + y2 (rdim a)) in
  let max_y := zmax (y2 (rpos a)) (y2 (rpos a) + y2 (rdim a)) in
  (qle min_x x && qlt x max_x && qle min_y y && qlt y max_y)%bool.
(** zpl_rect2_intersection_result, math.c:1725-1750 *)
Definition rect2_intersection (a b : rect2) : bool * rect2 :=
  let a_min_x := zmin (x2 (rpos a)) (x2 (rpos a) + x2 (rdim a)) in
  let a_max_x := zmax (x2 (rpos a)) (x2 (rpos a) + x2 (rdim a)) in
  let a_min_y := zmin (y2 (rpos a)) (y2 (rpos a) + y2 (rdim a)) in
  let a_max_y := zmax (y2 (rpos a)) (y2 (rpos a) + y2 (rdim a)) in
  let b_min_x := zmin (x2 (rpos b)) (x2 (rpos b) + x2 (rdim b)) in
  let b_max_x := zmax (x2 (rpos b)) (x2 (rpos b) + x2 (rdim b)) in
  let b_min_y := zmin (y2 (rpos b)) (y2 (rpos b) + y2 (rdim b)) in
  let b_max_y := zmax (y2 (rpos b)) (y2 (rpos b) + y2 (rdim b)) in
  let x0 := zmax a_min_x b_min_x in
  let y0 := zmax a_min_y b_min_y in
  let x1 := zmin a_max_x b_max_x in
  let y1 := zmin a_max_y b_max_y in
  if (qlt x0 x1 && qlt y0 y1)%bool then (true, Rect2 (V2 x0 y0) (V2 (x1 - x0) (y1 - y0)))
  else (false, Rect2 (V2 0 0) (V2 0 0)).
(** zpl_aabb2_contains, math.c:1752-1754 *)
Definition aabb2_contains (a : aabb2) (x y : Q) : bool :=
  (qle (x2 (bmin a)) x && qlt x (x2 (bmax a)) && (qle (y2 (bmin a)) y && qlt y (y2 (bmax a))))%bool.
(** zpl_aabb2_cut_left, right, top, bottom, math.c:1760-1779: what is returned and what *a becomes *)
Definition cut_left (a : aabb2) (b : Q) : aabb2 * aabb2 :=
  let minx := x2 (bmin a) in
  let a' := Aabb2 (V2 (zmin (x2 (bmax a)) (x2 (bmin a) + b)) (y2 (bmin a))) (bmax a) in
  (Aabb2 (V2 minx (y2 (bmin a'))) (V2 (x2 (bmin a')) (y2 (bmax a'))), a').
Definition cut_right (a : aabb2) (b : Q) : aabb2 * aabb2 :=
  let maxx := x2 (bmax a) in
  let a' := Aabb2 (bmin a) (V2 (zmax (x2 (bmin a)) (x2 (bmax a) - b)) (y2 (bmax a))) in
  (Aabb2 (V2 (x2 (bmax a')) (y2 (bmin a'))) (V2 maxx (y2 (bmax a'))), a').
Definition cut_top (a : aabb2) (b : Q) : aabb2 * aabb2 :=
  let miny := y2 (bmin a) in
  let a' := Aabb2 (V2 (x2 (bmin a)) (zmin (y2 (bmax a)) (y2 (bmin a) + b))) (bmax a) in
  (Aabb2 (V2 (x2 (bmin a')) miny) (V2 (x2 (bmax a')) (y2 (bmin a'))), a').
Definition cut_bottom (a : aabb2) (b : Q) : aabb2 * aabb2 :=
  let maxy := y2 (bmax a) in
  let a' := Aabb2 (bmin a) (V2 (x2 (bmax a)) (zmax (y2 (bmin a)) (y2 (bmax a) - b))) in
  (Aabb2 (V2 (x2 (bmin a')) (y2 (bmax a'))) (V2 (x2 (bmax a')) maxy), a').
(** zpl_aabb2_contract and zpl_aabb2_expand, math.c:1815-1828 *)
Definition mag2 (v : vec2 Q) : Q := x2 v * x2 v + y2 v * y2 v.
Definition aabb2_contract (a : aabb2) (b : Q) : aabb2 :=
  let r := Aabb2 (V2 (x2 (bmin a) + b) (y2 (bmin a) + b)) (V2 (x2 (bmax a) - b) (y2 (bmax a) - b)) in
  if qlt (mag2 (bmax r)) (mag2 (bmin r)) then Aabb2 (V2 0 0) (V2 0 0) else r.
Definition aabb2_expand (a : aabb2) (b : Q) : aabb2 := aabb2_contract a (- b).

(** zpl_plane, zpl_plane_distance, math.c:1353-1355 *)
Record plane := Plane { pa : Q; pb : Q; pc : Q; pd : Q }.
Definition plane_distance (p : plane) (v : vec3 Q) : Q := pa p * x3 v + pb p * y3 v + pc p * z3 v + pd p.
Section Frustum.
Context (rsqrt : Q -> Q).
Definition plane_norm (p : plane) : plane :=
  let rmag := rsqrt (pa p * pa p + pb p * pb p + pc p * pc p) in
  Plane (pa p * rmag) (pb p * rmag) (pc p * rmag) (pd p * rmag).
(** zpl_frustum_create, math.c:1357-1447, before scaling: x1, x2, y1, y2, z1, z2. pv.x is the first
    column of pv *)
Definition raw_planes (pv : mat4 Q) : list plane :=
  let x := a4 pv in let y := b4 pv in let z := c4 pv in let w := d4 pv in
  [Plane (w4 x + x4 x) (w4 y + y4 x) (w4 z + z4 x) (w4 w + w4 x);
   Plane (w4 x - x4 x) (w4 y - y4 x) (w4 z - z4 x) (w4 w - w4 x);
   Plane (w4 x - x4 y) (w4 y - y4 y) (w4 z - w4 y) (w4 w - z4 y);
   Plane (w4 x + x4 y) (w4 y + y4 y) (w4 z + z4 y) (w4 w + w4 y);
   Plane (w4 x + x4 z) (w4 y + y4 z) (w4 z + z4 z) (w4 w + w4 z);
   Plane (w4 x - x4 z) (w4 y - y4 z) (w4 z - z4 z) (w4 w - w4 z)].
Definition frustum_create (camera proj : mat4 Q) : list plane :=
  map plane_norm (raw_planes (mat4_mul camera proj)).
(** zpl_frustum_sphere_inside and point_inside, math.c:1449-1462 *)
Definition sphere_inside (fr : list plane) (c : vec3 Q) (radius : Q) : bool :=
  forallb (fun p => negb (qle (plane_distance p c) (- radius))) fr.
Definition point_inside (fr : list plane) (c : vec3 Q) : bool := sphere_inside fr c 0.
(** zpl_frustum_box_inside, math.c:1464-1512: whether some corner is inside *)
Definition box_inside (fr : list plane) (lo hi : vec3 Q) : bool :=
  let box := V3 ((x3 hi - x3 lo) / 2) ((y3 hi - y3 lo) / 2) ((z3 hi - z3 lo) / 2) in
  let c := V3 (x3 lo + x3 box) (y3 lo + y3 box) (z3 lo + z3 box) in
  existsb (fun s => point_inside fr (V3 (fst (fst s) * x3 box + x3 c) (snd (fst s) * y3 box + y3 c) (snd s * z3 box + z3 c)))
    [(-(1), -(1), -(1)); (1, -(1), -(1)); (-(1), 1, -(1)); (1, 1, -(1)); (1, 1, 1); (-(1), 1, 1); (-(1), -(1), 1); (1, -(1), 1)].
End Frustum.

(** zpl_lerp, unlerp, smooth_step, smoother_step, math.c:1514-1523 *)
Definition lerp (a b t : Q) : Q := a * (1 - t) + b * t.
Definition unlerp (t a b : Q) : Q := (t - a) / (b - a).
Definition smooth_step (a b t : Q) : Q := let x := (t - a) / (b - a) in x * x * (3 - 2 * x).
Definition smoother_step (a b t : Q) : Q := let x := (t - a) / (b - a) in x * x * x * (x * (6 * x - 15) + 10).
(** one coordinate of zpl_vec3_cslerp, math.c:1551-1564, and of zpl_vec3_dcslerp, 1578-1589 *)
Definition cslerp (a v0 b v1 t : Q) : Q :=
  let t2 := t * t in let ti := t - 1 in let ti2 := ti * ti in
  (1 + 2 * t) * ti2 * a + t * ti2 * v0 + t2 * (3 - 2 * t) * b + t2 * ti * v1.
Definition dcslerp (a v0 b v1 t : Q) : Q :=
  let t2 := t * t in
  (6 * t2 - 6 * t) * a + (3 * t2 - 4 * t + 1) * v0 + (- (6) * t2 + 6 * t) * b + (3 * t2 - 2 * t) * v1.
