(** Boxes in three dimensions, pieces and margins of boxes, and copying matrices, code/source/math.c:590-592, 655-657,
    748-750, 1678-1810. Numbers are exact rationals. *)
From Coq Require Import QArith.
From Verif Require Import Base Vec Geom.
Local Open Scope Q_scope.

(** zpl_rect3 and zpl_aabb3, header/math.h *)
Record rect3 := Rect3 { rpos3 : vec3 Q; rdim3 : vec3 Q }.
Record aabb3 := Aabb3 { bmin3 : vec3 Q; bmax3 : vec3 Q }.
(** zpl_aabb3_rect3, zpl_rect3_aabb3, math.c:1689-1694, 1702-1707 *)
Definition aabb3_rect3 (a : rect3) : aabb3 := Aabb3 (rpos3 a) (vec3_add (rpos3 a) (rdim3 a)).
Definition rect3_aabb3 (a : aabb3) : rect3 := Rect3 (bmin3 a) (vec3_sub (bmax3 a) (bmin3 a)).
(** zpl_is_between_limit, header/essentials/helpers.h:128; zpl_aabb3_contains, math.c:1756-1758 *)
Definition between_limit (x lower upper : Q) : bool := (qle lower x && qlt x upper)%bool.
Definition aabb3_contains (a : aabb3) (x y z : Q) : bool :=
  (between_limit x (x3 (bmin3 a)) (x3 (bmax3 a)) && between_limit y (y3 (bmin3 a)) (y3 (bmax3 a)) && between_limit z (z3 (bmin3 a)) (z3 (bmax3 a)))%bool.
(** zpl_rect2_contains_vec2, zpl_rect2_intersects, math.c:1718-1723 *)
Definition rect2_contains_vec2 (a : rect2) (p : vec2 Q) : bool := rect2_contains a (x2 p) (y2 p).
Definition rect2_intersects (a b : rect2) : bool := fst (rect2_intersection a b).
(** zpl_aabb2_get_left, right, top, bottom, math.c:1781-1800 *)
Definition get_left (a : aabb2) (b : Q) : aabb2 :=
  let minx := x2 (bmin a) in let aminx := zmin (x2 (bmax a)) (x2 (bmin a) + b) in
  Aabb2 (V2 minx (y2 (bmin a))) (V2 aminx (y2 (bmax a))).
Definition get_right (a : aabb2) (b : Q) : aabb2 :=
  let maxx := x2 (bmax a) in let amaxx := zmax (x2 (bmin a)) (x2 (bmax a) - b) in
  Aabb2 (V2 amaxx (y2 (bmin a))) (V2 maxx (y2 (bmax a))).
Definition get_top (a : aabb2) (b : Q) : aabb2 :=
  let miny := y2 (bmin a) in let aminy := zmin (y2 (bmax a)) (y2 (bmin a) + b) in
  Aabb2 (V2 (x2 (bmin a)) miny) (V2 (x2 (bmax a)) aminy).
Definition get_bottom (a : aabb2) (b : Q) : aabb2 :=
  let maxy := y2 (bmax a) in let amaxy := zmax (y2 (bmin a)) (y2 (bmax a) - b) in
  Aabb2 (V2 (x2 (bmin a)) amaxy) (V2 (x2 (bmax a)) maxy).
(** zpl_aabb2_add_left, right, top, bottom, math.c:1802-1813 *)
Definition add_left (a : aabb2) (b : Q) : aabb2 := Aabb2 (V2 (x2 (bmin a) - b) (y2 (bmin a))) (V2 (x2 (bmin a)) (y2 (bmax a))).
Definition add_right (a : aabb2) (b : Q) : aabb2 := Aabb2 (V2 (x2 (bmax a)) (y2 (bmin a))) (V2 (x2 (bmax a) + b) (y2 (bmax a))).
Definition add_top (a : aabb2) (b : Q) : aabb2 := Aabb2 (V2 (x2 (bmin a)) (y2 (bmin a) - b)) (V2 (x2 (bmax a)) (y2 (bmin a))).
Definition add_bottom (a : aabb2) (b : Q) : aabb2 := Aabb2 (V2 (x2 (bmin a)) (y2 (bmax a))) (V2 (x2 (bmax a)) (y2 (bmax a) + b)).

(** Objects of memory, as arrays of zpl_f32; a pointer is an object and an index. *)
Definition memory := list (list Q).
Definition ptr := (nat * nat)%type.
Definition peek (h : memory) (p : ptr) (n : nat) : option (list Q) :=
  obj <- nth_error h (fst p) ;; if (snd p + n <=? length obj)%nat then Some (firstn n (skipn (snd p) obj)) else None.
Definition poke (h : memory) (p : ptr) (l : list Q) : option memory :=
  obj <- nth_error h (fst p) ;;
  if (snd p + length l <=? length obj)%nat
  then Some (firstn (fst p) h ++ (firstn (snd p) obj ++ l ++ skipn (snd p + length l) obj) :: skipn (S (fst p)) h) else None.
(** zpl_memcopy of n floats, essentials/memory.c:70-73, that is memcpy: undefined, [None], if it leaves the objects
    or if the areas overlap. NULL is not modelled *)
Definition apart (d s : ptr) (n : nat) : bool :=
  (negb (fst d =? fst s) || (snd d + n <=? snd s) || (snd s + n <=? snd d))%nat%bool.
Definition memcopy (h : memory) (d s : ptr) (n : nat) : option memory :=
  if apart d s n then l <- peek h s n ;; poke h d l else None.
(** zpl_mat2_copy, zpl_mat3_copy, zpl_mat4_copy, math.c:590-592, 655-657, 748-750: sizeof(zpl_mat3) is nine floats *)
Definition mat2_copy (h : memory) (out m : ptr) : option memory := memcopy h out m 9.
Definition mat3_copy (h : memory) (out m : ptr) : option memory := memcopy h out m 9.
Definition mat4_copy (h : memory) (out m : ptr) : option memory := memcopy h out m 16.
