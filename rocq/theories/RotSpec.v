(** What rotations, interpolations, views and projections are, in coordinates. *)
From Coq Require Import Reals.
From Verif Require Import Base Vec.
Local Open Scope R_scope.

Definition dot3 (a b : vec3 R) : R := x3 a * x3 b + y3 a * y3 b + z3 a * z3 b.
Definition scale3 (k : R) (a : vec3 R) : vec3 R := V3 (k * x3 a) (k * y3 a) (k * z3 a).
Definition plus3 (a b : vec3 R) : vec3 R := V3 (x3 a + x3 b) (y3 a + y3 b) (z3 a + z3 b).
Definition minus3 (a b : vec3 R) : vec3 R := V3 (x3 a - x3 b) (y3 a - y3 b) (z3 a - z3 b).
Definition cross3 (a b : vec3 R) : vec3 R :=
  V3 (y3 a * z3 b - z3 a * y3 b) (z3 a * x3 b - x3 a * z3 b) (x3 a * y3 b - y3 a * x3 b).
Definition zero3 : vec3 R := V3 0 0 0.
(** the unit vector with the direction of [a] *)
Definition direction (a u : vec3 R) : Prop := dot3 u u = 1 /\ exists k, 0 < k /\ a = scale3 k u.

(** [w] is [v] turned about the unit vector [u] by the angle [th], counter-clockwise seen against [u]: the part along [u]
    stays, the part across it goes round in the plane spanned by it and by u x v. *)
Definition turned (u : vec3 R) (th : R) (v w : vec3 R) : Prop :=
  let along := scale3 (dot3 u v) u in
  let across := minus3 v along in
  w = plus3 along (plus3 (scale3 (cos th) across) (scale3 (sin th) (cross3 u v))).

Definition dot4 (a b : vec4 R) : R := x4 a * x4 b + y4 a * y4 b + z4 a * z4 b + w4 a * w4 b.
Definition unit4 (a : vec4 R) : Prop := dot4 a a = 1.
Definition zero4 : vec4 R := V4 0 0 0 0.
Definition neg4 (a : vec4 R) : vec4 R := V4 (- x4 a) (- y4 a) (- z4 a) (- w4 a).
Definition direction4 (a u : vec4 R) : Prop :=
  unit4 u /\ exists k, 0 < k /\ a = V4 (k * x4 u) (k * y4 u) (k * z4 u) (k * w4 u).

(** the image of a point under a matrix given by its columns *)
Definition image (m : mat4 R) (p : vec3 R) : vec4 R :=
  let c := m in
  V4 (x4 (a4 c) * x3 p + x4 (b4 c) * y3 p + x4 (c4 c) * z3 p + x4 (d4 c))
     (y4 (a4 c) * x3 p + y4 (b4 c) * y3 p + y4 (c4 c) * z3 p + y4 (d4 c))
     (z4 (a4 c) * x3 p + z4 (b4 c) * y3 p + z4 (c4 c) * z3 p + z4 (d4 c))
     (w4 (a4 c) * x3 p + w4 (b4 c) * y3 p + w4 (c4 c) * z3 p + w4 (d4 c)).
Definition moves (m : mat4 R) (p q : vec3 R) : Prop := image m p = V4 (x3 q) (y3 q) (z3 q) 1.
(** the same after the division by w *)
Definition projects (m : mat4 R) (p q : vec3 R) : Prop :=
  let i := image m p in w4 i <> 0 /\ q = V3 (x4 i / w4 i) (y4 i / w4 i) (z4 i / w4 i).

(** points go to points, and distances, angles and orientation are kept *)
Definition rigid (m : mat4 R) : Prop :=
  exists f : vec3 R -> vec3 R,
    (forall p, moves m p (f p)) /\
    (forall p q r, dot3 (minus3 (f p) (f r)) (minus3 (f q) (f r)) = dot3 (minus3 p r) (minus3 q r)) /\
    (forall p q r s, dot3 (cross3 (minus3 (f p) (f s)) (minus3 (f q) (f s))) (minus3 (f r) (f s)) =
                     dot3 (cross3 (minus3 p s) (minus3 q s)) (minus3 r s)).

(** [y] lies between [c] and [d] where [x] lies between [a] and [b] *)
Definition same_place (a b x c d y : R) : Prop := (y - c) * (b - a) = (x - a) * (d - c).
