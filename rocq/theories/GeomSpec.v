(** What rounding, remainders, boxes and frustums should be. *)
From Coq Require Import QArith Qabs.
From Verif Require Import Base Vec.
Local Open Scope Q_scope.

Definition is_floor (n : Z) (x : Q) : Prop := inject_Z n <= x /\ x < inject_Z n + 1.
Definition is_ceil (n : Z) (x : Q) : Prop := inject_Z n - 1 < x /\ x <= inject_Z n.
(** to the nearest, halves away from zero *)
Definition is_round (n : Z) (x : Q) : Prop :=
  (0 <= x -> inject_Z n - (1 # 2) <= x /\ x < inject_Z n + (1 # 2)) /\
  (x < 0 -> inject_Z n - (1 # 2) < x /\ x <= inject_Z n + (1 # 2)).
Definition is_integer (x : Q) : Prop := exists n, x == inject_Z n.
(** C's fmod: the quotient cut towards zero *)
Definition is_fmod (r x y : Q) : Prop :=
  (exists k, x == inject_Z k * y + r) /\ Qabs r < Qabs y /\ (0 <= x -> 0 <= r) /\ (x <= 0 -> r <= 0).

(** points of the half-open span between p and p + d, whichever is smaller *)
Definition in_span (p d x : Q) : Prop := (p <= x /\ x < p + d) \/ (p + d <= x /\ x < p).

(** a point is seen when its clip coordinates are within the cube *)
Definition seen (clip : vec4 Q) : Prop :=
  - w4 clip < x4 clip /\ x4 clip < w4 clip /\ - w4 clip < y4 clip /\ y4 clip < w4 clip /\
  - w4 clip < z4 clip /\ z4 clip < w4 clip.
