(** Independent specifications for the bit helpers. *)
From Verif Require Import Base.

(** [r] is the smallest multiple of [a] that is not below [p]. *)
Definition least_multiple_from (a p r : Z) : Prop :=
  (exists k, r = a * k) /\ p <= r /\ forall k, p <= a * k -> r <= a * k.

(** Byte number [i] (0 = least significant) of a word. *)
Definition byte_at (v i : Z) : Z := (v / 2^(8*i)) mod 2^8.

(** [w] is the least power of two that is at least [x]. *)
Definition least_pow2 (x w : Z) : Prop :=
  (exists k, 0 <= k /\ w = 2^k) /\ x <= w /\ forall k, 0 <= k -> x <= 2^k -> w <= 2^k.

(** Number of one bits among the 64 lowest. *)
Definition popcount64 (m : Z) : Z :=
  Z.of_nat (length (filter (fun n => Z.testbit m (Z.of_nat n)) (seq 0 64))).
