(** Text in memory, independently of the functions reading it. *)
From Verif Require Import Base Mem.

(** at [a] is the text [s], ended by a NUL *)
Definition text_at (m : mem) (a : Z) (s : list Z) : Prop :=
  (forall i, (i < length s)%nat -> m (a + Z.of_nat i) = Some (nth i s 0)) /\ m (a + Z.of_nat (length s)) = Some 0.
(** the bytes of a text are not NUL *)
Definition text (s : list Z) : Prop := forall c, In c s -> 0 < c < 256.
(** the [n] bytes at [a] and those at [b] are apart *)
Definition apart (a b n : Z) : Prop := a + n <= b \/ b + n <= a.
