(** Files as sequences of bytes. *)
From Verif Require Import Base.
Open Scope list_scope.

(** [d'] is [d] with the bytes [b] put at [off], with zeros in a gap before them *)
Definition written (d : list Z) (off : nat) (b d' : list Z) : Prop :=
  length d' = (if b then length d else Nat.max (length d) (off + length b)) /\
  forall i, nth i d' 0 = if ((off <=? i) && (i <? off + length b))%nat then nth (i - off) b 0 else nth i d 0.
(** [buf'] is [buf] with the first [n] bytes of [d] behind [off] *)
Definition filled (d : list Z) (off n : nat) (buf buf' : list Z) : Prop :=
  length buf' = length buf /\ forall i, (i < length buf)%nat -> nth i buf' 0 = if (i <? n)%nat then nth (off + i) d 0 else nth i buf 0.
(** the same files, but for one *)
Definition same_but {A} (p : list Z) (fs fs' : list Z -> option A) : Prop := forall q, q <> p -> fs' q = fs q.
