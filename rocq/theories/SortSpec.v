(** Independent notions for sorting. *)
From Coq Require Export Permutation.
From Verif Require Import Base.

Section Spec.
  Context {T : Type}.
  (** [cmp] is a total preorder in C convention (negative, zero, positive). *)
  Definition preorder (cmp : T -> T -> Z) : Prop :=
    (forall a b, cmp a b < 0 <-> cmp b a > 0) /\
    (forall a b c, cmp a b <= 0 -> cmp b c <= 0 -> cmp a c <= 0).
  Definition sorted (cmp : T -> T -> Z) (l : list T) : Prop :=
    forall i j a b, (i < j)%nat -> nth_error l i = Some a -> nth_error l j = Some b -> cmp a b <= 0.
End Spec.
