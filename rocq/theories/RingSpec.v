(** Independent specification of a ring of size [n]: a bounded queue that forgets its
    oldest element when full. *)
From Verif Require Import Base Array Ring.

Section Spec.
  Context {T : Type}.
  (** the last [n] elements *)
  Definition newest (n : nat) (q : list T) : list T := skipn (length q - n) q.

  Definition qstep (n : nat) (q : list T) (o : rop T) : rout T * list T :=
    match o with
    | RAppend x => (Unit, newest n (q ++ [x]))
    | RAppendArray xs => (Unit, newest n (q ++ xs))
    | RGet => (Got (hd_error q), tl q)
    | RGetArray m => (* m >= 1: one fewer than asked for; m = 0 wraps and takes everything *)
        let k := if m =? 0 then length q else min (length q) (Z.to_nat (m - 1)) in
        (GotMany (firstn k q), skipn k q)
    end.
  Fixpoint qrun (n : nat) (q : list T) (h : list (rop T)) : list (rout T) * list T :=
    match h with
    | [] => ([], q)
    | o :: t => let '(x, q) := qstep n q o in let '(xs, q) := qrun n q t in (x :: xs, q)
    end.
  (** arguments in range (zpl_usize) *)
  Definition rvalid (o : rop T) : Prop := match o with RGetArray m => 0 <= m < 2^64 | _ => True end.

  (** the readable contents of a ring: from tail to head, cyclically *)
  Definition readable (r : ring T) (q : list T) : Prop :=
    0 <= tail r < rcap r /\ head r = (tail r + Z.of_nat (length q)) mod rcap r /\
    Z.of_nat (length q) < rcap r /\ Z.of_nat (length (rbuf r)) = rcap r /\
    forall i, (i < length q)%nat -> nth_error (rbuf r) (Z.to_nat ((tail r + Z.of_nat i) mod rcap r)) = nth_error q i.
End Spec.
