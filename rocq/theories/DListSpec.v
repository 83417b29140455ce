(** Independent specification: which sequence of nodes a doubly linked list holds. *)
From Verif Require Import Base DList.

(** [fwd st a l]: following [next] from [a] visits exactly [l] and then NULL. *)
Fixpoint fwd (st : store) (a : Z) (l : list Z) : Prop :=
  match l with
  | [] => a = 0
  | x :: r => a = x /\ x <> 0 /\ exists n, st x = Some n /\ fwd st (n_next n) r
  end.
(** [back st p l]: every node's [prev] is its predecessor ([p] before the first). *)
Fixpoint back (st : store) (p : Z) (l : list Z) : Prop :=
  match l with
  | [] => True
  | x :: r => (exists n, st x = Some n /\ n_prev n = p) /\ back st x r
  end.
(** the list whose nodes are [l], in order *)
Definition dlist (st : store) (l : list Z) : Prop :=
  NoDup l /\ fwd st (hd 0 l) l /\ back st 0 l.
