(** What a barrier is to guarantee, in terms of the observable events alone. *)
From Verif Require Import Base Sync.

(** The history (latest event first) cut into rounds (latest first): the target set and
    the threads that arrived, latest first. *)
Fixpoint rounds (h : list event) : list (Z * list nat) :=
  match h with
  | [] => []
  | Target n :: h => (n, []) :: rounds h
  | Arrive t :: h => match rounds h with [] => [] | (n, ts) :: r => (n, t :: ts) :: r end
  | _ :: h => rounds h
  end.
(** the last round in which [t] arrived *)
Definition last_round (t : nat) (h : list event) : option (Z * list nat) :=
  find (fun r => existsb (Nat.eqb t) (snd r)) (rounds h).
Definition complete (r : Z * list nat) : Prop := Z.of_nat (length (snd r)) = fst r.

(** [t]'s last event in [h] is an arrival, and it was the [n]-th of its round *)
Fixpoint arrived_nth (t : nat) (n : Z) (h : list event) : Prop :=
  match h with
  | [] => False
  | Arrive u :: h' =>
      if Nat.eqb t u then match rounds h with (_, ts) :: _ => Z.of_nat (length ts) = n | [] => False end
      else arrived_nth t n h'
  | Return u :: h' | Reached u _ :: h' => if Nat.eqb t u then False else arrived_nth t n h'
  | Target _ :: h' => arrived_nth t n h'
  end.

(** threads that have arrived and not yet returned *)
Definition arrived (p : pc) : bool :=
  match p with A3 _ | W1 | W2 | W3 | W4 | W5 | L1 _ | L2 _ | L3 _ | L4 _ | U _ | F _ => true | _ => false end.
