(** What the job system is to guarantee, read off the history of events (latest first). *)
From Verif Require Import Base Jobs.

Fixpoint count_ev (f : event -> bool) (h : list event) : nat :=
  match h with [] => 0 | e :: h => (if f e then 1 else 0) + count_ev f h end.
(** how often job [id] was accepted by an enqueue, was started and was finished *)
Definition accepted (id : nat) := count_ev (fun e => match e with Enq _ x true => Nat.eqb x id | _ => false end).
Definition started (id : nat) := count_ev (fun e => match e with Start _ x => Nat.eqb x id | _ => false end).
Definition finished (id : nat) := count_ev (fun e => match e with Finish _ x => Nat.eqb x id | _ => false end).

(** the jobs accepted into queue [j], and those taken from it, in order *)
Fixpoint accepted_in (j : nat) (h : list event) : list nat :=
  match h with
  | [] => []
  | Enq k x true :: h => accepted_in j h ++ (if Nat.eqb k j then [x] else [])
  | _ :: h => accepted_in j h
  end.
Fixpoint taken_from (j : nat) (h : list event) : list nat :=
  match h with
  | [] => []
  | Disp _ k x :: h => taken_from j h ++ (if Nat.eqb k j then [x] else [])
  | _ :: h => taken_from j h
  end.
