(** Specification of the atomic operations: what the writes that reach memory between call and return tell. *)
From Verif Require Import Base Atomic.

(** the writes follow one another *)
Fixpoint chain (v : Z) (ws : list write) (v' : Z) : Prop :=
  match ws with [] => v = v' | x :: ws => w_old x = v /\ chain (w_new x) ws v' end.
(** those of the instructions of one thread, as pairs of old and new value *)
Definition own (t : nat) (ws : list write) : list (Z * Z) := map (fun x => (w_old x, w_new x)) (filter (fun x => Nat.eqb (w_by x) t && negb (w_buffered x)) ws).
(** the values that memory had since it was v *)
Definition seen (v : Z) (ws : list write) : list Z := v :: map w_new ws.
(** the stores of a thread that reached memory *)
Definition stored (t : nat) (ws : list write) : list Z := map w_new (filter (fun x => Nat.eqb (w_by x) t && w_buffered x) ws).

(** an operation of thread t with result r, where memory was v at the call, with the given pending stores, and ws was written until it returned *)
Definition did (w : Z) (t : nat) (o : op) (r v : Z) (pending : list Z) (ws : list write) : Prop :=
  match o with
  | OLoad => own t ws = [] /\ (In r (seen v ws) \/ In r pending)
  | OStore _ => own t ws = []
  | OCas e d => (r = e /\ own t ws = [(e, d)]) \/ (r <> e /\ own t ws = [] /\ In r (seen v ws))
  | OXchg x => own t ws = [(r, x)]
  | OAdd x => own t ws = [(r, (r + x) mod 2^w)]
  | OAnd x => own t ws = [(r, Z.land r x)]
  | OOr x => own t ws = [(r, Z.lor r x)]
  end.

(** the stores a thread has called, in order *)
Fixpoint called_stores (t : nat) (tr : list label) : list Z :=
  match tr with
  | [] => []
  | Call u (OStore x) :: tr => if Nat.eqb u t then x :: called_stores t tr else called_stores t tr
  | _ :: tr => called_stores t tr
  end.
Fixpoint returns (t : nat) (tr : list label) : bool :=
  match tr with [] => false | Ret u _ :: tr => Nat.eqb u t || returns t tr | _ :: tr => returns t tr end.
Fixpoint instructions (t : nat) (tr : list label) : nat :=
  match tr with [] => O | Exec u :: tr => if Nat.eqb u t then S (instructions t tr) else instructions t tr | _ :: tr => instructions t tr end.
Definition locked (o : op) : bool := match o with OLoad | OStore _ => false | _ => true end.
