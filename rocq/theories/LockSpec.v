(** What is said about mutexes and semaphores, from what the threads did alone. *)
From Verif Require Import Base Lock.

(** thread [t] got the lock, and has not given it back since *)
Definition gets (l : label) (t : nat) : Prop := l = Lock t \/ l = TryLock t 0.
Definition holds (tr : list label) (t : nat) : Prop := exists tr1 l tr2, tr = tr1 ++ l :: tr2 /\ gets l t /\ ~ In (Unlock t) tr2.
(** units asked to be posted, and waits that came back with one *)
Fixpoint posted (tr : list label) : Z := match tr with [] => 0 | Post _ n :: tr => Z.max 0 n + posted tr | _ :: tr => posted tr end.
Fixpoint taken (tr : list label) : Z :=
  match tr with [] => 0 | WaitRound _ false :: tr => 1 + taken tr | TryWait _ r :: tr => (if r =? 0 then 1 else 0) + taken tr | _ :: tr => taken tr end.
(** thread [t] has called zpl_semaphore_wait, or zpl_semaphore_post, and is still in it *)
Definition in_wait (s : sys) (t : nat) : Prop := busy s t = Some CWait.
Definition posting (s : sys) : Prop := exists t n, busy s t = Some (CPost n).
