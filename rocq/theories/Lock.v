(** Mutexes and semaphores on Unix, code/source/threading/mutex.c and sem.c. One mutex and one semaphore, any number of
    threads which call the functions in any order. The pthread and sem functions are taken to be as POSIX says: atomic, the mutex of
    the default kind on Linux, not recovering. Threads interleave at these functions; a wait may be interrupted by signals at any time. *)
From Verif Require Import Base.

(** EBUSY and SEM_VALUE_MAX of Linux *)
Definition EBUSY : Z := 16.
Definition SEM_MAX : Z := 2147483647.

(** a thread inside of zpl_semaphore_post, with the rest of [count], or of zpl_semaphore_wait *)
Inductive call := CPost (count : Z) | CWait.
Record sys := Sys { owner : option nat; value : Z; busy : nat -> option call }.
(** zpl_mutex_init, mutex.c:6-13: the result is that of pthread_mutex_init, 0 if it succeeds; zpl_semaphore_init, sem.c:26: no units *)
Definition mutex_init : Z := 0.
Definition start : sys := Sys None 0 (fun _ => None).

(** the next thing thread [t] does: a call of the mutex with its result, a call of the semaphore, one round of its loop *)
Inductive label := Lock (t : nat) | TryLock (t : nat) (r : Z) | Unlock (t : nat)
  | Post (t : nat) (count : Z) | PostRound (t : nat) | Wait (t : nat) | WaitRound (t : nat) (interrupted : bool) | TryWait (t : nat) (r : Z).
(** [Blocked]: the thread waits, or the call does not give this result *)
Inductive result := Blocked | Undefined | Next (s : sys).
Definition set (f : nat -> option call) (t : nat) (c : option call) : nat -> option call := fun u => if Nat.eqb u t then c else f u.

Definition step (s : sys) (l : label) : result :=
  match l with
  (* zpl_mutex_lock, mutex.c:24-30 *)
  | Lock t =>
    match busy s t, owner s with None, None => Next (Sys (Some t) (value s) (busy s)) | _, _ => Blocked end
  (* zpl_mutex_try_lock, mutex.c:32-38: what pthread_mutex_trylock answers *)
  | TryLock t r =>
    match busy s t, owner s with
    | None, None => if r =? 0 then Next (Sys (Some t) (value s) (busy s)) else Blocked
    | None, Some _ => if r =? EBUSY then Next s else Blocked
    | Some _, _ => Blocked
    end
  (* zpl_mutex_unlock, mutex.c:40-46 *)
  | Unlock t =>
    match busy s t with
    | None => match owner s with Some u => if Nat.eqb u t then Next (Sys None (value s) (busy s)) else Undefined | None => Undefined end
    | Some _ => Blocked
    end
  (* zpl_semaphore_post, sem.c:28; zpl_semaphore_release, sem.c:6, is the call with 1 *)
  | Post t count => match busy s t with None => Next (Sys (owner s) (value s) (set (busy s) t (Some (CPost count)))) | Some _ => Blocked end
  (* [while (count --> 0) sem_post]: the decrement overflows for the least number; a post at the maximum fails, unnoticed *)
  | PostRound t =>
    match busy s t with
    | Some (CPost count) =>
      if count =? - 2^31 then Undefined
      else if 0 <? count then Next (Sys (owner s) (if value s <? SEM_MAX then value s + 1 else value s) (set (busy s) t (Some (CPost (count - 1)))))
      else Next (Sys (owner s) (value s) (set (busy s) t None))
    | _ => Blocked
    end
  (* zpl_semaphore_wait, sem.c:29: again if interrupted *)
  | Wait t => match busy s t with None => Next (Sys (owner s) (value s) (set (busy s) t (Some CWait))) | Some _ => Blocked end
  | WaitRound t interrupted =>
    match busy s t with
    | Some CWait =>
      if interrupted : bool then Next s
      else if 0 <? value s then Next (Sys (owner s) (value s - 1) (set (busy s) t None)) else Blocked
    | _ => Blocked
    end
  (* zpl_semaphore_trywait, sem.c:30 *)
  | TryWait t r =>
    match busy s t with
    | None => if 0 <? value s then (if r =? 0 then Next (Sys (owner s) (value s - 1) (busy s)) else Blocked) else if r =? -1 then Next s else Blocked
    | Some _ => Blocked
    end
  end.
Fixpoint run (s : sys) (tr : list label) : result :=
  match tr with [] => Next s | l :: tr => match step s l with Next s => run s tr | r => r end end.
