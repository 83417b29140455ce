(** Threads on Unix, code/source/threading/thread.c: one zpl_thread, used by one owner, and the
    threads that were started with it. Steps interleave and memory is sequentially consistent. A
    procedure is a number, and what it returns is a function [result] of it and of the user data,
    which it reads when it runs. *)
From Verif Require Import Base.
Open Scope list_scope.

(** zpl_thread, thread.h:13-28; [handle] is [None] for 0 *)
Record thread := Thread { handle : option nat; proc : Z; user_data : Z; return_value : Z; semaphore : nat; is_running : bool; nowait : bool }.
(** where a started thread is in zpl__thread_proc and zpl__thread_run, thread.c:37-58 *)
Inductive where_ := Created | Flagged | Released | Called (p : Z) | Left (v : Z) | Stored | Finished.
(** where the owner is: in no call, in zpl_thread_start before its end, in zpl_thread_join *)
Inductive owner_at := Idle | Starting | Joining.
(** [ran]: the procedures that have run, with the user data they had; [stuck]: an assertion failed
    or something undefined was done *)
Record state := State { t : thread; threads : list (nat * where_); owner : owner_at; next : nat; ran : list (Z * Z); stuck : bool }.
Definition with_t (s : state) (x : thread) : state := State x (threads s) (owner s) (next s) (ran s) (stuck s).
Definition with_owner (s : state) (o : owner_at) : state := State (t s) (threads s) o (next s) (ran s) (stuck s).

(** zpl_thread_init and zpl_thread_init_nowait, thread.c:8-23 *)
Definition init (nw : bool) : state := State (Thread None 0 0 0 0 false nw) [] Idle 0 [] false.
Definition crash (s : state) : state := State (t s) (threads s) (owner s) (next s) (ran s) true.

(** what happens: the owner calls zpl_thread_start and it returns, or pthread_create fails with an
    error and leaves anything in the handle; it calls zpl_thread_join and that returns; a thread
    goes on *)
Inductive label := Start (p u : Z) | Started (r : Z) | Failed (p u e : Z) (h : option nat) | Join | Joined | Work.

Section Steps.
  Context (result : Z -> Z -> Z).
  (** a thread goes on: one statement of zpl__thread_proc and zpl__thread_run, thread.c:37-58 *)
  Definition work (x : thread) (w : where_) (ran : list (Z * Z)) : option (thread * where_ * list (Z * Z)) :=
    match w with
    | Created => Some (Thread (handle x) (proc x) (user_data x) (return_value x) (semaphore x) true (nowait x), Flagged, ran)
    | Flagged => Some (Thread (handle x) (proc x) (user_data x) (return_value x) (if nowait x then semaphore x else S (semaphore x)) (is_running x) (nowait x), Released, ran)
    | Released => Some (x, Called (proc x), ran)
    | Called p => Some (x, Left (result p (user_data x)), ran ++ [(p, user_data x)])
    | Left v => Some (Thread (handle x) (proc x) (user_data x) v (semaphore x) (is_running x) (nowait x), Stored, ran)
    | Stored => Some (Thread (handle x) (proc x) (user_data x) (return_value x) (semaphore x) false (nowait x), Finished, ran)
    | Finished => None
    end.
  Inductive step : state -> label -> state -> Prop :=
  (** zpl_thread_start_with_stack, thread.c:65-92 *)
  | step_start s p u : owner s = Idle -> is_running (t s) = false ->
      step s (Start p u)
        (State (Thread (Some (next s)) p u (return_value (t s)) (semaphore (t s)) (is_running (t s)) (nowait (t s)))
           (threads s ++ [(next s, Created)]) Starting (S (next s)) (ran s) (stuck s))
  | step_start_assert s p u : owner s = Idle -> is_running (t s) = true -> step s (Start p u) (crash s)
  | step_failed s p u e h : owner s = Idle -> is_running (t s) = false -> e <> 0 ->
      step s (Failed p u e h) (with_t s (Thread h p u (return_value (t s)) (semaphore (t s)) (is_running (t s)) (nowait (t s))))
  | step_started_nowait s : owner s = Starting -> nowait (t s) = true -> step s (Started 1) (with_owner s Idle)
  | step_started s n : owner s = Starting -> nowait (t s) = false -> semaphore (t s) = S n ->
      step s (Started 1) (with_owner (with_t s (Thread (handle (t s)) (proc (t s)) (user_data (t s)) (return_value (t s)) n (is_running (t s)) (nowait (t s)))) Idle)
  (** zpl_thread_join, thread.c:94-103 *)
  | step_join s id w : owner s = Idle -> handle (t s) = Some id -> In (id, w) (threads s) -> step s Join (with_owner s Joining)
  | step_join_undefined s : owner s = Idle -> (forall id w, handle (t s) = Some id -> ~ In (id, w) (threads s)) -> step s Join (crash s)
  | step_joined s id a b : owner s = Joining -> handle (t s) = Some id -> threads s = a ++ (id, Finished) :: b ->
      step s Joined (State (Thread None (proc (t s)) (user_data (t s)) (return_value (t s)) (semaphore (t s)) (is_running (t s)) (nowait (t s))) (a ++ b) Idle (next s) (ran s) (stuck s))
  | step_work s id w x w' r a b : threads s = a ++ (id, w) :: b -> work (t s) w (ran s) = Some (x, w', r) ->
      step s Work (State x (a ++ (id, w') :: b) (owner s) (next s) r (stuck s)).
  Inductive steps : state -> list label -> state -> Prop :=
  | steps_nil s : steps s [] s
  | steps_snoc s tr s' l s'' : steps s tr s' -> step s' l s'' -> steps s (tr ++ [l]) s''.
End Steps.

(** zpl_thread_is_running, thread.c:6 *)
Definition thread_is_running (s : state) : bool := is_running (t s).
