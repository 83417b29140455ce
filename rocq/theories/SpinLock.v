(** Spin locks, code/source/threading/atomic.c:402-448 (32-bit; the 64-bit functions are
    the same with a 64-bit counter). Threads interleave at the atomic operations, memory is
    sequentially consistent; the fences and yields have no effect in such a model. *)
From Verif Require Import Base.

(** zpl_atomic32_compare_exchange(a, expected, desired): (result, new value).
    On x86 (atomic.c:144-152, lock cmpxchgl) and MSVC the result is the original value; in
    the generic variant (atomic.c:348-350) it is __atomic_compare_exchange_n's success flag. *)
Definition cas_t := Z -> Z -> Z -> Z * Z.
Definition cas_x86 : cas_t := fun v expected desired => (v, if v =? expected then desired else v).
Definition cas_generic : cas_t := fun v expected desired =>
  if v =? expected then (1, desired) else (0, v).

(** where a thread is: outside; about to compare-exchange in spin_lock with this time_out
    and counter; about to compare-exchange in try_acquire_lock; inside, having been told it
    owns the lock *)
Inductive pc := Out | Spin (time_out counter : Z) | Try | In.
(** what a thread may start when it has a choice *)
Inductive act := Lock (time_out : Z) | TryLock | Unlock | Go.

Section Lock.
  Context (cas : cas_t) (a1 a2 : Z). (* the two constants passed to compare_exchange, in order *)

  (** One step of one thread; the result is the new lock value and program point. [None]:
      the action is not one this thread can take (or the counter overflows, undefined). *)
  Definition thread_step (v : Z) (p : pc) (a : act) : option (Z * pc) :=
    match p, a with
    | Out, Lock time_out => Some (v, Spin time_out 0)        (* call zpl_atomic32_spin_lock *)
    | Out, TryLock => Some (v, Try)                          (* call zpl_atomic32_try_acquire_lock *)
    | Spin time_out counter, Go =>
        (* atomic.c:403-410: one compare-exchange, then the loop condition *)
        let '(old, v) := cas v a1 a2 in
        if negb (old =? 0) then
          if time_out <? 0 then Some (v, Spin time_out counter)
          else if counter =? 2^31 - 1 then None              (* counter++ overflows *)
          else if counter <? time_out then Some (v, Spin time_out (counter + 1))
          else Some (v, Out)                                 (* return false *)
        else Some (v, In)                                    (* return true *)
    | Try, Go =>
        (* atomic.c:434-440 *)
        let '(old, v) := cas v a1 a2 in Some (v, if old =? 0 then In else Out)
    | In, Unlock => Some (0, Out)                            (* spin_unlock, atomic.c:413-416 *)
    | _, _ => None
    end.
  (** the lock's value and the threads *)
  Definition sys : Type := Z * list pc.
  Fixpoint set_nth {A} (l : list A) (n : nat) (x : A) : list A :=
    match l, n with
    | [], _ => []
    | _ :: l, O => x :: l
    | y :: l, S n => y :: set_nth l n x
    end.
  Definition sys_step (s : sys) (m : nat * act) : option sys :=
    p <- nth_error (snd s) (fst m) ;;
    '(v, p) <- thread_step (fst s) p (snd m) ;;
    Some (v, set_nth (snd s) (fst m) p).
  Fixpoint sys_run (s : sys) (sch : list (nat * act)) : option sys :=
    match sch with
    | [] => Some s
    | m :: sch => s <- sys_step s m ;; sys_run s sch
    end.
End Lock.
(** an unused lock (value 0) and [n] threads *)
Definition fresh (n : nat) : sys := (0, repeat Out n).
(** the constants of the code: expected = 1, desired = 0 *)
Definition code_run (cas : cas_t) := sys_run cas 1 0.
(** the lock with the constants exchanged *)
Definition swapped_run (cas : cas_t) := sys_run cas 0 1.
