(** Atomic operations on one 32- or 64-bit integer, code/source/threading/atomic.c:139-337, the variants for x86 with 64 bits and
    gcc or clang; the functions on pointers (atomic.c:485-507) are the 64-bit ones. Threads interleave at the instructions. Memory is that
    of x86: a plain store goes to a buffer of its thread and reaches memory later; loads see the youngest buffered store of
    their own thread; locked instructions wait until the buffer is empty. Integers are taken as unsigned, modulo 2^w. What the
    compiler does around the functions (they have no memory clobber) is not modelled. *)
From Verif Require Import Base.

Inductive op := OLoad | OStore (x : Z) | OCas (expected desired : Z) | OXchg (desired : Z) | OAdd (operand : Z) | OAnd (operand : Z) | OOr (operand : Z).
(** instructions; the registers are %0 (rax), %2 (tmp) and %3 (operand) *)
Inductive instr := IMov (* mov memory, %0 *) | IStore (* mov %3, memory *) | ICopy (* mov %0, %2 *) | IAnd (* and %3, %2 *) | IOr (* or %3, %2 *)
  | ICmpxchg (* lock cmpxchg %2, memory *) | IXchg (* xchg %0, memory *) | IXadd (* lock xadd %0, memory *) | IJne (* jne 1b *).

(** zpl_atomic32_load 141, zpl_atomic32_store 142, zpl_atomic32_compare_exchange 144-152, zpl_atomic32_exchange 154-163,
    zpl_atomic32_fetch_add 165-173, zpl_atomic32_fetch_and 175-188, zpl_atomic32_fetch_or 190-203, and zpl_atomic64_load to
    zpl_atomic64_fetch_or 206-337 *)
Definition code (o : op) : list instr :=
  match o with
  | OLoad => [IMov]
  | OStore _ => [IStore]
  | OCas _ _ => [ICmpxchg]
  | OXchg _ => [IXchg]
  | OAdd _ => [IXadd]
  | OAnd _ => [IMov; ICopy; IAnd; ICmpxchg; IJne]
  | OOr _ => [IMov; ICopy; IOr; ICmpxchg; IJne]
  end.

(** a thread: the operation it is in, the next instruction, the registers, the zero flag, the store buffer (oldest first) *)
Record thread := mkThread { cur : option op; pc : nat; r0 : Z; r2 : Z; r3 : Z; zf : bool; buf : list Z }.
Definition idle : thread := mkThread None 0 0 0 0 false [].
(** the constraints of the asm statements: which argument is in which register at the start *)
Definition enter (th : thread) (o : op) : thread :=
  match o with
  | OLoad => mkThread (Some o) 0 (r0 th) (r2 th) (r3 th) (zf th) (buf th)
  | OStore x => mkThread (Some o) 0 (r0 th) (r2 th) x (zf th) (buf th)
  | OCas e d => mkThread (Some o) 0 e d (r3 th) (zf th) (buf th)
  | OXchg x | OAdd x => mkThread (Some o) 0 x (r2 th) (r3 th) (zf th) (buf th)
  | OAnd x | OOr x => mkThread (Some o) 0 (r0 th) (r2 th) x (zf th) (buf th)
  end.

(** one instruction: the thread after it and the value it writes to memory, if any; [None]: it has to wait *)
Definition exec (w : Z) (v : Z) (th : thread) (i : instr) : option (thread * option Z) :=
  let next r0' r2' zf' := mkThread (cur th) (S (pc th)) r0' r2' (r3 th) zf' (buf th) in
  match i with
  | IMov => Some (next (last (buf th) v) (r2 th) (zf th), None)
  | IStore => Some (mkThread (cur th) (S (pc th)) (r0 th) (r2 th) (r3 th) (zf th) (buf th ++ [r3 th]), None)
  | ICopy => Some (next (r0 th) (r0 th) (zf th), None)
  | IAnd => Some (next (r0 th) (Z.land (r2 th) (r3 th)) (Z.land (r2 th) (r3 th) =? 0), None)
  | IOr => Some (next (r0 th) (Z.lor (r2 th) (r3 th)) (Z.lor (r2 th) (r3 th) =? 0), None)
  | ICmpxchg => match buf th with [] => if r0 th =? v then Some (next (r0 th) (r2 th) true, Some (r2 th)) else Some (next v (r2 th) false, None) | _ => None end
  | IXchg => match buf th with [] => Some (next v (r2 th) (zf th), Some (r0 th)) | _ => None end
  | IXadd => match buf th with [] => Some (next v (r2 th) ((v + r0 th) mod 2^w =? 0), Some ((v + r0 th) mod 2^w)) | _ => None end
  | IJne => Some (if zf th then next (r0 th) (r2 th) (zf th) else mkThread (cur th) 0 (r0 th) (r2 th) (r3 th) (zf th) (buf th), None)
  end.

(** writes that reach memory: whose, whether from the buffer, the value replaced and the new one *)
Record write := mkWrite { w_by : nat; w_buffered : bool; w_old : Z; w_new : Z }.
Record state := mkState { val : Z; threads : nat -> thread; writes : list write }.
Definition upd (f : nat -> thread) (t : nat) (x : thread) : nat -> thread := fun u => if Nat.eqb u t then x else f u.

(** a thread calls an operation, executes an instruction, returns with a result (of a store: none); its oldest buffered store reaches memory *)
Inductive label := Call (t : nat) (o : op) | Exec (t : nat) | Ret (t : nat) (r : Z) | Flush (t : nat).
Definition step (w : Z) (s : state) (l : label) : option state :=
  match l with
  | Call t o => match cur (threads s t) with None => Some (mkState (val s) (upd (threads s) t (enter (threads s t) o)) (writes s)) | Some _ => None end
  | Exec t =>
      o <- cur (threads s t) ;; i <- nth_error (code o) (pc (threads s t)) ;; ' (th, wr) <- exec w (val s) (threads s t) i ;;
      Some (match wr with
            | None => mkState (val s) (upd (threads s) t th) (writes s)
            | Some x => mkState x (upd (threads s) t th) (writes s ++ [mkWrite t false (val s) x])
            end)
  | Ret t r =>
      o <- cur (threads s t) ;;
      if Nat.eqb (pc (threads s t)) (length (code o)) && (r0 (threads s t) =? r) then
        let th := threads s t in Some (mkState (val s) (upd (threads s) t (mkThread None 0 (r0 th) (r2 th) (r3 th) (zf th) (buf th))) (writes s))
      else None
  | Flush t =>
      let th := threads s t in
      match buf th with
      | [] => None
      | x :: b => Some (mkState x (upd (threads s) t (mkThread (cur th) (pc th) (r0 th) (r2 th) (r3 th) (zf th) b)) (writes s ++ [mkWrite t true (val s) x]))
      end
  end.
Fixpoint run (w : Z) (s : state) (tr : list label) : option state :=
  match tr with [] => Some s | l :: tr => s <- step w s l ;; run w s tr end.
Definition start (v : Z) : state := mkState v (fun _ => idle) [].
