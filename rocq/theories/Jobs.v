(** The job system, code/source/jobs.c. The dispatcher (the one thread that calls the
    zpl_jobs_* functions) and any number of workers interleave at each access to a worker's
    status or job slot; memory is sequentially consistent. Queues and counter are only
    touched by the dispatcher. A job is named by a number (its proc and data); 0 is also the
    content of fresh memory. ZPL_JOBS_DEBUG counters are left out. *)
From Verif Require Import Base Ring.

(** zpl_jobs_status, header/jobs.h:27-32 *)
Inductive status := READY | BUSY | WAITING | TERM.
(** where a worker is in zpl__jobs_entry, jobs.c:16-47 *)
Inductive wpc :=
| WLoad                (* line 20: load the status *)
| WBusy                (* line 24: READY was seen, store BUSY *)
| WCall                (* line 25: read tw->job and call its proc *)
| WRun (id : nat)      (* the proc is running *)
| WCas                 (* line 26: BUSY to WAITING *)
| WYield               (* line 37: WAITING was seen *)
| WExit.               (* line 41: TERM was seen, the thread has returned *)
(** zpl_thread_worker, header/jobs.h:50-58 *)
Record worker := mkW { wst : status; wjob : nat; wat : wpc }.

(** where the dispatcher is *)
Inductive mpc :=
| MIdle
(* zpl_jobs_process, jobs.c:154-187 *)
| PLoad (i : nat)             (* line 161, worker i *)
| PPick (i : nat)             (* lines 165-176: worker i was waiting, choose a job *)
| PStore (i : nat) (id : nat) (* line 176: tw->job = ... *)
| PReady (i : nat)            (* line 177 *)
(* zpl_jobs_done, jobs.c:125-134 *)
| DLoad (i : nat)             (* line 128 *)
(* zpl_jobs_free, jobs.c:81-95 *)
| FStore (i : nat)            (* line 85 *)
| FJoin (i : nat)             (* line 86: zpl_thread_destroy joins *)
| MFreed.

Inductive event :=
| Enq (j : nat) (id : nat) (ok : bool)      (* an enqueue and its result *)
| Disp (i : nat) (j : nat) (id : nat)       (* taken from queue j for worker i *)
| Start (i : nat) (id : nat) | Finish (i : nat) (id : nat)
| Processed (r : bool) | Done (r : bool).

Record pool := mkP {
  counter : Z;                     (* zpl_u32 *)
  queues : list (ring nat);
  workers : list worker;
  mat : mpc;
  hist : list event }.             (* latest first *)

(** zpl__jobs_chances, jobs.c:12-14 *)
Definition chances : list Z := [2; 3; 5; 7; 11].

(** zpl_jobs_init_with_limit, jobs.c:53-79 *)
Definition jobs_init (max_threads : nat) (max_jobs : Z) : pool :=
  mkP 0 (repeat (ring_init 0%nat max_jobs) 5) (repeat (mkW WAITING 0 WLoad) max_threads) MIdle [].

(** zpl_jobs_empty_all, jobs.c:136-143 *)
Definition empty_all (qs : list (ring nat)) : bool := forallb ring_empty qs.

(** The inner loop of zpl_jobs_process, jobs.c:165-182, from queue [j] on: the new counter
    and queues, and the job and queue number if one was taken. *)
Fixpoint pick (j : nat) (qs : list (ring nat)) (ch : list Z) (cnt : Z) (last_empty : bool)
  : option (Z * list (ring nat) * option (nat * nat)) :=
  match qs, ch with
  | q :: qs, c :: ch =>
      if ring_empty q then
        '(cnt, qs, r) <- pick (S j) qs ch cnt (Nat.eqb (j + 1) 5) ;; Some (cnt, q :: qs, r)
      else
        (* !last_empty && ((pool->counter++ % q->chance) != 0) *)
        let skip := negb last_empty && negb (cnt mod c =? 0) in
        let cnt := if last_empty then cnt else u32 (cnt + 1) in
        if skip then '(cnt, qs, r) <- pick (S j) qs ch cnt last_empty ;; Some (cnt, q :: qs, r)
        else
          '(x, q) <- ring_get q ;;
          id <- x ;;                                     (* *NULL otherwise *)
          Some (cnt, q :: qs, Some (id, j))
  | _, _ => Some (cnt, [], None)
  end.

Fixpoint set_nth {A} (l : list A) (n : nat) (x : A) : list A :=
  match l, n with
  | [], _ => []
  | _ :: l, O => x :: l
  | y :: l, S n => y :: set_nth l n x
  end.

(** what the schedule can let happen: the idle dispatcher calls something, or the
    dispatcher or a worker takes its next step *)
Inductive move := MEnqueue (id : nat) (j : nat) | MProcess | MDone | MFree | MGo | W (i : nat).

(** zpl__jobs_entry, one step of worker [i]; the events it causes *)
Definition worker_step (i : nat) (w : worker) : option (worker * list event) :=
  match wat w with
  | WLoad =>
      Some (mkW (wst w) (wjob w)
              (match wst w with READY => WBusy | WAITING => WYield | TERM => WExit | BUSY => WLoad end), [])
  | WBusy => Some (mkW BUSY (wjob w) WCall, [])
  | WCall => Some (mkW (wst w) (wjob w) (WRun (wjob w)), [Start i (wjob w)])
  | WRun id => Some (mkW (wst w) (wjob w) WCas, [Finish i id])
  | WCas => Some (mkW (match wst w with BUSY => WAITING | x => x end) (wjob w) WLoad, [])
  | WYield => Some (mkW (wst w) (wjob w) WLoad, [])
  | WExit => None
  end.

(** the dispatcher *)
Definition main_step (p : pool) (m : move) : option pool :=
  let '(mkP cnt qs ws at_ h) := p in
  match at_, m with
  | MIdle, MEnqueue id j =>
      (* zpl_jobs_enqueue_with_priority, jobs.c:97-109; [None] for a bad priority (assertion) *)
      q <- nth_error qs j ;;
      f <- ring_full q ;;
      if f : bool then Some (mkP cnt qs ws MIdle (Enq j id false :: h))
      else q <- ring_append q id ;; Some (mkP cnt (set_nth qs j q) ws MIdle (Enq j id true :: h))
  | MIdle, MProcess =>
      if empty_all qs then Some (mkP cnt qs ws MIdle (Processed false :: h)) else Some (mkP cnt qs ws (PLoad 0) h)
  | PLoad i, MGo =>
      match nth_error ws i with
      | None => Some (mkP cnt qs ws MIdle (Processed true :: h))      (* i == max_threads *)
      | Some w =>
          match wst w with
          | WAITING => Some (mkP cnt qs ws (PPick i) h)
          | _ => Some (mkP cnt qs ws (PLoad (S i)) h)
          end
      end
  | PPick i, MGo =>
      '(cnt, qs, r) <- pick 0 qs chances cnt false ;;
      match r with
      | Some (id, j) => Some (mkP cnt qs ws (PStore i id) (Disp i j id :: h))
      | None => Some (mkP cnt qs ws (PLoad (S i)) h)
      end
  | PStore i id, MGo =>
      w <- nth_error ws i ;; Some (mkP cnt qs (set_nth ws i (mkW (wst w) id (wat w))) (PReady i) h)
  | PReady i, MGo =>
      w <- nth_error ws i ;; Some (mkP cnt qs (set_nth ws i (mkW READY (wjob w) (wat w))) (PLoad (S i)) h)
  | MIdle, MDone => Some (mkP cnt qs ws (DLoad 0) h)
  | DLoad i, MGo =>
      match nth_error ws i with
      | None => Some (mkP cnt qs ws MIdle (Done (empty_all qs) :: h))
      | Some w =>
          match wst w with
          | WAITING => Some (mkP cnt qs ws (DLoad (S i)) h)
          | _ => Some (mkP cnt qs ws MIdle (Done false :: h))
          end
      end
  | MIdle, MFree => Some (mkP cnt qs ws (FStore 0) h)
  | FStore i, MGo =>
      match nth_error ws i with
      | None => Some (mkP cnt qs ws MFreed h)
      | Some w => Some (mkP cnt qs (set_nth ws i (mkW TERM (wjob w) (wat w))) (FJoin i) h)
      end
  | FJoin i, MGo =>
      w <- nth_error ws i ;;
      match wat w with WExit => Some (mkP cnt qs ws (FStore (S i)) h) | _ => None (* blocked *) end
  | _, _ => None
  end.
(** one step; [None]: that step is not possible now *)
Definition jstep (p : pool) (m : move) : option pool :=
  match m with
  | W i =>
      w <- nth_error (workers p) i ;;
      '(w, ev) <- worker_step i w ;;
      Some (mkP (counter p) (queues p) (set_nth (workers p) i w) (mat p) (ev ++ hist p))
  | _ => main_step p m
  end.
Fixpoint jrun (p : pool) (sch : list move) : option pool :=
  match sch with
  | [] => Some p
  | m :: sch => p <- jstep p m ;; jrun p sch
  end.
