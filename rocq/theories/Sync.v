(** The thread barrier, code/source/threading/sync.c. Any number of threads interleave;
    each step is one lock, unlock, post or wait, or one statement (all fields are only
    touched with the mutex held). Mutexes are plain binary locks (the code unlocks
    [start] in another thread than the one that locked it), the semaphore is a counter. *)
From Verif Require Import Base.

(** which function a thread is in after its arrival; zpl_sync_reach carries its [n] *)
Inductive kont := KWait | KReach (n : Z).
Inductive pc :=
| Idle
(* zpl_sync_set_target, sync.c:23-32 *)
| T1 (count : Z)   (* zpl_mutex_lock(&s->start) *)
| T2 (count : Z)   (* zpl_mutex_lock(&s->mutex) *)
| T3 (count : Z)   (* ZPL_ASSERT(s->target == 0) and the three stores *)
| T4               (* zpl_mutex_unlock(&s->mutex) *)
(* zpl_sync_reach (w = false), sync.c:43-52; zpl_sync_reach_and_wait (w = true), sync.c:54-70 *)
| A1 (w : bool)    (* zpl_mutex_lock(&s->mutex) *)
| A2 (w : bool)    (* ZPL_ASSERT(s->current < s->target); ++s->current *)
| A3 (k : kont)    (* if (s->current == s->target) *)
| W1               (* s->waiting++ *)
| W2               (* zpl_mutex_unlock(&s->mutex) *)
| W3               (* zpl_semaphore_wait(&s->release) *)
| W4               (* zpl_mutex_lock(&s->mutex) *)
| W5               (* s->waiting-- *)
(* zpl_sync_release, sync.c:34-41 *)
| L1 (k : kont)    (* if (s->waiting) *)
| L2 (k : kont)    (* zpl_semaphore_release(&s->release) *)
| L3 (k : kont)    (* s->target = 0 *)
| L4 (k : kont)    (* zpl_mutex_unlock(&s->start) *)
| U (k : kont)     (* zpl_mutex_unlock(&s->mutex) *)
| F (k : kont).    (* return *)

(** what can be observed: a target set, an arrival (the increment), a return *)
Inductive event := Target (count : Z) | Arrive (t : nat) | Return (t : nat) | Reached (t : nat) (n : Z).

(** zpl_sync, header/threading/sync.h:8-16; the threads; the events so far, latest first *)
Record st := mkSt {
  target : Z; current : Z; waiting : Z;
  start_locked : bool; mutex : option nat; sem : nat;
  thr : list pc; hist : list event }.
Definition set_pc (s : st) (l : list pc) := mkSt (target s) (current s) (waiting s) (start_locked s) (mutex s) (sem s) l (hist s).

(** what an idle thread may call; [Go]: take the next step of the call in progress *)
Inductive act := SetTarget (count : Z) | Reach | ReachAndWait | Go.
(** [Stuck]: that thread cannot take that step now; [Abort]: an assertion failed *)
Inductive outcome := Ok (s : st) | Stuck | Abort.

Fixpoint set_nth {A} (l : list A) (n : nat) (x : A) : list A :=
  match l, n with
  | [], _ => []
  | _ :: l, O => x :: l
  | y :: l, S n => y :: set_nth l n x
  end.

(** the step of thread [t] standing at [p] *)
Definition step_pc (s : st) (t : nat) (p : pc) (a : act) : outcome :=
  let '(mkSt tg cu wa sl mu se l h) := s in
  let goto q := Ok (mkSt tg cu wa sl mu se (set_nth l t q) h) in
  let lock_mutex q :=
    match mu with None => Ok (mkSt tg cu wa sl (Some t) se (set_nth l t q) h) | Some _ => Stuck end in
  let unlock_mutex q := Ok (mkSt tg cu wa sl None se (set_nth l t q) h) in
  match p, a with
  | Idle, SetTarget c => goto (T1 c)
  | Idle, Reach => goto (A1 false)
  | Idle, ReachAndWait => goto (A1 true)
  | T1 c, Go => if sl then Stuck else Ok (mkSt tg cu wa true mu se (set_nth l t (T2 c)) h)
  | T2 c, Go => lock_mutex (T3 c)
  | T3 c, Go => if tg =? 0 then Ok (mkSt c 0 0 sl mu se (set_nth l t T4) (Target c :: h)) else Abort
  | T4, Go => unlock_mutex Idle
  | A1 w, Go => lock_mutex (A2 w)
  | A2 w, Go =>
      if cu <? tg then
        Ok (mkSt tg (cu + 1) wa sl mu se
             (set_nth l t (A3 (if w then KWait else KReach (cu + 1)))) (Arrive t :: h))
      else Abort
  | A3 k, Go =>
      if cu =? tg then goto (L1 k)
      else match k with KWait => goto W1 | KReach _ => goto (U k) end
  | W1, Go => Ok (mkSt tg cu (wa + 1) sl mu se (set_nth l t W2) h)
  | W2, Go => unlock_mutex W3
  | W3, Go => match se with O => Stuck | S se => Ok (mkSt tg cu wa sl mu se (set_nth l t W4) h) end
  | W4, Go => lock_mutex W5
  | W5, Go => Ok (mkSt tg cu (wa - 1) sl mu se (set_nth l t (L1 KWait)) h)
  | L1 k, Go => if negb (wa =? 0) then goto (L2 k) else goto (L3 k)
  | L2 k, Go => Ok (mkSt tg cu wa sl mu (S se) (set_nth l t (U k)) h)
  | L3 k, Go => Ok (mkSt 0 cu wa sl mu se (set_nth l t (L4 k)) h)
  | L4 k, Go => Ok (mkSt tg cu wa false mu se (set_nth l t (U k)) h)
  | U k, Go => unlock_mutex (F k)
  | F k, Go => Ok (mkSt tg cu wa sl mu se (set_nth l t Idle)
                     (match k with KWait => Return t | KReach n => Reached t n end :: h))
  | _, _ => Stuck
  end.
Definition step (s : st) (m : nat * act) : outcome :=
  match nth_error (thr s) (fst m) with
  | None => Stuck
  | Some p => step_pc s (fst m) p (snd m)
  end.
Fixpoint run (s : st) (sch : list (nat * act)) : outcome :=
  match sch with
  | [] => Ok s
  | m :: sch => match step s m with Ok s => run s sch | o => o end
  end.
(** zpl_sync_init, sync.c:6-11, with [n] threads about to use it *)
Definition init (n : nat) : st := mkSt 0 0 0 false None 0 (repeat Idle n) [].
