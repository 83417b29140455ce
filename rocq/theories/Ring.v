(** zpl_ring, code/header/essentials/collections/ring.h, as instantiated by
    ZPL_RING_DEFINE(func, type). [z] is the content of fresh memory. Accesses outside
    the buffer, and % 0, give [None]. [get] yields the element the returned pointer
    designates at the time of the call. *)
From Verif Require Import Base Array.

Section Ring.
  Context {T : Type} (z : T).

  (** ring.h:31-37: backing buffer, head, tail, capacity (zpl_usize fields) *)
  Record ring := mkRing { rbuf : list T; head : Z; tail : Z; rcap : Z }.

  (** init, ring.h:50-58 *)
  Definition ring_init (max_size : Z) : ring :=
    mkRing (repeat z (Z.to_nat (max_size + 1))) 0 0 (max_size + 1).

  (** unsigned [(x + 1) % capacity] *)
  Definition next_pos (r : ring) (x : Z) : option Z :=
    if rcap r =? 0 then None else Some (u64 (x + 1) mod rcap r).

  (** full, ring.h:63-65 *)
  Definition ring_full (r : ring) : option bool :=
    h <- next_pos r (head r) ;; Some (h =? tail r).
  (** empty, ring.h:67 *)
  Definition ring_empty (r : ring) : bool := head r =? tail r.

  (** append, ring.h:69-74 *)
  Definition ring_append (r : ring) (data : T) : option ring :=
    b <- write_cells (rbuf r) (head r) [data] ;;
    h <- next_pos r (head r) ;;
    if h =? tail r then
      t <- next_pos r (tail r) ;; Some (mkRing b h t (rcap r))
    else Some (mkRing b h (tail r) (rcap r)).

  (** append_array, ring.h:76-79 *)
  Fixpoint ring_append_array (r : ring) (data : list T) : option ring :=
    match data with
    | [] => Some r
    | x :: d => r <- ring_append r x ;; ring_append_array r d
    end.

  (** get, ring.h:81-88; [None] inside is the NULL result *)
  Definition ring_get (r : ring) : option (option T * ring) :=
    if ring_empty r then Some (None, r) else
    x <- (if 0 <=? tail r then nth_error (rbuf r) (Z.to_nat (tail r)) else None) ;;
    t <- next_pos r (tail r) ;;
    Some (Some x, mkRing (rbuf r) (head r) t (rcap r)).

  (** get_array, ring.h:90-98; the array appends succeed. [fuel] bounds the loop
      iterations; exhausting it is [None]. [--max_size] wraps (zpl_usize). *)
  Fixpoint get_array_loop (fuel : nat) (r : ring) (max_size : Z) (vals : arr T) : option (arr T * ring) :=
    match fuel with
    | O => None
    | S k =>
      let max_size := u64 (max_size - 1) in
      if negb (max_size =? 0) && negb (ring_empty r) then
        '(x, r) <- ring_get r ;;
        match x with
        | None => None (* *NULL *)
        | Some x =>
          '(_, vals) <- append z true vals x ;; get_array_loop k r max_size vals
        end
      else Some (vals, r)
    end.
  Definition ring_get_array (r : ring) (max_size : Z) : option (arr T * ring) :=
    vals <- array_init z true ;;
    get_array_loop (S (Z.to_nat (rcap r))) r max_size vals.

  Inductive rop := RAppend (x : T) | RAppendArray (xs : list T) | RGet | RGetArray (max_size : Z).
  (** what the caller sees *)
  Inductive rout := Unit | Got (x : option T) | GotMany (xs : list T).
  Definition rexec (r : ring) (o : rop) : option (rout * ring) :=
    match o with
    | RAppend x => r <- ring_append r x ;; Some (Unit, r)
    | RAppendArray xs => r <- ring_append_array r xs ;; Some (Unit, r)
    | RGet => '(x, r) <- ring_get r ;; Some (Got x, r)
    | RGetArray m => '(a, r) <- ring_get_array r m ;; Some (GotMany (firstn (Z.to_nat (count a)) (cells a)), r)
    end.
  Fixpoint rrun (r : ring) (h : list rop) : option (list rout * ring) :=
    match h with
    | [] => Some ([], r)
    | o :: t => '(x, r) <- rexec r o ;; '(xs, r) <- rrun r t ;; Some (x :: xs, r)
    end.
End Ring.
Arguments ring : clear implicits.
Arguments rop : clear implicits.
Arguments rout : clear implicits.
