(** What creating a socket should mean, independently of the order of the calls. *)
From Verif Require Import Base Socket.

Definition has_flag (flags f : Z) : bool := negb (Z.land flags f =? 0).
(** descriptors are distinct numbers below the limit *)
Definition wf (w : world) (k : kernel) : Prop := NoDup (map fst (open k)) /\ forall fd, In fd (map fst (open k)) -> 0 <= fd < Z.of_nat (limit w).
Definition is_open (k : kernel) (fd : Z) : Prop := In fd (map fst (open k)).
(** a number is left *)
Definition room (w : world) (k : kernel) : Prop := exists fd, 0 <= fd < Z.of_nat (limit w) /\ ~ is_open k fd.
(** the smallest number not in use *)
Definition next_fd (w : world) (k : kernel) (fd : Z) : Prop := 0 <= fd < Z.of_nat (limit w) /\ ~ is_open k fd /\ forall g, 0 <= g < fd -> is_open k g.
(** the address [ai] lets a descriptor be made *)
Definition opens (w : world) (k : kernel) (host : Z) (ai : addrinfo) : Prop := (exists rest, lookup w host = ai :: rest) /\ may_open w (ai_family ai) = true /\ room w k.
(** everything asked for is allowed: for a non-blocking socket connecting may fail *)
Definition allowed (w : world) (mode flags : Z) (ai : addrinfo) : Prop :=
  (mode = BIND -> may_bind w (ai_addr ai) = true) /\ (has_flag flags NON_BLOCKING = true -> may_unblock w = true) /\
  (mode = CONNECT -> may_connect w (ai_addr ai) = true \/ has_flag flags NON_BLOCKING = true).
(** the socket asked for *)
Definition wanted (w : world) (protocol mode flags : Z) (ai : addrinfo) : sock :=
  Sock (ai_family ai) (if protocol =? UDP then SOCK_DGRAM else SOCK_STREAM) (negb ((ai_family ai =? AF_INET6) && may_set w)) ((protocol =? TCP) && may_set w && has_flag flags NO_DELAY)
    (if mode =? BIND then Some (ai_addr ai) else None) (has_flag flags NON_BLOCKING) (if (mode =? CONNECT) && may_connect w (ai_addr ai) then Some (ai_addr ai) else None) [].
