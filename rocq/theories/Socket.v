(** Sockets on Unix: code/source/socket.c.

    The kernel has the open descriptors with what the calls made of them, and the messages waiting at each; getaddrinfo(3) gives a list
    of addresses in memory of its own, which freeaddrinfo(3) releases. What is allowed (binding, switching to non-blocking, connecting,
    setting options) is up to the [world]. Only descriptors of sockets are there; the contents of addresses and name lookup are left out. *)
From Verif Require Import Base.

(** header/socket.h:11-25 *)
Definition TCP : Z := 0.
Definition UDP : Z := 1.
Definition BIND : Z := 0.
Definition CONNECT : Z := 1.
Definition NON_BLOCKING : Z := 1.
Definition NO_DELAY : Z := 2.
(** netinet: AF_INET6, SOCK_STREAM, SOCK_DGRAM of Linux *)
Definition AF_INET6 : Z := 10.
Definition SOCK_STREAM : Z := 1.
Definition SOCK_DGRAM : Z := 2.

(** one result of getaddrinfo *)
Record addrinfo := Addrinfo { ai_family : Z; ai_addr : Z }.
(** a socket: how it was made and what was done to it *)
Record sock := Sock { family : Z; kind : Z; v6only : bool; nodelay : bool; bound : option Z; nonblocking : bool; peer : option Z; waiting : list (list Z) }.
Record kernel := Kernel { open : list (Z * sock); infos : Z }.
(** what the system allows; [limit]: RLIMIT_NOFILE *)
Record world := World { limit : nat; lookup : Z -> list addrinfo; may_open : Z -> bool; may_bind : Z -> bool; may_unblock : bool; may_connect : Z -> bool; may_set : bool }.

Fixpoint get (l : list (Z * sock)) (fd : Z) : option sock := match l with [] => None | (g, s) :: r => if g =? fd then Some s else get r fd end.
Fixpoint put (l : list (Z * sock)) (fd : Z) (s : sock) : list (Z * sock) := match l with [] => [] | (g, t) :: r => if g =? fd then (g, s) :: r else (g, t) :: put r fd s end.
Definition del (l : list (Z * sock)) (fd : Z) : list (Z * sock) := filter (fun p => negb (fst p =? fd)) l.
(** the kernel hands out the lowest number not in use *)
Fixpoint lowest (l : list (Z * sock)) (fd : Z) (n : nat) : option Z :=
  match n with O => None | S n => match get l fd with None => Some fd | Some _ => lowest l (fd + 1) n end end.
(** socket(2) *)
Definition sys_socket (w : world) (k : kernel) (fam typ : Z) : Z * kernel :=
  if may_open w fam then
    match lowest (open k) 0 (limit w) with
    | Some fd => (fd, Kernel ((fd, Sock fam typ true false None false None []) :: open k) (infos k))
    | None => (-1, k)
    end
  else (-1, k).
(** what a call does to an open socket *)
Definition change (k : kernel) (fd : Z) (f : sock -> sock) : kernel :=
  match get (open k) fd with Some s => Kernel (put (open k) fd (f s)) (infos k) | None => k end.
Definition set_v6only (b : bool) (s : sock) : sock := Sock (family s) (kind s) b (nodelay s) (bound s) (nonblocking s) (peer s) (waiting s).
Definition set_nodelay (b : bool) (s : sock) : sock := Sock (family s) (kind s) (v6only s) b (bound s) (nonblocking s) (peer s) (waiting s).
Definition set_bound (a : Z) (s : sock) : sock := Sock (family s) (kind s) (v6only s) (nodelay s) (Some a) (nonblocking s) (peer s) (waiting s).
Definition set_nonblocking (s : sock) : sock := Sock (family s) (kind s) (v6only s) (nodelay s) (bound s) true (peer s) (waiting s).
Definition set_peer (a : Z) (s : sock) : sock := Sock (family s) (kind s) (v6only s) (nodelay s) (bound s) (nonblocking s) (Some a) (waiting s).
Definition set_waiting (q : list (list Z)) (s : sock) : sock := Sock (family s) (kind s) (v6only s) (nodelay s) (bound s) (nonblocking s) (peer s) q.
Definition freeaddrinfo (k : kernel) : kernel := Kernel (open k) (infos k - 1).

(** zpl_socket_create, socket.c:28-99 *)
Definition socket_create (w : world) (k : kernel) (protocol mode flags host : Z) : Z * kernel :=
  match lookup w host with
  | [] => (-1, k)
  | result :: _ =>
    let k := Kernel (open k) (infos k + 1) in
    let '(fd, k) := sys_socket w k (ai_family result) (if protocol =? UDP then SOCK_DGRAM else SOCK_STREAM) in
    if fd =? -1 then (-1, freeaddrinfo k) else
    let k := if ai_family result =? AF_INET6 then (if may_set w then change k fd (set_v6only false) else k) else k in
    let k := if protocol =? TCP then (if may_set w then change k fd (set_nodelay (negb (Z.land flags NO_DELAY =? 0))) else k) else k in
    let '(ok, k) := if mode =? BIND then (if may_bind w (ai_addr result) then (true, change k fd (set_bound (ai_addr result))) else (false, k)) else (true, k) in
    if negb ok then (-1, freeaddrinfo k) else
    let '(ok, k) := if negb (Z.land flags NON_BLOCKING =? 0) then (if may_unblock w then (true, change k fd set_nonblocking) else (false, k)) else (true, k) in
    if negb ok then (-1, freeaddrinfo k) else
    let '(ok, k) := if mode =? CONNECT then
        (if may_connect w (ai_addr result) then (true, change k fd (set_peer (ai_addr result))) else (negb (Z.land flags NON_BLOCKING =? 0), k))
      else (true, k) in
    if negb ok then (-1, freeaddrinfo k) else (fd, freeaddrinfo k)
  end.
(** zpl_socket_close, socket.c:101-107 *)
Definition socket_close (k : kernel) (fd : Z) : kernel := Kernel (del (open k) fd) (infos k).
(** zpl_socket_accept, socket.c:119-138; [from]: the address of who is waiting to be accepted, if anybody *)
Definition socket_accept (w : world) (k : kernel) (fd : Z) (from : option Z) : Z * kernel :=
  match get (open k) fd, from with
  | Some s, Some a =>
    match lowest (open k) 0 (limit w) with
    | Some new => (new, Kernel ((new, Sock (family s) (kind s) (v6only s) (nodelay s) (bound s) false (Some a) []) :: open k) (infos k))
    | None => (-1, k)
    end
  | _, _ => (-1, k)
  end.
(** recv(2) of at most [size] bytes: the next message, or for a stream its next bytes; the rest of a datagram is dropped. -1 if nothing is waiting. *)
Definition sys_recv (k : kernel) (fd size : Z) : Z * list Z * kernel :=
  match get (open k) fd with
  | Some s =>
    match waiting s with
    | [] => (-1, [], k)
    | msg :: q =>
      let got := firstn (Z.to_nat size) msg in
      let rest := skipn (Z.to_nat size) msg in
      (Z.of_nat (length got), got, change k fd (set_waiting (if (kind s =? SOCK_STREAM) && negb (Z.of_nat (length rest) =? 0) then rest :: q else q)))
    end
  | None => (-1, [], k)
  end.
(** zpl_socket_receive, socket.c:152-154 *)
Definition socket_receive := sys_recv.
(** zpl_socket_receive_from, socket.c:160-162: the place for the length of the address is the address sizeof( *addr) = 128. recvfrom(2) takes the
    message and then writes that length; [low_memory]: memory below the lowest page is mapped *)
Definition socket_receive_from (low_memory : bool) (k : kernel) (fd size : Z) : Z * list Z * kernel :=
  let '(r, got, k) := sys_recv k fd size in if (0 <=? r) && negb low_memory then (-1, got, k) else (r, got, k).
(** zpl_socket_get_address, socket.c:140-142: likewise *)
Definition socket_get_address (low_memory : bool) (k : kernel) (fd : Z) : Z :=
  match get (open k) fd with Some s => if low_memory then 0 else -1 | None => -1 end.
