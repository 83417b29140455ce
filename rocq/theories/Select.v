(** Waiting for sockets on Unix: zpl_socket_select and zpl_socket_multi_select, code/source/socket.c:164-193.

    [state] tells for each descriptor whether it is open and, if so, whether it can be read within the time. Doubles are as in [Float]. *)
From Coq Require Import SpecFloat.
From Verif Require Import Base Float FloatFun Clock.

(** socket.c:171-172 and 188-189; 1000000 becomes a double *)
Definition timeval (time : f64) : option (Z * Z) :=
  sec <- f_to_i64 time ;;
  usec <- f_to_i64 (fmul (fsub time (f_of_int sec)) f_1e6) ;;
  Some (sec, usec).
(** FD_SET: a bit array of 1024; beyond it is undefined *)
Definition FD_SETSIZE : Z := 1024.
Definition fd_set (fds : list Z) (fd : Z) : option (list Z) := if (0 <=? fd) && (fd <? FD_SETSIZE) then Some (if in_dec Z.eq_dec fd fds then fds else fd :: fds) else None.
(** select(2) of Linux for reading: how many of the descriptors below [nfds] are ready, -1 if one is not open or an argument is negative *)
Definition sys_select (state : Z -> option bool) (nfds : Z) (fds : list Z) (tv : Z * Z) : Z :=
  if (nfds <? 0) || (fst tv <? 0) || (snd tv <? 0) then -1 else
  let asked := filter (fun fd => fd <? nfds) fds in
  if existsb (fun fd => match state fd with None => true | Some _ => false end) asked then -1
  else Z.of_nat (length (filter (fun fd => match state fd with Some b => b | None => false end) asked)).
(** zpl_socket_select, socket.c:164-175 *)
Definition socket_select (state : Z -> option bool) (socket : Z) (time : f64) : option Z :=
  fds <- (if -1 <? socket then fd_set [] socket else Some []) ;;
  tv <- timeval time ;;
  Some (sys_select state (socket + 1) fds tv).
(** socket.c:183-186 *)
Fixpoint multi_loop (sockets : list Z) (max : Z) (fds : list Z) : option (Z * list Z) :=
  match sockets with
  | [] => Some (max, fds)
  | s :: r =>
    let max := if max <? s then s else max in
    fds <- (if -1 <? s then fd_set fds s else Some fds) ;;
    multi_loop r max fds
  end.
(** zpl_socket_multi_select, socket.c:177-192, of an array of at least [count] sockets *)
Definition socket_multi_select (state : Z -> option bool) (sockets : list Z) (count : Z) (time : f64) : option Z :=
  ' (max, fds) <- multi_loop (firstn (Z.to_nat count) sockets) (-1) [] ;;
  tv <- timeval time ;;
  Some (sys_select state (max + 1) fds tv).
