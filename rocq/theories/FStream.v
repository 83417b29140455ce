(** Memory files, code/source/core/file_stream.c, through the file API of
    code/header/core/file.h:336-395.

    A clone-writable stream owns a zpl_array of bytes ([Array.arr]); otherwise
    [cells (buf d)] is the caller's buffer and the count and capacity are unused. Accesses outside
    the buffer are [None]. zpl_alloc clears memory (memory_custom.h:39), so the cursor, which
    neither constructor sets, starts at 0. [ok] is the outcome of the allocation a write may
    need. Offsets far beyond the buffer that would overflow zpl_isize in the write are not
    distinguished from others beyond the buffer. *)
From Verif Require Import Base Array.

(** zpl__memory_fd, file_stream.c:12-20, and zpl_file_stream_flags, file_stream.h:14-21 *)
Record stream := Stream { buf : arr Z; cursor : Z; clone_writable : bool; writable : bool; cap : Z }.

(** zpl_file_stream_new, file_stream.c:39-56; [None] is the return value false *)
Definition stream_new (ok : bool) : option stream :=
  a <- array_init 0 ok ;; Some (Stream a 0 true false 0).
(** zpl_file_stream_open, file_stream.c:57-80; [None] is the return value false *)
Definition stream_open (ok : bool) (buffer : list Z) (size : Z) (clone_w w : bool) : option stream :=
  if clone_w then
    a <- array_init_reserve 0 ok size ;;
    xs <- read_cells buffer 0 size ;;
    l <- write_cells (cells a) 0 xs ;;
    Some (Stream (mkArr l size (capacity a)) 0 true w size)
  else Some (Stream (mkArr buffer 0 0) 0 false w size).
(** zpl_file_stream_buf, file_stream.c:82-87: the buffer and its size *)
Definition stream_buf (d : stream) : list Z * Z := (cells (buf d), cap d).

Inductive whence := Begin | Current | End.
Definition chk64 (x : Z) : option Z := if (-2^63 <=? x) && (x <? 2^63) then Some x else None.
(** zpl__memory_file_seek, file_stream.c:89-101 *)
Definition seek (d : stream) (offset : Z) (w : whence) : option (Z * stream) :=
  let buflen := cap d in
  let c := match w with Begin => 0 | End => buflen | Current => cursor d end in
  s <- chk64 (c + offset) ;;
  let c := Z.max 0 (Z.min (Z.max s 0) buflen) in
  Some (c, Stream (buf d) c (clone_writable d) (writable d) (cap d)).
(** zpl__memory_file_read, file_stream.c:103-109: the bytes copied *)
Definition read (d : stream) (size offset : Z) : option (list Z) := read_cells (cells (buf d)) offset size.
(** zpl__memory_file_write, file_stream.c:111-135: result, bytes written *)
Definition write (ok : bool) (d : stream) (buffer : list Z) (offset : Z) : option (bool * Z * stream) :=
  if negb (clone_writable d || writable d) then Some (false, 0, d)
  else
    let size := Z.of_nat (length buffer) in
    let buflen := cap d in
    let extralen := Z.max 0 (size - (buflen - offset)) in
    let rwlen := size - extralen in
    let new_cap := buflen + extralen in
    ' (r, a) <- (if clone_writable d && (capacity (buf d) <? new_cap) then grow 0 ok (buf d) new_cap else Some (true, buf d)) ;;
    if negb r then Some (false, 0, Stream a (cursor d) (clone_writable d) (writable d) (cap d))
    else if rwlen <? 0 then None
    else
      l <- write_cells (cells a) offset (firstn (Z.to_nat rwlen) buffer) ;;
      if clone_writable d && (0 <? extralen) then
        l <- write_cells l (offset + rwlen) (skipn (Z.to_nat rwlen) buffer) ;;
        Some (true, rwlen + extralen, Stream (mkArr l new_cap (capacity a)) (cursor d) (clone_writable d) (writable d) new_cap)
      else Some (true, rwlen, Stream (mkArr l (count a) (capacity a)) (cursor d) (clone_writable d) (writable d) (cap d)).

(** zpl_file_seek, zpl_file_seek_to_end, zpl_file_skip, zpl_file_tell, file.h:355-383 *)
Definition file_seek (d : stream) (offset : Z) := seek d offset Begin.
Definition file_seek_to_end (d : stream) := seek d 0 End.
Definition file_skip (d : stream) (n : Z) := seek d n Current.
Definition file_tell (d : stream) := seek d 0 Current.
(** zpl_file_read, zpl_file_write, file.h:385-397 *)
Definition file_read (d : stream) (size : Z) : option (list Z * stream) :=
  ' (cur, d) <- file_tell d ;; ' (at_, d) <- file_tell d ;;
  xs <- read d size at_ ;;
  s <- chk64 (cur + size) ;;
  ' (_, d) <- file_seek d s ;; Some (xs, d).
Definition file_write (ok : bool) (d : stream) (buffer : list Z) : option (bool * stream) :=
  ' (cur, d) <- file_tell d ;; ' (at_, d) <- file_tell d ;;
  ' (r, _, d) <- write ok d buffer at_ ;;
  s <- chk64 (cur + Z.of_nat (length buffer)) ;;
  ' (_, d) <- file_seek d s ;; Some (r, d).
