(** Models of the custom allocators: code/source/essentials/memory_custom.c and
    code/header/essentials/memory_custom.h.

    Addresses are integers, 0 is NULL. Every function threads the byte memory, so
    that writes performed by the allocators (clearing, headers, free lists) are
    visible. [None]: failed assertion, undefined behaviour (signed overflow, access
    to an inaccessible byte) or a loop that did not end within its fuel.
    Simplification: pointer additions do not wrap; 8-byte header accesses do not
    require alignment (as on every supported target). The clear-to-zero flag is the
    boolean [clear] (ZPL_DEFAULT_ALLOCATOR_FLAGS sets it). *)
From Verif Require Import Base Bits Mem.

Definition in_i64b (x : Z) : bool := (- 2^63 <=? x) && (x <? 2^63).

(** ZPL_ALLOCATION_ALLOC and ZPL_ALLOCATION_FREE of an allocator with state [St] and
    default flags (zpl_alloc_align, zpl_free: memory_custom.h:258-266). *)
Record allocator (St : Type) := mkAllocator {
  al_alloc : mem -> St -> Z -> Z -> option (mem * St * Z);
  al_free : mem -> St -> Z -> option (mem * St)
}.
Arguments al_alloc {St}. Arguments al_free {St}. Arguments mkAllocator {St}.

(** zpl_free, memory_custom.h:264-266 *)
Definition zpl_free {St} (A : allocator St) (m : mem) (st : St) (p : Z) : option (mem * St) :=
  if p =? 0 then Some (m, st) else al_free A m st p.

(** zpl_default_resize_align, memory_custom.h:292-312 *)
Definition default_resize_align {St} (A : allocator St) (m : mem) (st : St)
    (old_memory old_size new_size alignment : Z) : option (mem * St * Z) :=
  if old_memory =? 0 then al_alloc A m st new_size alignment else
  if new_size =? 0 then
    '(m, st) <- zpl_free A m st old_memory ;; Some (m, st, 0)
  else
  let new_size := if new_size <? old_size then old_size else new_size in
  if old_size =? new_size then Some (m, st, old_memory)
  else
    '(m, st, new_memory) <- al_alloc A m st new_size alignment ;;
    if new_memory =? 0 then Some (m, st, 0) else
    '(m, _) <- memmove m new_memory old_memory (Z.min new_size old_size) ;;
    '(m, st) <- zpl_free A m st old_memory ;;
    Some (m, st, new_memory).

(** zpl_zero_size: zpl_memset(ptr, 0, size), code/header/essentials/memory.h *)
Definition zero_if (clear : bool) (m : mem) (p size : Z) : option mem :=
  if clear then option_map fst (memset m p 0 size) else Some m.

(** * Arena *)

(** zpl_arena, memory_custom.h:115-121 (without the backing allocator) *)
Record arena := mkArena { ar_start : Z; ar_total : Z; ar_allocated : Z; ar_temp : Z }.

(** zpl_arena_init_from_memory, memory_custom.h:329-336 *)
Definition arena_init (start size : Z) : arena := mkArena start size 0 0.

(** zpl_arena_allocator_proc, case ALLOC: memory_custom.c:173-185 *)
Definition arena_alloc (clear : bool) (m : mem) (a : arena) (size alignment : Z) : option (mem * arena * Z) :=
  let end_ := ar_start a + ar_allocated a in
  total_size <- align_forward_i64 size alignment ;;
  if negb (in_i64b (ar_allocated a + total_size)) then None else
  if ar_total a <? ar_allocated a + total_size then Some (m, a, 0) else
  ptr <- align_forward end_ alignment ;;
  let a' := mkArena (ar_start a) (ar_total a) (ar_allocated a + total_size) (ar_temp a) in
  m <- zero_if clear m ptr size ;;
  Some (m, a', ptr).
(** case FREE: memory_custom.c:187-190, nothing happens *)
Definition arena_free (m : mem) (a : arena) (p : Z) : option (mem * arena) := Some (m, a).
(** case FREE_ALL: memory_custom.c:192 *)
Definition arena_free_all (a : arena) : arena := mkArena (ar_start a) (ar_total a) 0 (ar_temp a).
(** zpl_arena_allocator, memory_custom.h:376-381 *)
Definition arena_allocator : allocator arena := mkAllocator (arena_alloc true) arena_free.
(** case RESIZE: memory_custom.c:194-198 *)
Definition arena_resize (m : mem) (a : arena) (old_memory old_size size alignment : Z) :=
  default_resize_align arena_allocator m a old_memory old_size size alignment.

(** zpl_arena_alignment_of, memory_custom.h:357-367 *)
Definition arena_alignment_of (a : arena) (alignment : Z) : option Z :=
  if is_power_of_two alignment then
    let result_pointer := ar_start a + ar_allocated a in
    let mask := alignment - 1 in
    Some (if Z.land result_pointer mask =? 0 then 0 else alignment - Z.land result_pointer mask)
  else None.
(** zpl_arena_size_remaining, memory_custom.h:369-372 *)
Definition arena_size_remaining (a : arena) (alignment : Z) : option Z :=
  o <- arena_alignment_of a alignment ;; Some (ar_total a - (ar_allocated a + o)).

(** zpl_arena_snapshot_begin, memory_custom.h:383-389; the snapshot is the saved count *)
Definition arena_snapshot_begin (a : arena) : arena * Z :=
  (mkArena (ar_start a) (ar_total a) (ar_allocated a) (ar_temp a + 1), ar_allocated a).
(** zpl_arena_snapshot_end, memory_custom.h:391-396 *)
Definition arena_snapshot_end (a : arena) (original_count : Z) : option arena :=
  if negb (original_count <=? ar_allocated a) then None else
  if negb (0 <? ar_temp a) then None else
  Some (mkArena (ar_start a) (ar_total a) original_count (ar_temp a - 1)).

(** * Pool *)

(** zpl_pool, memory_custom.h:166-174 (without the backing allocator) *)
Record pool := mkPool {
  po_start : Z; po_free_list : Z; po_block_size : Z; po_block_align : Z; po_total : Z; po_num : Z
}.

(** the free-list loop of zpl_pool_init_align, memory_custom.c:224-233, and of
    FREE_ALL, :276-285. [n] is the number of remaining iterations. *)
Fixpoint pool_link (m : mem) (curr actual_block_size : Z) (n : nat) : option mem :=
  match n with
  | O => storen m curr 8 0
  | S k => m <- storen m curr 8 (curr + actual_block_size) ;;
           pool_link m (curr + actual_block_size) actual_block_size k
  end.
(** zpl_pool_init_align, memory_custom.c:207-237; [data] is what the backing
    allocator returned. *)
Definition pool_init_align (m : mem) (data num_blocks block_size block_align : Z) : option (mem * pool) :=
  m <- pool_link m data (block_size + block_align) (Z.to_nat (num_blocks - 1)) ;;
  Some (m, mkPool data data block_size block_align 0 num_blocks).
(** zpl_pool_allocator_proc, case ALLOC: memory_custom.c:246-257 *)
Definition pool_alloc (clear : bool) (m : mem) (p : pool) (size alignment : Z) : option (mem * pool * Z) :=
  if negb (size =? po_block_size p) then None else
  if negb (alignment =? po_block_align p) then None else
  if po_free_list p =? 0 then None else
  next_free <- loadn m (po_free_list p) 8 ;;
  let ptr := po_free_list p in
  m <- zero_if clear m ptr size ;;
  Some (m, mkPool (po_start p) next_free (po_block_size p) (po_block_align p)
                  (po_total p + po_block_size p) (po_num p), ptr).
(** case FREE: memory_custom.c:259-267 *)
Definition pool_free (m : mem) (p : pool) (old_memory : Z) : option (mem * pool) :=
  if old_memory =? 0 then Some (m, p) else
  m <- storen m old_memory 8 (po_free_list p) ;;
  Some (m, mkPool (po_start p) old_memory (po_block_size p) (po_block_align p)
                  (po_total p - po_block_size p) (po_num p)).
(** case FREE_ALL: memory_custom.c:269-288 *)
Definition pool_free_all (m : mem) (p : pool) : option (mem * pool) :=
  m <- pool_link m (po_start p) (po_block_size p + po_block_align p) (Z.to_nat (po_num p - 1)) ;;
  Some (m, mkPool (po_start p) (po_start p) (po_block_size p) (po_block_align p) 0 (po_num p)).

(** * Stack *)

(** zpl_stack_memory, memory_custom.h:232-238 *)
Record stackm := mkStack { st_start : Z; st_total : Z; st_allocated : Z }.

(** zpl_stack_memory_init_from_memory, memory_custom.h:437-441 *)
Definition stack_init (start size : Z) : stackm := mkStack start size 0.

(** zpl_stack_allocator_proc, case ALLOC: memory_custom.c:404-430. [resized] is
    [None] without a backing allocator (the call panics when it has to grow) and
    otherwise the memory and address that zpl_resize_align on it produced. *)
Definition stack_alloc (m : mem) (s : stackm) (resized : option (mem * Z)) (size alignment : Z)
    : option (mem * stackm * Z) :=
  let size := size + 8 in
  let alloc_offset := st_allocated s in
  curr <- align_forward (st_start s + st_allocated s) alignment ;;
  '(m, s, curr) <-
    (if st_start s + st_total s <? curr + size then
       '(m, start) <- resized ;;
       curr <- align_forward (start + st_allocated s) alignment ;;
       Some (m, mkStack start (start - st_start s) (st_allocated s), curr)
     else Some (m, s, curr)) ;;
  let s := mkStack (st_start s) (st_total s) (curr - st_start s + size) in
  m <- storen m curr 8 alloc_offset ;;
  Some (m, s, curr + 8).
(** case FREE: memory_custom.c:432-440 *)
Definition stack_free (m : mem) (s : stackm) (old_memory : Z) : option stackm :=
  if old_memory =? 0 then Some s else
  alloc_offset <- loadn m (old_memory - 8) 8 ;;
  Some (mkStack (st_start s) (st_total s) alloc_offset).
(** case FREE_ALL: memory_custom.c:442-444 *)
Definition stack_free_all (s : stackm) : stackm := mkStack (st_start s) (st_total s) 0.

(** * Scratch *)

(** zpl_scratch_memory, memory_custom.h:210-215 *)
Record scratch := mkScratch { sc_start : Z; sc_total : Z; sc_alloc : Z; sc_free : Z }.

(** zpl_scratch_memory_init, memory_custom.c:304-309 *)
Definition scratch_init (start size : Z) : scratch := mkScratch start size start start.

(** zpl_scratch_memory_is_in_use, memory_custom.c:311-315 *)
Definition scratch_is_in_use (s : scratch) (ptr : Z) : bool :=
  if sc_free s =? sc_alloc s then false
  else if sc_free s <? sc_alloc s then (sc_free s <=? ptr) && (ptr <? sc_alloc s)
  else (sc_free s <=? ptr) || (ptr <? sc_alloc s).

(** ZPL_ISIZE_HIGH_BIT, memory_custom.h:205. Header words are stored as their
    unsigned 64-bit representation. *)
Definition HIGH_BIT : Z := 2^63.
Definition MINUS1 : Z := 2^64 - 1.

(** zpl_allocation_header_fill, memory_custom.h:423-428: header word, then -1 words
    from header + 1 while the word pointer is below [data]. *)
Fixpoint header_fill_loop (fuel : nat) (m : mem) (ptr data : Z) : option mem :=
  if ptr <? data then
    match fuel with
    | O => None
    | S f => m <- storen m ptr 8 MINUS1 ;; header_fill_loop f m (ptr + 8) data
    end
  else Some m.
Definition header_fill (m : mem) (header data size : Z) : option mem :=
  m <- storen m header 8 size ;;
  header_fill_loop (Z.to_nat (data - header)) m (header + 8) data.

(** zpl_allocation_header, memory_custom.h:417-421 *)
Fixpoint allocation_header (fuel : nat) (m : mem) (p : Z) : option Z :=
  w <- loadn m (p - 8) 8 ;;
  if w =? MINUS1 then match fuel with O => None | S f => allocation_header f m (p - 8) end
  else Some (p - 8).

(** zpl_scratch_allocator_proc, case ALLOC: memory_custom.c:330-356 *)
Definition scratch_alloc (clear : bool) (m : mem) (s : scratch) (size alignment : Z)
    : option (mem * scratch * Z) :=
  let header := sc_alloc s in
  data <- align_forward (header + 8) alignment ;;
  let end_ := sc_start s + sc_total s in
  if negb (Z.rem alignment 4 =? 0) then None else
  let size := Z.quot (size + 3) 4 * 4 in
  let pt := header + size in
  '(m, header, data, pt) <-
    (if end_ <? pt then
       m <- storen m header 8 (Z.lor (end_ - header) HIGH_BIT) ;;
       data <- align_forward (sc_start s + 8) alignment ;;
       Some (m, sc_start s, data, sc_start s + size)
     else Some (m, header, data, pt)) ;;
  '(m, s, ptr) <-
    (if scratch_is_in_use s pt then Some (m, s, 0)
     else
       m <- header_fill m header pt (pt - header) ;;
       Some (m, mkScratch (sc_start s) (sc_total s) pt (sc_free s), data)) ;;
  m <- zero_if clear m ptr size ;;
  Some (m, s, ptr).

(** the loop of case FREE: memory_custom.c:369-375; [hsize] is [h->size] without the
    high bit *)
Fixpoint scratch_free_loop (fuel : nat) (m : mem) (s : scratch) (hsize : Z) : option scratch :=
  if sc_free s =? sc_alloc s then Some s else
  w <- loadn m (sc_free s) 8 ;;
  if Z.land w HIGH_BIT =? 0 then Some s else
  match fuel with
  | O => None
  | S f =>
    let fp := sc_free s + hsize in
    let fp := if fp =? sc_start s + sc_total s then sc_start s else fp in
    scratch_free_loop f m (mkScratch (sc_start s) (sc_total s) (sc_alloc s) fp) hsize
  end.
(** case FREE: memory_custom.c:358-378. [h->size & ~HIGH] is read inside the loop;
    the loop does not write memory, so it is read once here. *)
Definition scratch_free (fuel : nat) (m : mem) (s : scratch) (old_memory : Z) : option (mem * scratch) :=
  if old_memory =? 0 then Some (m, s) else
  let end_ := sc_start s + sc_total s in
  if (old_memory <? sc_start s) || (end_ <=? old_memory) then None else
  h <- allocation_header fuel m old_memory ;;
  w <- loadn m h 8 ;;
  if negb (Z.land w HIGH_BIT =? 0) then None else
  m <- storen m h 8 (Z.lor w HIGH_BIT) ;;
  w <- loadn m h 8 ;;
  s <- scratch_free_loop fuel m s (Z.land w (HIGH_BIT - 1)) ;;
  Some (m, s).
(** case FREE_ALL: memory_custom.c:380-383 *)
Definition scratch_free_all (s : scratch) : scratch :=
  mkScratch (sc_start s) (sc_total s) (sc_start s) (sc_start s).
