(** The heap allocator with ZPL_HEAP_ANALYSIS, code/source/essentials/memory_custom.c:42-161, on Linux, x86-64.

    Addresses are integers, 0 is NULL. The memory of the C library is the list of blocks that aligned_alloc(3) has
    given and that are not freed yet; its answers are arguments. Of the contents of memory only the records
    (zpl__heap_alloc_info) are kept: writing over one destroys it. [None]: a failed assertion or undefined
    behaviour, as following a destroyed record, a record at NULL, or free(3) of what is not such a block. *)
From Verif Require Import Base.

(** zpl__heap_alloc_info, memory_custom.c:71-74: 16 bytes at this address *)
Record info := Info { at_addr : Z; in_size : Z; in_start : Z }.
(** the C library's blocks, the records, and zpl__heap_stats, memory_custom.c:44-48 *)
Record heap := Heap { blocks : list (Z * Z); infos : list info; magic : Z; used_memory : Z; alloc_count : Z }.
Definition info_size : Z := 16.
Definition MAGIC : Z := 0xDEADC0DE.
(** zpl_heap_stats_init, memory_custom.c:52-55 *)
Definition stats_init (h : heap) : heap := Heap (blocks h) (infos h) MAGIC 0 0.
(** zpl_heap_stats_used_memory, alloc_count, check, memory_custom.c:56-69 *)
Definition stats_used (h : heap) : option Z := if magic h =? MAGIC then Some (used_memory h) else None.
Definition stats_count (h : heap) : option Z := if magic h =? MAGIC then Some (alloc_count h) else None.
Definition stats_check (h : heap) : option unit :=
  if (magic h =? MAGIC) && (used_memory h =? 0) && (alloc_count h =? 0) then Some tt else None.

(** writing n bytes at a destroys the records there *)
Definition clear_of (a n : Z) (i : info) : bool := (a + n <=? at_addr i) || (at_addr i + info_size <=? a).
Definition overwrite (h : heap) (a n : Z) : heap :=
  Heap (blocks h) (filter (clear_of a n) (infos h)) (magic h) (used_memory h) (alloc_count h).
Definition lookup (h : heap) (a : Z) : option info := find (fun i => at_addr i =? a) (infos h).
(** free(3) *)
Definition libc_free (h : heap) (p : Z) : option heap :=
  if p =? 0 then Some h else
  match find (fun b => fst b =? p) (blocks h) with
  | None => None
  | Some (_, n) => Some (Heap (filter (fun b => negb (fst b =? p)) (blocks h)) (filter (clear_of p n) (infos h)) (magic h) (used_memory h) (alloc_count h))
  end.

(** lines 80, 83-85 *)
Definition alignment_of (alignment : Z) : Z := if alignment =? 0 then 16 else alignment.
Definition remainder_of (alignment : Z) : Z := Z.rem info_size alignment.
Definition track_size (alignment : Z) : Z := Z.max info_size alignment + remainder_of alignment.
(** what is asked of aligned_alloc(3), lines 95-96 and 115 *)
Definition request (size alignment : Z) : Z :=
  let size := size + track_size alignment in
  Z.land (size + alignment - 1) (Z.lnot (alignment - 1)).
(** zpl_heap_allocator_proc, ZPL_ALLOCATION_ALLOC; [ptr] is the answer of the C library *)
Definition heap_alloc (h : heap) (size alignment : Z) (clear : bool) (ptr : Z) : option (heap * Z) :=
  let alignment := alignment_of alignment in
  if ptr =? 0 then None else
  let h := Heap ((ptr, request size alignment) :: blocks h) (infos h) (magic h) (used_memory h) (alloc_count h) in
  let size := size + track_size alignment in
  let h := if clear then overwrite h ptr size else h in
  let alloc_info := ptr + remainder_of alignment in
  let h := overwrite h alloc_info info_size in
  let i := Info alloc_info (size - track_size alignment) ptr in
  Some (Heap (blocks h) (i :: infos h) (magic h) (used_memory h + in_size i) (alloc_count h + 1), alloc_info + info_size).
(** ZPL_ALLOCATION_FREE; zpl_free, memory_custom.h:264-266, does nothing for NULL *)
Definition heap_free (h : heap) (old_memory : Z) : option heap :=
  if old_memory =? 0 then libc_free h 0 else
  i <- lookup h (old_memory - info_size) ;;
  libc_free (Heap (blocks h) (infos h) (magic h) (used_memory h - in_size i) (alloc_count h - 1)) (in_start i).
Definition zpl_free (h : heap) (p : Z) : option heap := if p =? 0 then Some h else heap_free h p.
(** ZPL_ALLOCATION_RESIZE: zpl_default_resize_align, memory_custom.h:292-312. zpl_alloc_align passes
    ZPL_DEFAULT_ALLOCATOR_FLAGS: clearing is on *)
Definition heap_resize (h : heap) (old_memory old_size new_size alignment ptr : Z) : option (heap * Z) :=
  let alignment := alignment_of alignment in
  if old_memory =? 0 then heap_alloc h new_size alignment true ptr else
  if new_size =? 0 then h <- zpl_free h old_memory ;; Some (h, 0) else
  let new_size := if new_size <? old_size then old_size else new_size in
  if old_size =? new_size then Some (h, old_memory) else
  '(h, new_memory) <- heap_alloc h new_size alignment true ptr ;;
  if new_memory =? 0 then Some (h, 0) else
  let h := overwrite h new_memory (Z.min new_size old_size) in
  h <- zpl_free h old_memory ;; Some (h, new_memory).
