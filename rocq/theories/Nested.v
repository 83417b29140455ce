(** Model of arenas whose memory comes from another allocator, and of copying allocations: memory_custom.h *)
From Verif Require Import Base Bits Mem Alloc.

(** ZPL_DEFAULT_MEMORY_ALIGNMENT, memory_custom.h:34-36, with 8-byte pointers *)
Definition DEFAULT_ALIGNMENT : Z := 16.
(** zpl_alloc, memory_custom.h:261-263 *)
Definition zpl_alloc {St} (A : allocator St) (m : mem) (st : St) (size : Z) : option (mem * St * Z) := al_alloc A m st size DEFAULT_ALIGNMENT.

(** zpl_arena_init_from_allocator, memory_custom.h:338-344 *)
Definition arena_init_from_allocator {St} (A : allocator St) (m : mem) (st : St) (size : Z) : option (mem * St * arena) :=
  ' (m, st, p) <- zpl_alloc A m st size ;; Some (m, st, mkArena p size 0 0).
(** zpl_arena_init_sub, memory_custom.h:346-348 *)
Definition arena_init_sub (m : mem) (parent : arena) (size : Z) : option (mem * arena * arena) := arena_init_from_allocator arena_allocator m parent size.
(** zpl_arena_free for an arena with a backing allocator, memory_custom.h:350-355 *)
Definition arena_release {St} (A : allocator St) (m : mem) (st : St) (a : arena) : option (mem * St * arena) :=
  ' (m, st) <- zpl_free A m st (ar_start a) ;; Some (m, st, mkArena 0 (ar_total a) (ar_allocated a) (ar_temp a)).
(** zpl_arena_check, memory_custom.h:374: an assertion *)
Definition arena_check (a : arena) : option unit := if ar_temp a =? 0 then Some tt else None.

(** zpl_alloc_copy_align, memory_custom.h:280-282 *)
Definition alloc_copy_align {St} (A : allocator St) (m : mem) (st : St) (src size alignment : Z) : option (mem * St * Z) :=
  ' (m, st, p) <- al_alloc A m st size alignment ;; ' (m, p) <- memcopy m p src size ;; Some (m, st, p).
(** zpl_alloc_copy, memory_custom.h:277-279 *)
Definition alloc_copy {St} (A : allocator St) (m : mem) (st : St) (src size : Z) : option (mem * St * Z) :=
  ' (m, st, p) <- zpl_alloc A m st size ;; ' (m, p) <- memcopy m p src size ;; Some (m, st, p).
