(** Full names of paths on Unix: zpl_path_get_full_name, code/source/core/file_misc.c:192-209, on the memory of [Mem]. [real] is the
    block realpath(3) has made with malloc, 0 if the file does not exist. *)
From Verif Require Import Base Mem Alloc Nested.

(** zpl_strlen on memory, header/core/string.h:174-179; [fuel] is the number of bytes looked at *)
Fixpoint mem_strlen (fuel : nat) (m : mem) (a : Z) : option Z :=
  match fuel with O => None | S f => c <- load8 m a ;; if c =? 0 then Some 0 else n <- mem_strlen f m (a + 1) ;; Some (n + 1) end.
(** zpl_path_get_full_name, file_misc.c:192-209 *)
Definition path_get_full_name {St} (A : allocator St) (fuel : nat) (m : mem) (st : St) (path real : Z) : option (mem * St * Z) :=
  let fullpath := if real =? 0 then path else real in
  len <- mem_strlen fuel m fullpath ;;
  ' (m, st, result) <- zpl_alloc A m st (len + 1) ;;
  ' (m, _) <- memmove m result fullpath len ;;
  m <- store8 m (result + len) 0 ;;
  ' (m, st) <- zpl_free A m st real ;;
  Some (m, st, result).
(** the pool as an allocator, memory_custom.c:239-296; the flags of zpl_alloc clear the block *)
Definition pool_allocator : allocator pool := mkAllocator (pool_alloc true) pool_free.
