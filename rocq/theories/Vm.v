(** Virtual memory, code/source/core/memory_virtual.c, Unix variant. An address
    space says which pages are mapped; [ps] is the page size. mmap and munmap are the
    operating system's and are given their POSIX/Linux meaning. *)
From Verif Require Import Base.

Section Vm.
  Context (ps : Z).

  (** which pages are mapped *)
  Definition space := Z -> bool.
  (** is the byte at [a] accessible *)
  Definition mapped (s : space) (a : Z) : bool := s (a / ps).
  (** the pages touched by [a, a+n) *)
  Definition covers (a n p : Z) : bool := (a / ps <=? p) && (p * ps <? a + n).

  (** munmap: fails (EINVAL, nothing done) on a misaligned address and on a length
      that is not positive (a negative zpl_isize is a huge size_t); otherwise all pages
      containing a part of the range go *)
  Definition munmap (s : space) (a n : Z) : space :=
    if negb (a mod ps =? 0) || (n <=? 0) then s
    else fun p => s p && negb (covers a n p).
  (** mmap at an address the kernel chose, MAP_ANONYMOUS|MAP_PRIVATE *)
  Definition mmap (s : space) (a n : Z) : space := fun p => s p || covers a n p.

  (** zpl_virtual_memory, memory_virtual.c:11-16 *)
  Record vm := mkVm { vdata : Z; vsize : Z }.
  (** zpl_vm_alloc, memory_virtual.c:76-82; [a] is the address mmap returns *)
  Definition vm_alloc (s : space) (a size : Z) : option (vm * space) :=
    if size <=? 0 then None (* ZPL_ASSERT *) else Some (mkVm a size, mmap s a size).
  (** zpl_vm_free, memory_virtual.c:84-87 (munmap's result is ignored) *)
  Definition vm_free (s : space) (v : vm) : bool * space := (true, munmap s (vdata v) (vsize v)).
  (** zpl_vm_trim, memory_virtual.c:89-100. The two conditional releases in order; the
      second one starts at [ptr]. *)
  Definition vm_trim (s : space) (v : vm) (lead size : Z) : option (vm * space) :=
    if negb (lead + size <=? vsize v) then None (* ZPL_ASSERT *) else
    let ptr := vdata v + lead in
    let trail := vsize v - lead - size in
    let s := if negb (lead =? 0) then snd (vm_free s (mkVm (vdata v) lead)) else s in
    let s := if negb (trail =? 0) then snd (vm_free s (mkVm ptr trail)) else s in
    Some (mkVm ptr size, s).
  (** zpl_vm_purge, memory_virtual.c:102-105; [err] is what madvise returned (0 on success) *)
  Definition vm_purge (err : Z) : bool := negb (err =? 0).
End Vm.
