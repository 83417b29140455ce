(** Independent specifications for the allocators: what a client may observe about
    the blocks it holds, and the histories it may perform. *)
From Verif Require Import Base Mem Alloc.

(** A block is an address and a size. *)
Definition block : Type := (Z * Z)%type.
Definition inside (start total : Z) (b : block) : Prop := start <= fst b /\ fst b + snd b <= start + total.
Definition apart (b c : block) : Prop := fst b + snd b <= fst c \/ fst c + snd c <= fst b.
Fixpoint pairwise_apart (l : list block) : Prop :=
  match l with
  | [] => True
  | b :: r => Forall (apart b) r /\ pairwise_apart r
  end.
Definition aligned_to (al : Z) (b : block) : Prop := fst b mod al = 0.
(** some live block contains the address *)
Definition in_some (l : list block) (x : Z) : Prop := exists b, In b l /\ fst b <= x < fst b + snd b.

(** The client stores a byte. *)
Definition poke (m : mem) (x v : Z) : mem := fun y => if y =? x then Some v else m y.

(** Arena histories: every request uses alignment [al]; [live] is what was handed out
    since the last reset, [snaps] the open snapshots with the blocks live then. A
    reset (free_all) ends the life of all blocks. *)
Inductive arena_history (start total al : Z) (m0 : mem) :
    mem -> arena -> list block -> list (Z * list block) -> Prop :=
| AH_init : arena_history start total al m0 m0 (arena_init start total) [] []
| AH_alloc m a live snaps clear size m' a' p :
    arena_history start total al m0 m a live snaps -> 0 <= size ->
    arena_alloc clear m a size al = Some (m', a', p) -> p <> 0 ->
    arena_history start total al m0 m' a' ((p, size) :: live) snaps
| AH_alloc_fails m a live snaps clear size m' a' :
    arena_history start total al m0 m a live snaps -> 0 <= size ->
    arena_alloc clear m a size al = Some (m', a', 0) ->
    arena_history start total al m0 m' a' live snaps
| AH_resize m a live snaps old old_size size m' a' p :
    arena_history start total al m0 m a live snaps -> 0 <= size -> In (old, old_size) live ->
    arena_resize m a old old_size size al = Some (m', a', p) -> p <> old -> p <> 0 ->
    arena_history start total al m0 m' a' ((p, size) :: live) snaps
| AH_free m a live snaps p m' a' :
    arena_history start total al m0 m a live snaps -> arena_free m a p = Some (m', a') ->
    arena_history start total al m0 m' a' live snaps
| AH_free_all m a live snaps :
    arena_history start total al m0 m a live snaps ->
    arena_history start total al m0 m (arena_free_all a) [] (map (fun s => (fst s, [])) snaps)
| AH_begin m a live snaps a' c :
    arena_history start total al m0 m a live snaps -> arena_snapshot_begin a = (a', c) ->
    arena_history start total al m0 m a' live ((c, live) :: snaps)
| AH_end m a live c live0 snaps a' :
    arena_history start total al m0 m a live ((c, live0) :: snaps) -> arena_snapshot_end a c = Some a' ->
    arena_history start total al m0 m a' live0 snaps
| AH_write m a live snaps x v :
    arena_history start total al m0 m a live snaps -> in_some live x -> byte v ->
    arena_history start total al m0 (poke m x v) a live snaps.

(** What may happen between the begin and the end of a snapshot: any requests, and
    properly nested snapshots, but no reset. *)
Inductive arena_ops : mem -> arena -> mem -> arena -> Prop :=
| AO_nil m a : arena_ops m a m a
| AO_alloc m a m1 a1 clear size al m2 a2 p :
    arena_ops m a m1 a1 -> 0 <= size -> 0 < al -> arena_alloc clear m1 a1 size al = Some (m2, a2, p) -> arena_ops m a m2 a2
| AO_resize m a m1 a1 old old_size size al m2 a2 p :
    arena_ops m a m1 a1 -> 0 <= size -> 0 <= old_size -> 0 < al ->
    arena_resize m1 a1 old old_size size al = Some (m2, a2, p) -> arena_ops m a m2 a2
| AO_free m a m1 a1 m2 a2 p :
    arena_ops m a m1 a1 -> arena_free m1 a1 p = Some (m2, a2) -> arena_ops m a m2 a2
| AO_nested m a m1 a1 a2 c m3 a3 a4 :
    arena_ops m a m1 a1 -> arena_snapshot_begin a1 = (a2, c) -> arena_ops m1 a2 m3 a3 ->
    arena_snapshot_end a3 c = Some a4 -> arena_ops m a m3 a4
| AO_write m a m1 a1 x v : arena_ops m a m1 a1 -> arena_ops m a (poke m1 x v) a1.

(** Pool histories: [live] are the addresses handed out and not given back. *)
Inductive pool_history (data num bs ba : Z) (m0 : mem) : mem -> pool -> list Z -> Prop :=
| PH_init m p : pool_init_align m0 data num bs ba = Some (m, p) -> pool_history data num bs ba m0 m p []
| PH_alloc m p live clear m' p' q :
    pool_history data num bs ba m0 m p live -> pool_alloc clear m p bs ba = Some (m', p', q) ->
    pool_history data num bs ba m0 m' p' (q :: live)
| PH_free m p l1 q l2 m' p' :
    pool_history data num bs ba m0 m p (l1 ++ q :: l2) -> pool_free m p q = Some (m', p') ->
    pool_history data num bs ba m0 m' p' (l1 ++ l2)
| PH_free_all m p live m' p' :
    pool_history data num bs ba m0 m p live -> pool_free_all m p = Some (m', p') ->
    pool_history data num bs ba m0 m' p' []
| PH_write m p live q x v :
    pool_history data num bs ba m0 m p live -> In q live -> q <= x < q + bs -> byte v ->
    pool_history data num bs ba m0 (poke m x v) p live.

(** Stack histories without growth (no backing allocator). The live list holds, newest
    first, the block and the allocator state from before its allocation. *)
Inductive stack_history (start total : Z) (m0 : mem) : mem -> stackm -> list (block * stackm) -> Prop :=
| SH_init : stack_history start total m0 m0 (stack_init start total) []
| SH_alloc m s live size k m' s' p :
    stack_history start total m0 m s live -> 0 <= size -> 0 <= k <= 62 ->
    stack_alloc m s None size (2^k) = Some (m', s', p) ->
    stack_history start total m0 m' s' (((p, size), s) :: live)
| SH_free m s b s0 live s' :
    stack_history start total m0 m s ((b, s0) :: live) -> stack_free m s (fst b) = Some s' ->
    stack_history start total m0 m s' live
| SH_free_all m s live :
    stack_history start total m0 m s live -> stack_history start total m0 m (stack_free_all s) []
| SH_write m s live x v :
    stack_history start total m0 m s live -> in_some (map fst live) x -> byte v ->
    stack_history start total m0 (poke m x v) s live.
