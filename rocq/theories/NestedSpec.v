(** Specification for nested arenas: arenas within arenas, the blocks their users hold, and what the users may do. *)
From Verif Require Import Base Mem Alloc AllocSpec Nested.

(** an arena, the blocks taken from it, and the arenas made within it *)
Inductive tree : Type := T (a : arena) (live : list block) (subs : list tree).
Definition region (t : tree) : block := match t with T a _ _ => (ar_start a, ar_total a) end.
(** the blocks held by the users of all these arenas *)
Fixpoint held (t : tree) : list block := match t with T _ live subs => live ++ flat_map held subs end.

(** one thing done to one of the arenas; the last argument is the byte a user writes, if any. Requests use the default
    alignment. Resetting an arena ends the arenas within it. *)
Inductive step : mem -> tree -> mem -> tree -> option Z -> Prop :=
| S_alloc m a live subs clear size m' a' p : 0 <= size -> arena_alloc clear m a size DEFAULT_ALIGNMENT = Some (m', a', p) -> p <> 0 ->
    step m (T a live subs) m' (T a' ((p, size) :: live) subs) None
| S_alloc_fails m a live subs clear size m' a' : 0 <= size -> arena_alloc clear m a size DEFAULT_ALIGNMENT = Some (m', a', 0) ->
    step m (T a live subs) m' (T a' live subs) None
| S_sub m a live subs size m' a' s : 0 <= size -> arena_init_sub m a size = Some (m', a', s) -> ar_start s <> 0 ->
    step m (T a live subs) m' (T a' live (T s [] [] :: subs)) None
| S_reset m a live subs : step m (T a live subs) m (T (arena_free_all a) [] []) None
| S_release m a live s1 b l s s2 m' a' b' : arena_release arena_allocator m a b = Some (m', a', b') ->
    step m (T a live (s1 ++ T b l s :: s2)) m' (T a' live (s1 ++ s2)) None
| S_write m a live subs x v : in_some live x -> byte v -> step m (T a live subs) (poke m x v) (T a live subs) (Some x)
| S_inside m a live s1 t s2 m' t' w : step m t m' t' w -> step m (T a live (s1 ++ t :: s2)) m' (T a live (s1 ++ t' :: s2)) w.
(** any number of them *)
Inductive steps : mem -> tree -> mem -> tree -> Prop :=
| SS_none m t : steps m t m t
| SS_more m t m1 t1 m2 t2 w : steps m t m1 t1 -> step m1 t1 m2 t2 w -> steps m t m2 t2.
