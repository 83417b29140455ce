(** zpl_array, code/header/essentials/collections/array.h.

    The element buffer is the list [cells] (its length is the capacity that was
    allocated); byte-wise memmove/memcopy of whole elements (C05) is modelled as
    moving cells. Every access outside [cells] makes the operation return [None].
    [ok] says whether the (single) allocation an operation may perform succeeds;
    fresh memory is cleared (cells [z]), as the heap allocator does with the default
    flags. Simplification: the item buffer passed to appendv does not alias the
    array; sizes do not overflow. *)
From Verif Require Import Base.

Section Cells.
  Context {T : Type}.

  (** the [n] cells from [i] *)
  Definition read_cells (l : list T) (i n : Z) : option (list T) :=
    if (0 <=? i) && (0 <=? n) && (i + n <=? Z.of_nat (length l))
    then Some (firstn (Z.to_nat n) (skipn (Z.to_nat i) l)) else None.
  Definition write_cells (l : list T) (i : Z) (xs : list T) : option (list T) :=
    if (0 <=? i) && (i + Z.of_nat (length xs) <=? Z.of_nat (length l))
    then Some (firstn (Z.to_nat i) l ++ xs ++ skipn (Z.to_nat i + length xs) l) else None.
  (** memmove of [n] cells *)
  Definition move_cells (l : list T) (dst src n : Z) : option (list T) :=
    xs <- read_cells l src n ;; write_cells l dst xs.
End Cells.

Section Array.
  Context {T : Type}.
  Context (z : T).

  (** zpl_array_header, array.h:66-71 *)
  Record arr := mkArr { cells : list T; count : Z; capacity : Z }.

  (** ZPL_ARRAY_GROW_FORMULA, array.h:78 *)
  Definition grow_formula (x : Z) : Z := 2 * x + 8.

  (** zpl__array_init_reserve, array.h:90-100 *)
  Definition array_init_reserve (ok : bool) (cap : Z) : option arr :=
    if ok then Some (mkArr (repeat z (Z.to_nat cap)) 0 cap) else None.
  (** zpl_array_init, array.h:105 *)
  Definition array_init (ok : bool) : option arr := array_init_reserve ok (grow_formula 0).

  (** zpl__array_set_capacity, array.h:115-130 *)
  Definition set_capacity (ok : bool) (a : arr) (new_capacity : Z) : option (bool * arr) :=
    if new_capacity =? capacity a then Some (true, a) else
    let c := if new_capacity <? count a then new_capacity else count a in
    if negb ok then Some (false, mkArr (cells a) c (capacity a)) else
    if new_capacity <? 0 then None else
    xs <- read_cells (cells a) 0 c ;;
    l <- write_cells (repeat z (Z.to_nat new_capacity)) 0 xs ;;
    Some (true, mkArr l c new_capacity).

  (** zpl__array_grow, array.h:134-138 *)
  Definition grow (ok : bool) (a : arr) (min_capacity : Z) : option (bool * arr) :=
    let new_capacity := grow_formula (capacity a) in
    let new_capacity := if new_capacity <? min_capacity then min_capacity else new_capacity in
    set_capacity ok a new_capacity.

  (** zpl__array_append_helper, array.h:142-147 *)
  Definition append_helper (ok : bool) (a : arr) : option (bool * arr) :=
    if capacity a <? count a + 1 then grow ok a 0 else Some (true, a).

  (** zpl_array_append, array.h:149 *)
  Definition append (ok : bool) (a : arr) (item : T) : option (bool * arr) :=
    '(r, a) <- append_helper ok a ;;
    if r then
      l <- write_cells (cells a) (count a) [item] ;;
      Some (true, mkArr l (count a + 1) (capacity a))
    else Some (false, a).

  (** zpl__array_append_at_helper, array.h:151-160 *)
  Definition append_at_helper (ok : bool) (a : arr) (ind : Z) : option (bool * arr) :=
    let ind := if count a <=? ind then count a - 1 else ind in
    let ind := if ind <? 0 then 0 else ind in
    '(r, a) <- (if capacity a <? count a + 1 then grow ok a 0 else Some (true, a)) ;;
    if r then
      l <- move_cells (cells a) (ind + 1) ind (count a - ind) ;;
      Some (true, mkArr l (count a) (capacity a))
    else Some (false, a).
  (** zpl_array_append_at, array.h:162: the store uses the caller's index *)
  Definition append_at (ok : bool) (a : arr) (item : T) (ind : Z) : option (bool * arr) :=
    '(r, a) <- append_at_helper ok a ind ;;
    if r then
      l <- write_cells (cells a) ind [item] ;;
      Some (true, mkArr l (count a + 1) (capacity a))
    else Some (false, a).

  (** zpl__array_appendv, array.h:164-172 *)
  Definition appendv (ok : bool) (a : arr) (items : list T) : option (bool * arr) :=
    let item_count := Z.of_nat (length items) in
    '(r, a) <- (if capacity a <? count a + item_count then grow ok a (count a + item_count) else Some (true, a)) ;;
    if r then
      l <- write_cells (cells a) (count a) items ;;
      Some (true, mkArr l (count a + item_count) (capacity a))
    else Some (false, a).

  (** zpl__array_appendv_at, array.h:176-187 *)
  Definition appendv_at (ok : bool) (a : arr) (items : list T) (ind : Z) : option (bool * arr) :=
    if count a <=? ind then appendv ok a items else
    let item_count := Z.of_nat (length items) in
    '(r, a) <- (if capacity a <? count a + item_count then grow ok a (count a + item_count) else Some (true, a)) ;;
    if r then
      l <- move_cells (cells a) (ind + item_count) ind (count a - ind) ;;
      l <- write_cells l ind items ;;
      Some (true, mkArr l (count a + item_count) (capacity a))
    else Some (false, a).

  (** zpl_array_fill, array.h:191-196; the loop writes [value] to each index *)
  Fixpoint fill_loop (l : list T) (i : Z) (n : nat) (value : T) : option (list T) :=
    match n with
    | O => Some l
    | S k => l <- write_cells l i [value] ;; fill_loop l (i + 1) k value
    end.
  Definition array_fill (a : arr) (begin_ end_ : Z) (value : T) : option arr :=
    if (0 <=? begin_) && (end_ <=? count a) then
      l <- fill_loop (cells a) begin_ (Z.to_nat (end_ - begin_)) value ;;
      Some (mkArr l (count a) (capacity a))
    else None.

  (** zpl_array_remove_at, array.h:198-204 *)
  Definition remove_at (a : arr) (index : Z) : option arr :=
    if index <? count a then
      l <- move_cells (cells a) index (index + 1) (count a - index - 1) ;;
      Some (mkArr l (count a - 1) (capacity a))
    else None.

  (** zpl__array_copy_init, array.h:206-212 *)
  Definition copy_init (ok : bool) (a : arr) : option arr :=
    y <- array_init_reserve ok (capacity a) ;;
    xs <- read_cells (cells a) 0 (capacity a) ;;
    l <- write_cells (cells y) 0 xs ;;
    Some (mkArr l (count a) (capacity y)).

  (** zpl_array_pop, array.h:216-220 *)
  Definition pop (a : arr) : option arr :=
    if 0 <? count a then Some (mkArr (cells a) (count a - 1) (capacity a)) else None.
  (** zpl_array_clear, array.h:223-224 *)
  Definition array_clear (a : arr) : arr := mkArr (cells a) 0 (capacity a).

  (** zpl__array_resize, array.h:226-232 *)
  Definition resize (ok : bool) (a : arr) (new_count : Z) : option (bool * arr) :=
    '(r, a) <- (if capacity a <? new_count then grow ok a new_count else Some (true, a)) ;;
    if r then Some (true, mkArr (cells a) new_count (capacity a)) else Some (false, a).

  (** zpl__array_reserve, array.h:236-239 *)
  Definition reserve (ok : bool) (a : arr) (new_capacity : Z) : option (bool * arr) :=
    if capacity a <? new_capacity then set_capacity ok a new_capacity else Some (true, a).

  (** element access [x[i]] *)
  Definition get_at (a : arr) (i : Z) : option T :=
    if 0 <=? i then nth_error (cells a) (Z.to_nat i) else None.

  (** The operations as data, for histories. *)
  Inductive aop :=
  | OAppend (x : T) | OAppendAt (x : T) (i : Z) | OAppendV (xs : list T) | OAppendVAt (xs : list T) (i : Z)
  | OFill (b e : Z) (x : T) | ORemoveAt (i : Z) | OPop | OClear | OResize (n : Z) | OReserve (n : Z) | OSetCapacity (n : Z)
  | OGrow (n : Z).

  Definition lift (r : option arr) : option (bool * arr) := option_map (fun a => (true, a)) r.
  Definition exec (ok : bool) (a : arr) (o : aop) : option (bool * arr) :=
    match o with
    | OAppend x => append ok a x
    | OAppendAt x i => append_at ok a x i
    | OAppendV xs => appendv ok a xs
    | OAppendVAt xs i => appendv_at ok a xs i
    | OFill b e x => lift (array_fill a b e x)
    | ORemoveAt i => lift (remove_at a i)
    | OPop => lift (pop a)
    | OClear => Some (true, array_clear a)
    | OResize n => resize ok a n
    | OReserve n => reserve ok a n
    | OSetCapacity n => set_capacity ok a n
    | OGrow n => grow ok a n
    end.
  (** a history; each operation comes with the outcome of its allocation. The
      results are collected. *)
  Fixpoint run (a : arr) (h : list (bool * aop)) : option (list bool * arr) :=
    match h with
    | [] => Some ([], a)
    | (ok, o) :: r =>
      '(b, a) <- exec ok a o ;; '(bs, a) <- run a r ;; Some (b :: bs, a)
    end.
End Array.
Arguments arr : clear implicits.
Arguments aop : clear implicits.

(** zpl_buffer, code/header/essentials/collections/buffer.h *)
Section Buffer.
  Context {T : Type}.
  Record buf := mkBuf { b_cells : list T; b_count : Z; b_capacity : Z }.
  (** zpl_buffer_append, buffer.h:51-52 (no capacity check) *)
  Definition buffer_append (b : buf) (item : T) : option buf :=
    l <- write_cells (b_cells b) (b_count b) [item] ;; Some (mkBuf l (b_count b + 1) (b_capacity b)).
  (** zpl_buffer_appendv, buffer.h:54-60 *)
  Definition buffer_appendv (b : buf) (items : list T) : option buf :=
    if b_count b + Z.of_nat (length items) <=? b_capacity b then
      l <- write_cells (b_cells b) (b_count b) items ;;
      Some (mkBuf l (b_count b + Z.of_nat (length items)) (b_capacity b))
    else None.
  (** zpl_buffer_pop, buffer.h:69-73 *)
  Definition buffer_pop (b : buf) : option buf :=
    if 0 <? b_count b then Some (mkBuf (b_cells b) (b_count b - 1) (b_capacity b)) else None.
  (** zpl_buffer_clear, buffer.h:74-75 *)
  Definition buffer_clear (b : buf) : buf := mkBuf (b_cells b) 0 (b_capacity b).
End Buffer.
Arguments buf : clear implicits.
