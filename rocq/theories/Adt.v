(** ADT nodes, code/source/adt.c, code/header/adt.h.

    Memory is a table of node arrays (zpl_array, [Array]); a node pointer is an array and an index
    in it. Block 0 holds the root, a variable of the caller. An array that grows moves to a new
    block and its old block is freed, as zpl__array_set_capacity does; pointers into the old block
    dangle. Using a freed block or a cell outside a block is [None]. The style fields and the
    number analysis of a node are not modelled here. [oks] are the outcomes of the allocations. *)
From Verif Require Import Base CStr Array.

Definition ptr : Type := nat * Z.
Inductive leaf := LUninit | LStr (s : list Z) | LInt (i : Z) | LReal (bits : Z).
(** zpl_adt_node, adt.h:54-92; the pointer to the children may be NULL *)
Inductive body := Leaf (l : leaf) | Branch (is_array : bool) (nodes : option nat).
Record node := Node { name : option (list Z); parent : option ptr; val : body }.
Definition zero_node : node := Node None None (Leaf LUninit).
Record mem := Mem { blocks : nat -> option (arr node); next : nat }.

Definition set_block (m : mem) (b : nat) (a : option (arr node)) : mem :=
  Mem (fun k => if Nat.eqb k b then a else blocks m k) (next m).
Definition deref (m : mem) (p : ptr) : option node := a <- blocks m (fst p) ;; get_at a (snd p).
Definition store (m : mem) (p : ptr) (n : node) : option mem :=
  a <- blocks m (fst p) ;; l <- write_cells (cells a) (snd p) [n] ;; Some (set_block m (fst p) (Some (mkArr l (count a) (capacity a)))).
(** allocation of a block *)
Definition alloc_block (m : mem) (a : arr node) : nat * mem := (next m, Mem (fun k => if Nat.eqb k (next m) then Some a else blocks m k) (S (next m))).

(** zpl_adt_make_branch, adt.c:10-23: error code *)
Definition make_branch (ok : bool) (m : mem) (p : ptr) (nm : option (list Z)) (is_array : bool) : option (Z * mem) :=
  n <- deref m p ;;
  match array_init zero_node ok with
  | None => m <- store m p (Node nm (parent n) (Branch is_array None)) ;; Some (4, m)
  | Some a => let '(b, m) := alloc_block m a in m <- store m p (Node nm (parent n) (Branch is_array (Some b))) ;; Some (0, m)
  end.
(** zpl_adt_make_leaf with the value stored by zpl_adt_set_str/flt/int, adt.c:35-43, 256-270 *)
Definition set_leaf (m : mem) (p : ptr) (nm : option (list Z)) (l : leaf) : option mem :=
  n <- deref m p ;; store m p (Node nm (parent n) (Leaf l)).

(** zpl_array_append_at on the children of [p]; the pointer in [p] follows a move of the array *)
Definition append_child (ok : bool) (m : mem) (p : ptr) (n : node) (b : nat) (o : node) (index : Z) : option (bool * mem) :=
  a <- blocks m b ;;
  ' (r, a') <- append_at zero_node ok a o index ;;
  if r then
    if capacity a' =? capacity a then Some (true, set_block m b (Some a'))
    else
      let m := set_block m b None in
      let '(b', m) := alloc_block m a' in
      match val n with
      | Branch is_array _ => m <- store m p (Node (name n) (parent n) (Branch is_array (Some b'))) ;; Some (true, m)
      | Leaf _ => None
      end
  else Some (false, set_block m b (Some a')).
(** zpl_adt_alloc_at, adt.c:219-236: [None] in the result for NULL *)
Definition alloc_at (ok : bool) (m : mem) (p : ptr) (index : Z) : option (option ptr * mem) :=
  n <- deref m p ;;
  match val n with
  | Branch _ (Some b) =>
    a <- blocks m b ;;
    if (index <? 0) || (count a <? index) then Some (None, m)
    else
      ' (r, m) <- append_child ok m p n b (Node None (Some p) (Leaf LUninit)) index ;;
      if r : bool then
        n <- deref m p ;;
        match val n with Branch _ (Some b) => Some (Some (b, index), m) | _ => None end
      else Some (None, m)
  | _ => Some (None, m)
  end.
Definition nodes_count (m : mem) (p : ptr) : option Z :=
  n <- deref m p ;; match val n with Branch _ (Some b) => a <- blocks m b ;; Some (count a) | _ => None end.
(** zpl_adt_alloc, adt.c:238-247 *)
Definition alloc (ok : bool) (m : mem) (p : ptr) : option (option ptr * mem) :=
  n <- deref m p ;;
  match val n with
  | Branch _ (Some b) => a <- blocks m b ;; alloc_at ok m p (count a)
  | _ => Some (None, m)
  end.
(** the index of a node in the children of a parent, adt.c:297, 310; pointers into different arrays
    have no difference *)
Definition child_index (m : mem) (par p : ptr) : option (nat * Z) :=
  n <- deref m par ;;
  match val n with Branch _ (Some b) => if Nat.eqb b (fst p) then Some (b, snd p) else None | _ => None end.
(** zpl_adt_remove_node, adt.c:306-312 *)
Definition remove_node (m : mem) (p : ptr) : option mem :=
  n <- deref m p ;; par <- parent n ;;
  ' (b, i) <- child_index m par p ;;
  a <- blocks m b ;; a <- remove_at a i ;; Some (set_block m b (Some a)).
(** zpl_adt_move_node_at, adt.c:272-283 *)
Definition move_node_at (ok : bool) (m : mem) (p new_parent : ptr) (index : Z) : option (ptr * mem) :=
  n <- deref m p ;;
  let old_parent := parent n in
  ' (q, m) <- alloc_at ok m new_parent index ;;
  q <- q ;;
  n <- deref m p ;;
  m <- store m q (Node (name n) (Some new_parent) (val n)) ;;
  m <- (match old_parent with Some _ => remove_node m p | None => Some m end) ;;
  Some (q, m).
(** zpl_adt_swap_nodes, adt.c:292-304 *)
Definition swap_nodes (m : mem) (p q : ptr) : option mem :=
  n <- deref m p ;; o <- deref m q ;;
  par <- parent n ;; other <- parent o ;;
  ' (b, i) <- child_index m par p ;; ' (b2, i2) <- child_index m other q ;;
  t <- deref m (b, i) ;;
  let temp := Node (name t) (Some other) (val t) in
  o <- deref m (b2, i2) ;;
  m <- store m (b2, i2) (Node (name o) (Some par) (val o)) ;;
  o <- deref m (b2, i2) ;;
  m <- store m (b, i) o ;;
  store m (b2, i2) temp.

(** zpl_adt_append_str/flt/int, adt.c:333-350 *)
Definition append_leaf (ok : bool) (m : mem) (p : ptr) (nm : option (list Z)) (l : leaf) : option (option ptr * mem) :=
  ' (o, m) <- alloc ok m p ;;
  match o with None => Some (None, m) | Some o => m <- set_leaf m o nm l ;; Some (Some o, m) end.
(** zpl_adt_append_obj/arr, adt.c:315-332 *)
Definition append_branch (ok ok2 : bool) (m : mem) (p : ptr) (nm : option (list Z)) (is_array : bool) : option (option ptr * mem) :=
  ' (o, m) <- alloc ok m p ;;
  match o with
  | None => Some (None, m)
  | Some o =>
    ' (e, m) <- make_branch ok2 m o nm is_array ;;
    if negb (e =? 0) then m <- remove_node m o ;; Some (None, m) else Some (Some o, m)
  end.

(** zpl_adt_destroy_branch, adt.c:25-33; freeing a freed block is [None] *)
Fixpoint destroy (fuel : nat) (m : mem) (n : node) : option mem :=
  match fuel with
  | O => None
  | S f =>
    match val n with
    | Branch _ (Some b) =>
      a <- blocks m b ;;
      m <- (fix each (m : mem) (l : list node) {struct l} : option mem := match l with [] => Some m | x :: r => m <- destroy f m x ;; each m r end)
             m (firstn (Z.to_nat (count a)) (cells a)) ;;
      _ <- blocks m b ;; Some (set_block m b None)
    | _ => Some m
    end
  end.

(** zpl_adt_find, adt.c:45-66; comparing a NULL name is [None]. [fuel] bounds the depth. *)
Fixpoint find_in (name_ : list Z) (l : list node) (b : nat) (i : Z) : option (option ptr) :=
  match l with
  | [] => Some None
  | x :: r => nm <- name x ;; c <- strcmp nm name_ ;; if c =? 0 then Some (Some (b, i)) else find_in name_ r b (i + 1)
  end.
Fixpoint find (fuel : nat) (m : mem) (p : ptr) (name_ : list Z) (deep : bool) : option (option ptr) :=
  match fuel with
  | O => None
  | S f =>
    n <- deref m p ;;
    match val n with
    | Branch false (Some b) =>
      a <- blocks m b ;;
      let l := firstn (Z.to_nat (count a)) (cells a) in
      r <- find_in name_ l b 0 ;;
      match r with
      | Some q => Some (Some q)
      | None =>
        if deep then
          (fix each (l : list node) (i : Z) {struct l} : option (option ptr) :=
             match l with
             | [] => Some None
             | _ :: l => r <- find f m (b, i) name_ deep ;; match r with Some q => Some (Some q) | None => each l (i + 1) end
             end) l 0
        else Some None
      end
    | Branch false None => None
    | _ => Some None
    end
  end.

(** * Histories *)
(** a caller reaches nodes from the root by indices *)
Fixpoint ptr_at (m : mem) (p : ptr) (path : list nat) : option ptr :=
  match path with
  | [] => Some p
  | i :: r =>
    n <- deref m p ;;
    match val n with
    | Branch _ (Some b) => a <- blocks m b ;; if Z.of_nat i <? count a then ptr_at m (b, Z.of_nat i) r else None
    | _ => None
    end
  end.
Definition root : ptr := (0%nat, 0).
Inductive aop :=
| AAppend (p : list nat) (nm : option (list Z)) (l : leaf)
| AAppendBranch (p : list nat) (nm : option (list Z)) (is_array : bool)
| AInsert (p : list nat) (i : Z) (nm : option (list Z)) (l : leaf)
| ASet (p : list nat) (nm : option (list Z)) (l : leaf)
| ASetBranch (p : list nat) (nm : option (list Z)) (is_array : bool)
| ARemove (p : list nat)
| AMove (p q : list nat) (i : Z)
| ASwap (p q : list nat).
(** the call reports success, or NULL *)
Definition step (m : mem) (oks : bool * bool) (o : aop) : option (bool * mem) :=
  let some (r : option (option ptr * mem)) := ' (q, m) <- r ;; Some (match q with Some _ => true | None => false end, m) in
  match o with
  | AAppend p nm l => p <- ptr_at m root p ;; some (append_leaf (fst oks) m p nm l)
  | AAppendBranch p nm k => p <- ptr_at m root p ;; some (append_branch (fst oks) (snd oks) m p nm k)
  | AInsert p i nm l =>
    p <- ptr_at m root p ;; ' (q, m) <- alloc_at (fst oks) m p i ;;
    match q with Some q => m <- set_leaf m q nm l ;; Some (true, m) | None => Some (false, m) end
  | ASet p nm l => p <- ptr_at m root p ;; m <- set_leaf m p nm l ;; Some (true, m)
  | ASetBranch p nm k => p <- ptr_at m root p ;; ' (e, m) <- make_branch (fst oks) m p nm k ;; Some (e =? 0, m)
  | ARemove p => p <- ptr_at m root p ;; m <- remove_node m p ;; Some (true, m)
  | AMove p q i => p <- ptr_at m root p ;; q <- ptr_at m root q ;; ' (_, m) <- move_node_at (fst oks) m p q i ;; Some (true, m)
  | ASwap p q => p <- ptr_at m root p ;; q <- ptr_at m root q ;; m <- swap_nodes m p q ;; Some (true, m)
  end.
Fixpoint steps (m : mem) (h : list ((bool * bool) * aop)) : option (list bool * mem) :=
  match h with
  | [] => Some ([], m)
  | (oks, o) :: h => ' (r, m) <- step m oks o ;; ' (rs, m) <- steps m h ;; Some (r :: rs, m)
  end.
(** a zeroed root variable made an object or array *)
Definition start (nm : option (list Z)) (is_array : bool) : option mem :=
  let m := Mem (fun b => if Nat.eqb b 0 then Some (mkArr [zero_node] 1 1) else None) 1 in
  ' (_, m) <- make_branch true m root nm is_array ;; Some m.
