(** code/source/core/sort.c and zpl_binary_search (code/header/core/sort.h:75-92).

    An array of [count] elements of [size] bytes is a list of elements; pointers
    [base + k * size] are element indices [k]; zpl_memswap of two elements (C06) swaps
    two cells. A comparison or swap at an index outside the array is [Fault]. Loops
    carry fuel; running out of it is [Fuel], a result distinct from the others. The
    comparator sees the values of the two elements. *)
From Verif Require Import Base.

Inductive res (A : Type) := Ok (a : A) | Fault | Fuel.
Arguments Ok {A} a. Arguments Fault {A}. Arguments Fuel {A}.
Definition rbind {A B} (x : res A) (f : A -> res B) : res B :=
  match x with Ok a => f a | Fault => Fault | Fuel => Fuel end.
Notation "x <~ e ;; k" := (rbind e (fun x => k)) (at level 61, e at next level, right associativity) : monad_scope.
Notation "' p <~ e ;; k" := (rbind e (fun x => match x with p => k end))
  (at level 61, p pattern, e at next level, right associativity) : monad_scope.

Section Sort.
  Context {T : Type} (cmp : T -> T -> Z).

  Definition rd (l : list T) (i : Z) : res T :=
    if 0 <=? i then match nth_error l (Z.to_nat i) with Some x => Ok x | None => Fault end else Fault.
  Fixpoint put (l : list T) (i : nat) (x : T) : list T :=
    match l, i with
    | [], _ => []
    | _ :: r, O => x :: r
    | y :: r, S k => y :: put r k x
    end.
  (** zpl_memswap of elements [i] and [j] *)
  Definition swap (l : list T) (i j : Z) : res (list T) :=
    x <~ rd l i ;; y <~ rd l j ;; Ok (put (put l (Z.to_nat i) y) (Z.to_nat j) x).

  Definition cmp_at (l : list T) (i j : Z) : res Z :=
    x <~ rd l i ;; y <~ rd l j ;; Ok (cmp x y).
  (** [if (cmp(i, j) > 0) zpl_memswap(i, j, size)] *)
  Definition swap_if_greater (l : list T) (i j : Z) : res (list T) :=
    c <~ cmp_at l i j ;; if 0 <? c then swap l i j else Ok l.

  (** [do i += size; while (cmp(i, base) < 0);] sort.c:80-82 *)
  Fixpoint scan_up (fuel : nat) (l : list T) (base i : Z) : res Z :=
    match fuel with
    | O => Fuel
    | S f => c <~ cmp_at l (i + 1) base ;; if c <? 0 then scan_up f l base (i + 1) else Ok (i + 1)
    end.
  (** [do j -= size; while (cmp(j, base) > 0);] sort.c:83-85 *)
  Fixpoint scan_down (fuel : nat) (l : list T) (base j : Z) : res Z :=
    match fuel with
    | O => Fuel
    | S f => c <~ cmp_at l (j - 1) base ;; if 0 <? c then scan_down f l base (j - 1) else Ok (j - 1)
    end.
  (** sort.c:79-88 *)
  Fixpoint part_loop (fuel : nat) (l : list T) (base i j : Z) : res (list T * Z * Z) :=
    match fuel with
    | O => Fuel
    | S f =>
      i <~ scan_up (S (length l)) l base i ;;
      j <~ scan_down (S (length l)) l base j ;;
      if j <? i then Ok (l, i, j)
      else l <~ swap l i j ;; part_loop f l base i j
    end.
  (** sort.c:71-90 *)
  Definition partition (l : list T) (base limit : Z) : res (list T * Z * Z) :=
    let i := base + 1 in
    let j := limit - 1 in
    l <~ swap l (Z.quot (limit - base) 2 + base) base ;;
    l <~ swap_if_greater l i j ;;
    l <~ swap_if_greater l base j ;;
    l <~ swap_if_greater l i base ;;
    '(l, i, j) <~ part_loop (S (length l)) l base i j ;;
    l <~ swap l base j ;;
    Ok (l, i, j).

  (** [for (; cmp(j, j + size) > 0; j -= size) { swap; if (j == base) break; }] sort.c:102-105 *)
  Fixpoint sift (fuel : nat) (l : list T) (base j : Z) : res (list T) :=
    match fuel with
    | O => Fuel
    | S f =>
      c <~ cmp_at l j (j + 1) ;;
      if 0 <? c then
        l <~ swap l j (j + 1) ;;
        if j =? base then Ok l else sift f l base (j - 1)
      else Ok l
    end.
  (** sort.c:101-106 *)
  Fixpoint insertion (fuel : nat) (l : list T) (base limit j i : Z) : res (list T) :=
    match fuel with
    | O => Fuel
    | S f =>
      if i <? limit then
        l <~ sift (S (length l)) l base j ;; insertion f l base limit i (i + 1)
      else Ok l
    end.

  Definition stack_pairs : nat := 32. (* ZPL__SORT_STACK_SIZE 64 pointers, sort.c:41 *)
  Definition threshold : Z := 8.      (* sort.c:42 *)
  (** ZPL__SORT_PUSH, sort.c:44-49: writing past the 64-entry stack faults *)
  Definition push (st : list (Z * Z)) (b l : Z) : res (list (Z * Z)) :=
    if (length st <? stack_pairs)%nat then Ok ((b, l) :: st) else Fault.

  (** the main loop, sort.c:68-111 *)
  Fixpoint sort_loop (fuel : nat) (l : list T) (base limit : Z) (st : list (Z * Z)) : res (list T) :=
    match fuel with
    | O => Fuel
    | S f =>
      if threshold <? limit - base then
        '(l, i, j) <~ partition l base limit ;;
        if (j - base) >? (limit - i)
        then st <~ push st base j ;; sort_loop f l i limit st
        else st <~ push st i limit ;; sort_loop f l base j st
      else
        l <~ insertion (S (length l)) l base limit base (base + 1) ;;
        match st with
        | [] => Ok l
        | (b, lim) :: st => sort_loop f l b lim st
        end
    end.
  (** zpl_sort, sort.c:58-112 *)
  Definition zpl_sort (fuel : nat) (l : list T) : res (list T) :=
    sort_loop fuel l 0 (Z.of_nat (length l)) [].

  (** zpl_binary_search, header/core/sort.h:75-92 *)
  Fixpoint bsearch_loop (fuel : nat) (l : list T) (key : T) (start end_ : Z) : res Z :=
    match fuel with
    | O => Fuel
    | S f =>
      if start <? end_ then
        let mid := start + Z.quot (end_ - start) 2 in
        x <~ rd l mid ;;
        let result := cmp key x in
        if result <? 0 then bsearch_loop f l key start mid
        else if 0 <? result then bsearch_loop f l key (mid + 1) end_
        else Ok mid
      else Ok (-1)
    end.
  Definition binary_search (l : list T) (key : T) : res Z :=
    bsearch_loop (S (length l)) l key 0 (Z.of_nat (length l)).

  (** zpl_shuffle, sort.c:152-164; [rs] are the values zpl_random_gen_isize returns *)
  Fixpoint shuffle_loop (l : list T) (a : Z) (i : nat) (rs : nat -> Z) : res (list T) :=
    match i with
    | O | S O => Ok l
    | S k =>
      let j := Z.rem (rs O) (Z.of_nat i) in
      l <~ swap l a j ;; shuffle_loop l (a - 1) k (fun n => rs (S n))
    end.
  Definition shuffle (l : list T) (rs : nat -> Z) : res (list T) :=
    shuffle_loop l (Z.of_nat (length l) - 1) (length l) rs.

  (** zpl_reverse, sort.c:166-169: both cursors move forward *)
  Fixpoint reverse_loop (fuel : nat) (l : list T) (i j : Z) : res (list T) :=
    match fuel with
    | O => Fuel
    | S f => if i <? j then l <~ swap l i j ;; reverse_loop f l (i + 1) (j + 1) else Ok l
    end.
  Definition reverse (fuel : nat) (l : list T) : res (list T) :=
    reverse_loop fuel l 0 (Z.of_nat (length l) - 1).
End Sort.

(** The numeric comparators, sort.c:6-24: [p < q ? -1 : p > q] *)
Definition num_cmp (p q : Z) : Z := if p <? q then -1 else if q <? p then 1 else 0.

(** Radix sorts, sort.c:117-150, for a key type of [8 * passes] bits. [offsets] is the
    256-entry local array. [source] and [dest] are swapped after every pass. *)
Section Radix.
  Definition piece (x : Z) (byte_index : Z) : Z := Z.land (Z.shiftr x byte_index) 255.
  Fixpoint count_pass (src : list Z) (b : Z) (offs : list Z) : res (list Z) :=
    match src with
    | [] => Ok offs
    | x :: r => c <~ rd offs (piece x b) ;; count_pass r b (put offs (Z.to_nat (piece x b)) (c + 1))
    end.
  Fixpoint to_offsets (counts : list Z) (total : Z) : list Z :=
    match counts with [] => [] | c :: r => total :: to_offsets r (total + c) end.
  Fixpoint place_pass (src : list Z) (b : Z) (offs dest : list Z) : res (list Z) :=
    match src with
    | [] => Ok dest
    | x :: r =>
      o <~ rd offs (piece x b) ;;
      _ <~ rd dest o ;; (* the slot exists *)
      place_pass r b (put offs (Z.to_nat (piece x b)) (o + 1)) (put dest (Z.to_nat o) x)
    end.
  Definition radix_pass (src dest : list Z) (b : Z) : res (list Z) :=
    offs <~ count_pass src b (repeat 0 256) ;;
    place_pass src b (to_offsets offs 0) dest.
  Fixpoint radix_loop (passes : nat) (b : Z) (source dest : list Z) : res (list Z * list Z) :=
    match passes with
    | O => Ok (source, dest)
    | S k => d <~ radix_pass source dest b ;; radix_loop k (b + 8) d source
    end.
  (** result: (items, temp). After an odd number of passes [source] points to temp. *)
  Definition radix_sort (passes : nat) (items temp : list Z) : res (list Z * list Z) :=
    '(source, dest) <~ radix_loop passes 0 items temp ;;
    Ok (if Nat.even passes then (source, dest) else (dest, source)).
  Definition radix_sort_u8 := radix_sort 1.
  Definition radix_sort_u16 := radix_sort 2.
  Definition radix_sort_u32 := radix_sort 4.
  Definition radix_sort_u64 := radix_sort 8.
End Radix.

(** The comparator factories, sort.c:6-36. Each key type has one global offset
    ([Type##__cmp_offset]); making a comparator stores into it and returns the one
    function of that type. [field x ty off] is the key of type [ty] read [off] bytes
    into element [x]. *)
Section Comparators.
  Context {T : Type} (field : T -> nat -> Z -> Z).
  Definition offsets := nat -> Z.  (* key type -> global offset *)
  Definition make_cmp (st : offsets) (ty : nat) (off : Z) : offsets * nat :=
    ((fun t => if Nat.eqb t ty then off else st t), ty).
  Definition call_cmp (st : offsets) (fn : nat) (a b : T) : Z :=
    num_cmp (field a fn (st fn)) (field b fn (st fn)).
  Definition make_all (st : offsets) (l : list (nat * Z)) : offsets :=
    fold_left (fun st p => fst (make_cmp st (fst p) (snd p))) l st.
End Comparators.
