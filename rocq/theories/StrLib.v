(** Length-prefixed strings, code/source/core/stringlib.c and code/header/core/stringlib.h.

    A zpl_string is a header (length, capacity, allocator) followed by [capacity + 1] bytes.
    The allocator is a function [new] that is asked for the number of bytes behind the
    header and answers NULL ([None]) or a block of junk of that size; the header has a fixed size
    and its allocator field is left out. Functions return [None] for undefined behaviour,
    [Some None] for NULL and [Some (Some s)] for a string. Sizes are unbounded integers:
    overflow of zpl_isize needs objects of 2^63 bytes. *)
From Verif Require Import Base CStr Utf8.

Record zstring := Str { slen : Z; scap : Z; sbuf : list Z }.
Definition allocator := Z -> option (list Z).

(** zpl_string_make_reserve, stringlib.c:6-24 *)
Definition make_reserve (new : allocator) (capacity : Z) : option (option zstring) :=
  match new (capacity + 1) with
  | None => Some None
  | Some b =>
    b <- zero_loop b 0 (length b) ;;
    b <- wr b (Z.to_nat capacity) 0 ;;
    Some (Some (Str 0 capacity b))
  end.
(** zpl_string_make_length, stringlib.c:27-46 *)
Definition make_length (new : allocator) (init_str : option (list Z)) (num_bytes : Z) : option (option zstring) :=
  match new (num_bytes + 1) with
  | None => Some None
  | Some b =>
    b <- (match init_str with
          | None => zero_loop b 0 (length b)
          | Some s => if num_bytes =? 0 then Some b else blit b 0 s (Z.to_nat num_bytes)
          end) ;;
    b <- wr b (Z.to_nat num_bytes) 0 ;;
    Some (Some (Str num_bytes num_bytes b))
  end.
(** zpl_string_make, stringlib.h:45-48 *)
Definition make (new : allocator) (str : option (list Z)) : option (option zstring) :=
  match str with
  | None => make_length new None 0
  | Some s => n <- strlen s ;; make_length new (Some s) (Z.of_nat n)
  end.
(** zpl_string_duplicate, stringlib.h:57-59 *)
Definition duplicate (new : allocator) (s : zstring) : option (option zstring) := make_length new (Some (sbuf s)) (slen s).
(** zpl_string_available_space, stringlib.h:64-68 *)
Definition available_space (s : zstring) : Z := if slen s <? scap s then scap s - slen s else 0.
(** zpl_string_clear, stringlib.h:70-73 *)
Definition clear (s : zstring) : option zstring := b <- wr (sbuf s) 0 0 ;; Some (Str 0 (scap s) b).

(** zpl_string_make_space_for, stringlib.c:116-144. zpl_resize to a larger size: a new
    block that starts with the first [length + 1] bytes of the old one (C10-C15); the
    old block is released *)
Definition make_space_for (new : allocator) (s : zstring) (add_len : Z) : option (option zstring) :=
  if add_len <=? available_space s then Some (Some s)
  else
    let new_len := slen s + add_len in
    match new (new_len + 1) with
    | None => Some None
    | Some b => b <- blit b 0 (sbuf s) (Z.to_nat (slen s + 1)) ;; Some (Some (Str (slen s) new_len b))
    end.
(** zpl_string_append_length, stringlib.c:67-79, of bytes that are not inside the string *)
Definition append_length (new : allocator) (s : zstring) (other : list Z) (other_len : Z) : option (option zstring) :=
  if 0 <? other_len then
    o <- make_space_for new s other_len ;;
    match o with
    | None => Some None
    | Some t =>
      b <- blit (sbuf t) (Z.to_nat (slen s)) other (Z.to_nat other_len) ;;
      b <- wr b (Z.to_nat (slen s + other_len)) 0 ;;
      Some (Some (Str (slen s + other_len) (scap t) b))
    end
  else Some (Some s).
(** zpl_string_append of a string to itself: [other] is the old [str], stringlib.c:67-79;
    once the block has moved it is a released block *)
Definition append_self (new : allocator) (s : zstring) : option (option zstring) :=
  if 0 <? slen s then
    o <- make_space_for new s (slen s) ;;
    match o with
    | None => Some None
    | Some t =>
      if slen s <=? available_space s then
        b <- blit (sbuf t) (Z.to_nat (slen s)) (sbuf s) (Z.to_nat (slen s)) ;;
        b <- wr b (Z.to_nat (slen s + slen s)) 0 ;;
        Some (Some (Str (slen s + slen s) (scap t) b))
      else None
    end
  else Some (Some s).
(** zpl_string_appendc, stringlib.c:81-83; zpl_string_append, stringlib.h:75-77 *)
Definition appendc (new : allocator) (s : zstring) (other : list Z) : option (option zstring) :=
  n <- strlen other ;; append_length new s other (Z.of_nat n).
Definition append (new : allocator) (s other : zstring) : option (option zstring) :=
  append_length new s (sbuf other) (slen other).
(** zpl_string_append_rune, stringlib.c:184-192 *)
Definition append_rune (new : allocator) (s : zstring) (r : Z) : option (option zstring) :=
  if 0 <=? r then append_length new s (utf8_encode_rune r) (Z.of_nat (length (utf8_encode_rune r))) else Some (Some s).
(** zpl_string_join, stringlib.c:85-100; appending to NULL faults unless there is nothing to append *)
Definition appendc_null (new : allocator) (s : option zstring) (other : list Z) : option (option zstring) :=
  match s with
  | Some s => appendc new s other
  | None => n <- strlen other ;; match n with O => Some None | S _ => None end
  end.
Fixpoint join_loop (new : allocator) (ret : option zstring) (parts : list (list Z)) (glue : list Z) : option (option zstring) :=
  match parts with
  | [] => Some ret
  | p :: rest =>
    ret <- appendc_null new ret p ;;
    ret <- (match rest with [] => Some ret | _ => appendc_null new ret glue end) ;;
    join_loop new ret rest glue
  end.
Definition join (new : allocator) (parts : list (list Z)) (glue : list Z) : option (option zstring) :=
  ret <- make new None ;; join_loop new ret parts glue.
(** zpl_string_set, stringlib.c:102-114 *)
Definition set (new : allocator) (s : zstring) (cstr : list Z) : option (option zstring) :=
  n <- strlen cstr ;;
  let len := Z.of_nat n in
  o <- (if scap s <? len then make_space_for new s (len - slen s) else Some (Some s)) ;;
  match o with
  | None => Some None
  | Some t =>
    b <- blit (sbuf t) 0 cstr n ;;
    b <- wr b n 0 ;;
    Some (Some (Str len (scap t) b))
  end.
(** zpl_string_allocation_size, stringlib.c:146-149, without the header *)
Definition allocation_size (s : zstring) : Z := scap s.
(** zpl_string_are_equal, stringlib.c:151-162 *)
Fixpoint equal_loop (a b : list Z) (n : nat) : option bool :=
  match n with
  | O => Some true
  | S k => x <- rd a 0 ;; y <- rd b 0 ;; if x =? y then equal_loop (tl a) (tl b) k else Some false
  end.
Definition are_equal (a b : zstring) : option bool :=
  if slen a =? slen b then equal_loop (sbuf a) (sbuf b) (Z.to_nat (slen a)) else Some false.
(** zpl_string_trim, stringlib.c:164-182; positions are relative to [str], and [end] may be -1 *)
Fixpoint trim_start (fuel : nat) (buf cut : list Z) (start_pos last : Z) : option Z :=
  match fuel with
  | O => None
  | S f =>
    if start_pos <=? last then
      c <- rd buf (Z.to_nat start_pos) ;; o <- first_occurence cut c ;;
      match o with Some _ => trim_start f buf cut (start_pos + 1) last | None => Some start_pos end
    else Some start_pos
  end.
Fixpoint trim_end (fuel : nat) (buf cut : list Z) (end_pos start_pos : Z) : option Z :=
  match fuel with
  | O => None
  | S f =>
    if start_pos <? end_pos then
      c <- rd buf (Z.to_nat end_pos) ;; o <- first_occurence cut c ;;
      match o with Some _ => trim_end f buf cut (end_pos - 1) start_pos | None => Some end_pos end
    else Some end_pos
  end.
Definition trim (s : zstring) (cut : list Z) : option zstring :=
  let last := slen s - 1 in
  let fuel := S (Z.to_nat (slen s)) in
  start_pos <- trim_start fuel (sbuf s) cut 0 last ;;
  end_pos <- trim_end fuel (sbuf s) cut last start_pos ;;
  let len := if end_pos <? start_pos then 0 else end_pos - start_pos + 1 in
  b <- (if start_pos =? 0 then Some (sbuf s) else blit (sbuf s) 0 (skipn (Z.to_nat start_pos) (sbuf s)) (Z.to_nat len)) ;;
  b <- wr b (Z.to_nat len) 0 ;;
  Some (Str len (scap s) b).
(** zpl_string_trim_space, stringlib.h:79 *)
Definition trim_space (s : zstring) : option zstring := trim s [32; 9; 13; 10; 11; 12; 0].
