(** C string routines, code/header/core/string.h:104-453.

    A character is its byte value 0..255 ([char] is signed on the modelled target, but
    apart from zpl_strcmp, which casts to [zpl_u8], the code only compares characters for
    equality or with ASCII ranges). A source pointer is the list of characters from it to
    the end of its object; reading past the end is [None]. A destination is the list of
    characters of its object from the pointer on; writing past its end is [None]. Pointers
    returned into a string are offsets from its start. Strings do not overlap. *)
From Verif Require Import Base.

(** [b[i] = v] *)
Fixpoint wr (b : list Z) (i : nat) (v : Z) : option (list Z) :=
  match b, i with
  | [], _ => None
  | _ :: r, O => Some (v :: r)
  | c :: r, S k => r <- wr r k v ;; Some (c :: r)
  end.
Definition rd (b : list Z) (i : nat) : option Z := nth_error b i.

(** string.h:104-112 *)
Definition char_to_lower (c : Z) : Z := if (65 <=? c) && (c <=? 90) then 97 + (c - 65) else c.
Definition char_to_upper (c : Z) : Z := if (97 <=? c) && (c <=? 122) then 65 + (c - 97) else c.
(** string.h:114-117 *)
Definition char_is_space (c : Z) : bool := (c =? 32) || (c =? 9) || (c =? 10) || (c =? 13) || (c =? 12) || (c =? 11).
(** string.h:119-127 *)
Definition char_is_digit (c : Z) : bool := (48 <=? c) && (c <=? 57).
Definition char_is_hex_digit (c : Z) : bool :=
  char_is_digit c || ((97 <=? c) && (c <=? 102)) || ((65 <=? c) && (c <=? 70)).
(** string.h:129-134 *)
Definition char_is_alpha (c : Z) : bool := ((65 <=? c) && (c <=? 90)) || ((97 <=? c) && (c <=? 122)).
Definition char_is_alphanumeric (c : Z) : bool := char_is_alpha c || char_is_digit c.
(** string.h:136-146 *)
Definition digit_to_int (c : Z) : Z := if char_is_digit c then c - 48 else c - 87.
Definition hex_digit_to_int (c : Z) : Z :=
  if char_is_digit c then digit_to_int c
  else if (97 <=? c) && (c <=? 102) then c - 97 + 10
  else if (65 <=? c) && (c <=? 70) then c - 65 + 10
  else -1.
(** zpl_char_to_hex_digit, string.h:148-156 *)
Definition char_to_hex_digit (c : Z) : Z :=
  if (48 <=? c) && (c <=? 57) then c - 48
  else if (97 <=? c) && (c <=? 102) then c - 97
  else if (65 <=? c) && (c <=? 70) then c - 65
  else 0.
(** zpl_str_to_lower, zpl_str_to_upper, string.h:158-172 *)
Fixpoint str_map (f : Z -> Z) (s : list Z) : option (list Z) :=
  match s with
  | [] => None
  | c :: r => if c =? 0 then Some s else r <- str_map f r ;; Some (f c :: r)
  end.
Definition str_to_lower := str_map char_to_lower.
Definition str_to_upper := str_map char_to_upper.

(** zpl_strlen, string.h:174-179 *)
Fixpoint strlen (s : list Z) : option nat :=
  match s with
  | [] => None
  | c :: r => if c =? 0 then Some O else n <- strlen r ;; Some (S n)
  end.
(** zpl_strnlen, string.h:181-185, with the contract of zpl_memchr (C07) *)
Fixpoint strnlen (s : list Z) (max_len : nat) {struct max_len} : option nat :=
  match max_len with
  | O => Some O
  | S k => match s with
           | [] => None
           | c :: r => if c =? 0 then Some O else n <- strnlen r k ;; Some (S n)
           end
  end.

(** zpl_strcmp, string.h:230-233 *)
Fixpoint strcmp (s1 s2 : list Z) : option Z :=
  match s1, s2 with
  | c1 :: r1, c2 :: r2 => if negb (c1 =? 0) && (c1 =? c2) then strcmp r1 r2 else Some (u8 c1 - u8 c2)
  | _, _ => None
  end.
(** zpl_strncmp, string.h:302-310; [p1], [p2] are the addresses of the strings *)
Fixpoint strncmp (len : nat) (p1 p2 : Z) (s1 s2 : list Z) : option Z :=
  match len with
  | O => Some 0
  | S k =>
    c1 <- rd s1 0 ;; c2 <- rd s2 0 ;;
    if negb (c1 =? c2) then Some (if p1 <? p2 then -1 else 1)
    else if c1 =? 0 then Some 0
    else strncmp k (p1 + 1) (p2 + 1) (tl s1) (tl s2)
  end.

(** [while ( *source ) *str++ = *source++], string.h:239, 249 *)
Fixpoint copy_loop (d : list Z) (k : nat) (s : list Z) : option (list Z) :=
  match s with
  | [] => None
  | c :: r => if c =? 0 then Some d else d <- wr d k c ;; copy_loop d (S k) r
  end.
(** zpl_strcpy, string.h:235-242 *)
Definition strcpy (d s : list Z) : option (list Z) := copy_loop d 0 s.
(** zpl_strcat, string.h:244-252 *)
Definition strcat (d s : list Z) : option (list Z) := k <- strlen d ;; copy_loop d k s.
(** the two loops of zpl_strncpy and zpl_strlcpy, string.h:258-265, 276-283; also returns
    the number of source characters consumed *)
Fixpoint zero_loop (d : list Z) (k len : nat) : option (list Z) :=
  match len with O => Some d | S l => d <- wr d k 0 ;; zero_loop d (S k) l end.
Fixpoint ncopy_loop (d : list Z) (k : nat) (s : list Z) (len : nat) : option (list Z * nat) :=
  match len with
  | O => Some (d, k)
  | S l => c <- rd s 0 ;;
           if c =? 0 then d <- zero_loop d k len ;; Some (d, k)
           else d <- wr d k c ;; ncopy_loop d (S k) (tl s) l
  end.
(** zpl_strncpy, string.h:254-268, and zpl_strlcpy, string.h:270-288; a negative length
    copies nothing *)
Definition strncpy (d s : list Z) (len : Z) : option (list Z) := ' (d, _) <- ncopy_loop d 0 s (Z.to_nat len) ;; Some d.
Definition strlcpy (d s : list Z) (len : Z) : option (list Z * Z) := ' (d, n) <- ncopy_loop d 0 s (Z.to_nat len) ;; Some (d, Z.of_nat n).

(** zpl_strrev, string.h:290-300 *)
Fixpoint swap_loop (d : list Z) (a b n : nat) : option (list Z) :=
  match n with
  | O => Some d
  | S k => x <- rd d a ;; y <- rd d b ;; d <- wr d a y ;; d <- wr d b x ;; swap_loop d (S a) (b - 1) k
  end.
Definition strrev (d : list Z) : option (list Z) := len <- strlen d ;; swap_loop d 0 (len - 1) (len / 2).

(** zpl_char_first_occurence, string.h:362-368; the inner [None] is NULL *)
Fixpoint first_occurence (s : list Z) (ch : Z) : option (option nat) :=
  match s with
  | [] => None
  | c :: r => if c =? ch then Some (Some O)
              else if c =? 0 then Some None
              else o <- first_occurence r ch ;; Some (match o with Some k => Some (S k) | None => None end)
  end.
(** zpl_char_last_occurence, string.h:370-377; [k] is the offset of [s] *)
Fixpoint last_loop (s : list Z) (ch : Z) (k : nat) (result : option nat) : option (option nat) :=
  match s with
  | [] => None
  | c :: r => let result := if c =? ch then Some k else result in
              if c =? 0 then Some result else last_loop r ch (S k) result
  end.
Definition last_occurence (s : list Z) (ch : Z) : option (option nat) := last_loop s ch 0 None.

(** zpl_strtok, string.h:312-317: the output and the offset returned *)
Fixpoint strtok_loop (out : list Z) (k : nat) (src delimit : list Z) : option (list Z * nat) :=
  match src with
  | [] => None
  | c :: r =>
    if c =? 0 then out <- wr out k 0 ;; Some (out, k)
    else
      o <- first_occurence delimit c ;;
      match o with
      | None => out <- wr out k c ;; strtok_loop out (S k) r delimit
      | Some _ => out <- wr out k 0 ;; Some (out, S k)
      end
  end.
Definition strtok (out src delimit : list Z) : option (list Z * nat) := strtok_loop out 0 src delimit.
(** zpl_strntok, string.h:319-330; [len] is what is left *)
Fixpoint strntok_loop (out : list Z) (k : nat) (len : nat) (src delimit : list Z) : option (list Z * nat) :=
  match src with
  | [] => None
  | c :: r =>
    if c =? 0 then out <- (match len with O => Some out | S _ => wr out k 0 end) ;; Some (out, k)
    else
      o <- first_occurence delimit c ;;
      match o, len with
      | None, S l => out <- wr out k c ;; strntok_loop out (S k) l r delimit
      | _, _ => out <- (match len with O => Some out | S _ => wr out k 0 end) ;; Some (out, S k)
      end
  end.
Definition strntok (out : list Z) (len : Z) (src delimit : list Z) : option (list Z * nat) :=
  if len <=? 0 then None   (* ZPL_ASSERT(len > 0) *)
  else out <- wr out (Z.to_nat len - 1) 0 ;; strntok_loop out 0 (Z.to_nat len) src delimit.

(** zpl_str_has_prefix, string.h:348-353 *)
Fixpoint has_prefix (str prefix : list Z) {struct prefix} : option bool :=
  match prefix with
  | [] => None
  | p :: prefix => if p =? 0 then Some true
                   else match str with
                        | [] => None
                        | c :: str => if c =? p then has_prefix str prefix else Some false
                        end
  end.
(** zpl_str_has_suffix, string.h:355-360 *)
Definition has_suffix (str suffix : list Z) : option bool :=
  i <- strlen str ;; j <- strlen suffix ;;
  if (j <=? i)%nat then r <- strcmp (skipn (i - j) str) suffix ;; Some (r =? 0) else Some false.

(** zpl_str_trim, string.h:379-383: the offset returned *)
Fixpoint str_trim (str : list Z) (catch_newline : bool) : option nat :=
  match str with
  | [] => None
  | c :: r => if negb (c =? 0) && char_is_space c && (negb catch_newline || (catch_newline && negb (c =? 10)))
              then n <- str_trim r catch_newline ;; Some (S n) else Some O
  end.
(** zpl_str_skip, string.h:385-388 *)
Fixpoint str_skip (str : list Z) (ch : Z) : option nat :=
  match str with
  | [] => None
  | c :: r => if negb (c =? 0) && negb (c =? ch) then n <- str_skip r ch ;; Some (S n) else Some O
  end.
(** zpl_str_skip_any, string.h:390-398 *)
Fixpoint skip_any_loop (str char_list : list Z) (count : nat) (closest : nat) : option nat :=
  match count with
  | O => Some closest
  | S k => c <- rd char_list 0 ;; p <- str_skip str c ;; skip_any_loop str (tl char_list) k (Nat.min closest p)
  end.
Definition str_skip_any (str char_list : list Z) : option nat :=
  n <- strlen str ;; count <- strlen char_list ;; skip_any_loop str char_list count n.
(** zpl_str_skip_literal, string.h:400-407; [prev] is the character before [str] *)
Fixpoint skip_literal_loop (str : list Z) (prev ch : Z) : option nat :=
  match str with
  | [] => None
  | c :: r => if (negb (c =? 0) && negb (c =? ch)) || ((c =? ch) && (prev =? 92))
              then n <- skip_literal_loop r c ch ;; Some (S n) else Some O
  end.
Definition str_skip_literal (str : list Z) (ch : Z) : option nat :=
  match str with
  | [] => None
  | c :: r => if (c =? 0) || (c =? ch) then Some O else n <- skip_literal_loop r c ch ;; Some (S n)
  end.

(** a block copy of [n] characters to offset [k], zpl_memcopy (C05) *)
Fixpoint blit (d : list Z) (k : nat) (s : list Z) (n : nat) : option (list Z) :=
  match n with
  | O => Some d
  | S m => c <- rd s 0 ;; d <- wr d k c ;; blit d (S k) (tl s) m
  end.
(** zpl_str_concat, string.h:409-417; the assertion on [dest_len] is [None] *)
Definition str_concat (d : list Z) (dest_len : Z) (a : list Z) (alen : nat) (b : list Z) (blen : nat) : option (list Z) :=
  if dest_len <? Z.of_nat (alen + blen + 1) then None
  else d <- blit d 0 a alen ;; d <- blit d alen b blen ;; wr d (alen + blen) 0.

(** zpl_strdup, string.h:425-433, given the freshly allocated [dest] of [max_len] bytes; the
    memset of a negative number of bytes is [None] *)
Definition strdup (dest src : list Z) : option (list Z) :=
  let max_len := length dest in
  len <- strlen src ;;
  if (max_len <? len)%nat then None
  else d <- zero_loop dest len (max_len - len) ;; strncpy d src (Z.of_nat max_len).

(** zpl_str_split_lines, string.h:435-453: the modified text and the offsets of the lines.
    Reading before the start of [source] and running past its end are [None]; so is running
    out of fuel, which [S (length source)] rounds cannot do, since [pd] moves forward in
    every round but the one after an empty line. *)
Fixpoint split_loop (fuel : nat) (src : list Z) (strip : bool) (p pd : nat) (lines : list nat) : option (list Z * list nat) :=
  match fuel with
  | O => None
  | S f =>
    c <- rd src p ;;
    if c =? 0 then Some (src, lines)
    else
      d <- rd src pd ;;
      if d =? 10 then
        src <- wr src pd 0 ;;
        match pd with
        | O => None
        | S q =>
          e <- rd src q ;;
          src <- (if e =? 13 then wr src q 0 else Some src) ;;
          if strip && (pd =? p)%nat then split_loop f src strip (S pd) pd lines
          else split_loop f src strip (S pd) (S pd) (lines ++ [p])
        end
      else split_loop f src strip p (S pd) lines
  end.
Definition str_split_lines (src : list Z) (strip : bool) : option (list Z * list nat) :=
  split_loop (S (2 * length src)) src strip 0 0 [].
