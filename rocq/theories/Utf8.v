(** UTF-8 and UCS-2, code/source/core/string.c:221-449 and code/header/core/string.h:187-228.

    A byte pointer is the list of bytes from it to the end of its object; reading past the
    end is [None]. Output buffers are written front to back only, so a buffer is the list
    of units written so far together with its capacity; writing beyond the capacity is [None].
    [zpl_rune] is [zpl_i32] (types.h:82). *)
From Verif Require Import Base.

Definition rune_invalid : Z := 0xfffd.   (* types.h:84 *)
Definition rune_max : Z := 0x10ffff.     (* types.h:85 *)
Definition between (x lo hi : Z) : bool := (lo <=? x) && (x <=? hi).   (* helpers.h:124 *)

(** zpl_utf8_encode_rune, string.c:414-449: the bytes stored in buf[0..n) *)
Definition utf8_encode_rune (r : Z) : list Z :=
  let i := u32 r in
  let mask := 0x3f in
  if i <=? Z.shiftl 1 7 - 1 then [u8 r]
  else if i <=? Z.shiftl 1 11 - 1 then
    [Z.lor 0xc0 (u8 (Z.shiftr r 6)); Z.lor 0x80 (Z.land (u8 r) mask)]
  else if (i >? rune_max) || between i 0xd800 0xdfff then
    let r := rune_invalid in
    [Z.lor 0xe0 (u8 (Z.shiftr r 12)); Z.lor 0x80 (Z.land (u8 (Z.shiftr r 6)) mask); Z.lor 0x80 (Z.land (u8 r) mask)]
  else if i <=? Z.shiftl 1 16 - 1 then
    [Z.lor 0xe0 (u8 (Z.shiftr r 12)); Z.lor 0x80 (Z.land (u8 (Z.shiftr r 6)) mask); Z.lor 0x80 (Z.land (u8 r) mask)]
  else
    [Z.lor 0xf0 (u8 (Z.shiftr r 18)); Z.lor 0x80 (Z.land (u8 (Z.shiftr r 12)) mask);
     Z.lor 0x80 (Z.land (u8 (Z.shiftr r 6)) mask); Z.lor 0x80 (Z.land (u8 r) mask)].

(** zpl__utf8_first, string.c:316-333 *)
Definition utf8_first : list Z :=
  [
   240; 240; 240; 240; 240; 240; 240; 240; 240; 240; 240; 240; 240; 240; 240; 240;
   240; 240; 240; 240; 240; 240; 240; 240; 240; 240; 240; 240; 240; 240; 240; 240;
   240; 240; 240; 240; 240; 240; 240; 240; 240; 240; 240; 240; 240; 240; 240; 240;
   240; 240; 240; 240; 240; 240; 240; 240; 240; 240; 240; 240; 240; 240; 240; 240;
   240; 240; 240; 240; 240; 240; 240; 240; 240; 240; 240; 240; 240; 240; 240; 240;
   240; 240; 240; 240; 240; 240; 240; 240; 240; 240; 240; 240; 240; 240; 240; 240;
   240; 240; 240; 240; 240; 240; 240; 240; 240; 240; 240; 240; 240; 240; 240; 240;
   240; 240; 240; 240; 240; 240; 240; 240; 240; 240; 240; 240; 240; 240; 240; 240;
   241; 241; 241; 241; 241; 241; 241; 241; 241; 241; 241; 241; 241; 241; 241; 241;
   241; 241; 241; 241; 241; 241; 241; 241; 241; 241; 241; 241; 241; 241; 241; 241;
   241; 241; 241; 241; 241; 241; 241; 241; 241; 241; 241; 241; 241; 241; 241; 241;
   241; 241; 241; 241; 241; 241; 241; 241; 241; 241; 241; 241; 241; 241; 241; 241;
   241; 241; 2; 2; 2; 2; 2; 2; 2; 2; 2; 2; 2; 2; 2; 2;
   2; 2; 2; 2; 2; 2; 2; 2; 2; 2; 2; 2; 2; 2; 2; 2;
   19; 3; 3; 3; 3; 3; 3; 3; 3; 3; 3; 3; 3; 35; 3; 3;
   52; 4; 4; 4; 68; 241; 241; 241; 241; 241; 241; 241; 241; 241; 241; 241].
(** zpl__utf8_accept_ranges, string.c:340-342 *)
Definition accept_ranges : list (Z * Z) := [(0x80, 0xbf); (0xa0, 0xbf); (0x80, 0x9f); (0x90, 0xbf); (0x80, 0x8f)].

(** zpl_utf8_decode, string.c:344-404: (codepoint, width). The shift [x << 31] of a
    non-negative rune overflows a signed int; it is modelled as wrapping. *)
Definition utf8_decode (s : list Z) (str_len : Z) : option (Z * Z) :=
  if 0 <? str_len then
    s0 <- nth_error s 0 ;;
    x <- nth_error utf8_first (Z.to_nat s0) ;;
    if x >=? 0xf0 then
      let mask := Z.shiftr (i32 (Z.shiftl x 31)) 31 in
      Some (Z.lor (Z.land s0 (Z.lnot mask)) (Z.land rune_invalid mask), 1)
    else if s0 <? 0x80 then Some (s0, 1)
    else
      let sz := Z.land x 7 in
      ' (lo, hi) <- nth_error accept_ranges (Z.to_nat (Z.shiftr x 4)) ;;
      if str_len <? sz then Some (rune_invalid, 1)
      else
        b1 <- nth_error s 1 ;;
        if (b1 <? lo) || (hi <? b1) then Some (rune_invalid, 1)
        else if sz =? 2 then Some (Z.lor (Z.shiftl (Z.land s0 0x1f) 6) (Z.land b1 0x3f), 2)
        else
          b2 <- nth_error s 2 ;;
          if negb (between b2 0x80 0xbf) then Some (rune_invalid, 1)
          else if sz =? 3 then
            Some (Z.lor (Z.lor (Z.shiftl (Z.land s0 0x1f) 12) (Z.shiftl (Z.land b1 0x3f) 6)) (Z.land b2 0x3f), 3)
          else
            b3 <- nth_error s 3 ;;
            if negb (between b3 0x80 0xbf) then Some (rune_invalid, 1)
            else Some (Z.lor (Z.lor (Z.lor (Z.shiftl (Z.land s0 0x07) 18) (Z.shiftl (Z.land b1 0x3f) 12))
                                    (Z.shiftl (Z.land b2 0x3f) 6)) (Z.land b3 0x3f), 4)
  else Some (rune_invalid, 0).

(** zpl_utf8_codepoint_size, string.c:406-412 *)
Fixpoint codepoint_size_loop (fuel : nat) (s : list Z) (str_len i : Z) : option Z :=
  match fuel with
  | O => None
  | S f =>
    if i <? str_len then
      c <- nth_error s (Z.to_nat i) ;;
      if c =? 0 then Some i
      else if negb (Z.land c 0xc0 =? 0x80) then Some i
      else codepoint_size_loop f s str_len (i + 1)
    else Some i
  end.
Definition utf8_codepoint_size (s : list Z) (str_len : Z) : option Z :=
  i <- codepoint_size_loop (S (Z.to_nat str_len)) s str_len 0 ;; Some (i + 1).

(** [buffer[i++] = v] in a buffer of [cap] units *)
Definition put (cap : Z) (out : list Z) (v : Z) : option (list Z) :=
  if Z.of_nat (length out) <? cap then Some (out ++ [v]) else None.

(** a step of a conversion: give up with NULL, or go on with the rest of the text *)
Inductive conv := Null | Go (str : list Z) (out : list Z).

(** one round of zpl_utf8_to_ucs2, string.c:226-265; [c] is the first byte, [len] has been
    decremented *)
Definition to_ucs2_step (cap len : Z) (str : list Z) (out : list Z) : option conv :=
  c0 <- nth_error str 0 ;;
  let i := Z.of_nat (length out) in
  if i >=? len then Some Null
  else if Z.land c0 0x80 =? 0 then
    out <- put cap out c0 ;; Some (Go (skipn 1 str) out)
  else if Z.land c0 0xe0 =? 0xc0 then
    if c0 <? 0xc2 then Some Null
    else
      let c := Z.shiftl (Z.land c0 0x1f) 6 in
      c1 <- nth_error str 1 ;;
      if negb (Z.land c1 0xc0 =? 0x80) then Some Null
      else out <- put cap out (u16 (c + Z.land c1 0x3f)) ;; Some (Go (skipn 2 str) out)
  else if Z.land c0 0xf0 =? 0xe0 then
    bad <- (if c0 =? 0xe0 then b <- nth_error str 1 ;; Some ((b <? 0xa0) || (b >? 0xbf)) else Some false) ;;
    if (bad : bool) then Some Null
    else
      bad <- (if c0 =? 0xed then b <- nth_error str 1 ;; Some (b >? 0x9f) else Some false) ;;
      if (bad : bool) then Some Null
      else
        let c := Z.shiftl (Z.land c0 0x0f) 12 in
        c1 <- nth_error str 1 ;;
        if negb (Z.land c1 0xc0 =? 0x80) then Some Null
        else
          let c := c + Z.shiftl (Z.land c1 0x3f) 6 in
          c2 <- nth_error str 2 ;;
          if negb (Z.land c2 0xc0 =? 0x80) then Some Null
          else out <- put cap out (u16 (c + Z.land c2 0x3f)) ;; Some (Go (skipn 3 str) out)
  else if Z.land c0 0xf8 =? 0xf0 then
    if c0 >? 0xf4 then Some Null
    else
      bad <- (if c0 =? 0xf0 then b <- nth_error str 1 ;; Some ((b <? 0x90) || (b >? 0xbf)) else Some false) ;;
      if (bad : bool) then Some Null
      else
        bad <- (if c0 =? 0xf4 then b <- nth_error str 1 ;; Some (b >? 0x8f) else Some false) ;;
        if (bad : bool) then Some Null
        else
          let c := Z.shiftl (Z.land c0 0x07) 18 in
          c1 <- nth_error str 1 ;;
          if negb (Z.land c1 0xc0 =? 0x80) then Some Null
          else
            let c := c + Z.shiftl (Z.land c1 0x3f) 12 in
            c2 <- nth_error str 2 ;;
            if negb (Z.land c2 0xc0 =? 0x80) then Some Null
            else
              let c := c + Z.shiftl (Z.land c2 0x3f) 6 in
              c3 <- nth_error str 3 ;;
              if negb (Z.land c3 0xc0 =? 0x80) then Some Null
              else
                let c := c + Z.land c3 0x3f in
                if Z.land c 0xfffff800 =? 0xd800 then Some Null
                else if c >=? 0x10000 then
                  let c := c - 0x10000 in
                  if i + 2 >? len then Some Null
                  else
                    out <- put cap out (Z.lor 0xd800 (Z.land 0x3ff (Z.shiftr c 10))) ;;
                    out <- put cap out (Z.lor 0xdc00 (Z.land 0x3ff c)) ;;
                    Some (Go (skipn 4 str) out)
                else Some (Go (skipn 4 str) out)
  else Some Null.
(** zpl_utf8_to_ucs2, string.c:221-269: the inner [None] is the NULL result, otherwise the
    units written to the buffer; [cap] is the argument [len], the size of the buffer *)
Fixpoint to_ucs2_loop (fuel : nat) (cap : Z) (str out : list Z) : option (option (list Z)) :=
  match fuel with
  | O => None
  | S f =>
    c0 <- nth_error str 0 ;;
    if c0 =? 0 then out <- put cap out 0 ;; Some (Some out)
    else
      r <- to_ucs2_step cap (cap - 1) str out ;;
      match r with
      | Null => Some None
      | Go str out => to_ucs2_loop f cap str out
      end
  end.
Definition utf8_to_ucs2 (cap : Z) (str : list Z) : option (option (list Z)) :=
  to_ucs2_loop (S (length str)) cap str [].

(** the stores through [zpl_u8 *buffer]; [cast(char)] and the store keep the low byte *)
Definition put8 (cap : Z) (out : list Z) (v : Z) : option (list Z) := put cap out (u8 v).
(** one round of zpl_ucs2_to_utf8, string.c:274-301 *)
Definition to_utf8_step (cap len : Z) (str : list Z) (out : list Z) : option conv :=
  c <- nth_error str 0 ;;
  let i := Z.of_nat (length out) in
  if c <? 0x80 then
    if i + 1 >? len then Some Null
    else out <- put8 cap out c ;; Some (Go (skipn 1 str) out)
  else if c <? 0x800 then
    if i + 2 >? len then Some Null
    else
      out <- put8 cap out (0xc0 + Z.shiftr c 6) ;;
      out <- put8 cap out (0x80 + Z.land c 0x3f) ;;
      Some (Go (skipn 1 str) out)
  else if (c >=? 0xd800) && (c <? 0xdc00) then
    if i + 4 >? len then Some Null
    else
      d <- nth_error str 1 ;;
      let r := Z.shiftl (c - 0xd800) 10 + (d - 0xdc00) + 0x10000 in
      out <- put8 cap out (0xf0 + Z.shiftr r 18) ;;
      out <- put8 cap out (0x80 + Z.land (Z.shiftr r 12) 0x3f) ;;
      out <- put8 cap out (0x80 + Z.land (Z.shiftr r 6) 0x3f) ;;
      out <- put8 cap out (0x80 + Z.land r 0x3f) ;;
      Some (Go (skipn 2 str) out)
  else if (c >=? 0xdc00) && (c <? 0xe000) then Some Null
  else
    if i + 3 >? len then Some Null
    else
      out <- put8 cap out (0xe0 + Z.shiftr c 12) ;;
      out <- put8 cap out (0x80 + Z.land (Z.shiftr c 6) 0x3f) ;;
      out <- put8 cap out (0x80 + Z.land c 0x3f) ;;
      Some (Go (skipn 1 str) out).
(** zpl_ucs2_to_utf8, string.c:271-304; [skipn] past the end leaves the pointer at the end
    of the object, where the next read fails *)
Fixpoint to_utf8_loop (fuel : nat) (cap : Z) (str out : list Z) : option (option (list Z)) :=
  match fuel with
  | O => None
  | S f =>
    c0 <- nth_error str 0 ;;
    if c0 =? 0 then out <- put cap out 0 ;; Some (Some out)
    else
      r <- to_utf8_step cap (cap - 1) str out ;;
      match r with
      | Null => Some None
      | Go str out => to_utf8_loop f cap str out
      end
  end.
Definition ucs2_to_utf8 (cap : Z) (str : list Z) : option (option (list Z)) :=
  to_utf8_loop (S (length str)) cap str [].

(** the width of a lead byte, string.h:190-200 and 211-221; [None] is the [return -1] *)
Definition lead_inc (c : Z) : option nat :=
  if c <? 0x80 then Some 1%nat
  else if Z.land c 0xe0 =? 0xc0 then Some 2%nat
  else if Z.land c 0xf0 =? 0xe0 then Some 3%nat
  else if Z.land c 0xf8 =? 0xf0 then Some 4%nat
  else None.
(** zpl_utf8_strlen, string.h:187-206 *)
Fixpoint utf8_strlen_loop (fuel : nat) (str : list Z) (count : Z) : option Z :=
  match fuel with
  | O => None
  | S f =>
    c <- nth_error str 0 ;;
    if c =? 0 then Some count
    else match lead_inc c with
         | None => Some (-1)
         | Some inc => utf8_strlen_loop f (skipn inc str) (count + 1)
         end
  end.
Definition utf8_strlen (str : list Z) : option Z := utf8_strlen_loop (S (length str)) str 0.
(** zpl_utf8_strnlen, string.h:208-228 *)
Fixpoint utf8_strnlen_loop (fuel : nat) (str : list Z) (max_len count : Z) : option Z :=
  match fuel with
  | O => None
  | S f =>
    c <- nth_error str 0 ;;
    if c =? 0 then Some count
    else if max_len >? 0 then
      match lead_inc c with
      | None => Some (-1)
      | Some inc => utf8_strnlen_loop f (skipn inc str) (max_len - Z.of_nat inc) (count + 1)
      end
    else Some count
  end.
Definition utf8_strnlen (str : list Z) (max_len : Z) : option Z := utf8_strnlen_loop (S (length str)) str max_len 0.
