(** Formatted printing, code/source/core/print.c:79-454.

    Buffers and strings are as in [CStr]: a buffer is the list of its characters from a pointer
    to the end of its object, and writing past that end is [None]. A variable argument is a 64-bit slot or
    a pointer to a string ([None] is NULL); [va_arg(va, int)] takes the low half of a slot, as on
    x86-64. A floating-point argument is a double as in [Float]. *)
From Coq Require Import SpecFloat.
From Verif Require Import Base CStr Num Float.

Definition i16 (x : Z) : Z := sx 16 x.
(** print.c:91-116 *)
Definition FMT_MINUS := 1. Definition FMT_PLUS := 2. Definition FMT_ALT := 4. Definition FMT_SPACE := 8. Definition FMT_ZERO := 16.
Definition FMT_CHAR := 32. Definition FMT_SHORT := 64. Definition FMT_INT := 128. Definition FMT_LONG := 256.
Definition FMT_LLONG := 512. Definition FMT_SIZE := 1024. Definition FMT_INTPTR := 2048.
Definition FMT_UNSIGNED := 4096. Definition FMT_LOWER := 8192. Definition FMT_UPPER := 16384. Definition FMT_WIDTH := 32768.
Definition FMT_INTS := 32 + 64 + 128 + 256 + 512 + 1024 + 2048.
Definition has (flags bit : Z) : bool := negb (Z.land flags bit =? 0).

(** zpl__format_info, print.c:118-123 *)
Record info := Info { base : Z; flags : Z; width : Z; precision : Z }.
Inductive arg := AInt (slot : Z) | AStr (s : option (list Z)) | AF64 (x : f64).

(** [while (padding-- > 0 && remaining-- > 0) *text++ = pad, res++], print.c:151, 157 *)
Fixpoint pad_loop (padding : nat) (remaining : Z) (t : list Z) (k : nat) (pad : Z) : option (list Z * nat) :=
  match padding with
  | O => Some (t, k)
  | S n => if 0 <? remaining then t <- wr t k pad ;; pad_loop n (remaining - 1) t (S k) pad else Some (t, k)
  end.
(** zpl_strlcpy to [text + k] *)
Definition strlcpy_at (t : list Z) (k : nat) (s : list Z) (len : Z) : option (list Z * Z) :=
  ' (r, n) <- strlcpy (skipn k t) s len ;; Some (firstn k t ++ r, n).
(** zpl__print_string, print.c:125-175, for a non-null [info]: the text from [text] on and the
    result *)
Definition print_string (t : list Z) (max_len : Z) (i : info) (str : option (list Z)) : option (list Z * Z) :=
  match str with
  | None => if 6 <=? max_len then strlcpy t [40; 110; 117; 108; 108; 41; 0] 6 else None
  | Some str =>
    len <- (if 0 <=? precision i then strnlen str (Z.to_nat (precision i)) else strlen str) ;;
    let len := Z.of_nat len in
    if (width i =? 0) && has (flags i) FMT_WIDTH then Some (t, 0)
    else
      let pad := if has (flags i) FMT_ZERO then 48 else 32 in
      ' (done, t, res) <-
        (if (width i =? 0) || has (flags i) FMT_MINUS then
           let len := if 0 <? precision i then (if precision i <? len then precision i else len) else len in
           if max_len <? len then Some (true, t, 0)
           else
             ' (t, res) <- strlcpy t str len ;;
             if res <? width i then
               ' (t, k) <- pad_loop (Z.to_nat (width i - len)) max_len t (Z.to_nat res) pad ;; Some (false, t, Z.of_nat k)
             else Some (false, t, res)
         else
           ' (t, k) <- (if 0 <? width i then pad_loop (Z.to_nat (width i - len)) max_len t 0 pad else Some (t, O)) ;;
           if max_len <? Z.of_nat k + len then Some (true, t, Z.of_nat k)
           else ' (t, n) <- strlcpy_at t k str len ;; Some (false, t, Z.of_nat k + n)) ;;
      if done : bool then Some (t, res)
      else
        t <- (if has (flags i) FMT_UPPER then str_to_upper t
              else if has (flags i) FMT_LOWER then str_to_lower t else Some t) ;;
        Some (t, res)
  end.
(** zpl__print_char, print.c:177-181 *)
Definition print_char (t : list Z) (max_len : Z) (i : info) (c : Z) := print_string t max_len i (Some [c; 0]).
(** zpl__print_repeated_char, print.c:183-190 *)
Fixpoint rep_loop (rem : nat) (t : list Z) (k : nat) (c : Z) : option (list Z) :=
  match rem with O => Some t | S n => t <- wr t k c ;; rep_loop n t (S k) c end.
Definition print_repeated_char (t : list Z) (i : info) (c : Z) : option (list Z * Z) :=
  let rem := if 0 <? width i then width i else 1 in
  t <- rep_loop (Z.to_nat rem) t 0 c ;; Some (t, rem).
(** zpl__print_i64, zpl__print_u64, print.c:192-202; [num] is uninitialised, but what it holds
    after the NUL is never read *)
Definition num_buf : list Z := repeat 0 130.
Definition print_i64 (t : list Z) (max_len : Z) (i : info) (v : Z) :=
  num <- i64_to_str v num_buf (base i) ;; print_string t max_len i (Some num).
Definition print_u64 (t : list Z) (max_len : Z) (i : info) (v : Z) :=
  num <- u64_to_str v num_buf (base i) ;; print_string t max_len i (Some num).

(** [if (remaining > 1) *text = c, remaining--; text++] *)
Definition put (t : list Z) (k : nat) (remaining c : Z) : option (list Z * nat * Z) :=
  if 1 <? remaining then t <- wr t k c ;; Some (t, S k, remaining - 1) else Some (t, S k, remaining).
(** zpl__print_u64 with a null [info] at [text + k] and the lines after it, print.c:221-227, 238-243;
    in zpl__print_string a null [info] acts like one without flags, width and precision *)
Definition put_u64 (t : list Z) (k : nat) (remaining v : Z) : option (list Z * nat * Z) :=
  ' (r, len) <- print_u64 (skipn k t) remaining (Info 10 0 0 (-1)) v ;;
  Some (firstn k t ++ r, (k + Z.to_nat len)%nat, if remaining <=? len then Z.min remaining 1 else remaining - len).
(** print.c:236-246 *)
Fixpoint frac_digits (n : nat) (x : f64) (mult : Z) (t : list Z) (k : nat) (remaining : Z) : option (list Z * nat * Z) :=
  match n with
  | O => Some (t, k, remaining)
  | S n =>
    value <- f_to_u64 (fmul x (f_of_int mult)) ;;
    ' (t, k, remaining) <- put_u64 t k remaining value ;;
    let x := fsub x (fdiv (f_of_int value) (f_of_int mult)) in
    mult <- chk64 (mult * 10) ;;
    frac_digits n x mult t k remaining
  end.
(** print.c:263-265: [len] characters are moved up by [width], as long as they stay before [stop] *)
Fixpoint move_up (len width : nat) (stop : Z) (t : list Z) : option (list Z) :=
  match len with
  | O => Some t
  | S n => t <- (if Z.of_nat (n + width) <? stop then c <- rd t n ;; wr t (n + width) c else Some t) ;; move_up n width stop t
  end.
(** print.c:274-276 *)
Fixpoint fill_front (len : nat) (stop fill : Z) (t : list Z) : option (list Z) :=
  match len with O => Some t | S n => t <- (if Z.of_nat n <? stop then wr t n fill else Some t) ;; fill_front n stop fill t end.
(** zpl__print_f64, print.c:204-280 *)
Definition print_f64 (t : list Z) (max_len : Z) (i : info) (x : f64) : option (list Z * Z) :=
  ' (t, k, remaining) <-
    (if f_nonzero x then
       ' (t, k, remaining, x) <-
         (if SFltb x f_zero then ' (t, k, r) <- put t 0 max_len 45 ;; Some (t, k, r, fneg x)
          else if has (flags i) FMT_MINUS then ' (t, k, r) <- put t 0 max_len 43 ;; Some (t, k, r, x)
          else Some (t, O, max_len, x)) ;;
       value <- f_to_u64 x ;;
       ' (t, k, remaining) <- put_u64 t k remaining value ;;
       let x := fsub x (f_of_int value) in
       let p := if precision i <? 0 then 6 else precision i in
       if has (flags i) FMT_ALT || (0 <? p) then
         ' (t, k, remaining) <- put t k remaining 46 ;; frac_digits (Z.to_nat p) x 10 t k remaining
       else Some (t, k, remaining)
     else
       ' (t, k, remaining) <- put t 0 max_len 48 ;;
       if has (flags i) FMT_ALT then put t k remaining 46 else Some (t, k, remaining)) ;;
  let w := width i - Z.of_nat k in
  if 0 <? w then
    let stop := Z.of_nat k + remaining - 1 in
    t <- move_up k (Z.to_nat w) stop t ;;
    t <- fill_front (Z.to_nat w) stop (if has (flags i) FMT_ZERO then 48 else 32) t ;;
    Some (t, Z.of_nat k + w)
  else Some (t, Z.of_nat k).

Definition va_slot (va : list arg) : option (Z * list arg) := match va with AInt v :: va => Some (v, va) | _ => None end.
(** va_arg(va, int) *)
Definition va_int (va : list arg) : option (Z * list arg) := ' (v, va) <- va_slot va ;; Some (i32 v, va).
Definition va_f64 (va : list arg) : option (f64 * list arg) := match va with AF64 x :: va => Some (x, va) | _ => None end.
Definition va_str (va : list arg) : option (option (list Z) * list arg) := match va with AStr s :: va => Some (s, va) | _ => None end.

(** print.c:291 *)
Fixpoint lit_loop (fmt : list Z) (remaining : Z) (t : list Z) (k : nat) : option (list Z * list Z * nat) :=
  match fmt with
  | [] => None
  | c :: r => if negb (c =? 0) && negb (c =? 37) && negb (remaining =? 0) then t <- wr t k c ;; lit_loop r remaining t (S k)
              else Some (fmt, t, k)
  end.
(** print.c:293-304, after the [%] *)
Fixpoint flags_loop (fmt : list Z) (fl : Z) : option (list Z * Z) :=
  match fmt with
  | [] => None
  | c :: r =>
    if c =? 45 then flags_loop r (Z.lor fl FMT_MINUS)
    else if c =? 43 then flags_loop r (Z.lor fl FMT_PLUS)
    else if c =? 35 then flags_loop r (Z.lor fl FMT_ALT)
    else if c =? 32 then flags_loop r (Z.lor fl FMT_SPACE)
    else if c =? 48 then flags_loop r (Z.lor fl (Z.lor FMT_ZERO FMT_WIDTH))
    else Some (fmt, fl)
  end.
(** a number in the format, cast to zpl_i32 *)
Definition fmt_num (fmt : list Z) : option (Z * list Z) := ' (v, n) <- str_to_i64 fmt 10 ;; Some (i32 v, skipn n fmt).
(** print.c:307-323 *)
Definition get_width (fmt : list Z) (fl : Z) (va : list arg) : option (Z * list Z * Z * list arg) :=
  c <- rd fmt 0 ;;
  if c =? 42 then
    ' (w, va) <- va_int va ;;
    ' (w, fl) <- (if w <? 0 then if w =? -2^31 then None else Some (- w, Z.lor fl FMT_MINUS) else Some (w, fl)) ;;
    Some (w, tl fmt, Z.lor fl FMT_WIDTH, va)
  else
    ' (w, fmt) <- fmt_num fmt ;;
    Some (w, fmt, if negb (w =? 0) then Z.lor fl FMT_WIDTH else fl, va).
(** print.c:326-335 *)
Definition get_precision (fmt : list Z) (fl : Z) (va : list arg) : option (Z * list Z * Z * list arg) :=
  c <- rd fmt 0 ;;
  if c =? 46 then
    let fmt := tl fmt in
    d <- rd fmt 0 ;;
    ' (p, fmt, va) <- (if d =? 42 then ' (p, va) <- va_int va ;; Some (p, tl fmt, va)
                       else ' (p, fmt) <- fmt_num fmt ;; Some (p, fmt, va)) ;;
    Some (p, fmt, Z.ldiff fl FMT_ZERO, va)
  else Some (-1, fmt, fl, va).
(** print.c:337-366 *)
Definition get_length (fmt : list Z) (fl : Z) : option (list Z * Z) :=
  c <- rd fmt 0 ;;
  if c =? 104 then
    d <- rd fmt 1 ;; Some (if d =? 104 then (tl (tl fmt), Z.lor fl FMT_CHAR) else (tl fmt, Z.lor fl FMT_SHORT))
  else if c =? 108 then
    d <- rd fmt 1 ;; Some (if d =? 108 then (tl (tl fmt), Z.lor fl FMT_LLONG) else (tl fmt, Z.lor fl FMT_LONG))
  else if c =? 122 then Some (tl fmt, Z.lor (Z.lor fl FMT_UNSIGNED) FMT_SIZE)
  else if c =? 116 then Some (tl fmt, Z.lor fl FMT_SIZE)
  else Some (fmt, fl).
(** print.c:412-438: the value of an integer conversion *)
Definition get_int (fl : Z) (va : list arg) : option (Z * list arg) :=
  ' (v, va) <- va_slot va ;;
  let k := Z.land fl FMT_INTS in
  Some (if has fl FMT_UNSIGNED then
          (if k =? FMT_CHAR then u8 v
           else if k =? FMT_SHORT then u16 v
           else if (k =? FMT_LONG) || (k =? FMT_LLONG) || (k =? FMT_SIZE) || (k =? FMT_INTPTR) then u64 v
           else u32 v)
        else
          (if k =? FMT_CHAR then i8 v
           else if k =? FMT_SHORT then i16 v
           else if (k =? FMT_LONG) || (k =? FMT_LLONG) || (k =? FMT_SIZE) || (k =? FMT_INTPTR) then i64 v
           else i32 v), va).
(** the integer conversions set [base] and flags, print.c:369-384, 402-405 *)
Definition int_conv (c fl : Z) : option (Z * Z) :=
  if c =? 117 then Some (10, Z.lor fl FMT_UNSIGNED)
  else if (c =? 100) || (c =? 105) then Some (10, fl)
  else if c =? 111 then Some (8, fl)
  else if c =? 120 then Some (16, Z.lor fl (Z.lor FMT_UNSIGNED FMT_LOWER))
  else if c =? 88 then Some (16, Z.lor fl (Z.lor FMT_UNSIGNED FMT_UPPER))
  else if c =? 112 then Some (16, Z.lor fl (Z.lor (Z.lor FMT_LOWER FMT_UNSIGNED) (Z.lor FMT_ALT FMT_INTPTR)))
  else None.
(** print.c:368-441: what is printed at [t]; result: text, length, rest of the format *)
Definition convert (fmt : list Z) (fl w p : Z) (t : list Z) (remaining : Z) (va : list arg) : option (list Z * Z * list Z * list arg) :=
  c <- rd fmt 0 ;;
  match int_conv c fl with
  | Some (b, fl) =>
    ' (v, va) <- get_int fl va ;;
    let i := Info b fl w p in
    ' (t, len) <- (if has fl FMT_UNSIGNED then print_u64 t remaining i v else print_i64 t remaining i v) ;;
    Some (t, len, tl fmt, va)
  | None =>
    let i := Info 0 fl w p in
    if (c =? 102) || (c =? 70) || (c =? 103) || (c =? 71) || (c =? 97) || (c =? 65) then
      ' (v, va) <- va_f64 va ;; ' (t, len) <- print_f64 t remaining i v ;; Some (t, len, tl fmt, va)
    else if c =? 99 then ' (v, va) <- va_int va ;; ' (t, len) <- print_char t remaining i (u8 v) ;; Some (t, len, tl fmt, va)
    else if c =? 115 then ' (s, va) <- va_str va ;; ' (t, len) <- print_string t remaining i s ;; Some (t, len, tl fmt, va)
    else if c =? 114 then ' (v, va) <- va_int va ;; ' (t, len) <- print_repeated_char t i (u8 v) ;; Some (t, len, tl fmt, va)
    else if c =? 37 then ' (t, len) <- print_char t remaining i 37 ;; Some (t, len, tl fmt, va)
    else Some (t, 0, fmt, va)
  end.

(** one round of the loop of zpl_snprintf_va, print.c:286-447: rest of the format, buffer, position
    of [text] in it, [remaining], rest of the arguments *)
Definition state := (list Z * list Z * nat * Z * list arg)%type.
Definition round (st : state) : option state :=
  let '(fmt, buf, k, remaining, va) := st in
  ' (fmt, buf, k) <- lit_loop fmt remaining buf k ;;
  c <- rd fmt 0 ;;
  ' (fmt, fl) <- (if c =? 37 then flags_loop (tl fmt) 0 else Some (fmt, 0)) ;;
  ' (w, fmt, fl, va) <- get_width fmt fl va ;;
  ' (p, fmt, fl, va) <- get_precision fmt fl va ;;
  ' (fmt, fl) <- get_length fmt fl ;;
  ' (t, len, fmt, va) <- convert fmt fl w p (skipn k buf) remaining va ;;
  let buf := firstn k buf ++ t in
  let remaining := if remaining <=? len then Z.min remaining 1 else remaining - len in
  Some (fmt, buf, (k + Z.to_nat len)%nat, remaining, va).
(** the loop; with [max_len > 0] every round consumes a character of the format, so the number of
    rounds is bounded by its length *)
Fixpoint rounds (fuel : nat) (st : state) : option state :=
  let '(fmt, _, _, _, _) := st in
  c <- rd fmt 0 ;;
  if c =? 0 then Some st else match fuel with O => None | S n => st <- round st ;; rounds n st end.
(** zpl_snprintf_va, print.c:282-454: the buffer and the result *)
Definition snprintf (buf : list Z) (max_len : Z) (fmt : list Z) (va : list arg) : option (list Z * Z) :=
  ' (_, buf, k, _, _) <- rounds (length fmt) (fmt, buf, O, max_len, va) ;;
  buf <- wr buf k 0 ;;
  let res := Z.of_nat (S k) in
  Some (buf, if max_len <=? res then -1 else res).
