(** Integers and text, code/source/core/string.c:11-148, and the inverse direction.
    Strings are as in [CStr]. [base] is a zpl_i32. *)
From Verif Require Import Base CStr.

(** the digit at [c], string.c:25-30 and 53-60 *)
Definition scan_digit (base c : Z) : option Z :=
  if char_is_digit c then Some (c - 48)
  else if (base =? 16) && char_is_hex_digit c then Some (hex_digit_to_int c)
  else None.
(** [zpl_strncmp(text, "0x", 2) == 0]; the addresses only matter for the sign *)
Definition is_0x (text : list Z) : option bool :=
  r <- strncmp 2 0 1 text [48; 120; 0] ;; Some (r =? 0).
(** string.c:22 and 49: how many characters are skipped *)
Definition skip_0x (base : Z) (text : list Z) : option nat :=
  if base =? 16 then b <- is_0x text ;; Some (if b : bool then 2%nat else O) else Some O.

(** zpl__scan_zpl_u64, string.c:45-69: the value and the number of characters read *)
Fixpoint scan_u64_loop (base : Z) (text : list Z) (result : Z) (n : nat) : option (Z * nat) :=
  match text with
  | [] => None
  | c :: r => match scan_digit base c with
              | Some v => scan_u64_loop base r (u64 (u64 (result * u64 base) + v)) (S n)
              | None => Some (result, n)
              end
  end.
Definition scan_u64 (text : list Z) (base : Z) : option (Z * nat) :=
  k <- skip_0x base text ;; scan_u64_loop base (skipn k text) 0 k.

(** signed arithmetic is undefined when it overflows *)
Definition chk64 (x : Z) : option Z := if (-2^63 <=? x) && (x <? 2^63) then Some x else None.
(** zpl__scan_zpl_i64, string.c:11-43 *)
Fixpoint scan_i64_loop (base : Z) (text : list Z) (result : Z) (n : nat) : option (Z * nat) :=
  match text with
  | [] => None
  | c :: r => match scan_digit base c with
              | Some v => p <- chk64 (result * base) ;; q <- chk64 (p + v) ;; scan_i64_loop base r q (S n)
              | None => Some (result, n)
              end
  end.
Definition scan_i64 (text : list Z) (base : Z) : option (Z * nat) :=
  c <- rd text 0 ;;
  let negative := c =? 45 in
  let s := if negative then 1%nat else O in
  k <- skip_0x base (skipn s text) ;;
  ' (result, n) <- scan_i64_loop base (skipn (s + k) text) 0 (s + k) ;;
  result <- (if negative then chk64 (- result) else Some result) ;;
  Some (result, n).

(** string.c:76-81 and 92-97 *)
Definition guess_base (str : list Z) (base : Z) : option Z :=
  if base =? 0 then
    n <- strlen str ;;
    if (2 <? n)%nat then b <- is_0x str ;; Some (if b : bool then 16 else 10) else Some 10
  else Some base.
(** zpl_str_to_u64, string.c:72-86, and zpl_str_to_i64, 88-102: the value and [end_ptr] *)
Definition str_to_u64 (str : list Z) (base : Z) : option (Z * nat) := base <- guess_base str base ;; scan_u64 str base.
Definition str_to_i64 (str : list Z) (base : Z) : option (Z * nat) := base <- guess_base str base ;; scan_i64 str base.

(** zpl__num_to_char_table with its NUL, string.c:105-108 *)
Definition num_to_char_table : list Z :=
  [48; 49; 50; 51; 52; 53; 54; 55; 56; 57;
   65; 66; 67; 68; 69; 70; 71; 72; 73; 74; 75; 76; 77; 78; 79; 80; 81; 82; 83; 84; 85; 86; 87; 88; 89; 90;
   97; 98; 99; 100; 101; 102; 103; 104; 105; 106; 107; 108; 109; 110; 111; 112; 113; 114; 115; 116; 117; 118; 119; 120; 121; 122;
   64; 36; 0].
(** the digit loop, string.c:121-124 and 138-141. Each round writes a character, so
    [S (length buf)] rounds are more than can succeed. [base] was converted to unsigned. *)
Fixpoint digits_loop (fuel : nat) (v base : Z) (buf : list Z) (k : nat) : option (list Z * nat) :=
  match fuel with
  | O => None
  | S f =>
    if 0 <? v then
      if base =? 0 then None else
      c <- nth_error num_to_char_table (Z.to_nat (v mod base)) ;;
      buf <- wr buf k c ;;
      digits_loop f (v / base) base buf (S k)
    else Some (buf, k)
  end.
(** zpl_u64_to_str, string.c:134-148 *)
Definition u64_to_str (value : Z) (string : list Z) (base : Z) : option (list Z) :=
  ' (buf, k) <- (if value =? 0 then buf <- wr string 0 48 ;; Some (buf, 1%nat)
                 else digits_loop (S (length string)) value (u64 base) string 0) ;;
  buf <- wr buf k 0 ;;
  strrev buf.
(** zpl_i64_to_str, string.c:110-132 *)
Definition i64_to_str (value : Z) (string : list Z) (base : Z) : option (list Z) :=
  let negative := value <? 0 in
  value <- (if negative then chk64 (- value) else Some value) ;;
  let v := u64 value in
  ' (buf, k) <- (if v =? 0 then buf <- wr string 0 48 ;; Some (buf, 1%nat)
                 else digits_loop (S (length string)) v (u64 base) string 0) ;;
  ' (buf, k) <- (if negative then buf <- wr buf k 45 ;; Some (buf, S k) else Some (buf, k)) ;;
  buf <- wr buf k 0 ;;
  strrev buf.
