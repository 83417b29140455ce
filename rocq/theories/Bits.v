(** Model of the bit and alignment helpers. *)
From Verif Require Import Base.

(** zpl_is_power_of_two, code/header/essentials/memory.h:262-265
    [if (x <= 0) return false; return !(x & (x - 1));]  x : zpl_isize *)
Definition is_power_of_two (x : Z) : bool :=
  if x <=? 0 then false else Z.land x (x - 1) =? 0.

(** zpl_align_forward, code/header/essentials/memory.h:115-122
    [ZPL_ASSERT(is_power_of_two)] -> None;
    [(p + (alignment - 1)) & ~(alignment - 1)] in zpl_uintptr arithmetic. *)
Definition align_forward (p alignment : Z) : option Z :=
  if is_power_of_two alignment
  then Some (Z.land (u64 (p + (alignment - 1))) (u64 (Z.lnot (alignment - 1))))
  else None.

(** zpl_align_forward_i64, code/header/essentials/memory.h:124-126
    [value + (alignment - value % alignment) % alignment], signed with C's
    truncating remainder; overflow and division by zero are None. *)
Definition align_forward_i64 (value alignment : Z) : option Z :=
  if alignment =? 0 then None else
  let d := alignment - Z.rem value alignment in
  if negb ((- 2^63 <=? d) && (d <? 2^63)) then None else
  let r := value + Z.rem d alignment in
  if (- 2^63 <=? r) && (r <? 2^63) then Some r else None.

(** zpl_align_forward_u64, code/header/essentials/memory.h:128-130, unsigned
    arithmetic modulo 2^64; division by zero is None. *)
Definition align_forward_u64 (value alignment : Z) : option Z :=
  if alignment =? 0 then None else
  Some (u64 (value + (u64 (alignment - value mod alignment)) mod alignment)).

(** zpl_endian_swap16, code/header/core/misc.h:35-37. The operands are promoted
    to int, the result is narrowed to zpl_u16. *)
Definition endian_swap16 (i : Z) : Z :=
  u16 (Z.lor (Z.shiftr i 8) (Z.shiftl i 8)).

(** zpl_endian_swap32, code/header/core/misc.h:39-42 *)
Definition endian_swap32 (i : Z) : Z :=
  Z.lor (Z.lor (Z.lor (Z.shiftr i 24) (u32 (Z.shiftl i 24)))
               (Z.shiftr (Z.land i 0x00ff0000) 8))
        (u32 (Z.shiftl (Z.land i 0x0000ff00) 8)).

(** zpl_endian_swap64, code/header/core/misc.h:44-49 *)
Definition endian_swap64 (i : Z) : Z :=
  let o := Z.lor in
  o (o (o (o (o (o (o (Z.shiftr i 56) (u64 (Z.shiftl i 56)))
    (Z.shiftr (Z.land i 0x00ff000000000000) 40)) (u64 (Z.shiftl (Z.land i 0x000000000000ff00) 40)))
    (Z.shiftr (Z.land i 0x0000ff0000000000) 24)) (u64 (Z.shiftl (Z.land i 0x0000000000ff0000) 24)))
    (Z.shiftr (Z.land i 0x000000ff00000000) 8)) (u64 (Z.shiftl (Z.land i 0x00000000ff000000) 8)).

(** zpl_next_pow2, code/header/core/misc.h:51-59. x : zpl_i32; shifts of negative
    values are arithmetic. Overflow of [x--] or [x + 1] is None. *)
Definition next_pow2 (x : Z) : option Z :=
  if x <=? - 2^31 then None else
  let x := x - 1 in
  let x := Z.lor x (Z.shiftr x 1) in
  let x := Z.lor x (Z.shiftr x 2) in
  let x := Z.lor x (Z.shiftr x 4) in
  let x := Z.lor x (Z.shiftr x 8) in
  let x := Z.lor x (Z.shiftr x 16) in
  if 2^31 - 1 <=? x then None else Some (x + 1).

(** zpl_bit_set / zpl_bit_get / zpl_bit_reset, code/header/core/misc.h:61-63.
    [1 << bit] is an int shift (bit <= 30, or 31 which is defined by every
    supported compiler as the sign bit); modelled by its low 32 bits.
    zpl_bit_get narrows its result to zpl_b8 = zpl_i8. *)
Definition shl1 (bit : Z) : Z := u32 (Z.shiftl 1 bit).
Definition bit_set (x bit : Z) : Z := Z.lor x (shl1 bit).
Definition bit_get (x bit : Z) : Z := i8 (Z.land x (shl1 bit)).
Definition bit_reset (x bit : Z) : Z := Z.land x (u32 (Z.lnot (shl1 bit))).

(** zpl_count_set_bits, code/header/core/misc.h:65-72, the loop with fuel: running
    out of fuel is None. *)
Fixpoint count_loop (fuel : nat) (mask count : Z) : option Z :=
  if mask =? 0 then Some count else
  match fuel with
  | O => None
  | S f => count_loop f (Z.shiftr mask 1) (count + Z.land mask 1)
  end.
Definition count_set_bits (mask : Z) : option Z := count_loop 64 mask 0.

(** zpl_time_win32_to_unix / zpl_time_unix_to_win32,
    code/header/core/time.h:57-66, unsigned 64-bit arithmetic. *)
Definition UNIX_TO_WIN32_EPOCH : Z := 11644473600000.
Definition time_win32_to_unix (ms : Z) : Z := u64 (ms - UNIX_TO_WIN32_EPOCH).
Definition time_unix_to_win32 (ms : Z) : Z := u64 (ms + UNIX_TO_WIN32_EPOCH).
