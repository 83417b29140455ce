(** Single precision numbers and zpl_quake_rsqrt, code/source/math.c:78-95.

    zpl_f32 is IEEE 754 binary32, rounding to nearest even, without excess precision and without
    contraction, as on x86-64. The operations are those of [SpecFloat]. *)
From Coq Require Import SpecFloat.
From Verif Require Import Base.

Notation f32 := spec_float.
Definition sadd : f32 -> f32 -> f32 := SFadd 24 128.
Definition ssub : f32 -> f32 -> f32 := SFsub 24 128.
Definition smul : f32 -> f32 -> f32 := SFmul 24 128.
Definition sdiv : f32 -> f32 -> f32 := SFdiv 24 128.
Definition sneg (x : f32) : f32 := SFopp x.
(** the conversion of an integer *)
Definition s_of_int (z : Z) : f32 := binary_normalize 24 128 z 0 false.
(** the 32 bits of a single, read as an int; the bits of a NaN are not modelled *)
Definition bits_of (x : f32) : option Z :=
  let signed (s : bool) (v : Z) := if s then v - 2^31 else v in
  match x with
  | S754_zero s => Some (signed s 0)
  | S754_infinity s => Some (signed s 0x7f800000)
  | S754_nan => None
  | S754_finite s m e => Some (signed s (if Z.pos m <? 2^23 then Z.pos m else (e + 150) * 2^23 + (Z.pos m - 2^23)))
  end.
(** the single with these bits *)
Definition of_bits (i : Z) : f32 :=
  let s := i <? 0 in
  let v := i mod 2^31 in
  let exponent := v / 2^23 in
  let mantissa := v mod 2^23 in
  if exponent =? 0 then match mantissa with Z.pos m => S754_finite s m (-149) | _ => S754_zero s end
  else if exponent =? 255 then (if mantissa =? 0 then S754_infinity s else S754_nan)
  else S754_finite s (Z.to_pos (mantissa + 2^23)) (exponent - 150).
(** 0.5f and 1.5f *)
Definition s_half : f32 := S754_finite false 8388608 (-24).
Definition three_halfs : f32 := S754_finite false 12582912 (-23).

(** math.c:91-92: one step of the iteration *)
Definition newton (x2 t : f32) : f32 := smul t (ssub three_halfs (smul (smul x2 t) t)).
(** zpl_quake_rsqrt, math.c:78-95; the difference of ints must not overflow. [t.i >> 1] of a negative
    int is implementation-defined and taken to be arithmetic *)
Definition quake_rsqrt (a : f32) : option f32 :=
  let x2 := smul a s_half in
  i <- bits_of a ;;
  let i := 0x5f375a86 - Z.shiftr i 1 in
  if (- 2^31 <=? i) && (i <? 2^31) then Some (newton x2 (newton x2 (of_bits i))) else None.
