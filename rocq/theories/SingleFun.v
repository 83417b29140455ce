(** Rounding and related functions of singles, code/source/math.c:29-47, 258-260. Singles are as in [Single];
    the casts and comparisons of [Float] and [FloatFun] do not depend on the precision. *)
From Coq Require Import SpecFloat.
From Verif Require Import Base Float FloatFun Single.

Definition chk32 (v : Z) : option Z := if (- 2^31 <=? v) && (v <? 2^31) then Some v else None.
(** the cast to int drops the fraction; it is undefined if the rest does not fit *)
Definition s_to_int (x : f32) : option Z := v <- f_trunc x ;; chk32 v.
(** the constant 0.9999999999999999f; the single nearest to it is 1 *)
Definition s_09 : f32 := S754_finite false 8388608 (-23).

(** zpl_floor, zpl_ceil, zpl_round, math.c:258-260 *)
Definition floorf (x : f32) : option f32 := v <- s_to_int (if f_ge0 x then x else ssub x s_09) ;; Some (s_of_int v).
Definition ceilf (x : f32) : option f32 := v <- s_to_int x ;; if f_lt0 x then Some (s_of_int v) else v <- chk32 (v + 1) ;; Some (s_of_int v).
Definition roundf (x : f32) : option f32 := if f_ge0 x then floorf (sadd x s_half) else ceilf (ssub x s_half).
(** zpl_remainder, math.c:39; zpl_abs and zpl_sign, header/essentials/helpers.h:136 and header/math.h:166 *)
Definition remainderf (x y : f32) : option f32 := q <- roundf (sdiv x y) ;; Some (ssub x (smul q y)).
Definition absf (x : f32) : f32 := if f_lt0 x then sneg x else x.
Definition signf (x : f32) : f32 := if f_ge0 x then s_of_int 1 else s_of_int (-1).
(** zpl_copy_sign, math.c:28-38, on the bits: [ix & 0x7fffffff | iy & 0x80000000], read as an int again *)
Definition copy_signf (x y : f32) : option f32 :=
  ix <- bits_of x ;; iy <- bits_of y ;;
  Some (of_bits ((ix mod 2^31) + (if iy <? 0 then - 2^31 else 0))).
(** zpl_mod, math.c:41-47 *)
Definition modf (x y : f32) : option f32 :=
  let y := absf y in
  result <- remainderf (absf x) y ;;
  copy_signf (if SFltb f_zero (signf result) then sadd result y else result) x.

(** the constants 1.0f, 0.3333333333f, 0.25f, 0.2f *)
Definition s_one : f32 := S754_finite false 8388608 (-23).
Definition s_third : f32 := S754_finite false 11184811 (-25).
Definition s_quarter : f32 := S754_finite false 8388608 (-25).
Definition s_fifth : f32 := S754_finite false 13421773 (-26).
(** zpl_fast_exp, math.c:250-254 *)
Definition fast_exp (x : f32) : f32 :=
  sadd s_one (smul x (sadd s_one (smul (smul x s_half) (sadd s_one (smul (smul x s_third) (sadd s_one (smul (smul x s_quarter) (sadd s_one (smul x s_fifth))))))))).
