(** Rounding and related functions of doubles, code/source/math.c:52-84, and zpl_random_range_f64,
    code/source/core/random.c:159-166. Doubles are as in [Float]. *)
From Coq Require Import SpecFloat.
From Verif Require Import Base Float Random.

(** [x >= 0.0], [x < 0] *)
Definition f_ge0 (x : f64) : bool := SFleb f_zero x.
Definition f_lt0 (x : f64) : bool := SFltb x f_zero.
(** the cast to zpl_i64 drops the fraction; it is undefined if the rest does not fit *)
Definition f_to_i64 (x : f64) : option Z := v <- f_trunc x ;; if (- 2^63 <=? v) && (v <? 2^63) then Some v else None.
(** the constants 0.5 and 0.9999999999999999; the double nearest to the latter is 1 - 2^-53 *)
Definition f_half : f64 := S754_finite false 4503599627370496 (-53).
Definition f_09 : f64 := S754_finite false 9007199254740991 (-53).

(** zpl_floor64, zpl_ceil64, zpl_round64, math.c:65-67 *)
Definition floor64 (x : f64) : option f64 := v <- f_to_i64 (if f_ge0 x then x else fsub x f_09) ;; Some (f_of_int v).
Definition ceil64 (x : f64) : option f64 := v <- f_to_i64 x ;; if f_lt0 x then Some (f_of_int v) else v <- chk64 (v + 1) ;; Some (f_of_int v).
Definition round64 (x : f64) : option f64 := if f_ge0 x then floor64 (fadd x f_half) else ceil64 (fsub x f_half).
(** zpl_remainder64, zpl_abs64, zpl_sign64, math.c:68-70 *)
Definition remainder64 (x y : f64) : option f64 := q <- round64 (fdiv x y) ;; Some (fsub x (fmul q y)).
Definition abs64 (x : f64) : f64 := if f_lt0 x then fneg x else x.
Definition sign64 (x : f64) : f64 := if f_lt0 x then f_of_int (-1) else f_of_int 1.
(** zpl_copy_sign64, math.c:52-63: the sign bit of [y] on [x]. [None]: the sign of a NaN is not modelled *)
Definition copy_sign64 (x y : f64) : option f64 :=
  s <- (match y with S754_zero s | S754_infinity s | S754_finite s _ _ => Some s | S754_nan => None end) ;;
  Some (match x with S754_zero _ => S754_zero s | S754_infinity _ => S754_infinity s | S754_finite _ m e => S754_finite s m e | S754_nan => S754_nan end).
(** zpl_mod64, math.c:72-78 *)
Definition mod64 (x y : f64) : option f64 :=
  let y := abs64 y in
  result <- remainder64 (abs64 x) y ;;
  copy_sign64 (if f_nonzero (sign64 result) then fadd result y else result) x.

(** zpl_random_range_f64, random.c:159-166, [u] being what zpl_random_gen_u64 gives *)
Definition range_of_u64 (u : Z) (lower_inc higher_inc : f64) : f64 :=
  let f := fdiv (f_of_int u) (f_of_int (2^64 - 1)) in
  fadd (fmul f (fsub higher_inc lower_inc)) lower_inc.
Definition random_range_f64 (high_first : bool) (r : random) (lower_inc higher_inc : f64) : f64 * random :=
  let '(u, r) := gen_u64 high_first r in (range_of_u64 u lower_inc higher_inc, r).
