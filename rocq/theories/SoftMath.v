(** The elementary functions that code/source/math.c:95-209 defines when ZPL_NO_MATH_H is set and the compiler is
    MSVC, over the real numbers: rounding is left out, and zpl_sqrt is the square root. Literals are the decimal
    numbers written in the source; ZPL_TAU_OVER_2 and ZPL_TAU_OVER_4 are PI and PI / 2. *)
From Coq Require Import Reals QArith Qreals.
From Verif Require Import Base.
Import ListNotations.
Local Open Scope R_scope.

(** c0 + a * (c1 + a * (c2 + ...)) *)
Fixpoint horner (l : list Q) (a : R) : R :=
  match l with
  | [] => 0
  | c :: l => Q2R c + a * horner l a
  end.

(** the constants of zpl_sin, math.c:102-109 *)
Definition sin_consts : list Q :=
  [191059300966915117 # (10 ^ 48); 100086760103908896 # (10 ^ 17); - (121276126894734565 # (10 ^ 19));
   - (138078780785773762 # (10 ^ 18)); - (267353392911981221 # (10 ^ 19)); 208026600266304389 # (10 ^ 19);
   - (303996055049204407 # (10 ^ 20)); 138235642404333740 # (10 ^ 21)]%Q.
(** zpl_sin, math.c:101-111 *)
Definition soft_sin (a : R) : R := horner sin_consts a.

(** the constants of zpl_cos, math.c:114-121 *)
Definition cos_consts : list Q :=
  [100238601909309722 # (10 ^ 17); - (381919947353040024 # (10 ^ 19)); - (394382342128062756 # (10 ^ 18));
   - (118134036025221444 # (10 ^ 18)); 107123798512170878 # (10 ^ 18); - (186637164165180873 # (10 ^ 19));
   990140908664079833 # (10 ^ 21); - (523022132118824778 # (10 ^ 31))]%Q.
(** zpl_cos, math.c:113-123 *)
Definition soft_cos (a : R) : R := horner cos_consts a.

(** zpl_tan, math.c:125-142: the constants in reverse *)
Definition tan_consts : list Q :=
  [1; 3333314036 # (10 ^ 10); 1333923995 # (10 ^ 10); 533740603 # (10 ^ 10); 245650893 # (10 ^ 10);
   2900525 # (10 ^ 9); 95168091 # (10 ^ 10)]%Q.
Definition soft_tan (radians : R) : R :=
  let rr := radians * radians in horner tan_consts rr * radians.

(** zpl_arctan, math.c:147-154 *)
Definition arctan_consts : list Q :=
  [1; 33288950512027 # (10 ^ 14); - (8467922817644 # (10 ^ 14)); 3252232640125 # (10 ^ 14); - (749305860992 # (10 ^ 14))]%Q.
Definition soft_arctan (a : R) : R :=
  let u := a * a in a / horner arctan_consts u.

(** zpl_abs, header/essentials/helpers.h:136 *)
Definition soft_abs (x : R) : R := if Rlt_dec x 0 then - x else x.

(** zpl_arctan2, math.c:156-170 *)
Definition soft_arctan2 (y x : R) : R :=
  if Rlt_dec (soft_abs y) (soft_abs x) then
    let a := soft_arctan (y / x) in
    if Rlt_dec 0 x then a
    else if Rlt_dec 0 y then a + PI else a - PI
  else
    let a := soft_arctan (x / y) in
    if Rlt_dec 0 x then (if Rlt_dec 0 y then PI / 2 - a else - (PI / 2) - a)
    else (if Rlt_dec 0 y then PI / 2 + a else - (PI / 2) + a).

(** zpl_arcsin, zpl_arccos, math.c:144-145 *)
Definition soft_arcsin (a : R) : R := soft_arctan2 a (sqrt ((1 + a) * (1 - a))).
Definition soft_arccos (a : R) : R := soft_arctan2 (sqrt ((1 + a) * (1 - a))) a.

(** a cast to int: towards zero *)
Definition to_int (x : R) : Z := if Rlt_dec x 0 then (- Int_part (- x))%Z else Int_part x.
(** the number whose 32 bits are the positive int [i], not zero, subnormal or infinite *)
Definition of_bits (i : Z) : R := powerRZ 2 (i / 2 ^ 23 - 127) * (1 + IZR (i mod 2 ^ 23) / IZR (2 ^ 23)).
(** zpl_exp, math.c:172-180 *)
Definition soft_exp (a : R) : R :=
  of_bits (to_int (6051102 * a + 1056478197)) / of_bits (to_int (1056478197 - 6051102 * a)).

(** zpl_log, math.c:182-188, of the number whose bits are [i] *)
Definition soft_log (i : Z) : R := IZR (i - 1064866805) * Q2R (8262958405176314 # (10 ^ 23)).

(** ZPL_LOG_TWO, header/math.h:153, to eighteen digits *)
Definition log_two : R := 693147180559945309 / 1000000000000000000.
(** zpl_exp2 and zpl_log2, math.c:247-248 *)
Definition soft_exp2 (x : R) : R := soft_exp (log_two * x).
Definition soft_log2 (i : Z) : R := soft_log i / log_two.

(** the loop of zpl_pow, math.c:201-205, in at most [fuel] rounds *)
Fixpoint pow_loop (fuel : nat) (e : Z) (r a : R) : option R :=
  match fuel with
  | O => None
  | S fuel =>
      if (e =? 0)%Z then Some r
      else pow_loop fuel (e / 2) (if Z.odd e then r * a else r) (a * a)
  end.
(** zpl_pow, math.c:190-209, for an exponent that fits an int; e has at most 31 bits *)
Definition soft_pow (a b : R) : option R :=
  let flipped := if Rlt_dec b 0 then true else false in
  let b := if flipped then - b else b in
  let e := to_int b in
  let f := soft_exp (b - IZR e) in
  r <- pow_loop 33 e 1 a ;;
  let r := r * f in
  Some (if flipped then 1 / r else r).
