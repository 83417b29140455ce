(** The numbers that IEEE 754 binary16 and binary32 patterns stand for, as integer
    multiples of 2^-149 (the least positive single). *)
From Verif Require Import Base.

(** sign, exponent and fraction fields of a pattern with [k] fraction bits and [x] exponent bits *)
Definition fsign (k x p : Z) : Z := (p / 2^(k + x)) mod 2.
Definition fexp (k x p : Z) : Z := (p / 2^k) mod 2^x.
Definition ffrac (k p : Z) : Z := p mod 2^k.
(** magnitude in units of the least subnormal *)
Definition mag (k x p : Z) : Z :=
  if fexp k x p =? 0 then ffrac k p else (2^k + ffrac k p) * 2^(fexp k x p - 1).
Definition signed (k x p : Z) (n : Z) : Z := if fsign k x p =? 1 then - n else n.

Definition single_finite (v : Z) : Prop := fexp 23 8 v <> 255.
Definition single_value (v : Z) : Z := signed 23 8 v (mag 23 8 v).
Definition single_nan (v : Z) : Prop := fexp 23 8 v = 255 /\ ffrac 23 v <> 0.

Definition half_finite (h : Z) : Prop := fexp 10 5 h <> 31.
(** the least half is 2^-24 = 2^125 * 2^-149 *)
Definition half_value (h : Z) : Z := signed 10 5 h (mag 10 5 h) * 2^125.
Definition half_nan (h : Z) : Prop := fexp 10 5 h = 31 /\ ffrac 10 h <> 0.
Definition half_inf (h : Z) : Prop := fexp 10 5 h = 31 /\ ffrac 10 h = 0.

(** [h] is a half nearest to the number [x] *)
Definition nearest (x h : Z) : Prop := half_finite h /\
  forall h', half_finite h' -> Z.abs (half_value h - x) <= Z.abs (half_value h' - x).
(** 65520: half way between the greatest half 65504 and 65536 *)
Definition overflow_at : Z := 65520 * 2^149.
