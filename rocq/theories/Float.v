(** Double precision numbers and text, code/source/core/string.c:150-210.

    zpl_f64 is IEEE 754 binary64, rounding to nearest even, without excess precision and without
    contraction of products and sums, as on x86-64. The operations are those of the standard
    library's [SpecFloat]. Strings are as in [CStr]. *)
From Coq Require Import SpecFloat.
From Verif Require Import Base CStr.

Notation f64 := spec_float.
Definition fadd : f64 -> f64 -> f64 := SFadd 53 1024.
Definition fsub : f64 -> f64 -> f64 := SFsub 53 1024.
Definition fmul : f64 -> f64 -> f64 := SFmul 53 1024.
Definition fdiv : f64 -> f64 -> f64 := SFdiv 53 1024.
Definition fneg (x : f64) : f64 := SFopp x.
(** the conversion of an integer *)
Definition f_of_int (z : Z) : f64 := binary_normalize 53 1024 z 0 false.
Definition f_zero : f64 := S754_zero false.
(** [x != 0]; NaN is not 0 *)
Definition f_nonzero (x : f64) : bool := negb (SFeqb x f_zero).
(** the cast to zpl_u64 drops the fraction; it is undefined if the rest does not fit *)
Definition f_trunc (x : f64) : option Z :=
  match x with
  | S754_zero _ => Some 0
  | S754_finite s m e =>
    let a := if 0 <=? e then Z.pos m * 2 ^ e else Z.pos m / 2 ^ (- e) in Some (if s then - a else a)
  | _ => None
  end.
Definition f_to_u64 (x : f64) : option Z :=
  v <- f_trunc x ;; if (0 <=? v) && (v <? 2^64) then Some v else None.

(** string.c:154 *)
Fixpoint skip_space (s : list Z) : option (list Z) :=
  match s with [] => None | c :: r => if char_is_space c then skip_space r else Some s end.
(** string.c:164 *)
Fixpoint whole_loop (s : list Z) (value : f64) : option (list Z * f64) :=
  match s with
  | [] => None
  | c :: r => if char_is_digit c then whole_loop r (fadd (fmul value (f_of_int 10)) (f_of_int (c - 48))) else Some (s, value)
  end.
(** string.c:169-173 *)
Fixpoint frac_loop (s : list Z) (value pow10 : f64) : option (list Z * f64) :=
  match s with
  | [] => None
  | c :: r =>
    if char_is_digit c then frac_loop r (fadd value (fdiv (f_of_int (c - 48)) pow10)) (fmul pow10 (f_of_int 10))
    else Some (s, value)
  end.
(** string.c:189 *)
Fixpoint exp_loop (s : list Z) (exp : Z) : option (list Z * Z) :=
  match s with [] => None | c :: r => if char_is_digit c then exp_loop r (u32 (exp * 10 + (c - 48))) else Some (s, exp) end.
(** string.c:192-203: [n] factors *)
Fixpoint scale_by (n : nat) (f scale : f64) : f64 := match n with O => scale | S k => scale_by k f (fmul scale f) end.
(** the double nearest to 10^50: the constant 1e50 *)
Definition f_1e50 : f64 := f_of_int (10 ^ 50).
Definition scale_of (exp : Z) : f64 :=
  let s := scale_by (Z.to_nat (exp / 50)) f_1e50 (f_of_int 1) in
  let exp := exp mod 50 in
  let s := scale_by (Z.to_nat (exp / 8)) (f_of_int (10 ^ 8)) s in
  scale_by (Z.to_nat (exp mod 8)) (f_of_int 10) s.
(** zpl_str_to_f64, string.c:150-210: the value and the rest of the text ([end_ptr]) *)
Definition str_to_f64 (s : list Z) : option (f64 * list Z) :=
  s <- skip_space s ;;
  c <- rd s 0 ;;
  let '(sign, s) := if c =? 45 then (f_of_int (-1), tl s) else (f_of_int 1, if c =? 43 then tl s else s) in
  ' (s, value) <- whole_loop s f_zero ;;
  c <- rd s 0 ;;
  ' (s, value) <- (if c =? 46 then frac_loop (tl s) value (f_of_int 10) else Some (s, value)) ;;
  c <- rd s 0 ;;
  ' (s, frac, scale) <-
    (if (c =? 101) || (c =? 69) then
       let s := tl s in
       c <- rd s 0 ;;
       let '(frac, s) := if c =? 45 then (true, tl s) else (false, if c =? 43 then tl s else s) in
       ' (s, exp) <- exp_loop s 0 ;;
       Some (s, frac, scale_of (if 308 <? exp then 308 else exp))
     else Some (s, false, f_of_int 1)) ;;
  Some (fmul sign (if frac : bool then fdiv value scale else fmul value scale), s).
