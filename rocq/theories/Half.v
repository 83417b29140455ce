(** Half precision numbers, code/source/math.c:262-353. A single is given by its 32 bits,
    a half (zpl_half is short, header/math.h:130) by its value as a signed short. [s << 31]
    with s = 1 overflows int, which C leaves undefined; it is modelled as every compiler
    does it. *)
From Verif Require Import Base.

(** the loop at math.c:279-282, in at most [fuel] rounds *)
Fixpoint normalize (fuel : nat) (m e : Z) : option (Z * Z) :=
  match fuel with
  | O => None
  | S fuel => if Z.land m 0x400 =? 0 then normalize fuel (Z.shiftl m 1) (e - 1) else Some (m, e)
  end.
(** zpl_half_to_float, math.c:262-303 *)
Definition half_to_float (value : Z) : option Z :=
  let s := Z.land (Z.shiftr value 15) 0x1 in
  let e := Z.land (Z.shiftr value 10) 0x1f in
  let m := Z.land value 0x3ff in
  let finish (e m : Z) : Z :=
    u32 (Z.lor (Z.lor (Z.shiftl s 31) (Z.shiftl (e + (127 - 15)) 23)) (Z.shiftl m 13)) in
  if e =? 0 then
    if m =? 0 then Some (u32 (Z.shiftl s 31))
    else
      '(m, e) <- normalize 11 m e ;;
      Some (finish (e + 1) (Z.land m (Z.lnot 0x400)))
  else if e =? 31 then
    if m =? 0 then Some (u32 (Z.lor (Z.shiftl s 31) 0x7f800000))
    else Some (u32 (Z.lor (Z.lor (Z.shiftl s 31) 0x7f800000) (Z.shiftl m 13)))
  else Some (finish e m).

(** (zpl_half) of an int *)
Definition to_half (x : Z) : Z := sx 16 x.
(** zpl_float_to_half, math.c:305-353; the multiplications that only raise the overflow
    flag are left out *)
Definition float_to_half (v : Z) : Z :=
  let i := i32 v in
  let s := Z.land (Z.shiftr i 16) 0x8000 in
  let e := Z.land (Z.shiftr i 23) 0xff - (127 - 15) in
  let m := Z.land i 0x7fffff in
  if e <=? 0 then
    if e <? -10 then to_half s
    else
      let m := Z.shiftr (Z.lor m 0x800000) (1 - e) in
      let m := if Z.land m 0x1000 =? 0 then m else m + 0x2000 in
      to_half (Z.lor s (Z.shiftr m 13))
  else if e =? 0xff - (127 - 15) then
    if m =? 0 then to_half (Z.lor s 0x7c00)
    else
      let m := Z.shiftr m 13 in
      to_half (Z.lor (Z.lor (Z.lor s 0x7c00) m) (if m =? 0 then 1 else 0))
  else
    let '(m, e) :=
      if Z.land m 0x1000 =? 0 then (m, e)
      else
        let m := m + 0x2000 in
        if Z.land m 0x800000 =? 0 then (m, e) else (0, e + 1) in
    if 30 <? e then to_half (Z.lor s 0x7c00)
    else to_half (Z.lor (Z.lor s (Z.shiftl e 10)) (Z.shiftr m 13)).
