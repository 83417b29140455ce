(** The pseudo-random generator, code/source/core/random.c. zpl_random_init (seeding from
    clocks and thread ids) and zpl_random_range_f64 are not modelled: a generator starts
    in an arbitrary state. *)
From Verif Require Import Base.

Definition prime : Z := 4294967291.
(** zpl__permute_qpr, random.c:31-42: the cast to zpl_u32 applies to the product, before [%] *)
Definition permute_qpr (x : Z) : Z :=
  if prime <=? x then x
  else
    let residue := u32 (u64 (x * x)) mod prime in
    if x <=? prime / 2 then residue else u32 (prime - residue).
(** zpl__permute_with_offset, random.c:44-46 *)
Definition permute_with_offset (x offset : Z) : Z := Z.lxor (u32 (permute_qpr x + offset)) 0x5bf03635.

(** zpl_random, random.h:6-9: eight offsets and a value *)
Record random := Random { offsets : list Z; value : Z }.

(** zpl_random_gen_u32, random.c:79-92 *)
Fixpoint gen_loop (x carry : Z) (offs : list Z) : Z * list Z :=
  match offs with
  | [] => (x, [])
  | o :: rest =>
    let x := permute_with_offset x o in
    let o' := if 0 <? carry then u32 (o + 1) else o in
    let carry := if 0 <? carry then (if o' =? 0 then 1 else 0) else carry in
    let '(x, rest) := gen_loop x carry rest in (x, o' :: rest)
  end.
Definition gen_u32 (r : random) : Z * random :=
  let '(x, offs) := gen_loop (value r) 1 (offsets r) in (x, Random offs x).
(** zpl_random_gen_u32_unique, random.c:94-103 *)
Definition gen_u32_unique (r : random) : Z * random :=
  (fold_left permute_with_offset (offsets r) (value r), Random (offsets r) (u32 (value r + 1))).
(** zpl_random_gen_u64, random.c:105-107. The two calls may be evaluated in either order. *)
Definition gen_u64 (high_first : bool) (r : random) : Z * random :=
  let '(a, r) := gen_u32 r in
  let '(b, r) := gen_u32 r in
  let '(hi, lo) := if high_first then (a, b) else (b, a) in
  (Z.lor (u64 (Z.shiftl hi 32)) lo, r).
(** signed arithmetic is undefined when it overflows *)
Definition chk64 (x : Z) : option Z := if (-2^63 <=? x) && (x <? 2^63) then Some x else None.
(** zpl_random_range_i64, random.c:122-130, given the u64 drawn; [u %= diff] is done in zpl_u64 *)
Definition range_of (u lower higher : Z) : option Z :=
  d <- chk64 (higher - lower) ;;
  diff <- chk64 (d + 1) ;;
  if u64 diff =? 0 then None
  else chk64 (i64 (u mod u64 diff) + lower).
Definition range_i64 (high_first : bool) (r : random) (lower higher : Z) : option (Z * random) :=
  let '(u, r) := gen_u64 high_first r in
  i <- range_of u lower higher ;; Some (i, r).
(** zpl_random_range_isize, random.c:132-144, is the same on 64-bit targets *)
Definition range_isize := range_i64.
(** zpl_random_gen_isize, random.c:110-119: the bits of a zpl_u64 as a zpl_i64 *)
Definition gen_isize (high_first : bool) (r : random) : Z * random := let '(u, r) := gen_u64 high_first r in (i64 u, r).
