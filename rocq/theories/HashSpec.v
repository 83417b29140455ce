(** Independent definitions of the checksums. *)
From Verif Require Import Base.

(** Adler-32 (RFC 1950): closed forms over the unbounded integers. *)
Definition sum (m : list Z) : Z := fold_right Z.add 0 m.
Fixpoint weighted (m : list Z) : Z :=
  match m with [] => 0 | x :: r => (1 + Z.of_nat (length r)) * x + weighted r end.
Definition adler_spec (m : list Z) : Z :=
  let a := (1 + sum m) mod 65521 in
  let b := (Z.of_nat (length m) + weighted m) mod 65521 in
  b * 2^16 + a.

(** A reflected CRC computed bit by bit. *)
Section Crc.
  Context (poly : Z).
  Definition crc_bit (s : Z) : Z := if Z.odd s then Z.lxor (s / 2) poly else s / 2.
  Definition crc_step8 (s : Z) : Z := Nat.iter 8 crc_bit s.
  Definition crc_spec (m : list Z) (s : Z) : Z := fold_left (fun s c => crc_step8 (Z.lxor s c)) m s.
End Crc.
Definition crc32_spec (m : list Z) : Z := Z.lxor (crc_spec 0xEDB88320 m 0xFFFFFFFF) 0xFFFFFFFF.
Definition crc64_spec (m : list Z) : Z := crc_spec 0x95AC9329AC4BC9B5 m 0.

(** Exclusive or of two messages, byte by byte. *)
Fixpoint xor_msg (m m' : list Z) : list Z :=
  match m, m' with x :: r, y :: r' => Z.lxor x y :: xor_msg r r' | _, _ => [] end.

(** MurmurHash3 (x86, 32 bit), after the published description: four bytes at a time,
    little endian; the remaining bytes form one more word that is only scrambled in. *)
Definition le_value (l : list Z) : Z := fold_right (fun b acc => b + 256 * acc) 0 l.
Definition rotl32 (r x : Z) : Z := (x * 2^r) mod 2^32 + x / 2^(32 - r).
Definition mm3_k (k : Z) : Z := (rotl32 15 ((k * 0xcc9e2d51) mod 2^32) * 0x1b873593) mod 2^32.
Fixpoint mm3_body (fuel : nat) (l : list Z) (h : Z) : Z :=
  match fuel with
  | O => h
  | S f =>
    if (4 <=? length l)%nat then
      mm3_body f (skipn 4 l) ((rotl32 13 (Z.lxor h (mm3_k (le_value (firstn 4 l)))) * 5 + 0xe6546b64) mod 2^32)
    else match l with [] => h | _ => Z.lxor h (mm3_k (le_value l)) end
  end.
Definition fmix32 (h : Z) : Z :=
  let h := Z.lxor h (h / 2^16) in
  let h := (h * 0x85ebca6b) mod 2^32 in
  let h := Z.lxor h (h / 2^13) in
  let h := (h * 0xc2b2ae35) mod 2^32 in
  Z.lxor h (h / 2^16).
Definition murmur3_spec (m : list Z) (seed : Z) : Z :=
  fmix32 (Z.lxor (mm3_body (length m) m seed) (Z.of_nat (length m) mod 2^32)).

(** MurmurHash64A (MurmurHash2, 64 bit), after the published description. *)
Definition mm2_m : Z := 0xc6a4a7935bd1e995.
Definition mm2_word (h k : Z) : Z :=
  let k := (k * mm2_m) mod 2^64 in
  let k := (Z.lxor k (k / 2^47) * mm2_m) mod 2^64 in
  (Z.lxor h k * mm2_m) mod 2^64.
Fixpoint mm2_body (fuel : nat) (l : list Z) (h : Z) : Z :=
  match fuel with
  | O => h
  | S f =>
    if (8 <=? length l)%nat then mm2_body f (skipn 8 l) (mm2_word h (le_value (firstn 8 l)))
    else match l with [] => h | _ => (Z.lxor h (le_value l) * mm2_m) mod 2^64 end
  end.
Definition mm2_spec (m : list Z) (seed : Z) : Z :=
  let h := mm2_body (length m) m (Z.lxor seed ((Z.of_nat (length m) * mm2_m) mod 2^64)) in
  let h := (Z.lxor h (h / 2^47) * mm2_m) mod 2^64 in
  Z.lxor h (h / 2^47).
