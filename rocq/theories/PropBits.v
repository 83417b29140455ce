(** Final statements: bit helpers (C01, C02, C03, C09, C64). *)
From Verif Require Import Base Bits BitsSpec BitsProofs.

(** C01 *)
Theorem C01_is_power_of_two : forall x,
  in_i64 x -> (is_power_of_two x = true <-> exists k, 0 <= k /\ x = 2^k).
Proof. intros x _. exact (is_power_of_two_correct x). Qed.
Example C01_ex1 : is_power_of_two (2^40) = true. Proof. reflexivity. Qed.
Example C01_ex2 : is_power_of_two (2^40 + 2) = false. Proof. reflexivity. Qed.
Example C01_ex3 : is_power_of_two (-8) = false. Proof. reflexivity. Qed.

(** C02 *)
Theorem C02_align_forward : forall p k,
  0 <= k <= 62 -> 0 <= p -> p + (2^k - 1) < 2^64 ->
  exists r, align_forward p (2^k) = Some r /\ least_multiple_from (2^k) p r.
Proof. exact align_forward_correct. Qed.
Theorem C02_align_forward_asserts : forall p a,
  ~ (exists k, 0 <= k /\ a = 2^k) -> align_forward p a = None.
Proof. exact align_forward_assert. Qed.
(** Any positive alignment, negative values included. *)
Theorem C02_align_forward_i64 : forall v a,
  0 < a -> in_i64 v -> in_i64 a -> in_i64 (a - Z.rem v a) -> in_i64 (v + (a - v mod a) mod a) ->
  exists r, align_forward_i64 v a = Some r /\ least_multiple_from a v r.
Proof. exact align_forward_i64_correct. Qed.
Theorem C02_align_forward_u64 : forall v a,
  0 < a < 2^64 -> 0 <= v -> v + (a-1) < 2^64 ->
  exists r, align_forward_u64 v a = Some r /\ least_multiple_from a v r.
Proof. exact align_forward_u64_correct. Qed.
(** Aligning an aligned value is the identity. *)
Theorem C02_aligned_fixpoint : forall p k q,
  0 <= k <= 62 -> 0 <= p -> p + (2^k - 1) < 2^64 -> p = 2^k * q -> align_forward p (2^k) = Some p.
Proof.
  intros p k q Hk Hp Hb E. destruct (align_forward_correct p k Hk Hp Hb) as (r & Hr & _ & L & M).
  rewrite Hr. f_equal. specialize (M q). lia.
Qed.
(** The guard is needed: near the top of the address space the result wraps to 0. *)
Theorem C02_align_forward_wrap_refuted :
  exists p, 0 <= p < 2^64 /\ align_forward p (2^4) = Some 0 /\ 0 < p.
Proof. exists (2^64 - 1). vm_compute. repeat split; discriminate. Qed.
Example C02_ex1 : align_forward 0x1001 16 = Some 0x1010. Proof. reflexivity. Qed.
Example C02_ex2 : align_forward_i64 (-3) 8 = Some 0. Proof. reflexivity. Qed.
Example C02_ex3 : align_forward_u64 13 6 = Some 18. Proof. reflexivity. Qed.

(** C03 *)
Theorem C03_endian_swap16 : forall v, 0 <= v < 2^16 ->
  0 <= endian_swap16 v < 2^16 /\
  (forall i, 0 <= i < 2 -> byte_at (endian_swap16 v) i = byte_at v (1 - i)) /\
  endian_swap16 (endian_swap16 v) = v.
Proof.
  intros v Hv. split; [apply swap16_range|]. split.
  - apply endian_swap16_bytes; unfold in_u32; lia.
  - apply swap16_involutive; assumption.
Qed.
Theorem C03_endian_swap32 : forall v, in_u32 v ->
  in_u32 (endian_swap32 v) /\
  (forall i, 0 <= i < 4 -> byte_at (endian_swap32 v) i = byte_at v (3 - i)) /\
  endian_swap32 (endian_swap32 v) = v.
Proof.
  intros v Hv. split; [apply swap32_range; assumption|]. split.
  - apply endian_swap32_bytes; assumption.
  - apply swap32_involutive; assumption.
Qed.
Theorem C03_endian_swap64 : forall v, in_u64 v ->
  in_u64 (endian_swap64 v) /\
  (forall i, 0 <= i < 8 -> byte_at (endian_swap64 v) i = byte_at v (7 - i)) /\
  endian_swap64 (endian_swap64 v) = v.
Proof.
  intros v Hv. split; [apply swap64_range; assumption|]. split.
  - apply endian_swap64_bytes; assumption.
  - apply swap64_involutive; assumption.
Qed.
Example C03_ex : endian_swap64 0x0102030405060708 = 0x0807060504030201. Proof. reflexivity. Qed.

(** C09 *)
Theorem C09_next_pow2 : forall x, 1 <= x <= 2^30 -> exists w, next_pow2 x = Some w /\ least_pow2 x w.
Proof. exact next_pow2_correct. Qed.
Theorem C09_count_set_bits : forall m, in_u64 m -> count_set_bits m = Some (popcount64 m).
Proof. exact count_set_bits_correct. Qed.
Theorem C09_bit_set : forall x b n, in_u32 x -> 0 <= b < 32 -> 0 <= n ->
  Z.testbit (bit_set x b) n = if n =? b then true else Z.testbit x n.
Proof. exact bit_set_spec. Qed.
Theorem C09_bit_reset : forall x b n, in_u32 x -> 0 <= b < 32 -> 0 <= n ->
  Z.testbit (bit_reset x b) n = if n =? b then false else Z.testbit x n.
Proof. exact bit_reset_spec. Qed.
Theorem C09_bit_get_low : forall x b, in_u32 x -> 0 <= b < 8 -> (bit_get x b <> 0 <-> Z.testbit x b = true).
Proof. exact bit_get_low. Qed.
Theorem C09_bit_get_high : forall x b, in_u32 x -> 8 <= b < 32 -> bit_get x b = 0.
Proof. exact bit_get_high. Qed.
(** Hence "bit_get reports the bit" is false. *)
Theorem C09_bit_get_refuted : exists x b,
  in_u32 x /\ 0 <= b < 32 /\ Z.testbit x b = true /\ bit_get x b = 0.
Proof. exists (2^9), 9. vm_compute. repeat split; discriminate. Qed.
Example C09_ex1 : next_pow2 1000 = Some 1024. Proof. reflexivity. Qed.
Example C09_ex2 : count_set_bits 0xF0F0 = Some 8. Proof. reflexivity. Qed.
Example C09_ex3 : bit_set 0x10 3 = 0x18 /\ bit_reset 0x18 4 = 8 /\ bit_get 0x18 3 = 8.
Proof. repeat split; reflexivity. Qed.

(** C64 *)
Theorem C64_epoch : forall ms, in_u64 ms ->
  time_unix_to_win32 (time_win32_to_unix ms) = ms /\ time_win32_to_unix (time_unix_to_win32 ms) = ms.
Proof. intros ms H. split; [apply epoch_inverse1|apply epoch_inverse2]; assumption. Qed.
(** The Unix epoch itself, 1970-01-01, is 11644473600 s after the Win32 one:
    134774 days (369 years with 89 leap days) of 86400 s. *)
Theorem C64_epoch_constant : time_unix_to_win32 0 = (369*365 + 89) * 86400 * 1000.
Proof. reflexivity. Qed.
Example C64_ex : time_win32_to_unix 0 = 2^64 - 11644473600000. Proof. reflexivity. Qed.

Print Assumptions C01_is_power_of_two.
Print Assumptions C02_align_forward.
Print Assumptions C02_align_forward_i64.
Print Assumptions C02_align_forward_u64.
Print Assumptions C03_endian_swap64.
Print Assumptions C09_next_pow2.
Print Assumptions C09_count_set_bits.
Print Assumptions C09_bit_set.
Print Assumptions C09_bit_get_refuted.
Print Assumptions C64_epoch.
