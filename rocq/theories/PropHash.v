(** C29-C33, C70: checksums and hashes. *)
From Verif Require Import Base Hash HashSpec HashProofs HashProofs2.

Lemma not32_lxor x : 0 <= x < 2^32 -> not32 x = Z.lxor x 0xFFFFFFFF.
Proof.
  intros H. unfold not32, u32. change 0xFFFFFFFF with (Z.ones 32). apply Z.bits_inj'. intros k Hk.
  rewrite Z.lxor_spec. destruct (Z.lt_ge_cases k 32).
  - rewrite Z.mod_pow2_bits_low, Z.lnot_spec, Z.ones_spec_low by lia. now rewrite xorb_true_r.
  - rewrite Z.mod_pow2_bits_high, Z.ones_spec_high by lia. rewrite <- (Z.mod_small x (2^32)) by lia. now rewrite Z.mod_pow2_bits_high by lia.
Qed.
Lemma hp32 : 2^(32-1) <= 0xEDB88320 < 2^32. Proof. lia. Qed.
Lemma hp64 : 2^(64-1) <= 0x95AC9329AC4BC9B5 < 2^64. Proof. lia. Qed.

Theorem C29_crc32 : forall m, bytes m -> crc32 m = Some (crc32_spec m).
Proof.
  intros m B. unfold crc32, crc32_spec. change (not32 0) with 0xFFFFFFFF.
  rewrite (crc_fold_ok 0xEDB88320 32 ltac:(lia) hp32 crc32_table crc32_table_ok m) by (easy || lia). cbn [obind]. f_equal.
  apply not32_lxor. apply (crc_spec_bound _ 32 ltac:(lia) hp32); [easy|lia].
Qed.
(** any change confined to four consecutive bytes changes the checksum *)
Theorem C29_crc32_burst : forall p u u' q, bytes p -> bytes u -> bytes u' -> bytes q ->
  length u = length u' -> (length u <= 4)%nat -> u <> u' -> crc32 (p ++ u ++ q) <> crc32 (p ++ u' ++ q).
Proof.
  intros p u u' q Bp Bu Bu' Bq L L4 Hne.
  assert (B1 : bytes (p ++ u ++ q)) by (apply Forall_app; split; [easy|]; apply Forall_app; easy).
  assert (B2 : bytes (p ++ u' ++ q)) by (apply Forall_app; split; [easy|]; apply Forall_app; easy).
  rewrite !C29_crc32 by easy. intros [= E]. apply lxor_cancel_r in E. revert E.
  apply (crc_burst _ 32 ltac:(lia) hp32); try easy; lia.
Qed.
Example C29_example : crc32 [49; 50; 51; 52; 53; 54; 55; 56; 57] = Some 0xCBF43926.
Proof. vm_compute. reflexivity. Qed.

Theorem C30_crc64 : forall m, bytes m -> crc64 m = Some (crc64_spec m).
Proof.
  intros m B. unfold crc64, crc64_spec.
  apply (crc_fold_ok 0x95AC9329AC4BC9B5 64 ltac:(lia) hp64 crc64_table crc64_table_ok m); [easy|lia].
Qed.
Lemma xor_bytes : forall m m', bytes m -> bytes m' -> bytes (xor_msg m m').
Proof.
  induction m as [|x m IH]; intros [|y m'] B B'; cbn [xor_msg]; try constructor.
  - inversion B; inversion B'; subst. unfold byte in *. apply (lxor_bound x y 8); lia.
  - inversion B; inversion B'; subst. now apply IH.
Qed.
Theorem C30_linear : forall m m' x y, bytes m -> bytes m' -> length m = length m' ->
  crc64 m = Some x -> crc64 m' = Some y -> crc64 (xor_msg m m') = Some (Z.lxor x y).
Proof.
  intros m m' x y B B' L E E'. rewrite C30_crc64 in * by (try apply xor_bytes; easy). injection E as <-. injection E' as <-.
  f_equal. unfold crc64_spec. rewrite <- (crc_linear 0x95AC9329AC4BC9B5 64 ltac:(lia) m m' 0 0 L). easy.
Qed.
Theorem C30_burst : forall p u u' q, bytes p -> bytes u -> bytes u' -> bytes q ->
  length u = length u' -> (length u <= 8)%nat -> u <> u' -> crc64 (p ++ u ++ q) <> crc64 (p ++ u' ++ q).
Proof.
  intros p u u' q Bp Bu Bu' Bq L L4 Hne.
  assert (B1 : bytes (p ++ u ++ q)) by (apply Forall_app; split; [easy|]; apply Forall_app; easy).
  assert (B2 : bytes (p ++ u' ++ q)) by (apply Forall_app; split; [easy|]; apply Forall_app; easy).
  rewrite !C30_crc64 by easy. intros [= E]. revert E.
  apply (crc_burst _ 64 ltac:(lia) hp64); try easy; lia.
Qed.
(** Weakness: leading zero bytes are not seen. *)
Theorem C30_zero_prefix_undetected : forall n m, bytes m -> crc64 (repeat 0 n ++ m) = crc64 m.
Proof.
  intros n m B. rewrite !C30_crc64; [f_equal; apply crc_zero_prefix|easy|].
  apply Forall_app. split; [|easy]. apply Forall_forall. intros x Hx. apply repeat_spec in Hx. subst. unfold byte. lia.
Qed.
Example C30_example : crc64 [49; 50; 51; 52; 53; 54; 55; 56; 57] = Some 0xe9c6d914c4b8d9ca.
Proof. vm_compute. reflexivity. Qed.

Theorem C31_adler32 : forall m, bytes m -> adler32 m = Some (adler_spec m).
Proof. exact adler_ok. Qed.
(** within one block the 32-bit accumulators hold the exact sums *)
Theorem C31_no_overflow : forall block a b, bytes block -> Z.of_nat (length block) <= 5552 -> 0 <= a < 65521 -> 0 <= b < 65521 ->
  adler_block block (a, b) = (a + sum block, b + Z.of_nat (length block) * a + weighted block).
Proof.
  intros l a b B L Ha Hb. rewrite (adler_block_fold (length l)) by lia. apply adler_fold; try easy; try lia. nia.
Qed.
Example C31_example : adler32 [87; 105; 107; 105; 112; 101; 100; 105; 97] = Some 0x11E60398.
Proof. vm_compute. reflexivity. Qed.

(** C32: the defining equations. *)
Theorem C32_fnv1 : forall m c,
  (fnv32 [] = 2166136261 /\ fnv32 (m ++ [c]) = Z.lxor ((fnv32 m * 16777619) mod 2^32) c) /\
  (fnv64 [] = 14695981039346656037 /\ fnv64 (m ++ [c]) = Z.lxor ((fnv64 m * 1099511628211) mod 2^64) c).
Proof. intros m c. unfold fnv32, fnv64. rewrite !fold_left_app. easy. Qed.
Theorem C32_fnv1a : forall m c,
  (fnv32a [] = 2166136261 /\ fnv32a (m ++ [c]) = (Z.lxor (fnv32a m) c * 16777619) mod 2^32) /\
  (fnv64a [] = 14695981039346656037 /\ fnv64a (m ++ [c]) = (Z.lxor (fnv64a m) c * 1099511628211) mod 2^64).
Proof. intros m c. unfold fnv32a, fnv64a. rewrite !fold_left_app. easy. Qed.
Theorem C32_prefix_determines : forall m m' q,
  (fnv32 m = fnv32 m' -> fnv32 (m ++ q) = fnv32 (m' ++ q)) /\ (fnv64 m = fnv64 m' -> fnv64 (m ++ q) = fnv64 (m' ++ q)) /\
  (fnv32a m = fnv32a m' -> fnv32a (m ++ q) = fnv32a (m' ++ q)) /\ (fnv64a m = fnv64a m' -> fnv64a (m ++ q) = fnv64a (m' ++ q)).
Proof. intros m m' q. unfold fnv32, fnv64, fnv32a, fnv64a. rewrite !fold_left_app. repeat split; now intros ->. Qed.
Theorem C32_one_byte : forall p c c' q, bytes (p ++ c :: q) -> byte c' -> c <> c' ->
  fnv32 (p ++ c :: q) <> fnv32 (p ++ c' :: q) /\ fnv64 (p ++ c :: q) <> fnv64 (p ++ c' :: q) /\
  fnv32a (p ++ c :: q) <> fnv32a (p ++ c' :: q) /\ fnv64a (p ++ c :: q) <> fnv64a (p ++ c' :: q).
Proof.
  intros p c c' q B Bc Hne. repeat split.
  - apply (fnv1_one_byte 0x01000193 0x359c449b 32); try easy; lia.
  - apply (fnv1_one_byte 0x100000001b3 0xce965057aff6957b 64); try easy; lia.
  - apply (fnv1a_one_byte 0x01000193 0x359c449b 32); try easy; lia.
  - apply (fnv1a_one_byte 0x100000001b3 0xce965057aff6957b 64); try easy; lia.
Qed.
Example C32_example : fnv32a [97] = 0xe40c292c /\ fnv64a [97] = 0xaf63dc4c8601ec8c /\ fnv32 [97] = 0x050c5d7e.
Proof. vm_compute. repeat split. Qed.

(** C33: murmur64 agrees with the published function only without a proper tail. *)
Theorem C33_murmur64_published : forall m seed, bytes m -> Z.of_nat (length m) mod 8 = 0 \/ Z.of_nat (length m) < 8 ->
  murmur64_seed m seed = Some (mm2_spec m seed).
Proof. exact murmur64_ok. Qed.
Theorem C33_murmur64_default : forall m, bytes m -> Z.of_nat (length m) mod 8 = 0 \/ Z.of_nat (length m) < 8 ->
  murmur64 m = Some (mm2_spec m 0x9747b28c).
Proof. intros m. apply murmur64_ok. Qed.
Theorem C33_murmur64_tail_refuted : forall p t t' seed, length p <> 0%nat -> Z.of_nat (length p) mod 8 = 0 ->
  length t = length t' -> (length t < 8)%nat -> murmur64_seed (p ++ t) seed = murmur64_seed (p ++ t') seed.
Proof. exact murmur64_tail_ignored. Qed.
Theorem C33_murmur64_collision_refuted : exists m m' x, m <> m' /\ bytes m /\ bytes m' /\ murmur64 m = Some x /\ murmur64 m' = Some x /\
  mm2_spec m 0x9747b28c <> mm2_spec m' 0x9747b28c.
Proof.
  exists [1; 2; 3; 4; 5; 6; 7; 8; 9], [1; 2; 3; 4; 5; 6; 7; 8; 10]. eexists.
  split; [easy|]. split; [repeat (constructor; [unfold byte; lia|]); constructor|]. split; [repeat (constructor; [unfold byte; lia|]); constructor|].
  split; [vm_compute; reflexivity|]. split; [vm_compute; reflexivity|]. vm_compute. discriminate.
Qed.
Example C33_example : murmur64_seed [104; 101; 108; 108; 111] 0 = Some (mm2_spec [104; 101; 108; 108; 111] 0) /\
  mm2_spec [104; 101; 108; 108; 111] 0 = 0x1e68d17c457bf117.
Proof. vm_compute. split; reflexivity. Qed.

(** C70: murmur32 is MurmurHash3_x86_32. *)
Theorem C70_murmur32_published : forall m seed, bytes m -> 0 <= seed < 2^32 -> murmur32_seed m seed = Some (murmur3_spec m seed).
Proof. exact murmur32_ok. Qed.
Theorem C70_murmur32_word : forall n p u u' q seed, length p = (4 * n)%nat -> bytes p -> bytes u -> bytes u' -> bytes q -> length u = length u' ->
  (length u <= 4)%nat -> (length u = 4%nat \/ q = []) -> 0 <= seed < 2^32 -> u <> u' ->
  murmur32_seed (p ++ u ++ q) seed <> murmur32_seed (p ++ u' ++ q) seed.
Proof.
  intros n p u u' q seed Lp Bp Bu Bu' Bq L L4 C Hs Hne.
  assert (B1 : bytes (p ++ u ++ q)) by (apply Forall_app; split; [easy|]; apply Forall_app; easy).
  assert (B2 : bytes (p ++ u' ++ q)) by (apply Forall_app; split; [easy|]; apply Forall_app; easy).
  rewrite !murmur32_ok by easy. intros [= E]. revert E. now apply (murmur3_word n).
Qed.
(** without a seed, the seed is 0x9747b28c *)
Theorem C70_murmur32_default : forall m, bytes m -> murmur32 m = Some (murmur3_spec m 0x9747b28c).
Proof. intros m H. apply murmur32_ok; [easy|lia]. Qed.
Example C70_example : murmur32_seed [104; 101; 108; 108; 111] 0 = Some 0x248bfa47 /\ murmur32_seed [116; 101; 115; 116] 0 = Some 0xba6bd213.
Proof. vm_compute. split; reflexivity. Qed.

Print Assumptions C29_crc32.
Print Assumptions C29_crc32_burst.
Print Assumptions C30_crc64.
Print Assumptions C30_linear.
Print Assumptions C30_burst.
Print Assumptions C30_zero_prefix_undetected.
Print Assumptions C31_adler32.
Print Assumptions C31_no_overflow.
Print Assumptions C32_fnv1.
Print Assumptions C32_fnv1a.
Print Assumptions C32_prefix_determines.
Print Assumptions C32_one_byte.
Print Assumptions C33_murmur64_published.
Print Assumptions C33_murmur64_tail_refuted.
Print Assumptions C33_murmur64_collision_refuted.
Print Assumptions C70_murmur32_published.
Print Assumptions C70_murmur32_word.
Print Assumptions C70_murmur32_default.
Print Assumptions C33_murmur64_default.
