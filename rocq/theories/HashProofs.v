From Verif Require Import Base Hash HashSpec.

(** ** words *)
Lemma land_low a b r : 0 <= r -> 0 <= b < 2^r -> Z.land (a * 2^r) b = 0.
Proof.
  intros Hr Hb. rewrite <- Z.shiftl_mul_pow2 by lia. apply Z.bits_inj'. intros k Hk.
  rewrite Z.land_spec, Z.bits_0. destruct (Z.lt_ge_cases k r).
  - rewrite Z.shiftl_spec_low by lia. easy.
  - rewrite <- (Z.mod_small b (2^r)) by lia. rewrite Z.mod_pow2_bits_high by lia. apply andb_false_r.
Qed.
Lemma lxor_low a b r : 0 <= r -> 0 <= b < 2^r -> Z.lxor (a * 2^r) b = a * 2^r + b.
Proof. intros Hr Hb. symmetry. apply Z.add_nocarry_lxor. now apply land_low. Qed.
Lemma lor_low a b r : 0 <= r -> 0 <= b < 2^r -> Z.lor (a * 2^r) b = a * 2^r + b.
Proof. intros Hr Hb. rewrite <- Z.lxor_lor by now apply land_low. now apply lxor_low. Qed.
Lemma lxor_bound a b w : 0 <= w -> 0 <= a < 2^w -> 0 <= b < 2^w -> 0 <= Z.lxor a b < 2^w.
Proof.
  intros Hw Ha Hb. assert (0 <= Z.lxor a b) by (apply Z.lxor_nonneg; lia). split; [easy|].
  assert (Z.lxor a b = Z.lxor a b mod 2^w) as ->; [|apply Z.mod_pos_bound; lia].
  apply Z.bits_inj'. intros k Hk. destruct (Z.lt_ge_cases k w).
  - now rewrite Z.mod_pow2_bits_low.
  - rewrite Z.mod_pow2_bits_high by lia. rewrite Z.lxor_spec.
    rewrite <- (Z.mod_small a (2^w)), <- (Z.mod_small b (2^w)) by lia. rewrite !Z.mod_pow2_bits_high by lia. easy.
Qed.
Lemma lxor_cancel_l a b c : Z.lxor a b = Z.lxor a c -> b = c.
Proof.
  intros H. rewrite <- (Z.lxor_0_l b), <- (Z.lxor_nilpotent a), Z.lxor_assoc, H, <- Z.lxor_assoc, Z.lxor_nilpotent. apply Z.lxor_0_l.
Qed.
Lemma lxor_cancel_r a b c : Z.lxor b a = Z.lxor c a -> b = c.
Proof. rewrite !(Z.lxor_comm _ a). apply lxor_cancel_l. Qed.

(** ** Adler *)
Lemma adler_block_fold : forall n l ab, (length l <= n)%nat -> adler_block l ab = fold_left adler_byte l ab.
Proof.
  induction n as [|n IH]; intros l ab H; [destruct l; [easy|cbn in H; lia]|].
  destruct l as [|x0 [|x1 [|x2 [|x3 [|x4 [|x5 [|x6 [|x7 r]]]]]]]]; cbn [adler_block fold_left]; try easy.
  apply IH. cbn [length] in H. lia.
Qed.
Lemma adler_fold : forall l a b, bytes l -> 0 <= a -> 0 <= b -> a + 255 * Z.of_nat (length l) < 2^32 ->
  2 * b + 2 * Z.of_nat (length l) * a + 255 * Z.of_nat (length l) * (Z.of_nat (length l) + 1) < 2^33 ->
  fold_left adler_byte l (a, b) = (a + sum l, b + Z.of_nat (length l) * a + weighted l).
Proof.
  induction l as [|x l IH]; intros a b B Ha Hb H1 H2.
  - cbn. f_equal; lia.
  - inversion B as [|? ? Bx Bl]; subst. unfold byte in Bx. cbn [length] in H1, H2. rewrite Nat2Z.inj_succ in H1, H2.
    cbn [fold_left]. unfold adler_byte at 2. cbn [fst snd]. cbn zeta.
    set (n := Z.of_nat (length l)) in *. assert (0 <= n) by lia.
    assert (E1 : u32 (a + x) = a + x) by (unfold u32; apply Z.mod_small; lia).
    rewrite E1.
    assert (P1 : 0 <= n * a) by (apply Z.mul_nonneg_nonneg; lia).
    assert (P2 : 0 <= n * x <= 255 * n) by nia.
    assert (E2 : u32 (b + (a + x)) = b + (a + x)).
    { unfold u32. apply Z.mod_small. nia. }
    rewrite E2, IH; [|easy|lia|lia|fold n; lia|fold n; nia]. fold n. cbn [sum fold_right weighted length]. fold n. unfold sum.
    rewrite Nat2Z.inj_succ. fold n. f_equal; ring.
Qed.
Lemma sum_app u v : sum (u ++ v) = sum u + sum v.
Proof. unfold sum. induction u as [|x u IH]; cbn; [easy|lia]. Qed.
Lemma weighted_app u v : weighted (u ++ v) = weighted u + Z.of_nat (length v) * sum u + weighted v.
Proof.
  induction u as [|x u IH]; [cbn; lia|]. cbn [app weighted]. rewrite IH, app_length, Nat2Z.inj_add.
  change (sum (x :: u)) with (x + sum u). ring.
Qed.
Lemma adler_loop_ok : forall fuel l bl a b, bytes l -> 0 <= a < 65521 -> 0 <= b < 65521 ->
  0 <= bl <= 5552 -> (Z.of_nat (length l) - bl) mod 5552 = 0 -> (bl <= Z.of_nat (length l) \/ l = []) ->
  (length l + (if (bl =? 0)%Z then 1 else 0) < fuel)%nat ->
  adler_loop fuel l (Z.of_nat (length l)) bl (a, b) =
    Some ((a + sum l) mod 65521, (b + Z.of_nat (length l) * a + weighted l) mod 65521).
Proof.
  induction fuel as [|fuel IH]; intros l bl a b B Ha Hb Hbl Hm Hl Hf; [lia|]. cbn [adler_loop].
  destruct (Z.eqb_spec (Z.of_nat (length l)) 0) as [E|E].
  { assert (l = []) by (destruct l; [easy|cbn in E; lia]). subst l. cbn. rewrite !Z.add_0_r, !Z.mod_small by lia. easy. }
  destruct Hl as [Hl|Hl]; [|subst l; now cbn in E].
  assert (Lf : length (firstn (Z.to_nat bl) l) = Z.to_nat bl) by (rewrite firstn_length; lia).
  rewrite Lf, Z2Nat.id by lia. rewrite Z.eqb_refl.
  rewrite (adler_block_fold (length (firstn (Z.to_nat bl) l))) by lia.
  set (u := firstn (Z.to_nat bl) l) in *. set (v := skipn (Z.to_nat bl) l) in *.
  assert (Eu : l = u ++ v) by (symmetry; apply firstn_skipn).
  assert (Bu : bytes u /\ bytes v) by (rewrite Eu in B; now apply Forall_app in B).
  assert (Lu : Z.of_nat (length u) = bl) by lia.
  assert (Lv : Z.of_nat (length v) = Z.of_nat (length l) - bl) by (rewrite Eu, app_length, Nat2Z.inj_add; lia).
  rewrite adler_fold; [|easy|lia|lia|rewrite Lu; lia|rewrite Lu; nia]. rewrite <- Lv. unfold MOD_ADLER.
  assert (Hv : Z.of_nat (length v) = 0 \/ 5552 <= Z.of_nat (length v)).
  { rewrite Lv. Z.div_mod_to_equations. lia. }
  rewrite (IH v 5552); try lia; try easy.
  - f_equal. f_equal.
    + rewrite Z.add_mod_idemp_l by lia. f_equal. replace (sum l) with (sum u + sum v) by (now rewrite <- sum_app, <- Eu). lia.
    + replace (weighted l) with (weighted u + Z.of_nat (length v) * sum u + weighted v) by (now rewrite <- weighted_app, <- Eu).
      replace (Z.of_nat (length l)) with (bl + Z.of_nat (length v)) by lia. rewrite Lu.
      rewrite <- Z.add_assoc, Z.add_mod_idemp_l by lia.
      rewrite (Z.add_comm (Z.of_nat (length v) * _)), Z.add_assoc.
      rewrite <- Z.add_mod_idemp_r by lia. rewrite Z.mul_mod_idemp_r by lia. rewrite Z.add_mod_idemp_r by lia. f_equal. ring.
  - apply Z.mod_pos_bound. lia.
  - apply Z.mod_pos_bound. lia.
  - rewrite Lv. Z.div_mod_to_equations. lia.
  - destruct Hv; [|left; lia]. right. destruct v; [easy|cbn in *; lia].
  - change (5552 =? 0) with false. cbn match. destruct (Z.eqb_spec bl 0) as [->|]; lia.
Qed.
Lemma adler_ok m : bytes m -> adler32 m = Some (adler_spec m).
Proof.
  intros B. unfold adler32. rewrite Z.rem_mod_nonneg by lia.
  pose proof (Z.mod_pos_bound (Z.of_nat (length m)) 5552 ltac:(lia)) as Hb.
  rewrite adler_loop_ok; try easy; try lia.
  - cbn [obind]. unfold adler_spec. rewrite Z.mul_1_r, Z.add_0_l.
    set (a := (1 + sum m) mod 65521). set (b := (Z.of_nat (length m) + weighted m) mod 65521).
    assert (0 <= a < 65521) by (apply Z.mod_pos_bound; lia). assert (0 <= b < 65521) by (apply Z.mod_pos_bound; lia).
    unfold u32. rewrite Z.shiftl_mul_pow2 by lia. rewrite (Z.mod_small (b * 2^16)) by lia. f_equal. apply lor_low; lia.
  - Z.div_mod_to_equations; lia.
  - left. apply Z.mod_le; lia.
  - destruct (_ =? 0); lia.
Qed.

(** ** CRC *)
Lemma iter_succ {A} n (f : A -> A) x : Nat.iter (S n) f x = f (Nat.iter n f x).
Proof. reflexivity. Qed.
Lemma iter_add {A} n m (f : A -> A) x : Nat.iter (n + m) f x = Nat.iter n f (Nat.iter m f x).
Proof. induction n as [|n IH]; [easy|]. cbn [Nat.add]. now rewrite !iter_succ, IH. Qed.
Lemma iter_succ_r {A} n (f : A -> A) x : Nat.iter (S n) f x = Nat.iter n f (f x).
Proof. replace (S n) with (n + 1)%nat by lia. apply iter_add. Qed.

Lemma le_value_bound m : bytes m -> 0 <= le_value m < 2^(8 * Z.of_nat (length m)).
Proof.
  induction 1 as [|c m Hc Hm IH]; [cbn; lia|]. cbn [le_value fold_right length]. fold (le_value m). unfold byte in Hc.
  replace (8 * Z.of_nat (S (length m))) with (8 + 8 * Z.of_nat (length m)) by lia. rewrite Z.pow_add_r by lia. lia.
Qed.
Lemma le_value_inj : forall m m', bytes m -> bytes m' -> length m = length m' -> le_value m = le_value m' -> m = m'.
Proof.
  induction m as [|c m IH]; intros [|c' m'] B B' L E; cbn in L; try lia; [easy|].
  inversion B as [|? ? Bc Bm]; inversion B' as [|? ? Bc' Bm']; subst. cbn [le_value fold_right] in E. fold (le_value m) (le_value m') in E.
  unfold byte in *. assert (c = c' /\ le_value m = le_value m') as (-> & Q) by lia. f_equal. apply IH; try easy. lia.
Qed.
Section Crc.
  Context (poly : Z) (w : Z) (Hw : 8 <= w) (Hp : 2^(w-1) <= poly < 2^w).
  Notation bit := (crc_bit poly).
  Lemma crc_cons c m s : crc_spec poly (c :: m) s = crc_spec poly m (crc_step8 poly (Z.lxor s c)).
  Proof. reflexivity. Qed.
  Lemma div2_lxor a b : Z.lxor a b / 2 = Z.lxor (a / 2) (b / 2).
  Proof. rewrite <- !Z.div2_div, !Z.div2_spec. apply Z.shiftr_lxor. Qed.
  Lemma bit_lxor a b : bit (Z.lxor a b) = Z.lxor (bit a) (bit b).
  Proof.
    unfold crc_bit. rewrite <- !Z.bit0_odd, Z.lxor_spec, div2_lxor.
    destruct (Z.testbit a 0), (Z.testbit b 0); cbn [xorb]; try easy.
    - rewrite (Z.lxor_comm (b / 2) poly), <- Z.lxor_assoc, (Z.lxor_assoc (a / 2) poly poly), Z.lxor_nilpotent. now rewrite Z.lxor_0_r.
    - now rewrite Z.lxor_assoc, (Z.lxor_comm (b / 2) poly), <- Z.lxor_assoc.
    - now rewrite Z.lxor_assoc.
  Qed.
  Lemma iter_lxor n a b : Nat.iter n bit (Z.lxor a b) = Z.lxor (Nat.iter n bit a) (Nat.iter n bit b).
  Proof. induction n as [|n IH]; [easy|]. now rewrite !iter_succ, IH, bit_lxor. Qed.
  Lemma iter_shift n x : Nat.iter n bit (x * 2^Z.of_nat n) = x.
  Proof.
    induction n as [|n IH]; [cbn; lia|]. rewrite iter_succ_r, Nat2Z.inj_succ, Z.pow_succ_r by lia.
    replace (x * (2 * 2^Z.of_nat n)) with (2 * (x * 2^Z.of_nat n)) by ring.
    unfold crc_bit at 2. rewrite Z.odd_mul. cbn [Z.odd andb]. rewrite Z.mul_comm, Z.div_mul by lia. apply IH.
  Qed.
  Lemma bit_bound s : 0 <= s < 2^w -> 0 <= bit s < 2^w.
  Proof.
    intros H. assert (0 <= s / 2 < 2^w) by (Z.div_mod_to_equations; lia). unfold crc_bit.
    destruct (Z.odd s); [apply lxor_bound; lia|easy].
  Qed.
  Lemma iter_bound n s : 0 <= s < 2^w -> 0 <= Nat.iter n bit s < 2^w.
  Proof. intros H. induction n as [|n IH]; [easy|]. rewrite iter_succ. now apply bit_bound. Qed.
  (** one step can be undone: the top bit of [poly] is set *)
  Lemma bit_zero s : 0 <= s < 2^w -> bit s = 0 -> s = 0.
  Proof.
    intros H. unfold crc_bit. destruct (Z.odd s) eqn:O.
    - intros E. apply Z.lxor_eq in E.
      assert (s / 2 < 2^(w-1)); [|lia]. assert (2^w = 2 * 2^(w-1)) by (rewrite <- Z.pow_succ_r by lia; f_equal; lia).
      apply Z.div_lt_upper_bound; lia.
    - intros E. assert (s mod 2 = 0) by (rewrite Zmod_odd, O; easy). Z.div_mod_to_equations. lia.
  Qed.
  Lemma iter_zero n s : 0 <= s < 2^w -> Nat.iter n bit s = 0 -> s = 0.
  Proof.
    intros H. induction n as [|n IH]; [easy|]. rewrite iter_succ. intros E. apply IH. apply bit_zero in E; [easy|]. now apply iter_bound.
  Qed.
  Lemma iter_inj n s t : 0 <= s < 2^w -> 0 <= t < 2^w -> Nat.iter n bit s = Nat.iter n bit t -> s = t.
  Proof.
    intros Hs Ht E. apply Z.lxor_eq. apply iter_zero with n; [apply lxor_bound; lia|].
    now rewrite iter_lxor, E, Z.lxor_nilpotent.
  Qed.

  Context (table : list Z)
    (Ht : forall c, 0 <= c < 256 -> nth_error table (Z.to_nat c) = Some (crc_step8 poly c)).
  Lemma crc_byte_ok s c : 0 <= s -> byte c -> crc_byte table s c = Some (crc_step8 poly (Z.lxor s c)).
  Proof.
    intros Hs Hc. unfold byte in Hc. unfold crc_byte.
    assert (0 <= Z.lxor s c) by (apply Z.lxor_nonneg; lia).
    assert (R : 0 <= Z.land (Z.lxor s c) 255 < 256).
    { change 255 with (Z.ones 8). rewrite Z.land_ones by lia. apply Z.mod_pos_bound. lia. }
    rewrite (Ht _ R). cbn [obind]. f_equal. set (t := Z.lxor s c) in *.
    assert (E : t = Z.lxor (Z.shiftr t 8 * 2^8) (Z.land t 255)).
    { change 255 with (Z.ones 8). rewrite Z.land_ones, Z.shiftr_div_pow2 by lia.
      rewrite lxor_low by (try lia; apply Z.mod_pos_bound; lia). Z.div_mod_to_equations. lia. }
    transitivity (Nat.iter 8 bit (Z.lxor (Z.shiftr t 8 * 2^8) (Z.land t 255))); [|now rewrite <- E].
    rewrite iter_lxor. change (2^8) with (2^Z.of_nat 8). rewrite iter_shift.
    fold (crc_step8 poly (Z.land t 255)). f_equal.
    unfold t. rewrite Z.shiftr_lxor, (Z.shiftr_div_pow2 c) by lia. rewrite (Z.div_small c) by lia. now rewrite Z.lxor_0_r.
  Qed.
  Lemma step8_bound s : 0 <= s < 2^w -> 0 <= crc_step8 poly s < 2^w.
  Proof. apply iter_bound. Qed.
  Lemma byte_w c : byte c -> 0 <= c < 2^w.
  Proof. unfold byte. intros H. assert (2^8 <= 2^w) by (apply Z.pow_le_mono_r; lia). lia. Qed.
  Lemma crc_spec_bound : forall m s, bytes m -> 0 <= s < 2^w -> 0 <= crc_spec poly m s < 2^w.
  Proof.
    induction m as [|c m IH]; intros s B H; [easy|]. inversion B; subst. rewrite crc_cons. apply IH; [easy|].
    apply step8_bound, lxor_bound; [lia|easy|now apply byte_w].
  Qed.
  Lemma crc_fold_ok : forall m s, bytes m -> 0 <= s < 2^w -> crc_fold table m s = Some (crc_spec poly m s).
  Proof.
    induction m as [|c m IH]; intros s B H; [easy|]. inversion B; subst. cbn [crc_fold crc_spec fold_left].
    rewrite crc_byte_ok by (easy || lia). cbn [obind]. apply IH; [easy|].
    apply step8_bound, lxor_bound; [lia|easy|now apply byte_w].
  Qed.

  (** linearity *)
  Lemma crc_linear : forall m m' s s', length m = length m' ->
    crc_spec poly (xor_msg m m') (Z.lxor s s') = Z.lxor (crc_spec poly m s) (crc_spec poly m' s').
  Proof.
    induction m as [|c m IH]; intros [|c' m'] s s' L; cbn in L; try lia; [easy|].
    cbn [xor_msg]. rewrite !crc_cons. rewrite <- IH by lia. f_equal. unfold crc_step8. rewrite <- iter_lxor. f_equal.
    rewrite !Z.lxor_assoc. f_equal. rewrite <- !Z.lxor_assoc. f_equal. apply Z.lxor_comm.
  Qed.
  Lemma crc_zero_prefix n m : crc_spec poly (repeat 0 n ++ m) 0 = crc_spec poly m 0.
  Proof. induction n as [|n IH]; [easy|]. cbn [repeat app]. rewrite crc_cons. exact IH. Qed.

  (** [k] bytes of a message enter the state as one word *)
  Lemma crc_word : forall m s, bytes m -> 8 * Z.of_nat (length m) <= w ->
    crc_spec poly m s = Nat.iter (8 * length m) bit (Z.lxor s (le_value m)).
  Proof.
    induction m as [|c m IH]; intros s B L.
    - cbn. now rewrite Z.lxor_0_r.
    - inversion B as [|? ? Bc Bm]; subst. cbn [length] in L. rewrite crc_cons.
      rewrite IH by (easy || lia). cbn [length]. replace (8 * S (length m))%nat with (8 * length m + 8)%nat by lia.
      rewrite iter_add. f_equal.
      cbn [le_value fold_right]. fold (le_value m).
      replace (c + 256 * le_value m) with (Z.lxor (le_value m * 2^8) c) by (rewrite lxor_low; unfold byte in Bc; lia).
      rewrite (Z.lxor_comm (_ * _) c), <- Z.lxor_assoc, iter_lxor. unfold crc_step8. f_equal.
      change (2^8) with (2^Z.of_nat 8). now rewrite iter_shift.
  Qed.
  (** a change confined to at most w/8 consecutive bytes is always detected *)
  Lemma crc_burst p u u' q s : bytes p -> bytes u -> bytes u' -> bytes q -> 0 <= s < 2^w -> length u = length u' ->
    8 * Z.of_nat (length u) <= w -> u <> u' -> crc_spec poly (p ++ u ++ q) s <> crc_spec poly (p ++ u' ++ q) s.
  Proof.
    intros Bp Bu Bu' Bq Hs L Lw Hne E.
    assert (Q : forall m a b, bytes m -> 0 <= a < 2^w -> 0 <= b < 2^w -> crc_spec poly m a = crc_spec poly m b -> a = b).
    { clear -Hw Hp. induction m as [|c m IH]; intros a b B Ha Hb E; [easy|]. inversion B; subst. rewrite !crc_cons in E.
      apply IH in E; [|easy|apply step8_bound, lxor_bound; [lia|easy|now apply byte_w]..].
      apply iter_inj in E; [|apply lxor_bound; [lia|easy|now apply byte_w]..]. now apply lxor_cancel_r in E. }
    unfold crc_spec in E. rewrite !fold_left_app in E. fold (crc_spec poly p s) in E.
    set (t := crc_spec poly p s) in *.
    assert (Bt : 0 <= t < 2^w) by (apply crc_spec_bound; easy).
    fold (crc_spec poly u t) in E. fold (crc_spec poly u' t) in E.
    fold (crc_spec poly q (crc_spec poly u t)) in E. fold (crc_spec poly q (crc_spec poly u' t)) in E.
    apply Q in E; [|easy|now apply crc_spec_bound..].
    rewrite !crc_word in E by (easy || lia). rewrite <- L in E.
    assert (P : 2^(8 * Z.of_nat (length u)) <= 2^w) by (apply Z.pow_le_mono_r; lia).
    pose proof (le_value_bound u Bu). pose proof (le_value_bound u' Bu'). rewrite <- L in *.
    apply iter_inj in E; [|apply lxor_bound; lia..]. apply lxor_cancel_l in E. apply Hne. now apply le_value_inj.
  Qed.
End Crc.

Lemma crc32_table_ok : forall c, 0 <= c < 256 -> nth_error crc32_table (Z.to_nat c) = Some (crc_step8 0xEDB88320 c).
Proof.
  assert (H : sweep 256 (fun c => match nth_error crc32_table (Z.to_nat c) with Some x => x =? crc_step8 0xEDB88320 c | None => false end) = true)
    by (vm_compute; reflexivity).
  intros c Hc. apply (sweep_ok _ _ H) in Hc. destruct (nth_error crc32_table (Z.to_nat c)); [|easy]. apply Z.eqb_eq in Hc. now subst.
Qed.
Lemma crc64_table_ok : forall c, 0 <= c < 256 -> nth_error crc64_table (Z.to_nat c) = Some (crc_step8 0x95AC9329AC4BC9B5 c).
Proof.
  assert (H : sweep 256 (fun c => match nth_error crc64_table (Z.to_nat c) with Some x => x =? crc_step8 0x95AC9329AC4BC9B5 c | None => false end) = true)
    by (vm_compute; reflexivity).
  intros c Hc. apply (sweep_ok _ _ H) in Hc. destruct (nth_error crc64_table (Z.to_nat c)); [|easy]. apply Z.eqb_eq in Hc. now subst.
Qed.
