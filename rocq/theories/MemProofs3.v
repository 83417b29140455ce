From Verif Require Import Base Mem MemSpec Bits BitsSpec BitsProofs MemProofs.

Local Arguments Z.of_nat : simpl never.
Local Arguments Z.mul : simpl never.
Local Arguments Z.add : simpl never.
Local Arguments Z.sub : simpl never.
Local Arguments Z.pow : simpl never.
Local Arguments Z.modulo : simpl never.
Local Arguments Z.div : simpl never.

(** ** memcompare *)
Lemma memcompare_loop_ok m k : forall a b, accessible m a (Z.of_nat k) -> accessible m b (Z.of_nat k) ->
  exists r, memcompare_loop m a b k = Some r /\ lex_result m a b (Z.of_nat k) r /\ -256 < r < 256.
Proof.
  induction k; intros a b Aa Ab.
  - exists 0. simpl. split; [reflexivity|]. split; [|lia]. left. split; [reflexivity|]. intros; lia.
  - destruct (Aa a) as (x & Hx & Bx); [lia|]. destruct (Ab b) as (y & Hy & By); [lia|].
    simpl. unfold load8. rewrite Hx, Hy. simpl. unfold byte in *.
    destruct (Z.eqb_spec (x - y) 0) as [E|N]; simpl.
    + destruct (IHk (a+1) (b+1)) as (r & Hr & L & B).
      { intros z Hz. apply Aa. lia. } { intros z Hz. apply Ab. lia. }
      exists r. split; [assumption|]. split; [|assumption]. destruct L as [(R0 & L)|(j & u & v & Hj & L & Hu & Hv & Hn & S)].
      * left. split; [assumption|]. intros i Hi. destruct (Z.eq_dec i 0) as [->|].
        -- rewrite !Z.add_0_r, Hx, Hy. f_equal. lia.
        -- specialize (L (i-1) ltac:(lia)). replace (a + 1 + (i-1)) with (a+i) in L by lia.
           replace (b + 1 + (i-1)) with (b+i) in L by lia. assumption.
      * right. exists (j+1), u, v. split; [lia|]. split.
        -- intros i Hi. destruct (Z.eq_dec i 0) as [->|].
           ++ rewrite !Z.add_0_r, Hx, Hy. f_equal. lia.
           ++ specialize (L (i-1) ltac:(lia)). replace (a + 1 + (i-1)) with (a+i) in L by lia.
              replace (b + 1 + (i-1)) with (b+i) in L by lia. assumption.
        -- replace (a + (j+1)) with (a+1+j) by lia. replace (b+(j+1)) with (b+1+j) by lia. tauto.
    + exists (x - y). split; [reflexivity|]. split; [|lia]. right. exists 0, x, y. rewrite !Z.add_0_r.
      split; [lia|]. split; [intros; lia|]. repeat split; try assumption; lia.
Qed.

Lemma memcompare_correct m a b n : a <> 0 -> b <> 0 -> 0 <= n -> accessible m a n -> accessible m b n ->
  exists r, memcompare m a b n = Some r /\ lex_result m a b n r /\ -256 < r < 256.
Proof.
  intros Ha Hb Hn Aa Ab. unfold memcompare.
  destruct (Z.eqb_spec a 0); [lia|]. destruct (Z.eqb_spec b 0); [lia|]. simpl.
  destruct (Z.ltb_spec n 0); [lia|].
  pose proof (memcompare_loop_ok m (Z.to_nat n) a b) as H1. rewrite Z2Nat.id in H1 by lia. auto.
Qed.

(** ** memswap *)

Lemma swap_split m i j a b m1 m2 :
  0 <= a -> 0 <= b -> disjoint_ranges i j (a+b) ->
  is_swap m i j a m1 -> is_swap m1 (i+a) (j+a) b m2 -> is_swap m i j (a+b) m2.
Proof.
  intros Ha Hb D [S1 T1] [S2 T2]. unfold disjoint_ranges in D. split.
  - intros k Hk. destruct (Z.lt_ge_cases k a).
    + rewrite !T2 by lia. apply S1. lia.
    + replace (i + k) with (i + a + (k-a)) by lia. replace (j + k) with (j + a + (k-a)) by lia.
      destruct (S2 (k-a) ltac:(lia)) as [-> ->]. rewrite !T1 by lia. split; reflexivity.
  - intros x Hx Hy. rewrite T2 by lia. apply T1; lia.
Qed.

Lemma swap_acc m i j n m' a k : is_swap m i j n m' -> accessible m i n -> accessible m j n ->
  accessible m a k -> accessible m' a k.
Proof.
  intros [S T] Ai Aj A x Hx.
  destruct (Z_le_dec i x); [destruct (Z_lt_dec x (i+n))|].
  - replace x with (i + (x-i)) by lia. rewrite (proj1 (S (x-i) ltac:(lia))). apply Aj. lia.
  - destruct (Z_le_dec j x); [destruct (Z_lt_dec x (j+n))|].
    + replace x with (j + (x-j)) by lia. rewrite (proj2 (S (x-j) ltac:(lia))). apply Ai. lia.
    + rewrite T by lia. apply A; assumption.
    + rewrite T by lia. apply A; assumption.
  - destruct (Z_le_dec j x); [destruct (Z_lt_dec x (j+n))|].
    + replace x with (j + (x-j)) by lia. rewrite (proj2 (S (x-j) ltac:(lia))). apply Ai. lia.
    + rewrite T by lia. apply A; assumption.
    + rewrite T by lia. apply A; assumption.
Qed.

Lemma swap_word_ok m i j k : disjoint_ranges i j (Z.of_nat k) ->
  accessible m i (Z.of_nat k) -> accessible m j (Z.of_nat k) ->
  exists m', swap_word m i j k = Some m' /\ is_swap m i j (Z.of_nat k) m'.
Proof.
  intros D Ai Aj. unfold swap_word, disjoint_ranges in *.
  destruct (loadn_ok m k i Ai) as (x & Hx & _). destruct (loadn_ok m k j Aj) as (y & Hy & _).
  rewrite Hx; simpl. rewrite Hy; simpl.
  destruct (store_loaded m k j y m i Aj Hy) as (m1 & E1 & P1 & Q1). { intros z Hz. apply (acc_some m i _ z Ai Hz). }
  rewrite E1; simpl.
  destruct (store_loaded m k i x m1 j Ai Hx) as (m2 & E2 & P2 & Q2).
  { intros z Hz. rewrite Q1 by lia. apply (acc_some m j _ z Aj Hz). }
  exists m2. split; [assumption|]. split.
  - intros z Hz. split.
    + rewrite Q2 by lia. apply P1. assumption.
    + apply P2. assumption.
  - intros z Hz1 Hz2. rewrite Q2 by assumption. apply Q1. assumption.
Qed.

Lemma swap_bytes_ok k : forall m i j, disjoint_ranges i j (Z.of_nat k) ->
  accessible m i (Z.of_nat k) -> accessible m j (Z.of_nat k) ->
  exists m', swap_bytes m i j k = Some m' /\ is_swap m i j (Z.of_nat k) m'.
Proof.
  induction k; intros m i j D Ai Aj.
  - exists m. simpl. split; [reflexivity|]. split; intros; [lia|reflexivity].
  - unfold disjoint_ranges in D.
    destruct (Ai i) as (x & Hx & Bx); [lia|]. destruct (Aj j) as (y & Hy & By); [lia|].
    simpl. unfold load8. rewrite Hx, Hy. simpl. unfold byte in *.
    destruct (store8_ok m i y) as (m1 & E1 & M1); [congruence|]. rewrite E1; simpl.
    destruct (store8_ok m1 j x) as (m2 & E2 & M2). { rewrite M1. destruct (j =? i); congruence. }
    rewrite E2; simpl.
    assert (S1: is_swap m i j 1 m2).
    { split.
      - intros z Hz. replace z with 0 by lia. rewrite !Z.add_0_r. rewrite !M2, !Z.eqb_refl, M1, Z.eqb_refl.
        destruct (Z.eqb_spec i j); [lia|]. rewrite Hx, Hy. split; f_equal; apply Z.mod_small; lia.
      - intros z Hz1 Hz2. rewrite M2. destruct (Z.eqb_spec z j); [lia|]. rewrite M1. destruct (Z.eqb_spec z i); [lia|reflexivity]. }
    assert (Ai1: accessible m i 1) by (intros z Hz; apply Ai; lia).
    assert (Aj1: accessible m j 1) by (intros z Hz; apply Aj; lia).
    destruct (IHk m2 (i+1) (j+1)) as (m3 & E3 & S3).
    + unfold disjoint_ranges. lia.
    + apply (swap_acc m i j 1 m2 _ _ S1 Ai1 Aj1). intros z Hz. apply Ai. lia.
    + apply (swap_acc m i j 1 m2 _ _ S1 Ai1 Aj1). intros z Hz. apply Aj. lia.
    + exists m3. split; [assumption|]. replace (Z.of_nat (S k)) with (1 + Z.of_nat k) by lia.
      eapply swap_split; try eassumption; try lia. unfold disjoint_ranges. lia.
Qed.

Lemma swap_buffer_ok m i j n : i <> 0 -> 0 <= n -> disjoint_ranges i j n -> accessible m i n -> accessible m j n ->
  exists m', swap_buffer m i j n = Some m' /\ is_swap m i j n m'.
Proof.
  intros Hi Hn D Ai Aj. unfold swap_buffer.
  destruct (load_range_ok m (Z.to_nat n) i) as (l & Hl & Ll & Bl & Nl); [rewrite Z2Nat.id by lia; assumption|].
  rewrite Hl; simpl.
  destruct (memcopy_correct m i j n Hi Hn D Ai Aj) as (m1 & E1 & C1 & C2). rewrite E1; simpl.
  unfold disjoint_ranges in D.
  destruct (store_range_ok l m1 j Bl) as (m2 & E2 & P2 & Q2).
  { rewrite Ll, Z2Nat.id by lia. intros x Hx. rewrite C2 by lia. apply (acc_some m j _ x Aj Hx). }
  rewrite Ll, Z2Nat.id in Q2 by lia.
  exists m2. split; [assumption|]. split.
  - intros k Hk. split.
    + rewrite Q2 by lia. apply C1. assumption.
    + specialize (P2 (Z.to_nat k)). specialize (Nl (Z.to_nat k)). rewrite Z2Nat.id in P2, Nl by lia.
      rewrite P2, Nl by lia. reflexivity.
  - intros x Hx1 Hx2. rewrite Q2 by assumption. apply C2. assumption.
Qed.

Lemma swap_chunks_ok fuel : forall m i j n, n <= 256 * Z.of_nat fuel + 256 -> 0 < i -> 0 < j -> 0 <= n ->
  disjoint_ranges i j n -> accessible m i n -> accessible m j n ->
  exists m', swap_chunks fuel m i j n = Some m' /\ is_swap m i j n m'.
Proof.
  induction fuel; intros m i j n Hf Hi Hj Hn D Ai Aj; cbn [swap_chunks]; destruct (Z.ltb_spec 256 n); try lia;
    try (apply swap_buffer_ok; [lia|assumption..]).
  unfold disjoint_ranges in D.
  assert (Ai1: accessible m i 256) by (intros z Hz; apply Ai; lia).
  assert (Aj1: accessible m j 256) by (intros z Hz; apply Aj; lia).
  destruct (swap_buffer_ok m i j 256) as (m1 & E1 & S1); try assumption; try lia; [unfold disjoint_ranges; lia|].
  rewrite E1. unfold obind at 1.
  destruct (IHfuel m1 (i+256) (j+256) (n-256)) as (m2 & E2 & S2); try lia.
  - unfold disjoint_ranges; lia.
  - apply (swap_acc m i j 256 m1 _ _ S1 Ai1 Aj1). intros z Hz. apply Ai. lia.
  - apply (swap_acc m i j 256 m1 _ _ S1 Ai1 Aj1). intros z Hz. apply Aj. lia.
  - exists m2. split; [assumption|]. replace n with (256 + (n-256)) by lia.
    eapply swap_split; try eassumption; try lia. unfold disjoint_ranges; lia.
Qed.

Lemma memswap_correct m i j n : 0 < i -> 0 < j -> 0 <= n -> disjoint_ranges i j n ->
  accessible m i n -> accessible m j n -> exists m', memswap m i j n = Some m' /\ is_swap m i j n m'.
Proof.
  intros Hi Hj Hn D Ai Aj. unfold memswap.
  destruct (Z.eqb_spec i j) as [->|].
  { unfold disjoint_ranges in D. exists m. split; [reflexivity|]. split; intros; [lia|reflexivity]. }
  destruct (Z.eqb_spec n 4) as [->|]; [apply (swap_word_ok m i j 4); assumption|].
  destruct (Z.eqb_spec n 8) as [->|]; [apply (swap_word_ok m i j 8); assumption|].
  destruct (Z.ltb_spec n 8).
  - destruct (Z.ltb_spec n 0); [lia|].
    pose proof (swap_bytes_ok (Z.to_nat n) m i j) as W. rewrite Z2Nat.id in W by lia. auto.
  - apply swap_chunks_ok; try assumption. lia.
Qed.

(** ** memchr *)

Fixpoint ones_k (k : nat) : Z := match k with O => 0 | S k' => 1 + 256 * ones_k k' end.

Lemma testbit7 b : 0 <= b < 256 -> Z.testbit b 7 = (128 <=? b).
Proof.
  intros Hb.
  destruct (Z.leb_spec 128 b).
  - rewrite Z.testbit_true by lia. change (2^7) with 128. replace (b / 128) with 1; [reflexivity|].
    apply (Z.div_unique _ _ _ (b - 128)); lia.
  - rewrite Z.testbit_false by lia. change (2^7) with 128. rewrite Z.div_small by lia. reflexivity.
Qed.

Lemma bit7_low b r : 0 <= b < 256 -> Z.testbit (b + 256 * r) 7 = Z.testbit b 7.
Proof.
  intros Hb. rewrite <- (Z.mod_pow2_bits_low (b + 256 * r) 8) by lia. change (2^8) with 256.
  replace ((b + 256 * r) mod 256) with b; [reflexivity|]. apply (Z.mod_unique _ _ r); lia.
Qed.
Lemma bit_high b r n : 0 <= b < 256 -> 0 <= n -> Z.testbit (b + 256 * r) (n + 8) = Z.testbit r n.
Proof.
  intros Hb Hn. rewrite <- Z.div_pow2_bits by lia. change (2^8) with 256.
  replace ((b + 256 * r) / 256) with r; [reflexivity|]. apply (Z.div_unique _ _ _ b); lia.
Qed.

(** Detection works on every word: some byte is zero iff the mask is non-zero. *)
Lemma detect k : forall x, 0 <= x < 2^(8 * Z.of_nat k) ->
  ((exists i, 0 <= i < Z.of_nat k /\ Z.testbit (x - ones_k k) (8*i+7) = true /\ Z.testbit x (8*i+7) = false)
   <-> (exists i, 0 <= i < Z.of_nat k /\ byte_at x i = 0)).
Proof.
  induction k; intros x Hx.
  - split; intros (i & Hi & _); lia.
  - set (b := x mod 256). set (r := x / 256).
    assert (Hb: 0 <= b < 256) by (apply Z.mod_pos_bound; lia).
    assert (Ex: x = b + 256 * r) by (unfold b, r; pose proof (Z.div_mod x 256); lia).
    assert (Hr: 0 <= r < 2^(8 * Z.of_nat k)).
    { unfold r. replace (8 * Z.of_nat (S k)) with (8 + 8 * Z.of_nat k) in Hx by lia.
      rewrite Z.pow_add_r in Hx by lia. change (2^8) with 256 in Hx.
      split; [apply Z.div_pos; lia|apply Z.div_lt_upper_bound; lia]. }
    specialize (IHk r Hr).
    assert (B0: byte_at x 0 = b) by (unfold byte_at, b; rewrite Z.mul_0_r, Z.pow_0_r, Z.div_1_r; reflexivity).
    assert (BS: forall i, 0 <= i -> byte_at x (i+1) = byte_at r i).
    { intros i Hi. unfold byte_at, r. replace (8*(i+1)) with (8 + 8*i) by lia. rewrite Z.pow_add_r by lia.
      rewrite <- Z.div_div by lia. reflexivity. }
    destruct (Z.eq_dec b 0) as [Z0|NZ].
    + split; intros _.
      * exists 0. split; [lia|]. rewrite B0. assumption.
      * exists 0. split; [lia|]. rewrite Ex, Z0. split.
        -- simpl ones_k. replace (0 + 256 * r - (1 + 256 * ones_k k)) with (255 + 256 * (r - ones_k k - 1)) by lia.
           change (8*0+7) with 7. rewrite bit7_low by lia. reflexivity.
        -- change (8*0+7) with 7. rewrite bit7_low by lia. reflexivity.
    + assert (E2: x - ones_k (S k) = (b - 1) + 256 * (r - ones_k k)) by (simpl ones_k; lia).
      rewrite E2. split.
      * intros (i & Hi & T1 & T2). destruct (Z.eq_dec i 0) as [->|].
        -- exfalso. change (8*0+7) with 7 in *. rewrite Ex in T2. rewrite bit7_low in T1, T2 by lia.
           rewrite testbit7 in T1, T2 by lia. apply Z.leb_le in T1. apply Z.leb_gt in T2. lia.
        -- replace (8*i+7) with (8*(i-1)+7+8) in T1, T2 by lia. rewrite Ex in T2.
           rewrite bit_high in T1, T2 by lia.
           destruct (proj1 IHk) as (i' & Hi' & Hz). { exists (i-1). repeat split; try lia; assumption. }
           exists (i'+1). split; [lia|]. rewrite BS by lia. assumption.
      * intros (i & Hi & Hz). destruct (Z.eq_dec i 0) as [->|].
        -- exfalso. congruence.
        -- replace i with (i - 1 + 1) in Hz by lia. rewrite BS in Hz by lia.
           destruct (proj2 IHk) as (i' & Hi' & T1 & T2). { exists (i-1). split; [lia|assumption]. }
           exists (i'+1). split; [lia|]. replace (8*(i'+1)+7) with (8*i'+7+8) by lia.
           rewrite Ex. rewrite !bit_high by lia. split; assumption.
Qed.

Lemma highs_bits n : 0 <= n -> Z.testbit HIGHS n = true <-> exists i, 0 <= i < 8 /\ n = 8*i+7.
Proof.
  intros Hn. split.
  - intros H. destruct (Z.lt_ge_cases n 64).
    + pose proof (Z.div_mod n 8 ltac:(lia)). pose proof (Z.mod_pos_bound n 8 ltac:(lia)).
      exists (n/8). split; [Z.div_mod_to_equations; lia|].
      assert (A: sweep 64 (fun i => negb (Z.testbit HIGHS i) || (i mod 8 =? 7)) = true)
        by (vm_compute; reflexivity).
      pose proof (sweep_ok _ _ A n ltac:(lia)) as A'. cbv beta in A'. rewrite H in A'. apply Z.eqb_eq in A'. lia.
    + rewrite (high_bits_zero HIGHS 64) in H by (lia || (split; [vm_compute; discriminate|reflexivity])). discriminate.
  - intros (i & Hi & ->). assert (E: i=0\/i=1\/i=2\/i=3\/i=4\/i=5\/i=6\/i=7) by lia.
    destruct E as [->|[->|[->|[->|[->|[->|[->| ->]]]]]]]; reflexivity.
Qed.

Lemma has_zero_correct x : 0 <= x < 2^64 -> (has_zero x = true <-> exists i, 0 <= i < 8 /\ byte_at x i = 0).
Proof.
  intros Hx. rewrite <- (detect 8 x Hx). unfold has_zero. rewrite negb_true_iff, Z.eqb_neq.
  assert (B: forall i, 0 <= i < 8 -> Z.testbit (Z.land (Z.land (u64 (x - ONES)) (u64 (Z.lnot x))) HIGHS) (8*i+7) =
     Z.testbit (x - ones_k 8) (8*i+7) && negb (Z.testbit x (8*i+7))).
  { intros i Hi. rewrite !Z.land_spec. rewrite (proj2 (highs_bits (8*i+7) ltac:(lia))) by (exists i; split; [lia|reflexivity]).
    unfold u64. rewrite !Z.mod_pow2_bits_low by lia. rewrite Z.lnot_spec by lia. rewrite andb_true_r. reflexivity. }
  split.
  - intros H. destruct (Z.eq_dec (Z.land (Z.land (u64 (x - ONES)) (u64 (Z.lnot x))) HIGHS) 0) as [E|N]; [contradiction|].
    set (w := Z.land (Z.land (u64 (x - ONES)) (u64 (Z.lnot x))) HIGHS) in *.
    assert (W: 0 <= w) by (apply Z.land_nonneg; right; vm_compute; discriminate).
    pose proof (Z.bit_log2 w ltac:(lia)) as L. pose proof (Z.log2_nonneg w) as L0.
    assert (LH: Z.testbit HIGHS (Z.log2 w) = true).
    { unfold w in L at 1. rewrite Z.land_spec in L. apply andb_true_iff in L. tauto. }
    apply highs_bits in LH; [|assumption]. destruct LH as (i & Hi & Ei). rewrite Ei in L.
    rewrite (B i Hi) in L. apply andb_true_iff in L. destruct L as [L1 L2].
    exists i. repeat split; try lia; [assumption|]. apply negb_true_iff. assumption.
  - intros (i & Hi & T1 & T2) E. specialize (B i Hi). rewrite E, Z.bits_0, T1, T2 in B. discriminate.
Qed.

Lemma loadn_bytes m k : forall a w, accessible m a (Z.of_nat k) -> loadn m a k = Some w ->
  forall i, 0 <= i < Z.of_nat k -> m (a + i) = Some (byte_at w i).
Proof.
  induction k; intros a w A L i Hi; [lia|].
  destruct (A a) as (b & Hb & Bb); [lia|]. simpl in L. unfold load8 in L. rewrite Hb in L. simpl in L.
  destruct (loadn m (a+1) k) as [r|] eqn:Er; [|discriminate]. simpl in L. injection L as <-. unfold byte in Bb.
  assert (Q: (b + 256 * r) / 256 = r) by (symmetry; apply (Z.div_unique _ _ _ b); lia).
  destruct (Z.eq_dec i 0) as [->|].
  - rewrite Z.add_0_r, Hb. f_equal. unfold byte_at. rewrite Z.mul_0_r, Z.pow_0_r, Z.div_1_r.
    apply (Z.mod_unique _ _ r); change (2^8) with 256; lia.
  - replace (a + i) with (a + 1 + (i-1)) by lia. rewrite (IHk (a+1) r); try lia.
    + f_equal. unfold byte_at. replace (8*i) with (8 + 8*(i-1)) by lia. rewrite Z.pow_add_r by lia.
      rewrite <- Z.div_div by lia. change (2^8) with 256 at 2. rewrite Q. reflexivity.
    + intros x Hx. apply A. lia.
    + exact Er.
Qed.

Lemma ones_mul_byte c i : byte c -> 0 <= i < 8 -> byte_at (u64 (ONES * c)) i = c.
Proof.
  intros Hc Hi. unfold byte in Hc. unfold u64. change ONES with (ones_k 8). simpl ones_k.
  rewrite Z.mod_small by lia. unfold byte_at. change (2^8) with 256.
  assert (E: i=0\/i=1\/i=2\/i=3\/i=4\/i=5\/i=6\/i=7) by lia.
  destruct E as [->|[->|[->|[->|[->|[->|[->| ->]]]]]]]; simpl Z.mul;
   match goal with |- (_ / ?p) mod _ = _ => let v := eval vm_compute in p in change p with v end;
   Z.div_mod_to_equations; lia.
Qed.

Lemma byte_at_lxor x y i : 0 <= i -> byte_at (Z.lxor x y) i = Z.lxor (byte_at x i) (byte_at y i).
Proof.
  intros Hi. apply Z.bits_inj'. intros n Hn. rewrite Z.lxor_spec. destruct (Z.lt_ge_cases n 8).
  - rewrite !byte_at_bits by lia. apply Z.lxor_spec.
  - unfold byte_at. rewrite !Z.mod_pow2_bits_high by lia. reflexivity.
Qed.

Lemma mc_head_ok fuel : forall m s c n, byte c -> 0 <= n -> n <= Z.of_nat fuel -> accessible m s n ->
  exists s' n', mc_head fuel m s c n = Some (s', n') /\ s <= s' /\ 0 <= n' /\ s' + n' = s + n /\
    (forall x, s <= x < s' -> m x <> Some c) /\ (n' = 0 \/ m s' = Some c \/ Z.land s' 7 = 0).
Proof.
  induction fuel; intros m s c n Hc Hn Hf A; cbn [mc_head].
  - destruct (Z.eqb_spec (Z.land s 7) 0); [exists s, n; repeat split; try lia; intros; lia|].
    destruct (Z.eqb_spec n 0); [|lia]. exists s, n. repeat split; try lia; intros; lia.
  - destruct (Z.eqb_spec (Z.land s 7) 0); [exists s, n; repeat split; try lia; intros; lia|].
    destruct (Z.eqb_spec n 0); [exists s, n; repeat split; try lia; intros; lia|].
    destruct (A s) as (b & Hb & Bb); [lia|]. unfold load8. rewrite Hb. unfold obind at 1.
    destruct (Z.eqb_spec b c) as [->|Nb]; [exists s, n; repeat split; try lia; intros; try lia; tauto|].
    destruct (IHfuel m (s+1) c (n-1)) as (s' & n' & E & H1 & H2 & H3 & H4 & H5); try assumption; try lia.
    { intros x Hx. apply A. lia. }
    exists s', n'. repeat split; try assumption; try lia. intros x Hx. destruct (Z.eq_dec x s) as [->|]; [congruence|].
    apply H4. lia.
Qed.

Lemma mc_tail_ok fuel : forall m s c n, byte c -> 0 <= n -> n <= Z.of_nat fuel -> accessible m s n ->
  exists s' n', mc_tail fuel m s c n = Some (s', n') /\ s <= s' /\ 0 <= n' /\ s' + n' = s + n /\
    (forall x, s <= x < s' -> m x <> Some c) /\ (n' = 0 \/ m s' = Some c).
Proof.
  induction fuel; intros m s c n Hc Hn Hf A; cbn [mc_tail].
  - destruct (Z.eqb_spec n 0); [|lia]. exists s, n. repeat split; try lia; intros; lia.
  - destruct (Z.eqb_spec n 0); [exists s, n; repeat split; try lia; intros; lia|].
    destruct (A s) as (b & Hb & Bb); [lia|]. unfold load8. rewrite Hb. unfold obind at 1.
    destruct (Z.eqb_spec b c) as [->|Nb]; [exists s, n; repeat split; try lia; intros; try lia; tauto|].
    destruct (IHfuel m (s+1) c (n-1)) as (s' & n' & E & H1 & H2 & H3 & H4 & H5); try assumption; try lia.
    { intros x Hx. apply A. lia. }
    exists s', n'. repeat split; try assumption; try lia. intros x Hx. destruct (Z.eq_dec x s) as [->|]; [congruence|].
    apply H4. lia.
Qed.

Lemma mc_words_ok fuel : forall m s c n, byte c -> 0 <= n -> n <= Z.of_nat fuel -> accessible m s n -> s mod 8 = 0 ->
  exists s' n', mc_words fuel m s (u64 (ONES * c)) n = Some (s', n') /\ s <= s' /\ 0 <= n' /\ s' + n' = s + n /\
    (forall x, s <= x < s' -> m x <> Some c).
Proof.
  induction fuel; intros m s c n Hc Hn Hf A H8; cbn [mc_words].
  - destruct (Z.leb_spec 8 n); [lia|]. exists s, n. repeat split; try lia; intros; lia.
  - destruct (Z.leb_spec 8 n); [|exists s, n; repeat split; try lia; intros; lia].
    assert (A8: accessible m s (Z.of_nat 8)) by (intros x Hx; apply A; lia).
    destruct (loadn_ok m 8 s A8) as (w & Hw & Bw). unfold load64a. rewrite H8, Z.eqb_refl, Hw. unfold obind at 1.
    set (k := u64 (ONES * c)).
    assert (Bx: 0 <= Z.lxor w k < 2^64).
    { assert (Bk: 0 <= k < 2^64) by (apply Z.mod_pos_bound; lia).
      assert (E: Z.lxor w k = Z.lxor w k mod 2^64).
      { apply Z.bits_inj'. intros z Hz. destruct (Z.lt_ge_cases z 64).
        - rewrite Z.mod_pow2_bits_low by lia. reflexivity.
        - rewrite Z.mod_pow2_bits_high by lia. rewrite Z.lxor_spec, (high_bits_zero w 64), (high_bits_zero k 64) by (try lia; exact Bw). reflexivity. }
      rewrite E. apply Z.mod_pos_bound. lia. }
    destruct (has_zero (Z.lxor w k)) eqn:Z0; [exists s, n; repeat split; try lia; intros; lia|].
    assert (NC: forall x, s <= x < s + 8 -> m x <> Some c).
    { intros x Hx Hm. assert (has_zero (Z.lxor w k) = true); [|congruence].
      apply has_zero_correct; [assumption|]. exists (x - s). split; [lia|].
      rewrite byte_at_lxor by lia. unfold k. rewrite ones_mul_byte by (try assumption; lia).
      pose proof (loadn_bytes m 8 s w A8 Hw (x-s) ltac:(lia)) as L. replace (s + (x - s)) with x in L by lia.
      rewrite Hm in L. injection L as <-. apply Z.lxor_nilpotent. }
    destruct (IHfuel m (s+8) c (n-8)) as (s' & n' & E & H1 & H2 & H3 & H4); try assumption; try lia.
    { intros x Hx. apply A. lia. }
    { replace (s+8) with (s + 1*8) by lia. rewrite Z.mod_add by lia. assumption. }
    exists s', n'. repeat split; try assumption; try lia. intros x Hx. destruct (Z.lt_ge_cases x (s+8)); [apply NC|apply H4]; lia.
Qed.

Lemma memchr_correct m p c n : byte c -> 0 <= n -> accessible m p n ->
  exists r, memchr m p c n = Some r /\ first_at m p n c r.
Proof.
  intros Hc Hn A. unfold memchr. cbv zeta.
  destruct (mc_head_ok (Z.to_nat n) m p c n Hc Hn ltac:(lia) A) as (s & n1 & E & H1 & H2 & H3 & H4 & H5).
  rewrite E. unfold obind at 1.
  destruct (Z.eqb_spec n1 0) as [Z1|NZ].
  - simpl. rewrite Z1. simpl. exists None. split; [reflexivity|]. intros x Hx. apply H4. lia.
  - destruct (A s) as (b & Hb & Bb); [lia|]. unfold load8. rewrite Hb. unfold obind at 2.
    destruct (Z.eqb_spec b c) as [->|Nb].
    + simpl. destruct (Z.eqb_spec n1 0); [lia|]. exists (Some s). split; [reflexivity|]. repeat split; try lia; assumption.
    + assert (S8: s mod 8 = 0).
      { destruct H5 as [?|[?|H5]]; [lia|congruence|]. change 7 with (Z.ones 3) in H5. rewrite Z.land_ones in H5 by lia. assumption. }
      destruct (mc_words_ok (Z.to_nat n) m s c n1) as (s2 & n2 & E2 & I1 & I2 & I3 & I4); try assumption; try lia.
      { intros x Hx. apply A. lia. }
      rewrite E2. unfold obind at 2.
      destruct (mc_tail_ok (Z.to_nat n) m s2 c n2) as (s3 & n3 & E3 & J1 & J2 & J3 & J4 & J5); try assumption; try lia.
      { intros x Hx. apply A. lia. }
      rewrite E3. simpl.
      assert (NC: forall x, p <= x < s3 -> m x <> Some c).
      { intros x Hx. destruct (Z.lt_ge_cases x s); [apply H4; lia|]. destruct (Z.lt_ge_cases x s2); [apply I4; lia|apply J4; lia]. }
      destruct (Z.eqb_spec n3 0).
      * exists None. split; [reflexivity|]. intros x Hx. apply NC. lia.
      * exists (Some s3). split; [reflexivity|]. repeat split; try lia; [|assumption]. destruct J5; [lia|assumption].
Qed.

Lemma memrchr_loop_ok m p c k : accessible m p (Z.of_nat k) ->
  exists r, memrchr_loop m p c k = Some r /\ last_at m p (Z.of_nat k) c r.
Proof.
  induction k; intros A; cbn [memrchr_loop].
  - exists None. split; [reflexivity|]. intros x Hx. lia.
  - destruct (A (p + Z.of_nat k)) as (b & Hb & Bb); [lia|]. unfold load8. rewrite Hb. simpl.
    destruct (Z.eqb_spec b c) as [->|N].
    + eexists. split; [reflexivity|]. split; [lia|]. split; [assumption|]. intros x Hx. lia.
    + destruct IHk as (r & E & L). { intros x Hx. apply A. lia. }
      exists r. split; [assumption|]. destruct r as [q|]; simpl in *.
      * destruct L as (L1 & L2 & L3). split; [lia|]. split; [assumption|]. intros x Hx.
        destruct (Z.eq_dec x (p + Z.of_nat k)) as [->|]; [congruence|apply L3; lia].
      * intros x Hx. destruct (Z.eq_dec x (p + Z.of_nat k)) as [->|]; [congruence|apply L; lia].
Qed.
Lemma memrchr_correct m p c n : 0 <= n -> accessible m p n -> exists r, memrchr m p c n = Some r /\ last_at m p n c r.
Proof.
  intros Hn A. unfold memrchr. destruct (Z.ltb_spec n 0); [lia|].
  pose proof (memrchr_loop_ok m p c (Z.to_nat n)) as H1. rewrite Z2Nat.id in H1 by lia. auto.
Qed.
