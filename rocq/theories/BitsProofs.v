From Verif Require Import Base Bits BitsSpec.

Lemma is_power_of_two_correct x :
  is_power_of_two x = true <-> exists k, 0 <= k /\ x = 2^k.
Proof.
  unfold is_power_of_two. split.
  - destruct (Z.leb_spec x 0); [discriminate|]. intros E. apply Z.eqb_eq in E.
    exists (Z.log2 x). split; [apply Z.log2_nonneg|].
    destruct (Z.log2_spec x) as [L U]; [lia|].
    destruct (Z.eq_dec x (2^Z.log2 x)) as [|N]; [assumption|exfalso].
    assert (B: Z.testbit (Z.land x (x-1)) (Z.log2 x) = true).
    { rewrite Z.land_spec, Z.bit_log2 by lia. simpl.
      assert (LE: Z.log2 (x-1) = Z.log2 x).
      { apply Z.log2_unique; [apply Z.log2_nonneg|]. lia. }
      rewrite <- LE at 1. apply Z.bit_log2. pose proof (Z.pow_pos_nonneg 2 (Z.log2 x)).
      pose proof (Z.log2_nonneg x). lia. }
    rewrite E, Z.bits_0 in B. discriminate.
  - intros (k & Hk & ->). pose proof (Z.pow_pos_nonneg 2 k ltac:(lia) Hk).
    destruct (Z.leb_spec (2^k) 0); [lia|]. apply Z.eqb_eq.
    replace (2^k-1) with (Z.ones k) by (rewrite Z.ones_equiv; lia).
    rewrite Z.land_ones by lia. apply Z.mod_same. lia.
Qed.

Lemma align_mask p k : 0 <= k <= 63 -> 0 <= p -> p + (2^k - 1) < 2^64 ->
  Z.land (u64 (p + (2^k - 1))) (u64 (Z.lnot (2^k - 1))) = 2^k * ((p + (2^k-1)) / 2^k).
Proof.
  intros Hk Hp Hb. set (v := p + (2^k-1)) in *.
  assert (Hp2: 0 < 2^k) by (apply Z.pow_pos_nonneg; lia).
  unfold u64. rewrite (Z.mod_small v) by lia.
  rewrite <- !Z.land_ones by lia.
  rewrite (Z.land_comm (Z.lnot _)), Z.land_assoc.
  rewrite (Z.land_ones v) by lia. rewrite (Z.mod_small v) by lia.
  replace (2^k - 1) with (Z.ones k) by (rewrite Z.ones_equiv; lia).
  rewrite <- Z.ldiff_land, Z.ldiff_ones_r by lia.
  rewrite Z.shiftl_mul_pow2, Z.shiftr_div_pow2 by lia. lia.
Qed.

Lemma least_multiple_up a p : 0 < a -> least_multiple_from a p (a * ((p + (a-1)) / a)).
Proof.
  intros Ha. split; [eexists; reflexivity|]. split.
  - pose proof (Z.div_mod (p + (a-1)) a). pose proof (Z.mod_pos_bound (p+(a-1)) a). lia.
  - intros k Hk. apply Z.mul_le_mono_nonneg_l; [lia|].
    assert ((p + (a-1)) / a < k + 1); [|lia].
    apply Z.div_lt_upper_bound; lia.
Qed.

Lemma align_forward_correct p k : 0 <= k <= 62 -> 0 <= p -> p + (2^k - 1) < 2^64 ->
  exists r, align_forward p (2^k) = Some r /\ least_multiple_from (2^k) p r.
Proof.
  intros Hk Hp Hb. unfold align_forward.
  replace (is_power_of_two (2^k)) with true
    by (symmetry; apply is_power_of_two_correct; exists k; split; [lia|reflexivity]).
  eexists. split; [reflexivity|]. rewrite align_mask by lia.
  apply least_multiple_up. apply Z.pow_pos_nonneg; lia.
Qed.

Lemma align_forward_assert p a : ~ (exists k, 0 <= k /\ a = 2^k) -> align_forward p a = None.
Proof.
  intros H. unfold align_forward. destruct (is_power_of_two a) eqn:E; [|reflexivity].
  apply is_power_of_two_correct in E. contradiction.
Qed.

(** The common arithmetic core of the two integer versions. *)
Lemma up_gap v a : 0 < a -> (a - v mod a) mod a = a * ((v + (a-1)) / a) - v.
Proof.
  intros Ha. pose proof (Z.mod_pos_bound v a Ha). pose proof (Z.div_mod v a ltac:(lia)).
  destruct (Z.eq_dec (v mod a) 0) as [E|N].
  - rewrite E, Z.sub_0_r, Z.mod_same by lia.
    replace ((v + (a-1)) / a) with (v / a); [lia|].
    apply (Z.div_unique _ _ _ (a-1)); lia.
  - rewrite (Z.mod_small (a - v mod a)) by lia.
    replace ((v + (a-1)) / a) with (v / a + 1); [lia|].
    apply (Z.div_unique _ _ _ (v mod a - 1)); lia.
Qed.

Lemma rem_gap v a : 0 < a -> Z.rem (a - Z.rem v a) a = (a - v mod a) mod a.
Proof.
  intros Ha.
  destruct (Z.le_gt_cases 0 v).
  - rewrite (Z.rem_mod_nonneg v a) by lia. apply Z.rem_mod_nonneg; [|lia].
    pose proof (Z.mod_pos_bound v a Ha). lia.
  - assert (HB: -a < Z.rem v a <= 0).
    { pose proof (Z.rem_bound_abs v a ltac:(lia)).
      destruct (Z.eq_dec (Z.rem v a) 0) as [E|N]; [lia|].
      pose proof (Z.rem_sign_nz v a ltac:(lia) N). lia. }
    rewrite Z.rem_mod_nonneg by lia.
    pose proof (Z.quot_rem v a ltac:(lia)) as Q.
    rewrite Q at 2. rewrite (Z.add_comm (a * _)), (Z.mul_comm a), Z.mod_add by lia.
    rewrite <- (Zminus_mod_idemp_r a). reflexivity.
Qed.

Lemma align_forward_i64_correct v a : 0 < a -> in_i64 v -> in_i64 a ->
  in_i64 (a - Z.rem v a) -> in_i64 (v + (a - v mod a) mod a) ->
  exists r, align_forward_i64 v a = Some r /\ least_multiple_from a v r.
Proof.
  unfold in_i64. intros Ha Hv Haa Hd Hr. unfold align_forward_i64; cbv zeta.
  destruct (Z.eqb_spec a 0); [lia|].
  replace ((- 2^63 <=? a - Z.rem v a) && (a - Z.rem v a <? 2^63)) with true by
   (symmetry; apply andb_true_iff; split; [apply Z.leb_le|apply Z.ltb_lt]; lia).
  simpl negb. cbv iota. rewrite rem_gap by lia.
  replace ((- 2^63 <=? v + (a - v mod a) mod a) && (v + (a - v mod a) mod a <? 2^63)) with true by
   (symmetry; apply andb_true_iff; split; [apply Z.leb_le|apply Z.ltb_lt]; lia).
  eexists; split; [reflexivity|]. rewrite up_gap by lia.
  replace (v + (a * ((v + (a - 1)) / a) - v)) with (a * ((v + (a - 1)) / a)) by lia.
  apply least_multiple_up; lia.
Qed.

(** On the sizes the allocators pass (non-negative, result in range) the overflow
    checks succeed. *)
Lemma align_forward_i64_nonneg v a : 0 < a < 2^63 -> 0 <= v -> v + (a-1) < 2^63 ->
  align_forward_i64 v a = Some (a * ((v + (a-1)) / a)).
Proof.
  intros Ha Hv Hb. unfold align_forward_i64; cbv zeta.
  destruct (Z.eqb_spec a 0); [lia|].
  pose proof (Z.mod_pos_bound v a ltac:(lia)).
  rewrite rem_gap by lia. rewrite (Z.rem_mod_nonneg v a) by lia.
  replace ((- 2^63 <=? a - v mod a) && (a - v mod a <? 2^63)) with true by
   (symmetry; apply andb_true_iff; split; [apply Z.leb_le|apply Z.ltb_lt]; lia).
  simpl negb. cbv iota. rewrite up_gap by lia.
  pose proof (Z.div_mod (v + (a-1)) a ltac:(lia)). pose proof (Z.mod_pos_bound (v+(a-1)) a ltac:(lia)).
  replace (v + (a * ((v + (a - 1)) / a) - v)) with (a * ((v + (a - 1)) / a)) by lia.
  replace ((- 2^63 <=? _) && (_ <? 2^63)) with true; [reflexivity|].
  symmetry; apply andb_true_iff; split; [apply Z.leb_le|apply Z.ltb_lt]; lia.
Qed.

Lemma align_forward_u64_correct v a : 0 < a < 2^64 -> 0 <= v -> v + (a-1) < 2^64 ->
  exists r, align_forward_u64 v a = Some r /\ least_multiple_from a v r.
Proof.
  intros Ha Hv Hb. unfold align_forward_u64. destruct (Z.eqb_spec a 0); [lia|].
  eexists; split; [reflexivity|].
  pose proof (Z.mod_pos_bound v a ltac:(lia)).
  unfold u64. rewrite (Z.mod_small (a - v mod a)) by lia.
  rewrite up_gap by lia.
  pose proof (Z.div_mod (v + (a-1)) a ltac:(lia)). pose proof (Z.mod_pos_bound (v+(a-1)) a ltac:(lia)).
  replace (v + (a * ((v + (a - 1)) / a) - v)) with (a * ((v + (a - 1)) / a)) by lia.
  rewrite Z.mod_small by lia.
  apply least_multiple_up; lia.
Qed.

(** ** Byte swaps *)

Lemma byte_at_bits v i n : 0 <= i -> 0 <= n < 8 -> Z.testbit (byte_at v i) n = Z.testbit v (n + 8*i).
Proof.
  intros Hi Hn. unfold byte_at. rewrite Z.mod_pow2_bits_low by lia.
  rewrite Z.div_pow2_bits by lia. f_equal.
Qed.

Lemma byte_at_ext v w i j : 0 <= i -> 0 <= j ->
  (forall n, 0 <= n < 8 -> Z.testbit v (n + 8*i) = Z.testbit w (n + 8*j)) -> byte_at v i = byte_at w j.
Proof.
  intros Hi Hj H. apply Z.bits_inj'. intros n Hn. destruct (Z.lt_ge_cases n 8).
  - rewrite !byte_at_bits by lia. apply H. lia.
  - unfold byte_at. rewrite !Z.mod_pow2_bits_high by lia. reflexivity.
Qed.

Lemma enum8 (P : Z -> Prop) : P 0 -> P 1 -> P 2 -> P 3 -> P 4 -> P 5 -> P 6 -> P 7 ->
  forall n, 0 <= n < 8 -> P n.
Proof.
  intros. assert (n=0 \/ n=1 \/ n=2 \/ n=3 \/ n=4 \/ n=5 \/ n=6 \/ n=7) by lia.
  intuition; subst; assumption.
Qed.

Lemma high_bits_zero v w n : 0 <= v < 2^w -> 0 <= w <= n -> Z.testbit v n = false.
Proof.
  intros Hv Hn. rewrite <- (Z.mod_small v (2^w)) by assumption. apply Z.mod_pow2_bits_high. lia.
Qed.

Local Arguments Z.testbit : simpl never.
Local Arguments Z.shiftl : simpl never.
Local Arguments Z.shiftr : simpl never.
Local Arguments Z.land : simpl never.
Local Arguments Z.lor : simpl never.
Local Arguments Z.modulo : simpl never.
Local Arguments Z.pow : simpl never.

Ltac bits1 :=
  repeat first [ rewrite Z.mod_pow2_bits_low by lia | rewrite Z.lor_spec | rewrite Z.land_spec
               | rewrite Z.shiftr_spec by lia | rewrite Z.shiftl_spec by lia ];
  simpl Z.add; simpl Z.sub.

Ltac swap_case w Hv :=
  cbv beta; unfold u16, u32, u64; simpl Z.mul; simpl Z.sub; simpl Z.add; bits1;
  repeat match goal with
    | |- context [Z.testbit (Zpos ?p) ?n] =>
       let b := eval vm_compute in (Z.testbit (Zpos p) n) in
       change (Z.testbit (Zpos p) n) with b
    | |- context [Z.testbit ?v (Zneg ?p)] => rewrite (Z.testbit_neg_r v (Zneg p)) by lia
    | |- context [Z.testbit ?v (Zpos ?p)] => rewrite (high_bits_zero v w (Zpos p) Hv) by lia
    end;
  rewrite ?andb_true_r, ?andb_false_r, ?orb_false_r; simpl;
  rewrite ?orb_false_r; reflexivity.

Lemma endian_swap16_bytes v : in_u32 v -> v < 2^16 -> forall i, 0 <= i < 2 ->
  byte_at (endian_swap16 v) i = byte_at v (1 - i).
Proof.
  intros [H0 _] H1 i Hi. assert (Hv: 0 <= v < 2^16) by lia.
  assert (E: i = 0 \/ i = 1) by lia. apply byte_at_ext; try lia.
  unfold endian_swap16. destruct E as [-> | ->]; apply enum8; swap_case 16 Hv.
Qed.

Lemma endian_swap32_bytes v : in_u32 v -> forall i, 0 <= i < 4 ->
  byte_at (endian_swap32 v) i = byte_at v (3 - i).
Proof.
  intros Hv i Hi. red in Hv.
  assert (E: i = 0 \/ i = 1 \/ i = 2 \/ i = 3) by lia. apply byte_at_ext; try lia.
  unfold endian_swap32. destruct E as [-> | [-> | [-> | ->]]]; apply enum8; swap_case 32 Hv.
Qed.

Lemma endian_swap64_bytes v : in_u64 v -> forall i, 0 <= i < 8 ->
  byte_at (endian_swap64 v) i = byte_at v (7 - i).
Proof.
  intros Hv i Hi. red in Hv. apply byte_at_ext; try lia.
  unfold endian_swap64. cbv zeta.
  assert (E: i = 0 \/ i = 1 \/ i = 2 \/ i = 3 \/ i = 4 \/ i = 5 \/ i = 6 \/ i = 7) by lia.
  destruct E as [-> | [-> | [-> | [-> | [-> | [-> | [-> | ->]]]]]]]; apply enum8; swap_case 64 Hv.
Qed.

Lemma lor_bound a b w : 0 <= w -> 0 <= a < 2^w -> 0 <= b < 2^w -> 0 <= Z.lor a b < 2^w.
Proof.
  intros Hw Ha Hb. split; [apply Z.lor_nonneg; lia|].
  destruct (Z.eq_dec (Z.lor a b) 0) as [->|N]; [apply Z.pow_pos_nonneg; lia|].
  apply Z.log2_lt_pow2.
  - pose proof (proj2 (Z.lor_nonneg a b)). lia.
  - rewrite Z.log2_lor by lia.
    assert (W: forall x, 0 <= x < 2^w -> x <> 0 -> Z.log2 x < w).
    { intros x Hx Hn. apply Z.log2_lt_pow2; lia. }
    destruct (Z.eq_dec a 0) as [->|Na]; destruct (Z.eq_dec b 0) as [->|Nb];
      rewrite ?Z.lor_0_l, ?Z.lor_0_r in N; try lia.
    + change (Z.log2 0) with 0. pose proof (W b Hb Nb). pose proof (Z.log2_nonneg b). lia.
    + change (Z.log2 0) with 0. pose proof (W a Ha Na). pose proof (Z.log2_nonneg a). lia.
    + pose proof (W a Ha Na). pose proof (W b Hb Nb). lia.
Qed.

Lemma shiftr_bound a s w : 0 <= s -> 0 <= a < 2^w -> 0 <= Z.shiftr a s < 2^w.
Proof.
  intros Hs Ha. rewrite Z.shiftr_div_pow2 by lia.
  assert (0 < 2^s) by (apply Z.pow_pos_nonneg; lia). split.
  - apply Z.div_pos; lia.
  - apply Z.div_lt_upper_bound; [lia|]. nia.
Qed.

Lemma land_bound a b w : 0 <= w -> 0 <= a < 2^w -> 0 <= b -> 0 <= Z.land a b < 2^w.
Proof.
  intros Hw Ha Hb. split; [apply Z.land_nonneg; lia|].
  rewrite <- (Z.mod_small a (2^w)) by lia. rewrite <- Z.land_ones by lia.
  rewrite <- Z.land_assoc, (Z.land_comm (Z.ones w)), Z.land_assoc, Z.land_ones by lia.
  apply Z.mod_pos_bound. apply Z.pow_pos_nonneg; lia.
Qed.

Lemma swap16_range v : 0 <= endian_swap16 v < 2^16.
Proof. unfold endian_swap16, u16. apply Z.mod_pos_bound. lia. Qed.

Lemma swap32_range v : in_u32 v -> 0 <= endian_swap32 v < 2^32.
Proof.
  intros Hv. unfold endian_swap32, u32.
  repeat apply lor_bound; try lia;
    try (apply Z.mod_pos_bound; lia); apply shiftr_bound; try lia; try exact Hv.
  apply land_bound; try lia; exact Hv.
Qed.

Lemma swap64_range v : in_u64 v -> 0 <= endian_swap64 v < 2^64.
Proof.
  intros Hv. unfold endian_swap64, u64. cbv zeta.
  repeat apply lor_bound; try lia;
    try (apply Z.mod_pos_bound; lia); apply shiftr_bound; try lia; try exact Hv;
  apply land_bound; try lia; exact Hv.
Qed.

(** A word is determined by its bytes. *)
Lemma bytes_ext k v w : 0 <= k -> 0 <= v < 2^(8*k) -> 0 <= w < 2^(8*k) ->
  (forall i, 0 <= i < k -> byte_at v i = byte_at w i) -> v = w.
Proof.
  intros Hk Hv Hw H. apply Z.bits_inj'. intros n Hn.
  destruct (Z.lt_ge_cases n (8*k)).
  - pose proof (Z.div_mod n 8 ltac:(lia)). pose proof (Z.mod_pos_bound n 8 ltac:(lia)).
    assert (0 <= n / 8) by (apply Z.div_pos; lia).
    assert (n / 8 < k) by (apply Z.div_lt_upper_bound; lia).
    pose proof (H (n/8) ltac:(lia)) as E.
    apply (f_equal (fun x => Z.testbit x (n mod 8))) in E.
    rewrite !byte_at_bits in E by lia.
    replace (n mod 8 + 8 * (n/8)) with n in E by lia. exact E.
  - rewrite (high_bits_zero v (8*k)), (high_bits_zero w (8*k)) by lia. reflexivity.
Qed.

Lemma swap16_involutive v : 0 <= v < 2^16 -> endian_swap16 (endian_swap16 v) = v.
Proof.
  intros Hv. apply (bytes_ext 2); try apply swap16_range; try assumption; [lia|].
  intros i Hi. pose proof (swap16_range v).
  rewrite !endian_swap16_bytes by (unfold in_u32; lia). f_equal. lia.
Qed.
Lemma swap32_involutive v : in_u32 v -> endian_swap32 (endian_swap32 v) = v.
Proof.
  intros Hv. pose proof (swap32_range v Hv).
  apply (bytes_ext 4); try apply swap32_range; try assumption; [lia|].
  intros i Hi. rewrite !endian_swap32_bytes by (auto; lia). f_equal. lia.
Qed.
Lemma swap64_involutive v : in_u64 v -> endian_swap64 (endian_swap64 v) = v.
Proof.
  intros Hv. pose proof (swap64_range v Hv).
  apply (bytes_ext 8); try apply swap64_range; try assumption; [lia|].
  intros i Hi. rewrite !endian_swap64_bytes by (auto; lia). f_equal. lia.
Qed.

(** ** next_pow2 *)

Definition smear (m y z : Z) : Prop :=
  forall n, 0 <= n -> (Z.testbit z n = true <-> exists k, 0 <= k < m /\ Z.testbit y (n + k) = true).

Lemma smear_start y : smear 1 y y.
Proof.
  intros n Hn. split.
  - intros H. exists 0. rewrite Z.add_0_r. split; [lia|assumption].
  - intros (k & Hk & H). replace (n+k) with n in H by lia. exact H.
Qed.

Lemma smear_step m m2 y z : 0 <= m -> m2 = 2*m -> smear m y z -> smear m2 y (Z.lor z (Z.shiftr z m)).
Proof.
  intros Hm -> S n Hn. rewrite Z.lor_spec, Z.shiftr_spec by lia. rewrite orb_true_iff.
  rewrite (S n) by lia. rewrite (S (n+m)) by lia. split.
  - intros [(k & Hk & H)|(k & Hk & H)].
    + exists k. split; [lia|assumption].
    + exists (m + k). split; [lia|]. rewrite Z.add_assoc. exact H.
  - intros (k & Hk & H). destruct (Z.lt_ge_cases k m).
    + left. exists k. split; [lia|assumption].
    + right. exists (k - m). split; [lia|]. replace (n + m + (k-m)) with (n+k) by lia. exact H.
Qed.

Lemma smear_full y z L : 0 < y -> L = Z.log2 y -> L < 32 -> smear 32 y z -> 0 <= z -> z = 2^(L+1) - 1.
Proof.
  intros Hy HL HL2 S Hz. pose proof (Z.log2_nonneg y).
  replace (2^(L+1)-1) with (Z.ones (L+1)) by (rewrite Z.ones_equiv; lia).
  apply Z.bits_inj'. intros n Hn. destruct (Z.le_gt_cases n L).
  - rewrite Z.ones_spec_low by lia. apply S; [lia|]. exists (L - n). split; [lia|].
    replace (n + (L-n)) with L by lia. rewrite HL. apply Z.bit_log2. lia.
  - rewrite Z.ones_spec_high by lia. destruct (Z.testbit z n) eqn:E; [|reflexivity].
    apply S in E; [|lia]. destruct E as (k & Hk & H1).
    rewrite Z.bits_above_log2 in H1 by lia. discriminate.
Qed.

Lemma next_pow2_correct x : 1 <= x <= 2^30 -> exists w, next_pow2 x = Some w /\ least_pow2 x w.
Proof.
  intros Hx. unfold next_pow2. destruct (Z.leb_spec x (- 2^31)); [lia|].
  set (y := x - 1).
  set (z1 := Z.lor y (Z.shiftr y 1)). set (z2 := Z.lor z1 (Z.shiftr z1 2)).
  set (z3 := Z.lor z2 (Z.shiftr z2 4)). set (z4 := Z.lor z3 (Z.shiftr z3 8)).
  set (z5 := Z.lor z4 (Z.shiftr z4 16)). cbv zeta.
  assert (N: 0 <= y) by (unfold y; lia).
  assert (N5: 0 <= z5).
  { assert (K: forall a s, 0 <= a -> 0 <= Z.lor a (Z.shiftr a s)).
    { intros a s Ha. apply Z.lor_nonneg. split; [assumption|]. apply Z.shiftr_nonneg. assumption. }
    unfold z5, z4, z3, z2, z1. repeat apply K. assumption. }
  assert (S: smear 32 y z5).
  { apply (smear_step 16); [lia|reflexivity|]. apply (smear_step 8); [lia|reflexivity|].
    apply (smear_step 4); [lia|reflexivity|]. apply (smear_step 2); [lia|reflexivity|].
    apply (smear_step 1); [lia|reflexivity|]. apply smear_start. }
  destruct (Z.eq_dec y 0) as [Y0|YN].
  - replace z5 with 0.
    + simpl. exists 1. split; [reflexivity|]. split; [exists 0; split; [lia|reflexivity]|].
      split; [unfold y in Y0; lia|]. intros k Hk _. pose proof (Z.pow_pos_nonneg 2 k). lia.
    + unfold z5, z4, z3, z2, z1. rewrite Y0. reflexivity.
  - assert (L30: Z.log2 y < 30) by (apply Z.log2_lt_pow2; unfold y in *; lia).
    pose proof (Z.log2_nonneg y) as L0.
    rewrite (smear_full y z5 (Z.log2 y)) by (try assumption; try lia; reflexivity).
    assert (B: 2^(Z.log2 y + 1) <= 2^30) by (apply Z.pow_le_mono_r; lia).
    destruct (Z.leb_spec (2^31-1) (2^(Z.log2 y + 1) - 1)); [lia|].
    eexists; split; [reflexivity|]. rewrite Z.sub_add.
    destruct (Z.log2_spec y ltac:(lia)) as [SL SU].
    split; [exists (Z.log2 y + 1); split; [lia|reflexivity]|]. split.
    + unfold y in SU. replace (Z.succ (Z.log2 (x - 1))) with (Z.log2 y + 1) in SU by (unfold y; lia). lia.
    + intros k Hk Hle. apply Z.pow_le_mono_r; [lia|].
      destruct (Z.le_gt_cases (Z.log2 y + 1) k); [assumption|exfalso].
      assert (2^k <= 2^(Z.log2 y)) by (apply Z.pow_le_mono_r; lia). unfold y in *; lia.
Qed.

(** ** Single-bit helpers *)

Lemma shl1_bits b n : 0 <= b < 32 -> 0 <= n -> Z.testbit (shl1 b) n = (n =? b).
Proof.
  intros Hb Hn. unfold shl1, u32. destruct (Z.lt_ge_cases n 32).
  - rewrite Z.mod_pow2_bits_low by lia. rewrite Z.shiftl_1_l, Z.pow2_bits_eqb by lia.
    rewrite Z.eqb_sym. reflexivity.
  - rewrite Z.mod_pow2_bits_high by lia. symmetry. apply Z.eqb_neq. lia.
Qed.

Lemma bit_set_spec x b n : in_u32 x -> 0 <= b < 32 -> 0 <= n ->
  Z.testbit (bit_set x b) n = if n =? b then true else Z.testbit x n.
Proof.
  intros Hx Hb Hn. unfold bit_set. rewrite Z.lor_spec, shl1_bits by lia.
  destruct (n =? b); [apply orb_true_r|apply orb_false_r].
Qed.

Lemma bit_reset_spec x b n : in_u32 x -> 0 <= b < 32 -> 0 <= n ->
  Z.testbit (bit_reset x b) n = if n =? b then false else Z.testbit x n.
Proof.
  intros Hx Hb Hn. unfold bit_reset. rewrite Z.land_spec. unfold u32.
  destruct (Z.lt_ge_cases n 32).
  - rewrite Z.mod_pow2_bits_low by lia. rewrite Z.lnot_spec, shl1_bits by lia.
    destruct (n =? b); [apply andb_false_r|apply andb_true_r].
  - rewrite (high_bits_zero x 32) by (try lia; exact Hx). destruct (n =? b); reflexivity.
Qed.

Lemma bit_get_high x b : in_u32 x -> 8 <= b < 32 -> bit_get x b = 0.
Proof.
  intros Hx Hb. unfold bit_get, i8, sx.
  replace (Z.land x (shl1 b) mod 2^8) with 0; [reflexivity|].
  symmetry. apply Z.bits_inj'. intros n Hn. rewrite Z.bits_0.
  destruct (Z.lt_ge_cases n 8); [|apply Z.mod_pow2_bits_high; lia].
  rewrite Z.mod_pow2_bits_low, Z.land_spec, shl1_bits by lia.
  replace (n =? b) with false by (symmetry; apply Z.eqb_neq; lia). apply andb_false_r.
Qed.

Lemma bit_get_low x b : in_u32 x -> 0 <= b < 8 -> (bit_get x b <> 0 <-> Z.testbit x b = true).
Proof.
  intros Hx Hb. unfold bit_get.
  assert (E: Z.land x (shl1 b) = if Z.testbit x b then 2^b else 0).
  { apply Z.bits_inj'. intros n Hn. rewrite Z.land_spec, shl1_bits by lia.
    destruct (Z.eqb_spec n b) as [->|N].
    - destruct (Z.testbit x b); [|rewrite Z.bits_0; reflexivity].
      rewrite Z.pow2_bits_true by lia. reflexivity.
    - rewrite andb_false_r. destruct (Z.testbit x b); [|rewrite Z.bits_0; reflexivity].
      rewrite Z.pow2_bits_false by lia. reflexivity. }
  rewrite E. destruct (Z.testbit x b).
  - split; [reflexivity|]. intros _.
    assert (b=0 \/ b=1 \/ b=2 \/ b=3 \/ b=4 \/ b=5 \/ b=6 \/ b=7) by lia.
    clear - H. intuition; subst; vm_compute; discriminate.
  - split; [|discriminate]. intros H. exfalso. apply H. reflexivity.
Qed.

(** ** count_set_bits *)

Definition pop (n : nat) (m : Z) : Z :=
  Z.of_nat (length (filter (fun i => Z.testbit m (Z.of_nat i)) (seq 0 n))).

Lemma filter_seq_shift (f : nat -> bool) n s :
  length (filter f (seq (S s) n)) = length (filter (fun i => f (S i)) (seq s n)).
Proof.
  revert s. induction n; intros s; [reflexivity|]. simpl. destruct (f (S s)); simpl; rewrite IHn; reflexivity.
Qed.

Lemma pop_S n m : 0 <= m -> pop (S n) m = Z.land m 1 + pop n (Z.shiftr m 1).
Proof.
  intros Hm. unfold pop. simpl seq. simpl filter.
  assert (E: Z.land m 1 = Z.b2z (Z.testbit m 0)).
  { change 1 with (Z.ones 1) at 1. rewrite Z.land_ones, Z.bit0_mod by lia. reflexivity. }
  rewrite E.
  assert (F: length (filter (fun i => Z.testbit m (Z.of_nat i)) (seq 1 n)) =
             length (filter (fun i => Z.testbit (Z.shiftr m 1) (Z.of_nat i)) (seq 0 n))).
  { rewrite filter_seq_shift. f_equal. apply filter_ext. intros a.
    rewrite Z.shiftr_spec by lia. f_equal. lia. }
  change (Z.of_nat 0) with 0. destruct (Z.testbit m 0); simpl length; rewrite F; simpl Z.b2z; lia.
Qed.

Lemma pop_0 n : pop n 0 = 0.
Proof.
  unfold pop. rewrite (filter_ext _ (fun _ => false)) by (intros; apply Z.bits_0).
  induction (seq 0 n); [reflexivity|assumption].
Qed.

Lemma count_loop_correct f : forall m c, 0 <= m < 2^(Z.of_nat f) -> count_loop f m c = Some (c + pop f m).
Proof.
  induction f; intros m c Hm.
  - simpl. assert (m = 0) by (change (2^Z.of_nat 0) with 1 in Hm; lia). subst. simpl. f_equal. unfold pop. simpl. lia.
  - simpl. destruct (Z.eqb_spec m 0) as [->|N].
    + rewrite pop_0. f_equal. lia.
    + rewrite IHf.
      * rewrite pop_S by lia. f_equal. lia.
      * rewrite Z.shiftr_div_pow2 by lia. rewrite Nat2Z.inj_succ, Z.pow_succ_r in Hm by lia.
        split; [apply Z.div_pos; lia|]. apply Z.div_lt_upper_bound; lia.
Qed.

Lemma count_set_bits_correct m : in_u64 m -> count_set_bits m = Some (popcount64 m).
Proof.
  intros Hm. unfold count_set_bits. rewrite (count_loop_correct 64) by exact Hm.
  rewrite Z.add_0_l. unfold popcount64, pop. reflexivity.
Qed.

(** ** Epochs *)
Lemma epoch_inverse1 ms : in_u64 ms -> time_unix_to_win32 (time_win32_to_unix ms) = ms.
Proof.
  unfold in_u64, time_unix_to_win32, time_win32_to_unix, u64. intros H.
  rewrite Zplus_mod_idemp_l, Z.sub_add. apply Z.mod_small. lia.
Qed.
Lemma epoch_inverse2 ms : in_u64 ms -> time_win32_to_unix (time_unix_to_win32 ms) = ms.
Proof.
  unfold in_u64, time_unix_to_win32, time_win32_to_unix, u64. intros H.
  rewrite Zminus_mod_idemp_l, Z.add_simpl_r. apply Z.mod_small. lia.
Qed.
