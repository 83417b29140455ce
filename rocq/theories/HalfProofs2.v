From Verif Require Import Base Half HalfSpec HalfProofs.

(** ** What half_to_float computes *)
Lemma normalize_ok : forall f m e, 0 < m < 2048 -> 1024 <= m * 2^Z.of_nat f -> exists k, 0 <= k /\ normalize (S f) m e = Some (m * 2^k, e - k) /\ 1024 <= m * 2^k < 2048.
Proof.
  induction f as [|f IH]; intros m e Hm L; cbn [normalize]; change 0x400 with (2^10); rewrite land_bit by easy;
    (assert (T : Z.testbit m 10 = (1024 <=? m)) by
      (rewrite Z.testbit_eqb by easy; change (2^10) with 1024; destruct (Z.leb_spec 1024 m); [rewrite (div_is m 1024 1 (m - 1024)) by lia|rewrite Z.div_small by lia]; reflexivity)); rewrite T;
    destruct (Z.leb_spec 1024 m) as [G|G]; cbn [negb].
  - exists 0. change (2^0) with 1. replace (m * 1) with m by lia. replace (e - 0) with e by lia. repeat split; lia.
  - change (Z.of_nat 0) with 0 in L. lia.
  - exists 0. change (2^0) with 1. replace (m * 1) with m by lia. replace (e - 0) with e by lia. repeat split; lia.
  - rewrite Z.shiftl_mul_pow2 by easy. change (2^1) with 2. destruct (IH (m * 2) (e - 1)) as (k & K & E & B).
    { lia. } { rewrite Nat2Z.inj_succ, Z.pow_succ_r in L by lia. lia. }
    exists (k + 1). rewrite Z.pow_add_r by lia. change (2^1) with 2. cbn [normalize] in E. change 0x400 with (2^10) in E. rewrite E. replace (m * 2 * 2^k) with (m * (2^k * 2)) in * by lia. replace (e - 1 - k) with (e - (k + 1)) by lia. repeat split; lia.
Qed.
Lemma half_bits h S E M : S = 0 \/ S = 1 -> 0 <= E < 32 -> 0 <= M < 1024 -> h mod 65536 = S * 32768 + E * 1024 + M ->
  Z.land (Z.shiftr h 15) 0x1 = S /\ Z.land (Z.shiftr h 10) 0x1f = E /\ Z.land h 0x3ff = M.
Proof.
  intros HS HE HM Eh. change 0x1 with (Z.ones 1). change 0x1f with (Z.ones 5). change 0x3ff with (Z.ones 10). rewrite !Z.land_ones, !Z.shiftr_div_pow2 by easy.
  destruct (half_fields h S (E * 1024 + M) ltac:(lia) HS ltac:(lia)) as (A & B & C). unfold fsign, fexp, ffrac in *. change (10 + 5) with 15 in A. change (2^1) with 2. rewrite A, B, C.
  rewrite (div_is (E * 1024 + M) 1024 E M) by lia. rewrite (mod_is (E * 1024 + M) 1024 E M) by lia. easy.
Qed.
Lemma assemble S X Y : S = 0 \/ S = 1 -> 0 <= X < 256 -> 0 <= Y < 1024 -> u32 (Z.lor (Z.lor (Z.shiftl S 31) (Z.shiftl X 23)) (Z.shiftl Y 13)) = S * 2^31 + X * 2^23 + Y * 2^13.
Proof.
  intros HS HX HY. rewrite !Z.shiftl_mul_pow2 by easy.
  rewrite (lor_plus (S * 2^31) (X * 2^23) 31) by (first [lia|now apply Z_mod_mult|change (2^31) with (256 * 2^23); lia]).
  rewrite (lor_plus _ (Y * 2^13) 23); [|easy|change (2^23) with (1024 * 2^13); lia|].
  - unfold u32. apply Z.mod_small. change (2^31) with 2147483648. change (2^23) with 8388608. change (2^13) with 8192. change (2^32) with 4294967296. lia.
  - replace (S * 2^31 + X * 2^23) with ((S * 256 + X) * 2^23) by (change (2^31) with (256 * 2^23); lia). apply Z_mod_mult.
Qed.
Lemma widen h S E M : S = 0 \/ S = 1 -> 0 <= E < 32 -> 0 <= M < 1024 -> h mod 65536 = S * 32768 + E * 1024 + M ->
  exists X Y, 0 <= X < 256 /\ 0 <= Y < 1024 /\ half_to_float h = Some (S * 2^31 + X * 2^23 + Y * 2^13) /\
    ((E = 0 /\ M = 0 /\ X = 0 /\ Y = 0) \/ (E = 0 /\ 0 < M /\ exists k, 0 <= k <= 10 /\ X = 113 - k /\ Y + 1024 = M * 2^k) \/ (0 < E < 31 /\ X = E + 112 /\ Y = M) \/ (E = 31 /\ X = 255 /\ Y = M)).
Proof.
  intros HS HE HM Eh. destruct (half_bits h S E M HS HE HM Eh) as (A & B & C). unfold half_to_float. rewrite A, B, C.
  destruct (Z.eqb_spec E 0) as [->|N0].
  - destruct (Z.eqb_spec M 0) as [->|M0].
    + exists 0, 0. split; [lia|]. split; [lia|]. split; [|left; lia]. rewrite <- (assemble S 0 0) by lia. now rewrite !Z.shiftl_0_l, !Z.lor_0_r.
    + destruct (normalize_ok 10 M 0 ltac:(lia)) as (k & K & En & Bk); [change (2^Z.of_nat 10) with 1024; lia|]. rewrite En. cbn [obind].
      assert (K10 : k <= 10) by (destruct (Z_le_dec k 10) as [|G]; [easy|]; exfalso; assert (2^11 <= 2^k) by (apply Z.pow_le_mono_r; lia); change (2^11) with 2048 in *; nia).
      assert (Ld : Z.land (M * 2^k) (Z.lnot 0x400) = M * 2^k - 1024).
      { set (y := M * 2^k - 1024). replace (M * 2^k) with (1024 + y) by lia. rewrite <- (lor_plus 1024 y 10) by (try easy; change (2^10) with 1024; lia). change 0x400 with 1024. rewrite <- Z.ldiff_land.
        apply Z.bits_inj'. intros n Hn. rewrite Z.ldiff_spec, Z.lor_spec. change 1024 with (2^10). destruct (Z.eq_dec n 10) as [->|N].
        - rewrite Z.pow2_bits_true by easy. cbn [negb]. rewrite andb_false_r. symmetry. destruct (Z.eq_dec y 0) as [->|]; [reflexivity|]. apply Z.bits_above_log2; [lia|]. apply Z.log2_lt_pow2; [lia|]. change (2^10) with 1024. lia.
        - rewrite (Z.pow2_bits_false 10 n) by lia. now rewrite andb_true_r. }
      rewrite Ld. exists (113 - k), (M * 2^k - 1024). split; [lia|]. split; [lia|]. split; [|right; left; split; [easy|]; split; [lia|]; exists k; lia].
      replace (0 - k + 1 + (127 - 15)) with (113 - k) by lia. now rewrite assemble by lia.
  - destruct (Z.eqb_spec E 31) as [->|N31].
    + exists 255, M. split; [lia|]. split; [lia|]. split; [|right; right; right; easy]. rewrite <- (assemble S 255 M) by lia. change (Z.shiftl 255 23) with 0x7f800000.
      destruct (Z.eqb_spec M 0) as [->|]; [|easy]. rewrite Z.shiftl_0_l. now rewrite Z.lor_0_r.
    + exists (E + 112), M. split; [lia|]. split; [lia|]. split; [|right; right; left; lia]. now rewrite assemble by lia.
Qed.
Lemma single_fields S X F : S = 0 \/ S = 1 -> 0 <= X < 256 -> 0 <= F < 2^23 -> fsign 23 8 (S * 2^31 + X * 2^23 + F) = S /\ fexp 23 8 (S * 2^31 + X * 2^23 + F) = X /\ ffrac 23 (S * 2^31 + X * 2^23 + F) = F.
Proof.
  intros HS HX HF. unfold fsign, fexp, ffrac. change (23 + 8) with 31. change (2^8) with 256. change (2^31) with 2147483648. change (2^23) with 8388608 in *. refine (conj _ (conj _ _)).
  - rewrite (div_is _ 2147483648 S (X * 8388608 + F)) by lia. apply Z.mod_small. lia.
  - rewrite (div_is _ 8388608 (S * 256 + X) F) by lia. apply (mod_is _ 256 S X); lia.
  - apply (mod_is _ 8388608 (S * 256 + X) F); lia.
Qed.
Lemma half_split h : exists S E M, (S = 0 \/ S = 1) /\ 0 <= E < 32 /\ 0 <= M < 1024 /\ h mod 65536 = S * 32768 + E * 1024 + M.
Proof.
  destruct (half_any h) as (S & n & HS & Hn & E). exists S, (n / 1024), (n mod 1024). pose proof (Z.div_mod n 1024 ltac:(easy)). pose proof (Z.mod_pos_bound n 1024 ltac:(easy)).
  assert (0 <= n / 1024 < 32) by (split; [apply Z.div_pos; lia|apply Z.div_lt_upper_bound; lia]). lia.
Qed.
Lemma widening h : exists v, half_to_float h = Some v /\ in_u32 v /\ fsign 23 8 v = fsign 10 5 h /\
  (half_finite h -> single_finite v /\ single_value v = half_value h) /\ (half_inf h -> fexp 23 8 v = 255 /\ ffrac 23 v = 0) /\ (half_nan h -> fexp 23 8 v = 255 /\ ffrac 23 v = ffrac 10 h * 2^13).
Proof.
  destruct (half_split h) as (S & E & M & HS & HE & HM & Eh). destruct (widen h S E M HS HE HM Eh) as (X & Y & HX & HY & Ev & Cs). exists (S * 2^31 + X * 2^23 + Y * 2^13). split; [exact Ev|].
  destruct (single_fields S X (Y * 2^13) HS HX ltac:(change (2^23) with (1024 * 2^13); lia)) as (A & B & C). set (v := S * 2^31 + X * 2^23 + Y * 2^13) in *.
  destruct (half_fields h S (E * 1024 + M) ltac:(lia) HS ltac:(lia)) as (A' & B' & C'). rewrite (div_is (E * 1024 + M) 1024 E M) in B' by lia. rewrite (mod_is (E * 1024 + M) 1024 E M) in C' by lia.
  split. { unfold in_u32, v. change (2^31) with 2147483648. change (2^23) with 8388608. change (2^13) with 8192. change (2^32) with 4294967296. lia. }
  split; [congruence|]. unfold half_finite, half_inf, half_nan, single_finite. rewrite B', C', B, C. split; [|split].
  - intros N. split; [destruct Cs as [Cs|[(_ & _ & k & Cs)|[Cs|Cs]]]; lia|]. unfold single_value, half_value, signed, mag. rewrite A, A', B, B', C, C'.
    assert (G : (if X =? 0 then Y * 2^13 else (2^23 + Y * 2^13) * 2^(X - 1)) = (if E =? 0 then M else (2^10 + M) * 2^(E - 1)) * 2^125).
    { destruct Cs as [(-> & -> & -> & ->)|[(-> & M0 & k & K & -> & Ey)|[(E0 & -> & ->)|(-> & _)]]]; [reflexivity| | |easy].
      - destruct (Z.eqb_spec (113 - k) 0) as [|_]; [lia|]. change (2^23) with (1024 * 2^13). replace (1024 * 2^13 + Y * 2^13) with ((Y + 1024) * 2^13) by lia. rewrite Ey. change (0 =? 0) with true. cbn match.
        rewrite <- !Z.mul_assoc. f_equal. rewrite <- !Z.pow_add_r by lia. f_equal. lia.
      - destruct (Z.eqb_spec (E + 112) 0) as [|_]; [lia|]. destruct (Z.eqb_spec E 0) as [|_]; [lia|]. change (2^23) with (2^10 * 2^13). rewrite <- Z.mul_add_distr_r. rewrite <- !Z.mul_assoc. f_equal. rewrite <- !Z.pow_add_r by lia. f_equal. lia. }
    rewrite G. destruct (S =? 1); lia.
  - intros (-> & ->). destruct Cs as [(X0 & _)|[(X0 & _)|[(X0 & _)|(_ & -> & ->)]]]; [lia..|easy].
  - intros (-> & _). destruct Cs as [(X0 & _)|[(X0 & _)|[(X0 & _)|(_ & -> & ->)]]]; [lia..|easy].
Qed.
