From Coq Require Import Reals SpecFloat Psatz Lra.
From Flocq Require Import Core BinarySingleNaN.
From Verif Require Import Base Float FloatSpec FloatProofs FloatProofs4 ClockProofs FloatFun.
Local Open Scope R_scope.

(** ** Casts and comparisons *)
Lemma lt0_iff x r : is_real x r -> f_lt0 x = Rlt_bool r 0.
Proof.
  intros (V & F & <-). unfold f_lt0, f_zero. destruct x as [s|s| |s m e]; try discriminate F.
  - cbn. rewrite Rlt_bool_false; [destruct s; reflexivity|lra].
  - cbn [SF2R]. assert (P : 0 < IZR (Z.pos m)) by (apply IZR_lt; reflexivity). pose proof (bpow_gt_0 radix2 e) as Q. destruct s; unfold F2R; cbn [cond_Zopp Fnum Fexp].
    + rewrite Rlt_bool_true; [reflexivity|]. rewrite opp_IZR. nra.
    + rewrite Rlt_bool_false; [reflexivity|]. nra.
Qed.
Lemma ge0_iff x r : is_real x r -> f_ge0 x = Rle_bool 0 r.
Proof.
  intros H. pose proof (lt0_iff x r H) as L. destruct H as (V & F & <-). unfold f_ge0, f_lt0, f_zero in *. destruct x as [s|s| |s m e]; try discriminate F.
  - cbn in *. rewrite Rle_bool_true by lra. destruct s; reflexivity.
  - destruct (Rlt_bool_spec (SF2R radix2 (S754_finite s m e)) 0) as [A|A]; destruct s; try discriminate L.
    + rewrite Rle_bool_false by exact A. reflexivity.
    + rewrite Rle_bool_true by exact A. reflexivity.
Qed.
Lemma trunc_real x r : is_real x r -> f_trunc x = Some (Ztrunc r).
Proof.
  intros H. destruct H as (V & F & <-). destruct x as [s|s| |s m e]; try discriminate F.
  - cbn. f_equal. symmetry. apply (Ztrunc_IZR 0).
  - unfold f_trunc. destruct (int_part m e) as (v & -> & P & B). f_equal. destruct s.
    + rewrite real_neg. rewrite Ztrunc_opp. f_equal. rewrite Ztrunc_floor; [|pose proof (IZR_le 0 v P); lra]. symmetry. apply Zfloor_imp. rewrite plus_IZR. exact B.
    + assert (E : SF2R radix2 (S754_finite false m e) = IZR (Z.pos m) * bpow radix2 e) by reflexivity. rewrite E.
      rewrite Ztrunc_floor; [|pose proof (IZR_le 0 v P); lra]. symmetry. apply Zfloor_imp. rewrite plus_IZR. exact B.
Qed.
Lemma cast_real x r : is_real x r -> - IZR (2 ^ 63) <= r < IZR (2 ^ 63) -> f_to_i64 x = Some (Ztrunc r).
Proof.
  intros H B. unfold f_to_i64. rewrite (trunc_real x r H). cbn [obind].
  assert (T : (- 2 ^ 63 <= Ztrunc r < 2 ^ 63)%Z).
  { split.
    - apply le_IZR. rewrite opp_IZR. destruct (Rle_or_lt 0 r) as [P|P].
      + rewrite Ztrunc_floor by exact P. apply Rle_trans with 0; [pose proof (IZR_lt 0 (2 ^ 63) eq_refl); lra|]. apply IZR_le. apply Zfloor_lub. exact P.
      + rewrite Ztrunc_ceil by lra. pose proof (Zceil_ub r). lra.
    - apply lt_IZR. destruct (Rle_or_lt 0 r) as [P|P].
      + rewrite Ztrunc_floor by exact P. pose proof (Zfloor_lb r). lra.
      + rewrite Ztrunc_ceil by lra. assert (Zceil r <= 0)%Z by (apply Zceil_glb; lra). apply IZR_le in H0. pose proof (IZR_lt 0 (2 ^ 63) eq_refl). lra. }
  destruct (Z.leb_spec (- 2 ^ 63) (Ztrunc r)); [|lia]. destruct (Z.ltb_spec (Ztrunc r) (2 ^ 63)); [|lia]. reflexivity.
Qed.
(** ** The numbers of the format *)
Lemma grid r k : fmt r -> bpow radix2 k <= Rabs r -> exists m, r = IZR m * bpow radix2 (k - 52).
Proof.
  intros F B. assert (Z0 : r <> 0). { intros ->. rewrite Rabs_R0 in B. pose proof (bpow_gt_0 radix2 k). lra. }
  pose proof (mag_ge_bpow radix2 r (k + 1)) as M. replace (k + 1 - 1)%Z with k in M by lia. specialize (M B).
  unfold fmt, generic_format in F. set (m0 := Ztrunc (scaled_mantissa radix2 fexp64 r)) in F. set (c := cexp radix2 fexp64 r) in F. assert (C : (k - 52 <= c)%Z) by (unfold c, cexp, fexp64, SpecFloat.fexp, SpecFloat.emin; lia).
  exists (m0 * 2 ^ (c - (k - 52)))%Z. rewrite F. unfold F2R. cbn [Fnum Fexp]. rewrite mult_IZR. change 2%Z with (radix_val radix2) at 1. rewrite IZR_Zpower by lia. rewrite Rmult_assoc, <- bpow_plus. f_equal. f_equal. lia.
Qed.
Lemma fmt_neg r : fmt r -> fmt (- r).
Proof. apply generic_format_opp. Qed.
Lemma rnd_neg r : rnd (- r) = - rnd r.
Proof. apply round_NE_opp. Qed.
Lemma int_of_large r : fmt r -> IZR (2 ^ 52) <= Rabs r -> exists m, r = IZR m.
Proof. intros F B. destruct (grid r 52 F B) as (m & E). exists m. rewrite E. change (bpow radix2 (52 - 52)) with 1. ring. Qed.
Lemma even_of_large r : fmt r -> IZR (2 ^ 53) <= Rabs r -> exists m, r = IZR (2 * m).
Proof. intros F B. destruct (grid r 53 F B) as (m & E). exists m. rewrite E, mult_IZR. change (bpow radix2 (53 - 52)) with 2. ring. Qed.
Lemma trunc_abs r : Rabs (IZR (Ztrunc r)) <= Rabs r.
Proof.
  destruct (Rle_or_lt 0 r) as [P|P].
  - rewrite Ztrunc_floor by exact P. assert (Q : (0 <= Zfloor r)%Z) by (apply Zfloor_lub; exact P). apply IZR_le in Q. rewrite !Rabs_right by lra. apply Zfloor_lb.
  - rewrite Ztrunc_ceil by lra. assert (Q : (Zceil r <= 0)%Z) by (apply Zceil_glb; lra). apply IZR_le in Q. rewrite !Rabs_left1 by lra. pose proof (Zceil_ub r). lra.
Qed.
Lemma fmt_int' m : (Z.abs m <= 2 ^ 53)%Z -> fmt (IZR m).
Proof.
  intros H. destruct (Z.eq_dec (Z.abs m) (2 ^ 53)) as [E|E]; [|apply fmt_int; lia].
  assert (m = 2 ^ 53 \/ m = - 2 ^ 53)%Z as [-> | ->] by lia; [|rewrite opp_IZR; apply fmt_neg]; apply (fmt_bpow 53); lia.
Qed.
Lemma fmt_trunc r : fmt r -> fmt (IZR (Ztrunc r)).
Proof.
  intros F. destruct (Rle_or_lt (IZR (2 ^ 52)) (Rabs r)) as [L|L].
  - destruct (int_of_large r F L) as (m & ->). rewrite Ztrunc_IZR. exact F.
  - apply fmt_int'. pose proof (trunc_abs r) as T. rewrite <- abs_IZR in T. assert (IZR (Z.abs (Ztrunc r)) < IZR (2 ^ 52)) as Q by lra. apply lt_IZR in Q. lia.
Qed.
(** a whole number of the format, converted *)
Lemma of_int m : fmt (IZR m) -> (Z.abs m <= 2 ^ 64)%Z -> is_real (f_of_int m) (IZR m).
Proof.
  intros F B. rewrite <- (rnd_fmt (IZR m) F). apply f_of_int_real. apply (small_bound _ 64); [lia|]. rewrite <- abs_IZR. change (bpow radix2 64) with (IZR (2 ^ 64)). now apply IZR_le.
Qed.
Lemma small_64 r : Rabs r <= IZR (2 ^ 64) -> small (rnd r).
Proof. intros H. apply (small_bound _ 64); [lia|]. exact H. Qed.

(** ** zpl_floor64 *)
Definition c09 : R := 1 - bpow radix2 (-53).
Lemma f_09_real : is_real f_09 c09.
Proof. repeat split. unfold c09, f_09, SF2R, F2R. cbn [cond_Zopp Fnum Fexp]. change (bpow radix2 (-53)) with (/ 9007199254740992). lra. Qed.
Lemma f_half_real : is_real f_half (1 / 2).
Proof. repeat split. unfold f_half, SF2R, F2R. cbn [cond_Zopp Fnum Fexp]. change (bpow radix2 (-53)) with (/ 9007199254740992). lra. Qed.
Lemma b53 : bpow radix2 (-53) = / 9007199254740992. Proof. reflexivity. Qed.
Lemma b54 : bpow radix2 (-54) = / 18014398509481984. Proof. reflexivity. Qed.
Lemma floor_eq x r : is_real x r -> - IZR (2 ^ 63) <= r < 0 -> floor64 x = Some (f_of_int (Ztrunc (rnd (r - c09)))).
Proof.
  intros H B. unfold floor64. rewrite (ge0_iff x r H), Rle_bool_false by lra. pose proof (real_fmt x r H) as F.
  assert (A : Rabs (r - c09) <= IZR (2 ^ 64)) by (unfold c09; rewrite b53; change (IZR (2 ^ 63)) with 9223372036854775808 in B; change (IZR (2 ^ 64)) with 18446744073709551616; apply Rabs_le; lra).
  rewrite (cast_real _ (rnd (r - c09))); [reflexivity|apply fsub_real; [exact H|apply f_09_real|now apply small_64]|].
  split.
  - (* the border itself rounds to itself *)
    destruct (Rle_or_lt r (- IZR (2 ^ 62))) as [L|L].
    + assert (N : fmt (- IZR (2 ^ 63))) by (apply fmt_neg; apply (fmt_bpow 63); lia). destruct (Rle_or_lt (- IZR (2 ^ 63)) (rnd (r - c09))) as [Q|Q]; [exact Q|exfalso].
      pose proof (rnd_nearest (r - c09) r F) as E. assert (C : 0 < c09 < 1) by (unfold c09; rewrite b53; lra). replace (Rabs (r - (r - c09))) with c09 in E by (rewrite <- (Rabs_right c09) at 1 by lra; f_equal; ring).
      apply Rabs_le_inv in E. assert (G : IZR (2 ^ 53) <= Rabs (rnd (r - c09))). { rewrite Rabs_left by (change (IZR (2 ^ 63)) with 9223372036854775808 in Q; lra). change (IZR (2 ^ 63)) with 9223372036854775808 in Q. change (IZR (2 ^ 53)) with 9007199254740992. lra. }
      destruct (even_of_large _ (fmt_rnd _) G) as (m & E'). rewrite E' in *. assert (X : - IZR (2 ^ 63) - 2 < IZR (2 * m) < - IZR (2 ^ 63)) by lra. rewrite <- opp_IZR, <- minus_IZR in X. destruct X as [X1 X2]. apply lt_IZR in X1, X2. lia.
    + assert (N : fmt (- IZR (2 ^ 63))) by (apply fmt_neg; apply (fmt_bpow 63); lia). rewrite <- (rnd_fmt _ N). apply rnd_mono. change (IZR (2 ^ 63)) with 9223372036854775808. change (IZR (2 ^ 62)) with 4611686018427387904 in L. unfold c09. rewrite b53. lra.
  - apply Rle_lt_trans with 0; [|apply (IZR_lt 0); reflexivity]. rewrite <- rnd_0. apply rnd_mono. unfold c09. rewrite b53. lra.
Qed.
Lemma trunc_neg v n : (n <= 0)%Z -> IZR n - 1 < v <= IZR n -> Ztrunc v = n.
Proof. intros N B. apply IZR_le in N. rewrite Ztrunc_ceil by lra. apply Zceil_imp. rewrite minus_IZR. lra. Qed.
(** between two neighbouring whole numbers *)
Lemma floor_between x r n : is_real x r -> (n <= -1)%Z -> IZR n < r < IZR n + 1 -> r <= - bpow radix2 (-54) -> Ztrunc (rnd (r - c09)) = n.
Proof.
  intros H N B T. pose proof (real_fmt x r H) as F. set (t := r - c09). pose proof (IZR_le _ _ N) as N'.
  assert (N52 : (- 2 ^ 52 <= n)%Z).
  { apply Z.nlt_ge. intros L. assert (L' : (n + 1 <= - 2 ^ 52)%Z) by lia. apply IZR_le in L'. rewrite plus_IZR, opp_IZR in L'. destruct (int_of_large r F) as (m & ->); [rewrite Rabs_left1 by lra; lra|]. destruct B as [B1 B2]. rewrite <- plus_IZR in B2. apply lt_IZR in B1, B2. lia. }
  apply trunc_neg; [lia|]. split.
  - (* more than n - 1 *)
    set (k := Z.log2 (- n)). assert (K : (2 ^ k <= - n < 2 ^ (k + 1))%Z) by (unfold k; rewrite Z.add_1_r; apply Z.log2_spec; lia). assert (K0 : (0 <= k)%Z) by apply Z.log2_nonneg.
    assert (K52 : (k <= 52)%Z). { apply (Z.pow_le_mono_r_iff 2); lia. }
    set (g := bpow radix2 (k - 53)). assert (G2 : bpow radix2 (k - 52) = 2 * g) by (unfold g; replace (k - 52)%Z with (1 + (k - 53))%Z by lia; rewrite bpow_plus; reflexivity).
    assert (G0 : 0 < g) by apply bpow_gt_0. assert (G1 : g <= 1 / 2) by (apply Rle_trans with (bpow radix2 (-1)); [apply bpow_le; lia|change (bpow radix2 (-1)) with (/ 2); lra]).
    assert (GI : forall z : Z, exists w : Z, IZR z = IZR w * g) by (intros z; exists (z * 2 ^ (53 - k))%Z; unfold g; rewrite mult_IZR; change 2%Z with (radix_val radix2); rewrite IZR_Zpower by lia; rewrite Rmult_assoc, <- bpow_plus; replace (53 - k + (k - 53))%Z with 0%Z by lia; change (bpow radix2 0) with 1; ring).
    (* r is on a grid of width g, or above -1/2 *)
    assert (RG : IZR n + g <= r).
    { destruct (Rle_or_lt (bpow radix2 (k - 1)) (Rabs r)) as [L|L].
      - destruct (grid r (k - 1) F L) as (m & E). replace (k - 1 - 52)%Z with (k - 53)%Z in E by lia. fold g in E. destruct (GI n) as (w & W). rewrite W, E in *. destruct B as [B _]. apply Rmult_lt_reg_r in B; [|exact G0]. apply lt_IZR in B. assert (W1 : IZR (w + 1) <= IZR m) by (apply IZR_le; lia). rewrite plus_IZR in W1. nra.
      - rewrite Rabs_left1 in L by lra. destruct (Z.eq_dec k 0) as [->|Kn].
        + change (bpow radix2 (0 - 1)) with (/ 2) in L. assert (n = -1)%Z by (cbn in K; lia). subst n. change (g) with (/ 9007199254740992). lra.
        + exfalso. assert (P : bpow radix2 k = 2 * bpow radix2 (k - 1)) by (replace k with (1 + (k - 1))%Z at 1 by lia; rewrite bpow_plus; reflexivity). assert (Q : bpow radix2 k <= - IZR n) by (rewrite <- opp_IZR, <- (IZR_Zpower radix2) by lia; apply IZR_le; apply K).
          assert (O : 1 <= bpow radix2 (k - 1)) by (change 1 with (bpow radix2 0); apply bpow_le; lia).
          (* -n >= 2^k and -r > -n - 1 >= 2^k - 1 >= 2^(k-1) *) lra. }
    (* the next number towards zero from n - 1 *)
    assert (Z1 : fmt (IZR n - 1 + 2 * g)).
    { rewrite <- G2. replace (IZR n - 1 + bpow radix2 (k - 52)) with (IZR ((n - 1) * 2 ^ (52 - k) + 1) * bpow radix2 (k - 52)).
      - apply fmt_int_exp; [|lia]. assert (E : (2 ^ (52 - k) * 2 ^ (k + 1) = 2 ^ 53)%Z) by (rewrite <- Z.pow_add_r by lia; f_equal; lia). assert (P : (1 <= 2 ^ (52 - k))%Z) by (change 1%Z with (2 ^ 0)%Z; apply Z.pow_le_mono_r; lia). nia.
      - rewrite plus_IZR, mult_IZR, minus_IZR. change 2%Z with (radix_val radix2) at 1. rewrite IZR_Zpower by lia. rewrite Rmult_plus_distr_r, Rmult_assoc, <- bpow_plus. replace (52 - k + (k - 52))%Z with 0%Z by lia. change (bpow radix2 0) with 1. ring. }
    assert (Z0 : fmt (IZR n - 1)) by (rewrite <- minus_IZR; apply fmt_int'; lia).
    assert (TL : IZR n - 1 + g + bpow radix2 (-53) <= t) by (unfold t, c09; lra). pose proof (bpow_gt_0 radix2 (-53)) as E53.
    assert (V0 : IZR n - 1 <= rnd t) by (rewrite <- (rnd_fmt _ Z0); apply rnd_mono; lra).
    destruct V0 as [V0|V0]; [exact V0|exfalso]. pose proof (rnd_nearest t _ Z1) as NE. rewrite <- V0 in NE. rewrite Rabs_left1 in NE by lra.
    destruct (Rle_or_lt (IZR n - 1 + 2 * g) t) as [L|L].
    + apply rnd_mono in L. rewrite (rnd_fmt _ Z1) in L. lra.
    + rewrite Rabs_right in NE by lra. lra.
  - (* at most n *)
    assert (Fn : fmt (IZR n)) by (apply fmt_int'; lia). destruct (Z.eq_dec n (-1)) as [->|Nn].
    + assert (E : rnd (- bpow radix2 (-54) - c09) = -1).
      { assert (X : is_real (S754_finite true 4503599627370496 (-106)) (- bpow radix2 (-54))) by (repeat split; unfold SF2R, F2R; cbn [cond_Zopp Fnum Fexp]; rewrite opp_IZR; replace (-106)%Z with (-52 + -54)%Z by reflexivity; rewrite bpow_plus; change (bpow radix2 (-52)) with (/ 4503599627370496); field).
        assert (S : small (rnd (- bpow radix2 (-54) - c09))) by (apply small_64; unfold c09; rewrite b53, b54; change (IZR (2 ^ 64)) with 18446744073709551616; apply Rabs_le; lra).
        destruct (fsub_real _ _ _ _ X f_09_real S) as (_ & _ & <-). replace (fsub _ _) with (S754_finite true 4503599627370496 (-52)) by (vm_compute; reflexivity). unfold SF2R, F2R. cbn [cond_Zopp Fnum Fexp]. rewrite opp_IZR. change (bpow radix2 (-52)) with (/ 4503599627370496). lra. }
      change (IZR (-1)) with (-1). rewrite <- E. apply rnd_mono. unfold t. lra.
    + rewrite <- (rnd_fmt _ Fn). apply rnd_mono. assert (R1 : 1 <= Rabs r). { rewrite Rabs_left1 by lra. assert (Nz : (n + 1 <= -1)%Z) by lia. apply IZR_le in Nz. rewrite plus_IZR in Nz. lra. }
      destruct (grid r 0 F R1) as (m & E). change (bpow radix2 (0 - 52)) with (/ 4503599627370496) in E.
      assert (L : IZR m < IZR ((n + 1) * 4503599627370496)) by (rewrite mult_IZR, plus_IZR; lra). apply lt_IZR in L. assert (L' : IZR (m + 1) <= IZR ((n + 1) * 4503599627370496)) by (apply IZR_le; lia). rewrite plus_IZR, mult_IZR, plus_IZR in L'. unfold t, c09. rewrite b53. lra.
Qed.
(** whole numbers *)
Lemma floor_whole n : (- 2 ^ 53 < n <= -1)%Z -> Ztrunc (rnd (IZR n - c09)) = (n - 1)%Z.
Proof.
  intros N. replace (rnd (IZR n - c09)) with (IZR (n - 1)); [apply Ztrunc_IZR|]. assert (F : fmt (IZR (n - 1))) by (apply fmt_int'; lia). set (t := IZR n - c09).
  destruct (Z.eq_dec n (-1)) as [->|Nn].
  - assert (S : small (rnd (IZR (-1) - c09))) by (apply small_64; unfold c09; rewrite b53; change (IZR (2 ^ 64)) with 18446744073709551616; apply Rabs_le; lra).
    destruct (fsub_real _ _ _ _ (int_real (-1) ltac:(lia)) f_09_real S) as (_ & _ & E). unfold t. rewrite <- E. replace (fsub _ _) with (S754_finite true 4503599627370496 (-51)) by (vm_compute; reflexivity).
    unfold SF2R, F2R. cbn [cond_Zopp Fnum Fexp]. rewrite opp_IZR. change (bpow radix2 (-51)) with (/ 2251799813685248). change (IZR (-1 - 1)) with (-2). lra.
  - assert (N3 : (n - 1 <= -3)%Z) by lia. apply IZR_le in N3. assert (TE : t = IZR (n - 1) + / 9007199254740992) by (unfold t, c09; rewrite b53, minus_IZR; ring).
    assert (L : IZR (n - 1) <= rnd t) by (rewrite <- (rnd_fmt _ F); apply rnd_mono; lra). destruct L as [L|L]; [exfalso|exact L].
    pose proof (rnd_nearest t _ F) as NE. replace (Rabs (IZR (n - 1) - t)) with (/ 9007199254740992) in NE by (rewrite TE, Rabs_left1; lra). apply Rabs_le_inv in NE.
    destruct (grid (rnd t) 1 (fmt_rnd t)) as (m & E); [change (bpow radix2 1) with 2; rewrite Rabs_left1; lra|]. change (bpow radix2 (1 - 52)) with (/ 2251799813685248) in E. rewrite E in *.
    assert (X1 : IZR ((n - 1) * 2251799813685248) < IZR m) by (rewrite mult_IZR; lra). apply lt_IZR in X1. assert (X2 : IZR ((n - 1) * 2251799813685248 + 1) <= IZR m) by (apply IZR_le; lia). rewrite plus_IZR, mult_IZR in X2. lra.
Qed.
Lemma floor_large r : fmt r -> r <= - IZR (2 ^ 53) -> rnd (r - c09) = r.
Proof.
  intros F L. set (t := r - c09). assert (C : 0 < c09 < 1) by (unfold c09; rewrite b53; lra). pose proof (rnd_nearest t r F) as NE. replace (Rabs (r - t)) with c09 in NE by (unfold t; rewrite <- (Rabs_right c09) at 1 by lra; f_equal; ring). apply Rabs_le_inv in NE.
  assert (U : rnd t <= r) by (apply Rle_trans with (rnd r); [apply rnd_mono; unfold t; lra|rewrite (rnd_fmt r F); lra]).
  change (IZR (2 ^ 53)) with 9007199254740992 in L. destruct (even_of_large r F) as (m & E); [change (IZR (2 ^ 53)) with 9007199254740992; rewrite Rabs_left1; lra|].
  destruct (even_of_large (rnd t) (fmt_rnd t)) as (m' & E'); [change (IZR (2 ^ 53)) with 9007199254740992; rewrite Rabs_left1; lra|].
  assert (X : IZR (2 * m) - 2 < IZR (2 * m') <= IZR (2 * m)) by (rewrite <- E, <- E'; unfold t in NE; split; [unfold t; lra|exact U]). rewrite <- minus_IZR in X. destruct X as [X1 X2]. apply lt_IZR in X1. apply le_IZR in X2. rewrite E, E'. f_equal. lia.
Qed.
Lemma floor_tiny r : - bpow radix2 (-54) < r < 0 -> Ztrunc (rnd (r - c09)) = 0%Z.
Proof.
  intros B. set (t := r - c09). assert (F1 : fmt (- c09)) by (apply fmt_neg; apply (real_fmt _ _ f_09_real)). assert (F2 : fmt (-1)) by (apply (fmt_int (-1)); reflexivity).
  rewrite b54 in B. assert (C : c09 = 1 - / 9007199254740992) by (unfold c09; now rewrite b53).
  assert (L : -1 <= rnd t) by (rewrite <- (rnd_fmt _ F2); apply rnd_mono; unfold t; lra). assert (U : rnd t <= - c09) by (rewrite <- (rnd_fmt _ F1); apply rnd_mono; unfold t; lra).
  apply trunc_neg; [lia|]. split; [|lra]. destruct L as [L|L]; [lra|exfalso]. pose proof (rnd_nearest t _ F1) as NE. rewrite <- L in NE. unfold t in NE. rewrite Rabs_left1 in NE by lra. rewrite Rabs_right in NE by lra. lra.
Qed.

(** ** zpl_round64 *)
Lemma half_above r n : fmt r -> 0 <= r -> r <= IZR (2 ^ 52) -> r <> 1 / 2 - bpow radix2 (-54) -> IZR n - 1 / 2 <= r < IZR n + 1 / 2 -> Zfloor (rnd (r + 1 / 2)) = n.
Proof.
  intros F P L X B. assert (N0 : (0 <= n)%Z) by (assert (Q : IZR (-1) < IZR n) by lra; apply lt_IZR in Q; lia). assert (N1 : (n <= 2 ^ 52)%Z) by (assert (Q : IZR n < IZR (2 ^ 52 + 1)) by (rewrite plus_IZR; lra); apply lt_IZR in Q; lia).
  apply Zfloor_imp. split; [rewrite <- (rnd_fmt (IZR n)) by (apply fmt_int'; lia); apply rnd_mono; lra|]. rewrite plus_IZR.
  destruct (Z.eq_dec n 0) as [->|Nn].
  - (* below one half *)
    assert (U : r + 1 / 2 < 1 - bpow radix2 (-54)).
    { destruct (Rle_or_lt (/ 4) r) as [Q|Q]; [|rewrite b54; lra]. destruct (grid r (-2) F) as (m & E); [change (bpow radix2 (-2)) with (/ 4); rewrite Rabs_right; lra|]. change (bpow radix2 (-2 - 52)) with (/ 18014398509481984) in E. rewrite b54 in *.
      assert (M1 : IZR m < IZR 9007199254740992) by lra. apply lt_IZR in M1. assert (M2 : m <> 9007199254740991%Z) by (intros ->; apply X; lra). assert (M3 : (m <= 9007199254740990)%Z) by lia. apply IZR_le in M3. lra. }
    assert (F1 : fmt c09) by apply (real_fmt _ _ f_09_real). pose proof (rnd_nearest (r + 1 / 2) _ F1) as NE. assert (F2 : fmt 1) by (apply (fmt_int 1); reflexivity). assert (W : rnd (r + 1 / 2) <= 1) by (apply Rle_trans with (rnd 1); [apply rnd_mono; rewrite b54 in U; lra|rewrite (rnd_fmt 1 F2); lra]).
    destruct W as [W|W]; [lra|exfalso]. rewrite W in NE. unfold c09 in NE. rewrite b53 in NE. rewrite b54 in U. rewrite Rabs_right in NE by lra. unfold Rabs in NE. destruct (Rcase_abs _); lra.
  - set (m := (n + 1)%Z). assert (M : IZR n + 1 = IZR m) by (unfold m; rewrite plus_IZR; reflexivity). rewrite M. destruct (Z.eq_dec n (2 ^ 52)) as [En|En].
    + (* at the upper end nothing is rounded up *) assert (R : r + 1 / 2 <= IZR n + 1 / 2) by (rewrite En; lra). assert (F1 : fmt (IZR n)) by (apply fmt_int'; lia). apply Rle_lt_trans with (rnd (IZR n + 1 / 2)); [now apply rnd_mono|]. subst n m.
      assert (S : small (rnd (IZR (2 ^ 52) + 1 / 2))) by (apply small_64; change (IZR (2 ^ 52)) with 4503599627370496; change (IZR (2 ^ 64)) with 18446744073709551616; apply Rabs_le; lra).
      destruct (fadd_real _ _ _ _ (int_real (2 ^ 52) ltac:(lia)) f_half_real S) as (_ & _ & <-). replace (fadd _ _) with (S754_finite false 4503599627370496 0) by (vm_compute; reflexivity). unfold SF2R, F2R. cbn [cond_Zopp Fnum Fexp]. change (bpow radix2 0) with 1. change (IZR (2 ^ 52 + 1)) with 4503599627370497. lra.
    + set (k := Z.log2 n). assert (K : (2 ^ k <= n < 2 ^ (k + 1))%Z) by (unfold k; rewrite Z.add_1_r; apply Z.log2_spec; lia). assert (K0 : (0 <= k)%Z) by apply Z.log2_nonneg.
      assert (K51 : (k <= 51)%Z). { assert (k < 52)%Z; [|lia]. apply (Z.pow_lt_mono_r_iff 2); lia. }
      set (g := bpow radix2 (k - 52)). assert (G0 : 0 < g) by apply bpow_gt_0. assert (G1 : g <= 1 / 2) by (apply Rle_trans with (bpow radix2 (-1)); [apply bpow_le; lia|change (bpow radix2 (-1)) with (/ 2); lra]).
      assert (GI : forall z : Z, exists w : Z, IZR z - 1 / 2 = IZR w * g).
      { intros z. exists ((2 * z - 1) * 2 ^ (51 - k))%Z. unfold g. rewrite mult_IZR, minus_IZR, mult_IZR. replace (IZR (2 ^ (51 - k))) with (bpow radix2 (51 - k)) by (symmetry; apply (IZR_Zpower radix2); lia). rewrite Rmult_assoc, <- bpow_plus. replace (51 - k + (k - 52))%Z with (-1)%Z by lia. change (bpow radix2 (-1)) with (/ 2). field. }
      assert (RG : r <= IZR m - 1 / 2 - g).
      { destruct (Rle_or_lt (bpow radix2 k) (Rabs r)) as [Q|Q].
        - destruct (grid r k F Q) as (j & E). fold g in E. destruct (GI m) as (w & W). rewrite W, E. assert (J : IZR j * g < IZR w * g) by (rewrite <- W, <- E; lra). apply Rmult_lt_reg_r in J; [|exact G0]. apply lt_IZR in J. assert (J1 : IZR (j + 1) <= IZR w) by (apply IZR_le; lia). rewrite plus_IZR in J1. nra.
        - rewrite Rabs_right in Q by lra. assert (P2 : bpow radix2 k <= IZR n) by (rewrite <- (IZR_Zpower radix2) by lia; apply IZR_le; apply K). lra. }
      assert (Z1 : fmt (IZR m - g)).
      { replace (IZR m - g) with (IZR (m * 2 ^ (52 - k) - 1) * g).
        - apply fmt_int_exp; [|lia]. assert (E : (2 ^ (52 - k) * 2 ^ (k + 1) = 2 ^ 53)%Z) by (rewrite <- Z.pow_add_r by lia; f_equal; lia). assert (Pw : (1 <= 2 ^ (52 - k))%Z) by (change 1%Z with (2 ^ 0)%Z; apply Z.pow_le_mono_r; lia). unfold m. nia.
        - unfold g. rewrite minus_IZR, mult_IZR. change 2%Z with (radix_val radix2) at 1. rewrite IZR_Zpower by lia. rewrite Rmult_minus_distr_r, Rmult_assoc, <- bpow_plus. replace (52 - k + (k - 52))%Z with 0%Z by lia. change (bpow radix2 0) with 1. ring. }
      apply Rle_lt_trans with (IZR m - g); [|lra]. rewrite <- (rnd_fmt _ Z1). apply rnd_mono. lra.
Qed.
