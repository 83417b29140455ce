From Coq Require Import Reals SpecFloat Psatz Lra.
From Flocq Require Import Core BinarySingleNaN.
From Verif Require FloatProofs4.
From Verif Require Import Base Float FloatFun Single SingleProofs QuakeProofs SingleFun.
Local Open Scope R_scope.

(** ** Casts and comparisons *)
Lemma lt0_iff x r : is_single x r -> f_lt0 x = Rlt_bool r 0.
Proof.
  intros (V & F & <-). unfold f_lt0, f_zero. destruct x as [s|s| |s m e]; try discriminate F.
  - cbn. rewrite Rlt_bool_false; [destruct s; reflexivity|lra].
  - cbn [SF2R]. assert (P : 0 < IZR (Z.pos m)) by (apply IZR_lt; reflexivity). pose proof (bpow_gt_0 radix2 e) as Q. destruct s; unfold F2R; cbn [cond_Zopp Fnum Fexp].
    + rewrite Rlt_bool_true; [reflexivity|]. rewrite opp_IZR. nra.
    + rewrite Rlt_bool_false; [reflexivity|]. nra.
Qed.
Lemma ge0_iff x r : is_single x r -> f_ge0 x = Rle_bool 0 r.
Proof.
  intros H. pose proof (lt0_iff x r H) as L. destruct H as (V & F & <-). unfold f_ge0, f_lt0, f_zero in *. destruct x as [s|s| |s m e]; try discriminate F.
  - cbn in *. rewrite Rle_bool_true by lra. destruct s; reflexivity.
  - destruct (Rlt_bool_spec (SF2R radix2 (S754_finite s m e)) 0) as [A|A]; destruct s; try discriminate L.
    + rewrite Rle_bool_false by exact A. reflexivity.
    + rewrite Rle_bool_true by exact A. reflexivity.
Qed.
Lemma trunc_real x r : is_single x r -> f_trunc x = Some (Ztrunc r).
Proof.
  intros H. destruct H as (V & F & <-). destruct x as [s|s| |s m e]; try discriminate F.
  - cbn. f_equal. symmetry. apply (Ztrunc_IZR 0).
  - unfold f_trunc. destruct (FloatProofs4.int_part m e) as (v & -> & P & B). f_equal. destruct s.
    + rewrite FloatProofs4.real_neg. rewrite Ztrunc_opp. f_equal. rewrite Ztrunc_floor; [|pose proof (IZR_le 0 v P); lra]. symmetry. apply Zfloor_imp. rewrite plus_IZR. exact B.
    + assert (E : SF2R radix2 (S754_finite false m e) = IZR (Z.pos m) * bpow radix2 e) by reflexivity. rewrite E.
      rewrite Ztrunc_floor; [|pose proof (IZR_le 0 v P); lra]. symmetry. apply Zfloor_imp. rewrite plus_IZR. exact B.
Qed.
Lemma cast_real x r : is_single x r -> - IZR (2 ^ 31) <= r < IZR (2 ^ 31) -> s_to_int x = Some (Ztrunc r).
Proof.
  intros H B. unfold s_to_int, chk32. rewrite (trunc_real x r H). cbn [obind].
  assert (T : (- 2 ^ 31 <= Ztrunc r < 2 ^ 31)%Z).
  { split.
    - apply le_IZR. rewrite opp_IZR. destruct (Rle_or_lt 0 r) as [P|P].
      + rewrite Ztrunc_floor by exact P. apply Rle_trans with 0; [pose proof (IZR_lt 0 (2 ^ 31) eq_refl); lra|]. apply IZR_le. apply Zfloor_lub. exact P.
      + rewrite Ztrunc_ceil by lra. pose proof (Zceil_ub r). lra.
    - apply lt_IZR. destruct (Rle_or_lt 0 r) as [P|P].
      + rewrite Ztrunc_floor by exact P. pose proof (Zfloor_lb r). lra.
      + rewrite Ztrunc_ceil by lra. assert (Zceil r <= 0)%Z by (apply Zceil_glb; lra). apply IZR_le in H0. pose proof (IZR_lt 0 (2 ^ 31) eq_refl). lra. }
  destruct (Z.leb_spec (- 2 ^ 31) (Ztrunc r)); [|lia]. destruct (Z.ltb_spec (Ztrunc r) (2 ^ 31)); [|lia]. reflexivity.
Qed.
(** ** The numbers of the format *)
Lemma grid r k : fmt r -> bpow radix2 k <= Rabs r -> exists m, r = IZR m * bpow radix2 (k - 23).
Proof.
  intros F B. assert (Z0 : r <> 0). { intros ->. rewrite Rabs_R0 in B. pose proof (bpow_gt_0 radix2 k). lra. }
  pose proof (mag_ge_bpow radix2 r (k + 1)) as M. replace (k + 1 - 1)%Z with k in M by lia. specialize (M B).
  unfold fmt, generic_format in F. set (m0 := Ztrunc (scaled_mantissa radix2 fexp32 r)) in F. set (c := cexp radix2 fexp32 r) in F. assert (C : (k - 23 <= c)%Z) by (unfold c, cexp, fexp32, SpecFloat.fexp, SpecFloat.emin; lia).
  exists (m0 * 2 ^ (c - (k - 23)))%Z. rewrite F. unfold F2R. cbn [Fnum Fexp]. rewrite mult_IZR. change 2%Z with (radix_val radix2) at 1. rewrite IZR_Zpower by lia. rewrite Rmult_assoc, <- bpow_plus. f_equal. f_equal. lia.
Qed.
Lemma fmt_neg r : fmt r -> fmt (- r).
Proof. apply generic_format_opp. Qed.
Lemma rnd_neg r : rnd (- r) = - rnd r.
Proof. apply round_NE_opp. Qed.
Lemma int_of_large r : fmt r -> IZR (2 ^ 23) <= Rabs r -> exists m, r = IZR m.
Proof. intros F B. destruct (grid r 23 F B) as (m & E). exists m. rewrite E. change (bpow radix2 (23 - 23)) with 1. ring. Qed.
Lemma even_of_large r : fmt r -> IZR (2 ^ 24) <= Rabs r -> exists m, r = IZR (2 * m).
Proof. intros F B. destruct (grid r 24 F B) as (m & E). exists m. rewrite E, mult_IZR. change (bpow radix2 (24 - 23)) with 2. ring. Qed.
Lemma trunc_abs r : Rabs (IZR (Ztrunc r)) <= Rabs r.
Proof.
  destruct (Rle_or_lt 0 r) as [P|P].
  - rewrite Ztrunc_floor by exact P. assert (Q : (0 <= Zfloor r)%Z) by (apply Zfloor_lub; exact P). apply IZR_le in Q. rewrite !Rabs_right by lra. apply Zfloor_lb.
  - rewrite Ztrunc_ceil by lra. assert (Q : (Zceil r <= 0)%Z) by (apply Zceil_glb; lra). apply IZR_le in Q. rewrite !Rabs_left1 by lra. pose proof (Zceil_ub r). lra.
Qed.
Lemma fmt_int' m : (Z.abs m <= 2 ^ 24)%Z -> fmt (IZR m).
Proof.
  intros H. destruct (Z.eq_dec (Z.abs m) (2 ^ 24)) as [E|E]; [|apply fmt_int; lia].
  assert (m = 2 ^ 24 \/ m = - 2 ^ 24)%Z as [-> | ->] by lia; [|rewrite opp_IZR; apply fmt_neg]; apply (fmt_bpow 24); lia.
Qed.
Lemma fmt_trunc r : fmt r -> fmt (IZR (Ztrunc r)).
Proof.
  intros F. destruct (Rle_or_lt (IZR (2 ^ 23)) (Rabs r)) as [L|L].
  - destruct (int_of_large r F L) as (m & ->). rewrite Ztrunc_IZR. exact F.
  - apply fmt_int'. pose proof (trunc_abs r) as T. rewrite <- abs_IZR in T. assert (IZR (Z.abs (Ztrunc r)) < IZR (2 ^ 23)) as Q by lra. apply lt_IZR in Q. lia.
Qed.
(** a whole number of the format, converted *)
Lemma of_int m : fmt (IZR m) -> (Z.abs m <= 2 ^ 32)%Z -> is_single (s_of_int m) (IZR m).
Proof.
  intros F B. rewrite <- (rnd_fmt (IZR m) F). apply s_of_int_real. apply (small_bound _ 32); [lia|]. rewrite <- abs_IZR. change (bpow radix2 32) with (IZR (2 ^ 32)). now apply IZR_le.
Qed.
Lemma small_32 r : Rabs r <= IZR (2 ^ 32) -> small (rnd r).
Proof. intros H. apply (small_bound _ 32); [lia|]. exact H. Qed.

Definition c09 : R := 1 - bpow radix2 (-24).
Lemma b24 : bpow radix2 (-24) = / 16777216. Proof. reflexivity. Qed.
Lemma b25 : bpow radix2 (-25) = / 33554432. Proof. reflexivity. Qed.
Lemma fmt_c09 : fmt c09.
Proof. replace c09 with (IZR 16777215 * bpow radix2 (-24)) by (unfold c09; rewrite b24; lra). apply fmt_int_exp; [reflexivity|lia]. Qed.
Lemma s_half_real : is_single s_half (1 / 2). Proof. exact half_real. Qed.
Lemma s_09_real : is_single s_09 1.
Proof. repeat split. unfold s_09, SF2R, F2R. cbn [cond_Zopp Fnum Fexp]. change (bpow radix2 (-23)) with (/ 8388608). lra. Qed.
Lemma int_real z : (Z.abs z < 2 ^ 24)%Z -> is_single (s_of_int z) (IZR z).
Proof.
  intros H. rewrite <- (rnd_fmt (IZR z)) by now apply fmt_int. apply s_of_int_real. apply (small_bound _ 24); [lia|]. rewrite <- abs_IZR. change (bpow radix2 24) with (IZR (2 ^ 24)). apply IZR_le. lia.
Qed.
Lemma rnd_pos x : 0 <= x -> 0 <= rnd x.
Proof. intros H. rewrite <- rnd_0. now apply rnd_mono. Qed.
Lemma rnd_near x : 0 <= x <= IZR (2 ^ 24) -> Rabs (rnd x - x) <= x * / 16777216 + / 1000000000000000000000.
Proof.
  intros B. destruct (rnd_err x) as (d & h & D & H & ->). rewrite u_eq in D.
  assert (T : bpow radix2 (-150) <= / 1000000000000000000000). { apply Rle_trans with (bpow radix2 (-70)); [apply bpow_le; lia|]. change (bpow radix2 (-70)) with (/ IZR 1180591620717411303424). lra. }
  replace (x * (1 + d) + h - x) with (x * d + h) by ring. eapply Rle_trans; [apply Rabs_triang|]. rewrite Rabs_mult, (Rabs_right x) by lra. apply Rplus_le_compat; [apply Rmult_le_compat_l; lra|lra].
Qed.
(** rounding a number with one bit too many *)
Lemma rnd_tie p e : (2 ^ 23 <= p < 2 ^ 24)%Z -> (-149 <= e)%Z -> rnd ((IZR p + 1 / 2) * bpow radix2 e) = IZR (if Z.even p then p else p + 1) * bpow radix2 e.
Proof.
  intros P E. unfold rnd, round. assert (P1 : IZR (2 ^ 23) <= IZR p) by (apply IZR_le; lia). assert (P2 : IZR (p + 1) <= IZR (2 ^ 24)) by (apply IZR_le; lia). rewrite plus_IZR in P2. pose proof (bpow_gt_0 radix2 e) as Pe.
  change (IZR (2 ^ 23)) with 8388608 in P1. assert (C : cexp radix2 fexp32 ((IZR p + 1 / 2) * bpow radix2 e) = e).
  { unfold cexp. rewrite (mag_unique radix2 _ (24 + e)); [unfold SpecFloat.fexp, SpecFloat.emin; lia|]. rewrite Rabs_right by (apply Rle_ge, Rmult_le_pos; lra). replace (24 + e - 1)%Z with (23 + e)%Z by lia. rewrite !bpow_plus. change (bpow radix2 23) with 8388608. change (bpow radix2 24) with (IZR (2 ^ 24)). split; [apply Rmult_le_compat_r|apply Rmult_lt_compat_r]; lra. }
  unfold scaled_mantissa. rewrite C, Rmult_assoc, <- bpow_plus. replace (e + - e)%Z with 0%Z by lia. change (bpow radix2 0) with 1. rewrite Rmult_1_r. unfold F2R. cbn [Fnum Fexp]. f_equal. f_equal.
  unfold Znearest. rewrite (Zfloor_imp p) by (rewrite plus_IZR; lra). replace (IZR p + 1 / 2 - IZR p) with (/ 2) by field. rewrite Rcompare_Eq by reflexivity. destruct (Z.even p); cbn [negb]; [reflexivity|]. apply Zceil_imp. rewrite minus_IZR, plus_IZR. lra.
Qed.

(** ** zpl_floor *)
Lemma multiple_of_four r : fmt r -> IZR (2 ^ 25) <= Rabs r -> exists m, r = IZR (4 * m).
Proof. intros F B. destruct (grid r 25 F B) as (m & E). exists m. rewrite E, mult_IZR. change (bpow radix2 (25 - 23)) with 4. ring. Qed.
(** one more, beyond 2^24 *)
Lemma next_four r : fmt r -> IZR (2 ^ 24) <= r -> (exists m, r = IZR (4 * m)) -> rnd (r + 1) = r.
Proof.
  intros F L (m & E). destruct (Rle_or_lt (IZR (2 ^ 25)) r) as [B|B].
  - pose proof (rnd_nearest (r + 1) r F) as NE. replace (r - (r + 1)) with (-1) in NE by ring. rewrite (Rabs_left (-1)) in NE by lra. apply Rabs_le_inv in NE. assert (U : r <= rnd (r + 1)) by (rewrite <- (rnd_fmt r F) at 1; apply rnd_mono; lra). change (IZR (2 ^ 25)) with 33554432 in B.
    destruct (multiple_of_four _ (fmt_rnd (r + 1))) as (m' & E'); [change (IZR (2 ^ 25)) with 33554432; rewrite Rabs_right; lra|]. rewrite E' in *. rewrite E in *. assert (X : IZR (4 * m') <= IZR (4 * m + 2)) by (rewrite plus_IZR; lra). apply le_IZR in X. apply le_IZR in U. f_equal. lia.
  - rewrite E in *. apply lt_IZR in B. apply le_IZR in L. replace (IZR (4 * m) + 1) with ((IZR (2 * m) + 1 / 2) * bpow radix2 1) by (change (bpow radix2 1) with 2; rewrite !mult_IZR; lra). rewrite rnd_tie by lia. rewrite Z.even_mul. cbn [Z.even orb]. change (bpow radix2 1) with 2. rewrite !mult_IZR. lra.
Qed.
Lemma next_two r m : fmt r -> IZR (2 ^ 24) <= r -> r = IZR (4 * m + 2) -> rnd (r + 1) = r + 2.
Proof.
  intros F L E. assert (B : (4 * m + 2 < 2 ^ 25)%Z). { apply Z.nle_gt. intros B. apply IZR_le in B. rewrite <- E in B. change (IZR (2 ^ 25)) with 33554432 in B. destruct (multiple_of_four r F) as (j & J); [change (IZR (2 ^ 25)) with 33554432; rewrite Rabs_right; lra|]. rewrite J in E. apply eq_IZR in E. lia. }
  rewrite E in L. apply le_IZR in L. rewrite E. replace (IZR (4 * m + 2) + 1) with ((IZR (2 * m + 1) + 1 / 2) * bpow radix2 1) by (change (bpow radix2 1) with 2; rewrite !plus_IZR, !mult_IZR; lra). rewrite rnd_tie by lia. replace (Z.even (2 * m + 1)) with false by (symmetry; rewrite Z.even_add, Z.even_mul; reflexivity). change (bpow radix2 1) with 2. rewrite !plus_IZR, !mult_IZR. lra.
Qed.
Lemma even_four r : fmt r -> IZR (2 ^ 24) <= Rabs r -> (exists m, r = IZR (4 * m)) \/ (exists m, r = IZR (4 * m + 2)).
Proof.
  intros F L. destruct (even_of_large r F L) as (m & E). pose proof (Z.div_mod m 2 ltac:(lia)) as D. pose proof (Z.mod_pos_bound m 2 ltac:(lia)) as B. assert (m mod 2 = 0 \/ m mod 2 = 1)%Z as [X|X] by lia; [left|right]; exists (m / 2)%Z; rewrite E; f_equal; lia.
Qed.
Lemma rnd_less r : rnd (r - 1) = - rnd (- r + 1).
Proof. rewrite <- rnd_neg. f_equal. ring. Qed.
Lemma floor_eq x r : is_single x r -> - IZR (2 ^ 31) <= r < 0 -> floorf x = Some (s_of_int (Ztrunc (rnd (r - 1)))).
Proof.
  intros H B. unfold floorf. rewrite (ge0_iff x r H), Rle_bool_false by lra. pose proof (real_fmt x r H) as F. change (IZR (2 ^ 31)) with 2147483648 in B.
  assert (A : Rabs (r - 1) <= IZR (2 ^ 32)) by (change (IZR (2 ^ 32)) with 4294967296; apply Rabs_le; lra).
  rewrite (cast_real _ (rnd (r - 1))); [reflexivity|apply ssub_real; [exact H|apply s_09_real|now apply small_32]|]. change (IZR (2 ^ 31)) with 2147483648. split.
  - destruct (Rle_or_lt (- 2147483648) (rnd (r - 1))) as [Q|Q]; [exact Q|exfalso]. destruct (Rle_or_lt r (- 2147483647)) as [L|L].
    + rewrite rnd_less, next_four in Q; [lra|now apply fmt_neg|change (IZR (2 ^ 24)) with 16777216; lra|]. destruct (multiple_of_four (- r)) as (m & E); [now apply fmt_neg|change (IZR (2 ^ 25)) with 33554432; rewrite Rabs_right; lra|]. now exists m.
    + assert (N : fmt (- 2147483648)) by (apply fmt_neg; apply (fmt_bpow 31); lia). apply (Rlt_not_le _ _ Q). rewrite <- (rnd_fmt _ N). apply rnd_mono. lra.
  - apply Rle_lt_trans with 0; [|lra]. rewrite <- rnd_0. apply rnd_mono. lra.
Qed.
Lemma trunc_neg v n : (n <= 0)%Z -> IZR n - 1 < v <= IZR n -> Ztrunc v = n.
Proof. intros N B. apply IZR_le in N. rewrite Ztrunc_ceil by lra. apply Zceil_imp. rewrite minus_IZR. lra. Qed.
(** the numbers next to a negative power of two, towards zero *)
Definition next_to_power (r : R) : Prop := exists k, (0 <= k <= 22)%Z /\ r = - (bpow radix2 k - bpow radix2 (k - 24)).
(** between two neighbouring whole numbers *)
Lemma floor_between x r n : is_single x r -> (n <= -1)%Z -> IZR n < r < IZR n + 1 -> ~ next_to_power r -> Ztrunc (rnd (r - 1)) = n.
Proof.
  intros H N B T. pose proof (real_fmt x r H) as F. set (t := r - 1). pose proof (IZR_le _ _ N) as N'.
  assert (N23 : (- 2 ^ 23 <= n)%Z).
  { apply Z.nlt_ge. intros L. assert (L' : (n + 1 <= - 2 ^ 23)%Z) by lia. apply IZR_le in L'. rewrite plus_IZR, opp_IZR in L'. destruct (int_of_large r F) as (m & ->); [rewrite Rabs_left1 by lra; lra|]. destruct B as [B1 B2]. rewrite <- plus_IZR in B2. apply lt_IZR in B1, B2. lia. }
  apply trunc_neg; [lia|]. split; [|rewrite <- (rnd_fmt (IZR n)) by (apply fmt_int'; lia); apply rnd_mono; unfold t; lra].
  set (k := Z.log2 (- n)). assert (K : (2 ^ k <= - n < 2 ^ (k + 1))%Z) by (unfold k; rewrite Z.add_1_r; apply Z.log2_spec; lia). assert (K0 : (0 <= k)%Z) by apply Z.log2_nonneg.
  assert (K23 : (k <= 23)%Z). { apply (Z.pow_le_mono_r_iff 2); lia. }
  set (g := bpow radix2 (k - 24)). assert (G2 : bpow radix2 (k - 23) = 2 * g) by (unfold g; replace (k - 23)%Z with (1 + (k - 24))%Z by lia; rewrite bpow_plus; reflexivity).
  assert (G0 : 0 < g) by apply bpow_gt_0. assert (G1 : g <= 1 / 2) by (apply Rle_trans with (bpow radix2 (-1)); [apply bpow_le; lia|change (bpow radix2 (-1)) with (/ 2); lra]).
  assert (GI : forall z : Z, exists w : Z, IZR z = IZR w * (2 * g)) by (intros z; exists (z * 2 ^ (23 - k))%Z; rewrite <- G2; rewrite mult_IZR; change 2%Z with (radix_val radix2); rewrite IZR_Zpower by lia; rewrite Rmult_assoc, <- bpow_plus; replace (23 - k + (k - 23))%Z with 0%Z by lia; change (bpow radix2 0) with 1; ring).
  assert (PK : bpow radix2 k <= - IZR n) by (rewrite <- opp_IZR, <- (IZR_Zpower radix2) by lia; apply IZR_le; apply K).
  assert (RG : IZR n + g < r \/ (r = IZR n + g /\ IZR n = - bpow radix2 k)).
  { destruct (Rle_or_lt (bpow radix2 k) (Rabs r)) as [L|L].
    - left. destruct (grid r k F L) as (m & E). rewrite G2 in E. destruct (GI n) as (w & W). rewrite W, E in *. destruct B as [B _]. apply Rmult_lt_reg_r in B; [|lra]. apply lt_IZR in B. assert (W1 : IZR (w + 1) <= IZR m) by (apply IZR_le; lia). rewrite plus_IZR in W1. nra.
    - rewrite Rabs_left1 in L by lra. assert (En : IZR n = - bpow radix2 k). { assert (P : (- n <= 2 ^ k)%Z). { apply Z.nlt_ge. intros P. assert (P' : (2 ^ k + 1 <= - n)%Z) by lia. apply IZR_le in P'. rewrite plus_IZR, opp_IZR in P'. change (2 ^ k)%Z with (Z.pow radix2 k) in P'. rewrite IZR_Zpower in P' by lia. lra. } apply IZR_le in P. change (2 ^ k)%Z with (Z.pow radix2 k) in P. rewrite IZR_Zpower in P by lia. rewrite opp_IZR in P. lra. }
      destruct (Rle_or_lt (bpow radix2 (k - 1)) (Rabs r)) as [L1|L1].
      + destruct (grid r (k - 1) F L1) as (m & E). replace (k - 1 - 23)%Z with (k - 24)%Z in E by lia. fold g in E. destruct (GI n) as (w & W). assert (M : (2 * w < m)%Z). { apply lt_IZR. apply Rmult_lt_reg_r with g; [exact G0|]. rewrite <- E, mult_IZR. lra. }
        destruct (Z.eq_dec m (2 * w + 1)) as [M1|M1]; [right; split; [rewrite E, W, M1, plus_IZR, mult_IZR; ring|exact En]|left]. assert (M2 : (2 * w + 2 <= m)%Z) by lia. apply IZR_le in M2. rewrite plus_IZR, mult_IZR in M2. rewrite E, W. nra.
      + left. rewrite Rabs_left1 in L1 by lra. assert (P : bpow radix2 k = 2 * bpow radix2 (k - 1)) by (replace k with (1 + (k - 1))%Z at 1 by lia; rewrite bpow_plus; reflexivity). assert (Q : g <= bpow radix2 (k - 1)) by (apply bpow_le; lia). lra. }
  destruct RG as [RG|[E En]].
  - assert (Z1 : fmt (IZR n - 1 + 2 * g)).
    { rewrite <- G2. replace (IZR n - 1 + bpow radix2 (k - 23)) with (IZR ((n - 1) * 2 ^ (23 - k) + 1) * bpow radix2 (k - 23)).
      - apply fmt_int_exp; [|lia]. assert (E : (2 ^ (23 - k) * 2 ^ (k + 1) = 2 ^ 24)%Z) by (rewrite <- Z.pow_add_r by lia; f_equal; lia). assert (P : (1 <= 2 ^ (23 - k))%Z) by (change 1%Z with (2 ^ 0)%Z; apply Z.pow_le_mono_r; lia). nia.
      - rewrite plus_IZR, mult_IZR, minus_IZR. change 2%Z with (radix_val radix2) at 1. rewrite IZR_Zpower by lia. rewrite Rmult_plus_distr_r, Rmult_assoc, <- bpow_plus. replace (23 - k + (k - 23))%Z with 0%Z by lia. change (bpow radix2 0) with 1. ring. }
    assert (Z0 : fmt (IZR n - 1)) by (rewrite <- minus_IZR; apply fmt_int'; lia). assert (TL : IZR n - 1 + g < t) by (unfold t; lra).
    assert (V0 : IZR n - 1 <= rnd t) by (rewrite <- (rnd_fmt _ Z0); apply rnd_mono; lra).
    destruct V0 as [V0|V0]; [exact V0|exfalso]. pose proof (rnd_nearest t _ Z1) as NE. rewrite <- V0 in NE. rewrite Rabs_left1 in NE by lra.
    destruct (Rle_or_lt (IZR n - 1 + 2 * g) t) as [L|L].
    + apply rnd_mono in L. rewrite (rnd_fmt _ Z1) in L. lra.
    + rewrite Rabs_right in NE by lra. lra.
  - destruct (Z.eq_dec k 23) as [K'|K']; [|exfalso; apply T; exists k; split; [lia|fold g; lra]]. unfold t. rewrite rnd_less, E, En. unfold g. rewrite K'. change (bpow radix2 (23 - 24)) with (/ 2). change (bpow radix2 23) with 8388608. replace (- (- (8388608) + / 2) + 1) with ((IZR 8388608 + 1 / 2) * bpow radix2 0) by (change (bpow radix2 0) with 1; lra). rewrite rnd_tie by lia. cbn [Z.even]. change (bpow radix2 0) with 1. lra.
Qed.
Lemma floor_next_to k : (0 <= k <= 22)%Z -> Ztrunc (rnd (- (bpow radix2 k - bpow radix2 (k - 24)) - 1)) = (- (2 ^ k + 1))%Z.
Proof.
  intros K. rewrite rnd_less, Ropp_involutive. set (p := (2 ^ 23 + 2 ^ (23 - k) - 1)%Z). assert (P1 : (2 ^ 23 <= p < 2 ^ 24)%Z). { unfold p. assert (2 ^ 1 <= 2 ^ (23 - k))%Z by (apply Z.pow_le_mono_r; lia). assert (2 ^ (23 - k) <= 2 ^ 23)%Z by (apply Z.pow_le_mono_r; lia). lia. }
  assert (Pe : Z.even p = false). { unfold p. rewrite Z.even_sub, Z.even_add, !Z.even_pow by lia. reflexivity. }
  assert (I : forall e, (0 <= e)%Z -> IZR (2 ^ e) = bpow radix2 e) by (intros e He; apply (IZR_Zpower radix2); exact He).
  assert (E1 : bpow radix2 23 * bpow radix2 (k - 23) = bpow radix2 k) by (rewrite <- bpow_plus; f_equal; lia). assert (E2 : bpow radix2 (23 - k) * bpow radix2 (k - 23) = 1) by (rewrite <- bpow_plus; replace (23 - k + (k - 23))%Z with 0%Z by lia; reflexivity). assert (E3 : bpow radix2 (k - 23) = 2 * bpow radix2 (k - 24)) by (replace (k - 23)%Z with (1 + (k - 24))%Z by lia; rewrite bpow_plus; reflexivity).
  assert (IP : IZR p = bpow radix2 23 + bpow radix2 (23 - k) - 1) by (unfold p; rewrite minus_IZR, plus_IZR, !I by lia; reflexivity).
  replace (bpow radix2 k - bpow radix2 (k - 24) + 1) with ((IZR p + 1 / 2) * bpow radix2 (k - 23)) by (rewrite IP; lra). rewrite rnd_tie by lia. rewrite Pe, plus_IZR, IP. replace (- ((bpow radix2 23 + bpow radix2 (23 - k) - 1 + 1) * bpow radix2 (k - 23))) with (- (bpow radix2 k + 1)) by lra. rewrite <- I by lia. rewrite <- plus_IZR, <- opp_IZR. apply Ztrunc_IZR.
Qed.
(** whole numbers *)
Lemma floor_whole n : (- 2 ^ 24 < n <= -1)%Z -> Ztrunc (rnd (IZR n - 1)) = (n - 1)%Z.
Proof. intros N. rewrite <- minus_IZR, rnd_fmt by (apply fmt_int'; lia). apply Ztrunc_IZR. Qed.

(** ** zpl_roundf *)
Lemma half_above r n : fmt r -> 0 <= r -> r <= IZR (2 ^ 23) -> r <> 1 / 2 - bpow radix2 (-25) -> IZR n - 1 / 2 <= r < IZR n + 1 / 2 -> Zfloor (rnd (r + 1 / 2)) = n.
Proof.
  intros F P L X B. assert (N0 : (0 <= n)%Z) by (assert (Q : IZR (-1) < IZR n) by lra; apply lt_IZR in Q; lia). assert (N1 : (n <= 2 ^ 23)%Z) by (assert (Q : IZR n < IZR (2 ^ 23 + 1)) by (rewrite plus_IZR; lra); apply lt_IZR in Q; lia).
  apply Zfloor_imp. split; [rewrite <- (rnd_fmt (IZR n)) by (apply fmt_int'; lia); apply rnd_mono; lra|]. rewrite plus_IZR.
  destruct (Z.eq_dec n 0) as [->|Nn].
  - (* below one half *)
    assert (U : r + 1 / 2 < 1 - bpow radix2 (-25)).
    { destruct (Rle_or_lt (/ 4) r) as [Q|Q]; [|rewrite b25; lra]. destruct (grid r (-2) F) as (m & E); [change (bpow radix2 (-2)) with (/ 4); rewrite Rabs_right; lra|]. change (bpow radix2 (-2 - 23)) with (/ 33554432) in E. rewrite b25 in *.
      assert (M1 : IZR m < IZR 16777216) by lra. apply lt_IZR in M1. assert (M2 : m <> 16777215%Z) by (intros ->; apply X; lra). assert (M3 : (m <= 16777214)%Z) by lia. apply IZR_le in M3. lra. }
    pose proof fmt_c09 as F1. pose proof (rnd_nearest (r + 1 / 2) _ F1) as NE. assert (F2 : fmt 1) by (apply (fmt_int 1); reflexivity). assert (W : rnd (r + 1 / 2) <= 1) by (apply Rle_trans with (rnd 1); [apply rnd_mono; rewrite b25 in U; lra|rewrite (rnd_fmt 1 F2); lra]).
    destruct W as [W|W]; [lra|exfalso]. rewrite W in NE. unfold c09 in NE. rewrite b24 in NE. rewrite b25 in U. rewrite Rabs_right in NE by lra. unfold Rabs in NE. destruct (Rcase_abs _); lra.
  - set (m := (n + 1)%Z). assert (M : IZR n + 1 = IZR m) by (unfold m; rewrite plus_IZR; reflexivity). rewrite M. destruct (Z.eq_dec n (2 ^ 23)) as [En|En].
    + (* at the upper end nothing is rounded up *) assert (R : r + 1 / 2 <= IZR n + 1 / 2) by (rewrite En; lra). assert (F1 : fmt (IZR n)) by (apply fmt_int'; lia). apply Rle_lt_trans with (rnd (IZR n + 1 / 2)); [now apply rnd_mono|]. subst n m.
      assert (S : small (rnd (IZR (2 ^ 23) + 1 / 2))) by (apply small_32; change (IZR (2 ^ 23)) with 8388608; change (IZR (2 ^ 32)) with 4294967296; apply Rabs_le; lra).
      destruct (sadd_real _ _ _ _ (int_real (2 ^ 23) ltac:(lia)) s_half_real S) as (_ & _ & <-). replace (sadd _ _) with (S754_finite false 8388608 0) by (vm_compute; reflexivity). unfold SF2R, F2R. cbn [cond_Zopp Fnum Fexp]. change (bpow radix2 0) with 1. change (IZR (2 ^ 23 + 1)) with 8388609. lra.
    + set (k := Z.log2 n). assert (K : (2 ^ k <= n < 2 ^ (k + 1))%Z) by (unfold k; rewrite Z.add_1_r; apply Z.log2_spec; lia). assert (K0 : (0 <= k)%Z) by apply Z.log2_nonneg.
      assert (K22 : (k <= 22)%Z). { assert (k < 23)%Z; [|lia]. apply (Z.pow_lt_mono_r_iff 2); lia. }
      set (g := bpow radix2 (k - 23)). assert (G0 : 0 < g) by apply bpow_gt_0. assert (G1 : g <= 1 / 2) by (apply Rle_trans with (bpow radix2 (-1)); [apply bpow_le; lia|change (bpow radix2 (-1)) with (/ 2); lra]).
      assert (GI : forall z : Z, exists w : Z, IZR z - 1 / 2 = IZR w * g).
      { intros z. exists ((2 * z - 1) * 2 ^ (22 - k))%Z. unfold g. rewrite mult_IZR, minus_IZR, mult_IZR. replace (IZR (2 ^ (22 - k))) with (bpow radix2 (22 - k)) by (symmetry; apply (IZR_Zpower radix2); lia). rewrite Rmult_assoc, <- bpow_plus. replace (22 - k + (k - 23))%Z with (-1)%Z by lia. change (bpow radix2 (-1)) with (/ 2). field. }
      assert (RG : r <= IZR m - 1 / 2 - g).
      { destruct (Rle_or_lt (bpow radix2 k) (Rabs r)) as [Q|Q].
        - destruct (grid r k F Q) as (j & E). fold g in E. destruct (GI m) as (w & W). rewrite W, E. assert (J : IZR j * g < IZR w * g) by (rewrite <- W, <- E; lra). apply Rmult_lt_reg_r in J; [|exact G0]. apply lt_IZR in J. assert (J1 : IZR (j + 1) <= IZR w) by (apply IZR_le; lia). rewrite plus_IZR in J1. nra.
        - rewrite Rabs_right in Q by lra. assert (P2 : bpow radix2 k <= IZR n) by (rewrite <- (IZR_Zpower radix2) by lia; apply IZR_le; apply K). lra. }
      assert (Z1 : fmt (IZR m - g)).
      { replace (IZR m - g) with (IZR (m * 2 ^ (23 - k) - 1) * g).
        - apply fmt_int_exp; [|lia]. assert (E : (2 ^ (23 - k) * 2 ^ (k + 1) = 2 ^ 24)%Z) by (rewrite <- Z.pow_add_r by lia; f_equal; lia). assert (Pw : (1 <= 2 ^ (23 - k))%Z) by (change 1%Z with (2 ^ 0)%Z; apply Z.pow_le_mono_r; lia). unfold m. nia.
        - unfold g. rewrite minus_IZR, mult_IZR. change 2%Z with (radix_val radix2) at 1. rewrite IZR_Zpower by lia. rewrite Rmult_minus_distr_r, Rmult_assoc, <- bpow_plus. replace (23 - k + (k - 23))%Z with 0%Z by lia. change (bpow radix2 0) with 1. ring. }
      apply Rle_lt_trans with (IZR m - g); [|lra]. rewrite <- (rnd_fmt _ Z1). apply rnd_mono. lra.
Qed.
