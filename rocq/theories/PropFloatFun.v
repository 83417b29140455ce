(** C98: rounding and remainders of doubles. *)
From Coq Require Import Reals SpecFloat Psatz Lra.
From Flocq Require Import Core BinarySingleNaN.
From Verif Require Import Base Float FloatSpec FloatProofs FloatProofs4 ClockProofs FloatFun FloatFunProofs.
Local Open Scope R_scope.

(** a call that gives a finite double, standing for [r] *)
Definition gives (o : option f64) (r : R) : Prop := exists y, o = Some y /\ is_real y r.
(** n is the floor, the ceiling, the nearest whole number to r with halves going away from zero *)
Definition floor_of (r : R) (n : Z) : Prop := IZR n <= r < IZR n + 1.
Definition ceil_of (r : R) (n : Z) : Prop := IZR n - 1 < r <= IZR n.
Definition round_of (r : R) (n : Z) : Prop := (0 <= r -> IZR n - 1 / 2 <= r < IZR n + 1 / 2) /\ (r <= 0 -> IZR n - 1 / 2 < r <= IZR n + 1 / 2).
Definition whole (r : R) : Prop := exists n, r = IZR n.
(** what fits into zpl_i64 *)
Definition fits (r : R) : Prop := - IZR (2 ^ 63) <= r < IZR (2 ^ 63).

Lemma gives_unique o r s : gives o r -> gives o s -> r = s.
Proof. intros (y & -> & _ & _ & <-) (z & E & _ & _ & <-). now injection E as <-. Qed.
Lemma fits_abs r n : fits r -> Rabs (IZR n) <= Rabs r -> (Z.abs n <= 2 ^ 64)%Z.
Proof.
  intros F H. apply le_IZR. rewrite abs_IZR. eapply Rle_trans; [exact H|]. unfold fits in F. change (IZR (2 ^ 63)) with 9223372036854775808 in F. change (IZR (2 ^ 64)) with 18446744073709551616. apply Rabs_le. lra.
Qed.
Lemma gives_trunc v : fmt v -> Rabs v <= IZR (2 ^ 64) -> gives (Some (f_of_int (Ztrunc v))) (IZR (Ztrunc v)).
Proof.
  intros F L. eexists. split; [reflexivity|]. apply of_int; [now apply fmt_trunc|]. apply le_IZR. rewrite abs_IZR. eapply Rle_trans; [apply trunc_abs|exact L].
Qed.

(** ** zpl_floor64 *)
Theorem C98_floor (x : f64) (r : R) (n : Z) : is_real x r -> fits r -> floor_of r n -> 0 <= r \/ (~ whole r /\ r <= - bpow radix2 (-54)) \/ r <= - IZR (2 ^ 53) ->
  gives (floor64 x) (IZR n).
Proof.
  intros H F B C. pose proof (real_fmt x r H) as Fm. unfold floor_of in B. unfold fits in F. destruct (Rle_or_lt 0 r) as [P|P].
  - assert (E : floor64 x = Some (f_of_int (Ztrunc r))). { unfold floor64. rewrite (ge0_iff x r H), Rle_bool_true by exact P. now rewrite (cast_real x r H F). }
    assert (T : Ztrunc r = n) by (rewrite Ztrunc_floor by exact P; apply Zfloor_imp; rewrite plus_IZR; exact B). rewrite E, <- T. apply gives_trunc; [exact Fm|]. change (IZR (2 ^ 63)) with 9223372036854775808 in F. change (IZR (2 ^ 64)) with 18446744073709551616. rewrite Rabs_right; lra.
  - rewrite (floor_eq x r H) by lra. assert (L : Rabs (rnd (r - c09)) <= IZR (2 ^ 64)).
    { assert (F64 : fmt (- IZR (2 ^ 64))) by (apply fmt_neg; apply (fmt_bpow 64); lia). apply Rabs_le. split.
      - rewrite <- (rnd_fmt _ F64). apply rnd_mono. unfold c09. rewrite b53. change (IZR (2 ^ 63)) with 9223372036854775808 in F. change (IZR (2 ^ 64)) with 18446744073709551616. lra.
      - apply Rle_trans with 0; [|apply (IZR_le 0); discriminate]. rewrite <- rnd_0. apply rnd_mono. unfold c09. rewrite b53. lra. }
    assert (T : Ztrunc (rnd (r - c09)) = n).
    { destruct C as [C|[[C D]|C]]; [lra| |].
      - apply (floor_between x r n H); [|split; [|apply B]|exact D].
        + assert (Q : IZR n < IZR 0) by lra. apply lt_IZR in Q. lia.
        + destruct (proj1 B) as [Q|Q]; [exact Q|]. destruct C. exists n. now symmetry.
      - rewrite (floor_large r Fm C). change (IZR (2 ^ 53)) with 9007199254740992 in C. destruct (int_of_large r Fm) as (m & E); [change (IZR (2 ^ 52)) with 4503599627370496; rewrite Rabs_left1; lra|]. rewrite E, Ztrunc_IZR. rewrite E in B. rewrite <- plus_IZR in B. destruct B as [B1 B2]. apply le_IZR in B1. apply lt_IZR in B2. lia. }
    rewrite <- T. apply gives_trunc; [apply fmt_rnd|exact L].
Qed.
(** Negative whole numbers down to -2^53 are rounded to the next one below, numbers just below zero to zero. *)
Theorem C98_floor_whole_refuted (x : f64) (n : Z) : is_real x (IZR n) -> (- 2 ^ 53 < n <= -1)%Z -> gives (floor64 x) (IZR (n - 1)).
Proof.
  intros H N. rewrite (floor_eq x _ H), (floor_whole n N).
  - eexists. split; [reflexivity|]. apply of_int; [apply fmt_int'; lia|lia].
  - rewrite <- opp_IZR. split; [apply IZR_le; lia|apply (IZR_lt n 0); lia].
Qed.
Theorem C98_floor_tiny_refuted (x : f64) (r : R) : is_real x r -> - bpow radix2 (-54) < r < 0 -> gives (floor64 x) 0.
Proof.
  intros H B. rewrite (floor_eq x _ H), (floor_tiny r B).
  - eexists. split; [reflexivity|]. apply (of_int 0); [apply (fmt_int 0); reflexivity|discriminate].
  - change (IZR (2 ^ 63)) with 9223372036854775808. rewrite b54 in B. lra.
Qed.
(** So this is when zpl_floor64 gives the floor. *)
Theorem C98_floor_iff (x : f64) (r : R) (n : Z) : is_real x r -> fits r -> floor_of r n ->
  gives (floor64 x) (IZR n) <-> 0 <= r \/ (~ whole r /\ r <= - bpow radix2 (-54)) \/ r <= - IZR (2 ^ 53).
Proof.
  intros H F B. split; [|now apply C98_floor]. intros G. destruct (Rle_or_lt 0 r) as [P|P]; [now left|right]. destruct (Rle_or_lt r (- IZR (2 ^ 53))) as [L|L]; [now right|left].
  destruct (Rle_or_lt r (- bpow radix2 (-54))) as [T|T].
  - split; [|exact T]. intros (m & ->). assert (m = n) as ->. { destruct B as [B1 B2]. rewrite <- plus_IZR in B2. apply le_IZR in B1. apply lt_IZR in B2. lia. }
    pose proof (C98_floor_whole_refuted x n H) as W. rewrite <- opp_IZR in L. apply lt_IZR in L. apply (lt_IZR n 0) in P. specialize (W ltac:(lia)). pose proof (gives_unique _ _ _ G W) as E. apply eq_IZR in E. lia.
  - pose proof (gives_unique _ _ _ G (C98_floor_tiny_refuted x r H ltac:(lra))) as E. rewrite b54 in T. destruct B as [B1 B2]. lra.
Qed.
Example C98_floor_ex : floor64 (f_of_int (-3)) = Some (f_of_int (-4)) /\ floor64 (fadd (f_of_int (-3)) f_half) = Some (f_of_int (-3)) /\ floor64 (fadd (f_of_int 3) f_half) = Some (f_of_int 3).
Proof. vm_compute. repeat split; reflexivity. Qed.
(** Beyond the range of zpl_i64, and for infinities and NaN, the cast is undefined. *)
Theorem C98_floor_undefined (x : f64) (r : R) : is_real x r -> IZR (2 ^ 63) <= r -> floor64 x = None /\ ceil64 x = None.
Proof.
  intros H B. pose proof (IZR_lt 0 (2 ^ 63) eq_refl) as P. assert (E : f_to_i64 x = None).
  { unfold f_to_i64. rewrite (trunc_real x r H). cbn [obind]. assert (T : (2 ^ 63 <= Ztrunc r)%Z) by (rewrite Ztrunc_floor by lra; apply Zfloor_lub; exact B). destruct (Z.ltb_spec (Ztrunc r) (2 ^ 63)); [lia|]. now rewrite Bool.andb_false_r. }
  unfold floor64, ceil64. rewrite (ge0_iff x r H), Rle_bool_true by lra. now rewrite E.
Qed.
Theorem C98_not_finite (x : f64) : is_finite_SF x = false -> floor64 x = None /\ ceil64 x = None /\ round64 x = None.
Proof. destruct x as [s|s| |s m e]; try discriminate; intros _; try destruct s; repeat split; reflexivity. Qed.

(** ** zpl_ceil64 *)
Theorem C98_ceil (x : f64) (r : R) (n : Z) : is_real x r -> fits r -> ceil_of r n -> r < 0 \/ ~ whole r -> gives (ceil64 x) (IZR n).
Proof.
  intros H F B C. pose proof (real_fmt x r H) as Fm. unfold ceil64. rewrite (cast_real x r H F), (lt0_iff x r H). cbn [obind]. unfold ceil_of in B. unfold fits in F. destruct (Rlt_bool_spec r 0) as [P|P].
  - assert (T : Ztrunc r = n) by (rewrite Ztrunc_ceil by lra; apply Zceil_imp; rewrite minus_IZR; exact B). rewrite <- T. apply gives_trunc; [exact Fm|]. change (IZR (2 ^ 63)) with 9223372036854775808 in F. change (IZR (2 ^ 64)) with 18446744073709551616. rewrite Rabs_left1; lra.
  - destruct C as [C|C]; [lra|]. assert (Q : r < IZR n) by (destruct (proj2 B) as [Q|Q]; [exact Q|destruct C; exists n; exact Q]).
    assert (T : Ztrunc r = (n - 1)%Z) by (rewrite Ztrunc_floor by exact P; apply Zfloor_imp; rewrite plus_IZR, minus_IZR; split; lra). rewrite T. replace (n - 1 + 1)%Z with n by lia.
    assert (N : (0 <= n <= 2 ^ 52)%Z).
    { split; [apply le_IZR; lra|]. apply Z.nlt_ge. intros L. destruct (int_of_large r Fm) as (m & E); [|destruct C; now exists m]. assert (L' : (2 ^ 52 <= n - 1)%Z) by lia. apply IZR_le in L'. rewrite minus_IZR in L'. rewrite Rabs_right by lra. lra. }
    unfold Random.chk64. destruct (Z.leb_spec (- 2 ^ 63) n); [|lia]. destruct (Z.ltb_spec n (2 ^ 63)); [|lia]. cbn. eexists. split; [reflexivity|]. apply of_int; [apply fmt_int'; lia|lia].
Qed.
(** Whole numbers that are not negative are rounded to the next one above: zpl_ceil64(0) is 1. *)
Theorem C98_ceil_whole_refuted (x : f64) (n : Z) : is_real x (IZR n) -> (0 <= n < 2 ^ 53)%Z -> gives (ceil64 x) (IZR (n + 1)).
Proof.
  intros H N. unfold ceil64. rewrite (cast_real x _ H), (lt0_iff x _ H).
  - cbn [obind]. rewrite Rlt_bool_false by (apply (IZR_le 0 n); lia). rewrite Ztrunc_IZR. unfold Random.chk64. destruct (Z.leb_spec (- 2 ^ 63) (n + 1)); [|lia]. destruct (Z.ltb_spec (n + 1) (2 ^ 63)); [|lia]. cbn. eexists. split; [reflexivity|]. apply of_int; [apply fmt_int'; lia|lia].
  - rewrite <- opp_IZR. split; [apply IZR_le; lia|apply IZR_lt; lia].
Qed.
Example C98_ceil_ex : ceil64 (f_of_int 3) = Some (f_of_int 4) /\ ceil64 (fadd (f_of_int 3) f_half) = Some (f_of_int 4) /\ ceil64 (f_of_int (-3)) = Some (f_of_int (-3)).
Proof. vm_compute. repeat split; reflexivity. Qed.

(** ** zpl_round64 *)
Lemma round_pos x r : is_real x r -> 0 <= r <= IZR (2 ^ 62) -> gives (round64 x) (IZR (Zfloor (rnd (r + 1 / 2)))).
Proof.
  intros H B. unfold round64. rewrite (ge0_iff x r H), Rle_bool_true by lra. assert (L : 0 <= rnd (r + 1 / 2)) by (apply rnd_pos; lra).
  assert (U : rnd (r + 1 / 2) <= IZR (2 ^ 62)). { destruct (Rle_or_lt r (IZR (2 ^ 62) - 1)) as [Q|Q]; [apply Rle_trans with (rnd (IZR (2 ^ 62))); [apply rnd_mono; lra|]; rewrite rnd_fmt; [lra|apply (fmt_bpow 62); lia]|].
    change (IZR (2 ^ 62)) with 4611686018427387904 in *. assert (E : r = 4611686018427387904). { destruct (even_of_large r (real_fmt x r H)) as (m & E); [change (IZR (2 ^ 53)) with 9007199254740992; rewrite Rabs_right; lra|]. rewrite E in *. destruct B as [_ B]. apply le_IZR in B. rewrite <- (minus_IZR 4611686018427387904 1) in Q. apply lt_IZR in Q. f_equal. lia. }
    rewrite E. assert (S : small (rnd (4611686018427387904 + 1 / 2))) by (apply small_64; change (IZR (2 ^ 64)) with 18446744073709551616; apply Rabs_le; lra). assert (X : is_real (S754_finite false 4503599627370496 10) 4611686018427387904) by (repeat split; unfold SF2R, F2R; cbn [cond_Zopp Fnum Fexp]; change (bpow radix2 10) with 1024; lra).
    destruct (fadd_real _ _ _ _ X f_half_real S) as (_ & _ & <-). replace (fadd _ _) with (S754_finite false 4503599627370496 10) by (vm_compute; reflexivity). destruct X as (_ & _ & ->). lra. }
  assert (R' : is_real (fadd x f_half) (rnd (r + 1 / 2))) by (apply fadd_real; [exact H|apply f_half_real|]; apply small_64; change (IZR (2 ^ 62)) with 4611686018427387904 in B; change (IZR (2 ^ 64)) with 18446744073709551616; apply Rabs_le; lra).
  apply (C98_floor _ _ _ R'); [|split; [apply Zfloor_lb|apply Zfloor_ub]|now left]. unfold fits. change (IZR (2 ^ 62)) with 4611686018427387904 in U. change (IZR (2 ^ 63)) with 9223372036854775808. lra.
Qed.
Lemma round_neg x r : is_real x r -> - IZR (2 ^ 62) <= r < 0 -> gives (round64 x) (- IZR (Zfloor (rnd (- r + 1 / 2)))).
Proof.
  intros H B. unfold round64. rewrite (ge0_iff x r H), Rle_bool_false by lra. set (t := rnd (r - 1 / 2)). assert (T : t = - rnd (- r + 1 / 2)) by (unfold t; rewrite <- rnd_neg; f_equal; ring).
  assert (R' : is_real (fsub x f_half) t) by (apply fsub_real; [exact H|apply f_half_real|]; apply small_64; change (IZR (2 ^ 62)) with 4611686018427387904 in B; change (IZR (2 ^ 64)) with 18446744073709551616; apply Rabs_le; lra).
  assert (N : t < 0). { apply Rle_lt_trans with (- (1 / 2)); [|lra]. rewrite T. apply Ropp_le_contravar. rewrite <- (rnd_fmt (1 / 2)) at 1 by apply (real_fmt _ _ f_half_real). apply rnd_mono. lra. }
  assert (L : - IZR (2 ^ 63) <= t). { assert (F : fmt (- IZR (2 ^ 63))) by (apply fmt_neg; apply (fmt_bpow 63); lia). unfold t. rewrite <- (rnd_fmt _ F). apply rnd_mono. change (IZR (2 ^ 62)) with 4611686018427387904 in B. change (IZR (2 ^ 63)) with 9223372036854775808. lra. }
  rewrite <- opp_IZR. apply (C98_ceil _ _ _ R'); [| |now left].
  - split; [exact L|]. pose proof (IZR_lt 0 (2 ^ 63) eq_refl). lra.
  - unfold ceil_of. rewrite opp_IZR, T. pose proof (Zfloor_lb (rnd (- r + 1 / 2))). pose proof (Zfloor_ub (rnd (- r + 1 / 2))). lra.
Qed.
Theorem C98_round (x : f64) (r : R) (n : Z) : is_real x r -> Rabs r <= IZR (2 ^ 52) -> Rabs r <> 1 / 2 - bpow radix2 (-54) -> round_of r n -> gives (round64 x) (IZR n).
Proof.
  intros H L X [P M]. pose proof (real_fmt x r H) as F. change (IZR (2 ^ 52)) with 4503599627370496 in L. destruct (Rle_or_lt 0 r) as [Q|Q].
  - rewrite Rabs_right in L, X by lra. rewrite <- (half_above r n F Q L X (P Q)). apply round_pos; [exact H|]. change (IZR (2 ^ 62)) with 4611686018427387904. lra.
  - rewrite Rabs_left in L, X by lra. specialize (M ltac:(lra)). replace n with (- (- n))%Z by lia. rewrite (opp_IZR (- n)). rewrite <- (half_above (- r) (- n) (fmt_neg r F)); [|lra|exact L|exact X|rewrite opp_IZR; lra]. apply round_neg; [exact H|]. change (IZR (2 ^ 62)) with 4611686018427387904. lra.
Qed.
(** The double below one half is rounded to 1, and odd whole numbers above 2^52 are rounded to the next. *)
Theorem C98_round_half_refuted (x : f64) : is_real x (1 / 2 - bpow radix2 (-54)) -> gives (round64 x) 1.
Proof.
  intros H. assert (E : rnd (1 / 2 - bpow radix2 (-54) + 1 / 2) = 1).
  { assert (S : small (rnd (1 / 2 - bpow radix2 (-54) + 1 / 2))) by (apply small_64; rewrite b54; change (IZR (2 ^ 64)) with 18446744073709551616; apply Rabs_le; lra).
    assert (X : is_real (S754_finite false 9007199254740991 (-54)) (1 / 2 - bpow radix2 (-54))) by (repeat split; unfold SF2R, F2R; cbn [cond_Zopp Fnum Fexp]; rewrite b54; lra).
    destruct (fadd_real _ _ _ _ X f_half_real S) as (_ & _ & <-). replace (fadd _ _) with (S754_finite false 4503599627370496 (-52)) by (vm_compute; reflexivity). unfold SF2R, F2R. cbn [cond_Zopp Fnum Fexp]. change (bpow radix2 (-52)) with (/ 4503599627370496). lra. }
  pose proof (round_pos x _ H) as G. rewrite E, (Zfloor_IZR 1) in G. apply G. rewrite b54. change (IZR (2 ^ 62)) with 4611686018427387904. lra.
Qed.
Example C98_round_half_ex : round64 (S754_finite false 9007199254740991 (-54)) = Some (f_of_int 1) /\ round64 (fsub (f_of_int (-2)) f_half) = Some (f_of_int (-3)).
Proof. vm_compute. split; reflexivity. Qed.
Theorem C98_round_odd_refuted (x : f64) (m : Z) : is_real x (IZR (2 * m + 1)) -> (2 ^ 52 < 2 * m + 1 < 2 ^ 53)%Z -> gives (round64 x) (IZR (2 * m + 2)).
Proof.
  intros H B. assert (E : rnd (IZR (2 * m + 1) + 1 / 2) = IZR (2 * m + 2)).
  { unfold rnd, round. assert (C : cexp radix2 fexp64 (IZR (2 * m + 1) + 1 / 2) = 0%Z).
    { unfold cexp. rewrite (mag_unique radix2 (IZR (2 * m + 1) + 1 / 2) 53); [reflexivity|]. rewrite Rabs_right by (assert (0 <= IZR (2 * m + 1)) by (apply (IZR_le 0); lia); lra). change (bpow radix2 (53 - 1)) with (IZR (2 ^ 52)). change (bpow radix2 53) with (IZR (2 ^ 53)). split.
      - assert (IZR (2 ^ 52) <= IZR (2 * m + 1)) by (apply IZR_le; lia). lra.
      - assert (IZR (2 * m + 2) <= IZR (2 ^ 53)) by (apply IZR_le; lia). replace (2 * m + 2)%Z with (2 * m + 1 + 1)%Z in H0 by lia. rewrite plus_IZR in H0. lra. }
    unfold scaled_mantissa. rewrite C. change (bpow radix2 (- 0)) with 1. rewrite Rmult_1_r. unfold F2R. cbn [Fnum Fexp]. change (bpow radix2 0) with 1. rewrite Rmult_1_r. f_equal.
    unfold Znearest. rewrite (Zfloor_imp (2 * m + 1)) by (rewrite (plus_IZR (2 * m + 1) 1); lra). replace (IZR (2 * m + 1) + 1 / 2 - IZR (2 * m + 1)) with (/ 2) by field. rewrite Rcompare_Eq by reflexivity.
    replace (Z.even (2 * m + 1)) with false by (symmetry; rewrite Z.even_add, Z.even_mul; reflexivity). cbn [negb]. apply Zceil_imp. rewrite minus_IZR, !plus_IZR. lra. }
  pose proof (round_pos x _ H) as G. rewrite E, Zfloor_IZR in G. apply G. split; [apply (IZR_le 0)|apply IZR_le]; lia.
Qed.
Example C98_round_odd_ex : round64 (f_of_int 4503599627370497) = Some (f_of_int 4503599627370498).
Proof. vm_compute. reflexivity. Qed.

(** ** zpl_abs64, zpl_sign64, zpl_copy_sign64 *)
Theorem C98_abs (x : f64) (r : R) : is_real x r -> is_real (abs64 x) (Rabs r).
Proof.
  intros H. unfold abs64. rewrite (lt0_iff x r H). destruct (Rlt_bool_spec r 0) as [P|P]; [rewrite Rabs_left by exact P; now apply fneg_real|rewrite Rabs_right by lra; exact H].
Qed.
Theorem C98_sign (x : f64) (r : R) : is_real x r -> (r < 0 -> is_real (sign64 x) (-1)) /\ (0 <= r -> is_real (sign64 x) 1).
Proof.
  intros H. unfold sign64. rewrite (lt0_iff x r H). split; intros P; [rewrite Rlt_bool_true by exact P; apply (int_real (-1)); reflexivity|rewrite Rlt_bool_false by exact P; apply (int_real 1); reflexivity].
Qed.
Theorem C98_copy_sign (x y : f64) (r s : R) : is_real x r -> is_real y s -> s <> 0 -> gives (copy_sign64 x y) (if Rlt_dec s 0 then - Rabs r else Rabs r).
Proof.
  intros (V & F & <-) H N. pose proof (lt0_iff y s H) as L. destruct H as (W & G & E). destruct y as [t|t| |t m e]; try discriminate G; [now destruct N|]. cbn [copy_sign64 obind].
  assert (T : t = Rlt_bool s 0) by (rewrite <- L; destruct t; reflexivity). assert (A : forall u m e, Rabs (SF2R radix2 (S754_finite u m e)) = IZR (Z.pos m) * bpow radix2 e).
  { clear. intros u m e. unfold SF2R. rewrite <- F2R_Zabs, abs_cond_Zopp. reflexivity. }
  destruct x as [u|u| |u m' e']; try discriminate F; (eexists; split; [reflexivity|]); (split; [exact V|split; [reflexivity|]]).
  - cbn [SF2R]. rewrite Rabs_R0. destruct (Rlt_dec s 0); ring.
  - rewrite A. destruct (Rlt_bool_spec s 0) as [P|P]; subst t; destruct (Rlt_dec s 0); try lra; [apply real_neg|apply real_pos].
Qed.
Example C98_copy_sign_ex : copy_sign64 (f_of_int 5) (f_of_int (-2)) = Some (f_of_int (-5)) /\ abs64 (f_of_int (-5)) = f_of_int 5.
Proof. vm_compute. split; reflexivity. Qed.

(** ** zpl_remainder64 and zpl_mod64 on whole numbers *)
Lemma quot_round a b q : (0 <= a < 2 ^ 50)%Z -> (0 < b < 2 ^ 50)%Z -> IZR q - 1 / 2 <= IZR a / IZR b < IZR q + 1 / 2 ->
  (0 <= rnd (IZR a / IZR b) <= IZR (2 ^ 50)) /\ rnd (IZR a / IZR b) <> 1 / 2 - bpow radix2 (-54) /\ IZR q - 1 / 2 <= rnd (IZR a / IZR b) < IZR q + 1 / 2.
Proof.
  intros A B Q. set (t := IZR a / IZR b) in *. set (s := rnd t) in *. assert (PA : 0 <= IZR a <= IZR (2 ^ 50)) by (split; [apply (IZR_le 0)|apply IZR_le]; lia). assert (PB : 1 <= IZR b <= IZR (2 ^ 50)) by (split; [apply (IZR_le 1)|apply IZR_le]; lia).
  change (IZR (2 ^ 50)) with 1125899906842624 in *. assert (E : t * IZR b = IZR a) by (unfold t; field; lra). assert (T0 : 0 <= t) by (unfold t; apply Rmult_le_pos; [lra|left; apply Rinv_0_lt_compat; lra]). assert (T1 : t <= 1125899906842624) by nra.
  assert (S0 : 0 <= s) by now apply rnd_pos. assert (S1 : s <= 1125899906842624). { unfold s. rewrite <- (rnd_fmt 1125899906842624) by (apply (fmt_int 1125899906842624); reflexivity). now apply rnd_mono. }
  assert (N : Rabs (s - t) <= t * / 9007199254740992 + / 1000000000000000000000) by (apply rnd_near; change (IZR (2 ^ 53)) with 9007199254740992; lra). apply Rabs_le_inv in N.
  assert (D : Rabs (s * IZR b - IZR a) <= / 4). { rewrite <- E. replace (s * IZR b - t * IZR b) with ((s - t) * IZR b) by ring. apply Rabs_le. split; nra. } apply Rabs_le_inv in D.
  split; [now split|]. split.
  - intros X. rewrite X, b54 in D. assert (Y : Rabs (IZR (b - 2 * a)) < 1) by (rewrite minus_IZR, mult_IZR; apply Rabs_def1; lra). rewrite <- abs_IZR in Y. apply lt_IZR in Y. assert (b = 2 * a)%Z by lia.
    assert (Z : t = 1 / 2) by (unfold t; rewrite H, mult_IZR; field; intros Z; apply (eq_IZR _ 0) in Z; lia). unfold s in X. rewrite Z in X. rewrite rnd_fmt in X by apply (real_fmt _ _ f_half_real). rewrite b54 in X. lra.
  - split.
    + assert (Qn : (0 <= q)%Z). { assert (IZR (-1) < IZR q) by (change (IZR (-1)) with (-1); lra). apply lt_IZR in H. lia. } destruct (Z.eq_dec q 0) as [->|Qz]; [lra|]. assert (QB : (q <= 2 ^ 50 + 1)%Z) by (apply le_IZR; rewrite plus_IZR; change (IZR (2 ^ 50)) with 1125899906842624; lra).
      assert (F : fmt (IZR q - 1 / 2)). { replace (IZR q - 1 / 2) with (IZR (2 * q - 1) * bpow radix2 (-1)) by (rewrite minus_IZR, mult_IZR; change (bpow radix2 (-1)) with (/ 2); field). apply fmt_int_exp; lia. } rewrite <- (rnd_fmt _ F). now apply rnd_mono.
    + destruct Q as [_ Q]. assert (Y : (2 * a < (2 * q + 1) * b)%Z). { apply lt_IZR. rewrite !mult_IZR, plus_IZR, mult_IZR. nra. } assert (Y' : (2 * a + 1 <= (2 * q + 1) * b)%Z) by lia. apply IZR_le in Y'. rewrite plus_IZR, !mult_IZR, plus_IZR, mult_IZR in Y'. nra.
Qed.
Lemma round_of_neg r n : round_of r n -> round_of (- r) (- n).
Proof. intros [A B]. split; intros C; rewrite opp_IZR; [specialize (B ltac:(lra))|specialize (A ltac:(lra))]; lra. Qed.
Lemma round_quot x n m q : is_real x (rnd (IZR n / IZR m)) -> (Z.abs n < 2 ^ 50)%Z -> (0 < Z.abs m < 2 ^ 50)%Z -> round_of (IZR n / IZR m) q -> gives (round64 x) (IZR q).
Proof.
  intros H N M Q. assert (M0 : IZR m <> 0) by (intros E; apply (eq_IZR _ 0) in E; lia).
  assert (AB : IZR n / IZR m = IZR (Z.abs n) / IZR (Z.abs m) \/ IZR n / IZR m = - (IZR (Z.abs n) / IZR (Z.abs m))).
  { destruct (Z.abs_eq_or_opp n) as [-> | ->], (Z.abs_eq_or_opp m) as [-> | ->]; rewrite ?opp_IZR; [left|right|right|left]; field; exact M0. }
  assert (P : 0 <= IZR (Z.abs n) / IZR (Z.abs m)). { apply Rmult_le_pos; [apply (IZR_le 0); lia|]. left. apply Rinv_0_lt_compat. apply (IZR_lt 0). lia. }
  change (IZR (2 ^ 50)) with 1125899906842624 in *. destruct AB as [E|E]; rewrite E in *.
  - destruct (quot_round (Z.abs n) (Z.abs m) q) as (B & D & G); [lia|lia|now apply Q|]. change (IZR (2 ^ 50)) with 1125899906842624 in B. apply (C98_round x _ q H); [change (IZR (2 ^ 52)) with 4503599627370496; rewrite Rabs_right; lra|rewrite Rabs_right by lra; exact D|]. split; intros C; [exact G|].
    assert (Z : rnd (IZR (Z.abs n) / IZR (Z.abs m)) = 0) by lra. rewrite Z in *. assert (q = 0)%Z as ->; [|lra]. destruct G as [G1 G2]. assert (IZR (-1) < IZR q) by (change (IZR (-1)) with (-1); lra). assert (IZR q < IZR 1) by lra. apply lt_IZR in H0, H1. lia.
  - rewrite rnd_neg in H. apply round_of_neg in Q. rewrite Ropp_involutive in Q. destruct (quot_round (Z.abs n) (Z.abs m) (- q)) as (B & D & G); [lia|lia|now apply Q|]. change (IZR (2 ^ 50)) with 1125899906842624 in B. apply (C98_round x _ q H).
    + rewrite Rabs_Ropp, Rabs_right by lra. change (IZR (2 ^ 52)) with 4503599627370496. lra.
    + rewrite Rabs_Ropp, Rabs_right by lra. exact D.
    + rewrite opp_IZR in G. split; intros C; [|lra]. assert (Z : rnd (IZR (Z.abs n) / IZR (Z.abs m)) = 0) by lra. rewrite Z in *. assert (q = 0)%Z as ->; [|lra]. assert (IZR (-1) < IZR q) by (change (IZR (-1)) with (-1); lra). assert (IZR q < IZR 1) by lra. apply lt_IZR in H0, H1. lia.
Qed.
Theorem C98_remainder (x y : f64) (n m q : Z) : is_real x (IZR n) -> is_real y (IZR m) -> (Z.abs n < 2 ^ 50)%Z -> (0 < Z.abs m < 2 ^ 50)%Z -> round_of (IZR n / IZR m) q ->
  gives (remainder64 x y) (IZR (n - q * m)).
Proof.
  intros Hx Hy N M Q. assert (M0 : IZR m <> 0) by (intros E; apply (eq_IZR _ 0) in E; lia).
  assert (QM : (2 * Z.abs (q * m - n) <= Z.abs m)%Z).
  { apply le_IZR. rewrite mult_IZR, !abs_IZR, minus_IZR, mult_IZR. replace (IZR q * IZR m - IZR n) with ((IZR q - IZR n / IZR m) * IZR m) by (field; exact M0). rewrite Rabs_mult. assert (Rabs (IZR q - IZR n / IZR m) <= 1 / 2). { destruct Q as [Q1 Q2]. apply Rabs_le. destruct (Rle_or_lt 0 (IZR n / IZR m)) as [C|C]; [specialize (Q1 C)|specialize (Q2 ltac:(lra))]; lra. } pose proof (Rabs_pos (IZR m)). nra. }
  assert (A : IZR (Z.abs n) <= IZR (2 ^ 50)) by (apply IZR_le; lia). rewrite abs_IZR in A. assert (B : 1 <= IZR (Z.abs m)) by (apply (IZR_le 1); lia). rewrite abs_IZR in B.
  assert (D : is_real (fdiv x y) (rnd (IZR n / IZR m))). { apply fdiv_real; [exact Hx|exact Hy|exact M0|]. apply small_64. unfold Rdiv. rewrite Rabs_mult, Rabs_inv. change (IZR (2 ^ 50)) with 1125899906842624 in A. change (IZR (2 ^ 64)) with 18446744073709551616. assert (/ Rabs (IZR m) <= 1) by (rewrite <- Rinv_1; apply Rinv_le; lra). assert (0 < / Rabs (IZR m)) by (apply Rinv_0_lt_compat; lra). pose proof (Rabs_pos (IZR n)). nra. }
  destruct (round_quot _ n m q D N M Q) as (z & E & Z). unfold remainder64. rewrite E. cbn [obind].
  assert (F1 : fmt (IZR q * IZR m)) by (rewrite <- mult_IZR; apply fmt_int; lia). assert (P : is_real (fmul z y) (IZR q * IZR m)). { rewrite <- (rnd_fmt _ F1). apply fmul_real; [exact Z|exact Hy|]. apply small_64. rewrite <- mult_IZR, <- abs_IZR. apply IZR_le. lia. }
  assert (F2 : fmt (IZR n - IZR q * IZR m)) by (rewrite <- mult_IZR, <- minus_IZR; apply fmt_int; lia). eexists. split; [reflexivity|]. rewrite minus_IZR, mult_IZR. rewrite <- (rnd_fmt _ F2). apply fsub_real; [exact Hx|exact P|]. apply small_64. rewrite <- mult_IZR, <- minus_IZR, <- abs_IZR. apply IZR_le. lia.
Qed.
Example C98_remainder_ex : remainder64 (f_of_int 7) (f_of_int 4) = Some (f_of_int (-1)) /\ remainder64 (f_of_int (-10)) (f_of_int 4) = Some (f_of_int 2) /\ round_of (7 / 4) 2.
Proof. split; [|split]; [vm_compute; reflexivity|vm_compute; reflexivity|]. split; intros _; lra. Qed.

(** [if (zpl_sign64(result))] always holds: the divisor is added to every remainder, also to one that is not negative. *)
Theorem C98_mod (x y : f64) (n m : Z) : is_real x (IZR n) -> is_real y (IZR m) -> (0 < Z.abs n < 2 ^ 50)%Z -> (0 < Z.abs m < 2 ^ 50)%Z ->
  gives (mod64 x y) (IZR (Z.sgn n * (if Z.leb (Z.abs m) (2 * (Z.abs n mod Z.abs m)) then Z.abs n mod Z.abs m else Z.abs n mod Z.abs m + Z.abs m))).
Proof.
  intros Hx Hy N M. pose proof (C98_abs x _ Hx) as Ax. pose proof (C98_abs y _ Hy) as Ay. rewrite <- abs_IZR in Ax, Ay. set (a := Z.abs n) in *. set (b := Z.abs m) in *. pose proof (Z.div_mod a b ltac:(lia)) as DM. pose proof (Z.mod_pos_bound a b ltac:(lia)) as MB. set (r := (a mod b)%Z) in *. set (d := (a / b)%Z) in *.
  set (q := (if Z.leb b (2 * r) then d + 1 else d)%Z). assert (PB : 0 < IZR b) by (apply (IZR_lt 0); lia).
  assert (Q : round_of (IZR a / IZR b) q).
  { assert (P : 0 < IZR a / IZR b) by (apply Rdiv_lt_0_compat; [apply (IZR_lt 0); lia|exact PB]). split; intros C; [|lra]. assert (Z : ((2 * q - 1) * b <= 2 * a < (2 * q + 1) * b)%Z) by (unfold q; destruct (Z.leb_spec b (2 * r)); nia).
    destruct Z as [Z1 Z2]. apply IZR_le in Z1. apply IZR_lt in Z2. rewrite !mult_IZR, plus_IZR, mult_IZR in Z2. rewrite !mult_IZR, minus_IZR, mult_IZR in Z1. assert (E : IZR a / IZR b * IZR b = IZR a) by (field; lra). split; nra. }
  destruct (C98_remainder _ _ a b q Ax Ay) as (z & E & Z); [lia|lia|exact Q|]. unfold mod64. rewrite E. cbn [obind]. assert (S : f_nonzero (sign64 z) = true) by (unfold sign64; destruct (f_lt0 z); reflexivity). rewrite S.
  assert (V : (a - q * b + b)%Z = (if Z.leb b (2 * r) then r else r + b)%Z) by (unfold q; destruct (Z.leb_spec b (2 * r)); lia). set (v := (if Z.leb b (2 * r) then r else r + b)%Z) in *. assert (VB : (0 <= v < 2 ^ 51)%Z) by (unfold v; destruct (Z.leb_spec b (2 * r)); lia).
  assert (F : is_real (fadd z (abs64 y)) (IZR v)). { rewrite <- V. replace (IZR (a - q * b + b)) with (rnd (IZR (a - q * b) + IZR b)); [apply fadd_real; [exact Z|exact Ay|]|]; rewrite <- plus_IZR; rewrite V; [apply small_64; rewrite <- abs_IZR; apply IZR_le; lia|apply rnd_fmt; apply fmt_int; lia]. }
  assert (N0 : IZR n <> 0) by (intros C; apply (eq_IZR _ 0) in C; lia). pose proof (C98_copy_sign _ _ _ _ F Hx N0) as G. rewrite Rabs_right in G by (apply Rle_ge, (IZR_le 0); lia).
  destruct (Rlt_dec (IZR n) 0) as [L|L].
  - apply (lt_IZR n 0) in L. rewrite (Z.sgn_neg n L). rewrite mult_IZR. change (IZR (-1)) with (-1). replace (-1 * IZR v) with (- IZR v) by ring. exact G.
  - assert (0 < n)%Z. { destruct (Z.lt_total n 0) as [C|[C|C]]; [destruct L; now apply (IZR_lt n 0)|subst n; lra|exact C]. } rewrite (Z.sgn_pos n H). rewrite Z.mul_1_l. exact G.
Qed.
(** So zpl_mod64 is right exactly if the remainder is at least half of the divisor. *)
Corollary C98_mod_iff (x y : f64) (n m : Z) : is_real x (IZR n) -> is_real y (IZR m) -> (0 < Z.abs n < 2 ^ 50)%Z -> (0 < Z.abs m < 2 ^ 50)%Z ->
  gives (mod64 x y) (IZR (Z.rem n m)) <-> (Z.abs m <= 2 * (Z.abs n mod Z.abs m))%Z.
Proof.
  intros Hx Hy N M. pose proof (C98_mod x y n m Hx Hy N M) as G. assert (E : Z.rem n m = (Z.sgn n * (Z.abs n mod Z.abs m))%Z). { rewrite <- (Z.rem_mod n m) by lia. reflexivity. } rewrite E. destruct (Z.leb_spec (Z.abs m) (2 * (Z.abs n mod Z.abs m))) as [C|C]; split; intros H; try assumption.
  - pose proof (gives_unique _ _ _ G H) as X. apply eq_IZR in X. nia.
  - lia.
Qed.
Example C98_mod_ex : mod64 (f_of_int 7) (f_of_int 3) = Some (f_of_int 4) /\ mod64 (f_of_int (-8)) (f_of_int 3) = Some (f_of_int (-2)).
Proof. vm_compute. split; reflexivity. Qed.
Print Assumptions C98_floor.
Print Assumptions C98_floor_whole_refuted.
Print Assumptions C98_floor_tiny_refuted.
Print Assumptions C98_floor_iff.
Print Assumptions C98_floor_undefined.
Print Assumptions C98_not_finite.
Print Assumptions C98_ceil.
Print Assumptions C98_ceil_whole_refuted.
Print Assumptions C98_round.
Print Assumptions C98_round_half_refuted.
Print Assumptions C98_round_odd_refuted.
Print Assumptions C98_abs.
Print Assumptions C98_sign.
Print Assumptions C98_copy_sign.
Print Assumptions C98_remainder.
Print Assumptions C98_mod.
Print Assumptions C98_mod_iff.
