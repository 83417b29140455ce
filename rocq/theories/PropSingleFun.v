(** C101: rounding and remainders of singles. *)
From Coq Require Import Reals SpecFloat Psatz Lra.
From Flocq Require Import Core BinarySingleNaN.
From Verif Require FloatProofs4.
From Verif Require Import Base Float FloatFun Single SingleProofs QuakeProofs PropQuake SingleFun SingleFunProofs.
Local Open Scope R_scope.

(** a call that gives a finite single, standing for [r] *)
Definition gives (o : option f32) (r : R) : Prop := exists y, o = Some y /\ is_single y r.
(** n is the floor, the ceiling, the nearest whole number to r with halves going away from zero *)
Definition floor_of (r : R) (n : Z) : Prop := IZR n <= r < IZR n + 1.
Definition ceil_of (r : R) (n : Z) : Prop := IZR n - 1 < r <= IZR n.
Definition round_of (r : R) (n : Z) : Prop := (0 <= r -> IZR n - 1 / 2 <= r < IZR n + 1 / 2) /\ (r <= 0 -> IZR n - 1 / 2 < r <= IZR n + 1 / 2).
Definition whole (r : R) : Prop := exists n, r = IZR n.
(** what fits into an int *)
Definition fits (r : R) : Prop := - IZR (2 ^ 31) <= r < IZR (2 ^ 31).

Lemma gives_unique o r s : gives o r -> gives o s -> r = s.
Proof. intros (y & -> & _ & _ & <-) (z & E & _ & _ & <-). now injection E as <-. Qed.
Lemma fits_abs r n : fits r -> Rabs (IZR n) <= Rabs r -> (Z.abs n <= 2 ^ 32)%Z.
Proof.
  intros F H. apply le_IZR. rewrite abs_IZR. eapply Rle_trans; [exact H|]. unfold fits in F. change (IZR (2 ^ 31)) with 2147483648 in F. change (IZR (2 ^ 32)) with 4294967296. apply Rabs_le. lra.
Qed.
Lemma gives_trunc v : fmt v -> Rabs v <= IZR (2 ^ 32) -> gives (Some (s_of_int (Ztrunc v))) (IZR (Ztrunc v)).
Proof.
  intros F L. eexists. split; [reflexivity|]. apply of_int; [now apply fmt_trunc|]. apply le_IZR. rewrite abs_IZR. eapply Rle_trans; [apply trunc_abs|exact L].
Qed.

(** ** zpl_floor *)
(** what goes right, below zero: numbers that are not whole and not next to a power of two, and multiples of four from 2^24 *)
Definition floor_good (r : R) : Prop := 0 <= r \/ (~ whole r /\ ~ next_to_power r) \/ (r <= - IZR (2 ^ 24) /\ exists m, r = IZR (4 * m)).
Theorem C101_floor (x : f32) (r : R) (n : Z) : is_single x r -> fits r -> floor_of r n -> floor_good r -> gives (floorf x) (IZR n).
Proof.
  intros H F B C. pose proof (real_fmt x r H) as Fm. unfold floor_of in B. unfold fits in F. destruct (Rle_or_lt 0 r) as [P|P].
  - assert (E : floorf x = Some (s_of_int (Ztrunc r))). { unfold floorf. rewrite (ge0_iff x r H), Rle_bool_true by exact P. now rewrite (cast_real x r H F). }
    assert (T : Ztrunc r = n) by (rewrite Ztrunc_floor by exact P; apply Zfloor_imp; rewrite plus_IZR; exact B). rewrite E, <- T. apply gives_trunc; [exact Fm|]. change (IZR (2 ^ 31)) with 2147483648 in F. change (IZR (2 ^ 32)) with 4294967296. rewrite Rabs_right; lra.
  - rewrite (floor_eq x r H) by lra. assert (L : Rabs (rnd (r - 1)) <= IZR (2 ^ 32)).
    { assert (F32 : fmt (- IZR (2 ^ 32))) by (apply fmt_neg; apply (fmt_bpow 32); lia). apply Rabs_le. split.
      - rewrite <- (rnd_fmt _ F32). apply rnd_mono. change (IZR (2 ^ 31)) with 2147483648 in F. change (IZR (2 ^ 32)) with 4294967296. lra.
      - apply Rle_trans with 0; [|apply (IZR_le 0); discriminate]. rewrite <- rnd_0. apply rnd_mono. lra. }
    assert (T : Ztrunc (rnd (r - 1)) = n).
    { destruct C as [C|[[C D]|[C (m & E)]]]; [lra| |].
      - apply (floor_between x r n H); [|split; [|apply B]|exact D].
        + assert (Q : IZR n < IZR 0) by lra. apply lt_IZR in Q. lia.
        + destruct (proj1 B) as [Q|Q]; [exact Q|]. destruct C. exists n. now symmetry.
      - rewrite rnd_less, next_four; [|now apply fmt_neg|lra|exists (- m)%Z; rewrite E, <- opp_IZR; f_equal; lia]. rewrite Ropp_involutive. rewrite E in B |- *. rewrite Ztrunc_IZR. rewrite <- plus_IZR in B. destruct B as [B1 B2]. apply le_IZR in B1. apply lt_IZR in B2. lia. }
    rewrite <- T. apply gives_trunc; [apply fmt_rnd|exact L].
Qed.
(** Negative whole numbers above -2^24 are rounded to the next one below, as are those above -2^25 that are not multiples of four (to the next single). *)
Theorem C101_floor_whole_refuted (x : f32) (n : Z) : is_single x (IZR n) -> (- 2 ^ 24 < n <= -1)%Z -> gives (floorf x) (IZR (n - 1)).
Proof.
  intros H N. rewrite (floor_eq x _ H), (floor_whole n N).
  - eexists. split; [reflexivity|]. apply of_int; [apply fmt_int'; lia|lia].
  - rewrite <- opp_IZR. split; [apply IZR_le; lia|apply (IZR_lt n 0); lia].
Qed.
Theorem C101_floor_even_refuted (x : f32) (m : Z) : is_single x (IZR (4 * m + 2)) -> (- 2 ^ 25 < 4 * m + 2 <= - 2 ^ 24)%Z -> gives (floorf x) (IZR (4 * m)).
Proof.
  intros H N. rewrite (floor_eq x _ H) by (rewrite <- opp_IZR; split; [apply IZR_le; lia|apply (IZR_lt _ 0); lia]). pose proof (real_fmt _ _ H) as F.
  assert (E : rnd (IZR (4 * m + 2) - 1) = IZR (4 * m)). { rewrite rnd_less, (next_two _ (- m - 1)); [rewrite plus_IZR; ring|now apply fmt_neg|rewrite <- opp_IZR; apply IZR_le; lia|rewrite <- opp_IZR; f_equal; lia]. }
  rewrite E, Ztrunc_IZR. eexists. split; [reflexivity|]. apply of_int; [rewrite <- E; apply fmt_rnd|lia].
Qed.
(** The singles next to a negative power of two, towards zero, are rounded down two steps: zpl_floor(-0.99999994f) is -2. *)
Theorem C101_floor_next_refuted (x : f32) (k : Z) : is_single x (- (bpow radix2 k - bpow radix2 (k - 24))) -> (0 <= k <= 22)%Z -> gives (floorf x) (IZR (- (2 ^ k + 1))).
Proof.
  intros H K. assert (P : 1 <= bpow radix2 k <= 4194304) by (split; [change 1 with (bpow radix2 0)|change 4194304 with (bpow radix2 22)]; apply bpow_le; lia). assert (Q : 0 < bpow radix2 (k - 24) <= / 4) by (split; [apply bpow_gt_0|change (/ 4) with (bpow radix2 (-2)); apply bpow_le; lia]).
  rewrite (floor_eq x _ H), (floor_next_to k K).
  - assert ((1 <= 2 ^ k <= 2 ^ 22)%Z) by (split; [change 1%Z with (2 ^ 0)%Z|]; apply Z.pow_le_mono_r; lia). eexists. split; [reflexivity|]. apply of_int; [apply fmt_int'; lia|lia].
  - change (IZR (2 ^ 31)) with 2147483648. lra.
Qed.
(** So this is when zpl_floor gives the floor. *)
Theorem C101_floor_iff (x : f32) (r : R) (n : Z) : is_single x r -> fits r -> floor_of r n -> gives (floorf x) (IZR n) <-> floor_good r.
Proof.
  intros H F B. split; [|now apply C101_floor]. intros G. pose proof (real_fmt x r H) as Fm. unfold floor_good. destruct (Rle_or_lt 0 r) as [P|P]; [now left|right].
  assert (NB : forall z, r = IZR z -> z = n). { intros z ->. destruct B as [B1 B2]. rewrite <- plus_IZR in B2. apply le_IZR in B1. apply lt_IZR in B2. lia. }
  destruct (Rle_or_lt r (- IZR (2 ^ 24))) as [L|L].
  - right. split; [exact L|]. destruct (even_four r Fm) as [E|(m & E)]; [change (IZR (2 ^ 24)) with 16777216 in *; rewrite Rabs_left1; lra|exact E|exfalso].
    assert (L25 : (- 2 ^ 25 < 4 * m + 2)%Z). { apply Z.nle_gt. intros L25. apply IZR_le in L25. rewrite <- E, opp_IZR in L25. destruct (multiple_of_four r Fm) as (j & J); [change (IZR (2 ^ 25)) with 33554432 in *; rewrite Rabs_left1; lra|]. rewrite E in J. apply eq_IZR in J. lia. }
    rewrite E, <- opp_IZR in L. apply le_IZR in L. pose proof (NB _ E) as En. rewrite E in H. pose proof (gives_unique _ _ _ G (C101_floor_even_refuted x m H ltac:(lia))) as X. apply eq_IZR in X. lia.
  - left. split.
    + intros (m & E). rewrite (NB m E) in E. subst r. apply (lt_IZR n 0) in P. rewrite <- opp_IZR in L. apply lt_IZR in L. pose proof (gives_unique _ _ _ G (C101_floor_whole_refuted x n H ltac:(lia))) as X. apply eq_IZR in X. lia.
    + intros (k & K & E). subst r. pose proof (gives_unique _ _ _ G (C101_floor_next_refuted x k H K)) as X. apply eq_IZR in X. rewrite X in B. destruct B as [_ B]. rewrite opp_IZR, plus_IZR in B. replace (IZR (2 ^ k)) with (bpow radix2 k) in B by (symmetry; apply (IZR_Zpower radix2); lia). pose proof (bpow_gt_0 radix2 (k - 24)). lra.
Qed.
Example C101_floor_ex : floorf (s_of_int (-3)) = Some (s_of_int (-4)) /\ floorf (sadd (s_of_int (-3)) s_half) = Some (s_of_int (-3)) /\ floorf (S754_finite true 16777215 (-24)) = Some (s_of_int (-2)).
Proof. vm_compute. repeat split; reflexivity. Qed.
(** Beyond the range of an int, and for infinities and NaN, the cast is undefined. *)
Theorem C101_floor_undefined (x : f32) (r : R) : is_single x r -> IZR (2 ^ 31) <= r -> floorf x = None /\ ceilf x = None.
Proof.
  intros H B. pose proof (IZR_lt 0 (2 ^ 31) eq_refl) as P. assert (E : s_to_int x = None).
  { unfold s_to_int, chk32. rewrite (trunc_real x r H). cbn [obind]. assert (T : (2 ^ 31 <= Ztrunc r)%Z) by (rewrite Ztrunc_floor by lra; apply Zfloor_lub; exact B). destruct (Z.ltb_spec (Ztrunc r) (2 ^ 31)); [lia|]. now rewrite Bool.andb_false_r. }
  unfold floorf, ceilf. rewrite (ge0_iff x r H), Rle_bool_true by lra. now rewrite E.
Qed.
Theorem C101_not_finite (x : f32) : is_finite_SF x = false -> floorf x = None /\ ceilf x = None /\ roundf x = None.
Proof. destruct x as [s|s| |s m e]; try discriminate; intros _; try destruct s; repeat split; reflexivity. Qed.

(** ** zpl_ceil *)
Theorem C101_ceil (x : f32) (r : R) (n : Z) : is_single x r -> fits r -> ceil_of r n -> r < 0 \/ ~ whole r -> gives (ceilf x) (IZR n).
Proof.
  intros H F B C. pose proof (real_fmt x r H) as Fm. unfold ceilf. rewrite (cast_real x r H F), (lt0_iff x r H). cbn [obind]. unfold ceil_of in B. unfold fits in F. destruct (Rlt_bool_spec r 0) as [P|P].
  - assert (T : Ztrunc r = n) by (rewrite Ztrunc_ceil by lra; apply Zceil_imp; rewrite minus_IZR; exact B). rewrite <- T. apply gives_trunc; [exact Fm|]. change (IZR (2 ^ 31)) with 2147483648 in F. change (IZR (2 ^ 32)) with 4294967296. rewrite Rabs_left1; lra.
  - destruct C as [C|C]; [lra|]. assert (Q : r < IZR n) by (destruct (proj2 B) as [Q|Q]; [exact Q|destruct C; exists n; exact Q]).
    assert (T : Ztrunc r = (n - 1)%Z) by (rewrite Ztrunc_floor by exact P; apply Zfloor_imp; rewrite plus_IZR, minus_IZR; split; lra). rewrite T. replace (n - 1 + 1)%Z with n by lia.
    assert (N : (0 <= n <= 2 ^ 23)%Z).
    { split; [apply le_IZR; lra|]. apply Z.nlt_ge. intros L. destruct (int_of_large r Fm) as (m & E); [|destruct C; now exists m]. assert (L' : (2 ^ 23 <= n - 1)%Z) by lia. apply IZR_le in L'. rewrite minus_IZR in L'. rewrite Rabs_right by lra. lra. }
    unfold chk32. destruct (Z.leb_spec (- 2 ^ 31) n); [|lia]. destruct (Z.ltb_spec n (2 ^ 31)); [|lia]. cbn [obind andb]. eexists. split; [reflexivity|]. apply of_int; [apply fmt_int'; lia|lia].
Qed.
(** Whole numbers that are not negative are rounded to the next one above: zpl_ceil(0) is 1. *)
Theorem C101_ceil_whole_refuted (x : f32) (n : Z) : is_single x (IZR n) -> (0 <= n < 2 ^ 24)%Z -> gives (ceilf x) (IZR (n + 1)).
Proof.
  intros H N. unfold ceilf. rewrite (cast_real x _ H), (lt0_iff x _ H).
  - cbn [obind]. rewrite Rlt_bool_false by (apply (IZR_le 0 n); lia). rewrite Ztrunc_IZR. unfold chk32. destruct (Z.leb_spec (- 2 ^ 31) (n + 1)); [|lia]. destruct (Z.ltb_spec (n + 1) (2 ^ 31)); [|lia]. cbn [obind andb]. eexists. split; [reflexivity|]. apply of_int; [apply fmt_int'; lia|lia].
  - rewrite <- opp_IZR. split; [apply IZR_le; lia|apply IZR_lt; lia].
Qed.
(** Beyond 2^24 the sum is rounded: multiples of four stay, other numbers move to the next single. *)
Theorem C101_ceil_four (x : f32) (r : R) : is_single x r -> IZR (2 ^ 24) <= r < IZR (2 ^ 31) -> (exists m, r = IZR (4 * m)) -> gives (ceilf x) r.
Proof.
  intros H B (m & E). pose proof (real_fmt x r H) as F. assert (B' : (2 ^ 24 <= 4 * m < 2 ^ 31)%Z) by (rewrite E in B; destruct B as [B1 B2]; apply le_IZR in B1; apply lt_IZR in B2; lia). unfold ceilf. rewrite (cast_real x r H), (lt0_iff x r H) by (rewrite E, <- opp_IZR; split; [apply IZR_le|apply IZR_lt]; lia). cbn [obind].
  rewrite Rlt_bool_false by (rewrite E; apply (IZR_le 0); lia). rewrite E, Ztrunc_IZR. unfold chk32. destruct (Z.leb_spec (- 2 ^ 31) (4 * m + 1)); [|lia]. destruct (Z.ltb_spec (4 * m + 1) (2 ^ 31)); [|lia]. cbn [obind andb]. eexists. split; [reflexivity|].
  assert (X : rnd (IZR (4 * m + 1)) = IZR (4 * m)) by (rewrite plus_IZR; rewrite <- E; apply next_four; [exact F|apply B|now exists m]). rewrite <- X. apply s_of_int_real. apply small_32. rewrite <- abs_IZR. apply IZR_le. lia.
Qed.
Theorem C101_ceil_even_refuted (x : f32) (m : Z) : is_single x (IZR (4 * m + 2)) -> (2 ^ 24 <= 4 * m + 2 < 2 ^ 31)%Z -> gives (ceilf x) (IZR (4 * m + 4)).
Proof.
  intros H B. pose proof (real_fmt x _ H) as F. unfold ceilf. rewrite (cast_real x _ H), (lt0_iff x _ H) by (rewrite <- opp_IZR; split; [apply IZR_le|apply IZR_lt]; lia). cbn [obind].
  rewrite Rlt_bool_false by (apply (IZR_le 0); lia). rewrite Ztrunc_IZR. unfold chk32. destruct (Z.leb_spec (- 2 ^ 31) (4 * m + 2 + 1)); [|lia]. destruct (Z.ltb_spec (4 * m + 2 + 1) (2 ^ 31)); [|lia]. cbn [obind andb]. eexists. split; [reflexivity|].
  assert (X : rnd (IZR (4 * m + 2 + 1)) = IZR (4 * m + 4)) by (rewrite (plus_IZR (4 * m + 2) 1); rewrite (next_two _ m F); [rewrite !plus_IZR; lra|apply IZR_le; lia|reflexivity]). rewrite <- X. apply s_of_int_real. apply small_32. rewrite <- abs_IZR. apply IZR_le. lia.
Qed.
Theorem C101_ceil_iff (x : f32) (r : R) (n : Z) : is_single x r -> fits r -> ceil_of r n -> gives (ceilf x) (IZR n) <-> r < 0 \/ ~ whole r \/ (IZR (2 ^ 24) <= r /\ exists m, r = IZR (4 * m)).
Proof.
  intros H F B. pose proof (real_fmt x r H) as Fm. assert (NB : forall z, r = IZR z -> z = n). { intros z ->. destruct B as [B1 B2]. rewrite <- minus_IZR in B1. apply le_IZR in B2. apply lt_IZR in B1. lia. } split.
  - intros G. destruct (Rlt_or_le r 0) as [P|P]; [now left|right]. destruct (Rle_or_lt (IZR (2 ^ 24)) r) as [L|L].
    + right. split; [exact L|]. destruct (even_four r Fm) as [E|(m & E)]; [rewrite Rabs_right; lra|exact E|exfalso]. pose proof (NB _ E) as En. rewrite E in H, L. apply le_IZR in L. assert (U : (4 * m + 2 < 2 ^ 31)%Z) by (apply lt_IZR; rewrite <- E; apply F). pose proof (gives_unique _ _ _ G (C101_ceil_even_refuted x m H ltac:(lia))) as X. apply eq_IZR in X. lia.
    + left. intros (m & E). rewrite (NB m E) in E. subst r. apply lt_IZR in L. apply (le_IZR 0) in P. pose proof (gives_unique _ _ _ G (C101_ceil_whole_refuted x n H ltac:(lia))) as X. apply eq_IZR in X. lia.
  - intros [C|[C|[L (m & E)]]]; [apply (C101_ceil x r n H F B); now left|apply (C101_ceil x r n H F B); now right|]. rewrite <- (NB _ E), <- E. apply C101_ceil_four; [exact H|split; [exact L|apply F]|now exists m].
Qed.
Example C101_ceil_ex : ceilf (s_of_int 3) = Some (s_of_int 4) /\ ceilf (sadd (s_of_int 3) s_half) = Some (s_of_int 4) /\ ceilf (s_of_int (-3)) = Some (s_of_int (-3)).
Proof. vm_compute. repeat split; reflexivity. Qed.

(** ** zpl_round *)
Lemma round_pos x r : is_single x r -> 0 <= r <= IZR (2 ^ 30) -> gives (roundf x) (IZR (Zfloor (rnd (r + 1 / 2)))).
Proof.
  intros H B. unfold roundf. rewrite (ge0_iff x r H), Rle_bool_true by lra. assert (L : 0 <= rnd (r + 1 / 2)) by (apply rnd_pos; lra).
  assert (U : rnd (r + 1 / 2) <= IZR (2 ^ 30)). { destruct (Rle_or_lt r (IZR (2 ^ 30) - 1)) as [Q|Q]; [apply Rle_trans with (rnd (IZR (2 ^ 30))); [apply rnd_mono; lra|]; rewrite rnd_fmt; [lra|apply (fmt_bpow 30); lia]|].
    change (IZR (2 ^ 30)) with 1073741824 in *. assert (E : r = 1073741824). { destruct (even_of_large r (real_fmt x r H)) as (m & E); [change (IZR (2 ^ 24)) with 16777216; rewrite Rabs_right; lra|]. rewrite E in *. destruct B as [_ B]. apply le_IZR in B. rewrite <- (minus_IZR 1073741824 1) in Q. apply lt_IZR in Q. f_equal. lia. }
    rewrite E. assert (S : small (rnd (1073741824 + 1 / 2))) by (apply small_32; change (IZR (2 ^ 32)) with 4294967296; apply Rabs_le; lra). assert (X : is_single (S754_finite false 8388608 7) 1073741824) by (repeat split; unfold SF2R, F2R; cbn [cond_Zopp Fnum Fexp]; change (bpow radix2 7) with 128; lra).
    destruct (sadd_real _ _ _ _ X s_half_real S) as (_ & _ & <-). replace (sadd _ _) with (S754_finite false 8388608 7) by (vm_compute; reflexivity). destruct X as (_ & _ & ->). lra. }
  assert (R' : is_single (sadd x s_half) (rnd (r + 1 / 2))) by (apply sadd_real; [exact H|apply s_half_real|]; apply small_32; change (IZR (2 ^ 30)) with 1073741824 in B; change (IZR (2 ^ 32)) with 4294967296; apply Rabs_le; lra).
  apply (C101_floor _ _ _ R'); [|split; [apply Zfloor_lb|apply Zfloor_ub]|now left]. unfold fits. change (IZR (2 ^ 30)) with 1073741824 in U. change (IZR (2 ^ 31)) with 2147483648. lra.
Qed.
Lemma round_neg x r : is_single x r -> - IZR (2 ^ 30) <= r < 0 -> gives (roundf x) (- IZR (Zfloor (rnd (- r + 1 / 2)))).
Proof.
  intros H B. unfold roundf. rewrite (ge0_iff x r H), Rle_bool_false by lra. set (t := rnd (r - 1 / 2)). assert (T : t = - rnd (- r + 1 / 2)) by (unfold t; rewrite <- rnd_neg; f_equal; ring).
  assert (R' : is_single (ssub x s_half) t) by (apply ssub_real; [exact H|apply s_half_real|]; apply small_32; change (IZR (2 ^ 30)) with 1073741824 in B; change (IZR (2 ^ 32)) with 4294967296; apply Rabs_le; lra).
  assert (N : t < 0). { apply Rle_lt_trans with (- (1 / 2)); [|lra]. rewrite T. apply Ropp_le_contravar. rewrite <- (rnd_fmt (1 / 2)) at 1 by apply (real_fmt _ _ s_half_real). apply rnd_mono. lra. }
  assert (L : - IZR (2 ^ 31) <= t). { assert (F : fmt (- IZR (2 ^ 31))) by (apply fmt_neg; apply (fmt_bpow 31); lia). unfold t. rewrite <- (rnd_fmt _ F). apply rnd_mono. change (IZR (2 ^ 30)) with 1073741824 in B. change (IZR (2 ^ 31)) with 2147483648. lra. }
  rewrite <- opp_IZR. apply (C101_ceil _ _ _ R'); [| |now left].
  - split; [exact L|]. pose proof (IZR_lt 0 (2 ^ 31) eq_refl). lra.
  - unfold ceil_of. rewrite opp_IZR, T. pose proof (Zfloor_lb (rnd (- r + 1 / 2))). pose proof (Zfloor_ub (rnd (- r + 1 / 2))). lra.
Qed.
Theorem C101_round (x : f32) (r : R) (n : Z) : is_single x r -> Rabs r <= IZR (2 ^ 23) -> Rabs r <> 1 / 2 - bpow radix2 (-25) -> round_of r n -> gives (roundf x) (IZR n).
Proof.
  intros H L X [P M]. pose proof (real_fmt x r H) as F. change (IZR (2 ^ 23)) with 8388608 in L. destruct (Rle_or_lt 0 r) as [Q|Q].
  - rewrite Rabs_right in L, X by lra. rewrite <- (half_above r n F Q L X (P Q)). apply round_pos; [exact H|]. change (IZR (2 ^ 30)) with 1073741824. lra.
  - rewrite Rabs_left in L, X by lra. specialize (M ltac:(lra)). replace n with (- (- n))%Z by lia. rewrite (opp_IZR (- n)). rewrite <- (half_above (- r) (- n) (fmt_neg r F)); [|lra|exact L|exact X|rewrite opp_IZR; lra]. apply round_neg; [exact H|]. change (IZR (2 ^ 30)) with 1073741824. lra.
Qed.
(** The single below one half is rounded to 1, and odd whole numbers above 2^23 are rounded to the next. *)
Theorem C101_round_half_refuted (x : f32) : is_single x (1 / 2 - bpow radix2 (-25)) -> gives (roundf x) 1.
Proof.
  intros H. assert (E : rnd (1 / 2 - bpow radix2 (-25) + 1 / 2) = 1).
  { assert (S : small (rnd (1 / 2 - bpow radix2 (-25) + 1 / 2))) by (apply small_32; rewrite b25; change (IZR (2 ^ 32)) with 4294967296; apply Rabs_le; lra).
    assert (X : is_single (S754_finite false 16777215 (-25)) (1 / 2 - bpow radix2 (-25))) by (repeat split; unfold SF2R, F2R; cbn [cond_Zopp Fnum Fexp]; rewrite b25; lra).
    destruct (sadd_real _ _ _ _ X s_half_real S) as (_ & _ & <-). replace (sadd _ _) with (S754_finite false 8388608 (-23)) by (vm_compute; reflexivity). unfold SF2R, F2R. cbn [cond_Zopp Fnum Fexp]. change (bpow radix2 (-23)) with (/ 8388608). lra. }
  pose proof (round_pos x _ H) as G. rewrite E, (Zfloor_IZR 1) in G. apply G. rewrite b25. change (IZR (2 ^ 30)) with 1073741824. lra.
Qed.
Example C101_round_half_ex : roundf (S754_finite false 16777215 (-25)) = Some (s_of_int 1) /\ roundf (ssub (s_of_int (-2)) s_half) = Some (s_of_int (-3)).
Proof. vm_compute. split; reflexivity. Qed.
Theorem C101_round_odd_refuted (x : f32) (m : Z) : is_single x (IZR (2 * m + 1)) -> (2 ^ 23 < 2 * m + 1 < 2 ^ 24)%Z -> gives (roundf x) (IZR (2 * m + 2)).
Proof.
  intros H B. assert (E : rnd (IZR (2 * m + 1) + 1 / 2) = IZR (2 * m + 2)).
  { replace (IZR (2 * m + 1) + 1 / 2) with ((IZR (2 * m + 1) + 1 / 2) * bpow radix2 0) by (change (bpow radix2 0) with 1; ring). rewrite rnd_tie by lia. replace (Z.even (2 * m + 1)) with false by (symmetry; rewrite Z.even_add, Z.even_mul; reflexivity). change (bpow radix2 0) with 1. rewrite Rmult_1_r. f_equal. lia. }
  pose proof (round_pos x _ H) as G. rewrite E, Zfloor_IZR in G. apply G. split; [apply (IZR_le 0)|apply IZR_le]; lia.
Qed.
Example C101_round_odd_ex : roundf (s_of_int 8388609) = Some (s_of_int 8388610).
Proof. vm_compute. reflexivity. Qed.

(** ** zpl_abs, zpl_sign, zpl_copy_sign *)
Theorem C101_abs (x : f32) (r : R) : is_single x r -> is_single (absf x) (Rabs r).
Proof.
  intros H. unfold absf. rewrite (lt0_iff x r H). destruct (Rlt_bool_spec r 0) as [P|P]; [rewrite Rabs_left by exact P; now apply sneg_real|rewrite Rabs_right by lra; exact H].
Qed.
Theorem C101_sign (x : f32) (r : R) : is_single x r -> (r < 0 -> is_single (signf x) (-1)) /\ (0 <= r -> is_single (signf x) 1).
Proof.
  intros H. unfold signf. rewrite (ge0_iff x r H). split; intros P; [rewrite Rle_bool_false by exact P; apply (int_real (-1)); reflexivity|rewrite Rle_bool_true by exact P; apply (int_real 1); reflexivity].
Qed.
Definition negative (x : f32) : bool := match x with S754_zero s | S754_infinity s | S754_finite s _ _ => s | S754_nan => false end.
Definition with_sign (s : bool) (x : f32) : f32 := match x with S754_zero _ => S754_zero s | S754_infinity _ => S754_infinity s | S754_finite _ m e => S754_finite s m e | S754_nan => S754_nan end.
Lemma bits_sign x i : valid_binary 24 128 x = true -> bits_of x = Some i -> (i <? 0)%Z = negative x /\ (forall s, bits_of (with_sign s x) = Some (i mod 2 ^ 31 + (if s then - 2 ^ 31 else 0))%Z).
Proof.
  intros V E. destruct (C100_bits x i V E) as [R _]. assert (U : exists v, (0 <= v)%Z /\ forall s, bits_of (with_sign s x) = Some (if s then v - 2 ^ 31 else v)%Z).
  { destruct x as [s|s| |s m e]; try discriminate E; cbn [with_sign bits_of]; (eexists; split; [|intros t; reflexivity]); [discriminate|discriminate|]. destruct (C100_bits (S754_finite false m e)) with (i := (if (Z.pos m <? 2 ^ 23)%Z then Z.pos m else ((e + 150) * 2 ^ 23 + (Z.pos m - 2 ^ 23)))%Z) as [_ B]; [exact V|reflexivity|]. unfold of_bits in B. destruct (Z.ltb_spec (if (Z.pos m <? 2 ^ 23)%Z then Z.pos m else ((e + 150) * 2 ^ 23 + (Z.pos m - 2 ^ 23)))%Z 0) as [C|C]; [|exact C]. exfalso. revert B. repeat match goal with |- context [if ?c then _ else _] => destruct c | |- context [match ?c with _ => _ end] => destruct c end; discriminate. }
  destruct U as (v & P & U). assert (W : with_sign (negative x) x = x) by (destruct x; reflexivity). pose proof (U (negative x)) as Q. rewrite W, E in Q. assert (Q2 : i = (if negative x then v - 2 ^ 31 else v)%Z) by congruence. clear Q. rename Q2 into Q. assert (L : (v < 2 ^ 31)%Z).
  { pose proof (U false) as T. assert (VF : valid_binary 24 128 (with_sign false x) = true) by (destruct x; exact V). destruct (C100_bits _ _ VF T) as [T' _]. lia. }
  assert (M : (i mod 2 ^ 31 = v)%Z). { rewrite Q. destruct (negative x); [replace (v - 2 ^ 31)%Z with (v + (-1) * 2 ^ 31)%Z by ring; rewrite Z.mod_add by lia|]; apply Z.mod_small; lia. }
  split; [rewrite Q; destruct (negative x); [apply Z.ltb_lt|apply Z.ltb_ge]; lia|]. intros s. rewrite U, M. f_equal. destruct s; lia.
Qed.
(** The result has the bits of x apart from the sign, which is that of y, also for zeros and infinities. *)
Theorem C101_copy_sign (x y : f32) : valid_binary 24 128 x = true -> valid_binary 24 128 y = true -> x <> S754_nan -> y <> S754_nan -> copy_signf x y = Some (with_sign (negative y) x).
Proof.
  intros V W Nx Ny. unfold copy_signf. destruct (bits_of x) as [i|] eqn:E; [|destruct x; try discriminate E; now destruct Nx]. destruct (bits_of y) as [j|] eqn:D; [|destruct y; try discriminate D; now destruct Ny]. cbn [obind].
  destruct (bits_sign x i V E) as [_ U]. destruct (bits_sign y j W D) as [-> _]. f_equal. apply C100_bits; [destruct x; exact V|apply U].
Qed.
Lemma copy_sign_real (x y : f32) (r s : R) : is_single x r -> is_single y s -> s <> 0 -> gives (copy_signf x y) (if Rlt_dec s 0 then - Rabs r else Rabs r).
Proof.
  intros (V & F & <-) H N. pose proof (lt0_iff y s H) as L. destruct H as (W & G & E). rewrite C101_copy_sign; [|exact V|exact W|intros ->; discriminate F|intros ->; discriminate G].
  destruct y as [t|t| |t m e]; try discriminate G; [now destruct N|]. cbn [negative].
  assert (T : t = Rlt_bool s 0) by (rewrite <- L; destruct t; reflexivity). assert (A : forall u m e, Rabs (SF2R radix2 (S754_finite u m e)) = IZR (Z.pos m) * bpow radix2 e).
  { clear. intros u m e. unfold SF2R. rewrite <- F2R_Zabs, abs_cond_Zopp. reflexivity. }
  destruct x as [u|u| |u m' e']; try discriminate F; (eexists; split; [reflexivity|]); (split; [exact V|split; [reflexivity|]]).
  - cbn [with_sign SF2R]. rewrite Rabs_R0. destruct (Rlt_dec s 0); ring.
  - rewrite A. destruct (Rlt_bool_spec s 0) as [P|P]; subst t; destruct (Rlt_dec s 0); try lra; [apply FloatProofs4.real_neg|apply FloatProofs4.real_pos].
Qed.
Example C101_copy_sign_ex : copy_signf (s_of_int 5) (s_of_int (-2)) = Some (s_of_int (-5)) /\ absf (s_of_int (-5)) = s_of_int 5.
Proof. vm_compute. split; reflexivity. Qed.

(** ** zpl_remainder and zpl_mod on whole numbers *)
Lemma quot_round a b q : (0 <= a < 2 ^ 21)%Z -> (0 < b < 2 ^ 21)%Z -> IZR q - 1 / 2 <= IZR a / IZR b < IZR q + 1 / 2 ->
  (0 <= rnd (IZR a / IZR b) <= IZR (2 ^ 21)) /\ rnd (IZR a / IZR b) <> 1 / 2 - bpow radix2 (-25) /\ IZR q - 1 / 2 <= rnd (IZR a / IZR b) < IZR q + 1 / 2.
Proof.
  intros A B Q. set (t := IZR a / IZR b) in *. set (s := rnd t) in *. assert (PA : 0 <= IZR a <= IZR (2 ^ 21)) by (split; [apply (IZR_le 0)|apply IZR_le]; lia). assert (PB : 1 <= IZR b <= IZR (2 ^ 21)) by (split; [apply (IZR_le 1)|apply IZR_le]; lia).
  change (IZR (2 ^ 21)) with 2097152 in *. assert (E : t * IZR b = IZR a) by (unfold t; field; lra). assert (T0 : 0 <= t) by (unfold t; apply Rmult_le_pos; [lra|left; apply Rinv_0_lt_compat; lra]). assert (T1 : t <= 2097152) by nra.
  assert (S0 : 0 <= s) by now apply rnd_pos. assert (S1 : s <= 2097152). { unfold s. rewrite <- (rnd_fmt 2097152) by (apply (fmt_int 2097152); reflexivity). now apply rnd_mono. }
  assert (N : Rabs (s - t) <= t * / 16777216 + / 1000000000000000000000) by (apply rnd_near; change (IZR (2 ^ 24)) with 16777216; lra). apply Rabs_le_inv in N.
  assert (D : Rabs (s * IZR b - IZR a) <= / 4). { rewrite <- E. replace (s * IZR b - t * IZR b) with ((s - t) * IZR b) by ring. apply Rabs_le. split; nra. } apply Rabs_le_inv in D.
  split; [now split|]. split.
  - intros X. rewrite X, b25 in D. assert (Y : Rabs (IZR (b - 2 * a)) < 1) by (rewrite minus_IZR, mult_IZR; apply Rabs_def1; lra). rewrite <- abs_IZR in Y. apply lt_IZR in Y. assert (b = 2 * a)%Z by lia.
    assert (Z : t = 1 / 2) by (unfold t; rewrite H, mult_IZR; field; intros Z; apply (eq_IZR _ 0) in Z; lia). unfold s in X. rewrite Z in X. rewrite rnd_fmt in X by apply (real_fmt _ _ s_half_real). rewrite b25 in X. lra.
  - split.
    + assert (Qn : (0 <= q)%Z). { assert (IZR (-1) < IZR q) by (change (IZR (-1)) with (-1); lra). apply lt_IZR in H. lia. } destruct (Z.eq_dec q 0) as [->|Qz]; [lra|]. assert (QB : (q <= 2 ^ 21 + 1)%Z) by (apply le_IZR; rewrite plus_IZR; change (IZR (2 ^ 21)) with 2097152; lra).
      assert (F : fmt (IZR q - 1 / 2)). { replace (IZR q - 1 / 2) with (IZR (2 * q - 1) * bpow radix2 (-1)) by (rewrite minus_IZR, mult_IZR; change (bpow radix2 (-1)) with (/ 2); field). apply fmt_int_exp; lia. } rewrite <- (rnd_fmt _ F). now apply rnd_mono.
    + destruct Q as [_ Q]. assert (Y : (2 * a < (2 * q + 1) * b)%Z). { apply lt_IZR. rewrite !mult_IZR, plus_IZR, mult_IZR. nra. } assert (Y' : (2 * a + 1 <= (2 * q + 1) * b)%Z) by lia. apply IZR_le in Y'. rewrite plus_IZR, !mult_IZR, plus_IZR, mult_IZR in Y'. nra.
Qed.
Lemma round_of_neg r n : round_of r n -> round_of (- r) (- n).
Proof. intros [A B]. split; intros C; rewrite opp_IZR; [specialize (B ltac:(lra))|specialize (A ltac:(lra))]; lra. Qed.
Lemma round_quot x n m q : is_single x (rnd (IZR n / IZR m)) -> (Z.abs n < 2 ^ 21)%Z -> (0 < Z.abs m < 2 ^ 21)%Z -> round_of (IZR n / IZR m) q -> gives (roundf x) (IZR q).
Proof.
  intros H N M Q. assert (M0 : IZR m <> 0) by (intros E; apply (eq_IZR _ 0) in E; lia).
  assert (AB : IZR n / IZR m = IZR (Z.abs n) / IZR (Z.abs m) \/ IZR n / IZR m = - (IZR (Z.abs n) / IZR (Z.abs m))).
  { destruct (Z.abs_eq_or_opp n) as [-> | ->], (Z.abs_eq_or_opp m) as [-> | ->]; rewrite ?opp_IZR; [left|right|right|left]; field; exact M0. }
  assert (P : 0 <= IZR (Z.abs n) / IZR (Z.abs m)). { apply Rmult_le_pos; [apply (IZR_le 0); lia|]. left. apply Rinv_0_lt_compat. apply (IZR_lt 0). lia. }
  change (IZR (2 ^ 21)) with 2097152 in *. destruct AB as [E|E]; rewrite E in *.
  - destruct (quot_round (Z.abs n) (Z.abs m) q) as (B & D & G); [lia|lia|now apply Q|]. change (IZR (2 ^ 21)) with 2097152 in B. apply (C101_round x _ q H); [change (IZR (2 ^ 23)) with 8388608; rewrite Rabs_right; lra|rewrite Rabs_right by lra; exact D|]. split; intros C; [exact G|].
    assert (Z : rnd (IZR (Z.abs n) / IZR (Z.abs m)) = 0) by lra. rewrite Z in *. assert (q = 0)%Z as ->; [|lra]. destruct G as [G1 G2]. assert (IZR (-1) < IZR q) by (change (IZR (-1)) with (-1); lra). assert (IZR q < IZR 1) by lra. apply lt_IZR in H0, H1. lia.
  - rewrite rnd_neg in H. apply round_of_neg in Q. rewrite Ropp_involutive in Q. destruct (quot_round (Z.abs n) (Z.abs m) (- q)) as (B & D & G); [lia|lia|now apply Q|]. change (IZR (2 ^ 21)) with 2097152 in B. apply (C101_round x _ q H).
    + rewrite Rabs_Ropp, Rabs_right by lra. change (IZR (2 ^ 23)) with 8388608. lra.
    + rewrite Rabs_Ropp, Rabs_right by lra. exact D.
    + rewrite opp_IZR in G. split; intros C; [|lra]. assert (Z : rnd (IZR (Z.abs n) / IZR (Z.abs m)) = 0) by lra. rewrite Z in *. assert (q = 0)%Z as ->; [|lra]. assert (IZR (-1) < IZR q) by (change (IZR (-1)) with (-1); lra). assert (IZR q < IZR 1) by lra. apply lt_IZR in H0, H1. lia.
Qed.
Theorem C101_remainder (x y : f32) (n m q : Z) : is_single x (IZR n) -> is_single y (IZR m) -> (Z.abs n < 2 ^ 21)%Z -> (0 < Z.abs m < 2 ^ 21)%Z -> round_of (IZR n / IZR m) q ->
  gives (remainderf x y) (IZR (n - q * m)).
Proof.
  intros Hx Hy N M Q. assert (M0 : IZR m <> 0) by (intros E; apply (eq_IZR _ 0) in E; lia).
  assert (QM : (2 * Z.abs (q * m - n) <= Z.abs m)%Z).
  { apply le_IZR. rewrite mult_IZR, !abs_IZR, minus_IZR, mult_IZR. replace (IZR q * IZR m - IZR n) with ((IZR q - IZR n / IZR m) * IZR m) by (field; exact M0). rewrite Rabs_mult. assert (Rabs (IZR q - IZR n / IZR m) <= 1 / 2). { destruct Q as [Q1 Q2]. apply Rabs_le. destruct (Rle_or_lt 0 (IZR n / IZR m)) as [C|C]; [specialize (Q1 C)|specialize (Q2 ltac:(lra))]; lra. } pose proof (Rabs_pos (IZR m)). nra. }
  assert (A : IZR (Z.abs n) <= IZR (2 ^ 21)) by (apply IZR_le; lia). rewrite abs_IZR in A. assert (B : 1 <= IZR (Z.abs m)) by (apply (IZR_le 1); lia). rewrite abs_IZR in B.
  assert (D : is_single (sdiv x y) (rnd (IZR n / IZR m))). { apply sdiv_real; [exact Hx|exact Hy|exact M0|]. apply small_32. unfold Rdiv. rewrite Rabs_mult, Rabs_inv. change (IZR (2 ^ 21)) with 2097152 in A. change (IZR (2 ^ 32)) with 4294967296. assert (/ Rabs (IZR m) <= 1) by (rewrite <- Rinv_1; apply Rinv_le; lra). assert (0 < / Rabs (IZR m)) by (apply Rinv_0_lt_compat; lra). pose proof (Rabs_pos (IZR n)). nra. }
  destruct (round_quot _ n m q D N M Q) as (z & E & Z). unfold remainderf. rewrite E. cbn [obind].
  assert (F1 : fmt (IZR q * IZR m)) by (rewrite <- mult_IZR; apply fmt_int; lia). assert (P : is_single (smul z y) (IZR q * IZR m)). { rewrite <- (rnd_fmt _ F1). apply smul_real; [exact Z|exact Hy|]. apply small_32. rewrite <- mult_IZR, <- abs_IZR. apply IZR_le. lia. }
  assert (F2 : fmt (IZR n - IZR q * IZR m)) by (rewrite <- mult_IZR, <- minus_IZR; apply fmt_int; lia). eexists. split; [reflexivity|]. rewrite minus_IZR, mult_IZR. rewrite <- (rnd_fmt _ F2). apply ssub_real; [exact Hx|exact P|]. apply small_32. rewrite <- mult_IZR, <- minus_IZR, <- abs_IZR. apply IZR_le. lia.
Qed.
Example C101_remainder_ex : remainderf (s_of_int 7) (s_of_int 4) = Some (s_of_int (-1)) /\ remainderf (s_of_int (-10)) (s_of_int 4) = Some (s_of_int 2) /\ round_of (7 / 4) 2.
Proof. split; [|split]; [vm_compute; reflexivity|vm_compute; reflexivity|]. split; intros _; lra. Qed.

(** [if (zpl_signf(result))] always holds: the divisor is added to every remainder, also to one that is not negative. *)
Theorem C101_mod (x y : f32) (n m : Z) : is_single x (IZR n) -> is_single y (IZR m) -> (0 < Z.abs n < 2 ^ 21)%Z -> (0 < Z.abs m < 2 ^ 21)%Z ->
  gives (modf x y) (IZR (Z.sgn n * (if Z.leb (Z.abs m) (2 * (Z.abs n mod Z.abs m)) then Z.abs m - Z.abs n mod Z.abs m else Z.abs n mod Z.abs m + Z.abs m))).
Proof.
  intros Hx Hy N M. pose proof (C101_abs x _ Hx) as Ax. pose proof (C101_abs y _ Hy) as Ay. rewrite <- abs_IZR in Ax, Ay. set (a := Z.abs n) in *. set (b := Z.abs m) in *. pose proof (Z.div_mod a b ltac:(lia)) as DM. pose proof (Z.mod_pos_bound a b ltac:(lia)) as MB. set (r := (a mod b)%Z) in *. set (d := (a / b)%Z) in *.
  set (q := (if Z.leb b (2 * r) then d + 1 else d)%Z). assert (PB : 0 < IZR b) by (apply (IZR_lt 0); lia).
  assert (Q : round_of (IZR a / IZR b) q).
  { assert (P : 0 < IZR a / IZR b) by (apply Rdiv_lt_0_compat; [apply (IZR_lt 0); lia|exact PB]). split; intros C; [|lra]. assert (Z : ((2 * q - 1) * b <= 2 * a < (2 * q + 1) * b)%Z) by (unfold q; destruct (Z.leb_spec b (2 * r)); nia).
    destruct Z as [Z1 Z2]. apply IZR_le in Z1. apply IZR_lt in Z2. rewrite !mult_IZR, plus_IZR, mult_IZR in Z2. rewrite !mult_IZR, minus_IZR, mult_IZR in Z1. assert (E : IZR a / IZR b * IZR b = IZR a) by (field; lra). split; nra. }
  destruct (C101_remainder _ _ a b q Ax Ay) as (z & E & Z); [lia|lia|exact Q|]. unfold modf. rewrite E. cbn [obind]. set (v := (if Z.leb b (2 * r) then b - r else r + b)%Z) in *. assert (VB : (0 <= v < 2 ^ 22)%Z) by (unfold v; destruct (Z.leb_spec b (2 * r)); lia).
  assert (F : exists w, is_single (if SFltb f_zero (signf z) then sadd z (absf y) else z) (IZR w) /\ Z.abs w = v).
  { destruct (Z.leb_spec b (2 * r)) as [C|C].
    - exists (r - b)%Z. assert (W : (a - q * b = r - b)%Z) by (unfold q; lia). rewrite W in Z. split; [|unfold v; lia]. assert (S : signf z = s_of_int (-1)). { unfold signf. rewrite (ge0_iff z _ Z), Rle_bool_false by (apply (IZR_lt _ 0); lia). reflexivity. } rewrite S. exact Z.
    - exists (r + b)%Z. assert (W : (a - q * b = r)%Z) by (unfold q; lia). rewrite W in Z. split; [|unfold v; lia]. assert (S : signf z = s_of_int 1). { unfold signf. rewrite (ge0_iff z _ Z), Rle_bool_true by (apply (IZR_le 0); lia). reflexivity. } rewrite S. change (SFltb f_zero (s_of_int 1)) with true. cbv iota.
      replace (IZR (r + b)) with (rnd (IZR r + IZR b)); [apply sadd_real; [exact Z|exact Ay|]|]; rewrite <- plus_IZR; [apply small_32; rewrite <- abs_IZR; apply IZR_le; lia|apply rnd_fmt; apply fmt_int; lia]. }
  destruct F as (w & F & W). assert (N0 : IZR n <> 0) by (intros C; apply (eq_IZR _ 0) in C; lia). pose proof (copy_sign_real _ _ _ _ F Hx N0) as G. rewrite <- abs_IZR, W in G.
  destruct (Rlt_dec (IZR n) 0) as [L|L].
  - apply (lt_IZR n 0) in L. rewrite (Z.sgn_neg n L). rewrite mult_IZR. change (IZR (-1)) with (-1). replace (-1 * IZR v) with (- IZR v) by ring. exact G.
  - assert (0 < n)%Z. { destruct (Z.lt_total n 0) as [C|[C|C]]; [destruct L; now apply (IZR_lt n 0)|subst n; lra|exact C]. } rewrite (Z.sgn_pos n H). rewrite Z.mul_1_l. exact G.
Qed.
(** So zpl_mod is right only if the remainder is exactly half of the divisor. *)
Corollary C101_mod_iff (x y : f32) (n m : Z) : is_single x (IZR n) -> is_single y (IZR m) -> (0 < Z.abs n < 2 ^ 21)%Z -> (0 < Z.abs m < 2 ^ 21)%Z ->
  gives (modf x y) (IZR (Z.rem n m)) <-> (Z.abs m = 2 * (Z.abs n mod Z.abs m))%Z.
Proof.
  intros Hx Hy N M. pose proof (C101_mod x y n m Hx Hy N M) as G. assert (E : Z.rem n m = (Z.sgn n * (Z.abs n mod Z.abs m))%Z). { rewrite <- (Z.rem_mod n m) by lia. reflexivity. } rewrite E. pose proof (Z.mod_pos_bound (Z.abs n) (Z.abs m) ltac:(lia)) as B. destruct (Z.leb_spec (Z.abs m) (2 * (Z.abs n mod Z.abs m))) as [C|C]; split; intros H.
  - pose proof (gives_unique _ _ _ G H) as X. apply eq_IZR in X. nia.
  - replace (Z.abs n mod Z.abs m)%Z with (Z.abs m - Z.abs n mod Z.abs m)%Z by lia. exact G.
  - pose proof (gives_unique _ _ _ G H) as X. apply eq_IZR in X. nia.
  - lia.
Qed.
Example C101_mod_ex : modf (s_of_int 7) (s_of_int 3) = Some (s_of_int 4) /\ modf (s_of_int (-8)) (s_of_int 3) = Some (s_of_int (-1)) /\ modf (s_of_int 6) (s_of_int 4) = Some (s_of_int 2).
Proof. vm_compute. repeat split; reflexivity. Qed.
Print Assumptions C101_floor.
Print Assumptions C101_floor_whole_refuted.
Print Assumptions C101_floor_even_refuted.
Print Assumptions C101_floor_next_refuted.
Print Assumptions C101_floor_iff.
Print Assumptions C101_floor_undefined.
Print Assumptions C101_not_finite.
Print Assumptions C101_ceil.
Print Assumptions C101_ceil_whole_refuted.
Print Assumptions C101_ceil_four.
Print Assumptions C101_ceil_even_refuted.
Print Assumptions C101_ceil_iff.
Print Assumptions C101_round.
Print Assumptions C101_round_half_refuted.
Print Assumptions C101_round_odd_refuted.
Print Assumptions C101_abs.
Print Assumptions C101_sign.
Print Assumptions C101_copy_sign.
Print Assumptions C101_remainder.
Print Assumptions C101_mod.
Print Assumptions C101_mod_iff.
