(** C122: the elementary functions used without the C library's. *)
From Coq Require Import Reals QArith Qreals Lra Lia List.
From Verif Require Import Base SoftMath SoftMathPoly SoftMathProofs SoftExpProofs.
Import ListNotations.
Local Open Scope R_scope.

(** ** Sine, cosine, tangent *)
(** Over a whole turn from 0 the polynomials stay close to the functions. *)
Theorem C122_sin a : 0 <= a <= 2 * PI -> Rabs (soft_sin a - sin a) <= 9 / 10000.
Proof.
  intros A. pose proof PI_22_7. rewrite <- wave_0. replace (9 / 10000) with (Q2R (9 # 10000)) by (unfold Q2R; cbn; lra).
  apply (close_ok _ _ _ _ _ _ _ a sin_close); [lia|]. rewrite INR_IZR_INZ. change (IZR (Z.of_nat 88)) with 88. lra.
Qed.
Theorem C122_cos a : 0 <= a <= 2 * PI -> Rabs (soft_cos a - cos a) <= 25 / 10000.
Proof.
  intros A. pose proof PI_22_7. rewrite <- wave_1. replace (25 / 10000) with (Q2R (25 # 10000)) by (unfold Q2R; cbn; lra).
  apply (close_ok _ _ _ _ _ _ _ a cos_close); [lia|]. rewrite INR_IZR_INZ. change (IZR (Z.of_nat 88)) with 88. lra.
Qed.
(** Outside that turn they are not even between -1 and 1. *)
Theorem C122_turn_refuted : soft_sin (-3 / 2) < -13 / 10 /\ 6 / 5 < soft_cos (-3 / 2) /\ 8 / 5 < soft_sin 8 /\ 8 / 5 < soft_cos 8.
Proof.
  assert (E : Q2R (-3 # 2) = -3 / 2) by (unfold Q2R; cbn; lra). assert (E8 : Q2R 8 = 8) by (unfold Q2R; cbn; lra).
  assert (E5 : 8 / 5 = Q2R (8 # 5)) by (unfold Q2R; cbn; lra).
  unfold soft_sin, soft_cos. rewrite E5, <- E, <- E8, !qhorner_ok. refine (conj _ (conj _ (conj _ _))).
  - replace (-13 / 10) with (Q2R (-13 # 10)) by (unfold Q2R; cbn; lra). apply Qlt_Rlt. vm_compute. reflexivity.
  - replace (6 / 5) with (Q2R (6 # 5)) by (unfold Q2R; cbn; lra). apply Qlt_Rlt. vm_compute. reflexivity.
  - apply Qlt_Rlt. vm_compute. reflexivity.
  - apply Qlt_Rlt. vm_compute. reflexivity.
Qed.
(** The tangent is right between -45 and 45 degrees. *)
Theorem C122_tan a : - (PI / 4) <= a <= PI / 4 -> Rabs (soft_tan a - tan a) <= 3 / 10 ^ 8.
Proof.
  intros A. destruct (Rle_dec 0 a) as [L|L]; [apply tan_near; lra|].
  rewrite <- (Ropp_involutive a), tan_odd, tan_neg. replace (- soft_tan (- a) - - tan (- a)) with (- (soft_tan (- a) - tan (- a))) by ring.
  rewrite Rabs_Ropp. apply tan_near. lra.
Qed.

(** ** Inverse functions *)
Theorem C122_arctan a : Rabs a <= 1 -> Rabs (soft_arctan a - atan a) <= 5 / 10 ^ 6.
Proof. apply arctan_near. Qed.
(** Beyond 1 it is not the arc tangent: it even falls below 0. *)
Theorem C122_arctan_refuted : soft_arctan 3 < 0 /\ 0 < atan 3.
Proof.
  split; [|pose proof (atan_increasing 0 3 ltac:(lra)) as A; rewrite atan_0 in A; exact A]. rewrite soft_arctan_poly.
  assert (H : horner arctan_poly 3 < 0).
  { replace 3 with (Q2R 3) by (unfold Q2R; cbn; lra). rewrite qhorner_ok, <- Q2R_0. apply Qlt_Rlt. vm_compute. reflexivity. }
  apply Rinv_lt_0_compat in H. unfold Rdiv. nra.
Qed.

(** [th] is the angle of the point (x, y) *)
Definition polar (x y th : R) : Prop := exists r, 0 < r /\ x = r * cos th /\ y = r * sin th.

Lemma polar_atan t : polar 1 t (atan t).
Proof.
  assert (D : 0 < sqrt (1 + t²)) by (apply sqrt_lt_R0; unfold Rsqr; nra).
  exists (sqrt (1 + t²)). split; [exact D|]. rewrite cos_atan, sin_atan. split; field; lra.
Qed.
Lemma polar_scale k x y th : 0 < k -> polar x y th -> polar (k * x) (k * y) th.
Proof. intros K (r & R & -> & ->). exists (k * r). split; [nra|]. split; ring. Qed.
Lemma polar_right x y : 0 < x -> polar x y (atan (y / x)).
Proof.
  intros X. replace x with (x * 1) at 1 by ring. replace y with (x * (y / x)) at 1 by (field; lra). apply polar_scale, polar_atan. exact X.
Qed.
Lemma polar_turn x y th : polar x y th -> polar (- x) (- y) (th + PI) /\ polar (- x) (- y) (th - PI).
Proof.
  intros (r & R & -> & ->). split; exists r; (split; [exact R|]).
  - rewrite neg_cos, neg_sin. split; ring.
  - rewrite cos_minus, sin_minus, cos_PI, sin_PI. split; ring.
Qed.
Lemma polar_left x y : x < 0 -> polar x y (atan (y / x) + PI) /\ polar x y (atan (y / x) - PI).
Proof.
  intros X. pose proof (polar_turn _ _ _ (polar_right (- x) (- y) ltac:(lra))) as H. rewrite !Ropp_involutive in H.
  replace (- y / - x) with (y / x) in H by (field; lra). exact H.
Qed.
Lemma polar_up x y : 0 < y -> polar x y (PI / 2 - atan (x / y)).
Proof.
  intros Y. destruct (polar_right y x Y) as (r & R & E1 & E2). exists r. split; [exact R|]. rewrite cos_shift, sin_shift. split; assumption.
Qed.
Lemma polar_down x y : y < 0 -> polar x y (- (PI / 2) - atan (x / y)).
Proof.
  intros Y. pose proof (polar_turn _ _ _ (polar_up (- x) (- y) ltac:(lra))) as [_ H]. rewrite !Ropp_involutive in H.
  replace (- x / - y) with (x / y) in H by (field; lra). replace (PI / 2 - atan (x / y) - PI) with (- (PI / 2) - atan (x / y)) in H by field. exact H.
Qed.
Lemma soft_abs_ok x : soft_abs x = Rabs x.
Proof. unfold soft_abs, Rabs. destruct (Rlt_dec x 0), (Rcase_abs x); lra. Qed.
Lemma ratio a b : b <> 0 -> Rabs a <= Rabs b -> Rabs (a / b) <= 1.
Proof.
  intros B H. pose proof (Rabs_pos_lt b B). unfold Rdiv. rewrite Rabs_mult, Rabs_inv. apply (Rmult_le_reg_r (Rabs b)); [assumption|].
  rewrite Rmult_assoc, Rinv_l by lra. lra.
Qed.
Lemma atan_sign t : (0 <= t -> 0 <= atan t) /\ (t <= 0 -> atan t <= 0).
Proof.
  split; intros H; (destruct (Req_dec t 0) as [->|N]; [rewrite atan_0; lra|]).
  - pose proof (atan_increasing 0 t ltac:(lra)) as A. rewrite atan_0 in A. lra.
  - pose proof (atan_increasing t 0 ltac:(lra)) as A. rewrite atan_0 in A. lra.
Qed.
Lemma div_sign a b : (0 <= a -> 0 < b -> 0 <= a / b) /\ (0 <= a -> b < 0 -> a / b <= 0) /\ (a <= 0 -> 0 < b -> a / b <= 0) /\ (a <= 0 -> b < 0 -> 0 <= a / b).
Proof.
  unfold Rdiv. repeat split; intros A B; try (apply Rinv_0_lt_compat in B); try (apply Rinv_lt_0_compat in B); nra.
Qed.

(** In the right half plane, and near the x axis on the left, zpl_arctan2 gives the angle of the point. *)
Theorem C122_arctan2 x y : 0 < x \/ (Rabs y < Rabs x) ->
  exists th, polar x y th /\ - PI <= th <= PI /\ Rabs (soft_arctan2 y x - th) <= 5 / 10 ^ 6 /\
    (0 < x -> - (PI / 2) <= th <= PI / 2) /\ (0 <= y -> 0 < x \/ 0 < y -> 0 <= th).
Proof.
  intros H. pose proof PI_RGT_0. unfold soft_arctan2. rewrite !soft_abs_ok. destruct (Rlt_dec (Rabs y) (Rabs x)) as [L|L].
  - assert (X : x <> 0) by (intros ->; rewrite Rabs_R0 in L; pose proof (Rabs_pos y); lra).
    pose proof (arctan_near (y / x) (ratio y x X ltac:(lra))) as A. destruct (atan_bound (y / x)) as [B1 B2].
    destruct (div_sign y x) as (S1 & S2 & S3 & S4). destruct (atan_sign (y / x)) as (T1 & T2).
    destruct (Rlt_dec 0 x) as [Px|Px]; [|destruct (Rlt_dec 0 y) as [Py|Py]].
    + exists (atan (y / x)). split; [apply polar_right; exact Px|]. split; [lra|split; [exact A|split; [lra|intros Y _; apply T1, S1; lra]]].
    + exists (atan (y / x) + PI). split; [apply polar_left; lra|]. assert (atan (y / x) <= 0) by (apply T2, S2; lra).
      replace (soft_arctan (y / x) + PI - (atan (y / x) + PI)) with (soft_arctan (y / x) - atan (y / x)) by ring. split; [lra|split; [exact A|split; intros; lra]].
    + exists (atan (y / x) - PI). split; [apply polar_left; lra|]. assert (0 <= atan (y / x)) by (apply T1, S4; lra).
      replace (soft_arctan (y / x) - PI - (atan (y / x) - PI)) with (soft_arctan (y / x) - atan (y / x)) by ring. split; [lra|split; [exact A|split; intros; lra]].
  - destruct H as [Px|]; [|lra]. assert (Y : y <> 0) by (intros ->; rewrite Rabs_R0, Rabs_pos_eq in L by lra; lra).
    pose proof (arctan_near (x / y) (ratio x y Y ltac:(lra))) as A. destruct (atan_bound (x / y)) as [B1 B2].
    destruct (div_sign x y) as (S1 & S2 & S3 & S4). destruct (atan_sign (x / y)) as (T1 & T2).
    destruct (Rlt_dec 0 x) as [_|]; [|lra]. destruct (Rlt_dec 0 y) as [Py|Py].
    + exists (PI / 2 - atan (x / y)). split; [apply polar_up; exact Py|]. assert (0 <= atan (x / y)) by (apply T1, S1; lra).
      replace (PI / 2 - soft_arctan (x / y) - (PI / 2 - atan (x / y))) with (- (soft_arctan (x / y) - atan (x / y))) by ring. rewrite Rabs_Ropp. split; [lra|split; [exact A|split; intros; lra]].
    + exists (- (PI / 2) - atan (x / y)). split; [apply polar_down; lra|]. assert (atan (x / y) <= 0) by (apply T2, S2; lra).
      replace (- (PI / 2) - soft_arctan (x / y) - (- (PI / 2) - atan (x / y))) with (- (soft_arctan (x / y) - atan (x / y))) by ring. rewrite Rabs_Ropp. split; [lra|split; [exact A|split; intros; lra]].
Qed.
(** In the rest of the left half plane it gives the angle of the mirror image (-x, y). *)
Theorem C122_arctan2_refuted x y : x <= 0 -> y <> 0 -> Rabs x <= Rabs y ->
  exists th, polar (- x) y th /\ - (PI / 2) <= th <= PI / 2 /\ Rabs (soft_arctan2 y x - th) <= 5 / 10 ^ 6 /\ (0 < y -> 0 <= th).
Proof.
  intros X Y L. pose proof PI_RGT_0. unfold soft_arctan2. rewrite !soft_abs_ok. destruct (Rlt_dec (Rabs y) (Rabs x)) as [?|_]; [lra|].
  pose proof (arctan_near (x / y) (ratio x y Y L)) as A. destruct (atan_bound (x / y)) as [B1 B2].
  destruct (div_sign x y) as (S1 & S2 & S3 & S4). destruct (atan_sign (x / y)) as (T1 & T2).
  assert (E : atan (- x / y) = - atan (x / y)) by (rewrite <- atan_opp; f_equal; field; exact Y).
  destruct (Rlt_dec 0 x) as [?|_]; [lra|]. destruct (Rlt_dec 0 y) as [Py|Py].
  - exists (PI / 2 + atan (x / y)). split.
    + replace (PI / 2 + atan (x / y)) with (PI / 2 - atan (- x / y)) by (rewrite E; ring). apply polar_up, Py.
    + assert (atan (x / y) <= 0) by (apply T2, S3; lra).
      replace (PI / 2 + soft_arctan (x / y) - (PI / 2 + atan (x / y))) with (soft_arctan (x / y) - atan (x / y)) by ring. split; [lra|split; [exact A|intros; lra]].
  - exists (- (PI / 2) + atan (x / y)). split.
    + replace (- (PI / 2) + atan (x / y)) with (- (PI / 2) - atan (- x / y)) by (rewrite E; ring). apply polar_down. lra.
    + assert (0 <= atan (x / y)) by (apply T1, S4; lra).
      replace (- (PI / 2) + soft_arctan (x / y) - (- (PI / 2) + atan (x / y))) with (soft_arctan (x / y) - atan (x / y)) by ring. split; [lra|split; [exact A|intros; lra]].
Qed.

Lemma unit_polar a b th : a * a + b * b = 1 -> polar a b th -> cos th = a /\ sin th = b.
Proof.
  intros U (r & R & E1 & E2). pose proof (sin2_cos2 th) as T. unfold Rsqr in T. assert (r = 1) by (subst a b; nra). subst r. split; lra.
Qed.
Lemma root a : -1 <= a <= 1 -> a * a + sqrt ((1 + a) * (1 - a)) * sqrt ((1 + a) * (1 - a)) = 1 /\ 0 <= sqrt ((1 + a) * (1 - a)).
Proof. intros A. split; [rewrite sqrt_sqrt by nra; ring|apply sqrt_pos]. Qed.

Theorem C122_arcsin a : -1 <= a <= 1 -> Rabs (soft_arcsin a - asin a) <= 5 / 10 ^ 6.
Proof.
  intros A. destruct (root a A) as (U & P). unfold soft_arcsin. set (s := sqrt _) in *.
  destruct (Rle_lt_or_eq_dec 0 s P) as [Ps|Zs].
  - destruct (C122_arctan2 s a (or_introl Ps)) as (th & Po & _ & N & B & _). specialize (B Ps).
    destruct (unit_polar s a th ltac:(lra) Po) as [_ S]. replace (asin a) with th; [exact N|]. rewrite <- S. symmetry. apply asin_sin. lra.
  - rewrite <- Zs in U |- *. assert (Ha : a <> 0) by nra.
    destruct (C122_arctan2_refuted 0 a) as (th & Po & B & N & _); [lra|exact Ha|rewrite Rabs_R0; apply Rabs_pos|].
    destruct (unit_polar (- 0) a th ltac:(lra) Po) as [_ S]. replace (asin a) with th; [exact N|]. rewrite <- S. symmetry. apply asin_sin. lra.
Qed.
(** zpl_arccos is right from 0 on and below -sqrt 1/2, short of -1 ... *)
Theorem C122_arccos a : -1 < a <= 1 -> 0 < a \/ (a < 0 /\ 1 / 2 < a * a) -> Rabs (soft_arccos a - acos a) <= 5 / 10 ^ 6.
Proof.
  intros A H. destruct (root a ltac:(lra)) as (U & P). unfold soft_arccos. set (s := sqrt _) in *.
  assert (D : 0 < a \/ Rabs s < Rabs a).
  { destruct H as [H|[H1 H2]]; [left; exact H|right]. apply Rsqr_lt_abs_0. unfold Rsqr. lra. }
  assert (Y : 0 < a \/ 0 < s).
  { destruct H as [H|[H1 H2]]; [left; exact H|right]. destruct (Rle_lt_or_eq_dec 0 s P) as [|Z]; [assumption|]. rewrite <- Z in U. nra. }
  destruct (C122_arctan2 a s D) as (th & Po & B & N & _ & T). specialize (T P Y).
  destruct (unit_polar a s th U Po) as [C _]. replace (acos a) with th; [exact N|]. rewrite <- C. symmetry. apply acos_cos. lra.
Qed.
(** ... and forgets the sign in between; at -1 it is - PI. *)
Theorem C122_arccos_refuted :
  (forall a, a <= 0 -> a * a <= 1 / 2 -> Rabs (soft_arccos a - acos (- a)) <= 5 / 10 ^ 6) /\ soft_arccos (-1) = - PI.
Proof.
  split.
  - intros a H1 H2. destruct (root a ltac:(nra)) as (U & P). unfold soft_arccos. set (s := sqrt _) in *.
    assert (Ps : 0 < s) by (destruct (Rle_lt_or_eq_dec 0 s P) as [|Z]; [assumption|]; rewrite <- Z in U; nra).
    destruct (C122_arctan2_refuted a s) as (th & Po & B & N & T); [exact H1|lra|apply Rsqr_le_abs_0; unfold Rsqr; lra|].
    specialize (T Ps). destruct (unit_polar (- a) s th ltac:(lra) Po) as [C _]. pose proof PI_RGT_0.
    replace (acos (- a)) with th; [exact N|]. rewrite <- C. symmetry. apply acos_cos. lra.
  - unfold soft_arccos. replace ((1 + -1) * (1 - -1)) with 0 by ring. rewrite sqrt_0. unfold soft_arctan2. rewrite !soft_abs_ok, Rabs_R0, Rabs_left by lra.
    destruct (Rlt_dec 0 (- -1)); [|lra]. destruct (Rlt_dec 0 (-1)); [lra|]. destruct (Rlt_dec 0 0); [lra|].
    unfold soft_arctan, Rdiv. ring.
Qed.

(** ** Exponentials and powers *)
Lemma to_int_IZR n : to_int (IZR n) = n.
Proof.
  assert (I : forall m, Int_part (IZR m) = m).
  { intros m. unfold Int_part. rewrite <- (tech_up (IZR m) (m + 1)); [lia| |]; rewrite plus_IZR; lra. }
  unfold to_int. destruct (Rlt_dec (IZR n) 0); rewrite <- ?opp_IZR, I; lia.
Qed.
Theorem C122_exp_inverse a : soft_exp (- a) = / soft_exp a /\ soft_exp 0 = 1.
Proof.
  assert (NZ : forall i, of_bits i <> 0).
  { intros i. unfold of_bits. assert (0 < powerRZ 2 (i / 2 ^ 23 - 127)) by (apply powerRZ_lt; lra).
    assert (0 <= IZR (i mod 2 ^ 23)) by (apply IZR_le; pose proof (Z.mod_pos_bound i (2 ^ 23) ltac:(lia)); lia).
    assert (0 < / IZR (2 ^ 23)) by (apply Rinv_0_lt_compat, IZR_lt; lia). unfold Rdiv. nra. }
  split.
  - unfold soft_exp. replace (6051102 * - a + 1056478197) with (1056478197 - 6051102 * a) by ring.
    replace (1056478197 - 6051102 * - a) with (6051102 * a + 1056478197) by ring. field. split; apply NZ.
  - unfold soft_exp. rewrite Rmult_0_r, Rplus_0_l, Rminus_0_r. unfold Rdiv. apply Rinv_r, NZ.
Qed.
(** zpl_exp is within 7.5 per cent *)
Theorem C122_exp a : - 88 <= a <= 88 -> 93 / 100 * exp a <= soft_exp a <= 1075 / 1000 * exp a.
Proof.
  intros A. set (i := to_int (6051102 * a + 1056478197)). set (j := to_int (1056478197 - 6051102 * a)).
  pose proof (to_int_near (6051102 * a + 1056478197) ltac:(lra)) as I. pose proof (to_int_near (1056478197 - 6051102 * a) ltac:(lra)) as J. fold i in I. fold j in J.
  pose proof (of_bits_near i) as U. pose proof (of_bits_near j) as V. cbv zeta in U, V.
  set (eu := exp ((IZR i / IZR (2 ^ 23) - 127) * ln 2)) in *. set (ev := exp ((IZR j / IZR (2 ^ 23) - 127) * ln 2)) in *.
  set (d := (IZR i - IZR j) / IZR (2 ^ 23) * ln 2 - a).
  assert (Pu : 0 < eu) by apply exp_pos. assert (Pv : 0 < ev) by apply exp_pos.
  assert (E : eu = ev * (exp a * exp d)).
  { unfold eu, ev, d. rewrite <- !exp_plus. f_equal. field. apply not_0_IZR. lia. }
  assert (D : - (1 / 10000) <= d <= 1 / 10000).
  { unfold d. change (IZR (2 ^ 23)) with 8388608. pose proof ln2_bounds as L.
    assert (K : 12102204 * a - 1 <= IZR i - IZR j <= 12102204 * a + 1) by lra. set (k := IZR i - IZR j) in *.
    replace (k / 8388608 * ln 2 - a) with ((k - 12102204 * a) * (ln 2 / 8388608) + a * (12102204 * (ln 2 / 8388608) - 1)) by field.
    assert (M : 12102204 * (6931471 / 10000000 / 8388608) - 1 <= 12102204 * (ln 2 / 8388608) - 1 <= 12102204 * (6931472 / 10000000 / 8388608) - 1) by lra.
    set (m := 12102204 * (ln 2 / 8388608) - 1) in *. assert (M' : - (1 / 1000000) <= m <= 1 / 1000000) by lra.
    assert (- (88 / 1000000) <= a * m <= 88 / 1000000) by nra.
    assert (T : 0 <= ln 2 / 8388608 <= 1 / 1000000) by lra. set (t := ln 2 / 8388608) in *.
    assert (- (1 / 1000000) <= (k - 12102204 * a) * t <= 1 / 1000000) by nra. lra. }
  assert (G : 1 - 1 / 10000 <= exp d <= 1 + 2 / 10000).
  { assert (T : forall x, 1 + x <= exp x).
    { intros x. destruct (Req_dec x 0) as [->|N]; [rewrite exp_0; lra|]. left. apply exp_ineq1, N. }
    split; [pose proof (T d); lra|]. pose proof (T (- d)) as H. rewrite exp_Ropp in H. pose proof (exp_pos d) as P.
    apply (Rmult_le_compat_r (exp d)) in H; [|lra]. rewrite Rinv_l in H by lra. nra. }
  unfold soft_exp. fold i j. set (u := of_bits i) in *. set (v := of_bits j) in *. assert (Pv' : 0 < v) by lra. pose proof (exp_pos a) as Pa.
  set (x := exp a) in *. set (g := exp d) in *. assert (Px : 0 < ev * x) by nra.
  split; apply (Rmult_le_reg_r v); try exact Pv'; unfold Rdiv; rewrite (Rmult_assoc u), Rinv_l by lra; rewrite Rmult_1_r.
  - apply Rle_trans with (93 / 100 * x * (ev / (935 / 1000))); [apply Rmult_le_compat_l; [nra|lra]|].
    apply Rle_trans with eu; [|lra]. rewrite E. replace (93 / 100 * x * (ev / (935 / 1000))) with (ev * x * (93 / 100 / (935 / 1000))) by (field).
    replace (ev * (x * g)) with (ev * x * g) by ring. apply Rmult_le_compat_l; lra.
  - apply Rle_trans with (eu / (935 / 1000)); [lra|]. apply Rle_trans with (1075 / 1000 * x * ev); [|apply Rmult_le_compat_l; [nra|lra]].
    rewrite E. replace (ev * (x * g) / (935 / 1000)) with (ev * x * (g / (935 / 1000))) by (field).
    replace (1075 / 1000 * x * ev) with (ev * x * (1075 / 1000)) by ring. apply Rmult_le_compat_l; lra.
Qed.
(** zpl_log is within 0.041 for every positive normal single *)
Theorem C122_log i : (2 ^ 23 <= i < 255 * 2 ^ 23)%Z -> Rabs (soft_log i - ln (of_bits i)) <= 41 / 1000.
Proof.
  intros I. pose proof (of_bits_near i) as U. cbv zeta in U. set (y := (IZR i / IZR (2 ^ 23) - 127) * ln 2) in *. pose proof (exp_pos y) as P.
  assert (L1 : y <= ln (of_bits i)). { apply Rnot_lt_le. intros H. apply exp_increasing in H. rewrite exp_ln in H by lra. lra. }
  assert (L2 : ln (of_bits i) <= y + 695188 / 10000000).
  { apply Rnot_lt_le. intros H. apply exp_increasing in H. rewrite exp_ln, exp_plus in H by lra.
    assert (T : 1 + 695188 / 10000000 < exp (695188 / 10000000)) by (apply exp_ineq1; lra).
    assert (exp y * (1 + 695188 / 10000000) < exp y * exp (695188 / 10000000)) by (apply Rmult_lt_compat_l; lra).
    replace (exp y / (935 / 1000)) with (exp y * (1000 / 935)) in U by field. nra. }
  destruct I as [I0 I1]. apply IZR_le in I0. apply IZR_lt in I1. change (IZR (2 ^ 23)) with 8388608 in *. change (IZR (255 * 2 ^ 23)) with 2139095040 in I1.
  unfold soft_log, Q2R. rewrite minus_IZR. cbn [Qnum Qden]. change (Z.pos (10 ^ 23)) with 100000000000000000000000%Z.
  pose proof ln2_bounds as B. unfold y in L1, L2. set (l := ln 2) in *. set (x := IZR i) in *. set (z := ln (of_bits i)) in *. clearbody l x z. clear U P y.
  assert (X : 6931471 / 10000000 * (x / 8388608) <= x / 8388608 * l <= 6931472 / 10000000 * (x / 8388608)) by nra.
  apply Rabs_le. lra.
Qed.
(** Powers of two and logarithms to base two are built from these. *)
Theorem C122_exp2 x : - 126 <= x <= 126 -> 92 / 100 * Rpower 2 x <= soft_exp2 x <= 108 / 100 * Rpower 2 x.
Proof.
  intros X. unfold soft_exp2, Rpower. pose proof ln2_bounds as L. assert (T : log_two = 693147180559945309 / 1000000000000000000) by reflexivity.
  assert (A : - 88 <= log_two * x <= 88) by (rewrite T; lra). pose proof (C122_exp _ A) as E.
  set (d := (log_two - ln 2) * x). assert (M : - (1 / 1000000) <= log_two - ln 2 <= 1 / 1000000) by lra.
  assert (D : - (1 / 1000) <= d <= 1 / 1000) by (unfold d; nra).
  replace (exp (log_two * x)) with (exp (x * ln 2) * exp d) in E by (rewrite <- exp_plus; f_equal; unfold d; ring).
  assert (K : forall y, 1 + y <= exp y).
  { intros y. destruct (Req_dec y 0) as [->|N]; [rewrite exp_0; lra|]. left. apply exp_ineq1, N. }
  assert (G : 1 - 1 / 1000 <= exp d <= 1 + 2 / 1000).
  { split; [pose proof (K d); lra|]. pose proof (K (- d)) as H. rewrite exp_Ropp in H. pose proof (exp_pos d) as P.
    apply (Rmult_le_compat_r (exp d)) in H; [|lra]. rewrite Rinv_l in H by lra. nra. }
  pose proof (exp_pos (x * ln 2)) as P. set (u := exp (x * ln 2)) in *. set (g := exp d) in *. clearbody u g. nra.
Qed.
Theorem C122_log2 i : (2 ^ 23 <= i < 255 * 2 ^ 23)%Z -> Rabs (soft_log2 i - ln (of_bits i) / ln 2) <= 6 / 100.
Proof.
  intros I. pose proof (C122_log i I) as H. pose proof ln2_bounds as L. unfold soft_log2. assert (T : log_two = 693147180559945309 / 1000000000000000000) by reflexivity.
  assert (Z : - 100 <= soft_log i <= 100).
  { unfold soft_log, Q2R. destruct I as [I0 I1]. apply IZR_le in I0. apply IZR_lt in I1. change (IZR (2 ^ 23)) with 8388608 in I0. change (IZR (255 * 2 ^ 23)) with 2139095040 in I1.
    rewrite minus_IZR. cbn [Qnum Qden]. change (Z.pos (10 ^ 23)) with 100000000000000000000000%Z. lra. }
  set (s := soft_log i) in *. set (z := ln (of_bits i)) in *. clearbody s z.
  replace (s / log_two - z / ln 2) with ((s - z) / ln 2 + s * (ln 2 - log_two) / (log_two * ln 2)) by (field; split; [lra|rewrite T; lra]).
  set (l := ln 2) in *. clearbody l. set (c := log_two) in *. clearbody c.
  assert (A : Rabs ((s - z) / l) <= 595 / 10000).
  { unfold Rdiv. rewrite Rabs_mult, Rabs_inv, (Rabs_pos_eq l) by lra. apply (Rmult_le_reg_r l); [lra|].
    rewrite Rmult_assoc, Rinv_l, Rmult_1_r by lra. lra. }
  assert (C : 48 / 100 <= c * l) by (rewrite T; lra).
  assert (B : Rabs (s * (l - c) / (c * l)) <= 5 / 10000).
  { unfold Rdiv. rewrite !Rabs_mult, Rabs_inv, (Rabs_pos_eq (c * l)) by lra. apply (Rmult_le_reg_r (c * l)); [lra|].
    rewrite Rmult_assoc, Rinv_l, Rmult_1_r by lra. apply Rle_trans with (100 * (1 / 1000000)); [|lra].
    apply Rmult_le_compat; try apply Rabs_pos; apply Rabs_le; lra. }
  eapply Rle_trans; [apply Rabs_triang|]. lra.
Qed.
(** No power of two has the right logarithm. *)
Theorem C122_log2_refuted k : (-126 <= k <= 127)%Z ->
  of_bits ((k + 127) * 2 ^ 23) = Rpower 2 (IZR k) /\ IZR k + 5 / 100 <= soft_log2 ((k + 127) * 2 ^ 23).
Proof.
  intros K. split.
  - unfold of_bits. rewrite Z.div_mul, Z.mod_mul by lia. replace (k + 127 - 127)%Z with k by lia. unfold Rdiv. rewrite Rmult_0_l, Rplus_0_r, Rmult_1_r.
    apply powerRZ_Rpower. lra.
  - destruct K as [K0 K1]. apply IZR_le in K0, K1. unfold soft_log2, soft_log, Q2R, log_two. rewrite minus_IZR, mult_IZR, plus_IZR. change (IZR (2 ^ 23)) with 8388608.
    cbn [Qnum Qden]. change (Z.pos (10 ^ 23)) with 100000000000000000000000%Z. lra.
Qed.
Lemma pow_loop_ok fuel : forall e r a, (0 <= e < 2 ^ (Z.of_nat fuel - 1))%Z -> (0 < fuel)%nat -> pow_loop fuel e r a = Some (r * a ^ Z.to_nat e).
Proof.
  induction fuel as [|fuel IH]; intros e r a E F; [lia|]. cbn [pow_loop]. destruct (Z.eqb_spec e 0) as [->|N].
  - cbn. f_equal. ring.
  - assert (Ff : (0 < fuel)%nat). { destruct fuel; [|lia]. cbn in E. lia. }
    assert (H : (e = 2 * (e / 2) + Z.b2z (Z.odd e))%Z) by (rewrite <- Z.div2_div; apply Z.div2_odd).
    assert (E2 : (2 ^ (Z.of_nat (S fuel) - 1) = 2 * 2 ^ (Z.of_nat fuel - 1))%Z).
    { rewrite <- Z.pow_succ_r by lia. f_equal. lia. }
    rewrite IH by (destruct (Z.odd e); cbn [Z.b2z] in H; lia). f_equal.
    assert (H2 : (0 <= e / 2)%Z) by (apply Z.div_pos; lia).
    assert (K : a ^ Z.to_nat e = (a * a) ^ Z.to_nat (e / 2) * (if Z.odd e then a else 1)).
    { rewrite H at 1. replace (a * a) with (a ^ 2) by ring. rewrite <- pow_mult. destruct (Z.odd e); cbn [Z.b2z].
      - rewrite Z2Nat.inj_add by lia. rewrite pow_add, Z2Nat.inj_mul by lia. change (Z.to_nat 2) with 2%nat. change (Z.to_nat 1) with 1%nat. ring.
      - rewrite Z.add_0_r, Z2Nat.inj_mul by lia. change (Z.to_nat 2) with 2%nat. ring. }
    rewrite K. destruct (Z.odd e); ring.
Qed.
Lemma to_int_nonneg b : 0 <= b -> to_int b = Int_part b.
Proof. intros B. unfold to_int. destruct (Rlt_dec b 0); [lra|reflexivity]. Qed.
(** What zpl_pow computes: the whole part of the exponent is a power, its fraction is taken of e whatever [a] is. *)
Theorem C122_pow a b : 0 <= b < 2 ^ 31 -> soft_pow a b = Some (a ^ Z.to_nat (Int_part b) * soft_exp (frac_part b)).
Proof.
  intros B. assert (I : (0 <= Int_part b < 2 ^ 31)%Z).
  { destruct (base_Int_part b) as [H1 H2]. split.
    - assert (IZR (-1) < IZR (Int_part b)) by lra. apply lt_IZR in H. lia.
    - apply lt_IZR. change (2 ^ 31)%Z with 2147483648%Z. lra. }
  unfold soft_pow. destruct (Rlt_dec b 0); [lra|]. rewrite to_int_nonneg by lra. rewrite pow_loop_ok by (try lia; change (2 ^ (Z.of_nat 33 - 1))%Z with (2 * 2 ^ 31)%Z; lia).
  cbn [obind]. rewrite Rmult_1_l. reflexivity.
Qed.
Theorem C122_pow_negative a b : 0 < b < 2 ^ 31 -> soft_pow a (- b) = option_map (fun r => 1 / r) (soft_pow a b).
Proof.
  intros B. unfold soft_pow. destruct (Rlt_dec (- b) 0); [|lra]. destruct (Rlt_dec b 0); [lra|]. rewrite Ropp_involutive.
  destruct (pow_loop 33 (to_int b) 1 a); reflexivity.
Qed.
(** So whole exponents are right ... *)
Theorem C122_pow_whole a n : (0 <= n < 2 ^ 31)%Z -> soft_pow a (IZR n) = Some (a ^ Z.to_nat n).
Proof.
  intros N. assert (Ei : Int_part (IZR n) = n) by (rewrite <- to_int_nonneg, to_int_IZR by (apply IZR_le; lia); reflexivity).
  rewrite C122_pow by (split; [apply IZR_le; lia|replace (2 ^ 31) with (IZR (2 ^ 31)) by (cbn; lra); apply IZR_lt; lia]).
  unfold frac_part. rewrite Ei, Rminus_diag_eq by reflexivity. rewrite (proj2 (C122_exp_inverse 0)), Rmult_1_r. reflexivity.
Qed.
(** ... and square roots are the same for all numbers. *)
Theorem C122_pow_refuted a a' b : 0 <= b < 1 -> soft_pow a b = soft_pow a' b.
Proof.
  intros B. assert (I : Int_part b = 0%Z). { unfold Int_part. rewrite <- (tech_up b 1); [reflexivity|lra|lra]. }
  rewrite !C122_pow by lra. rewrite I. reflexivity.
Qed.

(** A sixth of a turn, arccos (-1/2), and powers *)
Example C122_ex : Rabs (soft_sin (PI / 6) - 1 / 2) <= 9 / 10000 /\ Rabs (soft_arccos (- (1 / 2)) - PI / 3) <= 5 / 10 ^ 6 /\ acos (- (1 / 2)) = 2 * (PI / 3) /\
  soft_pow 3 2 = Some 9 /\ soft_pow 4 (1 / 2) = soft_pow 9 (1 / 2) /\ of_bits 1073741824 = 2 /\ 93 / 100 * exp 1 <= soft_exp 1 /\ 3 + 5 / 100 <= soft_log2 1090519040.
Proof.
  pose proof PI_RGT_0. refine (conj _ (conj _ (conj _ (conj _ (conj _ (conj _ (conj _ _))))))).
  - rewrite <- sin_PI6. apply C122_sin. lra.
  - destruct C122_arccos_refuted as [H1 _]. specialize (H1 (- (1 / 2)) ltac:(lra) ltac:(lra)). rewrite Ropp_involutive in H1.
    rewrite <- cos_PI3, acos_cos, cos_PI3 in H1 by lra. exact H1.
  - replace (- (1 / 2)) with (cos (2 * (PI / 3))) by (rewrite cos_2PI3; lra). apply acos_cos. lra.
  - change 2 with (IZR 2). rewrite C122_pow_whole by lia. f_equal. change (Z.to_nat 2) with 2%nat. ring.
  - apply C122_pow_refuted. lra.
  - unfold of_bits. change (1073741824 / 2 ^ 23 - 127)%Z with 1%Z. change (1073741824 mod 2 ^ 23)%Z with 0%Z. cbn [powerRZ]. change (Pos.to_nat 1) with 1%nat. unfold Rdiv. rewrite Rmult_0_l. ring.
  - apply C122_exp. lra.
  - exact (proj2 (C122_log2_refuted 3 ltac:(lia))).
Qed.

Print Assumptions C122_sin.
Print Assumptions C122_cos.
Print Assumptions C122_turn_refuted.
Print Assumptions C122_tan.
Print Assumptions C122_arctan.
Print Assumptions C122_arctan_refuted.
Print Assumptions C122_arctan2.
Print Assumptions C122_arctan2_refuted.
Print Assumptions C122_arcsin.
Print Assumptions C122_arccos.
Print Assumptions C122_arccos_refuted.
Print Assumptions C122_exp_inverse.
Print Assumptions C122_exp.
Print Assumptions C122_log.
Print Assumptions C122_exp2.
Print Assumptions C122_log2.
Print Assumptions C122_log2_refuted.
Print Assumptions C122_pow.
Print Assumptions C122_pow_negative.
Print Assumptions C122_pow_whole.
Print Assumptions C122_pow_refuted.
