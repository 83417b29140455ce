(** C102: zpl_fast_exp. *)
From Coq Require Import Reals SpecFloat Psatz Lra.
From Flocq Require Import Core BinarySingleNaN.
From Verif Require Import Base Single SingleProofs QuakeProofs SingleFun.
Local Open Scope R_scope.

(** ** The polynomial and the exponential function *)
Definition poly (x : R) : R := 1 + x * (1 + x / 2 * (1 + x / 3 * (1 + x / 4 * (1 + x / 5)))).
Definition quot (c x : R) : R := (poly x + c * (x * x * x * x * x * x)) * exp (- x).
Definition quot' (c x : R) : R := x * x * x * x * x * (6 * c - / 120 - c * x) * exp (- x).
Lemma quot_derive c x : derivable_pt_lim (quot c) x (quot' c x).
Proof.
  assert (D : derivable_pt (quot c) x) by (unfold quot, poly; reg). replace (quot' c x) with (derive_pt (quot c) x D); [apply derive_pt_eq_1 with D; reflexivity|]. unfold quot, poly, quot' in *. reg. unfold comp. field.
Qed.
Lemma quot_0 c : quot c 0 = 1.
Proof. unfold quot, poly. rewrite Ropp_0, exp_0. field. Qed.
Lemma quot_mvt c x : x <> 0 -> exists t, quot c x - 1 = quot' c t * x /\ (0 < t < x \/ x < t < 0).
Proof.
  intros N. destruct (Rdichotomy _ _ N) as [P|P].
  - destruct (MVT_cor2 (quot c) (quot' c) x 0 P) as (t & E & B); [intros; apply quot_derive|]. exists t. rewrite quot_0 in E. split; [lra|now right].
  - destruct (MVT_cor2 (quot c) (quot' c) 0 x P) as (t & E & B); [intros; apply quot_derive|]. exists t. rewrite quot_0 in E. split; [lra|now left].
Qed.
Lemma pow5_sign t : (0 <= t -> 0 <= t * t * t * t * t) /\ (t <= 0 -> t * t * t * t * t <= 0).
Proof. replace (t * t * t * t * t) with (Rsqr (t * t) * t) by (unfold Rsqr; ring). pose proof (Rle_0_sqr (t * t)). split; intros; nra. Qed.
Lemma of_quot c x : exp x * quot c x = poly x + c * (x * x * x * x * x * x).
Proof. unfold quot. rewrite exp_Ropp. field. apply Rgt_not_eq, exp_pos. Qed.
Lemma exp_low x : poly x <= exp x.
Proof.
  assert (Q : quot 0 x <= 1). { destruct (Req_dec x 0) as [->|N]; [rewrite quot_0; lra|]. destruct (quot_mvt 0 x N) as (t & E & B). assert (quot' 0 t * x <= 0); [|lra]. unfold quot'. pose proof (exp_pos (- t)) as X. destruct (pow5_sign t) as [A C]. set (p := t * t * t * t * t) in *. replace (p * (6 * 0 - / 120 - 0 * t) * exp (- t) * x) with (- (p * x) * (exp (- t) / 120)) by field. assert (0 <= p * x) by (destruct B as [B|B]; [specialize (A ltac:(lra))|specialize (C ltac:(lra))]; nra). nra. }
  pose proof (of_quot 0 x) as E. pose proof (exp_pos x). nra.
Qed.
Lemma exp_high x : Rabs x <= 1 -> exp x <= poly x + x * x * x * x * x * x / 600.
Proof.
  intros L. apply Rabs_le_inv in L. assert (Q : 1 <= quot (/ 600) x).
  { destruct (Req_dec x 0) as [->|N]; [rewrite quot_0; lra|]. destruct (quot_mvt (/ 600) x N) as (t & E & B). assert (0 <= quot' (/ 600) t * x); [|lra]. unfold quot'. pose proof (exp_pos (- t)) as X. destruct (pow5_sign t) as [A C]. set (p := t * t * t * t * t) in *.
    replace (p * (6 * / 600 - / 120 - / 600 * t) * exp (- t) * x) with ((p * x) * ((1 - t) * exp (- t) / 600)) by field. assert (0 <= p * x) by (destruct B as [B|B]; [specialize (A ltac:(lra))|specialize (C ltac:(lra))]; nra). apply Rmult_le_pos; [assumption|]. apply Rmult_le_pos; [|lra]. apply Rmult_le_pos; lra. }
  pose proof (of_quot (/ 600) x) as E. pose proof (exp_pos x). nra.
Qed.

(** ** The roundings *)
Definition near (t : f32) (v e : R) : Prop := exists r, is_single t r /\ Rabs (r - v) <= e * u.
Lemma rnd_abs x b : Rabs x <= b -> b <= 4 -> small (rnd x) /\ Rabs (rnd x - x) <= (b + 0.001) * u.
Proof.
  intros B L. split; [apply small_ok; apply Rle_trans with 4; [lra|change 4 with (bpow radix2 2); apply bpow_le; lia]|]. destruct (rnd_err x) as (d & h & D & H & ->). replace (x * (1 + d) + h - x) with (x * d + h) by ring. eapply Rle_trans; [apply Rabs_triang|]. rewrite Rabs_mult.
  assert (T : bpow radix2 (-150) <= 0.001 * u). { apply Rle_trans with (bpow radix2 (-10 + -24)); [apply bpow_le; lia|]. rewrite bpow_plus. change (bpow radix2 (-24)) with u. change (bpow radix2 (-10)) with (/ 1024). assert (0 < u) by apply bpow_gt_0. lra. }
  assert (0 <= Rabs x) by apply Rabs_pos. assert (Rabs x * Rabs d <= b * u) by (apply Rmult_le_compat; try lra; apply Rabs_pos). lra.
Qed.
Lemma u_small : 0 < u <= / 1000000.
Proof. rewrite u_eq. lra. Qed.
Lemma near_mul a b A B ea eb M : near a A ea -> near b B eb -> 0 <= ea <= 100 -> 0 <= eb <= 100 -> Rabs A <= M -> Rabs B <= 2 -> 0 <= M <= 1 -> near (smul a b) (A * B) (ea * 2.001 + M * eb + M * 2 + 0.01).
Proof.
  intros (r & Hr & Er) (s & Hs & Es) La Lb LA LB LM. pose proof u_small as U. assert (R : Rabs (r * s - A * B) <= (ea * 2.001 + M * eb) * u).
  { replace (r * s - A * B) with ((r - A) * s + A * (s - B)) by ring. eapply Rle_trans; [apply Rabs_triang|]. rewrite !Rabs_mult. assert (Rabs s <= 2.001). { replace s with (s - B + B) by ring. eapply Rle_trans; [apply Rabs_triang|]. nra. }
    assert (Rabs (r - A) * Rabs s <= ea * u * 2.001) by (apply Rmult_le_compat; try apply Rabs_pos; assumption). assert (Rabs A * Rabs (s - B) <= M * (eb * u)) by (apply Rmult_le_compat; try apply Rabs_pos; assumption). lra. }
  assert (P : Rabs (r * s) <= M * 2 + 0.001). { replace (r * s) with (r * s - A * B + A * B) by ring. eapply Rle_trans; [apply Rabs_triang|]. rewrite (Rabs_mult A B). assert (Rabs A * Rabs B <= M * 2) by (apply Rmult_le_compat; try apply Rabs_pos; assumption). assert ((ea * 2.001 + M * eb) * u <= 301 * / 1000000); [|lra]. apply Rmult_le_compat; nra. }
  destruct (rnd_abs (r * s) (M * 2 + 0.001) P ltac:(lra)) as [S E]. exists (rnd (r * s)). split; [now apply smul_real|]. replace (rnd (r * s) - A * B) with (rnd (r * s) - r * s + (r * s - A * B)) by ring. eapply Rle_trans; [apply Rabs_triang|]. lra.
Qed.
Lemma one_real : is_single s_one 1.
Proof. repeat split. unfold SF2R, F2R, s_one. cbn [cond_Zopp Fnum Fexp]. change (bpow radix2 (-23)) with (/ 8388608). lra. Qed.
Lemma near_add a A e : near a A e -> 0 <= e <= 100 -> Rabs A <= 2 -> near (sadd s_one a) (1 + A) (e + Rabs (1 + A) + 0.01).
Proof.
  intros (r & Hr & Er) L LA. pose proof u_small as U. assert (P : Rabs (1 + r) <= Rabs (1 + A) + 0.001). { replace (1 + r) with (1 + A + (r - A)) by ring. eapply Rle_trans; [apply Rabs_triang|]. nra. }
  assert (P3 : Rabs (1 + A) <= 3) by (eapply Rle_trans; [apply Rabs_triang|]; rewrite Rabs_R1; lra). destruct (rnd_abs (1 + r) _ P ltac:(lra)) as [S E]. exists (rnd (1 + r)). split; [apply sadd_real; [apply one_real|exact Hr|exact S]|].
  replace (rnd (1 + r) - (1 + A)) with (rnd (1 + r) - (1 + r) + (r - A)) by ring. eapply Rle_trans; [apply Rabs_triang|]. lra.
Qed.
Lemma near_weaken t v e e' : near t v e -> e <= e' -> near t v e'.
Proof. intros (r & H & E) L. exists r. split; [exact H|]. pose proof u_small. nra. Qed.
Lemma near_exact t v : is_single t v -> near t v 0.
Proof. intros H. exists v. split; [exact H|]. replace (v - v) with 0 by ring. rewrite Rabs_R0. lra. Qed.
Lemma third_near : near s_third (/ 3) 0.2.
Proof. exists (11184811 / 33554432). split; [repeat split; unfold SF2R, F2R, s_third; cbn [cond_Zopp Fnum Fexp]; change (bpow radix2 (-25)) with (/ 33554432); lra|]. rewrite u_eq. apply Rabs_le. lra. Qed.
Lemma fifth_near : near s_fifth (/ 5) 0.1.
Proof. exists (13421773 / 67108864). split; [repeat split; unfold SF2R, F2R, s_fifth; cbn [cond_Zopp Fnum Fexp]; change (bpow radix2 (-26)) with (/ 67108864); lra|]. rewrite u_eq. apply Rabs_le. lra. Qed.
Lemma quarter_real : is_single s_quarter (/ 4).
Proof. repeat split. unfold SF2R, F2R, s_quarter. cbn [cond_Zopp Fnum Fexp]. change (bpow radix2 (-25)) with (/ 33554432). lra. Qed.

(** For -1 <= x <= 1 the result is at most x^6/600 and 1.2e-6 below the exponential, and at most 1.2e-6 above it. *)
Theorem C102_fast_exp (x : f32) (r : R) : is_single x r -> -1 <= r <= 1 ->
  exists y, is_single (fast_exp x) y /\ - (r ^ 6 / 600) - 0.0000012 <= y - exp r <= 0.0000012.
Proof.
  intros H B. assert (A : Rabs r <= 1) by (apply Rabs_le; lra). pose proof (near_exact _ _ H) as X. pose proof (near_exact _ _ half_real) as Hh. pose proof (near_exact _ _ quarter_real) as Hq.
  assert (BM : forall v l h, l <= v <= h -> -1 <= l -> h <= 1 -> -1 <= r * v <= 1) by (intros; nra).
  (* the factors from inside to outside *)
  set (p5 := 1 + r / 5). set (p4 := 1 + r / 4 * p5). set (p3 := 1 + r / 3 * p4). set (p2 := 1 + r / 2 * p3). assert (P5 : 0.8 <= p5 <= 1.2) by (unfold p5; lra). assert (P4 : 0.7 <= p4 <= 1.3) by (unfold p4; nra). assert (P3 : 0.56 <= p3 <= 1.44) by (unfold p3; nra). assert (P2 : 0.28 <= p2 <= 1.72) by (unfold p2; nra).
  assert (N5 : near (sadd s_one (smul x s_fifth)) p5 3). { assert (M : near (smul x s_fifth) (r / 5) 0.6).
    { destruct fifth_near as (c & Hc & Ec). destruct X as (r' & Hr & Er). assert (r' = r) as -> by (destruct H as (_ & _ & <-); destruct Hr as (_ & _ & <-); reflexivity). pose proof u_small as U. apply Rabs_le_inv in Ec. assert (P : Rabs (r * c) <= 0.21) by (rewrite Rabs_mult; apply Rle_trans with (1 * 0.21); [apply Rmult_le_compat; try apply Rabs_pos; [exact A|apply Rabs_le; lra]|lra]). destruct (rnd_abs _ _ P ltac:(lra)) as [S E]. exists (rnd (r * c)). split; [now apply smul_real|]. replace (rnd (r * c) - r / 5) with (rnd (r * c) - r * c + r * (c - / 5)) by field. eapply Rle_trans; [apply Rabs_triang|]. rewrite (Rabs_mult r). assert (Rabs r * Rabs (c - / 5) <= 1 * (0.1 * u)) by (apply Rmult_le_compat; try apply Rabs_pos; [exact A|apply Rabs_le; lra]). lra. }
    eapply near_weaken; [apply (near_add _ _ _ M); [lra|apply Rabs_le; lra]|]. fold p5. rewrite Rabs_right by lra. lra. }
  assert (ST : forall k kc ek p P e, near k kc ek -> 0 < kc <= / 2 -> 0 <= ek <= 0.2 -> near p P e -> 0 <= e <= 20 -> 0 <= P <= 1.5 -> near (sadd s_one (smul (smul x k) p)) (1 + r * kc * P) (e / 2 + 6.8)).
  { intros k kc ek p P e Hk Kb Eb Hp Lb Pb. assert (M1 : near (smul x k) (r * kc) 1.3).
    { destruct Hk as (c & Hc & Ec). pose proof u_small as U. apply Rabs_le_inv in Ec. assert (P1 : Rabs (r * c) <= 0.501) by (rewrite Rabs_mult; apply Rle_trans with (1 * 0.501); [apply Rmult_le_compat; try apply Rabs_pos; [exact A|apply Rabs_le; nra]|lra]). destruct (rnd_abs _ _ P1 ltac:(lra)) as [S E]. exists (rnd (r * c)). split; [now apply smul_real|]. replace (rnd (r * c) - r * kc) with (rnd (r * c) - r * c + r * (c - kc)) by ring. eapply Rle_trans; [apply Rabs_triang|]. rewrite (Rabs_mult r). assert (Rabs r * Rabs (c - kc) <= 1 * (ek * u)) by (apply Rmult_le_compat; try apply Rabs_pos; [exact A|apply Rabs_le; lra]). nra. }
    assert (K : Rabs (r * kc) <= / 2) by (rewrite Rabs_mult, (Rabs_right kc) by lra; assert (0 <= Rabs r) by apply Rabs_pos; nra).
    pose proof (near_mul _ _ _ _ _ _ (/ 2) M1 Hp ltac:(lra) ltac:(lra) K ltac:(apply Rabs_le; lra) ltac:(lra)) as M2.
    assert (Q : Rabs (r * kc * P) <= 0.75) by (rewrite Rabs_mult, (Rabs_right P) by lra; nra). pose proof (near_add _ _ _ M2 ltac:(lra) ltac:(lra)) as M3. eapply near_weaken; [exact M3|]. apply Rabs_le_inv in Q. rewrite Rabs_right by lra. lra. }
  pose proof (ST _ _ _ _ _ _ Hq ltac:(lra) ltac:(lra) N5 ltac:(lra) ltac:(lra)) as N4. fold (Rdiv r 4) in N4. fold p4 in N4.
  pose proof (ST _ _ _ _ _ _ third_near ltac:(lra) ltac:(lra) N4 ltac:(lra) ltac:(lra)) as N3. fold (Rdiv r 3) in N3. fold p3 in N3.
  pose proof (ST _ _ _ _ _ _ Hh ltac:(lra) ltac:(lra) N3 ltac:(lra) ltac:(lra)) as N2. replace (r * (1 / 2)) with (r / 2) in N2 by field. fold p2 in N2.
  pose proof (near_mul _ _ _ _ _ _ 1 X N2 ltac:(lra) ltac:(lra) A ltac:(apply Rabs_le; lra) ltac:(lra)) as M1. assert (Q : -1.72 <= r * p2 <= 1.72) by nra.
  pose proof (near_add _ _ _ M1 ltac:(lra) ltac:(apply Rabs_le; lra)) as N1. destruct N1 as (y & Hy & Ey). exists y. split; [exact Hy|].
  assert (E : poly r = 1 + r * p2) by reflexivity. assert (L : Rabs (1 + r * p2) <= 2.72) by (apply Rabs_le; lra). rewrite <- E in *. rewrite u_eq in Ey. assert (Ey' : Rabs (y - poly r) <= 0.0000012) by (eapply Rle_trans; [exact Ey|]; lra). apply Rabs_le_inv in Ey'.
  pose proof (exp_low r) as L1. pose proof (exp_high r A) as L2. replace (r ^ 6 / 600) with (r * r * r * r * r * r / 600) by field. lra.
Qed.
(** The error at 1 is at least 0.0015. *)
Theorem C102_bound_is_near : exists y, is_single (fast_exp (s_of_int 1)) y /\ y - exp 1 <= - 0.0015.
Proof.
  exists (11394526 / 4194304). split; [replace (fast_exp (s_of_int 1)) with (S754_finite false 11394526 (-22)) by (vm_compute; reflexivity); repeat split; unfold SF2R, F2R; cbn [cond_Zopp Fnum Fexp]; change (bpow radix2 (-22)) with (/ 4194304); lra|].
  pose proof (exp_low (1 / 2)) as L. replace 1 with (1 / 2 + 1 / 2) at 1 by field. rewrite exp_plus. unfold poly in L. assert (1.64869 <= exp (1 / 2)) by lra. nra.
Qed.
(** At 0 there is no error. *)
Theorem C102_zero s : fast_exp (S754_zero s) = s_of_int 1.
Proof. destruct s; vm_compute; reflexivity. Qed.
(** Beyond the range the result may be negative. *)
Theorem C102_range_refuted : exists y, is_single (s_of_int (-4)) (-4) /\ is_single (fast_exp (s_of_int (-4))) y /\ y < -3 /\ 0 < exp (-4).
Proof.
  exists (IZR (-14819876) * / 4194304). split; [|split; [|split; [lra|apply exp_pos]]].
  - replace (s_of_int (-4)) with (S754_finite true 8388608 (-21)) by (vm_compute; reflexivity). split; [reflexivity|]. split; [reflexivity|]. unfold SF2R, F2R. cbn [cond_Zopp Fnum Fexp]. change (bpow radix2 (-21)) with (/ 2097152). rewrite opp_IZR. lra.
  - replace (fast_exp (s_of_int (-4))) with (S754_finite true 14819876 (-22)) by (vm_compute; reflexivity). split; [reflexivity|]. split; [reflexivity|]. unfold SF2R, F2R. cbn [cond_Zopp Fnum Fexp]. change (bpow radix2 (-22)) with (/ 4194304). reflexivity.
Qed.
Example C102_half : is_single s_half (1 / 2) /\ -1 <= 1 / 2 <= 1 /\ fast_exp s_half = S754_finite false 13830280 (-23).
Proof. split; [apply half_real|]. split; [lra|]. vm_compute. reflexivity. Qed.
Print Assumptions C102_fast_exp.
Print Assumptions C102_bound_is_near.
Print Assumptions C102_zero.
Print Assumptions C102_range_refuted.
