(** zpl_exp and zpl_log against the functions they stand for. *)
From Coq Require Import Reals QArith Qreals Lra Lia List.
From Coquelicot Require Import Coquelicot.
From Verif Require Import Base SoftMath SoftMathPoly SoftMathProofs.
Import ListNotations.
Local Open Scope R_scope.

(** ** Numbers *)
Fixpoint exp_coefs (n : nat) (k f : positive) : list Q :=
  match n with
  | O => []
  | S n => (1 # f) :: exp_coefs n (Pos.succ k) (f * k)
  end.
Lemma exp_derive_n k x : is_derive_n exp k x (exp x).
Proof.
  revert x. induction k as [|k IH]; intros x; [reflexivity|]. cbn [is_derive_n].
  apply (is_derive_ext exp); [|apply is_derive_Reals, derivable_pt_lim_exp]. intros t. symmetry. apply is_derive_n_unique, IH.
Qed.
Lemma exp_coefs_ok n : forall k x,
  horner (exp_coefs n (Pos.of_succ_nat k) (Pos.of_nat (fact k))) x * x ^ k + x ^ (n + k) / INR (fact (n + k)) = sum_f_R0 (fun m => x ^ (m + k) / INR (fact (m + k))) n.
Proof.
  induction n as [|n IH]; intros k x; cbn [exp_coefs horner].
  - cbn [plus sum_f_R0]. ring.
  - rewrite Rmult_plus_distr_r. replace (x * horner (exp_coefs n (Pos.succ (Pos.of_succ_nat k)) (Pos.of_nat (fact k) * Pos.of_succ_nat k)) x * x ^ k)
      with (horner (exp_coefs n (Pos.of_succ_nat (S k)) (Pos.of_nat (fact (S k)))) x * x ^ (S k)).
    2: { replace (Pos.of_nat (fact (S k))) with (Pos.of_nat (fact k) * Pos.of_succ_nat k)%positive; [cbn [Pos.of_succ_nat pow]; ring|].
         rewrite Pos.of_nat_succ, <- Nat2Pos.inj_mul by (try apply fact_neq_0; lia). f_equal. cbn [fact]. lia. }
    rewrite (decomp_sum (fun m => x ^ (m + k) / INR (fact (m + k))) (S n)) by lia. cbn [pred].
    assert (Es : sum_f_R0 (fun m => x ^ (m + S k) / INR (fact (m + S k))) n = sum_f_R0 (fun i => x ^ (S i + k) / INR (fact (S i + k))) n).
    { apply sum_eq. intros i _. rewrite !Nat.add_succ_r. reflexivity. }
    rewrite <- Es, <- IH. replace (n + S k)%nat with (S n + k)%nat by lia. change (0 + k)%nat with k.
    replace (Q2R (1 # Pos.of_nat (fact k))) with (/ INR (fact k)); [unfold Rdiv; ring|].
    unfold Q2R. cbn [Qnum Qden]. rewrite Rmult_1_l. f_equal. rewrite INR_IZR_INZ. f_equal.
    pose proof (fact_neq_0 k). rewrite <- positive_nat_Z, Nat2Pos.id by assumption. reflexivity.
Qed.
Lemma exp_near n x : 0 < x <= 1 -> let p := horner (exp_coefs (S n) 1 1) x in p <= exp x <= p + 3 * (x ^ S n / INR (fact (S n))).
Proof.
  intros X p. pose proof (exp_coefs_ok (S n) 0 x) as E. cbn [pow] in E. rewrite Rmult_1_r, Nat.add_0_r in E.
  change (horner (exp_coefs (S n) (Pos.of_succ_nat 0) (Pos.of_nat (fact 0))) x) with p in E. cbn [sum_f_R0] in E. rewrite Nat.add_0_r in E.
  change (x * x ^ n) with (x ^ S n) in E.
  destruct (Taylor_Lagrange exp n 0 x) as (z & Rz & Hz); [lra| |].
  - intros t _ k _. destruct k; [exact I|]. exists (exp t). exact (exp_derive_n (S k) t).
  - rewrite (is_derive_n_unique _ _ _ _ (exp_derive_n (S n) z)) in Hz. replace (x - 0) with x in Hz by ring.
    assert (Es : sum_f_R0 (fun m => x ^ m / INR (fact m) * Derive_n exp m 0) n = sum_f_R0 (fun m => x ^ (m + 0) / INR (fact (m + 0))) n).
    { apply sum_eq. intros i _. rewrite Nat.add_0_r, (is_derive_n_unique _ _ _ _ (exp_derive_n i 0)), exp_0. ring. }
    rewrite Es in Hz. set (q := sum_f_R0 _ n) in *. assert (Ep : p = q) by lra. rewrite Hz, Ep.
    assert (P : 0 <= x ^ S n / INR (fact (S n))). { apply Rmult_le_pos; [apply pow_le; lra|]. left. apply Rinv_0_lt_compat, INR_fact_lt_0. }
    assert (Z3 : exp z <= 3). { pose proof exp_le_3. pose proof (exp_increasing z 1 ltac:(lra)). lra. }
    pose proof (exp_pos z). split; [nra|]. nra.
Qed.
Lemma exp_bounds n q lo hi : (0 < q)%Q -> (q <= 1)%Q ->
  Qle_bool lo (qhorner (exp_coefs (S n) 1 1) q) = true -> Qle_bool (qhorner (exp_coefs (S n) 1 1) q + 3 * remq (S n) q) hi = true -> Q2R lo <= exp (Q2R q) <= Q2R hi.
Proof.
  intros H0 H1 L H. apply Qlt_Rlt in H0. apply Qle_Rle in H1. rewrite Q2R_0 in H0. replace (Q2R 1) with 1 in H1 by (unfold Q2R; cbn; lra).
  apply Qle_bool_iff, Qle_Rle in L. apply Qle_bool_iff, Qle_Rle in H. rewrite Q2R_plus, Q2R_mult, remq_ok in H.
  replace (Q2R 3) with 3 in H by (unfold Q2R; cbn; lra). pose proof (exp_near n (Q2R q) (conj H0 H1)) as E. cbv zeta in E. rewrite qhorner_ok in E. lra.
Qed.
Lemma ln2_bounds : 6931471 / 10000000 <= ln 2 <= 6931472 / 10000000.
Proof.
  assert (E2 : Q2R 2 = 2) by (unfold Q2R; cbn; lra).
  assert (A : exp (Q2R (6931471 # 10000000)) <= Q2R 2).
  { apply (exp_bounds 12 (6931471 # 10000000) 0 2); first [vm_compute; reflexivity|vm_compute; discriminate]. }
  assert (B : Q2R 2 <= exp (Q2R (6931472 # 10000000))).
  { apply (exp_bounds 12 (6931472 # 10000000) 2 3); first [vm_compute; reflexivity|vm_compute; discriminate]. }
  rewrite E2 in A, B. split; apply Rnot_lt_le; intros C; apply exp_increasing in C; rewrite exp_ln in C by lra.
  - replace (6931471 / 10000000) with (Q2R (6931471 # 10000000)) in C by (unfold Q2R; cbn; lra). lra.
  - replace (6931472 / 10000000) with (Q2R (6931472 # 10000000)) in C by (unfold Q2R; cbn; lra). lra.
Qed.

(** ** The line between two powers of 2 *)
Lemma line_above f : 0 <= f <= 1 -> exp (f * ln 2) <= 1 + f.
Proof.
  intros F. pose proof ln_lt_2. (* convexity of exp, from its tangent at x *)
  assert (T : forall u x, exp x * (1 + (u - x)) <= exp u).
  { intros u x. replace (exp u) with (exp x * exp (u - x)) by (rewrite <- exp_plus; f_equal; ring).
    apply Rmult_le_compat_l; [left; apply exp_pos|]. destruct (Req_dec (u - x) 0) as [->|N]; [rewrite exp_0; lra|]. left. apply exp_ineq1. exact N. }
  pose proof (T 0 (f * ln 2)) as T0. pose proof (T (ln 2) (f * ln 2)) as T1. rewrite exp_0 in T0. rewrite exp_ln in T1 by lra.
  set (e := exp (f * ln 2)) in *. nra.
Qed.
Lemma line_below f : 0 <= f <= 1 -> 935 / 1000 * (1 + f) <= exp (f * ln 2).
Proof.
  intros F. pose proof ln2_bounds as L.
  assert (E : Q2R (1349 # 1000) <= exp (Q2R (3 # 10)) <= Q2R (1351 # 1000)) by (apply (exp_bounds 8); first [vm_compute; reflexivity|vm_compute; discriminate]).
  replace (Q2R (1349 # 1000)) with (1349 / 1000) in E by (unfold Q2R; cbn; lra). replace (Q2R (3 # 10)) with (3 / 10) in E by (unfold Q2R; cbn; lra).
  replace (exp (f * ln 2)) with (exp (3 / 10) * exp (f * ln 2 - 3 / 10)) by (rewrite <- exp_plus; f_equal; ring).
  assert (T : 1 + (f * ln 2 - 3 / 10) <= exp (f * ln 2 - 3 / 10)).
  { destruct (Req_dec (f * ln 2 - 3 / 10) 0) as [->|N]; [rewrite exp_0; lra|]. left. apply exp_ineq1. exact N. }
  assert (B : 7 / 10 + 6931471 / 10000000 * f <= exp (f * ln 2 - 3 / 10)) by nra.
  pose proof (exp_pos (f * ln 2 - 3 / 10)). nra.
Qed.
(** 2 ^ y, of a number's bits read as a fixed point number *)
Lemma of_bits_near i : let v := exp ((IZR i / IZR (2 ^ 23) - 127) * ln 2) in v <= of_bits i <= v / (935 / 1000).
Proof.
  intros v. set (f := IZR (i mod 2 ^ 23) / IZR (2 ^ 23)). set (w := powerRZ 2 (i / 2 ^ 23 - 127)).
  assert (D : 0 < IZR (2 ^ 23)) by (apply IZR_lt; lia).
  assert (F : 0 <= f <= 1).
  { pose proof (Z.mod_pos_bound i (2 ^ 23) ltac:(lia)) as [M0 M1]. apply IZR_le in M0. apply IZR_lt in M1. unfold f. split.
    - apply Rmult_le_pos; [exact M0|left; apply Rinv_0_lt_compat, D].
    - apply (Rmult_le_reg_r (IZR (2 ^ 23))); [exact D|]. unfold Rdiv. rewrite Rmult_assoc, Rinv_l by lra. lra. }
  assert (W : w = exp (IZR (i / 2 ^ 23 - 127) * ln 2)).
  { unfold w. rewrite powerRZ_Rpower by lra. reflexivity. }
  assert (V : v = w * exp (f * ln 2)).
  { unfold v. rewrite W, <- exp_plus. f_equal. unfold f. rewrite (Z.div_mod i (2 ^ 23)) at 1 by lia. rewrite plus_IZR, mult_IZR, minus_IZR. field. lra. }
  assert (Pw : 0 < w) by (rewrite W; apply exp_pos). pose proof (line_above f F). pose proof (line_below f F).
  unfold of_bits. fold w f. rewrite V. split; [apply Rmult_le_compat_l; lra|].
  replace (w * exp (f * ln 2) / (935 / 1000)) with (w * (exp (f * ln 2) / (935 / 1000))) by (unfold Rdiv; ring).
  apply Rmult_le_compat_l; [lra|]. lra.
Qed.
Lemma to_int_near x : 0 <= x -> x - 1 <= IZR (to_int x) <= x.
Proof. intros X. unfold to_int. destruct (Rlt_dec x 0); [lra|]. destruct (base_Int_part x). lra. Qed.
