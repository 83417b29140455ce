(** zpl_sin, zpl_cos and zpl_tan against the functions they stand for. *)
From Coq Require Import Reals QArith Qreals Lra Lia List.
From Verif Require Import Base SoftMath SoftMathPoly.
Import ListNotations.
Local Open Scope R_scope.

(** X ^ n / n! *)
Fixpoint remq (n : nat) (X : Q) : Q :=
  match n with
  | O => 1
  | S n => Qred (remq n X * X * (1 # Pos.of_succ_nat n))
  end.
Lemma remq_ok n X : Q2R (remq n X) = Q2R X ^ n / INR (fact n).
Proof.
  induction n as [|n IH]; cbn [remq].
  - cbn. unfold Q2R. cbn. lra.
  - rewrite Q2R_red, !Q2R_mult, IH. change (fact (S n)) with (S n * fact n)%nat. rewrite mult_INR. cbn [pow].
    replace (Q2R (1 # Pos.of_succ_nat n)) with (/ INR (S n)).
    + pose proof (INR_fact_neq_0 n). pose proof (not_0_INR (S n) ltac:(lia)). field. split; assumption.
    + unfold Q2R. cbn [Qnum Qden]. rewrite Rmult_1_l. f_equal. rewrite INR_IZR_INZ. reflexivity.
Qed.
Fixpoint qhorner (p : list Q) (x : Q) : Q :=
  match p with
  | [] => 0
  | a :: p => Qred (a + x * qhorner p x)
  end.
Lemma qhorner_ok p x : horner p (Q2R x) = Q2R (qhorner p x).
Proof. induction p as [|a p IH]; cbn [qhorner horner]; [symmetry; apply Q2R_0|]. rewrite Q2R_red, Q2R_plus, Q2R_mult, IH. reflexivity. Qed.

Lemma near_wave N j X x : 0 <= x <= Q2R X -> Rabs (wave j x - horner (taylor (S N) j) x) <= Q2R (remq (S N) X).
Proof.
  intros [H0 H1]. eapply Rle_trans; [apply taylor_ok; exact H0|]. rewrite remq_ok.
  apply Rmult_le_compat_r; [left; apply Rinv_0_lt_compat, INR_fact_lt_0|]. apply pow_incr. lra.
Qed.
(** everything about a polynomial and a wave that is to be computed *)
Definition close (P : list Q) (j N n : nat) (s d : positive) (e : Q) : bool :=
  let r := remq (S N) (Z.of_nat (2 * n) # d) in
  check n (padd P (popp (taylor (S N) j))) s d (e - r).
Lemma close_ok P j N n s d e x : close P j N n s d e = true -> (0 < n)%nat -> 0 <= x <= 2 * INR n / IZR (Zpos d) -> Rabs (horner P x - wave j x) <= Q2R e.
Proof.
  intros C N0 X. unfold close in C. apply (check_ok n _ _ _ _ x) in C; [|exact N0|exact X].
  rewrite horner_add, horner_opp, Q2R_minus in C.
  assert (X' : 0 <= x <= Q2R (Z.of_nat (2 * n) # d)).
  { unfold Q2R. cbn [Qnum Qden]. rewrite <- INR_IZR_INZ, mult_INR. change (INR 2) with 2. exact X. }
  pose proof (near_wave N j _ x X') as W.
  replace (horner P x - wave j x) with ((horner P x + - horner (taylor (S N) j) x) - (wave j x - horner (taylor (S N) j) x)) by ring.
  eapply Rle_trans; [apply Rabs_triang|]. rewrite Rabs_Ropp. lra.
Qed.
(** 28! 10^48 28^28 *)
Definition denom : positive := (fold_right Pos.mul 1 (map Pos.of_nat (seq 1 28)) * 10 ^ 48 * 28 ^ 28)%positive.

Lemma PI_22_7 : PI < 22 / 7.
Proof.
  apply Rnot_le_lt. intros L. assert (S : 0 <= sin (22 / 7)) by (apply sin_ge_0; lra).
  replace (22 / 7) with (Q2R (22 # 7)) in S by (unfold Q2R; cbn; lra). rewrite <- wave_0 in S.
  pose proof (near_wave 19 0 (22 # 7) (Q2R (22 # 7)) ltac:(unfold Q2R; cbn; lra)) as W.
  rewrite qhorner_ok in W.
  assert (B : (qhorner (taylor 20 0) (22 # 7) + remq 20 (22 # 7) < 0)%Q) by (vm_compute; reflexivity).
  apply Qlt_Rlt in B. rewrite Q2R_plus, Q2R_0 in B.
  pose proof (Rle_abs (wave 0 (Q2R (22 # 7)) - Q2R (qhorner (taylor 20 0) (22 # 7)))). lra.
Qed.

Lemma sin_close : close sin_consts 0 27 88 denom 28 (9 # 10000) = true.
Proof. vm_compute. reflexivity. Qed.
Lemma cos_close : close cos_consts 1 27 88 denom 28 (25 # 10000) = true.
Proof. vm_compute. reflexivity. Qed.

(** ** zpl_tan *)
Definition tan_poly : list Q := 0%Q :: psquare tan_consts.
Lemma soft_tan_poly a : soft_tan a = horner tan_poly a.
Proof. unfold soft_tan, tan_poly. cbn [horner]. rewrite horner_square, Q2R_0. ring. Qed.
Lemma tan_odd a : soft_tan (- a) = - soft_tan a.
Proof. unfold soft_tan. replace (- a * - a) with (a * a) by ring. ring. Qed.
Definition tan_diff : list Q := padd (taylor 16 0) (popp (pmul tan_poly (taylor 16 1))).
Definition tan_denom : positive := (fold_right Pos.mul 1 (map Pos.of_nat (seq 1 16)) * 10 ^ 10 * 280 ^ 30)%positive.
Lemma tan_small : check 110 tan_diff tan_denom 280 (16 # 10 ^ 9) = true /\ check 110 tan_poly tan_denom 280 2 = true /\ Qle_bool (remq 16 (22 # 28)) (1 # 10 ^ 10) = true.
Proof. split; [|split]; vm_compute; reflexivity. Qed.
Lemma tan_near a : 0 <= a <= PI / 4 -> Rabs (soft_tan a - tan a) <= 3 / 10 ^ 8.
Proof.
  intros A. destruct tan_small as (C1 & C2 & C3). pose proof PI_22_7. assert (I : INR 110 = 110) by (rewrite INR_IZR_INZ; reflexivity).
  assert (A' : 0 <= a <= 2 * INR 110 / IZR 280) by (rewrite I; lra).
  apply (check_ok _ _ _ _ _ a) in C1; [|lia|exact A']. apply (check_ok _ _ _ _ _ a) in C2; [|lia|exact A'].
  apply Qle_bool_iff, Qle_Rle in C3.
  assert (A2 : 0 <= a <= Q2R (22 # 28)) by (unfold Q2R; cbn [Qnum Qden]; lra).
  pose proof (near_wave 15 0 _ a A2) as WS. pose proof (near_wave 15 1 _ a A2) as WC. rewrite wave_0 in WS. rewrite wave_1 in WC.
  unfold tan_diff in C1. rewrite horner_add, horner_opp, horner_mul, <- soft_tan_poly in C1. rewrite <- soft_tan_poly in C2.
  assert (CP : 7 / 10 <= cos a).
  { apply Rle_trans with (cos (PI / 4)).
    - rewrite cos_PI4. assert (sqrt 2 < 10 / 7). { rewrite <- (sqrt_Rsqr (10 / 7)) by lra. apply sqrt_lt_1; unfold Rsqr; lra. }
      pose proof (sqrt_lt_R0 2 ltac:(lra)). apply (Rmult_le_reg_r (sqrt 2)); [assumption|]. unfold Rdiv. rewrite (Rmult_assoc 1), Rinv_l by lra. lra.
    - pose proof PI_RGT_0. apply cos_decr_1; lra. }
  assert (E1 : Q2R (16 # 10 ^ 9) = 16 / 10 ^ 9) by (unfold Q2R; cbn; lra).
  assert (E2 : Q2R (1 # 10 ^ 10) = 1 / 10 ^ 10) by (unfold Q2R; cbn; lra).
  assert (E3 : Q2R 2 = 2) by (unfold Q2R; cbn; lra). rewrite E1 in C1. rewrite E2 in C3. rewrite E3 in C2.
  set (T := soft_tan a) in *. set (s := horner (taylor 16 0) a) in *. set (c := horner (taylor 16 1) a) in *.
  assert (Z : Rabs (sin a - T * cos a) <= 17 / 10 ^ 9).
  { replace (sin a - T * cos a) with ((s + - (T * c)) + (sin a - s) - T * (cos a - c)) by ring.
    assert (B : Rabs (T * (cos a - c)) <= 2 * (1 / 10 ^ 10)).
    { rewrite Rabs_mult. apply Rmult_le_compat; try apply Rabs_pos; lra. }
    unfold Rminus at 1. eapply Rle_trans; [apply Rabs_triang|]. rewrite Rabs_Ropp.
    eapply Rle_trans; [apply Rplus_le_compat_r, Rabs_triang|]. lra. }
  replace (T - tan a) with (- ((sin a - T * cos a) / cos a)) by (unfold tan; field; lra).
  rewrite Rabs_Ropp. unfold Rdiv. rewrite Rabs_mult, Rabs_inv, (Rabs_pos_eq (cos a)) by lra.
  apply (Rmult_le_reg_r (cos a)); [lra|]. rewrite Rmult_assoc, Rinv_l by lra. lra.
Qed.

(** ** zpl_arctan *)
Fixpoint pderiv_from (k : Z) (p : list Q) : list Q :=
  match p with
  | [] => []
  | a :: p => Qred ((k # 1) * a) :: pderiv_from (k + 1) p
  end.
Definition pderiv (p : list Q) : list Q :=
  match p with
  | [] => []
  | _ :: p => pderiv_from 1 p
  end.
Lemma pderiv_from_ok p : forall k x, horner (pderiv_from (k + 1) p) x = horner (pderiv_from k p) x + horner p x.
Proof.
  induction p as [|a p IH]; intros k x; cbn [pderiv_from horner]; [ring|]. rewrite (IH (k + 1)%Z x), !Q2R_red, !Q2R_mult.
  assert (E : forall z, Q2R (z # 1) = IZR z) by (intros z; unfold Q2R; cbn [Qnum Qden]; field). rewrite !E, plus_IZR. ring.
Qed.
Lemma pderiv_ok p x : derivable_pt_lim (horner p) x (horner (pderiv p) x).
Proof.
  induction p as [|a p IH]; cbn [pderiv].
  - apply (derivable_pt_lim_const 0).
  - replace (horner (pderiv_from 1 p) x) with (0 + (1 * horner p x + x * horner (pderiv p) x)).
    + change (horner (a :: p)) with (fct_cte (Q2R a) + (id * horner p))%F. apply derivable_pt_lim_plus; [apply derivable_pt_lim_const|].
      apply derivable_pt_lim_mult; [apply derivable_pt_lim_id|exact IH].
    + destruct p as [|b p]; cbn [pderiv pderiv_from horner]; [ring|]. rewrite pderiv_from_ok, Q2R_red, Q2R_mult.
      replace (Q2R (1 # 1)) with 1 by (unfold Q2R; cbn; lra). ring.
Qed.
Definition arctan_poly : list Q := psquare arctan_consts.
Definition arctan_diff : list Q :=
  padd (pmul [1; 0; 1]%Q (padd arctan_poly (popp (0%Q :: pderiv arctan_poly)))) (popp (pmul arctan_poly arctan_poly)).
Lemma arctan_small : check 50 arctan_diff (10 ^ 28 * 100 ^ 20) 100 (96 # 100000) = true /\ check 50 (padd arctan_poly [- (114 # 100)]%Q) (10 ^ 28 * 100 ^ 20) 100 (15 # 100) = true.
Proof. split; vm_compute; reflexivity. Qed.
Lemma arctan_values a : 0 <= a <= 1 -> 99 / 100 <= horner arctan_poly a /\
  Rabs ((1 + a * a) * (horner arctan_poly a - a * horner (pderiv arctan_poly) a) - horner arctan_poly a * horner arctan_poly a) <= 96 / 100000.
Proof.
  intros A. destruct arctan_small as (C1 & C2). assert (I : INR 50 = 50) by (rewrite INR_IZR_INZ; reflexivity).
  assert (A' : 0 <= a <= 2 * INR 50 / IZR 100) by (rewrite I; lra).
  apply (check_ok _ _ _ _ _ a) in C1; [|lia|exact A']. apply (check_ok _ _ _ _ _ a) in C2; [|lia|exact A'].
  unfold arctan_diff in C1. rewrite horner_add, horner_opp, !horner_mul, horner_add, horner_opp in C1. rewrite horner_add in C2.
  replace (Q2R (96 # 100000)) with (96 / 100000) in C1 by (unfold Q2R; cbn; lra). replace (Q2R (15 # 100)) with (15 / 100) in C2 by (unfold Q2R; cbn; lra).
  replace (horner [1; 0; 1]%Q a) with (1 + a * a) in C1 by (cbn [horner]; unfold Q2R; cbn; field).
  replace (horner [- (114 # 100)]%Q a) with (- (114 / 100)) in C2 by (cbn [horner]; unfold Q2R; cbn; field).
  change (horner (0%Q :: pderiv arctan_poly) a) with (Q2R 0 + a * horner (pderiv arctan_poly) a) in C1. rewrite Q2R_0, Rplus_0_l in C1.
  split; [|exact C1]. unfold Rabs in C2. destruct (Rcase_abs _); lra.
Qed.
Lemma soft_arctan_poly a : soft_arctan a = a / horner arctan_poly a.
Proof. unfold soft_arctan, arctan_poly. rewrite horner_square. reflexivity. Qed.
Lemma arctan_odd a : soft_arctan (- a) = - soft_arctan a.
Proof. unfold soft_arctan. replace (- a * - a) with (a * a) by ring. unfold Rdiv. ring. Qed.
(** The derivative of the error is arctan_diff / (P^2 (1 + a^2)). With the quotient replaced by a polynomial close
    to it, the error is close to the integral of a polynomial. *)
Definition arctan_quot : list Q :=
  psquare [999851 # (10 ^ 6); -1654909 # (10 ^ 6); 2031125 # (10 ^ 6); -1872215 # (10 ^ 6); 1084528 # (10 ^ 6); -280028 # (10 ^ 6)]%Q.
Fixpoint pint_from (k : positive) (p : list Q) : list Q :=
  match p with
  | [] => []
  | a :: p => Qred (a * (1 # k)) :: pint_from (Pos.succ k) p
  end.
Definition arctan_err : list Q := 0%Q :: pint_from 1 (pmul arctan_diff arctan_quot).
Definition arctan_denom : positive := (10 ^ 40 * 144403552893600 * 100 ^ 32)%positive.
Lemma arctan_finer :
  check 50 (padd (pmul arctan_quot (pmul [1; 0; 1]%Q (pmul arctan_poly arctan_poly))) [-1]%Q) (10 ^ 40 * 100 ^ 32) 100 (3 # 10000) = true /\
  check 50 (padd (pderiv arctan_err) (popp (pmul arctan_diff arctan_quot))) arctan_denom 100 (1 # 10 ^ 12) = true /\
  check 200 arctan_err (arctan_denom * 4 ^ 32) 400 (46 # 10 ^ 7) = true.
Proof. split; [|split]; vm_compute; reflexivity. Qed.
Lemma arctan_near_pos a : 0 <= a <= 1 -> Rabs (soft_arctan a - atan a) <= 5 / 10 ^ 6.
Proof.
  intros [A0 A1]. assert (I : INR 50 = 50) by (rewrite INR_IZR_INZ; reflexivity). assert (I' : INR 200 = 200) by (rewrite INR_IZR_INZ; reflexivity).
  destruct arctan_finer as (C1 & C2 & C3).
  assert (K1 : forall c, 0 <= c <= 1 -> Rabs (horner arctan_quot c * ((1 + c * c) * (horner arctan_poly c * horner arctan_poly c)) - 1) <= 3 / 10000).
  { intros c Hc. apply (check_ok _ _ _ _ _ c) in C1; [|lia|rewrite I; lra]. rewrite horner_add, !horner_mul in C1.
    replace (horner [1; 0; 1]%Q c) with (1 + c * c) in C1 by (cbn [horner]; unfold Q2R; cbn; field).
    replace (horner [-1]%Q c) with (- 1) in C1 by (cbn [horner]; unfold Q2R; cbn; field).
    replace (Q2R (3 # 10000)) with (3 / 10000) in C1 by (unfold Q2R; cbn; lra). exact C1. }
  assert (K2 : forall c, 0 <= c <= 1 -> Rabs (horner (pderiv arctan_err) c - horner arctan_diff c * horner arctan_quot c) <= 1 / 10 ^ 12).
  { intros c Hc. apply (check_ok _ _ _ _ _ c) in C2; [|lia|rewrite I; lra]. rewrite horner_add, horner_opp, horner_mul in C2.
    replace (Q2R (1 # 10 ^ 12)) with (1 / 10 ^ 12) in C2 by (unfold Q2R; cbn; lra). exact C2. }
  assert (K3 : Rabs (horner arctan_err a) <= 46 / 10 ^ 7).
  { apply (check_ok _ _ _ _ _ a) in C3; [|lia|rewrite I'; lra]. replace (Q2R (46 # 10 ^ 7)) with (46 / 10 ^ 7) in C3 by (unfold Q2R; cbn; lra). exact C3. }
  clear C1 C2 C3. assert (KD : forall c, horner arctan_diff c = (1 + c * c) * (horner arctan_poly c - c * horner (pderiv arctan_poly) c) - horner arctan_poly c * horner arctan_poly c).
  { intros c. unfold arctan_diff. rewrite horner_add, horner_opp, !horner_mul, horner_add, horner_opp.
    replace (horner [1; 0; 1]%Q c) with (1 + c * c) by (cbn [horner]; unfold Q2R; cbn; field).
    change (horner (0%Q :: pderiv arctan_poly) c) with (Q2R 0 + c * horner (pderiv arctan_poly) c). rewrite Q2R_0. ring. }
  destruct (Req_dec a 0) as [->|N].
  - rewrite soft_arctan_poly, atan_0. unfold Rdiv. rewrite !Rmult_0_l, Rminus_0_r, Rabs_R0. lra.
  - set (P := horner arctan_poly) in *. set (P' := horner (pderiv arctan_poly)) in *. set (D := horner arctan_diff) in *. set (q := horner arctan_quot) in *.
    set (E := horner arctan_err) in *. set (E' := horner (pderiv arctan_err)) in *.
    set (g := fun x => x / P x - atan x - E x).
    set (g' := fun x => (P x - x * P' x) / (P x * P x) - / (1 + x * x) - E' x).
    destruct (MVT_cor2 g g' 0 a) as (c & Hc & Rc); [lra| |].
    + intros c Hc. destruct (arctan_values c ltac:(lra)) as (V & _). fold (P c) in V.
      unfold g, g'. apply (derivable_pt_lim_minus (fun x => x / P x - atan x) E); [|apply pderiv_ok].
      apply (derivable_pt_lim_minus (fun x => x / P x) atan).
      * replace ((P c - c * P' c) / (P c * P c)) with ((1 * P c - P' c * c) / (P c)²) by (unfold Rsqr; field; lra).
        apply (derivable_pt_lim_div id P); [apply derivable_pt_lim_id|apply pderiv_ok|lra].
      * replace (/ (1 + c * c)) with (/ (1 + c ^ 2)) by (f_equal; ring). apply derivable_pt_lim_atan.
    + assert (E0 : E 0 = 0) by (unfold E, arctan_err; cbn [horner]; rewrite Q2R_0; ring).
      assert (G0 : g 0 = 0) by (unfold g; rewrite atan_0, E0; unfold Rdiv; ring). rewrite G0, !Rminus_0_r in Hc.
      destruct (arctan_values c ltac:(lra)) as (V & W). fold (P c) in V, W. fold (P' c) in W. rewrite <- KD in W.
      specialize (K1 c ltac:(lra)). specialize (K2 c ltac:(lra)).
      assert (F : 0 < 1 + c * c) by nra. assert (PP : 98 / 100 <= P c * P c) by nra.
      set (m := (1 + c * c) * (P c * P c)) in *. assert (M : 98 / 100 <= m) by (unfold m; nra).
      assert (G : Rabs (g' c) <= 35 / 10 ^ 8).
      { replace (g' c) with (- (D c * (q c * m - 1) / m) - (E' c - D c * q c)).
        2: { unfold g'. rewrite KD. unfold m. field. split; lra. }
        unfold Rminus at 1. eapply Rle_trans; [apply Rabs_triang|]. rewrite !Rabs_Ropp.
        assert (B : Rabs (D c * (q c * m - 1) / m) <= 34 / 10 ^ 8).
        { unfold Rdiv. rewrite !Rabs_mult, Rabs_inv, (Rabs_pos_eq m) by lra. apply (Rmult_le_reg_r m); [lra|].
          rewrite Rmult_assoc, Rinv_l, Rmult_1_r by lra. apply Rle_trans with (96 / 100000 * (3 / 10000)); [|lra].
          apply Rmult_le_compat; try apply Rabs_pos; assumption. }
        lra. }
      rewrite soft_arctan_poly. fold P. replace (a / P a - atan a) with (g a + E a) by (unfold g; ring).
      eapply Rle_trans; [apply Rabs_triang|]. rewrite Hc, Rabs_mult, (Rabs_pos_eq a) by lra.
      assert (Rabs (g' c) * a <= 35 / 10 ^ 8 * 1) by (apply Rmult_le_compat; try apply Rabs_pos; lra). lra.
Qed.
Lemma arctan_near a : Rabs a <= 1 -> Rabs (soft_arctan a - atan a) <= 5 / 10 ^ 6.
Proof.
  intros A. destruct (Rle_dec 0 a) as [L|L].
  - rewrite Rabs_pos_eq in A by lra. apply arctan_near_pos. lra.
  - rewrite Rabs_left in A by lra. rewrite <- (Ropp_involutive a), arctan_odd, atan_opp.
    replace (- soft_arctan (- a) - - atan (- a)) with (- (soft_arctan (- a) - atan (- a))) by ring. rewrite Rabs_Ropp.
    apply arctan_near_pos. lra.
Qed.
