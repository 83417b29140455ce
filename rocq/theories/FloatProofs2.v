(** Reading doubles: exact steps and the accumulated error of a fraction. *)
From Coq Require Import Reals SpecFloat Psatz.
From Flocq Require Import Core BinarySingleNaN.
From Verif Require Import Base CStr CStrSpec CStrProofs NumSpec NumProofs Float FloatSpec FloatProofs.

Lemma f_int z : (Z.abs z < 2 ^ 53)%Z -> is_real (f_of_int z) (IZR z).
Proof.
  intros H. pose proof (f_of_int_real z) as R. rewrite rnd_fmt in R by now apply fmt_int. apply R.
  unfold small. rewrite <- abs_IZR. apply Rlt_trans with (IZR (2 ^ 53)); [now apply IZR_lt|]. apply (bpow_lt radix2 53 1024). reflexivity.
Qed.
Lemma int_small z : (Z.abs z < 2 ^ 53)%Z -> small (IZR z).
Proof.
  intros H. unfold small. rewrite <- abs_IZR. apply Rlt_trans with (IZR (2 ^ 53)); [now apply IZR_lt|]. apply (bpow_lt radix2 53 1024). reflexivity.
Qed.
Lemma zero_real : is_real f_zero 0.
Proof. repeat split. Qed.

(** ** Digits *)
Lemma digit_is d : dig d -> char_is_digit (48 + d) = true.
Proof. unfold dig, char_is_digit. intros. destruct (Z.leb_spec 48 (48 + d)), (Z.leb_spec (48 + d) 57); try lia; reflexivity. Qed.
Notation numf := (fun a ds => fold_left (fun a d => a * 10 + d)%Z ds a).
Lemma numf_ge ds : Forall dig ds -> forall a, (0 <= a)%Z -> (a <= numf a ds)%Z.
Proof.
  induction 1 as [|d ds Hd _ IH]; intros a Ha; cbn [fold_left]; [lia|]. unfold dig in Hd. specialize (IH (a * 10 + d)%Z ltac:(lia)). cbv beta in IH. lia.
Qed.
Lemma whole_loop_ok c x : char_is_digit c = false -> forall ds a v, Forall dig ds -> (0 <= a)%Z -> (numf a ds < 2 ^ 53)%Z -> is_real v (IZR a) ->
  exists v', whole_loop (chars ds ++ c :: x) v = Some (c :: x, v') /\ is_real v' (IZR (numf a ds)).
Proof.
  intros Hc. induction ds as [|d ds IH]; intros a v F Ha L R; cbn [chars map app whole_loop fold_left] in *.
  - rewrite Hc. eauto.
  - inversion F as [|? ? Hd F']; subst. rewrite digit_is by easy. apply IH; try easy.
    + unfold dig in Hd. lia.
    + pose proof (numf_ge ds F' (a * 10 + d)%Z ltac:(unfold dig in Hd; lia)) as G. cbv beta in G. unfold dig in Hd.
      assert (M : is_real (fmul v (f_of_int 10)) (IZR (a * 10))).
      { pose proof (fmul_real v (f_of_int 10) _ _ R (f_int 10 ltac:(reflexivity))) as M. rewrite <- mult_IZR in M. rewrite rnd_fmt in M by (apply fmt_int; lia). apply M. apply int_small. lia. }
      replace (48 + d - 48)%Z with d by lia.
      pose proof (fadd_real _ (f_of_int d) _ _ M (f_int d ltac:(lia))) as A. rewrite <- plus_IZR in A. rewrite rnd_fmt in A by (apply fmt_int; lia). apply A. apply int_small. lia.
Qed.

(** powers of ten up to the 22nd are numbers of the format *)
Lemma ten_fmt k : (0 <= k <= 22)%Z -> fmt (IZR (10 ^ k)).
Proof.
  intros H. replace (IZR (10 ^ k)) with (IZR (5 ^ k) * bpow radix2 k)%R.
  - apply fmt_int_exp; [|lia]. rewrite Z.abs_eq by (apply Z.pow_nonneg; lia). apply Z.le_lt_trans with (5 ^ 22)%Z; [apply Z.pow_le_mono_r; lia|reflexivity].
  - rewrite <- (IZR_Zpower radix2) by lia. rewrite <- mult_IZR. f_equal. change (Z.pow radix2 k) with (2 ^ k)%Z. rewrite <- Z.pow_mul_l. reflexivity.
Qed.
Lemma ten_small k : (0 <= k <= 22)%Z -> small (IZR (10 ^ k)).
Proof.
  intros H. unfold small. rewrite Rabs_pos_eq by (apply IZR_le, Z.pow_nonneg; lia).
  apply Rle_lt_trans with (IZR (10 ^ 22)); [apply IZR_le, Z.pow_le_mono_r; lia|]. apply Rlt_trans with (IZR (2 ^ 80)); [apply IZR_lt; reflexivity|].
  apply (bpow_lt radix2 80 1024). reflexivity.
Qed.
Lemma ten_mul x y j k : is_real x (IZR (10 ^ j)) -> is_real y (IZR (10 ^ k)) -> (0 <= j)%Z -> (0 <= k)%Z -> (j + k <= 22)%Z -> is_real (fmul x y) (IZR (10 ^ (j + k))).
Proof.
  intros X Y J K L. pose proof (fmul_real _ _ _ _ X Y) as M. rewrite <- mult_IZR, <- Z.pow_add_r in M by lia. rewrite rnd_fmt in M by (apply ten_fmt; lia). apply M. apply ten_small. lia.
Qed.
Lemma scale_by_ok f p : is_real f (IZR (10 ^ p)) -> (0 <= p)%Z -> forall n s q, is_real s (IZR (10 ^ q)) -> (0 <= q)%Z -> (q + Z.of_nat n * p <= 22)%Z ->
  is_real (scale_by n f s) (IZR (10 ^ (q + Z.of_nat n * p))).
Proof.
  intros F P. induction n as [|n IH]; intros s q Hs Q L; cbn [scale_by].
  - now rewrite Z.mul_0_l, Z.add_0_r.
  - replace (q + Z.of_nat (S n) * p)%Z with ((q + p) + Z.of_nat n * p)%Z by lia. apply IH; try nia. apply ten_mul; try easy. nia.
Qed.
Lemma f_ten k : (0 <= k <= 15)%Z -> is_real (f_of_int (10 ^ k)) (IZR (10 ^ k)).
Proof.
  intros H. apply f_int. rewrite Z.abs_eq by (apply Z.pow_nonneg; lia). apply Z.le_lt_trans with (10 ^ 15)%Z; [apply Z.pow_le_mono_r; lia|reflexivity].
Qed.
Lemma scale_of_ok k : (0 <= k <= 22)%Z -> is_real (scale_of k) (IZR (10 ^ k)).
Proof.
  intros H. unfold scale_of. rewrite (Z.div_small k 50), (Z.mod_small k 50) by lia. change (Z.to_nat 0) with O. cbn [scale_by].
  pose proof (Z.div_mod k 8 ltac:(lia)) as E. pose proof (Z.mod_pos_bound k 8 ltac:(lia)) as B. pose proof (Z.div_pos k 8 ltac:(lia) ltac:(lia)) as D.
  assert (S1 : is_real (scale_by (Z.to_nat (k / 8)) (f_of_int (10 ^ 8)) (f_of_int 1)) (IZR (10 ^ (0 + Z.of_nat (Z.to_nat (k / 8)) * 8)))).
  { apply scale_by_ok; try lia; [apply f_ten; lia|]. apply (f_ten 0). lia. }
  replace (IZR (10 ^ k)) with (IZR (10 ^ ((0 + Z.of_nat (Z.to_nat (k / 8)) * 8) + Z.of_nat (Z.to_nat (k mod 8)) * 1))) by (do 2 f_equal; lia).
  apply scale_by_ok; try lia; [|exact S1]. apply (f_ten 1). lia.
Qed.
Lemma exp_loop_ok c x : char_is_digit c = false -> forall es a, Forall dig es -> (0 <= a)%Z -> (numf a es < 2 ^ 32)%Z ->
  exp_loop (chars es ++ c :: x) a = Some (c :: x, numf a es).
Proof.
  intros Hc. induction es as [|d es IH]; intros a F Ha L; cbn [chars map app exp_loop fold_left] in *.
  - now rewrite Hc.
  - inversion F as [|? ? Hd F']; subst. rewrite digit_is by easy. replace (48 + d - 48)%Z with d by lia.
    pose proof (numf_ge es F' (a * 10 + d)%Z ltac:(unfold dig in Hd; lia)) as G. cbv beta in G. unfold dig in Hd.
    unfold u32. rewrite Z.mod_small by lia. apply IH; try easy; lia.
Qed.

(** ** Fractions *)
(** the value of the digits [fs] behind the point, after [i] others *)
Fixpoint fracval (i : nat) (fs : list Z) : R :=
  match fs with [] => 0 | d :: r => IZR d / IZR (10 ^ Z.of_nat (S i)) + fracval (S i) r end.
Lemma fracval_number fs : forall i, (fracval i fs * IZR (10 ^ (Z.of_nat i + Z.of_nat (length fs))) = IZR (numf 0%Z fs))%R.
Proof.
  assert (G : forall fs a i, (IZR a * IZR (10 ^ Z.of_nat (length fs)) + fracval i fs * IZR (10 ^ (Z.of_nat i + Z.of_nat (length fs))) = IZR (numf a fs))%R).
  { induction fs0 as [|d r IH]; intros a i; cbn [fracval length fold_left].
    - change (10 ^ Z.of_nat 0)%Z with 1%Z. ring.
    - etransitivity; [|exact (IH (a * 10 + d)%Z (S i))]. rewrite plus_IZR, mult_IZR.
      replace (Z.of_nat i + Z.of_nat (S (length r)))%Z with (Z.of_nat (S i) + Z.of_nat (length r))%Z by lia.
      replace (Z.of_nat (S (length r))) with (1 + Z.of_nat (length r))%Z by lia. rewrite !Z.pow_add_r by lia. rewrite !mult_IZR. change (10 ^ 1)%Z with 10%Z.
      assert (IZR (10 ^ Z.of_nat (S i)) <> 0)%R by (apply IZR_neq; pose proof (Z.pow_pos_nonneg 10 (Z.of_nat (S i))); lia).
      field. easy. }
  intros i. specialize (G fs 0%Z i). rewrite Rmult_0_l, Rplus_0_l in G. exact G.
Qed.
Lemma fracval_bound fs : Forall dig fs -> forall i, (0 <= fracval i fs <= / IZR (10 ^ Z.of_nat i))%R.
Proof.
  induction 1 as [|d r Hd F IH]; intros i; cbn [fracval].
  - split; [lra|]. apply Rlt_le, Rinv_0_lt_compat, IZR_lt. apply Z.pow_pos_nonneg; lia.
  - specialize (IH (S i)). assert (P : (0 < IZR (10 ^ Z.of_nat i))%R) by (apply IZR_lt, Z.pow_pos_nonneg; lia).
    replace (Z.of_nat (S i)) with (1 + Z.of_nat i)%Z in * by lia. rewrite Z.pow_add_r, mult_IZR in * by lia. change (IZR (10 ^ 1)) with 10%R in *.
    assert (D : (0 <= IZR d <= 9)%R) by (unfold dig in Hd; split; apply IZR_le; lia).
    assert (Q : (/ (10 * IZR (10 ^ Z.of_nat i)) = / 10 * / IZR (10 ^ Z.of_nat i))%R) by (field; lra).
    assert (P' : (0 < / IZR (10 ^ Z.of_nat i))%R) by now apply Rinv_0_lt_compat. unfold Rdiv. rewrite Q in *. nra.
Qed.
Lemma u_val : u = (/ IZR (2 ^ 53))%R.
Proof. reflexivity. Qed.
Lemma tiny : (0 < bpow radix2 (-1075) <= u * / 4)%R.
Proof.
  split; [apply bpow_gt_0|]. replace (u * / 4)%R with (bpow radix2 (-55)); [apply bpow_le; lia|]. change (-55)%Z with (-53 + -2)%Z. rewrite bpow_plus. reflexivity.
Qed.
Lemma u_small : (0 < u <= / 1000000000000000)%R.
Proof. rewrite u_val. split; [apply Rinv_0_lt_compat, IZR_lt; reflexivity|]. apply Rinv_le; [lra|]. apply IZR_le. lia. Qed.
(** the error of one rounding *)
Lemma rnd_within x m : (Rabs x <= m)%R -> (Rabs (rnd x - x) <= u * m + u * / 4)%R.
Proof.
  intros H. destruct (rnd_err x) as (d & h & Hd & Hh & ->). pose proof tiny. pose proof u_small.
  replace (x * (1 + d) + h - x)%R with (x * d + h)%R by ring. apply Rle_trans with (1 := Rabs_triang _ _). rewrite Rabs_mult.
  apply Rplus_le_compat; [|lra]. rewrite Rmult_comm. apply Rmult_le_compat; try apply Rabs_pos; easy.
Qed.
Lemma rnd_small x m : (Rabs x <= m)%R -> (m <= IZR (2 ^ 80))%R -> small (rnd x).
Proof. intros H M. apply (small_bound x 80); [lia|]. apply Rle_trans with (1 := H). exact M. Qed.
Lemma frac_loop_ok c x N : char_is_digit c = false -> (1 <= N <= IZR (2 ^ 53))%R -> forall fs i n v r X p, Forall dig fs -> (i + length fs <= 22)%nat -> (n + length fs <= 22)%nat ->
  (fs <> [] -> is_real p (IZR (10 ^ Z.of_nat (S i)))) -> is_real v r -> (0 <= X)%R -> (X + fracval i fs <= N)%R -> (Rabs (r - X) <= INR n * (4 * u * N))%R ->
  exists v' r', frac_loop (chars fs ++ c :: x) v p = Some (c :: x, v') /\ is_real v' r' /\ (Rabs (r' - (X + fracval i fs)) <= INR (n + length fs) * (4 * u * N))%R.
Proof.
  intros Hc HN. induction fs as [|d fs IH]; intros i n v r X p F Li Ln Hp Hv HX HXN E; cbn [chars map app frac_loop fracval length] in *.
  - rewrite Hc. exists v, r. repeat split; try apply Hv. rewrite Nat.add_0_r, Rplus_0_r. exact E.
  - inversion F as [|? ? Hd F']; subst. rewrite digit_is by easy. replace (48 + d - 48)%Z with d by lia.
    specialize (Hp ltac:(discriminate)). set (P := IZR (10 ^ Z.of_nat (S i))) in *.
    assert (HP : (1 <= P)%R) by (apply IZR_le; pose proof (Z.pow_pos_nonneg 10 (Z.of_nat (S i))); lia).
    pose proof u_small as Hu.
    assert (Dd : (0 <= IZR d <= 9)%R) by (unfold dig in Hd; split; apply IZR_le; lia).
    pose proof (fracval_bound (d :: fs) F i) as FB. cbn [fracval] in FB. fold P in FB. pose proof (fracval_bound fs F' (S i)) as FB'.
    assert (Qd : (0 <= IZR d / P <= 1)%R).
    { split; [apply Rmult_le_pos; [lra|]; apply Rlt_le, Rinv_0_lt_compat; lra|]. apply Rle_trans with (/ IZR (10 ^ Z.of_nat i))%R; [lra|].
      rewrite <- Rinv_1. apply Rinv_le; [lra|]. apply IZR_le. pose proof (Z.pow_pos_nonneg 10 (Z.of_nat i)). lia. }
    assert (Q : is_real (fdiv (f_of_int d) p) (rnd (IZR d / P))).
    { apply fdiv_real; [apply f_int; unfold dig in Hd; lia|exact Hp|lra|]. apply (rnd_small _ 1); [rewrite Rabs_pos_eq; lra|]. apply IZR_le. lia. }
    pose proof (rnd_within (IZR d / P) 1 ltac:(rewrite Rabs_pos_eq; lra)) as QE.
    assert (N22 : (INR n * (4 * u * N) <= / 1000 * N)%R).
    { apply Rle_trans with (22 * (4 * u * N))%R; [apply Rmult_le_compat_r; [nra|]; change 22%R with (IZR 22); rewrite INR_IZR_INZ; apply IZR_le; lia|]. nra. }
    set (q := rnd (IZR d / P)) in *.
    assert (S1 : (Rabs (r + q) <= 1.5 * N)%R).
    { apply Rabs_le_inv in E. apply Rabs_le_inv in QE. apply Rabs_le. lra. }
    assert (A : is_real (fadd v (fdiv (f_of_int d) p)) (rnd (r + q))).
    { apply fadd_real; [exact Hv|exact Q|]. apply (rnd_small _ (1.5 * N)); [exact S1|].
      apply Rle_trans with (2 * IZR (2 ^ 53))%R; [nra|]. change 2%R with (IZR 2). rewrite <- mult_IZR. apply IZR_le. lia. }
    pose proof (rnd_within _ _ S1) as AE.
    destruct (IH (S i) (S n) (fadd v (fdiv (f_of_int d) p)) (rnd (r + q)) (X + IZR d / P)%R (fmul p (f_of_int 10)) F' ltac:(lia) ltac:(lia)) as (v' & r' & E' & R' & B'); try exact A.
    + intros Nf. replace (Z.of_nat (S (S i))) with (Z.of_nat (S i) + 1)%Z by lia. apply ten_mul; [exact Hp|apply (f_ten 1); lia|lia|lia|]. destruct fs; [easy|]. cbn [length] in Li. lia.
    + lra.
    + lra.
    + rewrite S_INR. apply Rabs_le_inv in E. apply Rabs_le_inv in QE. apply Rabs_le_inv in AE. apply Rabs_le. nra.
    + exists v', r'. split; [exact E'|]. split; [exact R'|]. replace (n + S (length fs))%nat with (S n + length fs)%nat by lia.
      replace (X + (IZR d / P + fracval (S i) fs))%R with (X + IZR d / P + fracval (S i) fs)%R by ring. exact B'.
Qed.
