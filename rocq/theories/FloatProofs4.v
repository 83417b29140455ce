(** Printing doubles: the numbers printed behind the point. *)
From Coq Require Import Reals SpecFloat Psatz.
From Flocq Require Import Core BinarySingleNaN.
From Verif Require Import Base Num NumSpec Float FloatSpec FloatProofs FloatProofs2 PrintSpec PrintFSpec.

(** ** The cast drops the fraction *)
Lemma real_pos m e : SF2R radix2 (S754_finite false m e) = (IZR (Z.pos m) * bpow radix2 e)%R.
Proof. reflexivity. Qed.
Lemma real_neg m e : SF2R radix2 (S754_finite true m e) = (- (IZR (Z.pos m) * bpow radix2 e))%R.
Proof. unfold SF2R, F2R. cbn [Fnum Fexp cond_Zopp]. rewrite opp_IZR. ring. Qed.
Lemma int_part m e : exists v, (if (0 <=? e)%Z then Z.pos m * 2 ^ e else Z.pos m / 2 ^ (- e))%Z = v /\ (0 <= v)%Z /\ (IZR v <= IZR (Z.pos m) * bpow radix2 e < IZR v + 1)%R.
Proof.
  destruct (Z.leb_spec 0 e) as [H|H]; eexists; (split; [reflexivity|]).
  - split; [apply Z.mul_nonneg_nonneg; [easy|apply Z.pow_nonneg; lia]|]. rewrite <- (IZR_Zpower radix2) by easy. rewrite <- mult_IZR. change (Z.pow radix2 e) with (2 ^ e)%Z. lra.
  - assert (P : (0 < 2 ^ (- e))%Z) by (apply Z.pow_pos_nonneg; lia). split; [apply Z.div_pos; lia|].
    replace e with (- (- e))%Z at 2 3 by lia. rewrite bpow_opp, <- (IZR_Zpower radix2) by lia. change (Z.pow radix2 (- e)) with (2 ^ (- e))%Z.
    pose proof (Z.div_mod (Z.pos m) (2 ^ (- e)) ltac:(lia)) as D. pose proof (Z.mod_pos_bound (Z.pos m) _ P) as B. set (q := (Z.pos m / 2 ^ (- e))%Z) in *. set (s := (Z.pos m mod 2 ^ (- e))%Z) in *.
    set (T := (2 ^ (- e))%Z) in *. assert (0 < IZR T)%R by now apply IZR_lt. rewrite D, plus_IZR, mult_IZR.
    replace ((IZR T * IZR q + IZR s) * / IZR T)%R with (IZR q + IZR s / IZR T)%R by (field; lra).
    assert (0 <= IZR s / IZR T < 1)%R; [|lra]. split; [apply Rmult_le_pos; [apply IZR_le; lia|apply Rlt_le, Rinv_0_lt_compat; lra]|].
    apply Rmult_lt_reg_r with (IZR T); [easy|]. unfold Rdiv. rewrite Rmult_assoc, Rinv_l by lra. rewrite Rmult_1_r, Rmult_1_l. apply IZR_lt. lia.
Qed.
Lemma trunc_ok x r : is_real x r -> (-1 < r)%R -> exists v, f_trunc x = Some v /\ (0 <= v)%Z /\ (0 <= r -> IZR v <= r < IZR v + 1)%R /\ (r < 0 -> v = 0%Z)%R.
Proof.
  intros (V & F & <-) L. destruct x as [s|s| |s m e]; try discriminate F.
  - exists 0%Z. cbn. repeat split; try lra. lia.
  - unfold f_trunc. destruct (int_part m e) as (v & -> & P & B). destruct s.
    + rewrite real_neg in *. assert (v = 0)%Z as -> by (assert (IZR v < 1)%R by lra; apply lt_IZR in H; lia). exists 0%Z. split; [reflexivity|]. split; [lia|]. split; [|reflexivity].
      intros N. exfalso. pose proof (bpow_gt_0 radix2 e). assert (0 < IZR (Z.pos m))%R by now apply IZR_lt. nra.
    + rewrite real_pos in *. exists v. repeat split; try easy; try lra. intros N. exfalso. assert (0 <= IZR v)%R by now apply IZR_le. lra.
Qed.
(** the fraction of a double is a double, and so is the whole part *)
Lemma frac_fmt x r v : is_real x r -> (0 <= r)%R -> (IZR v <= r < IZR v + 1)%R -> fmt (IZR v) /\ fmt (r - IZR v).
Proof.
  intros R P B. pose proof (real_fmt _ _ R) as Fr. destruct R as (V & F & E). destruct x as [s|s| |s m e]; try discriminate F.
  - cbn in E. subst r. assert (v = 0)%Z as -> by (assert (IZR v < 1)%R by lra; assert (-1 < IZR v)%R by lra; apply lt_IZR in H, H0; lia). rewrite Rminus_0_r. easy.
  - destruct s; [rewrite real_neg in E; pose proof (bpow_gt_0 radix2 e); assert (0 < IZR (Z.pos m))%R by (now apply IZR_lt); nra|]. rewrite real_pos in E.
    unfold valid_binary, bounded, canonical_mantissa in V. apply andb_prop in V. destruct V as (V1 & V2). apply Zeq_bool_eq in V1. apply Z.leb_le in V2.
    assert (Hm : (Z.pos m < 2 ^ 53)%Z).
    { unfold SpecFloat.fexp, SpecFloat.emin in V1. rewrite Digits.Zpos_digits2_pos in V1. pose proof (Digits.Zdigits_correct radix2 (Z.pos m)) as (_ & D).
      assert (Digits.Zdigits radix2 (Z.pos m) <= 53)%Z by lia. apply Z.lt_le_trans with (1 := D). change (Zpower radix2 53 = (2 ^ 53)%Z) in V1 || idtac.
      apply (Z.pow_le_mono_r 2); lia. }
    assert (He : (-1074 <= e)%Z). { unfold SpecFloat.fexp, SpecFloat.emin in V1. lia. }
    destruct (int_part m e) as (w & Ew & Pw & Bw). rewrite E in Bw.
    assert (w = v) as ->. { assert (IZR w < IZR v + 1)%R by lra. assert (IZR v < IZR w + 1)%R by lra. rewrite <- plus_IZR in *. apply lt_IZR in H, H0. lia. }
    destruct (Z.leb_spec 0 e) as [H|H].
    + assert (Ev : IZR v = r). { rewrite <- E, <- Ew, mult_IZR. rewrite <- (IZR_Zpower radix2) by easy. reflexivity. }
      rewrite Ev, Rminus_eq_0. split; [exact Fr|]. apply (fmt_int 0). reflexivity.
    + assert (P2 : (0 < 2 ^ (- e))%Z) by (apply Z.pow_pos_nonneg; lia). split.
      * apply fmt_int. rewrite Z.abs_eq by easy. rewrite <- Ew. apply Z.le_lt_trans with (Z.pos m); [|easy]. apply Z.div_le_upper_bound; nia.
      * replace (r - IZR v)%R with (IZR (Z.pos m mod 2 ^ (- e)) * bpow radix2 e)%R.
        -- apply fmt_int_exp; [|lia]. pose proof (Z.mod_pos_bound (Z.pos m) _ P2). rewrite Z.abs_eq by lia. apply Z.le_lt_trans with (Z.pos m); [|easy]. apply Z.mod_le; lia.
        -- rewrite Z.mod_eq by lia. rewrite Ew. rewrite minus_IZR, mult_IZR. rewrite Rmult_minus_distr_r, E. f_equal.
           rewrite Rmult_comm, <- Rmult_assoc. replace (bpow radix2 e * IZR (2 ^ (- e)))%R with 1%R; [ring|].
           change (2 ^ (- e))%Z with (Z.pow radix2 (- e)). rewrite IZR_Zpower by lia. rewrite <- bpow_plus, Z.add_opp_diag_r. reflexivity.
Qed.

(** ** Digits *)
Fixpoint frac_vals (n : nat) (x : f64) (mult : Z) : option (list Z) :=
  match n with
  | O => Some []
  | S n =>
    v <- f_to_u64 (fmul x (f_of_int mult)) ;;
    let x := fsub x (fdiv (f_of_int v) (f_of_int mult)) in
    mult <- chk64 (mult * 10) ;;
    r <- frac_vals n x mult ;; Some (v :: r)
  end.
Lemma tiny_over P : (1 <= P <= IZR (10 ^ 17))%R -> (bpow radix2 (-1075) <= u * / 4 * / P)%R.
Proof.
  intros H. apply Rle_trans with (u * / 4 * / IZR (2 ^ 60))%R.
  - replace (u * / 4 * / IZR (2 ^ 60))%R with (bpow radix2 (-115)); [apply bpow_le; discriminate|].
    change (-115)%Z with (-53 + (-2 + - (60)))%Z. rewrite !bpow_plus, bpow_opp. rewrite <- (IZR_Zpower radix2 60) by discriminate. change (bpow radix2 (-53)) with u. change (bpow radix2 (-2)) with (/ 4)%R. change (Z.pow radix2 60) with (2 ^ 60)%Z. ring.
  - apply Rmult_le_compat_l; [pose proof u_small; lra|]. apply Rinv_le; [lra|]. apply Rle_trans with (1 := proj2 H). apply IZR_le. discriminate.
Qed.
Lemma rnd_over x m P : (1 <= P <= IZR (10 ^ 17))%R -> (Rabs x <= m * / P)%R -> (Rabs (rnd x - x) <= (u * m + u * / 4) * / P)%R.
Proof.
  intros HP H. destruct (rnd_err x) as (d & h & Hd & Hh & ->). pose proof (tiny_over P HP). pose proof u_small.
  replace (x * (1 + d) + h - x)%R with (x * d + h)%R by ring. apply Rle_trans with (1 := Rabs_triang _ _). rewrite Rabs_mult, Rmult_plus_distr_r.
  apply Rplus_le_compat; [|lra]. rewrite Rmult_assoc, Rmult_comm. apply Rmult_le_compat; try apply Rabs_pos; easy.
Qed.
Lemma small_1 x : (Rabs x <= 100)%R -> small (rnd x).
Proof. intros H. apply (rnd_small x 100 H). apply IZR_le. discriminate. Qed.
Lemma step_ok i x r : (1 <= i <= 15)%nat -> is_real x r -> (- 3 * u <= r <= (1 + 25 * u) * (10 * / IZR (10 ^ Z.of_nat i)))%R ->
  exists v r', f_to_u64 (fmul x (f_of_int (10 ^ Z.of_nat i))) = Some v /\ (0 <= v <= 10)%Z /\
    is_real (fsub x (fdiv (f_of_int v) (f_of_int (10 ^ Z.of_nat i)))) r' /\
    (- 3 * u <= r' <= (1 + 25 * u) * / IZR (10 ^ Z.of_nat i))%R /\ (Rabs (r' - (r - IZR v / IZR (10 ^ Z.of_nat i))) <= 14 * u * / IZR (10 ^ Z.of_nat i))%R.
Proof.
  intros Hi R B. pose proof u_small as Hu. pose proof (f_ten (Z.of_nat i) ltac:(lia)) as RP. set (P := IZR (10 ^ Z.of_nat i)) in *.
  assert (HP : (10 <= P <= IZR (10 ^ 15))%R) by (unfold P; split; apply IZR_le; [apply (Z.pow_le_mono_r 10 1)|apply Z.pow_le_mono_r]; lia).
  change (IZR (10 ^ 15)) with 1000000000000000%R in HP.
  assert (HP17 : (1 <= P <= IZR (10 ^ 17))%R) by (change (IZR (10 ^ 17)) with 100000000000000000%R; lra).
  assert (IP : (0 < / P)%R) by (apply Rinv_0_lt_compat; lra). assert (PI : (P * / P = 1)%R) by (apply Rinv_r; lra).
  assert (Ba : (-/ 2 <= r * P <= 10 * (1 + 25 * u))%R).
  { split; [|replace (10 * (1 + 25 * u))%R with ((1 + 25 * u) * (10 * / P) * P)%R by (field; lra); apply Rmult_le_compat_r; lra].
    apply Rle_trans with ((- 3 * u) * P)%R; [|apply Rmult_le_compat_r; lra].
    assert (u * P <= / 9000000000000000 * 1000000000000000)%R by (apply Rmult_le_compat; try lra; rewrite u_val; apply Rinv_le; [lra|apply IZR_le; discriminate]). lra. }
  assert (Aa : (Rabs (r * P) <= 11)%R) by (apply Rabs_le; lra).
  assert (Ra : is_real (fmul x (f_of_int (10 ^ Z.of_nat i))) (rnd (r * P))) by (apply fmul_real; try easy; apply small_1; lra).
  pose proof (rnd_within _ _ Aa) as Ea. set (a := (r * P)%R) in *. set (a' := rnd a) in *. apply Rabs_le_inv in Ea.
  destruct (trunc_ok _ _ Ra ltac:(lra)) as (v & Ev & Pv & Bv & Nv).
  assert (V10 : (v <= 10)%Z).
  { destruct (Rle_or_lt 0 a') as [G|G]; [|rewrite (Nv G); lia]. specialize (Bv G). assert (IZR v < IZR 11)%R by (change (IZR 11) with 11%R; lra). apply lt_IZR in H. lia. }
  assert (IV : (0 <= IZR v <= 10)%R) by (split; apply IZR_le; lia).
  assert (Eu : f_to_u64 (fmul x (f_of_int (10 ^ Z.of_nat i))) = Some v).
  { unfold f_to_u64. rewrite Ev. cbn [obind]. destruct (Z.leb_spec 0 v), (Z.ltb_spec v (2 ^ 64)); try reflexivity; lia. }
  pose proof (f_int v ltac:(lia)) as Rv.
  assert (Aq : (Rabs (IZR v / P) <= 10 * / P)%R) by (unfold Rdiv; rewrite Rabs_pos_eq by nra; apply Rmult_le_compat_r; lra).
  assert (I1 : (/ P <= / 10)%R) by (apply Rinv_le; lra).
  assert (Rq : is_real (fdiv (f_of_int v) (f_of_int (10 ^ Z.of_nat i))) (rnd (IZR v / P))) by (apply fdiv_real; try easy; [lra|apply small_1; lra]).
  pose proof (rnd_over _ _ _ HP17 Aq) as Eq. set (q := rnd (IZR v / P)) in *. apply Rabs_le_inv in Eq.
  destruct (Rle_or_lt 0 a') as [G|G].
  - specialize (Bv G).
    assert (D : (- (12 * u * / P) <= r - IZR v / P <= (1 + 12 * u) * / P)%R).
    { replace (r - IZR v / P)%R with ((a - IZR v) * / P)%R by (unfold a; field; lra). nra. }
    assert (D2 : (- (23 * u * / P) <= r - q <= (1 + 23 * u) * / P)%R) by (unfold Rdiv in *; nra).
    assert (A2 : (Rabs (r - q) <= 1.1 * / P)%R) by (apply Rabs_le; nra).
    assert (Rr : is_real (fsub x (fdiv (f_of_int v) (f_of_int (10 ^ Z.of_nat i)))) (rnd (r - q))) by (apply fsub_real; try easy; apply small_1; lra).
    pose proof (rnd_over _ _ _ HP17 A2) as Er. apply Rabs_le_inv in Er.
    exists v, (rnd (r - q)). split; [exact Eu|]. split; [lia|]. split; [exact Rr|]. split; [nra|]. apply Rabs_le. unfold Rdiv in *. nra.
  - specialize (Nv G). subst v. assert (q = 0)%R as Q0 by (unfold q; unfold Rdiv; rewrite Rmult_0_l; apply rnd_0). rewrite Q0 in *.
    assert (Gr : (r <= 0)%R).
    { destruct (Rle_or_lt r 0) as [Y|Y]; [easy|]. exfalso. assert (0 <= a)%R by (unfold a; nra). pose proof (rnd_mono 0 a H) as M. rewrite rnd_0 in M. fold a' in M. lra. }
    exists 0%Z, r. split; [exact Eu|]. split; [lia|]. split; [|split; [nra|]].
    + pose proof (fsub_real x _ r 0 R Rq) as S. rewrite Rminus_0_r, (rnd_fmt r) in S by (apply (real_fmt _ _ R)). apply S. rewrite <- (rnd_fmt r) by (apply (real_fmt _ _ R)). apply small_1. apply Rabs_le. nra.
    + unfold Rdiv. rewrite Rmult_0_l, Rminus_0_r, Rminus_eq_0, Rabs_R0. nra.
Qed.
Lemma frac_vals_ok : forall n i x r, (1 <= i)%nat -> (i + n <= 16)%nat -> is_real x r -> (- 3 * u <= r <= (1 + 25 * u) * (10 * / IZR (10 ^ Z.of_nat i)))%R ->
  exists vs r', frac_vals n x (10 ^ Z.of_nat i) = Some vs /\ length vs = n /\ Forall (fun v => 0 <= v <= 10)%Z vs /\
    (- 3 * u <= r' <= (1 + 25 * u) * (10 * / IZR (10 ^ Z.of_nat (i + n))))%R /\ (Rabs (r - tail_val i vs - r') <= 16 * u * / IZR (10 ^ Z.of_nat i))%R.
Proof.
  induction n as [|n IH]; intros i x r H1 H2 R B.
  - exists [], r. rewrite Nat.add_0_r. cbn [frac_vals length tail_val]. repeat split; try easy; try apply B. rewrite Rminus_0_r, Rminus_eq_0, Rabs_R0.
    apply Rmult_le_pos; [pose proof u_small; lra|]. apply Rlt_le, Rinv_0_lt_compat, IZR_lt, Z.pow_pos_nonneg; lia.
  - destruct (step_ok i x r ltac:(lia) R B) as (v & r1 & E & Hv & R1 & B1 & D). cbn [frac_vals]. rewrite E. cbn [obind]. unfold chk64.
    assert (L : (0 < 10 ^ Z.of_nat i * 10 <= 10 ^ 16)%Z).
    { split; [pose proof (Z.pow_pos_nonneg 10 (Z.of_nat i)); lia|]. change (10 ^ 16)%Z with (10 ^ 15 * 10)%Z. apply Z.mul_le_mono_nonneg_r; [lia|]. apply Z.pow_le_mono_r; lia. }
    replace ((-2^63 <=? 10 ^ Z.of_nat i * 10)%Z && (10 ^ Z.of_nat i * 10 <? 2^63)%Z) with true by lia. cbn [obind].
    replace (10 ^ Z.of_nat i * 10)%Z with (10 ^ Z.of_nat (S i))%Z by (rewrite Nat2Z.inj_succ, Z.pow_succ_r by lia; lia).
    assert (Q : (/ IZR (10 ^ Z.of_nat i) = 10 * / IZR (10 ^ Z.of_nat (S i)))%R).
    { rewrite (Nat2Z.inj_succ i), Z.pow_succ_r, mult_IZR by lia. field. apply IZR_neq. pose proof (Z.pow_pos_nonneg 10 (Z.of_nat i)). lia. }
    destruct (IH (S i) _ r1 ltac:(lia) ltac:(lia) R1) as (vs & r' & E2 & L2 & F2 & B2 & D2); [rewrite <- Q; exact B1|].
    rewrite E2. cbn [obind]. exists (v :: vs), r'. split; [reflexivity|]. split; [cbn; lia|]. split; [now constructor|]. split; [now rewrite <- Nat.add_succ_comm|].
    cbn [tail_val]. apply Rabs_le_inv in D, D2. apply Rabs_le. rewrite Q in *.
    assert (0 < / IZR (10 ^ Z.of_nat (S i)))%R by (apply Rinv_0_lt_compat, IZR_lt, Z.pow_pos_nonneg; lia). pose proof u_small. nra.
Qed.
