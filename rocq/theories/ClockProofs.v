From Coq Require Import Reals SpecFloat Psatz Lra.
From Flocq Require Import Core BinarySingleNaN.
From Verif Require Import Base Float FloatSpec FloatProofs FloatProofs4 Clock.
Local Open Scope R_scope.

Definition r3 : R := IZR 4611686018427388 * bpow radix2 (-62).
Definition r6 : R := IZR 4722366482869645 * bpow radix2 (-72).
Lemma f_1em3_real : is_real f_1em3 r3.
Proof. replace f_1em3 with (S754_finite false 4611686018427388 (-62)) by (vm_compute; reflexivity). repeat split. Qed.
Lemma f_1em6_real : is_real f_1em6 r6.
Proof. replace f_1em6 with (S754_finite false 4722366482869645 (-72)) by (vm_compute; reflexivity). repeat split. Qed.
Lemma r3_bounds : 1 / 1000 <= r3 <= 1 / 1000 * (1 + / 1000000000000000).
Proof. unfold r3. change (bpow radix2 (-62)) with (/ IZR 4611686018427387904). lra. Qed.
Lemma r6_bounds : 1 / 1000000 * (1 - / 1000000000000000) <= r6 <= 1 / 1000000.
Proof. unfold r6. change (bpow radix2 (-72)) with (/ IZR 4722366482869645213696). lra. Qed.
Global Opaque r3 r6.

Lemma int_real z : (Z.abs z < 2 ^ 53)%Z -> is_real (f_of_int z) (IZR z).
Proof.
  intros H. rewrite <- (rnd_fmt (IZR z)) by now apply fmt_int. apply f_of_int_real. apply (small_bound _ 53); [lia|]. rewrite <- abs_IZR. change (bpow radix2 53) with (IZR (2 ^ 53)). apply IZR_le. lia.
Qed.
(** rounding of something between 0 and 2^53 *)
Lemma rnd_near x : 0 <= x <= IZR (2 ^ 53) -> Rabs (rnd x - x) <= x * / 9007199254740992 + / 1000000000000000000000.
Proof.
  intros B. destruct (rnd_err x) as (d & h & D & H & ->). assert (U : u = / 9007199254740992) by reflexivity. rewrite U in D.
  assert (T : bpow radix2 (-1075) <= / 1000000000000000000000). { apply Rle_trans with (bpow radix2 (-70)); [apply bpow_le; lia|]. change (bpow radix2 (-70)) with (/ IZR 1180591620717411303424). lra. }
  replace (x * (1 + d) + h - x) with (x * d + h) by ring. eapply Rle_trans; [apply Rabs_triang|]. rewrite Rabs_mult, (Rabs_right x) by lra. apply Rplus_le_compat; [apply Rmult_le_compat_l; lra|lra].
Qed.
Lemma rnd_pos x : 0 <= x -> 0 <= rnd x.
Proof. intros H. rewrite <- rnd_0. now apply rnd_mono. Qed.
Lemma rnd_ge_int x z : (0 <= z < 2 ^ 53)%Z -> IZR z <= x -> IZR z <= rnd x.
Proof. intros Z H. rewrite <- (rnd_fmt (IZR z)) by (apply fmt_int; lia). now apply rnd_mono. Qed.
Lemma small53 x : 0 <= x <= IZR (2 ^ 53) -> small (rnd x).
Proof. intros H. apply (small_bound _ 53); [lia|]. change (bpow radix2 53) with (IZR (2 ^ 53)). rewrite Rabs_right; lra. Qed.
(** the whole part *)
Lemma trunc_between x r z : is_real x r -> 0 <= r -> IZR z <= r < IZR z + 1 -> f_trunc x = Some z.
Proof.
  intros R P B. destruct (trunc_ok x r R ltac:(lra)) as (v & E & _ & H & _). specialize (H P). rewrite E. f_equal. assert (A : IZR v < IZR z + 1) by lra. assert (C : IZR z < IZR v + 1) by lra. rewrite <- plus_IZR in A, C. apply lt_IZR in A, C. lia.
Qed.
Lemma trunc_u64 x r : is_real x r -> 0 <= r < IZR (2 ^ 60) -> exists z, f_to_u64 x = Some z /\ f_trunc x = Some z /\ (0 <= z < 2 ^ 60)%Z /\ IZR z <= r < IZR z + 1.
Proof.
  intros R P. destruct (trunc_ok x r R ltac:(lra)) as (v & E & N & H & _). specialize (H ltac:(lra)). exists v. assert (L : IZR v < IZR (2 ^ 60)) by lra. apply lt_IZR in L.
  unfold f_to_u64. rewrite E. cbn [obind]. destruct (Z.leb_spec 0 v); [|lia]. destruct (Z.ltb_spec v (2 ^ 64)); [|lia]. cbn [andb]. auto.
Qed.

(** ** Thousandths *)
Lemma thousandth_real z : (0 <= z < 2 ^ 53)%Z -> is_real (fmul (f_of_int z) f_1em3) (rnd (IZR z * r3)) /\ IZR z * r3 <= IZR z.
Proof.
  intros Z. pose proof r3_bounds as B. assert (P : 0 <= IZR z <= IZR (2 ^ 53)) by (split; apply IZR_le; lia). assert (Q : 0 <= IZR z * r3 <= IZR z) by nra. split; [|lra].
  apply fmul_real; [apply int_real; lia|apply f_1em3_real|]. apply small53. lra.
Qed.
Lemma thousandth z : (0 <= z < 2 ^ 45)%Z -> f_trunc (fmul (f_of_int z) f_1em3) = Some (z / 1000)%Z.
Proof.
  intros Z. destruct (thousandth_real z ltac:(lia)) as [R _]. pose proof r3_bounds as B. set (q := (z / 1000)%Z). pose proof (Z.div_mod z 1000 ltac:(lia)) as D. pose proof (Z.mod_pos_bound z 1000 ltac:(lia)) as M. fold q in D.
  assert (P : 0 <= IZR z <= IZR (2 ^ 45)) by (split; apply IZR_le; lia). assert (Q : 0 <= IZR q) by (apply IZR_le; unfold q; apply Z.div_pos; lia).
  assert (E : IZR z = 1000 * IZR q + IZR (z mod 1000)) by (rewrite D at 1; rewrite plus_IZR, mult_IZR; reflexivity). assert (M' : 0 <= IZR (z mod 1000) <= 999) by (split; apply IZR_le; lia).
  change (IZR (2 ^ 45)) with 35184372088832 in P.
  assert (X1 : IZR q <= IZR z * r3) by nra. assert (X2 : IZR z * r3 <= IZR z / 1000 + 1 / 10000) by nra.
  pose proof (rnd_near (IZR z * r3)) as N. change (IZR (2 ^ 53)) with 9007199254740992 in N. specialize (N ltac:(lra)). apply Rabs_le_inv in N.
  apply (trunc_between _ _ _ R); [apply rnd_pos; lra|]. split; [apply rnd_ge_int; [unfold q; split; [apply Z.div_pos; lia|apply Z.div_lt_upper_bound; lia]|exact X1]|]. lra.
Qed.
Lemma millionfold z : (0 <= z < 1000)%Z -> f_trunc (fmul (f_of_int z) f_1e6) = Some (z * 1000000)%Z.
Proof.
  intros Z. assert (R : is_real (fmul (f_of_int z) f_1e6) (IZR (z * 1000000))).
  { rewrite <- (rnd_fmt (IZR (z * 1000000))) by (apply fmt_int; lia). rewrite mult_IZR. apply fmul_real; [apply int_real; lia|apply int_real; lia|]. apply small53. rewrite <- mult_IZR. split; apply IZR_le; lia. }
  apply (trunc_between _ _ _ R); [apply IZR_le; lia|lra].
Qed.

(** ** Nanoseconds *)
Definition nano (n : Z) : R := rnd (r6 * IZR n).
Lemma nano_real n : (0 <= n < 1000000000)%Z -> is_real (fmul f_1em6 (f_of_int n)) (nano n) /\ is_real (fmul (f_of_int n) f_1em6) (nano n).
Proof.
  intros N. pose proof r6_bounds as B. assert (P : 0 <= IZR n <= 1000000000) by (split; apply IZR_le; lia). assert (S : small (rnd (r6 * IZR n))) by (apply small53; change (IZR (2 ^ 53)) with 9007199254740992; nra).
  split; [apply fmul_real; [apply f_1em6_real|apply int_real; lia|exact S]|]. unfold nano. rewrite Rmult_comm. apply fmul_real; [apply int_real; lia|apply f_1em6_real|]. now rewrite Rmult_comm.
Qed.
Lemma nano_mono n m : (n <= m)%Z -> nano n <= nano m.
Proof. intros H. apply rnd_mono. pose proof r6_bounds. apply Rmult_le_compat_l; [lra|]. now apply IZR_le. Qed.
(** at whole milliseconds the product is exact: each of the thousand cases *)
Lemma whole_check : forallb (fun k => match fmul f_1em6 (f_of_int (Z.of_nat k * 1000000)), f_of_int (Z.of_nat k) with
  | S754_zero false, S754_zero false => true | S754_finite false m e, S754_finite false m' e' => Pos.eqb m m' && Z.eqb e e' | _, _ => false end) (seq 0 1000) = true.
Proof. vm_compute. reflexivity. Qed.
Lemma nano_whole k : (0 <= k < 1000)%Z -> nano (k * 1000000) = IZR k.
Proof.
  intros K. pose proof whole_check as H. rewrite forallb_forall in H. specialize (H (Z.to_nat k)). rewrite Z2Nat.id in H by lia. assert (I : In (Z.to_nat k) (seq 0 1000)) by (apply in_seq; lia). specialize (H I).
  assert (E : fmul f_1em6 (f_of_int (k * 1000000)) = f_of_int k).
  { destruct (fmul f_1em6 (f_of_int (k * 1000000))) as [[|]|?| |[|] m e]; try discriminate; destruct (f_of_int k) as [[|]|?| |[|] m' e']; try discriminate; [reflexivity|]. apply andb_true_iff in H as [A B]. apply Pos.eqb_eq in A. apply Z.eqb_eq in B. now subst. }
  destruct (nano_real (k * 1000000) ltac:(lia)) as [(_ & _ & <-) _]. rewrite E. destruct (int_real k ltac:(lia)) as (_ & _ & ->). reflexivity.
Qed.
Lemma nano_bounds n : (0 <= n < 1000000000)%Z -> IZR (n / 1000000) <= nano n <= IZR n / 1000000 + / 1000000000000 /\ 0 <= nano n <= 1000.
Proof.
  intros N. pose proof (Z.div_mod n 1000000 ltac:(lia)) as D. pose proof (Z.mod_pos_bound n 1000000 ltac:(lia)) as M. set (k := (n / 1000000)%Z) in *. assert (K : (0 <= k < 1000)%Z) by lia.
  assert (L : IZR k <= nano n) by (rewrite <- (nano_whole k K); apply nano_mono; lia). pose proof r6_bounds as B. assert (P : 0 <= IZR n <= 999999999) by (split; apply IZR_le; lia).
  pose proof (rnd_near (r6 * IZR n)) as Q. change (IZR (2 ^ 53)) with 9007199254740992 in Q. specialize (Q ltac:(nra)). apply Rabs_le_inv in Q. fold (nano n) in Q. assert (U : r6 * IZR n <= IZR n / 1000000) by nra.
  assert (0 <= IZR k) by (apply IZR_le; lia). split; [split; [exact L|lra]|split; lra].
Qed.

(** ** The sum *)
Definition whole_ms (sec nsec : Z) : Z := (1000 * sec + nsec / 1000000)%Z.
Lemma gettime_real sec nsec : (0 <= sec < 2 ^ 43)%Z -> (0 <= nsec < 1000000000)%Z ->
  is_real (fadd (f_of_int (1000 * sec)) (fmul f_1em6 (f_of_int nsec))) (rnd (IZR (1000 * sec) + nano nsec)) /\ 0 <= IZR (1000 * sec) + nano nsec <= IZR (2 ^ 53).
Proof.
  intros S N. destruct (nano_bounds nsec N) as [_ B]. assert (P : 0 <= IZR (1000 * sec) <= IZR (2 ^ 53 - 1000)) by (split; apply IZR_le; lia). change (IZR (2 ^ 53 - 1000)) with 9007199254739992 in P. change (IZR (2 ^ 53)) with 9007199254740992. split; [|lra].
  apply fadd_real; [apply int_real; lia|now apply nano_real|]. apply small53. change (IZR (2 ^ 53)) with 9007199254740992. lra.
Qed.
Lemma gettime_spec sec nsec : (0 <= sec < 2 ^ 43)%Z -> (0 <= nsec < 1000000000)%Z ->
  exists z, gettime sec nsec = Some z /\ (0 <= z < 2 ^ 60)%Z /\ IZR z <= rnd (IZR (1000 * sec) + nano nsec) < IZR z + 1.
Proof.
  intros S N. destruct (gettime_real sec nsec S N) as [R B]. unfold gettime, long. destruct (Z.leb_spec (- 2 ^ 63) (1000 * sec)); [|lia]. destruct (Z.ltb_spec (1000 * sec) (2 ^ 63)); [|lia]. cbn [andb obind].
  pose proof (rnd_near _ B) as Q. apply Rabs_le_inv in Q. change (IZR (2 ^ 53)) with 9007199254740992 in B.
  destruct (trunc_u64 _ _ R) as (z & E & _ & Z & L); [split; [apply rnd_pos; lra|change (IZR (2 ^ 60)) with 1152921504606846976; lra]|]. exists z. auto.
Qed.
