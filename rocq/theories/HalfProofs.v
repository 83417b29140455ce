From Verif Require Import Base Half HalfSpec.

Lemma div_mod_mod a p q : 0 < p -> 0 < q -> (a / p) mod q = (a mod (p * q)) / p.
Proof. intros Hp Hq. rewrite Z.rem_mul_r by lia. rewrite (Z.mul_comm p), Z.div_add by lia. rewrite (Z.div_small (a mod p)) by (apply Z.mod_pos_bound; lia). lia. Qed.
Lemma lor_plus a b r : 0 <= r -> 0 <= b < 2^r -> a mod 2^r = 0 -> Z.lor a b = a + b.
Proof.
  intros Hr Hb Ha. rewrite Z.add_nocarry_lxor, Z.lxor_lor; try easy; apply Z.bits_inj'; intros n Hn; rewrite Z.land_spec, Z.bits_0;
  (destruct (Z.testbit b n) eqn:E; [|now rewrite andb_false_r]);
  (destruct (Z_lt_dec n r) as [L|L];
   [rewrite <- (Z.mod_pow2_bits_low a r n) by lia; now rewrite Ha, Z.bits_0
   |exfalso; destruct (Z.eq_dec b 0) as [->|Nz]; [now rewrite Z.bits_0 in E|];
    rewrite Z.bits_above_log2 in E; [easy|lia|]; apply Z.log2_lt_pow2; [lia|]; apply Z.lt_le_trans with (2^r); [lia|]; apply Z.pow_le_mono_r; lia]).
Qed.
Lemma land_bit m k : 0 <= k -> (Z.land m (2^k) =? 0) = negb (Z.testbit m k).
Proof.
  intros Hk. destruct (Z.testbit m k) eqn:E; cbn [negb].
  - apply Z.eqb_neq. intros H. apply (f_equal (fun z => Z.testbit z k)) in H. rewrite Z.land_spec, E, Z.pow2_bits_true, Z.bits_0 in H by lia. easy.
  - apply Z.eqb_eq. apply Z.bits_inj'. intros n Hn. rewrite Z.land_spec, Z.bits_0. destruct (Z.eq_dec n k) as [->|N]; [now rewrite E|].
    rewrite Z.pow2_bits_false by lia. apply andb_false_r.
Qed.

(** sweeps with a binary counter *)
Fixpoint zsweep (n : nat) (z : Z) (P : Z -> bool) : bool := match n with O => true | S n => P z && zsweep n (Z.succ z) P end.
Lemma zsweep_ok P n : forall z, zsweep n z P = true -> forall x, z <= x < z + Z.of_nat n -> P x = true.
Proof.
  induction n as [|n IH]; intros z H x Hx; [lia|]. cbn [zsweep] in H. apply andb_prop in H as [A B].
  destruct (Z.eq_dec x z) as [->|N]; [exact A|]. apply (IH (Z.succ z) B). lia.
Qed.

(** ** Fields *)
Lemma half_fields h S n : 0 <= n < 32768 -> S = 0 \/ S = 1 -> h mod 65536 = S * 32768 + n ->
  fsign 10 5 h = S /\ fexp 10 5 h = n / 1024 /\ ffrac 10 h = n mod 1024.
Proof.
  intros Hn HS E. unfold fsign, fexp, ffrac. change (2^(10+5)) with 32768. change (2^10) with 1024. change (2^5) with 32.
  assert (E1 : h mod 32768 = n).
  { replace 65536 with (32768 * 2) in E by easy. rewrite Z.rem_mul_r in E by lia. pose proof (Z.mod_pos_bound h 32768 ltac:(easy)).
    pose proof (Z.mod_pos_bound (h / 32768) 2 ltac:(easy)). lia. }
  refine (conj _ (conj _ _)).
  - rewrite (div_mod_mod h 32768 2) by easy. change (32768 * 2) with 65536. rewrite E. rewrite Z.add_comm, Z.div_add, Z.div_small by lia. lia.
  - rewrite div_mod_mod by easy. change (1024 * 32) with 32768. now rewrite E1.
  - rewrite <- E1. change 32768 with (1024 * 32). rewrite Z.rem_mul_r by easy.
    rewrite (Z.mul_comm 1024), Z_mod_plus_full. now rewrite Zmod_mod.
Qed.
Lemma to_half_mod x : to_half x mod 65536 = x mod 65536.
Proof.
  unfold to_half, sx. change (2^16) with 65536. change (2^(16-1)) with 32768. destruct (x mod 65536 <? 32768).
  - apply Zmod_mod.
  - replace (x mod 65536 - 65536) with (x mod 65536 + (-1) * 65536) by lia. rewrite Z_mod_plus_full. apply Zmod_mod.
Qed.
Lemma half_any h : exists S n, (S = 0 \/ S = 1) /\ 0 <= n < 32768 /\ h mod 65536 = S * 32768 + n.
Proof.
  exists ((h mod 65536) / 32768), ((h mod 65536) mod 32768).
  pose proof (Z.mod_pos_bound h 65536 ltac:(easy)) as B. pose proof (Z.mod_pos_bound (h mod 65536) 32768 ltac:(easy)).
  pose proof (Z.div_mod (h mod 65536) 32768 ltac:(easy)).
  assert (0 <= h mod 65536 / 32768 < 2) by (split; [apply Z.div_pos; lia|apply Z.div_lt_upper_bound; lia]). lia.
Qed.

Lemma div_is a b q r : 0 <= r < b -> a = b * q + r -> a / b = q.
Proof. intros H E. symmetry. now apply (Z.div_unique_pos a b q r). Qed.
Lemma mod_is a b q r : 0 <= r < b -> a = b * q + r -> a mod b = r.
Proof. intros H E. symmetry. now apply (Z.mod_unique_pos a b q r). Qed.
(** ** Magnitudes by index *)
Definition hm (n : Z) : Z := if n / 1024 =? 0 then n mod 1024 else (1024 + n mod 1024) * 2^(n / 1024 - 1).
Lemma mag_hm h S n : 0 <= n < 32768 -> S = 0 \/ S = 1 -> h mod 65536 = S * 32768 + n -> mag 10 5 h = hm n.
Proof. intros Hn HS E. destruct (half_fields h S n Hn HS E) as (_ & A & B). unfold mag, hm. now rewrite A, B. Qed.
Lemma hm_next : forall n, 0 <= n < 31744 -> hm (n + 1) = hm n + 2^(Z.max (n / 1024 - 1) 0).
Proof.
  intros n Hn. pose proof (Z.div_mod n 1024 ltac:(easy)) as D. pose proof (Z.mod_pos_bound n 1024 ltac:(easy)) as B. assert (0 <= n / 1024) by (apply Z.div_pos; lia).
  unfold hm. destruct (Z.eq_dec (n mod 1024) 1023) as [R|R].
  - rewrite (div_is (n + 1) 1024 (n / 1024 + 1) 0) by lia. rewrite (mod_is (n + 1) 1024 (n / 1024 + 1) 0) by lia. rewrite R. destruct (Z.eqb_spec (n / 1024 + 1) 0) as [X|_]; [lia|].
    destruct (Z.eqb_spec (n / 1024) 0) as [->|N]; [reflexivity|]. rewrite Z.max_l by lia. replace (n / 1024 + 1 - 1) with (Z.succ (n / 1024 - 1)) by lia. rewrite Z.pow_succ_r by lia. lia.
  - rewrite (div_is (n + 1) 1024 (n / 1024) (n mod 1024 + 1)) by lia. rewrite (mod_is (n + 1) 1024 (n / 1024) (n mod 1024 + 1)) by lia.
    destruct (Z.eqb_spec (n / 1024) 0) as [->|N]; [cbn; lia|]. rewrite Z.max_l by lia. lia.
Qed.
Lemma hm_mono a b : 0 <= a <= b -> b <= 31744 -> hm a <= hm b.
Proof.
  intros [Ha H]. replace b with (a + Z.of_nat (Z.to_nat (b - a))) by lia. generalize (Z.to_nat (b - a)) as k. clear b H.
  intros k. induction k as [|k IH]; intros L.
  - replace (a + Z.of_nat 0) with a by lia. lia.
  - replace (a + Z.of_nat (S k)) with (a + Z.of_nat k + 1) by lia. rewrite hm_next by lia.
    assert (0 < 2^(Z.max ((a + Z.of_nat k) / 1024 - 1) 0)) by (apply Z.pow_pos_nonneg; lia). specialize (IH ltac:(lia)). lia.
Qed.
Lemma hm_nonneg n : 0 <= n -> 0 <= hm n.
Proof.
  intros H. unfold hm. pose proof (Z.mod_pos_bound n 1024 ltac:(easy)). destruct (n / 1024 =? 0); [lia|].
  assert (0 <= 2^(n / 1024 - 1)) by (apply Z.pow_nonneg; lia). nia.
Qed.

(** ** What float_to_half computes, in terms of the fields *)
Definition hidx (E M : Z) : Z :=
  if E <? 102 then 0
  else if E <=? 112 then ((M + 2^23) / 2^(113 - E) + 4096) / 8192
  else ((E - 112) * 2^23 + M + 4096) / 8192.

Lemma bit12_round m : 0 <= m -> (if Z.land m 0x1000 =? 0 then m else m + 0x2000) / 8192 = (m + 4096) / 8192.
Proof.
  intros Hm. change 0x1000 with (2^12). rewrite land_bit by easy.
  pose proof (Z.testbit_spec' m 12 ltac:(easy)) as T. change (2^12) with 4096 in T.
  pose proof (Z.div_mod m 4096 ltac:(easy)) as D. pose proof (Z.mod_pos_bound m 4096 ltac:(easy)) as B.
  pose proof (Z.div_mod (m / 4096) 2 ltac:(easy)) as D2. set (q := m / 4096 / 2) in *.
  destruct (Z.testbit m 12); cbn [negb Z.b2z] in *; rewrite <- T in D2.
  - rewrite (div_is (m + 0x2000) 8192 (q + 1) (4096 + m mod 4096)) by lia. symmetry. apply (div_is _ 8192 _ (m mod 4096)); lia.
  - rewrite (div_is m 8192 q (m mod 4096)) by lia. symmetry. apply (div_is _ 8192 _ (4096 + m mod 4096)); lia.
Qed.

Lemma single_parts v : in_u32 v -> v = fsign 23 8 v * 2^31 + fexp 23 8 v * 2^23 + ffrac 23 v /\ (fsign 23 8 v = 0 \/ fsign 23 8 v = 1) /\ 0 <= fexp 23 8 v < 256 /\ 0 <= ffrac 23 v < 2^23.
Proof.
  intros [H0 H1]. unfold fsign, fexp, ffrac. change (2^(23+8)) with (2^31). change (2^8) with 256.
  change (2^31) with 2147483648. change (2^23) with 8388608. change (2^32) with 4294967296 in H1.
  pose proof (Z.mod_pos_bound v 8388608 ltac:(easy)). pose proof (Z.mod_pos_bound (v / 8388608) 256 ltac:(easy)).
  pose proof (Z.div_mod v 8388608 ltac:(easy)). pose proof (Z.div_mod (v / 8388608) 256 ltac:(easy)).
  rewrite Z.div_div in * by easy. change (8388608 * 256) with 2147483648 in *.
  assert (0 <= v / 2147483648 < 2) by (split; [apply Z.div_pos; lia|apply Z.div_lt_upper_bound; lia]).
  rewrite (Z.mod_small (v / 2147483648) 2) by lia. lia.
Qed.
Lemma i32_fields S E M : (S = 0 \/ S = 1) -> 0 <= E < 256 -> 0 <= M < 2^23 -> let i := i32 (S * 2^31 + E * 2^23 + M) in
  Z.land (Z.shiftr i 16) 0x8000 = S * 32768 /\ Z.land (Z.shiftr i 23) 0xff = E /\ Z.land i 0x7fffff = M.
Proof.
  intros HS HE HM. cbn zeta. set (v := S * 2^31 + E * 2^23 + M).
  assert (R : exists t, i32 v = v + t * 2^32).
  { unfold i32, sx. destruct (_ <? _); [exists (- (v / 2^32))|exists (- (v / 2^32) - 1)]; pose proof (Z.div_mod v (2^32) ltac:(easy)); lia. }
  destruct R as [t ->].
  change 0x8000 with (2^15). change 0xff with (Z.ones 8). change 0x7fffff with (Z.ones 23). rewrite !Z.land_ones by easy.
  rewrite !Z.shiftr_div_pow2 by easy.
  assert (Ev : v = S * 2147483648 + E * 8388608 + M) by reflexivity. change (2^23) with 8388608 in *. change (2^16) with 65536. change (2^8) with 256. change (2^32) with 4294967296.
  refine (conj _ (conj _ _)).
  - apply Z.bits_inj'. intros n Hn. rewrite Z.land_spec. destruct (Z.eq_dec n 15) as [->|N].
    + rewrite Z.pow2_bits_true, andb_true_r by easy.
      change 65536 with (2^16). rewrite Z.div_pow2_bits by easy. change (15 + 16) with 31.
      rewrite !Z.testbit_eqb by easy. change (2^31) with 2147483648. change (2^15) with 32768.
      rewrite Z.div_mul by easy.
      rewrite (div_is (v + t * 4294967296) 2147483648 (S + 2 * t) (E * 8388608 + M)) by lia.
      rewrite (Z.mul_comm 2 t), Z_mod_plus_full. easy.
    + rewrite (Z.pow2_bits_false 15 n) by lia. rewrite andb_false_r. destruct HS as [->| ->]; [now rewrite Z.bits_0|].
      rewrite Z.mul_1_l. rewrite (Z.pow2_bits_false 15 n) by lia. reflexivity.
  - rewrite (div_is (v + t * 4294967296) 8388608 (E + (S + 2 * t) * 256) M) by lia. rewrite Z_mod_plus_full. apply Z.mod_small. lia.
  - replace (v + t * 4294967296) with (M + (S * 256 + E + t * 512) * 8388608) by lia. rewrite Z_mod_plus_full. apply Z.mod_small. lia.
Qed.

Lemma float_to_half_idx v S E M : (S = 0 \/ S = 1) -> 0 <= E <= 142 -> 0 <= M < 2^23 -> v = S * 2^31 + E * 2^23 + M ->
  float_to_half v = to_half (S * 32768 + hidx E M) /\ 0 <= hidx E M <= 31744.
Proof.
  intros HS HE HM ->. destruct (i32_fields S E M HS ltac:(lia) HM) as (F1 & F2 & F3). unfold float_to_half. rewrite F1, F2, F3.
  clear F1 F2 F3. unfold hidx. assert (SM : forall r, 0 <= r <= 15 -> (S * 32768) mod 2^r = 0).
  { intros r Hr. replace 32768 with (2^(15 - r) * 2^r) by (rewrite <- Z.pow_add_r by lia; now replace (15 - r + r) with 15 by lia).
    rewrite Z.mul_assoc. apply Z_mod_mult. }
  destruct (Z.leb_spec (E - (127 - 15)) 0) as [L|L].
  - destruct (Z.ltb_spec (E - (127 - 15)) (-10)) as [L2|L2].
    + destruct (Z.ltb_spec E 102); [|lia]. rewrite Z.add_0_r. split; [easy|lia].
    + destruct (Z.ltb_spec E 102); [lia|]. destruct (Z.leb_spec E 112); [|lia].
      rewrite (Z.lor_comm M). change 0x800000 with (2^23). rewrite (lor_plus (2^23) M 23) by (try easy).
      rewrite (Z.shiftr_div_pow2 (2^23 + M)) by lia. replace (1 - (E - (127 - 15))) with (113 - E) by lia. rewrite (Z.add_comm (2^23) M).
      set (m := (M + 2^23) / 2^(113 - E)).
      assert (Hm : 0 <= m <= 2^23 - 1).
      { subst m. assert (0 < 2^(113 - E)) by (apply Z.pow_pos_nonneg; lia). split; [apply Z.div_pos; lia|].
        enough ((M + 2^23) / 2^(113 - E) < 2^23) by lia. apply Z.div_lt_upper_bound; [lia|].
        assert (2^1 <= 2^(113 - E)) by (apply Z.pow_le_mono_r; lia). nia. }
      rewrite Z.shiftr_div_pow2 by easy. change (2^13) with 8192. rewrite bit12_round by lia.
      assert (B : 0 <= (m + 4096) / 8192 <= 1024).
      { split; [apply Z.div_pos; lia|]. enough ((m + 4096) / 8192 < 1025) by lia. apply Z.div_lt_upper_bound; lia. }
      rewrite (lor_plus (S * 32768) _ 15) by (try apply SM; try lia; change (2^15) with 32768; lia). split; [easy|lia].
  - destruct (Z.eqb_spec (E - (127 - 15)) (0xff - (127 - 15))); [lia|].
    destruct (Z.ltb_spec E 102); [lia|]. destruct (Z.leb_spec E 112); [lia|].
    set (e := E - 112). change (E - (127 - 15)) with e. assert (He : 1 <= e <= 30) by lia.
    change 0x1000 with (2^12). rewrite land_bit by easy. change (2^12) with 4096.
    pose proof (Z.testbit_spec' M 12 ltac:(easy)) as T. change (2^12) with 4096 in T.
    pose proof (Z.div_mod M 4096 ltac:(easy)) as D. pose proof (Z.mod_pos_bound M 4096 ltac:(easy)) as B.
    pose proof (Z.div_mod (M / 4096) 2 ltac:(easy)) as D2. set (q := M / 4096 / 2) in *.
    change (2^23) with 8388608 in *.
    assert (Hq : 0 <= q < 1024) by (destruct (Z.testbit M 12); cbn [Z.b2z] in T; lia).
    assert (Fin : forall e q, 1 <= e <= 30 -> 0 <= q < 1024 -> forall m, m / 8192 = q ->
       to_half (Z.lor (Z.lor (S * 32768) (Z.shiftl e 10)) (Z.shiftr m 13)) = to_half (S * 32768 + (e * 1024 + q))).
    { clear - HS SM. intros e q He Hq m Hm. rewrite Z.shiftl_mul_pow2, Z.shiftr_div_pow2 by easy. change (2^13) with 8192. change (2^10) with 1024. rewrite Hm.
      rewrite (lor_plus (S * 32768) (e * 1024) 15) by (try apply SM; try lia; change (2^15) with 32768; lia).
      rewrite (lor_plus _ q 10) by (try lia; change (2^10) with 1024; try lia; replace (S * 32768 + e * 1024) with ((S * 32 + e) * 1024) by lia; apply Z_mod_mult).
      f_equal. lia. }
    destruct (Z.testbit M 12) eqn:Tb; cbn [negb Z.b2z] in *; rewrite <- T in D2.
    + replace (0x800000) with (2^23) by easy. rewrite land_bit by easy. change (2^23) with 8388608.
      pose proof (Z.testbit_spec' (M + 0x2000) 23 ltac:(easy)) as T2. change (2^23) with 8388608 in T2.
      destruct (Z_lt_dec (M + 8192) 8388608) as [Lt|Ge].
      * rewrite (Z.div_small (M + 0x2000)) in T2 by lia. destruct (Z.testbit (M + 0x2000) 23); cbn [negb]; [discriminate T2|].
        destruct (Z.ltb_spec 30 e); [lia|].
        rewrite (Fin e (q + 1) He ltac:(lia)) by (apply (div_is _ 8192 _ (4096 + M mod 4096)); lia).
        rewrite (div_is (e * 8388608 + M + 4096) 8192 (e * 1024 + (q + 1)) (M mod 4096)) by lia. split; [easy|lia].
      * rewrite (div_is (M + 0x2000) 8388608 1 (M + 8192 - 8388608)) in T2 by lia. destruct (Z.testbit (M + 0x2000) 23); cbn [negb]; [|discriminate T2].
        rewrite (div_is (e * 8388608 + M + 4096) 8192 (e * 1024 + 1024) (M mod 4096)) by lia.
        destruct (Z.ltb_spec 30 (e + 1)).
        -- assert (e = 30) by lia. replace (e * 1024 + 1024) with 0x7c00 by lia.
           rewrite (lor_plus (S * 32768) _ 15) by (try apply SM; try lia). split; [easy|lia].
        -- rewrite (Fin (e + 1) 0 ltac:(lia) ltac:(lia) 0 eq_refl). split; [f_equal; lia|lia].
    + destruct (Z.ltb_spec 30 e); [lia|].
      rewrite (Fin e q He ltac:(lia)) by (apply (div_is _ 8192 _ (M mod 4096)); lia).
      rewrite (div_is (e * 8388608 + M + 4096) 8192 (e * 1024 + q) (4096 + M mod 4096)) by lia. split; [easy|lia].
Qed.

(** the two neighbours and the choice between them *)
Definition xmag (E M : Z) : Z := if E =? 0 then M else (2^23 + M) * 2^(E - 1).
Lemma hidx_between E M : 0 <= E <= 142 -> 0 <= M < 2^23 -> exists q, 0 <= q <= 31743 /\ hm q * 2^125 <= xmag E M < hm (q + 1) * 2^125 /\ hidx E M = (if hm (q + 1) * 2^125 - xmag E M <=? xmag E M - hm q * 2^125 then q + 1 else q).
Proof.
  intros HE HM. unfold hidx, xmag.
  destruct (Z.ltb_spec E 102) as [L|L].
  - exists 0. split; [lia|]. change (hm 0) with 0. change (hm (0 + 1)) with 1.
    assert (B : 0 <= (if E =? 0 then M else (2^23 + M) * 2^(E - 1)) < 2^124).
    { destruct (Z.eqb_spec E 0) as [->|Ne]; [split; [lia|]; apply Z.lt_le_trans with (2^23); [lia|now apply Z.pow_le_mono_r]|].
      assert (P : 0 < 2^(E - 1)) by (apply Z.pow_pos_nonneg; lia).
      assert (P2 : 2^(E - 1) <= 2^100) by (apply Z.pow_le_mono_r; lia).
      split; [nia|]. apply Z.lt_le_trans with (2^24 * 2^100); [|easy]. nia. }
    set (x := if E =? 0 then M else _) in *. destruct (Z.leb_spec (1 * 2^125 - x) (x - 0 * 2^125)); split; try lia; change (2^125) with (2 * 2^124) in *; lia.
  - assert (E =? 0 = false) as -> by (apply Z.eqb_neq; lia).
    destruct (Z.leb_spec E 112) as [L2|L2].
    + set (k := 126 - E). set (X := 2^23 + M). replace (M + 2^23) with X by (subst X; lia).
      assert (Pk : 0 < 2^k) by (apply Z.pow_pos_nonneg; lia).
      assert (Pe : 0 < 2^(E - 1)) by (apply Z.pow_pos_nonneg; lia).
      assert (Pp : 2^k * 2^(E - 1) = 2^125) by (rewrite <- Z.pow_add_r by lia; f_equal; lia).
      exists (X / 2^k). pose proof (Z.div_mod X (2^k) ltac:(lia)) as D. pose proof (Z.mod_pos_bound X (2^k) Pk) as B.
      set (q := X / 2^k) in *. set (r := X mod 2^k) in *.
      assert (Hq : 0 <= q <= 1023).
      { subst q. split; [apply Z.div_pos; lia|]. enough (X / 2^k < 1024) by lia. apply Z.div_lt_upper_bound; [lia|].
        assert (2^14 <= 2^k) by (apply Z.pow_le_mono_r; lia). subst X. nia. }
      assert (H1 : hm q = q) by (unfold hm; rewrite (Z.div_small q), (Z.mod_small q) by lia; easy).
      assert (H2 : hm (q + 1) = q + 1).
      { rewrite hm_next by lia. rewrite H1, (Z.div_small q) by lia. easy. }
      rewrite H1, H2. split; [lia|].
      assert (Ex : X * 2^(E - 1) = q * 2^125 + r * 2^(E - 1)) by (rewrite D, <- Pp; ring).
      rewrite Ex. split; [nia|].
      (* double rounding: drop bits, then round at bit 12 *)
      assert (Ei : (X / 2^(113 - E) + 4096) / 8192 = if 2 * r <? 2^k then q else q + 1).
      { assert (P13 : 0 < 2^(113 - E)) by (apply Z.pow_pos_nonneg; lia).
        assert (Pk2 : 2^k = 2^(113 - E) * 8192) by (change 8192 with (2^13); rewrite <- Z.pow_add_r by lia; f_equal; lia).
        replace (X / 2^(113 - E) + 4096) with ((X + 4096 * 2^(113 - E)) / 2^(113 - E)) by (rewrite Z.div_add by lia; lia).
        rewrite Z.div_div by lia. rewrite <- Pk2.
        destruct (Z.ltb_spec (2 * r) (2^k)).
        - apply (div_is _ (2^k) q (r + 4096 * 2^(113 - E))); nia.
        - apply (div_is _ (2^k) (q + 1) (r - 4096 * 2^(113 - E))); nia. }
      rewrite Ei. destruct (Z.ltb_spec (2 * r) (2^k)); destruct (Z.leb_spec ((q + 1) * 2^125 - (q * 2^125 + r * 2^(E - 1))) (q * 2^125 + r * 2^(E - 1) - q * 2^125)); try easy; nia.
    + set (e := E - 112). set (P := 2^(E - 1)). assert (PP : 0 < P) by (apply Z.pow_pos_nonneg; lia).
      pose proof (Z.div_mod M 8192 ltac:(easy)) as D. pose proof (Z.mod_pos_bound M 8192 ltac:(easy)) as B.
      set (a := M / 8192) in *. set (r := M mod 8192) in *. change (2^23) with 8388608 in *.
      assert (Ha : 0 <= a <= 1023) by lia. exists (e * 1024 + a). split; [lia|].
      assert (Q1 : (e * 1024 + a) / 1024 = e) by (apply (div_is _ 1024 _ a); lia).
      assert (Q2 : (e * 1024 + a) mod 1024 = a) by (rewrite Z.add_comm, Z_mod_plus_full; apply Z.mod_small; lia).
      assert (H1 : hm (e * 1024 + a) = (1024 + a) * 2^(e - 1)).
      { unfold hm. rewrite Q1, Q2. destruct (Z.eqb_spec e 0); [lia|easy]. }
      assert (H2 : hm (e * 1024 + a + 1) = (1024 + a + 1) * 2^(e - 1)).
      { rewrite hm_next by lia. rewrite H1, Q1. rewrite Z.max_l by lia. ring. }
      assert (Pp : 2^(e - 1) * 2^125 = 8192 * P).
      { change 8192 with (2^13). subst P. rewrite <- !Z.pow_add_r by lia. f_equal. lia. }
      rewrite H1, H2, <- !Z.mul_assoc, Pp. rewrite D.
      replace ((8388608 + (8192 * a + r)) * P) with ((1024 + a) * (8192 * P) + r * P) by ring.
      split; [nia|].
      assert (Ei : (e * 8388608 + (8192 * a + r) + 4096) / 8192 = if r <? 4096 then e * 1024 + a else e * 1024 + a + 1).
      { destruct (Z.ltb_spec r 4096); [apply (div_is _ 8192 _ (r + 4096)); lia|apply (div_is _ 8192 _ (r - 4096)); lia]. }
      rewrite Ei. destruct (Z.ltb_spec r 4096);
      destruct (Z.leb_spec ((1024 + a + 1) * (8192 * P) - ((1024 + a) * (8192 * P) + r * P)) ((1024 + a) * (8192 * P) + r * P - (1024 + a) * (8192 * P))); try easy; nia.
Qed.
