(** C100: zpl_quake_rsqrt. *)
From Coq Require Import Reals SpecFloat Psatz Lra.
From Flocq Require Import Core BinarySingleNaN.
From Verif Require Import Base Single SingleProofs QuakeProofs.
Local Open Scope R_scope.

(** For every positive normal single the result is a single within 5 millionths of 1/sqrt(a), and above it by less than 4 ten-millionths. *)
Theorem C100_quake_rsqrt (a : f32) (r : R) : is_single a r -> bpow radix2 (-126) <= r ->
  exists t y, quake_rsqrt a = Some t /\ is_single t y /\ 0 < y /\ - 0.000005 <= y * sqrt r - 1 <= 0.0000004.
Proof.
  intros H L. destruct (magic a r H L) as (i & j & y & Ei & Ej & Rj & Hy & Py & Q). unfold quake_rsqrt. rewrite Ei. cbn [obind]. rewrite Ej. destruct (Z.leb_spec (- 2 ^ 31) j) as [_|K]; [|lia]. destruct (Z.ltb_spec j (2 ^ 31)) as [_|K]; [|lia]. cbn [andb].
  assert (Pr : 0 < r) by (pose proof (bpow_gt_0 radix2 (-126)); lra). assert (Ur : r < bpow radix2 128) by (destruct (is_single_bin a r H) as (b & _ & _ & <-); eapply Rle_lt_trans; [apply Rle_abs|apply abs_B2R_lt_emax]).
  assert (Lh : 2 * bpow radix2 (-127) <= r) by (replace (2 * bpow radix2 (-127)) with (bpow radix2 (-126)); [exact L|]; change (-126)%Z with (1 + -127)%Z; rewrite bpow_plus; reflexivity).
  assert (X : exists X d0, is_single (smul a s_half) X /\ X = r / 2 * (1 + d0) /\ Rabs d0 <= 3 * u).
  { assert (S : small (rnd (r * (1 / 2)))). { unfold small. apply Rle_lt_trans with r; [|exact Ur]. rewrite Rabs_right by (apply Rle_ge; rewrite <- rnd_0; apply rnd_mono; lra). rewrite <- (rnd_fmt r (real_fmt _ _ H)) at 2. apply rnd_mono. lra. }
    destruct (rnd_err (r * (1 / 2))) as (d & h & D & Hh & E). exists (rnd (r * (1 / 2))), (d + h / (r / 2)). split; [apply smul_real; [exact H|apply half_real|exact S]|]. split; [rewrite E; field; lra|].
    eapply Rle_trans; [apply Rabs_triang|]. assert (Rabs (h / (r / 2)) <= 2 * u); [|lra]. unfold Rdiv at 1. rewrite Rabs_mult. rewrite (Rabs_right (/ (r / 2))) by (apply Rle_ge; left; apply Rinv_0_lt_compat; lra).
    apply Rmult_le_reg_r with (r / 2); [lra|]. rewrite Rmult_assoc, Rinv_l, Rmult_1_r by lra. eapply Rle_trans; [exact Hh|]. replace (bpow radix2 (-150)) with (2 * u * bpow radix2 (-127)); [|unfold u; change 2 with (bpow radix2 1); rewrite <- !bpow_plus; reflexivity]. assert (0 < u) by apply bpow_gt_0. apply Rmult_le_compat_l; lra. }
  destruct X as (X & d0 & HX & EX & D0). unfold q0, q1 in Q.
  destruct (newton_step _ _ X y r d0 HX Hy Py (conj L Ur) EX D0 ltac:(lra)) as (y1 & e1 & l1 & H1 & P1 & E1 & L1 & F1).
  pose proof (step_q _ _ _ _ _ F1) as G1. pose proof (step_bound (r * y * y) e1 l1 ltac:(lra) E1 L1) as B1. cbv zeta in B1. rewrite <- G1 in B1. clear G1. set (q := r * y * y) in *. rewrite u_eq in B1.
  assert (Q1 : 0.99649 <= r * y1 * y1 <= 1.000001). { split; [|lra]. destruct B1 as [B1 _]. assert ((1 - q) * (1 - q) * (4 - q) <= 0.014036); [|lra]. assert (0 <= (1 - q) * (1 - q)) by apply Rle_0_sqr. destruct (Rle_or_lt q 1) as [K|K].
    - assert ((1 - q) * (1 - q) <= 0.0676 * 0.0676) by nra. assert ((1 - q) * (1 - q) * (4 - q) <= 0.0676 * 0.0676 * 3.0676); [|lra]. apply Rmult_le_compat; lra.
    - set (w := q - 1). assert (W : 0 <= w <= 0.0692) by (unfold w; lra). replace ((1 - q) * (1 - q) * (4 - q)) with (w * w * (3 - w)) by (unfold w; ring). assert (w * (3 - w) <= 0.0692 * 2.9308) by nra. assert (0 <= w * (3 - w)) by nra. replace (w * w * (3 - w)) with (w * (w * (3 - w))) by ring. apply Rle_trans with (0.0692 * (0.0692 * 2.9308)); [apply Rmult_le_compat; lra|lra]. }
  destruct (newton_step _ _ X y1 r d0 HX H1 P1 (conj L Ur) EX D0 ltac:(lra)) as (y2 & e2 & l2 & H2 & P2 & E2 & L2 & F2).
  pose proof (step_q _ _ _ _ _ F2) as G2. pose proof (step_bound (r * y1 * y1) e2 l2 ltac:(lra) E2 L2) as B2. cbv zeta in B2. rewrite <- G2 in B2. clear G2. set (p := r * y1 * y1) in *. rewrite u_eq in B2.
  exists (newton (smul a s_half) (newton (smul a s_half) (of_bits j))), y2. split; [reflexivity|]. split; [exact H2|]. split; [exact P2|].
  assert (V : 0.99999005 <= r * y2 * y2 <= 1.00000066). { split; [|lra]. destruct B2 as [B2 _]. assert ((1 - p) * (1 - p) <= 0.00351 * 0.00351) by nra. assert (0 <= (1 - p) * (1 - p)) by apply Rle_0_sqr. assert ((1 - p) * (1 - p) * (4 - p) <= 0.00351 * 0.00351 * 3.00351) by nra. lra. }
  set (s := y2 * sqrt r). assert (S : s * s = r * y2 * y2) by (unfold s; pose proof (sqrt_sqrt r ltac:(lra)) as Z; replace (y2 * sqrt r * (y2 * sqrt r)) with (y2 * y2 * (sqrt r * sqrt r)) by ring; rewrite Z; ring). assert (Ps : 0 < s) by (apply Rmult_lt_0_compat; [exact P2|now apply sqrt_lt_R0]).
  rewrite <- S in V. assert (0.999995 <= s) by (apply sq_low; lra). assert (s <= 1.0000004) by (apply sq_low; lra). lra.
Qed.
(** The bound is nearly reached: 10768485 / 2^24, about 0.64, gives a result too small by 4.7 millionths. *)
Definition worst : f32 := S754_finite false 10768485 (-24).
Lemma single_fin m e : valid_binary 24 128 (S754_finite false m e) = true -> is_single (S754_finite false m e) (IZR (Z.pos m) * bpow radix2 e).
Proof. intros V. split; [exact V|]. split; reflexivity. Qed.
Lemma worst_real : is_single worst (10768485 / 16777216).
Proof. split; [reflexivity|]. split; [reflexivity|]. unfold SF2R, worst, F2R. cbn. lra. Qed.
Theorem C100_bound_is_near : exists t y, quake_rsqrt worst = Some t /\ is_single t y /\ y * sqrt (10768485 / 16777216) - 1 <= - 0.0000047.
Proof.
  eexists _, _. split; [vm_compute; reflexivity|]. split; [apply single_fin; reflexivity|].
  match goal with |- ?y * _ - 1 <= _ => set (y0 := y) end. assert (E : y0 = 10470574 / 8388608) by (unfold y0; cbn; lra). rewrite E.
  assert (sqrt (10768485 / 16777216) <= 0.9999953 * 8388608 / 10470574); [|nra]. rewrite <- (sqrt_square (0.9999953 * 8388608 / 10470574)) by lra. apply sqrt_le_1_alt. lra.
Qed.
(** Below the normal numbers the result can be far off: for 2^-149 it is about a thousandth of the reciprocal of the root. Zero gives a finite number, and infinity gives infinity instead of zero. *)
Theorem C100_subnormal_refuted : exists t y, is_single (S754_finite false 1 (-149)) (bpow radix2 (-149)) /\ quake_rsqrt (S754_finite false 1 (-149)) = Some t /\ is_single t y /\ y * sqrt (bpow radix2 (-149)) <= 0.0012.
Proof.
  eexists _, _. split; [split; [reflexivity|]; split; [reflexivity|]; unfold SF2R, F2R; cbn; lra|]. split; [vm_compute; reflexivity|]. split; [apply single_fin; reflexivity|].
  assert (sqrt (bpow radix2 (-149)) <= bpow radix2 (-75) * 1.4143). { rewrite <- (sqrt_square (bpow radix2 (-75) * 1.4143)) by (apply Rmult_le_pos; [apply bpow_ge_0|lra]). apply sqrt_le_1_alt. replace (bpow radix2 (-75) * 1.4143 * (bpow radix2 (-75) * 1.4143)) with (bpow radix2 (-75) * bpow radix2 (-75) * (1.4143 * 1.4143)) by ring. rewrite <- bpow_plus. change (-149)%Z with (1 + (-75 + -75))%Z. rewrite (bpow_plus _ 1). change (bpow radix2 1) with 2. assert (0 < bpow radix2 (-75 + -75)) by apply bpow_gt_0. lra. }
  assert (P : bpow radix2 41 * bpow radix2 (-75) = bpow radix2 (-34)) by (rewrite <- bpow_plus; reflexivity). assert (0 < bpow radix2 41) by apply bpow_gt_0. change (bpow radix2 (-34)) with (/ 17179869184) in P.
  apply Rle_trans with (13518294 * bpow radix2 41 * (bpow radix2 (-75) * 1.4143)); [apply Rmult_le_compat_l; [lra|assumption]|]. replace (13518294 * bpow radix2 41 * (bpow radix2 (-75) * 1.4143)) with (13518294 * 1.4143 * (bpow radix2 41 * bpow radix2 (-75))) by ring. rewrite P. lra.
Qed.
Theorem C100_zero_refuted : quake_rsqrt (S754_zero false) = Some (S754_finite false 13518294 41).
Proof. vm_compute. reflexivity. Qed.
Theorem C100_infinity_refuted : quake_rsqrt (S754_infinity false) = Some (S754_infinity false).
Proof. vm_compute. reflexivity. Qed.
(** Minus zero, and the negative numbers of magnitude below 15643918 / 2^26 (about 0.233), make the subtraction of ints overflow, which is undefined. *)
Lemma bits_neg m e : valid_binary 24 128 (S754_finite true m e) = true -> exists v, bits_of (S754_finite true m e) = Some (v - 2 ^ 31)%Z /\ (0 <= v < 2 ^ 31)%Z /\ ((v < 1047442702)%Z <-> IZR (Z.pos m) * bpow radix2 e < 15643918 * bpow radix2 (-26)).
Proof.
  intros V. unfold valid_binary, bounded in V. apply andb_prop in V. destruct V as [C E]. apply Zeq_bool_eq in C. apply Zle_bool_imp_le in E. unfold SpecFloat.fexp, SpecFloat.emin in C. rewrite Digits.Zpos_digits2_pos in C.
  pose proof (Digits.Zdigits_correct radix2 (Z.pos m)) as D. rewrite Z.abs_eq in D by lia. set (d := Digits.Zdigits radix2 (Z.pos m)) in *. change (radix_val radix2) with 2%Z in D.
  assert (D1 : (d <= 24)%Z) by lia. assert (D0 : (0 < d)%Z) by (apply Digits.Zdigits_gt_0; lia). assert (M : (Z.pos m < 2 ^ 24)%Z) by (eapply Z.lt_le_trans; [apply D|]; apply Z.pow_le_mono_r; lia).
  assert (Pe : 0 < bpow radix2 (-26)) by apply bpow_gt_0. cbn [bits_of]. destruct (Z.ltb_spec (Z.pos m) (2 ^ 23)) as [S|S].
  - assert (e = -149)%Z. { assert (d <= 23)%Z; [|lia]. destruct (Z_le_gt_dec d 23) as [|G]; [assumption|exfalso]. assert (2 ^ 23 <= 2 ^ (d - 1))%Z by (apply Z.pow_le_mono_r; lia). lia. } subst e.
    exists (Z.pos m). split; [reflexivity|]. split; [lia|]. split; [intros _|intros _; lia]. apply Rle_lt_trans with (bpow radix2 24 * bpow radix2 (-149)); [apply Rmult_le_compat_r; [apply bpow_ge_0|change (bpow radix2 24) with (IZR (2 ^ 24)); apply IZR_le; lia]|]. rewrite <- bpow_plus. apply Rlt_le_trans with (1 * bpow radix2 (-26)); [rewrite Rmult_1_l; apply bpow_lt; lia|]. apply Rmult_le_compat_r; lra.
  - assert (L : (-149 <= e)%Z) by lia. exists ((e + 150) * 2 ^ 23 + (Z.pos m - 2 ^ 23))%Z. split; [reflexivity|]. split; [lia|].
    assert (Lo : bpow radix2 (23 + e) <= IZR (Z.pos m) * bpow radix2 e) by (rewrite bpow_plus; apply Rmult_le_compat_r; [apply bpow_ge_0|]; change (bpow radix2 23) with (IZR (2 ^ 23)); apply IZR_le; lia).
    assert (Hi : IZR (Z.pos m) * bpow radix2 e < bpow radix2 (24 + e)) by (rewrite bpow_plus; apply Rmult_lt_compat_r; [apply bpow_gt_0|]; change (bpow radix2 24) with (IZR (2 ^ 24)); apply IZR_lt; lia).
    destruct (Z.lt_trichotomy e (-26)) as [G|[->|G]].
    + split; [intros _|intros _; lia]. eapply Rlt_trans; [exact Hi|]. apply Rle_lt_trans with (bpow radix2 (23 + -26)); [apply bpow_le; lia|]. rewrite bpow_plus. apply Rmult_lt_compat_r; [exact Pe|]. change (bpow radix2 23) with 8388608. lra.
    + split; intros A; [apply Rmult_lt_compat_r; [exact Pe|]; apply IZR_lt; lia|]. apply Rmult_lt_reg_r in A; [|exact Pe]. apply lt_IZR in A. lia.
    + split; intros A; [lia|]. exfalso. assert (bpow radix2 (24 + -26) <= bpow radix2 (23 + e)) by (apply bpow_le; lia). rewrite bpow_plus in H. change (bpow radix2 24) with 16777216 in H. lra.
Qed.
Theorem C100_negative (a : f32) r : is_single a r -> r < 0 -> (quake_rsqrt a = None <-> - 15643918 / 67108864 < r).
Proof.
  intros (V & F & <-) N. destruct a as [s|s| |s m e]; cbn in N, F; try discriminate; try lra. destruct s.
  2:{ exfalso. unfold F2R in N. cbn in N. assert (0 < bpow radix2 e) by apply bpow_gt_0. assert (0 < IZR (Z.pos m)) by (apply IZR_lt; lia). change (IZR (Z.pos m)) with (IPR m) in *. nra. }
  destruct (bits_neg m e V) as (v & E & B & C). unfold quake_rsqrt. rewrite E. cbn [obind]. rewrite (Z.shiftr_div_pow2 _ 1) by lia. change (2 ^ 1)%Z with 2%Z. pose proof (Z.div_mod (v - 2 ^ 31) 2 ltac:(lia)). pose proof (Z.mod_pos_bound (v - 2 ^ 31) 2 ltac:(lia)).
  assert (W : SF2R radix2 (S754_finite true m e) = - (IZR (Z.pos m) * bpow radix2 e)) by (unfold SF2R, F2R; cbn [cond_Zopp Defs.Fnum Defs.Fexp]; rewrite opp_IZR; ring). rewrite W. change (bpow radix2 (-26)) with (/ 67108864) in C.
  destruct (Z.leb_spec (- 2 ^ 31) (0x5f375a86 - (v - 2 ^ 31) / 2)) as [A|A]; [|exfalso; lia].
  destruct (Z.ltb_spec (0x5f375a86 - (v - 2 ^ 31) / 2) (2 ^ 31)) as [D|D]; cbn [andb].
  - split; [discriminate|]. intros Q. assert (v < 1047442702)%Z by (apply C; lra). lia.
  - split; [|reflexivity]. intros _. assert (IZR (Z.pos m) * bpow radix2 e < 15643918 * / 67108864) by (apply C; lia). lra.
Qed.
Theorem C100_minus_zero_undefined : quake_rsqrt (S754_zero true) = None.
Proof. vm_compute. reflexivity. Qed.
(** The bits determine the number. *)
Theorem C100_bits (a : f32) i : valid_binary 24 128 a = true -> bits_of a = Some i -> (- 2 ^ 31 <= i < 2 ^ 31)%Z /\ of_bits i = a.
Proof.
  intros V E. assert (Sgn : forall (s : bool) (v : Z), (0 <= v < 2 ^ 31)%Z -> i = (if s then v - 2 ^ 31 else v)%Z -> (- 2 ^ 31 <= i < 2 ^ 31)%Z /\ (i <? 0)%Z = s /\ (i mod 2 ^ 31 = v)%Z).
  { intros s v B ->. destruct s; (split; [lia|]). - split; [apply Z.ltb_lt; lia|]. replace (v - 2 ^ 31)%Z with (v + (-1) * 2 ^ 31)%Z by ring. rewrite Z.mod_add by lia. apply Z.mod_small. lia. - split; [apply Z.ltb_ge; lia|apply Z.mod_small; lia]. }
  destruct a as [s|s| |s m e]; cbn [bits_of] in E; [| |discriminate|].
  - destruct (Sgn s 0%Z ltac:(lia) ltac:(congruence)) as (B & S & M). split; [exact B|]. unfold of_bits. rewrite S, M. reflexivity.
  - destruct (Sgn s 0x7f800000%Z ltac:(lia) ltac:(congruence)) as (B & S & M). split; [exact B|]. unfold of_bits. rewrite S, M. reflexivity.
  - unfold valid_binary, bounded in V. apply andb_prop in V. destruct V as [C X]. apply Zeq_bool_eq in C. apply Zle_bool_imp_le in X. unfold SpecFloat.fexp, SpecFloat.emin in C. rewrite Digits.Zpos_digits2_pos in C.
    pose proof (Digits.Zdigits_correct radix2 (Z.pos m)) as D. rewrite Z.abs_eq in D by lia. set (d := Digits.Zdigits radix2 (Z.pos m)) in *. change (radix_val radix2) with 2%Z in D.
    assert (D1 : (d <= 24)%Z) by lia. assert (D0 : (0 < d)%Z) by (apply Digits.Zdigits_gt_0; lia). assert (M : (Z.pos m < 2 ^ 24)%Z) by (eapply Z.lt_le_trans; [apply D|]; apply Z.pow_le_mono_r; lia).
    destruct (Z.ltb_spec (Z.pos m) (2 ^ 23)) as [S|S].
    + assert (e = -149)%Z. { assert (d <= 23)%Z; [|lia]. destruct (Z_le_gt_dec d 23) as [|G]; [assumption|exfalso]. assert (2 ^ 23 <= 2 ^ (d - 1))%Z by (apply Z.pow_le_mono_r; lia). lia. } subst e.
      destruct (Sgn s (Z.pos m) ltac:(lia) ltac:(congruence)) as (B & S' & M'). split; [exact B|]. unfold of_bits. rewrite S', M'. rewrite Z.div_small, Z.mod_small by lia. reflexivity.
    + assert (L : (-149 <= e)%Z) by lia. destruct (Sgn s ((e + 150) * 2 ^ 23 + (Z.pos m - 2 ^ 23))%Z ltac:(lia) ltac:(congruence)) as (B & S' & M'). split; [exact B|]. unfold of_bits. rewrite S', M'.
      rewrite Z.div_add_l by lia. rewrite (Z.add_comm ((e + 150) * 2 ^ 23)), Z.mod_add by lia. rewrite Z.div_small, Z.mod_small by lia.
      destruct (Z.eqb_spec (e + 150 + 0) 0) as [Q|_]; [lia|]. destruct (Z.eqb_spec (e + 150 + 0) 255) as [Q|_]; [lia|]. f_equal; [|lia]. replace (Z.pos m - 2 ^ 23 + 2 ^ 23)%Z with (Z.pos m) by lia. reflexivity.
Qed.

(** 4, 1/4 and 2: half, two and 0.7071 less their errors. *)
Example C100_four : is_single (S754_finite false 8388608 (-21)) 4 /\ bpow radix2 (-126) <= 4 /\ quake_rsqrt (S754_finite false 8388608 (-21)) = Some (S754_finite false 16777143 (-25)).
Proof. split; [split; [reflexivity|]; split; [reflexivity|]; unfold SF2R, F2R; cbn; lra|]. split; [apply Rle_trans with (bpow radix2 2); [apply bpow_le; lia|]; change (bpow radix2 2) with 4; lra|]. vm_compute. reflexivity. Qed.
Example C100_minus_tenth : is_single (S754_finite true 13421773 (-27)) (- 13421773 / 134217728) /\ quake_rsqrt (S754_finite true 13421773 (-27)) = None /\ quake_rsqrt (S754_finite true 8388608 (-23)) <> None.
Proof. split; [split; [reflexivity|]; split; [reflexivity|]; unfold SF2R, F2R; cbn; lra|]. vm_compute. split; [reflexivity|discriminate]. Qed.
Print Assumptions C100_quake_rsqrt.
Print Assumptions C100_bound_is_near.
Print Assumptions C100_subnormal_refuted.
Print Assumptions C100_zero_refuted.
Print Assumptions C100_infinity_refuted.
Print Assumptions C100_negative.
Print Assumptions C100_minus_zero_undefined.
Print Assumptions C100_bits.
