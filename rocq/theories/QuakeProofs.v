From Coq Require Import Reals SpecFloat Psatz Lra.
From Flocq Require Import Core BinarySingleNaN Relative.
From Verif Require Import Base Single SingleProofs.
Local Open Scope R_scope.

Lemma u_eq : u = / 16777216. Proof. reflexivity. Qed.
Lemma rnd_rel x : bpow radix2 (-126) <= Rabs x -> exists d, Rabs d <= u /\ rnd x = x * (1 + d).
Proof.
  intros H. destruct (relative_error_N_FLT_ex radix2 (-149) 24 eq_refl (fun z => negb (Z.even z)) x) as (d & D & E); [exact H|]. exists d. split; [|exact E].
  eapply Rle_trans; [exact D|]. right. rewrite u_eq. change (bpow radix2 (- (24) + 1)) with (/ 8388608). lra.
Qed.
Lemma half_real : is_single s_half (1 / 2).
Proof. repeat split. unfold s_half, SF2R, F2R. cbn [cond_Zopp Fnum Fexp]. change (bpow radix2 (-24)) with (/ 16777216). lra. Qed.
Lemma three_halfs_real : is_single three_halfs (3 / 2).
Proof. repeat split. unfold three_halfs, SF2R, F2R. cbn [cond_Zopp Fnum Fexp]. change (bpow radix2 (-23)) with (/ 8388608). lra. Qed.

(** ** The starting value *)
Lemma normal_parts a r : is_single a r -> bpow radix2 (-126) <= r -> exists m e, a = S754_finite false m e /\ (2 ^ 23 <= Z.pos m < 2 ^ 24)%Z /\ (-149 <= e <= 104)%Z /\ r = IZR (Z.pos m) * bpow radix2 e.
Proof.
  intros (V & F & E) L. pose proof (bpow_gt_0 radix2 (-126)) as P. destruct a as [s|s| |s m e]; try discriminate F; [cbn in E; lra|]. destruct s.
  - exfalso. cbn [SF2R] in E. unfold F2R in E. cbn [cond_Zopp Fnum Fexp] in E. rewrite opp_IZR in E. pose proof (bpow_gt_0 radix2 e). pose proof (IZR_lt 0 (Z.pos m) eq_refl). nra.
  - assert (ER : r = IZR (Z.pos m) * bpow radix2 e) by (symmetry; exact E). cbn [valid_binary] in V. unfold bounded, canonical_mantissa in V. apply andb_prop in V. destruct V as [V1 V2]. apply Zeq_bool_eq in V1. apply Zle_bool_imp_le in V2.
    unfold SpecFloat.fexp, SpecFloat.emin in V1. rewrite Digits.Zpos_digits2_pos in V1. pose proof (Digits.Zdigits_correct radix2 (Z.pos m)) as D. set (d := Digits.Zdigits radix2 (Z.pos m)) in *. change (Z.abs (Z.pos m)) with (Z.pos m) in D. change (radix_val radix2) with 2%Z in D.
    assert (D24 : (d <= 24)%Z) by lia. assert (U : (Z.pos m < 2 ^ 24)%Z) by (eapply Z.lt_le_trans; [apply D|]; apply Z.pow_le_mono_r; lia).
    exists m, e. repeat split; try lia; [|exact ER]. destruct (Z.eq_dec d 24) as [->|N]; [exact (proj1 D)|]. exfalso. assert (e = -149)%Z by lia. subst e. assert (M : (Z.pos m < 2 ^ 23)%Z) by (eapply Z.lt_le_trans; [apply D|]; apply Z.pow_le_mono_r; lia).
    apply IZR_lt in M. rewrite ER in L. change (-126)%Z with (23 + -149)%Z in L. rewrite bpow_plus in L. change (bpow radix2 23) with (IZR (2 ^ 23)) in L. pose proof (bpow_gt_0 radix2 (-149)). nra.
Qed.
Lemma of_bits_normal E M : (1 <= E <= 254)%Z -> (0 <= M < 2 ^ 23)%Z -> is_single (of_bits (E * 2 ^ 23 + M)) (IZR (M + 2 ^ 23) * bpow radix2 (E - 150)).
Proof.
  intros HE HM. set (j := (E * 2 ^ 23 + M)%Z). assert (J : (0 <= j < 2 ^ 31)%Z) by (unfold j; lia). unfold of_bits. destruct (Z.ltb_spec j 0) as [C|_]; [lia|]. rewrite (Z.mod_small j (2 ^ 31)) by lia.
  assert (Q : (j / 2 ^ 23 = E)%Z) by (unfold j; rewrite Z.div_add_l by lia; rewrite Z.div_small by lia; lia). assert (R' : (j mod 2 ^ 23 = M)%Z) by (unfold j; rewrite Z.add_comm, Z.mod_add by lia; apply Z.mod_small; lia). rewrite Q, R'.
  destruct (Z.eqb_spec E 0) as [C|_]; [lia|]. destruct (Z.eqb_spec E 255) as [C|_]; [lia|]. assert (MP : Z.pos (Z.to_pos (M + 2 ^ 23)) = (M + 2 ^ 23)%Z) by (apply Z2Pos.id; lia).
  split; [|split; [reflexivity|]].
  - cbn [valid_binary]. unfold bounded, canonical_mantissa. rewrite Digits.Zpos_digits2_pos, MP. assert (D : Digits.Zdigits radix2 (M + 2 ^ 23) = 24%Z). { apply Digits.Zdigits_unique. change (radix_val radix2) with 2%Z. rewrite Z.abs_eq by lia. change (2 ^ (24 - 1))%Z with (2 ^ 23)%Z. change (2 ^ 24)%Z with 16777216%Z. lia. }
    rewrite D. apply andb_true_intro. split; [|apply Zle_imp_le_bool; lia]. unfold SpecFloat.fexp, SpecFloat.emin. rewrite Z.max_l by lia. apply Zeq_is_eq_bool. lia.
  - unfold SF2R, F2R. cbn [cond_Zopp Fnum Fexp]. now rewrite MP.
Qed.
(** a cubic between two points is above the smaller end, and nowhere above its maximum *)
Lemma cubic_low A w w0 w1 L : w0 <= w <= w1 -> 0 <= 2 * w0 + (2 * (w0 + w1) - A) -> L <= (A - 2 * w0) * w0 * w0 -> L <= (A - 2 * w1) * w1 * w1 -> w0 < w1 -> L <= (A - 2 * w) * w * w.
Proof.
  intros B C L0 L1 W. set (g := fun x => (A - 2 * x) * x * x). set (beta := 2 * (w0 + w1) - A).
  assert (N : 0 <= (w - w0) * (w1 - w) * (2 * w + beta)) by (apply Rmult_le_pos; [apply Rmult_le_pos; lra|unfold beta; lra]).
  assert (E : (w1 - w0) * ((A - 2 * w) * w * w) = (w1 - w0) * ((w - w0) * (w1 - w) * (2 * w + beta)) + ((w1 - w) * ((A - 2 * w0) * w0 * w0) + (w - w0) * ((A - 2 * w1) * w1 * w1))) by (unfold beta; ring).
  apply Rmult_le_reg_l with (w1 - w0); [lra|]. rewrite E.
  assert ((w1 - w) * L <= (w1 - w) * ((A - 2 * w0) * w0 * w0)) by (apply Rmult_le_compat_l; lra). assert ((w - w0) * L <= (w - w0) * ((A - 2 * w1) * w1 * w1)) by (apply Rmult_le_compat_l; lra).
  assert (0 <= (w1 - w0) * ((w - w0) * (w1 - w) * (2 * w + beta))) by (apply Rmult_le_pos; lra). replace ((w1 - w0) * L) with ((w1 - w) * L + (w - w0) * L) by ring. lra.
Qed.
Lemma cubic_high A w : 0 <= w -> 0 <= A -> (A - 2 * w) * w * w <= A * A * A / 27.
Proof.
  intros W P. assert (E : A * A * A / 27 - (A - 2 * w) * w * w = (A / 3 - w) * (A / 3 - w) * (A / 3 + 2 * w)) by field.
  assert (0 <= (A / 3 - w) * (A / 3 - w) * (A / 3 + 2 * w)) by (apply Rmult_le_pos; [apply Rle_0_sqr|lra]). lra.
Qed.
Definition q0 : R := 0.9324.
Definition q1 : R := 1.0692.
Lemma magic a r : is_single a r -> bpow radix2 (-126) <= r -> exists i j y, bits_of a = Some i /\ (0x5f375a86 - Z.shiftr i 1 = j)%Z /\ (- 2 ^ 31 <= j < 2 ^ 31)%Z /\ is_single (of_bits j) y /\ 0 < y /\ q0 <= r * y * y <= q1.
Proof.
  intros H L. destruct (normal_parts a r H L) as (m & e & -> & M & E & ->). cbn [bits_of]. destruct (Z.ltb_spec (Z.pos m) (2 ^ 23)) as [C|_]; [lia|].
  set (i := ((e + 150) * 2 ^ 23 + (Z.pos m - 2 ^ 23))%Z). exists i. change (Z.shiftr i 1) with (i / 2)%Z || rewrite (Z.shiftr_div_pow2 i 1) by lia. change (2 ^ 1)%Z with 2%Z.
  assert (Hq : exists k c, (e + 150 = 2 * k + c)%Z /\ (c = 0 \/ c = 1)%Z /\ (0 <= k <= 127)%Z) by (exists ((e + 150) / 2)%Z, ((e + 150) mod 2)%Z; pose proof (Z.div_mod (e + 150) 2 ltac:(lia)); pose proof (Z.mod_pos_bound (e + 150) 2 ltac:(lia)); lia).
  assert (Hh : exists h b, (Z.pos m - 2 ^ 23 = 2 * h + b)%Z /\ (b = 0 \/ b = 1)%Z /\ (0 <= h < 2 ^ 22)%Z) by (exists ((Z.pos m - 2 ^ 23) / 2)%Z, ((Z.pos m - 2 ^ 23) mod 2)%Z; pose proof (Z.div_mod (Z.pos m - 2 ^ 23) 2 ltac:(lia)); pose proof (Z.mod_pos_bound (Z.pos m - 2 ^ 23) 2 ltac:(lia)); lia).
  destruct Hq as (k & c & Ek & Hc & Kb). destruct Hh as (h & b & Eh & Hb & Bh).
  assert (Em : Z.pos m = (2 ^ 23 + 2 * h + b)%Z) by lia. assert (Ee : e = (2 * k + c - 150)%Z) by lia.
  assert (I2 : (i / 2 = k * 2 ^ 23 + c * 2 ^ 22 + h)%Z) by (unfold i; rewrite Ek, Eh; symmetry; apply (Z.div_unique _ 2 _ b); lia). exists (0x5f375a86 - i / 2)%Z. rewrite I2.
  assert (Pw : forall W t, IZR (Z.pos m) * bpow radix2 e * (IZR W * bpow radix2 (t - k)) * (IZR W * bpow radix2 (t - k)) = IZR (Z.pos m) * IZR W * IZR W * bpow radix2 (c - 150 + 2 * t)).
  { intros W t. rewrite Ee. replace (c - 150 + 2 * t)%Z with (2 * k + c - 150 + (t - k) + (t - k))%Z by lia. rewrite !bpow_plus. ring. }
  assert (RB : 0 <= IZR b <= 1) by (destruct Hb as [-> | ->]; lra). assert (RH : 0 <= IZR h <= 4194303) by (split; [apply (IZR_le 0)|apply IZR_le]; lia). assert (RM : IZR (Z.pos m) = 8388608 + 2 * IZR h + IZR b) by (rewrite Em, !plus_IZR, mult_IZR; reflexivity).
  destruct Hc as [-> | ->]; [destruct (Z.le_gt_cases h 3627654) as [Ch|Ch]|].
  - assert (Ej : (0x5f375a86 - (k * 2 ^ 23 + 0 * 2 ^ 22 + h) = (190 - k) * 2 ^ 23 + (3627654 - h))%Z) by lia. rewrite Ej. set (W := (3627654 - h + 2 ^ 23)%Z). exists (IZR W * bpow radix2 (40 - k)). split; [reflexivity|]. split; [reflexivity|]. split; [lia|].
    split; [replace (40 - k)%Z with (190 - k - 150)%Z by lia; apply of_bits_normal; lia|]. assert (RW : IZR W = 12016262 - IZR h) by (unfold W; rewrite plus_IZR, minus_IZR; change (IZR (2 ^ 23)) with 8388608; ring). apply IZR_le in Ch. split; [apply Rmult_lt_0_compat; [lra|apply bpow_gt_0]|].
    rewrite Pw, RM. change (bpow radix2 (0 - 150 + 2 * 40)) with (/ 1180591620717411303424). set (w := IZR W) in *. replace (IZR h) with (12016262 - w) by lra. 
    pose proof (cubic_low 32421132 w 8388608 12016262 (q0 * 1180591620717411303424) ltac:(lra) ltac:(lra) ltac:(unfold q0; lra) ltac:(unfold q0; lra) ltac:(lra)) as Lo. pose proof (cubic_high 32421133 w ltac:(lra) ltac:(lra)) as Hi.
    assert (0 <= IZR b * (w * w) <= w * w) by (assert (0 <= w * w) by nra; nra). unfold q0, q1 in *. lra.
  - assert (Ej : (0x5f375a86 - (k * 2 ^ 23 + 0 * 2 ^ 22 + h) = (189 - k) * 2 ^ 23 + (2 ^ 23 + 3627654 - h))%Z) by lia. rewrite Ej. set (W := (2 ^ 23 + 3627654 - h + 2 ^ 23)%Z). exists (IZR W * bpow radix2 (39 - k)). split; [reflexivity|]. split; [reflexivity|]. split; [lia|].
    split; [replace (39 - k)%Z with (189 - k - 150)%Z by lia; apply of_bits_normal; lia|]. assert (RW : IZR W = 20404870 - IZR h) by (unfold W; rewrite plus_IZR, minus_IZR, plus_IZR; change (IZR (2 ^ 23)) with 8388608; ring). assert (Ch' : 3627655 <= IZR h) by (apply IZR_le; lia). split; [apply Rmult_lt_0_compat; [lra|apply bpow_gt_0]|].
    rewrite Pw, RM. change (bpow radix2 (0 - 150 + 2 * 39)) with (/ 4722366482869645213696). set (w := IZR W) in *. replace (IZR h) with (20404870 - w) by lra. 
    pose proof (cubic_low 49198348 w 16210567 16777215 (q0 * 4722366482869645213696) ltac:(lra) ltac:(lra) ltac:(unfold q0; lra) ltac:(unfold q0; lra) ltac:(lra)) as Lo. pose proof (cubic_high 49198349 w ltac:(lra) ltac:(lra)) as Hi.
    assert (0 <= IZR b * (w * w) <= w * w) by (assert (0 <= w * w) by nra; nra). unfold q0, q1 in *. lra.
  - assert (Ej : (0x5f375a86 - (k * 2 ^ 23 + 1 * 2 ^ 22 + h) = (189 - k) * 2 ^ 23 + (2 ^ 22 + 3627654 - h))%Z) by lia. rewrite Ej. set (W := (2 ^ 22 + 3627654 - h + 2 ^ 23)%Z). exists (IZR W * bpow radix2 (39 - k)). split; [reflexivity|]. split; [reflexivity|]. split; [lia|].
    split; [replace (39 - k)%Z with (189 - k - 150)%Z by lia; apply of_bits_normal; lia|]. assert (RW : IZR W = 16210566 - IZR h) by (unfold W; rewrite plus_IZR, minus_IZR, plus_IZR; change (IZR (2 ^ 23)) with 8388608; change (IZR (2 ^ 22)) with 4194304; ring). split; [apply Rmult_lt_0_compat; [lra|apply bpow_gt_0]|].
    rewrite Pw, RM. change (bpow radix2 (1 - 150 + 2 * 39)) with (/ 2361183241434822606848). set (w := IZR W) in *. replace (IZR h) with (16210566 - w) by lra. 
    pose proof (cubic_low 40809740 w 12016263 16210566 (q0 * 2361183241434822606848) ltac:(lra) ltac:(lra) ltac:(unfold q0; lra) ltac:(unfold q0; lra) ltac:(lra)) as Lo. pose proof (cubic_high 40809741 w ltac:(lra) ltac:(lra)) as Hi.
    assert (0 <= IZR b * (w * w) <= w * w) by (assert (0 <= w * w) by nra; nra). unfold q0, q1 in *. lra.
Qed.

(** ** One step *)
Lemma small_ok x : Rabs x <= bpow radix2 100 -> small (rnd x).
Proof. apply small_bound. lia. Qed.
Lemma rel_pos x d y : 0 < x -> Rabs d <= u -> y = x * (1 + d) -> x * (1 - u) <= y <= x * (1 + u).
Proof. intros P D ->. apply Rabs_le_inv in D. split; apply Rmult_le_compat_l; lra. Qed.
Lemma b66 : bpow radix2 (-66) = / 73786976294838206464. Proof. reflexivity. Qed.
Lemma up100 x : 0 < x -> x <= bpow radix2 66 -> small (rnd x).
Proof. intros P H. apply small_ok. rewrite Rabs_right by lra. eapply Rle_trans; [exact H|]. apply bpow_le. lia. Qed.
Lemma low126 x : bpow radix2 (-66) <= x -> bpow radix2 (-126) <= Rabs x.
Proof. intros H. assert (bpow radix2 (-126) <= bpow radix2 (-66)) by (apply bpow_le; lia). pose proof (bpow_gt_0 radix2 (-126)). rewrite Rabs_right; lra. Qed.
(** numbers whose square is within bounds *)
Lemma sq_low x b : 0 <= x -> b * b <= x * x -> b <= x.
Proof. intros P H. destruct (Rle_or_lt b x); [assumption|]. nra. Qed.
Lemma prod_err a b A B : Rabs a <= A -> Rabs b <= B -> Rabs ((1 + a) * (1 + b) - 1) <= A + B + A * B.
Proof.
  intros HA HB. replace ((1 + a) * (1 + b) - 1) with (a + b + a * b) by ring. eapply Rle_trans; [apply Rabs_triang|]. apply Rplus_le_compat.
  - eapply Rle_trans; [apply Rabs_triang|]. lra.
  - rewrite Rabs_mult. apply Rmult_le_compat; try apply Rabs_pos; assumption.
Qed.
Lemma newton_step x2 t X y r d0 : is_single x2 X -> is_single t y -> 0 < y -> bpow radix2 (-126) <= r < bpow radix2 128 -> X = r / 2 * (1 + d0) -> Rabs d0 <= 3 * u -> 0.93 <= r * y * y <= 1.07 ->
  exists y' eta del, is_single (newton x2 t) y' /\ 0 < y' /\ Rabs eta <= 5.01 * u /\ Rabs del <= 2.01 * u /\ y' = y * (3 / 2 - r * y * y / 2 * (1 + eta)) * (1 + del).
Proof.
  intros HX Ht Py Br EX D0 Q. rewrite u_eq in D0. apply Rabs_le_inv in D0. assert (Pr : 0 < r) by (pose proof (bpow_gt_0 radix2 (-126)); lra).
  assert (B128 : bpow radix2 128 = bpow radix2 64 * bpow radix2 64) by (rewrite <- bpow_plus; reflexivity). assert (B126 : bpow radix2 (-126) = bpow radix2 (-63) * bpow radix2 (-63)) by (rewrite <- bpow_plus; reflexivity).
  set (Q' := r * y * y) in *. set (U := bpow radix2 64) in *. set (V := bpow radix2 (-63)) in *. assert (PU : 0 < U) by apply bpow_gt_0. assert (PV : 0 < V) by apply bpow_gt_0.
  assert (UV : U * V = 2) by (unfold U, V; rewrite <- bpow_plus; reflexivity).
  (* y is between 2^-65 and 2^65 *)
  assert (Y1 : 1 <= 2 * U * y). { apply sq_low; [nra|]. assert (r * y * y <= U * U * (y * y)). { replace (r * y * y) with (r * (y * y)) by ring. apply Rmult_le_compat_r; nra. } unfold Q' in Q. nra. }
  assert (Y2 : V * y <= 2). { destruct (Rle_or_lt (V * y) 2) as [K|K]; [exact K|]. exfalso. assert (V * V * (y * y) <= r * y * y). { replace (r * y * y) with (r * (y * y)) by ring. apply Rmult_le_compat_r; nra. } assert (4 < (V * y) * (V * y)) by nra. unfold Q' in Q. nra. }
  assert (Y3 : y <= U). { replace y with (V * y * (U / 2)) by (field_simplify; nra). nra. }
  assert (PX : 0 < X) by (rewrite EX; apply Rmult_lt_0_compat; lra).
  (* the first product *)
  assert (XY : 0 < X * y) by (apply Rmult_lt_0_compat; assumption). assert (XYY : X * y * y = Q' / 2 * (1 + d0)) by (rewrite EX; unfold Q'; field).
  assert (XYYb : 0.46 <= X * y * y <= 0.54) by (rewrite XYY; nra).
  assert (Z1 : bpow radix2 (-66) <= X * y). { assert (E : bpow radix2 (-66) = V / 8) by (unfold V; rewrite b66; change (bpow radix2 (-63)) with (/ 9223372036854775808); lra). rewrite E. assert (V * y * (V / 8) <= X * y * (V * y)) by nra. nra. }
  assert (Z2 : X * y <= bpow radix2 66). { change (bpow radix2 66) with (bpow radix2 (2 + 64)). rewrite bpow_plus. fold U. change (bpow radix2 2) with 4. assert (X * y * 1 <= X * y * (2 * U * y)) by (apply Rmult_le_compat_l; lra). nra. }
  destruct (rnd_rel (X * y) (low126 _ Z1)) as (d1 & D1 & E1). pose proof (smul_real _ _ _ _ HX Ht (up100 _ XY Z2)) as H1. rewrite E1 in H1. rewrite u_eq in D1. pose proof (Rabs_le_inv _ _ D1) as D1'.
  (* the second *)
  assert (P2 : X * y * (1 + d1) * y = Q' / 2 * (1 + d0) * (1 + d1)) by (replace (X * y * (1 + d1) * y) with (X * y * y * (1 + d1)) by ring; rewrite XYY; ring).
  assert (P2b : 0.45 <= X * y * (1 + d1) * y <= 0.55) by (replace (X * y * (1 + d1) * y) with (X * y * y * (1 + d1)) by ring; nra).
  destruct (rnd_rel (X * y * (1 + d1) * y)) as (d2 & D2 & E2); [apply low126; rewrite b66; lra|]. assert (S2 : small (rnd (X * y * (1 + d1) * y))) by (apply up100; [lra|]; change (bpow radix2 66) with 73786976294838206464; lra).
  pose proof (smul_real _ _ _ _ H1 Ht S2) as H2. rewrite E2 in H2. rewrite u_eq in D2. pose proof (Rabs_le_inv _ _ D2) as D2'.
  set (p2 := X * y * (1 + d1) * y * (1 + d2)) in *. assert (p2b : 0.44 <= p2 <= 0.56) by (unfold p2; nra).
  (* the difference *)
  destruct (rnd_rel (3 / 2 - p2)) as (d3 & D3 & E3); [apply low126; rewrite b66; lra|]. assert (S3 : small (rnd (3 / 2 - p2))) by (apply up100; [lra|]; change (bpow radix2 66) with 73786976294838206464; lra).
  pose proof (ssub_real _ _ _ _ three_halfs_real H2 S3) as H3. rewrite E3 in H3. rewrite u_eq in D3. pose proof (Rabs_le_inv _ _ D3) as D3'. set (f := (3 / 2 - p2) * (1 + d3)) in *. assert (fb : 0.9 <= f <= 1.1) by (unfold f; nra).
  (* the last product *)
  assert (Yf : 0 < y * f) by (apply Rmult_lt_0_compat; lra). assert (L4 : bpow radix2 (-66) <= y * f). { assert (E : bpow radix2 (-66) * U = / 4) by (unfold U; rewrite <- bpow_plus; reflexivity). assert (bpow radix2 (-66) * U <= y * f * U) by nra. nra. }
  assert (U4 : y * f <= bpow radix2 66). { change (bpow radix2 66) with (bpow radix2 (2 + 64)). rewrite bpow_plus. fold U. change (bpow radix2 2) with 4. nra. }
  destruct (rnd_rel (y * f) (low126 _ L4)) as (d4 & D4 & E4). pose proof (smul_real _ _ _ _ Ht H3 (up100 _ Yf U4)) as H4. rewrite E4 in H4. rewrite u_eq in D4. pose proof (Rabs_le_inv _ _ D4) as D4'.
  exists (y * f * (1 + d4)), ((1 + d0) * (1 + d1) * (1 + d2) - 1), ((1 + d3) * (1 + d4) - 1). split; [exact H4|]. split; [apply Rmult_lt_0_compat; lra|].
  split; [|split].
  - rewrite u_eq. assert (A0 : Rabs d0 <= 3 * / 16777216) by (apply Rabs_le; lra). pose proof (prod_err d0 d1 _ _ A0 D1) as A1. set (g := (1 + d0) * (1 + d1) - 1) in *. pose proof (prod_err g d2 _ _ A1 D2) as A2.
    replace ((1 + d0) * (1 + d1) * (1 + d2) - 1) with ((1 + g) * (1 + d2) - 1) by (unfold g; ring). lra.
  - rewrite u_eq. pose proof (prod_err d3 d4 _ _ D3 D4). lra.
  - unfold f, p2. replace (X * y * (1 + d1) * y * (1 + d2)) with (X * y * y * (1 + d1) * (1 + d2)) by ring. rewrite XYY. ring.
Qed.
(** what a step does to [q = r * y * y] *)
Lemma step_q r y y' eta del : y' = y * (3 / 2 - r * y * y / 2 * (1 + eta)) * (1 + del) -> r * y' * y' = r * y * y * (3 / 2 - r * y * y / 2 * (1 + eta)) * (3 / 2 - r * y * y / 2 * (1 + eta)) * (1 + del) * (1 + del).
Proof. intros ->. ring. Qed.
Lemma step_bound q eta del : 0.93 <= q <= 1.07 -> Rabs eta <= 5.01 * u -> Rabs del <= 2.01 * u ->
  let q' := q * (3 / 2 - q / 2 * (1 + eta)) * (3 / 2 - q / 2 * (1 + eta)) * (1 + del) * (1 + del) in
  1 - (1 - q) * (1 - q) * (4 - q) / 4 - 11 * u <= q' <= 1 + 11 * u.
Proof.
  intros Q E D. rewrite u_eq in *. set (k := / 16777216) in *. assert (K : 0 < k < / 10000000) by (unfold k; lra). clearbody k. apply Rabs_le_inv in E. apply Rabs_le_inv in D. cbv zeta.
  set (s0 := 3 / 2 - q / 2). assert (S0 : 0.965 <= s0 <= 1.035) by (unfold s0; lra). set (e := q / 2 * eta). assert (Eb : - (2.69 * k) <= e <= 2.69 * k) by (unfold e; split; nra).
  replace (3 / 2 - q / 2 * (1 + eta)) with (s0 - e) by (unfold s0, e; ring). assert (F0 : q * s0 * s0 = 1 - (1 - q) * (1 - q) * (4 - q) / 4) by (unfold s0; field).
  assert (F1 : q * s0 * s0 <= 1) by (rewrite F0; assert (0 <= (1 - q) * (1 - q)) by apply Rle_0_sqr; nra). assert (F2 : 0.9 <= q * s0 * s0) by (rewrite F0; nra). rewrite <- F0.
  set (w := q * s0 * s0) in *. assert (W : q * (s0 - e) * (s0 - e) = w - 2 * (q * s0) * e + q * (e * e)) by (unfold w; ring). assert (QS : 0.89 <= q * s0 <= 1.09). { split; [unfold s0; nra|unfold s0; nra]. }
  rewrite W. assert (G : - (6 * k) <= - 2 * (q * s0) * e + q * (e * e) <= 6 * k). { set (x := q * s0) in *. clearbody x. assert (0 <= e * e <= / 1000000 * k). { split; [apply Rle_0_sqr|]. assert (Rabs e <= 2.69 * k) by (apply Rabs_le; lra). assert (e * e = Rabs e * Rabs e) as -> by (rewrite <- Rabs_mult; symmetry; apply Rabs_right, Rle_ge, Rle_0_sqr). pose proof (Rabs_pos e). nra. }
    assert (- (5.9 * k) <= 2 * x * e <= 5.9 * k) by (split; nra). assert (0 <= q * (e * e) <= 2 * (e * e)) by (split; nra). lra. }
  set (g := - 2 * (q * s0) * e + q * (e * e)) in *. replace (w - 2 * (q * s0) * e + q * (e * e)) with (w + g) by (unfold g; ring). clearbody g w. clear - F1 F2 G D K.
  assert (H : 1 - 4.03 * k <= (1 + del) * (1 + del) <= 1 + 4.03 * k). { assert (Rabs del <= 2.01 * k) as D' by (apply Rabs_le; lra). pose proof (prod_err _ _ _ _ D' D') as Z. apply Rabs_le_inv in Z. nra. } replace ((w + g) * (1 + del) * (1 + del)) with ((w + g) * ((1 + del) * (1 + del))) by ring. set (h := (1 + del) * (1 + del)) in *. clearbody h. assert (0.8 <= w + g <= 1.1) by lra. assert (- (4.5 * k) <= (w + g) * (h - 1) <= (1 + 6 * k) * (4.03 * k)) by (split; nra). assert (6 * k * (4.03 * k) <= / 10 * k) by nra. assert (- (4.1 * k) <= (w + g) * (h - 1)) by nra. lra.
Qed.
