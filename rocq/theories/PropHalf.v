(** C65: half precision numbers. *)
From Verif Require Import Base Half HalfSpec HalfProofs HalfProofs2.

Definition is_short (h : Z) : Prop := - 2^15 <= h < 2^15.
(** Widening is exact, and keeps the sign, infinities and NaNs. *)
Theorem C65_widening_exact (h v : Z) : is_short h -> half_to_float h = Some v ->
  fsign 23 8 v = fsign 10 5 h /\
  (half_finite h -> single_finite v /\ single_value v = half_value h) /\
  (half_inf h -> fexp 23 8 v = 255 /\ ffrac 23 v = 0) /\ (half_nan h -> single_nan v).
Proof.
  intros _ E. destruct (widening h) as (v' & E' & _ & A & B & C & D). replace v' with v in * by congruence. split; [easy|]. split; [easy|]. split; [easy|].
  intros H. destruct (D H) as (D1 & D2). split; [easy|]. rewrite D2. destruct H as (_ & H). change (2^13) with 8192. lia.
Qed.

Lemma to_half_short x : is_short (to_half x).
Proof. unfold to_half, sx, is_short. change (2^16) with 65536. change (2^(16-1)) with 32768. change (2^15) with 32768. pose proof (Z.mod_pos_bound x 65536 ltac:(easy)). destruct (Z.ltb_spec (x mod 65536) 32768); lia. Qed.
Lemma float_to_half_short v : is_short (float_to_half v).
Proof.
  unfold float_to_half. repeat match goal with
  | |- is_short (let '(_, _) := ?p in _) => destruct p
  | |- is_short (if ?b then _ else _) => destruct b
  | |- is_short (to_half _) => apply to_half_short
  | |- _ => progress cbv zeta end.
Qed.
Lemma value_of v : in_u32 v -> single_value v = signed 23 8 v (xmag (fexp 23 8 v) (ffrac 23 v)).
Proof. reflexivity. Qed.
Lemma half_val h S n : 0 <= n < 32768 -> S = 0 \/ S = 1 -> h mod 65536 = S * 32768 + n ->
  half_value h = (if S =? 1 then - hm n else hm n) * 2^125.
Proof.
  intros Hn HS E. unfold half_value, signed. rewrite (mag_hm h S n Hn HS E). destruct (half_fields h S n Hn HS E) as (-> & _). reflexivity.
Qed.
Lemma small_exp v : in_u32 v -> single_finite v -> Z.abs (single_value v) < overflow_at -> fexp 23 8 v <= 142.
Proof.
  intros Hv Fv B. destruct (single_parts v Hv) as (_ & HS & HE & HM). unfold single_value, signed, mag in B.
  destruct (Z_le_dec (fexp 23 8 v) 142) as [L|L]; [easy|]. exfalso.
  destruct (Z.eqb_spec (fexp 23 8 v) 0); [lia|].
  assert (P : 2^142 <= 2^(fexp 23 8 v - 1)) by (apply Z.pow_le_mono_r; lia). unfold overflow_at in B.
  assert (T : (2^23 + ffrac 23 v) * 2^(fexp 23 8 v - 1) >= 2^23 * 2^142) by nia.
  change (2^23 * 2^142) with (65536 * 2^149) in T. destruct (fsign 23 8 v =? 1); lia.
Qed.

(** Narrowing a finite single below 65520 in magnitude gives a nearest half; of two equally
    near ones, the one greater in magnitude; the sign is kept, also of zero. *)
Theorem C65_nearest (v : Z) : in_u32 v -> single_finite v -> Z.abs (single_value v) < overflow_at ->
  let h := float_to_half v in
  is_short h /\ fsign 10 5 h = fsign 23 8 v /\ nearest (single_value v) h /\
  (forall h', half_finite h' -> Z.abs (half_value h - single_value v) = Z.abs (half_value h' - single_value v) ->
     half_value h' = half_value h \/ Z.abs (half_value h') < Z.abs (half_value h)).
Proof.
  intros Hv Fv B. cbn zeta. pose proof (small_exp v Hv Fv B) as HE.
  destruct (single_parts v Hv) as (Ev & HS & HE' & HM). set (S := fsign 23 8 v) in *. set (E := fexp 23 8 v) in *. set (M := ffrac 23 v) in *.
  destruct (float_to_half_idx v S E M HS ltac:(lia) HM Ev) as [Eh Rn].
  destruct (hidx_between E M ltac:(lia) HM) as (q & Hq & Bt & Ei).
  assert (Ex : single_value v = if S =? 1 then - xmag E M else xmag E M) by reflexivity.
  rewrite Ex in *. set (x := xmag E M) in *. set (n := hidx E M) in *.
  assert (Nn : n <= 31743).
  { destruct (Z.leb_spec (hm (q + 1) * 2^125 - x) (x - hm q * 2^125)) as [L|L]; [|lia].
    destruct (Z.eq_dec q 31743) as [->|]; [|lia]. exfalso.
    assert (A : hm (31743 + 1) * 2^125 = 65536 * 2^149) by reflexivity. assert (A2 : hm 31743 * 2^125 = 65504 * 2^149) by reflexivity. rewrite A, A2 in L.
    unfold overflow_at in B. change (2^149) with (2 * 2^148) in *. destruct (S =? 1); lia. }
  assert (X0 : 0 <= x) by (pose proof (hm_nonneg q ltac:(lia)); lia).
  assert (Hm16 : (float_to_half v) mod 65536 = S * 32768 + n).
  { rewrite Eh, to_half_mod. apply Z.mod_small. lia. }
  destruct (half_fields (float_to_half v) S n ltac:(lia) HS Hm16) as (Fs & Fe & _).
  assert (Fh : half_finite (float_to_half v)).
  { unfold half_finite. rewrite Fe. assert (n / 1024 < 31) by (apply Z.div_lt_upper_bound; lia). lia. }
  pose proof (half_val (float_to_half v) S n ltac:(lia) HS Hm16) as Hval.
  (* comparison of magnitudes *)
  assert (Key : forall n', 0 <= n' <= 31743 -> Z.abs (hm n * 2^125 - x) <= Z.abs (hm n' * 2^125 - x) /\
     (Z.abs (hm n * 2^125 - x) = Z.abs (hm n' * 2^125 - x) -> hm n' <= hm n)).
  { intros n' Hn'. assert (P : 0 < 2^125) by easy.
    destruct (Z_le_dec n' q) as [Lq|Lq].
    - pose proof (hm_mono n' q ltac:(lia) ltac:(lia)) as M1.
      assert (M2 : hm n' * 2^125 <= hm q * 2^125) by nia.
      destruct (Z.leb_spec (hm (q + 1) * 2^125 - x) (x - hm q * 2^125)) as [L|L]; rewrite Ei; split; intros; try lia.
    - pose proof (hm_mono (q + 1) n' ltac:(lia) ltac:(lia)) as M1.
      assert (M2 : hm (q + 1) * 2^125 <= hm n' * 2^125) by nia.
      destruct (Z.leb_spec (hm (q + 1) * 2^125 - x) (x - hm q * 2^125)) as [L|L]; rewrite Ei; split; intros; try lia. }
  assert (Any : forall h', half_finite h' -> exists S' n', (S' = 0 \/ S' = 1) /\ 0 <= n' <= 31743 /\ half_value h' = (if S' =? 1 then - hm n' else hm n') * 2^125).
  { intros h' F'. destruct (half_any h') as (S' & n' & HS' & Hn' & E'). exists S', n'. split; [exact HS'|].
    destruct (half_fields h' S' n' Hn' HS' E') as (_ & Fe' & _). unfold half_finite in F'. rewrite Fe' in F'.
    split; [|now apply half_val].
    assert (n' / 1024 < 32) by (apply Z.div_lt_upper_bound; lia). pose proof (Z.div_mod n' 1024 ltac:(easy)). pose proof (Z.mod_pos_bound n' 1024 ltac:(easy)). lia. }
  pose proof (hm_nonneg n ltac:(lia)) as H0n. assert (P : 0 < 2^125) by easy.
  refine (conj _ (conj Fs (conj (conj Fh _) _))).
  - rewrite Eh. unfold to_half, sx, is_short. change (2^16) with 65536. change (2^(16-1)) with 32768. change (2^15) with 32768.
    rewrite (Z.mod_small (S * 32768 + n)) by lia. destruct (Z.ltb_spec (S * 32768 + n) 32768); lia.
  - intros h' F'. destruct (Any h' F') as (S' & n' & HS' & Hn' & ->). rewrite Hval.
    destruct (Key n' Hn') as [K _]. destruct (Key 0 ltac:(lia)) as [K0 _]. change (hm 0) with 0 in K0.
    pose proof (hm_nonneg n' ltac:(lia)) as H0n'. assert (0 <= hm n' * 2^125) by nia. assert (0 <= hm n * 2^125) by nia.
    destruct HS as [-> | ->], HS' as [-> | ->]; cbn [Z.eqb Pos.eqb]; rewrite ?Z.mul_opp_l; lia.
  - intros h' F'. destruct (Any h' F') as (S' & n' & HS' & Hn' & ->). rewrite Hval.
    destruct (Key n' Hn') as [K K2]. destruct (Key 0 ltac:(lia)) as [K0 _]. change (hm 0) with 0 in K0.
    pose proof (hm_nonneg n' ltac:(lia)) as H0n'. assert (A1 : 0 <= hm n' * 2^125) by nia. assert (A2 : 0 <= hm n * 2^125) by nia.
    assert (K3 : hm n' <= hm n -> hm n' * 2^125 <= hm n * 2^125) by nia.
    destruct HS as [-> | ->], HS' as [-> | ->]; cbn [Z.eqb Pos.eqb]; rewrite ?Z.mul_opp_l; intros T.
    + specialize (K3 (K2 T)). lia.
    + destruct (Z.eq_dec (hm n' * 2^125) 0) as [Z0|Z0]; [rewrite Z0 in *; specialize (K3 (K2 ltac:(lia))); lia|]. lia.
    + destruct (Z.eq_dec (hm n' * 2^125) 0) as [Z0|Z0]; [rewrite Z0 in *; specialize (K3 (K2 ltac:(lia))); lia|]. lia.
    + specialize (K3 (K2 ltac:(lia))). lia.
Qed.

(** From 65520 on (and for infinities) the result is the infinity of the same sign, and NaN
    stays NaN. *)
Theorem C65_overflow (v : Z) : in_u32 v ->
  (single_finite v /\ overflow_at <= Z.abs (single_value v)) \/ (fexp 23 8 v = 255 /\ ffrac 23 v = 0) ->
  half_inf (float_to_half v) /\ fsign 10 5 (float_to_half v) = fsign 23 8 v.
Proof.
  intros Hv H. destruct (single_parts v Hv) as (Ev & HS & HE' & HM). set (S := fsign 23 8 v) in *. set (E := fexp 23 8 v) in *. set (M := ffrac 23 v) in *.
  enough (G : float_to_half v mod 65536 = S * 32768 + 31744).
  { destruct (half_fields (float_to_half v) S 31744 ltac:(lia) HS G) as (F1 & F2 & F3). split; [split; [exact F2|exact F3]|exact F1]. }
  destruct (Z_le_dec E 142) as [L|L].
  - destruct (float_to_half_idx v S E M HS ltac:(lia) HM Ev) as [Eh Rn].
    destruct (hidx_between E M ltac:(lia) HM) as (q & Hq & Bt & Ei). rewrite Eh, to_half_mod, Z.mod_small by lia. f_equal.
    destruct H as [[_ H]|[H _]]; [|lia]. assert (Ex : single_value v = if S =? 1 then - xmag E M else xmag E M) by reflexivity. rewrite Ex in H.
    set (x := xmag E M) in *. pose proof (hm_nonneg q ltac:(lia)) as H0.
    assert (H' : overflow_at <= x) by (destruct (S =? 1); lia).
    assert (q = 31743).
    { destruct (Z.eq_dec q 31743) as [|Nq]; [easy|]. exfalso. pose proof (hm_mono (q + 1) 31743 ltac:(lia) ltac:(lia)) as Mo.
      assert (hm (q + 1) * 2^125 <= 65504 * 2^149) by (change (65504 * 2^149) with (hm 31743 * 2^125); assert (0 < 2^125) by easy; nia).
      unfold overflow_at in H'. lia. }
    subst q. rewrite Ei. assert (A : hm (31743 + 1) * 2^125 = 65536 * 2^149) by reflexivity. assert (A2 : hm 31743 * 2^125 = 65504 * 2^149) by reflexivity. rewrite A, A2.
    unfold overflow_at in H'. destruct (Z.leb_spec (65536 * 2^149 - x) (x - 65504 * 2^149)); [easy|lia].
  - destruct (i32_fields S E M HS ltac:(lia) HM) as (F1 & F2 & F3). rewrite <- Ev in F1, F2, F3. unfold float_to_half. rewrite F1, F2, F3.
    destruct (Z.leb_spec (E - (127 - 15)) 0); [lia|].
    assert (R : to_half (Z.lor (S * 32768) 0x7c00) mod 65536 = S * 32768 + 31744).
    { rewrite to_half_mod. destruct HS as [-> | ->]; reflexivity. }
    destruct (Z.eqb_spec (E - (127 - 15)) (0xff - (127 - 15))).
    + assert (M = 0) as -> by (destruct H as [[H _]|[_ H]]; [unfold single_finite in H; fold E in H; lia|exact H]). exact R.
    + set (me := if Z.land M 0x1000 =? 0 then (M, E - (127 - 15)) else _).
      assert (Hme : 31 <= snd me).
      { subst me. destruct (Z.land M 0x1000 =? 0); cbn [snd]; [lia|]. destruct (_ =? 0); cbn [snd]; lia. }
      destruct me as [m1 e1]. cbn [snd] in Hme. destruct (Z.ltb_spec 30 e1); [|lia]. exact R.
Qed.
Theorem C65_nan (v : Z) : in_u32 v -> single_nan v -> half_nan (float_to_half v) /\ fsign 10 5 (float_to_half v) = fsign 23 8 v.
Proof.
  intros Hv [He Hf]. destruct (single_parts v Hv) as (Ev & HS & HE' & HM). set (S := fsign 23 8 v) in *. set (E := fexp 23 8 v) in *. set (M := ffrac 23 v) in *.
  destruct (i32_fields S E M HS ltac:(lia) HM) as (F1 & F2 & F3). rewrite <- Ev in F1, F2, F3.
  assert (G : exists k, 1 <= k < 1024 /\ float_to_half v mod 65536 = S * 32768 + (31744 + k)).
  { unfold float_to_half. rewrite F1, F2, F3, He. change (255 - (127 - 15) <=? 0) with false. change (255 - (127 - 15) =? 0xff - (127 - 15)) with true. cbv iota.
    destruct (Z.eqb_spec M 0) as [X|_]; [contradiction|]. rewrite (Z.shiftr_div_pow2 M 13) by lia. change (2^13) with 8192.
    assert (B : 0 <= M / 8192 < 1024) by (split; [apply Z.div_pos; lia|apply Z.div_lt_upper_bound; [lia|]; change (2^23) with 8388608 in HM; lia]).
    set (m := M / 8192) in *. exists (if m =? 0 then 1 else m). split; [destruct (Z.eqb_spec m 0); lia|].
    rewrite to_half_mod. rewrite <- !Z.lor_assoc.
    assert (E1 : Z.lor m (if m =? 0 then 1 else 0) = if m =? 0 then 1 else m).
    { destruct (Z.eqb_spec m 0) as [->|]; [reflexivity|apply Z.lor_0_r]. }
    rewrite E1. set (k := if m =? 0 then 1 else m). assert (Hk : 1 <= k < 1024) by (subst k; destruct (Z.eqb_spec m 0); lia).
    change 0x7c00 with 31744. rewrite (lor_plus 31744 k 10) by (try reflexivity; change (2^10) with 1024; lia).
    rewrite (lor_plus (S * 32768) _ 15) by (change (2^15) with 32768; try lia; apply Z_mod_mult).
    apply Z.mod_small. lia. }
  destruct G as (k & Hk & G). destruct (half_fields (float_to_half v) S (31744 + k) ltac:(lia) HS G) as (A1 & A2 & A3).
  split; [|exact A1]. split; [rewrite A2; replace (31744 + k) with (k + 31 * 1024) by lia; rewrite Z.div_add, Z.div_small by lia; reflexivity|].
  rewrite A3. replace (31744 + k) with (k + 31 * 1024) by lia. rewrite Z_mod_plus_full, Z.mod_small by lia. lia.
Qed.

(** Every half survives widening to single and narrowing back, NaN payloads included. *)
Theorem C65_round_trip (h : Z) : is_short h -> exists v, half_to_float h = Some v /\ in_u32 v /\ float_to_half v = h.
Proof.
  intros H. destruct (widening h) as (v & E & Hv & A & B & C & D). exists v. split; [easy|]. split; [easy|].
  assert (Same : forall g, is_short g -> g mod 65536 = h mod 65536 -> g = h).
  { intros g [G1 G2] M. destruct H as [H1 H2]. change (2^15) with 32768 in *. pose proof (Z.div_mod g 65536 ltac:(discriminate)). pose proof (Z.div_mod h 65536 ltac:(discriminate)). pose proof (Z.mod_pos_bound h 65536 ltac:(reflexivity)).
    lia. }
  apply Same; [apply float_to_half_short|]. destruct (half_any h) as (S & n & HS & Hn & Eh). destruct (half_fields h S n Hn HS Eh) as (F1 & F2 & F3). rewrite Eh.
  destruct (Z.eq_dec (fexp 10 5 h) 31) as [X|X]; [destruct (Z.eq_dec (ffrac 10 h) 0) as [Y|Y]|].
  - destruct (C (conj X Y)) as (C1 & C2). destruct (C65_overflow v Hv (or_intror (conj C1 C2))) as ((I1 & I2) & I3).
    destruct (half_any (float_to_half v)) as (S' & n' & HS' & Hn' & E'). destruct (half_fields _ S' n' Hn' HS' E') as (G1 & G2 & G3). rewrite E'.
    pose proof (Z.div_mod n 1024 ltac:(discriminate)). pose proof (Z.div_mod n' 1024 ltac:(discriminate)). lia.
  - destruct (D (conj X Y)) as (D1 & D2). destruct (single_parts v Hv) as (Ev & HS1 & HE1 & HM1). destruct (i32_fields _ _ _ HS1 HE1 HM1) as (I1 & I2 & I3). rewrite <- Ev in I1, I2, I3.
    unfold float_to_half. rewrite I1, I2, I3, D1, D2, A, F1. change (255 - (127 - 15) <=? 0) with false. change (255 - (127 - 15) =? 0xff - (127 - 15)) with true. cbv iota.
    set (m := ffrac 10 h) in *. assert (Bm : 0 < m < 1024) by (pose proof (Z.mod_pos_bound n 1024 ltac:(reflexivity)); lia).
    destruct (Z.eqb_spec (m * 2^13) 0) as [Q|_]; [change (2^13) with 8192 in Q; lia|]. assert (Sh : Z.shiftr (m * 2^13) 13 = m) by (rewrite Z.shiftr_div_pow2 by lia; apply Z.div_mul; discriminate). rewrite Sh. destruct (Z.eqb_spec m 0) as [Q|_]; [lia|].
    rewrite to_half_mod, Z.lor_0_r, <- Z.lor_assoc. change 0x7c00 with 31744. rewrite (lor_plus 31744 m 10) by (try reflexivity; change (2^10) with 1024; lia).
    rewrite (lor_plus (S * 32768) _ 15) by (change (2^15) with 32768; try lia; apply Z_mod_mult). rewrite Z.mod_small by lia. pose proof (Z.div_mod n 1024 ltac:(discriminate)) as Dn. assert (Q1 : n / 1024 = 31) by congruence. assert (Q2 : n mod 1024 = m) by congruence. rewrite Q1, Q2 in Dn. clear - Dn. lia.
  - destruct (B X) as (B1 & B2).
    assert (Sm : Z.abs (single_value v) < overflow_at).
    { rewrite B2, (half_val h S n Hn HS Eh). assert (n / 1024 < 32) by (apply Z.div_lt_upper_bound; lia). pose proof (Z.div_mod n 1024 ltac:(discriminate)). pose proof (Z.mod_pos_bound n 1024 ltac:(reflexivity)).
      pose proof (hm_mono n 31743 ltac:(lia) ltac:(lia)) as Mo. pose proof (hm_nonneg n ltac:(lia)) as Nn. change (hm 31743) with (65504 * 2^24) in Mo. unfold overflow_at. change (2^149) with (2^24 * 2^125). destruct (S =? 1); assert (0 < 2^125) by easy; nia. }
    destruct (C65_nearest v Hv B1 Sm) as (_ & Sg & (Fi & Ne) & _). specialize (Ne h X). rewrite B2, Z.sub_diag in Ne. change (Z.abs 0) with 0 in Ne. assert (V : half_value (float_to_half v) = half_value h) by lia.
    destruct (half_any (float_to_half v)) as (S' & n' & HS' & Hn' & E'). destruct (half_fields _ S' n' Hn' HS' E') as (G1 & G2 & G3). rewrite E'. assert (SS : S' = S) by congruence. rewrite SS in *. f_equal.
    rewrite (half_val _ _ _ Hn' HS' E'), (half_val _ _ _ Hn HS Eh) in V. apply Z.mul_cancel_r in V; [|discriminate]. assert (Hm : hm n' = hm n) by (clear - V; destruct (S =? 1); lia).
    unfold half_finite in Fi. rewrite F2 in X. rewrite G2 in Fi.
    assert (n / 1024 < 32) by (apply Z.div_lt_upper_bound; lia). assert (n' / 1024 < 32) by (apply Z.div_lt_upper_bound; lia).
    pose proof (Z.div_mod n 1024 ltac:(discriminate)). pose proof (Z.div_mod n' 1024 ltac:(discriminate)). pose proof (Z.mod_pos_bound n 1024 ltac:(reflexivity)). pose proof (Z.mod_pos_bound n' 1024 ltac:(reflexivity)).
    destruct (Z.lt_trichotomy n' n) as [L|[L|L]]; [|easy|]; exfalso.
    + pose proof (hm_mono (n' + 1) n ltac:(lia) ltac:(lia)) as Mo. rewrite hm_next in Mo by lia. assert (0 < 2^(Z.max (n' / 1024 - 1) 0)) by (apply Z.pow_pos_nonneg; lia). lia.
    + pose proof (hm_mono (n + 1) n' ltac:(lia) ltac:(lia)) as Mo. rewrite hm_next in Mo by lia. assert (0 < 2^(Z.max (n / 1024 - 1) 0)) by (apply Z.pow_pos_nonneg; lia). lia.
Qed.

(** 1.0, 65504, 65519.996, 65520, the least half and half of it, -0, a NaN *)
Example C65_ex : map float_to_half [0x3f800000; 0x477fe000; 0x477fefff; 0x477ff000; 0x33800000; 0x33000000; 0x32ffffff; 0x80000000; 0x7f800001] =
  [0x3c00; 0x7bff; 0x7bff; 0x7c00; 1; 1; 0; -32768; 0x7c01].
Proof. reflexivity. Qed.
Example C65_ex_hyp : in_u32 0x477fefff /\ single_finite 0x477fefff /\ Z.abs (single_value 0x477fefff) < overflow_at /\
  overflow_at = Z.abs (single_value 0x477ff000) /\ half_to_float (-32767) = Some 0xb3800000.
Proof. repeat split; vm_compute; congruence. Qed.
Print Assumptions C65_round_trip.
Print Assumptions C65_widening_exact.
Print Assumptions C65_nearest.
Print Assumptions C65_overflow.
Print Assumptions C65_nan.
