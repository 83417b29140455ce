(** C86: reading doubles, zpl_str_to_f64. *)
From Coq Require Import String Reals SpecFloat Psatz.
From Flocq Require Import Core BinarySingleNaN.
From Verif Require Import Base CStr NumSpec Float Print Node FloatSpec FloatProofs FloatProofs2 FloatProofs3.
Open Scope string_scope. Open Scope Z_scope. Open Scope list_scope.
Set Default Timeout 120. 

(** every terminated string is read, the rest returned is a rest of the string *)
Theorem C86_total : forall s, In 0%Z s -> exists v pre rest, str_to_f64 s = Some (v, rest) /\ s = pre ++ rest.
Proof. intros s I. destruct (str_total s I) as (v & r & E & pre & X). eauto. Qed.

(** whole numbers below 2^53 are read exactly *)
Theorem C86_exact : forall text sg ds c x,
  decimal_text text sg ds [] 0 -> ends c -> (number 10 ds < 2 ^ 53)%Z ->
  exists v, str_to_f64 (text ++ c :: x) = Some (v, c :: x) /\ is_real v (sg * IZR (number 10 ds)).
Proof.
  intros text sg ds c x T C L. destruct (read_text text sg ds [] 0 c x T C L ltac:(cbn; lia) ltac:(lia)) as (v & r & E & R & _ & Z0 & _).
  exists v. split; [exact E|]. rewrite (Z0 eq_refl) in R. cbn [powerRZ] in R. rewrite Rmult_1_r in R. rewrite rnd_fmt in R; [exact R|]. apply fmt_int.
  destruct T as (b & s & f & e & _ & _ & _ & D & _). pose proof (number_nonneg ds D). lia.
Qed.

(** with an exponent of at most 22 either way no double is nearer *)
Theorem C86_nearest : forall text sg ds k c x,
  decimal_text text sg ds [] k -> ends c -> (number 10 ds < 2 ^ 53)%Z -> (-22 <= k <= 22)%Z ->
  exists v, str_to_f64 (text ++ c :: x) = Some (v, c :: x) /\ nearest v (sg * IZR (number 10 ds) * powerRZ 10 k).
Proof.
  intros text sg ds k c x T C L K. destruct (read_text text sg ds [] k c x T C L ltac:(cbn; lia) K) as (v & r & E & R & _ & Z0 & _).
  exists v. split; [exact E|]. rewrite (Z0 eq_refl) in R. eexists. split; [exact R|]. intros y s Y. pose proof (real_fmt _ _ Y) as Fy.
  destruct T as (b & s' & f & e & _ & _ & Sg & _). destruct (sign_real _ _ Sg) as (_ & Hs). rewrite Rmult_assoc. set (t := (IZR (number 10 ds) * powerRZ 10 k)%R).
  destruct Hs as [->| ->].
  - rewrite !Rmult_1_l. now apply rnd_nearest.
  - replace (-1 * rnd t - -1 * t)%R with (- (rnd t - t))%R by ring. rewrite Rabs_Ropp.
    replace (s - -1 * t)%R with (- (- s - t))%R by ring. rewrite Rabs_Ropp. apply rnd_nearest. apply (real_fmt (fneg y)). now apply fneg_real.
Qed.

(** with up to 22 digits behind the point the error is below n+1 units of 2^-51 *)
Theorem C86_error : forall text sg ds fs k c x,
  decimal_text text sg ds fs k -> ends c -> (number 10 ds < 2 ^ 53)%Z -> (length fs <= 22)%nat -> (-22 <= k <= 22)%Z ->
  exists v r, str_to_f64 (text ++ c :: x) = Some (v, c :: x) /\ is_real v r /\
    (Rabs (r - sg * decimal ds fs * powerRZ 10 k) <= INR (length fs + 1) * / 2 ^ 51 * (IZR (number 10 ds) + 1) * powerRZ 10 k)%R.
Proof.
  intros text sg ds fs k c x T C L Ln K. destruct (read_text text sg ds fs k c x T C L Ln K) as (v & r & E & R & B & _ & P).
  exists v, (sg * rnd (r * powerRZ 10 k))%R. split; [exact E|]. split; [exact R|].
  assert (Hp : (/ IZR (10 ^ 22) <= powerRZ 10 k)%R).
  { destruct (Z.le_ge_cases 0 k) as [H|H].
    - rewrite powerRZ_pos by easy. apply Rle_trans with 1%R; [rewrite <- Rinv_1; apply Rinv_le; [lra|apply IZR_le; lia]|]. apply IZR_le. pose proof (Z.pow_pos_nonneg 10 k). lia.
    - replace k with (- (- k))%Z by lia. rewrite powerRZ_opp by lia. apply Rinv_le; [apply IZR_lt, Z.pow_pos_nonneg; lia|]. apply IZR_le, Z.pow_le_mono_r; lia. }
  destruct T as (b & s' & f & e & _ & _ & Sg & D & F & _). destruct (sign_real _ _ Sg) as (_ & Hs).
  assert (Ff : Forall dig fs) by (destruct F; easy).
  set (N := IZR (number 10 ds)) in *. set (p := powerRZ 10 k) in *. pose proof u_small as Hu. set (X := decimal ds fs) in *.
  assert (XB : (0 <= X <= N + 1)%R).
  { unfold X. rewrite decimal_frac. fold N. pose proof (fracval_bound fs Ff 0) as FB. change (IZR (10 ^ Z.of_nat 0)) with 1%R in FB. rewrite Rinv_1 in FB. lra. }
  replace (/ 2 ^ 51)%R with (4 * u)%R.
  2: { rewrite u_val. replace (IZR (2 ^ 53)) with (4 * 2 ^ 51)%R by (rewrite pow_IZR, <- mult_IZR; reflexivity). field. }
  set (M := (4 * u * (N + 1))%R) in *.
  assert (N22 : (INR (length fs) * M <= / 1000 * (N + 1))%R).
  { unfold M. apply Rle_trans with (22 * (4 * u * (N + 1)))%R; [apply Rmult_le_compat_r; [nra|]; change 22%R with (IZR 22); rewrite INR_IZR_INZ; apply IZR_le; lia|]. nra. }
  destruct (rnd_err (r * p)) as (d & h & Hd & Hh & Er).
  assert (Hh' : (Rabs h <= u * (N + 1) * p)%R).
  { apply Rle_trans with (1 := Hh). apply Rle_trans with (u * / IZR (10 ^ 22))%R.
    - apply Rle_trans with (bpow radix2 (-53) * bpow radix2 (-80))%R; [rewrite <- bpow_plus; apply bpow_le; discriminate|]. apply Rmult_le_compat_l; [apply bpow_ge_0|].
      change (-80)%Z with (- (80))%Z. rewrite bpow_opp. apply Rinv_le; [apply IZR_lt; reflexivity|]. rewrite <- (IZR_Zpower radix2) by discriminate. apply IZR_le. now vm_compute.
    - rewrite Rmult_assoc. apply Rmult_le_compat_l; [lra|]. nra. }
  assert (Hr : (Rabs r <= 1.5 * (N + 1))%R) by (apply Rabs_le_inv in B; apply Rabs_le; lra).
  assert (E2 : (Rabs (rnd (r * p) - X * p) <= INR (length fs + 1) * M * p)%R).
  { rewrite Er. replace (r * p * (1 + d) + h - X * p)%R with ((r - X) * p + (r * d * p + h))%R by ring.
    apply Rle_trans with (1 := Rabs_triang _ _). rewrite plus_INR. cbn [INR]. rewrite Rmult_plus_distr_r, Rmult_plus_distr_r, Rmult_1_l.
    assert (P0 : (0 < p)%R) by (apply Rlt_le_trans with (2 := Hp); apply Rinv_0_lt_compat, IZR_lt; reflexivity).
    apply Rplus_le_compat.
    - rewrite Rabs_mult, (Rabs_pos_eq p) by lra. apply Rmult_le_compat_r; [lra|exact B].
    - apply Rle_trans with (1 := Rabs_triang _ _). rewrite !Rabs_mult, (Rabs_pos_eq p) by lra. unfold M.
      assert (Rabs r * Rabs d <= 1.5 * (N + 1) * u)%R by (apply Rmult_le_compat; try apply Rabs_pos; easy).
      assert (Rabs r * Rabs d * p <= 1.5 * (N + 1) * u * p)%R by (apply Rmult_le_compat_r; lra).
      assert (0 <= u * (N + 1) * p)%R by (repeat apply Rmult_le_pos; lra). lra. }
  replace (INR (length fs + 1) * (4 * u) * (N + 1) * p)%R with (INR (length fs + 1) * M * p)%R by (unfold M; ring).
  replace (sg * rnd (r * p) - sg * X * p)%R with (sg * (rnd (r * p) - X * p))%R by ring. rewrite Rabs_mult.
  replace (Rabs sg) with 1%R by (destruct Hs as [->| ->]; [now rewrite Rabs_R1|rewrite Rabs_left; lra]). now rewrite Rmult_1_l.
Qed.

(** an exponent beyond 308, either way, is read as 308 *)
Theorem C86_exponent_capped : forall b s sg ds f fs e es sgn c x, blanks b -> sign_of s sg -> Forall dig ds -> frac_of f fs -> ds ++ f <> [] ->
  In e [101; 69]%Z -> In sgn [[]; [43]; [45]]%Z -> Forall dig es -> es <> [] -> ends c -> (308 <= number 10 es < 2 ^ 32)%Z ->
  str_to_f64 (b ++ s ++ chars ds ++ f ++ (e :: sgn ++ chars es) ++ c :: x) = str_to_f64 (b ++ s ++ chars ds ++ f ++ (e :: sgn ++ chars [3; 0; 8]%Z) ++ c :: x).
Proof. exact exp_capped. Qed.

(** ** Examples and refutations *)
Lemma dig_ok ds : forallb (fun d => (0 <=? d) && (d <? 10))%Z ds = true -> Forall dig ds.
Proof. intros H. apply Forall_forall. intros d I. rewrite forallb_forall in H. specialize (H d I). unfold dig. lia. Qed.
Lemma text_ok text b s sg ds f fs e k : text = b ++ s ++ chars ds ++ f ++ e -> blanks b -> sign_of s sg -> Forall dig ds -> frac_of f fs -> exp_of e k -> ds ++ f <> [] -> decimal_text text sg ds fs k.
Proof. intros. exists b, s, f, e. tauto. Qed.
Lemma ends_0 : ends 0.
Proof. unfold ends. lia. Qed.
Example C86_example_exact : decimal_text (asc "	-9007199254740991") (-1) [9;0;0;7;1;9;9;2;5;4;7;4;0;9;9;1]%Z [] 0 /\
  str_to_f64 (asc "	-9007199254740991" ++ [0%Z]) = Some (S754_finite true 9007199254740991 0, [0%Z]).
Proof.
  split; [|now vm_compute]. apply (text_ok _ [9%Z] [45%Z] _ _ [] [] [] 0); try reflexivity; try discriminate; try (apply dig_ok; reflexivity); try constructor; [cbn; tauto|constructor].
Qed.
Example C86_example_nearest : decimal_text (asc "123E-5") 1 [1;2;3]%Z [] (-5) /\
  str_to_f64 (asc "123E-5;" ++ [0%Z]) = Some (S754_finite false 5672373802665687 (-62), [59; 0]%Z).
Proof.
  split; [|now vm_compute]. apply (text_ok _ [] [] _ [1;2;3]%Z [] [] [69;45;53]%Z (-5)); try apply (neg_exp 69 [5%Z]); try reflexivity; try discriminate; try (apply dig_ok; reflexivity); try (cbn; tauto); try constructor.
Qed.
Example C86_example_error : decimal_text (asc "+3.25e2") 1 [3]%Z [2;5]%Z 2 /\
  str_to_f64 (asc "+3.25e2" ++ [0%Z]) = Some (S754_finite false 5717460464435200 (-44), [0%Z]).
Proof.
  split; [|now vm_compute]. apply (text_ok _ [] [43%Z] _ [3]%Z [46;50;53]%Z [2;5]%Z [101;50]%Z 2); try apply (pos_exp 101 [] [2%Z]); try apply (point [2;5]%Z); try reflexivity; try discriminate; try (apply dig_ok; reflexivity); try (cbn; tauto); try constructor.
Qed.
(** decimal fractions are not always read as the nearest double: 0.013 *)
Theorem C86_nearest_refuted : exists v, decimal_text (asc "0.013") 1 [0%Z] [0;1;3]%Z 0 /\
  str_to_f64 (asc "0.013" ++ [0%Z]) = Some (v, [0%Z]) /\ ~ nearest v (decimal [0%Z] [0;1;3]%Z).
Proof.
  exists (S754_finite false 7493989779944506 (-59)). split; [|split].
  - apply (text_ok _ [] [] _ [0]%Z (asc ".013") [0;1;3]%Z [] 0); try apply (point [0;1;3]%Z); try reflexivity; try discriminate; try (apply dig_ok; reflexivity); try constructor.
  - now vm_compute.
  - intros (r & (_ & _ & R) & N). specialize (N (S754_finite false 7493989779944505 (-59)) _ ltac:(repeat split)). subst r. revert N. apply Rlt_not_le.
    assert (V : forall m, SF2R radix2 (S754_finite false m (-59)) = (IZR (Z.pos m) * / 576460752303423488)%R) by (intros; reflexivity). rewrite !V.
    replace (decimal [0%Z] [0;1;3]%Z) with (13 / 1000)%R by (unfold decimal; cbn [length pow]; change (number 10 ([0%Z] ++ [0;1;3]%Z)) with 13%Z; field).
    unfold Rabs. destruct Rcase_abs; destruct Rcase_abs; lra.
Qed.
(** exponents: 1e400 is read as 1e308, 1e-400 and 5e-324 are off by powers of ten, the largest double is read as infinity, exponents wrap at 2^32 *)
Theorem C86_exponents_refuted :
  str_to_f64 (asc "1e400" ++ [0%Z]) = str_to_f64 (asc "1e308" ++ [0%Z]) /\
  (exists v, str_to_f64 (asc "1e-400" ++ [0%Z]) = Some (v, [0%Z]) /\ SFltb f_zero v = true) /\
  (exists v w, str_to_f64 (asc "5e-324" ++ [0%Z]) = Some (v, [0%Z]) /\ str_to_f64 (asc "4e-308" ++ [0%Z]) = Some (w, [0%Z]) /\ SFltb w v = true) /\
  str_to_f64 (asc "1.7976931348623157e308" ++ [0%Z]) = Some (S754_infinity false, [0%Z]) /\
  str_to_f64 (asc "1e4294967297" ++ [0%Z]) = Some (f_of_int 10, [0%Z]).
Proof.
  split; [now vm_compute|]. split; [|split; [|split; now vm_compute]].
  - eexists. split; [vm_compute; reflexivity|reflexivity].
  - do 2 eexists. split; [vm_compute; reflexivity|]. split; [vm_compute; reflexivity|reflexivity].
Qed.
Example C86_example_capped : number 10 [4;0;0]%Z = 400%Z /\ Forall dig [4;0;0]%Z.
Proof. split; [reflexivity|repeat constructor; unfold dig; lia]. Qed.
Print Assumptions C86_total.
Print Assumptions C86_exact.
Print Assumptions C86_nearest.
Print Assumptions C86_error.
Print Assumptions C86_exponent_capped.
Print Assumptions C86_nearest_refuted.
Print Assumptions C86_exponents_refuted.
