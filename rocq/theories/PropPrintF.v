(** C87: printing doubles. *)
From Coq Require Import String Reals SpecFloat Psatz.
From Flocq Require Import Core BinarySingleNaN.
From Verif Require Import Base CStr CStrSpec CStrProofs Num NumSpec NumProofs PropNum Float FloatSpec FloatProofs FloatProofs2 FloatProofs4 Print PrintSpec PrintFSpec PrintProofs PrintProofs2 PrintProofs3 PrintProofs4 Node.
Open Scope string_scope. Open Scope Z_scope. Open Scope list_scope.
Set Default Timeout 120. 

(** a printable format has an expansion; wherever it fits it is printed, followed by a NUL *)
Theorem C87_fits : forall ps, Forall printable ps -> exists texts, Forall2 frendered ps texts /\
  forall buf max x va, (length (concat texts) < length buf)%nat -> Z.of_nat (length (concat texts)) < max ->
  (existsb fcases ps = true -> In 0 (skipn (length (concat texts)) buf)) ->
  exists r, snprintf buf max (ftext_of ps ++ 0 :: x) (fargs_of ps ++ va) =
    Some (concat texts ++ 0 :: r, if max <=? Z.of_nat (length (concat texts)) + 1 then -1 else Z.of_nat (length (concat texts)) + 1) /\
    length (concat texts ++ 0 :: r) = length buf.
Proof.
  intros ps P. assert (I : exists texts, Forall2 frendered ps texts /\ Forall2 item ps texts).
  { induction P as [|p ps H P (ts & A & B)]; [exists []; split; constructor|]. destruct (printable_item p H) as (t & F & I). exists (t :: ts). split; now constructor. }
  destruct I as (texts & F & I). exists texts. split; [exact F|]. intros buf max x va L M HC.
  destruct (split_at buf (length (concat texts))) as (old & r & -> & E); [lia|].
  replace (skipn (length (concat texts)) (old ++ r)) with r in HC by (rewrite <- E; now rewrite skipn_len).
  destruct (rounds_items x ps texts I [] old r max va E M HC) as (r' & rem & R & K). cbn [app length] in R.
  unfold snprintf. rewrite app_length. rewrite (rounds_more _ _ _ _ R). cbn [obind].
  pose proof (keeps_len _ _ K) as Lk. rewrite app_length in L. destruct r' as [|o r']; [cbn [length] in Lk; lia|].
  rewrite wr_at. cbn [obind]. replace (Z.of_nat (S (length (concat texts)))) with (Z.of_nat (length (concat texts)) + 1) by lia.
  exists r'. split; [easy|]. rewrite !app_length. cbn [length] in *. lia.
Qed.

(** the plain case: "%f" *)
Theorem C87_plain : forall x r, is_real x r -> (Rabs r < IZR (2 ^ 64))%R -> exists t, f64_body false 6 x t /\
  forall buf max, (length t < length buf)%nat -> Z.of_nat (length t) + 1 < max ->
  exists rest, snprintf buf max [37; 102; 0] [AF64 x] = Some (t ++ 0 :: rest, Z.of_nat (length t) + 1).
Proof.
  intros x r R B. destruct (C87_fits [Flt false false Absent Absent 102 x]) as (texts & F & H).
  - repeat constructor; cbn; try lia. now exists r.
  - inversion F as [|? ? ? ? Ft F']; subst. inversion F'; subst. destruct Ft as (t & Bt & E). cbn in E. exists t. split; [exact Bt|]. intros buf max L M.
    assert (E' : concat [y] = t) by (cbn [concat]; rewrite app_nil_r; exact E). rewrite E' in H.
    destruct (H buf max [] [] L ltac:(lia) ltac:(easy)) as (rest & S & _). exists rest. change (ftext_of [Flt false false Absent Absent 102 x] ++ [0]) with [37; 102; 0] in S.
    cbn [fargs_of map concat fpiece_args num_args app] in S. rewrite S. destruct (Z.leb_spec max (Z.of_nat (length t) + 1)); [lia|easy].
Qed.

(** ** What cannot be printed *)
Lemma trunc_big x w : f_to_u64 x = Some w -> exists r, (SF2R radix2 x = r /\ -1 < r < IZR (2 ^ 64))%R /\ is_finite_SF x = true.
Proof.
  unfold f_to_u64. destruct x as [s|s| |s m e]; cbn [f_trunc obind]; try discriminate.
  - intros _. exists 0%R. split; [split; [easy|]|easy]. split; [lra|]. apply (IZR_lt 0). reflexivity.
  - destruct (int_part m e) as (v & Ev & P & Bv). rewrite Ev. intros H. exists (SF2R radix2 (S754_finite s m e)). split; [split; [easy|]|easy].
    assert (W : forall v, 0 <= v < 2 ^ 64 -> (IZR v + 1 <= IZR (2 ^ 64))%R) by (intros; change 1%R with (IZR 1); rewrite <- plus_IZR; apply IZR_le; lia).
    assert (0 <= IZR v)%R by now apply IZR_le.
    destruct s; [rewrite real_neg|rewrite real_pos].
    + destruct ((0 <=? - v) && (- v <? 2 ^ 64)) eqn:C; [|easy]. assert (v = 0) as -> by lia. assert (0 < IZR (2 ^ 64))%R by (apply (IZR_lt 0); reflexivity). lra.
    + destruct ((0 <=? v) && (v <? 2 ^ 64)) eqn:C; [|easy]. specialize (W v ltac:(lia)). lra.
Qed.
(** infinities, NaNs and numbers of 2^64 and above make the conversion undefined, wherever and however they are printed *)
Theorem C87_range_refuted : forall x, ~ (is_finite_SF x = true /\ (Rabs (SF2R radix2 x) < IZR (2 ^ 64))%R) -> forall t max i, print_f64 t max i x = None.
Proof.
  intros x N t max i. unfold print_f64. destruct (f_nonzero x) eqn:Nz.
  2: { exfalso. apply N. destruct x as [s|s| |s m e]; try (destruct s; discriminate Nz); try discriminate Nz. split; [easy|]. cbn. rewrite Rabs_R0. apply (IZR_lt 0). reflexivity. }
  assert (G : forall y, (y = x /\ SFltb x f_zero = false) \/ (y = fneg x /\ SFltb x f_zero = true) -> f_to_u64 y = None).
  { intros y Hy. destruct (f_to_u64 y) as [w|] eqn:E; [|easy]. exfalso. apply N. destruct (trunc_big y w E) as (r & (Er & Br) & F).
    destruct Hy as [(-> & S)|(-> & S)].
    - split; [easy|]. rewrite Er. apply Rabs_def1; [easy|]. destruct x as [s|s| |s m e]; try discriminate F; [cbn in Er; subst r; assert (0 < IZR (2 ^ 64))%R by (apply (IZR_lt 0); reflexivity); lra|].
      destruct s; [discriminate S|]. rewrite real_pos in Er. pose proof (bpow_gt_0 radix2 e). assert (0 < IZR (Z.pos m))%R by now apply IZR_lt. assert (0 < IZR (2 ^ 64))%R by (apply (IZR_lt 0); reflexivity). nra.
    - destruct x as [s|s| |s m e]; try discriminate F; [discriminate Nz|]. destruct s; [|discriminate S]. split; [easy|]. change (fneg (S754_finite true m e)) with (S754_finite false m e) in *. rewrite real_neg, Rabs_Ropp. rewrite real_pos in Er.
      rewrite Er. apply Rabs_def1; [easy|]. pose proof (bpow_gt_0 radix2 e). assert (0 < IZR (Z.pos m))%R by now apply IZR_lt. assert (0 < IZR (2 ^ 64))%R by (apply (IZR_lt 0); reflexivity). nra. }
  destruct (SFltb x f_zero) eqn:S.
  - destruct (put t 0 max 45) as [((t1 & k1) & r1)|]; [|easy]. cbn [obind]. rewrite G by tauto. easy.
  - destruct (has (flags i) FMT_MINUS); [destruct (put t 0 max 43) as [((t1 & k1) & r1)|]; [|easy]|]; cbn [obind]; rewrite G by tauto; easy.
Qed.
Lemma many_none : forall n x i t k rem, (i <= 18)%nat -> (19 <= i + n)%nat -> frac_digits n x (10 ^ Z.of_nat i) t k rem = None.
Proof.
  induction n as [|n IH]; intros x i t k rem H1 H2; [lia|]. cbn [frac_digits]. destruct (f_to_u64 _) as [v|]; [|easy]. cbn [obind].
  destruct (put_u64 _ _ _ _) as [((t1 & k1) & r1)|]; [|easy]. cbn [obind]. unfold chk64.
  replace (10 ^ Z.of_nat i * 10) with (10 ^ Z.of_nat (S i)) by (rewrite Nat2Z.inj_succ, Z.pow_succ_r by lia; lia).
  destruct (Nat.eq_dec i 18) as [->|Ni]; [reflexivity|]. destruct (_ && _); [|easy]. cbn [obind]. apply IH; lia.
Qed.
(** with 18 places or more the multiplier overflows, for every number but zero *)
Theorem C87_places_refuted : forall x t max i, f_nonzero x = true -> 18 <= precision i -> print_f64 t max i x = None.
Proof.
  intros x t max i Nz P. unfold print_f64. rewrite Nz. destruct (if SFltb x f_zero then _ else _) as [(((t0 & k0) & r0) & x0)|]; [|easy]. cbn [obind].
  destruct (f_to_u64 x0) as [v|]; [|easy]. cbn [obind]. destruct (put_u64 _ _ _ _) as [((t1 & k1) & r1)|]; [|easy]. cbn [obind].
  destruct (Z.ltb_spec (precision i) 0); [lia|]. destruct (Z.ltb_spec 0 (precision i)); [|lia]. rewrite orb_true_r. destruct (put _ _ _ _) as [((t2 & k2) & r2)|]; [|easy]. cbn [obind].
  rewrite (many_none (Z.to_nat (precision i)) _ 1); [easy|lia|lia].
Qed.
(** 16 places: the digits of 0.9 less one unit in the last place leave a remainder below -1, whose cast to zpl_u64 is undefined *)
Theorem C87_sixteen_refuted : snprintf (repeat 1 40) 40 (asc "%.16f" ++ [0]) [AF64 (S754_finite false 8106479329266892 (-53))] = None.
Proof. now vm_compute. Qed.
(** the numbers behind the point are not always digits, and not always the ones expected: the number just below 0.1 is printed as 0.0100000, a quarter as 0.249999 *)
Theorem C87_digits_refuted :
  snprintf (repeat 1 12) 12 (asc "%f" ++ [0]) [AF64 (S754_finite false 7205759403792793 (-56))] = Some (asc "0.0100000" ++ [0; 1; 1], 10) /\
  snprintf (repeat 1 12) 12 (asc "%f" ++ [0]) [AF64 (S754_finite false 4503599627370496 (-54))] = Some (asc "0.249999" ++ [0; 1; 1; 1], 9).
Proof. split; now vm_compute. Qed.
(** too little room does not stop the digits: with room for two bytes -1.5 is written over ten, only the point is left out; with room for one the sign is left out too; zero in one byte of room writes its NUL behind it *)
Theorem C87_no_room_refuted : forall c0 c1 c2 c3 c4 c5 c6 c7 c8 c9 rest, let buf := c0 :: c1 :: c2 :: c3 :: c4 :: c5 :: c6 :: c7 :: c8 :: c9 :: rest in
  snprintf buf 2 (asc "%f" ++ [0]) [AF64 (S754_finite true 6755399441055744 (-52))] = Some (asc "-1" ++ [c2] ++ asc "500000" ++ [0] ++ rest, -1) /\
  snprintf buf 1 (asc "%f" ++ [0]) [AF64 (S754_finite true 6755399441055744 (-52))] = Some ([c0; 49; c2] ++ asc "500000" ++ [0] ++ rest, -1) /\
  snprintf buf 1 (asc "%f" ++ [0]) [AF64 f_zero] = Some (c0 :: 0 :: skipn 2 buf, -1).
Proof. intros. vm_compute. repeat split; reflexivity. Qed.
(** zero has no places, not even when asked for; - gives a plus sign and no alignment; 0 is lost with a precision *)
Theorem C87_flags_refuted :
  snprintf (repeat 1 8) 8 (asc "%.2f" ++ [0]) [AF64 f_zero] = Some (asc "0" ++ [0; 1; 1; 1; 1; 1; 1], 2) /\
  snprintf (repeat 1 8) 8 (asc "%-6.1f" ++ [0]) [AF64 (f_of_int 2)] = Some (asc "  +2.0" ++ [0; 1], 7) /\
  snprintf (repeat 1 8) 8 (asc "%06.1f" ++ [0]) [AF64 (f_of_int 2)] = Some (asc "   2.0" ++ [0; 1], 7) /\
  snprintf (repeat 1 8) 8 (asc "%+.1f" ++ [0]) [AF64 (f_of_int 2)] = Some (asc "2.0" ++ [0; 1; 1; 1; 1], 4).
Proof. repeat split; now vm_compute. Qed.

Lemma real_of m e : valid_binary 53 1024 (S754_finite false m e) = true -> is_real (S754_finite false m e) (IZR (Z.pos m) * bpow radix2 e).
Proof. intros V. repeat split. exact V. Qed.
Example C87_example : Forall printable [Old (Lit (asc "x=")); Flt false true (Digits [1; 2]) Absent 102 (S754_finite true 7036874417766400 (-51)); Old (Lit [59]); Flt false false (Star 7) (Star 2) 103 (f_of_int 7)] /\
  ftext_of [Old (Lit (asc "x=")); Flt false true (Digits [1; 2]) Absent 102 (S754_finite true 7036874417766400 (-51)); Old (Lit [59]); Flt false false (Star 7) (Star 2) 103 (f_of_int 7)] = asc "x=%012f;%*.*g" /\
  snprintf (repeat 1 24) 24 (asc "x=%012f;%*.*g" ++ [0]) [AF64 (S754_finite true 7036874417766400 (-51)); AInt 7; AInt 2; AF64 (f_of_int 7)] = Some (asc "x=000-3.124999;   7.00" ++ [0; 1], 23).
Proof.
  split; [|split; [reflexivity|now vm_compute]]. constructor; [|constructor; [|constructor; [|constructor; [|constructor]]]].
  - exists (asc "x="). split; [|split; [|reflexivity]]; [repeat constructor; cbn; lia|cbn; lia].
  - split; [|split; [easy|split; [cbn; tauto|split; [cbn; lia|]]]].
    + split; [split; [repeat constructor; lia|cbn; lia]|]. exists 1, [2]. split; [easy|lia].
    + eexists. split; [repeat split|]. rewrite real_neg, Rabs_Ropp. change (bpow radix2 (-51)) with (/ 2251799813685248)%R. rewrite Rabs_pos_eq by lra.
      change (IZR (2 ^ 64)) with 18446744073709551616%R. lra.
  - exists [59]. split; [|split; [|reflexivity]]; [repeat constructor; cbn; lia|cbn; lia].
  - split; [|split; [cbn; lia|split; [cbn; tauto|split; [cbn; lia|]]]].
    + split; [cbn; lia|cbn; lia].
    + exists 7%R. split; [apply (f_int 7); reflexivity|]. rewrite Rabs_pos_eq by lra. change (IZR (2 ^ 64)) with 18446744073709551616%R. lra.
Qed.
Example C87_example_range : ~ (is_finite_SF (S754_infinity false) = true /\ (Rabs (SF2R radix2 (S754_infinity false)) < IZR (2 ^ 64))%R).
Proof. intros (H & _). discriminate H. Qed.
Print Assumptions C87_fits.
Print Assumptions C87_plain.
Print Assumptions C87_range_refuted.
Print Assumptions C87_places_refuted.
Print Assumptions C87_sixteen_refuted.
Print Assumptions C87_digits_refuted.
Print Assumptions C87_flags_refuted.
Print Assumptions C87_no_room_refuted.
