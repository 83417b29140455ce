(** Printing doubles: the text. *)
From Coq Require Import Reals SpecFloat Psatz.
From Flocq Require Import Core BinarySingleNaN.
From Verif Require Import Base CStr CStrSpec CStrProofs Num NumSpec NumProofs PropNum Float FloatSpec FloatProofs FloatProofs2 FloatProofs4 Print PrintSpec PrintFSpec PrintProofs PrintProofs2.

(** ** Writing *)
Lemma keeps_app a b c : keeps (a ++ b) c -> exists a' b', c = a' ++ b' /\ length a' = length a /\ keeps b b'.
Proof.
  unfold keeps. intros K. apply Forall2_app_inv_l in K. destruct K as (a' & b' & Ka & Kb & ->). exists a', b'. split; [easy|]. split; [|easy]. eapply keeps_len, Ka.
Qed.
Lemma put_ok a o r rem c : 1 < rem -> put (a ++ o :: r) (length a) rem c = Some ((a ++ [c]) ++ r, length (a ++ [c]), rem - 1).
Proof. intros H. unfold put. destruct (Z.ltb_spec 1 rem); [|lia]. rewrite wr_at. cbn [obind]. rewrite app_length, <- app_assoc. cbn [length app]. do 3 f_equal. lia. Qed.
Lemma put_u64_ok a o r rem v t : 0 <= v < 2^64 -> numeral 10 v t -> (length t <= length o)%nat -> Z.of_nat (length t) < rem ->
  exists o' r', put_u64 (a ++ o ++ r) (length a) rem v = Some ((a ++ t) ++ o' ++ r', length (a ++ t), rem - Z.of_nat (length t)) /\
    (length t + length o' = length o)%nat /\ keeps r r'.
Proof.
  intros Hv N L R. destruct (split_at o (length t) L) as (o1 & o2 & -> & L1). unfold put_u64. rewrite skipn_len, firstn_len.
  destruct (u64_text 10 v t ltac:(lia) Hv N) as (x & E). unfold print_u64. cbn [base]. rewrite E. cbn [obind]. rewrite <- app_assoc.
  assert (W : apply_width false false 0 (cut (-1) t) = t) by (unfold apply_width, cut; cbn [Z.ltb Z.compare orb Z.abs Z.to_nat Nat.sub repeat app]; easy).
  destruct (print_string_ok o1 (o2 ++ r) rem 10 0 false false 0 (-1) t x) as (q & Ep & K); try easy; try lia; try (rewrite W; easy).
  { now apply (numeral_cs 10 v). }
  rewrite W in Ep. rewrite Ep. cbn [obind]. change (case_fun 0) with (fun c : Z => c). rewrite map_id. destruct (keeps_app _ _ _ K) as (o' & r' & -> & Lo & Kr).
  exists o', r'. rewrite !app_length. split; [|split; [lia|easy]]. destruct (Z.leb_spec rem (Z.of_nat (length o1))); [lia|]. rewrite L1, Nat2Z.id, <- app_assoc. easy.
Qed.
Lemma frac_digits_ok : forall n x mult vs vts, frac_vals n x mult = Some vs -> Forall2 (numeral 10) vs vts -> Forall (fun v => 0 <= v <= 10) vs ->
  forall a o r rem, (length (concat vts) <= length o)%nat -> Z.of_nat (length (concat vts)) < rem ->
  exists o' r', frac_digits n x mult (a ++ o ++ r) (length a) rem = Some ((a ++ concat vts) ++ o' ++ r', length (a ++ concat vts), rem - Z.of_nat (length (concat vts))) /\
    (length (concat vts) + length o' = length o)%nat /\ keeps r r'.
Proof.
  induction n as [|n IH]; intros x mult vs vts E N B a o r rem L R; cbn [frac_vals frac_digits] in *.
  - injection E as <-. inversion N; subst. exists o, r. cbn [concat length app]. rewrite app_nil_r, Z.sub_0_r. split; [easy|]. split; [lia|apply keeps_refl].
  - destruct (f_to_u64 _) as [v|]; [|easy]. cbn [obind] in *. destruct (chk64 _) as [m|]; [|easy]. cbn [obind] in *.
    destruct (frac_vals n _ m) as [vs'|] eqn:Ev; [|easy]. cbn [obind] in E. injection E as <-. inversion N as [|? t ? vts' Nv Nvs]; subst. inversion B as [|? ? Bv Bvs]; subst.
    cbn [concat] in *. rewrite app_length in L, R.
    destruct (put_u64_ok a o r rem v t ltac:(lia) Nv ltac:(lia) ltac:(lia)) as (o1 & r1 & -> & L1 & K1). cbn [obind].
    destruct (IH _ _ _ _ Ev Nvs Bvs (a ++ t) o1 r1 (rem - Z.of_nat (length t)) ltac:(lia) ltac:(lia)) as (o2 & r2 & -> & L2 & K2).
    exists o2, r2. rewrite !app_length, <- !app_assoc. split; [|split; [lia|eapply keeps_trans; eassumption]]. f_equal. f_equal; [f_equal; lia|lia].
Qed.
Lemma move_up_ok stop : forall a b c, Z.of_nat (length a + length b) <= stop -> exists x, move_up (length a) (length b) stop (a ++ b ++ c) = Some (x ++ a ++ c) /\ length x = length b.
Proof.
  intros a. induction a as [|y a IH] using rev_ind; intros b c H.
  - exists b. split; [reflexivity|easy].
  - rewrite app_length in *. cbn [length] in *. replace (length a + 1)%nat with (S (length a)) by lia. cbn [move_up].
    destruct (Z.ltb_spec (Z.of_nat (length a + length b)) stop); [|lia].
    assert (Rd : rd ((a ++ [y]) ++ b ++ c) (length a) = Some y) by (unfold rd; rewrite <- app_assoc, nth_error_app2, Nat.sub_diag by lia; reflexivity).
    rewrite Rd. cbn [obind].
    assert (X : exists b1 z, y :: b = b1 ++ [z] /\ length b1 = length b).
    { destruct (@exists_last _ (y :: b)) as (b1 & z & E); [discriminate|]. exists b1, z. split; [easy|]. apply (f_equal (@length Z)) in E. rewrite app_length in E. cbn [length] in E. lia. }
    destruct X as (b1 & z & E & Lb).
    assert (W : wr ((a ++ [y]) ++ b ++ c) (length a + length b) y = Some (a ++ b1 ++ y :: c)).
    { replace ((a ++ [y]) ++ b ++ c) with ((a ++ b1) ++ z :: c).
      - rewrite <- Lb, <- app_length. rewrite wr_at, <- app_assoc. easy.
      - rewrite <- !app_assoc. f_equal. change ([y] ++ b ++ c) with ((y :: b) ++ c). rewrite E, <- app_assoc. easy. }
    rewrite W. cbn [obind]. destruct (IH b1 (y :: c) ltac:(lia)) as (x & Ex & Lx). rewrite Lb in Ex. exists x. split; [|lia]. rewrite Ex, <- app_assoc. easy.
Qed.
Lemma fill_front_ok stop f : forall x c, Z.of_nat (length x) <= stop -> fill_front (length x) stop f (x ++ c) = Some (repeat f (length x) ++ c).
Proof.
  intros x. induction x as [|y x IH] using rev_ind; intros c H; [reflexivity|]. rewrite app_length in *. cbn [length] in *. replace (length x + 1)%nat with (S (length x)) by lia. cbn [fill_front].
  destruct (Z.ltb_spec (Z.of_nat (length x)) stop); [|lia]. rewrite <- app_assoc. cbn [app]. rewrite wr_at. cbn [obind]. rewrite IH by lia. cbn [repeat app].
  f_equal. change (f :: repeat f (length x) ++ c) with ((f :: repeat f (length x)) ++ c). rewrite repeat_cons, <- app_assoc. easy.
Qed.

(** ** The sign *)
Lemma nonzero_real x r : is_real x r -> f_nonzero x = true <-> r <> 0%R.
Proof.
  intros (V & F & <-). destruct x as [s|s| |s m e]; try discriminate F.
  - cbn. split; [easy|]. intros N. now elim N.
  - split; [|destruct s; reflexivity]. intros _. pose proof (bpow_gt_0 radix2 e). assert (0 < IZR (Z.pos m))%R by now apply IZR_lt.
    destruct s; [rewrite real_neg|rewrite real_pos]; nra.
Qed.
Lemma neg_real x r : is_real x r -> SFltb x f_zero = true <-> (r < 0)%R.
Proof.
  intros (V & F & <-). destruct x as [s|s| |s m e]; try discriminate F.
  - cbn. split; [easy|]. lra.
  - pose proof (bpow_gt_0 radix2 e). assert (0 < IZR (Z.pos m))%R by now apply IZR_lt.
    destruct s; [rewrite real_neg|rewrite real_pos]; cbn; split; try easy; nra.
Qed.
Lemma numeral_u64 v : 0 <= v < 2^64 -> exists t, numeral 10 v t.
Proof.
  intros H. destruct (C40_u64_print 10 v [] ltac:(lia) H) as (ds & C & N & _). exists (map digit_char ds). exists ds. rewrite Z.abs_eq by lia.
  split; [easy|]. split; [easy|]. destruct (Z.ltb_spec v 0); [lia|easy].
Qed.
Lemma numerals vs : Forall (fun v => 0 <= v <= 10) vs -> exists vts, Forall2 (numeral 10) vs vts.
Proof. induction 1 as [|v vs H F (vts & IH)]; [now exists []|]. destruct (numeral_u64 v ltac:(lia)) as (t & N). exists (t :: vts). now constructor. Qed.

(** ** A double *)
(** the numbers printed for a positive double *)
Lemma positive_ok x r p : is_real x r -> (0 < r < IZR (2 ^ 64))%R -> (p <= 15)%nat ->
  exists w vs, f_to_u64 x = Some w /\ 0 <= w < 2^64 /\ (IZR w <= r < IZR w + 1)%R /\ frac_vals p (fsub x (f_of_int w)) 10 = Some vs /\ digits_for p (r - IZR w) vs.
Proof.
  intros R B P. destruct (trunc_ok x r R ltac:(lra)) as (w & Ew & Pw & Bw & _). specialize (Bw ltac:(lra)).
  assert (W64 : w < 2 ^ 64) by (apply lt_IZR; lra). destruct (frac_fmt x r w R ltac:(lra) Bw) as (F1 & F2).
  assert (S1 : small (rnd (IZR w))). { apply (small_bound _ 64); [lia|]. rewrite Rabs_pos_eq by (apply IZR_le; lia). change (bpow radix2 64) with (IZR (2 ^ 64)). lra. }
  assert (Rw : is_real (f_of_int w) (IZR w)) by (pose proof (f_of_int_real w S1) as Q; now rewrite (rnd_fmt _ F1) in Q).
  assert (Rf : is_real (fsub x (f_of_int w)) (r - IZR w)).
  { pose proof (fsub_real x _ _ _ R Rw) as Q. rewrite (rnd_fmt _ F2) in Q. apply Q. rewrite <- (rnd_fmt _ F2). apply small_1. apply Rabs_le. lra. }
  destruct (frac_vals_ok p 1 _ _ ltac:(lia) ltac:(lia) Rf) as (vs & r' & E & L & F & Br & D).
  { change (IZR (10 ^ Z.of_nat 1)) with 10%R. pose proof u_small. lra. }
  exists w, vs. split; [unfold f_to_u64; rewrite Ew; cbn [obind]; destruct (Z.leb_spec 0 w), (Z.ltb_spec w (2^64)); try lia; easy|]. split; [lia|]. split; [easy|]. split; [exact E|].
  split; [easy|]. split; [easy|]. change (10 ^ Z.of_nat 1)%Z with 10%Z in D. apply Rabs_le_inv in D. pose proof u_small.
  replace (/ 2 ^ 50)%R with (8 * u)%R by (rewrite u_val; replace (IZR (2 ^ 53)) with (8 * 2 ^ 50)%R by (rewrite pow_IZR, <- mult_IZR; reflexivity); field).
  replace (/ 10 ^ p)%R with (10 * / IZR (10 ^ Z.of_nat (1 + p)))%R.
  2: { rewrite Nat2Z.inj_add, Z.pow_add_r, mult_IZR, <- (pow_IZR 10 p) by lia. change (IZR (10 ^ Z.of_nat 1)) with 10%R. field. apply pow_nonzero. lra. }
  set (T := (10 * / IZR (10 ^ Z.of_nat (1 + p)))%R) in *.
  destruct p as [|p].
  - destruct vs; [|easy]. cbn [tail_val] in *. assert (T = 1%R) as -> by (unfold T; change (Z.of_nat (1 + 0)) with 1%Z; change (10 ^ 1)%Z with 10%Z; lra). lra.
  - assert (0 < T <= / 10)%R.
    { unfold T. rewrite !Nat2Z.inj_add, Z.pow_add_r, mult_IZR by lia. change (IZR (10 ^ Z.of_nat 1)) with 10%R.
      assert (10 <= IZR (10 ^ Z.of_nat (S p)))%R by (apply IZR_le; rewrite Nat2Z.inj_succ, Z.pow_succ_r by lia; pose proof (Z.pow_pos_nonneg 10 (Z.of_nat p)); lia).
      replace (10 * / (10 * IZR (10 ^ Z.of_nat (S p))))%R with (/ IZR (10 ^ Z.of_nat (S p)))%R by (field; lra). split; [apply Rinv_0_lt_compat; lra|apply Rinv_le; lra]. }
    nra.
Qed.
Lemma print_f64_ok x r m p : is_real x r -> (Rabs r < IZR (2 ^ 64))%R -> (if p <? 0 then 6 else p) <= 15 ->
  exists t, f64_body m (Z.to_nat (if p <? 0 then 6 else p)) x t /\
  forall b fl z wd w old q max, flg fl m z wd -> 0 <= w -> length old = length (apply_width false z w t) -> Z.of_nat (length old) < max ->
  exists q', print_f64 (old ++ q) max (Info b fl w p) x = Some (apply_width false z w t ++ q', Z.of_nat (length old)) /\ keeps q q'.
Proof.
  intros R B P. set (n := if p <? 0 then 6 else p) in *. assert (Hn : 0 <= n) by (unfold n; destruct (Z.ltb_spec p 0); lia).
  (* width *)
  assert (G : forall t b fl z wd w old q max, flg fl m z wd -> 0 <= w -> length old = length (apply_width false z w t) -> Z.of_nat (length old) < max ->
     (forall o1 o2, old = o1 ++ o2 -> length o1 = length t -> exists o' q', length o' = length o2 /\ keeps q q' /\
       print_f64 (old ++ q) max (Info b fl w p) x =
       (let d := w - Z.of_nat (length t) in
        if 0 <? d then
          let stop := Z.of_nat (length t) + (max - Z.of_nat (length t)) - 1 in
          y <- move_up (length t) (Z.to_nat d) stop (t ++ o' ++ q') ;;
          y <- fill_front (Z.to_nat d) stop (if has fl FMT_ZERO then 48 else 32) y ;;
          Some (y, Z.of_nat (length t) + d)
        else Some (t ++ o' ++ q', Z.of_nat (length t)))) ->
     exists q', print_f64 (old ++ q) max (Info b fl w p) x = Some (apply_width false z w t ++ q', Z.of_nat (length old)) /\ keeps q q').
  { intros t b fl z wd w old q max F Hw L M K. unfold apply_width in L |- *. cbn [orb] in *. rewrite Z.abs_eq in * by easy. destruct (Z.ltb_spec w 0); [lia|]. rewrite app_length, repeat_length in L.
    destruct (split_at old (length t) ltac:(lia)) as (o1 & o2 & -> & L1). rewrite app_length in L.
    destruct (K o1 o2 eq_refl L1) as (o' & q' & Lo & Kq & ->). exists q'. split; [|easy]. destruct F as (_ & Fz & _). rewrite Fz. rewrite app_length in *.
    destruct (Z.ltb_spec 0 (w - Z.of_nat (length t))) as [D|D].
    - replace (Z.to_nat (w - Z.of_nat (length t))) with (length o') by lia.
      cbv zeta. destruct (move_up_ok (Z.of_nat (length t) + (max - Z.of_nat (length t)) - 1) t o' q' ltac:(lia)) as (y & -> & Ly). cbn [obind].
      rewrite <- Ly. rewrite fill_front_ok by lia. cbn [obind]. replace (Z.to_nat w - length t)%nat with (length y) by lia. rewrite <- app_assoc. do 2 f_equal. lia.
    - replace (Z.to_nat w - length t)%nat with O in * by lia. destruct o2; [|cbn [length] in *; lia]. destruct o'; [|easy]. cbn [repeat app length] in *. do 2 f_equal. lia. }
  destruct (Req_dec r 0) as [E0|N0].
  - exists [48]. split; [exists r; split; [easy|left; easy]|]. intros b fl z wd w old q max F Hw L M. apply (G [48] b fl z wd); try easy. intros o1 o2 -> L1.
    destruct o1 as [|o [|]]; try easy. exists o2, q. split; [easy|]. split; [apply keeps_refl|]. unfold print_f64.
    destruct (f_nonzero x) eqn:Nz; [exfalso; now apply (nonzero_real x r R) in Nz|].
    assert (1 < max). { rewrite app_length in M. cbn [length] in M. lia. }
    rewrite <- app_assoc. cbn [app]. pose proof (put_ok [] o (o2 ++ q) max 48 H) as PO. cbn [app length] in PO. rewrite PO. cbn [obind flags]. destruct F as (_ & _ & _ & _ & _ & _ & _ & Fa). rewrite Fa. cbn [obind width length].
    destruct (0 <? w - Z.of_nat 1); easy.
  - set (y := if SFltb x f_zero then fneg x else x).
    assert (Ry : is_real y (Rabs r)).
    { unfold y. destruct (SFltb x f_zero) eqn:E.
      - apply (neg_real x r R) in E. rewrite Rabs_left by easy. now apply fneg_real.
      - rewrite Rabs_pos_eq; [easy|]. destruct (Rle_or_lt 0 r) as [Y|Y]; [easy|]. apply (neg_real x r R) in Y. congruence. }
    destruct (positive_ok y (Rabs r) (Z.to_nat n) Ry) as (w0 & vs & Ew & Hw0 & Bw & Ev & Dv); [split; [now apply Rabs_pos_lt|easy]|lia|].
    destruct (numeral_u64 w0 Hw0) as (wt & Nw). destruct (numerals vs (proj1 (proj2 Dv))) as (vts & Nv).
    set (sg := if SFltb x f_zero then [45] else if m then [43] else []).
    set (tailt := match Z.to_nat n with O => [] | _ => 46 :: concat vts end).
    exists (sg ++ wt ++ tailt). split.
    + exists r. split; [easy|]. right. split; [easy|]. exists sg, w0, wt, vs, vts. repeat (split; try easy); try apply Bw; try apply Dv. unfold sg. destruct (SFltb x f_zero) eqn:E.
      * left. split; [|easy]. now apply (neg_real x r R).
      * right. split; [|easy]. destruct (Rtotal_order r 0) as [Y|[Y|Y]]; [|easy|easy]. apply (neg_real x r R) in Y. congruence.
    + intros b fl z wd w old q max F Hw L M. apply (G (sg ++ wt ++ tailt) b fl z wd); try easy. intros o1 o2 -> L1. unfold print_f64.
      destruct (f_nonzero x) eqn:Nz; [|apply (nonzero_real x r R) in N0; congruence]. cbn [flags width precision].
      assert (Lmax : Z.of_nat (length (sg ++ wt ++ tailt)) < max) by (rewrite app_length in M; lia).
      rewrite !app_length in *. 
      (* the sign *)
      assert (Sg : exists oo, (if SFltb x f_zero then ' (t, k, r) <- put ((o1 ++ o2) ++ q) 0 max 45 ;; Some (t, k, r, fneg x)
          else if has fl FMT_MINUS then ' (t, k, r) <- put ((o1 ++ o2) ++ q) 0 max 43 ;; Some (t, k, r, x)
          else Some ((o1 ++ o2) ++ q, O, max, x)) = Some (sg ++ oo ++ q, length sg, max - Z.of_nat (length sg), y) /\ (length oo + length sg = length o1 + length o2)%nat).
      { destruct F as (Fm & _). unfold sg, y in *. rewrite Fm. destruct (SFltb x f_zero); [|destruct m]; cbn [length app] in *.
        - destruct o1 as [|o o1]; [cbn [length] in L1; lia|]. exists (o1 ++ o2). cbn [app]. pose proof (put_ok [] o ((o1 ++ o2) ++ q) max 45 ltac:(lia)) as PO. cbn [app length] in PO. rewrite PO. cbn [obind length]. rewrite app_length. split; [easy|lia].
        - destruct o1 as [|o o1]; [cbn [length] in L1; lia|]. exists (o1 ++ o2). cbn [app]. pose proof (put_ok [] o ((o1 ++ o2) ++ q) max 43 ltac:(lia)) as PO. cbn [app length] in PO. rewrite PO. cbn [obind length]. rewrite app_length. split; [easy|lia].
        - exists (o1 ++ o2). rewrite Z.sub_0_r, app_length. split; [easy|lia]. }
      destruct Sg as (oo & -> & Loo). cbn [obind]. rewrite Ew. cbn [obind].
      destruct (put_u64_ok sg oo q (max - Z.of_nat (length sg)) w0 wt Hw0 Nw ltac:(lia) ltac:(lia)) as (o3 & q3 & -> & L3 & K3). cbn [obind]. fold n. destruct F as (_ & _ & _ & _ & _ & _ & _ & Fa). rewrite Fa. cbn [orb].
      unfold tailt in *. clear tailt. destruct (Z.to_nat n) as [|n'] eqn:En.
      * destruct (Z.ltb_spec 0 n); [lia|]. cbn [obind]. rewrite app_length, app_nil_r. cbn [length] in *. rewrite !Nat.add_0_r in *. exists o3, q3. split; [lia|]. split; [easy|].
        replace (max - Z.of_nat (length sg) - Z.of_nat (length wt)) with (max - Z.of_nat (length sg + length wt)) by lia. easy.
      * destruct (Z.ltb_spec 0 n); [|lia]. cbn [length] in *. destruct o3 as [|o o3]; [cbn [length] in *; lia|]. cbn [length] in L3. cbn [app]. rewrite put_ok by lia. cbn [obind].
        destruct (frac_digits_ok (S n') _ 10 vs vts Ev Nv (proj1 (proj2 Dv)) ((sg ++ wt) ++ [46]) o3 q3 (max - Z.of_nat (length sg) - Z.of_nat (length wt) - 1) ltac:(lia) ltac:(lia)) as (o4 & q4 & -> & L4 & K4).
        cbn [obind]. exists o4, q4. split; [lia|]. split; [eapply keeps_trans; eassumption|]. rewrite !app_length, <- !app_assoc. cbn [length app].
        replace (length sg + (length wt + S (length (concat vts))))%nat with (length sg + length wt + 1 + length (concat vts))%nat by lia.
        replace (max - Z.of_nat (length sg) - Z.of_nat (length wt) - 1 - Z.of_nat (length (concat vts))) with (max - Z.of_nat (length sg + length wt + 1 + length (concat vts))) by lia. easy.
Qed.
