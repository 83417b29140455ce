(** The operations of [Float] on finite numbers as roundings of real numbers, by way of Flocq. *)
From Coq Require Import Reals SpecFloat Psatz.
From Flocq Require Import Core BinarySingleNaN Relative.
From Verif Require Import Base Float NumSpec FloatSpec.

Local Instance Hprec : FLX.Prec_gt_0 53 := eq_refl _.
Local Instance Hmax : Prec_lt_emax 53 1024 := eq_refl _.
Notation bin := (binary_float 53 1024).
(** rounding to nearest even in binary64 *)
Notation fexp64 := (SpecFloat.fexp 53 1024).
Definition rnd (x : R) : R := round radix2 fexp64 ZnearestE x.

Lemma nearest_even_eq s m l : round_nearest_even m l = choice_mode mode_NE s m l.
Proof. case l; [reflexivity|intro c]. case c; [|reflexivity..]. now simpl; unfold Round.cond_incr; case Z.even. Qed.
Lemma round_aux_eq sx mx ex lx : SpecFloat.binary_round_aux 53 1024 sx mx ex lx = binary_round_aux 53 1024 mode_NE sx mx ex lx.
Proof.
  unfold SpecFloat.binary_round_aux, binary_round_aux. set (mrse' := shr_fexp _ _ _ _ _). case mrse'; intros mrs' e'; simpl.
  now rewrite (nearest_even_eq sx).
Qed.
Lemma round_eq s m e : SpecFloat.binary_round 53 1024 s m e = binary_round 53 1024 mode_NE s m e.
Proof. unfold SpecFloat.binary_round, binary_round, shl_align_fexp. set (mez := shl_align _ _ _). case mez as [mz ez]. apply round_aux_eq. Qed.
Lemma normalize_eq m e z : SpecFloat.binary_normalize 53 1024 m e z = B2SF (binary_normalize 53 1024 Hprec Hmax mode_NE m e z).
Proof. case m as [|p|p]; [now simpl|simpl; rewrite B2SF_SF2B; apply round_eq..]. Qed.
Lemma mul_eq (x y : bin) : fmul (B2SF x) (B2SF y) = B2SF (Bmult mode_NE x y).
Proof. case x as [sx|sx| |sx mx ex Bx]; case y as [sy|sy| |sy my ey By]; [easy..|]. simpl. rewrite B2SF_SF2B. apply round_aux_eq. Qed.
Lemma add_eq (x y : bin) : fadd (B2SF x) (B2SF y) = B2SF (Bplus mode_NE x y).
Proof. case x as [sx|sx| |sx mx ex Bx]; case y as [sy|sy| |sy my ey By]; [now (trivial || simpl; case Bool.eqb)..|]. apply normalize_eq. Qed.
Lemma sub_eq (x y : bin) : fsub (B2SF x) (B2SF y) = B2SF (Bminus mode_NE x y).
Proof.
  case x as [sx|sx| |sx mx ex Bx]; case y as [sy|sy| |sy my ey By]; [now (trivial || simpl; case Bool.eqb)..|].
  simpl. unfold fsub. simpl. unfold Zminus. rewrite <- cond_Zopp_negb. apply normalize_eq.
Qed.
Lemma div_eq (x y : bin) : fdiv (B2SF x) (B2SF y) = B2SF (Bdiv mode_NE x y).
Proof.
  case x as [sx|sx| |sx mx ex Bx]; case y as [sy|sy| |sy my ey By]; [now (trivial || simpl; case Bool.eqb)..|].
  simpl. rewrite B2SF_SF2B. unfold fdiv. simpl. set (melz := SFdiv_core_binary _ _ _ _ _ _). case melz as [[mz ez] lz]. apply round_aux_eq.
Qed.

Lemma is_real_bin x r : is_real x r -> exists b : bin, x = B2SF b /\ is_finite b = true /\ B2R b = r.
Proof.
  intros (V & F & E). exists (SF2B x V). rewrite B2SF_SF2B, is_finite_SF2B, B2R_SF2B. easy.
Qed.
Lemma bin_is_real (b : bin) : is_finite b = true -> is_real (B2SF b) (B2R b).
Proof. intros F. split; [apply valid_binary_B2SF|]. rewrite is_finite_SF_B2SF, SF2R_B2SF. easy. Qed.
Definition small (x : R) : Prop := (Rabs x < bpow radix2 1024)%R.
Ltac small_round S := rewrite Rlt_bool_true in *; [|exact S].
Lemma fmul_real x y r s : is_real x r -> is_real y s -> small (rnd (r * s)) -> is_real (fmul x y) (rnd (r * s)).
Proof.
  intros Hx Hy L. destruct (is_real_bin _ _ Hx) as (a & -> & Fa & <-). destruct (is_real_bin _ _ Hy) as (b & -> & Fb & <-).
  rewrite mul_eq. pose proof (Bmult_correct 53 1024 _ _ mode_NE a b) as H. cbn [round_mode] in H. rewrite Rlt_bool_true in H by exact L.
  destruct H as (E & F & _). rewrite Fa, Fb in F. unfold rnd. rewrite <- E. now apply bin_is_real.
Qed.
Lemma fadd_real x y r s : is_real x r -> is_real y s -> small (rnd (r + s)) -> is_real (fadd x y) (rnd (r + s)).
Proof.
  intros Hx Hy L. destruct (is_real_bin _ _ Hx) as (a & -> & Fa & <-). destruct (is_real_bin _ _ Hy) as (b & -> & Fb & <-).
  rewrite add_eq. pose proof (Bplus_correct 53 1024 _ _ mode_NE a b Fa Fb) as H. cbn [round_mode] in H. rewrite Rlt_bool_true in H by exact L.
  destruct H as (E & F & _). unfold rnd. rewrite <- E. now apply bin_is_real.
Qed.
Lemma fsub_real x y r s : is_real x r -> is_real y s -> small (rnd (r - s)) -> is_real (fsub x y) (rnd (r - s)).
Proof.
  intros Hx Hy L. destruct (is_real_bin _ _ Hx) as (a & -> & Fa & <-). destruct (is_real_bin _ _ Hy) as (b & -> & Fb & <-).
  rewrite sub_eq. pose proof (Bminus_correct 53 1024 _ _ mode_NE a b Fa Fb) as H. cbn [round_mode] in H. rewrite Rlt_bool_true in H by exact L.
  destruct H as (E & F & _). unfold rnd. rewrite <- E. now apply bin_is_real.
Qed.
Lemma fdiv_real x y r s : is_real x r -> is_real y s -> s <> 0%R -> small (rnd (r / s)) -> is_real (fdiv x y) (rnd (r / s)).
Proof.
  intros Hx Hy N L. destruct (is_real_bin _ _ Hx) as (a & -> & Fa & <-). destruct (is_real_bin _ _ Hy) as (b & -> & Fb & <-).
  rewrite div_eq. pose proof (Bdiv_correct 53 1024 _ _ mode_NE a b N) as H. cbn [round_mode] in H. rewrite Rlt_bool_true in H by exact L.
  destruct H as (E & F & _). rewrite Fa in F. unfold rnd. rewrite <- E. now apply bin_is_real.
Qed.
Lemma f_of_int_real z : small (rnd (IZR z)) -> is_real (f_of_int z) (rnd (IZR z)).
Proof.
  intros L. unfold f_of_int. rewrite normalize_eq. pose proof (binary_normalize_correct 53 1024 _ _ mode_NE z 0 false) as H. cbn zeta in H.
  replace (F2R (Float radix2 z 0)) with (IZR z) in H by (unfold F2R; cbn; ring). cbn [round_mode] in H. rewrite Rlt_bool_true in H by exact L.
  destruct H as (E & F & _). unfold rnd. rewrite <- E. now apply bin_is_real.
Qed.
Lemma fneg_real x r : is_real x r -> is_real (fneg x) (- r).
Proof.
  intros H. destruct (is_real_bin _ _ H) as (b & -> & F & <-). assert (E : fneg (B2SF b) = B2SF (Bopp b)) by now destruct b.
  rewrite E, <- B2R_Bopp. apply bin_is_real. now rewrite is_finite_Bopp.
Qed.

(** ** What rounding does *)
Definition fmt (x : R) : Prop := generic_format radix2 fexp64 x.
Lemma real_fmt x r : is_real x r -> fmt r.
Proof. intros H. destruct (is_real_bin _ _ H) as (b & -> & F & <-). apply generic_format_B2R. Qed.
Lemma rnd_fmt x : fmt x -> rnd x = x.
Proof. intros H. apply round_generic; [apply valid_rnd_N|exact H]. Qed.
Lemma fmt_rnd x : fmt (rnd x).
Proof. apply generic_format_round; [apply fexp_correct; exact Hprec|apply valid_rnd_N]. Qed.
(** 53-bit multiples of a power of two are numbers of the format *)
Lemma fmt_int_exp m e : (Z.abs m < 2 ^ 53)%Z -> (-1074 <= e)%Z -> fmt (IZR m * bpow radix2 e).
Proof.
  intros M E. apply (generic_format_FLT radix2 (-1074) 53). exists (Float radix2 m e); cbn [Fnum Fexp]; [reflexivity|exact M|exact E].
Qed.
Lemma fmt_int m : (Z.abs m < 2 ^ 53)%Z -> fmt (IZR m).
Proof. intros M. rewrite <- (Rmult_1_r (IZR m)). change 1%R with (bpow radix2 0). now apply fmt_int_exp. Qed.
(** the unit of rounding *)
Definition u := bpow radix2 (-53).
Lemma rnd_err x : exists d h, (Rabs d <= u)%R /\ (Rabs h <= bpow radix2 (-1075))%R /\ rnd x = (x * (1 + d) + h)%R.
Proof.
  destruct (error_N_FLT radix2 (-1074) 53 eq_refl (fun z => negb (Z.even z)) x) as (d & h & Hd & Hh & _ & E). exists d, h. repeat split.
  - replace u with (/ 2 * bpow radix2 (-53 + 1))%R; [exact Hd|]. unfold u. change (-53 + 1)%Z with (1 + -53)%Z. rewrite bpow_plus. change (bpow radix2 1) with 2%R. field.
  - replace (bpow radix2 (-1075)) with (/ 2 * bpow radix2 (-1074))%R; [exact Hh|]. change (-1074)%Z with (1 + -1075)%Z. rewrite bpow_plus. change (bpow radix2 1) with 2%R. field.
  - exact E.
Qed.
Lemma rnd_mono x y : (x <= y)%R -> (rnd x <= rnd y)%R.
Proof. intros H. apply round_le; [apply fexp_correct; exact Hprec|apply valid_rnd_N|exact H]. Qed.
Lemma rnd_0 : rnd 0 = 0%R.
Proof. apply round_0. apply valid_rnd_N. Qed.
Lemma fmt_bpow e : (-1074 <= e)%Z -> fmt (bpow radix2 e).
Proof. intros. rewrite <- (Rmult_1_l (bpow radix2 e)). apply (fmt_int_exp 1); [reflexivity|easy]. Qed.
Lemma small_bound x e : (-1074 <= e < 1024)%Z -> (Rabs x <= bpow radix2 e)%R -> small (rnd x).
Proof.
  intros E H. assert (B : rnd (bpow radix2 e) = bpow radix2 e) by (apply rnd_fmt, fmt_bpow; lia). apply Rabs_le_inv in H.
  assert (O : rnd (- bpow radix2 e) = (- bpow radix2 e)%R) by (apply rnd_fmt, generic_format_opp, fmt_bpow; lia).
  unfold small. apply Rle_lt_trans with (bpow radix2 e); [|apply bpow_lt; lia]. apply Rabs_le. rewrite <- O at 1. rewrite <- B at 2. split; apply rnd_mono; apply H.
Qed.
Lemma rnd_nearest t y : fmt y -> (Rabs (rnd t - t) <= Rabs (y - t))%R.
Proof. intros F. destruct (round_N_pt radix2 fexp64 (fun x => negb (Z.even x)) t) as (_ & N). now apply N. Qed.
