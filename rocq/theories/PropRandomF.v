(** C99: zpl_random_range_f64. *)
From Coq Require Import Reals SpecFloat Psatz Lra.
From Flocq Require Import Core BinarySingleNaN.
From Verif Require Import Base Float FloatSpec FloatProofs FloatProofs4 ClockProofs FloatFun FloatFunProofs Random PropRandom.
Local Open Scope R_scope.

Definition below_2_64 (u : Z) : Prop := (0 <= u < 2 ^ 64)%Z.
(** the highest number that may come out for the bounds [l] and [h] *)
Definition top (l h : R) : R := rnd (l + rnd (h - l)).

Lemma max_real : is_real (f_of_int (2 ^ 64 - 1)) (IZR (2 ^ 64)).
Proof. replace (f_of_int (2 ^ 64 - 1)) with (S754_finite false 4503599627370496 12) by (vm_compute; reflexivity). repeat split. unfold SF2R, F2R. cbn [cond_Zopp Fnum Fexp]. change (bpow radix2 12) with 4096. change (IZR (2 ^ 64)) with 18446744073709551616. lra. Qed.
Lemma u64_real u : below_2_64 u -> is_real (f_of_int u) (rnd (IZR u)) /\ 0 <= rnd (IZR u) <= IZR (2 ^ 64).
Proof.
  intros B. assert (P : 0 <= IZR u <= IZR (2 ^ 64)) by (split; [apply (IZR_le 0)|apply IZR_le]; unfold below_2_64 in B; lia). split.
  - apply f_of_int_real. apply small_64. rewrite Rabs_right; lra.
  - split; [apply rnd_pos; lra|]. rewrite <- (rnd_fmt (IZR (2 ^ 64))) by (apply (fmt_bpow 64); lia). apply rnd_mono. lra.
Qed.
(** the fraction *)
Definition part (u : Z) : R := rnd (rnd (IZR u) / IZR (2 ^ 64)).
Lemma part_real u : below_2_64 u -> is_real (fdiv (f_of_int u) (f_of_int (2 ^ 64 - 1))) (part u) /\ 0 <= part u <= 1.
Proof.
  intros B. destruct (u64_real u B) as [H [L U]]. pose proof (IZR_lt 0 (2 ^ 64) eq_refl) as P. set (w := rnd (IZR u)) in *. assert (Q : 0 <= w / IZR (2 ^ 64) <= 1).
  { split; [apply Rmult_le_pos; [exact L|left; now apply Rinv_0_lt_compat]|]. apply Rmult_le_reg_r with (IZR (2 ^ 64)); [exact P|]. replace (w / IZR (2 ^ 64) * IZR (2 ^ 64)) with w by (field; lra). lra. }
  split.
  - apply fdiv_real; [exact H|apply max_real|apply Rgt_not_eq; exact P|]. apply small_64. rewrite Rabs_right by (apply Rle_ge, Q). apply Rle_trans with 1; [apply Q|]. apply (IZR_le 1). discriminate.
  - unfold part. fold w. split; [apply rnd_pos; apply Q|]. apply Rle_trans with (rnd 1); [apply rnd_mono; apply Q|]. rewrite rnd_fmt; [lra|apply (fmt_int 1); reflexivity].
Qed.
Definition made (u : Z) (l h : R) : R := rnd (rnd (part u * rnd (h - l)) + l).
Lemma made_bounds u l h : below_2_64 u -> fmt l -> l <= h -> 0 <= rnd (part u * rnd (h - l)) <= rnd (h - l) /\ l <= made u l h <= top l h.
Proof.
  intros B F L. destruct (part_real u B) as [_ P]. assert (D : 0 <= rnd (h - l)) by (apply rnd_pos; lra). set (d := rnd (h - l)) in *. assert (M : 0 <= rnd (part u * d) <= d).
  { split; [apply rnd_pos; apply Rmult_le_pos; lra|]. rewrite <- (rnd_fmt d) at 2 by apply fmt_rnd. apply rnd_mono. nra. }
  split; [exact M|]. unfold made, top. fold d. split; [rewrite <- (rnd_fmt l F) at 1|]; apply rnd_mono; lra.
Qed.
Lemma small_between a b r : small a -> small b -> a <= r <= b -> small r.
Proof. unfold small. intros A B C. apply Rabs_def2 in A. apply Rabs_def2 in B. apply Rabs_def1; lra. Qed.
Lemma real_small x r : is_real x r -> small r.
Proof. intros H. destruct (is_real_bin x r H) as (b & _ & _ & <-). unfold small. apply abs_B2R_lt_emax. Qed.

(** For ordered bounds whose distance is representable at all, the result is never below the lower bound nor above [top]. *)
Theorem C99_range (u : Z) (lo hi : f64) (l h : R) : below_2_64 u -> is_real lo l -> is_real hi h -> l <= h -> small (rnd (h - l)) -> small (top l h) ->
  exists v, is_real (range_of_u64 u lo hi) v /\ l <= v <= top l h.
Proof.
  intros B Hl Hh L S T. destruct (part_real u B) as [P _]. destruct (made_bounds u l h B (real_fmt _ _ Hl) L) as [M N]. exists (made u l h). split; [|exact N]. unfold range_of_u64, made.
  apply fadd_real; [|exact Hl|].
  - apply fmul_real; [exact P|now apply fsub_real|]. apply (small_between 0 (rnd (h - l))); [|exact S|lra]. unfold small. rewrite Rabs_R0. apply bpow_gt_0.
  - apply (small_between l (top l h)); [apply (real_small _ _ Hl)|exact T|exact N].
Qed.
(** If the distance is itself a double the result is within the bounds, which are both reached. *)
Theorem C99_within (u : Z) (lo hi : f64) (l h : R) : below_2_64 u -> is_real lo l -> is_real hi h -> l <= h -> fmt (h - l) -> small (h - l) ->
  exists v, is_real (range_of_u64 u lo hi) v /\ l <= v <= h.
Proof.
  intros B Hl Hh L F S. assert (T : top l h = h). { unfold top. rewrite (rnd_fmt _ F). replace (l + (h - l)) with h by ring. apply rnd_fmt, (real_fmt _ _ Hh). }
  rewrite <- T. apply C99_range; try assumption; [rewrite (rnd_fmt _ F); exact S|rewrite T; apply (real_small _ _ Hh)].
Qed.
Theorem C99_ends (lo hi : f64) (l h : R) : is_real lo l -> is_real hi h -> l <= h -> small (rnd (h - l)) -> small (top l h) ->
  is_real (range_of_u64 0 lo hi) l /\ is_real (range_of_u64 (2 ^ 64 - 1) lo hi) (top l h).
Proof.
  intros Hl Hh L S T. assert (D : is_real (fsub hi lo) (rnd (h - l))) by now apply fsub_real. unfold range_of_u64. split.
  - replace (fdiv (f_of_int 0) (f_of_int (2 ^ 64 - 1))) with f_zero by (vm_compute; reflexivity). assert (Z : is_real f_zero 0) by (repeat split). assert (M : is_real (fmul f_zero (fsub hi lo)) (rnd (0 * rnd (h - l)))). { apply fmul_real; [exact Z|exact D|]. rewrite Rmult_0_l, rnd_0. unfold small. rewrite Rabs_R0. apply bpow_gt_0. }
    rewrite Rmult_0_l, rnd_0 in M. rewrite <- (rnd_fmt l (real_fmt _ _ Hl)). replace l with (0 + l) at 1 by ring. apply fadd_real; [exact M|exact Hl|]. rewrite Rplus_0_l, (rnd_fmt l (real_fmt _ _ Hl)). apply (real_small _ _ Hl).
  - replace (fdiv (f_of_int (2 ^ 64 - 1)) (f_of_int (2 ^ 64 - 1))) with (f_of_int 1) by (vm_compute; reflexivity). assert (M : is_real (fmul (f_of_int 1) (fsub hi lo)) (rnd (1 * rnd (h - l)))). { apply fmul_real; [apply (int_real 1); reflexivity|exact D|]. rewrite Rmult_1_l, rnd_fmt by apply fmt_rnd. exact S. }
    rewrite Rmult_1_l, rnd_fmt in M by apply fmt_rnd. unfold top. rewrite (Rplus_comm l). apply fadd_real; [exact M|exact Hl|]. rewrite Rplus_comm. exact T.
Qed.
(** More random bits, no lower result. *)
Theorem C99_monotone (u u' : Z) (lo hi : f64) (l h v v' : R) : below_2_64 u -> below_2_64 u' -> (u <= u')%Z -> is_real lo l -> is_real hi h -> l <= h -> small (rnd (h - l)) -> small (top l h) ->
  is_real (range_of_u64 u lo hi) v -> is_real (range_of_u64 u' lo hi) v' -> v <= v'.
Proof.
  intros B B' U Hl Hh L S T (_ & _ & <-) (_ & _ & <-).
  assert (E : forall w, below_2_64 w -> SF2R radix2 (range_of_u64 w lo hi) = made w l h).
  { intros w W. destruct (part_real w W) as [P _]. destruct (made_bounds w l h W (real_fmt _ _ Hl) L) as [M N]. refine (proj2 (proj2 (_ : is_real _ _))). unfold range_of_u64, made. apply fadd_real; [|exact Hl|].
    - apply fmul_real; [exact P|now apply fsub_real|]. apply (small_between 0 (rnd (h - l))); [|exact S|lra]. unfold small. rewrite Rabs_R0. apply bpow_gt_0.
    - apply (small_between l (top l h)); [apply (real_small _ _ Hl)|exact T|exact N]. }
  rewrite (E u B), (E u' B'). unfold made. apply rnd_mono. apply Rplus_le_compat_r. apply rnd_mono. apply Rmult_le_compat_r; [apply rnd_pos; lra|]. unfold part. apply rnd_mono. apply Rmult_le_compat_r; [left; apply Rinv_0_lt_compat, (IZR_lt 0); reflexivity|]. apply rnd_mono. now apply IZR_le.
Qed.
(** The bounds are not kept in general: between -1 and 3 * 2^-54 the number 2^-52 may come out, which is higher. *)
Theorem C99_range_refuted : exists lo hi l h v u, below_2_64 u /\ is_real lo l /\ is_real hi h /\ l <= h /\ is_real (range_of_u64 u lo hi) v /\ h < v.
Proof.
  exists (f_of_int (-1)), (S754_finite false 6755399441055744 (-105)), (-1), (6755399441055744 * / 40564819207303340847894502572032), (4503599627370496 * / 20282409603651670423947251286016), (2 ^ 64 - 1)%Z. split; [split; [discriminate|reflexivity]|]. split; [apply (int_real (-1)); reflexivity|]. split; [repeat split|]. split; [lra|]. split; [|lra].
  replace (range_of_u64 _ _ _) with (S754_finite false 4503599627370496 (-104)) by (vm_compute; reflexivity). repeat split.
Qed.
(** If the distance overflows the result is infinite or not a number, whatever the bits. *)
Theorem C99_overflow_refuted (u : Z) (lo hi : f64) : below_2_64 u -> fsub hi lo = S754_infinity false -> is_finite_SF lo = true -> is_finite_SF (range_of_u64 u lo hi) = false.
Proof.
  intros B E F. destruct (part_real u B) as [(V & G & R') P]. unfold range_of_u64. rewrite E. destruct (fdiv _ _) as [s|s| |s m e]; try discriminate G; [reflexivity|]. destruct s; destruct lo as [t|t| |t m' e']; try discriminate F; reflexivity.
Qed.
Example C99_overflow_ex : fsub (S754_finite false 9007199254740991 971) (S754_finite true 9007199254740991 971) = S754_infinity false.
Proof. vm_compute. reflexivity. Qed.
(** The generator feeds it. *)
Theorem C99_generator (high_first : bool) (r : random) (lo hi : f64) (l h : R) : state r -> is_real lo l -> is_real hi h -> l <= h -> small (rnd (h - l)) -> small (top l h) ->
  exists f r' v, random_range_f64 high_first r lo hi = (f, r') /\ state r' /\ is_real f v /\ l <= v <= top l h.
Proof.
  intros S Hl Hh L D T. pose proof (gen_u64_ok high_first r S) as G. unfold random_range_f64. destruct (gen_u64 high_first r) as [u r']. destruct G as [U S']. destruct (C99_range u lo hi l h) as (v & V & B); try assumption. exists (range_of_u64 u lo hi), r', v. repeat split; assumption || apply V || apply S' || apply B.
Qed.
(** zpl_random_range_f64 from -1 to 1 keeps within its bounds. *)
Example C99_unit : fmt (1 - -1) /\ small (1 - -1) /\ range_of_u64 (2 ^ 63) (f_of_int (-1)) (f_of_int 1) = f_zero.
Proof. split; [|split]; [|apply (real_small (f_of_int 2))|vm_compute; reflexivity]; replace (1 - -1) with 2 by ring; [apply (fmt_int 2)|apply (int_real 2)]; reflexivity. Qed.
Print Assumptions C99_range.
Print Assumptions C99_within.
Print Assumptions C99_ends.
Print Assumptions C99_monotone.
Print Assumptions C99_range_refuted.
Print Assumptions C99_overflow_refuted.
Print Assumptions C99_generator.
