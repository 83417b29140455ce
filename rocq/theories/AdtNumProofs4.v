(** The doubles read from real numbers of documents. *)
From Coq Require Import String Reals Psatz SpecFloat.
From Flocq Require Import Core.
From Verif Require Import Base CStr CStrSpec Num NumSpec Float FloatSpec FloatProofs FloatProofs2 FloatProofs3 PropFloat Node AdtNumSpec.
Open Scope Z_scope. Open Scope list_scope.

Lemma or0_decimal ds fs : decimal (or0 ds) (or0 fs) = decimal ds fs.
Proof.
  assert (A : decimal (or0 ds) (or0 fs) = decimal ds (or0 fs)) by (destruct ds; [|reflexivity]; unfold decimal; cbn [or0]; now rewrite !number_app).
  rewrite A. destruct fs; [|reflexivity]. unfold decimal. cbn [or0]. rewrite !number_app. cbn [length Z.of_nat]. change (number 10 [0]) with 0. change (number 10 []) with 0.
  rewrite plus_IZR, plus_IZR, !mult_IZR. cbn [pow]. change (10 ^ Z.pos (Pos.of_succ_nat 0)) with 10. change (10 ^ 0) with 1. field.
Qed.
Lemma f_10 : is_real (f_eb false) 10.
Proof. apply (f_int 10). reflexivity. Qed.
Definition sgr (neg : bool) : R := if neg then (-1)%R else 1%R.
Lemma sgr_abs neg : Rabs (sgr neg) = 1%R.
Proof. destruct neg; unfold sgr; [rewrite Rabs_left; lra|apply Rabs_R1]. Qed.
Lemma scale_err E0 M X : (1 <= M <= IZR (2 ^ 54))%R -> (0 <= Rabs X <= M)%R -> (0 <= E0 <= 200 * u)%R -> forall n k v r, (k + n <= 127)%nat -> is_real v r ->
  (Rabs (r - X * 10 ^ k) <= (E0 + 2 * u * INR k) * M * 10 ^ k)%R ->
  exists r', is_real (scale_by n (f_eb false) v) r' /\ (Rabs (r' - X * 10 ^ (k + n)) <= (E0 + 2 * u * INR (k + n)) * M * 10 ^ (k + n))%R.
Proof.
  intros HM HX HE. pose proof u_small as Hu. induction n as [|n IH]; intros k v r L R H.
  - rewrite Nat.add_0_r. exists r. split; [exact R|exact H].
  - cbn [scale_by]. rewrite <- Nat.add_succ_comm.
    assert (Hk : (INR k <= 127)%R) by (rewrite INR_IZR_INZ; apply IZR_le; lia). assert (P : (1 <= 10 ^ k)%R) by (apply pow_R1_Rle; lra). set (p := (10 ^ k)%R) in *.
    assert (Hk0 : (0 <= INR k)%R) by apply pos_INR.
    assert (B : (Rabs r <= 1.1 * M * p)%R).
    { replace r with ((r - X * p) + X * p)%R by ring. apply Rle_trans with (1 := Rabs_triang _ _). rewrite (Rabs_mult X), (Rabs_pos_eq p) by lra.
      assert ((E0 + 2 * u * INR k) * M * p <= 0.1 * M * p)%R by (repeat apply Rmult_le_compat_r; try lra; nra).
      assert (Rabs X * p <= M * p)%R by (apply Rmult_le_compat_r; lra). lra. }
    assert (B10 : (Rabs (r * 10) <= 11 * M * p)%R) by (rewrite Rabs_mult, (Rabs_pos_eq 10) by lra; lra).
    assert (SM : small (rnd (r * 10))).
    { apply (small_bound _ 600); [lia|]. apply Rle_trans with (1 := B10).
      assert (p <= IZR (10 ^ 127))%R. { unfold p. rewrite pow_IZR10. apply IZR_le, Z.pow_le_mono_r; lia. }
      apply Rle_trans with (11 * IZR (2 ^ 54) * IZR (10 ^ 127))%R; [apply Rmult_le_compat; try nra|].
      rewrite <- !mult_IZR. rewrite <- (IZR_Zpower radix2) by discriminate. apply IZR_le. now vm_compute. }
    pose proof (fmul_real _ _ _ _ R f_10 SM) as R1. destruct (IH (S k) _ _ ltac:(lia) R1) as (r' & R' & B').
    + cbn [pow]. fold p. pose proof (rnd_within (r * 10) _ B10) as W. rewrite S_INR.
      replace (rnd (r * 10) - X * (10 * p))%R with ((rnd (r * 10) - r * 10) + 10 * (r - X * p))%R by ring. apply Rle_trans with (1 := Rabs_triang _ _).
      rewrite (Rabs_mult 10), (Rabs_pos_eq 10) by lra. assert (1 <= M * p)%R by nra. assert (u * (11 * M * p) = 11 * u * M * p)%R by ring. assert (u * / 4 <= u * / 4 * (M * p))%R by nra.
      replace ((E0 + 2 * u * (INR k + 1)) * M * (10 * p))%R with (10 * ((E0 + 2 * u * INR k) * M * p) + 20 * u * M * p)%R by ring. nra.
    + exists r'. split; [exact R'|exact B'].
Qed.
Lemma real_text_dec neg ds fs : Forall dig ds -> Forall dig fs -> decimal_text (real_text neg ds fs) (sgr neg) (or0 ds) (or0 fs) 0.
Proof.
  intros D F. assert (D' : Forall dig (or0 ds)) by (destruct ds; [repeat constructor; unfold dig; lia|easy]). assert (F' : Forall dig (or0 fs)) by (destruct fs; [repeat constructor; unfold dig; lia|easy]).
  apply (text_ok _ [] (if neg then [45] else []) _ _ (46 :: chars (or0 fs)) _ [] 0).
  - unfold real_text. cbn [app]. now rewrite app_nil_r.
  - constructor.
  - destruct neg; constructor.
  - exact D'.
  - now constructor.
  - constructor.
  - now destruct ds.
Qed.
(** the double of a number with a non-negative exponent *)
Lemma value_ok neg ds fs n : Forall dig ds -> Forall dig fs -> number 10 ds < 2 ^ 53 -> (length fs <= 22)%nat -> (n <= 127)%nat ->
  exists x r, real_value (RText (real_text neg ds fs) false n) = Some x /\ is_real x r /\
    (Rabs (r - sgr neg * decimal ds fs * 10 ^ n) <= INR (length fs + n + 2) * / 2 ^ 51 * (IZR (number 10 ds) + 1) * 10 ^ n)%R.
Proof.
  intros D F L Ln Hn. pose proof (real_text_dec neg ds fs D F) as T.
  assert (D' : Forall dig (or0 ds)) by (destruct ds; [repeat constructor; unfold dig; lia|easy]). assert (F' : Forall dig (or0 fs)) by (destruct fs; [repeat constructor; unfold dig; lia|easy]).
  assert (ND : number 10 (or0 ds) = number 10 ds) by now destruct ds.
  assert (Lf : (length (or0 fs) <= length fs + 1)%nat) by (destruct fs; cbn; lia).
  assert (Lf2 : (length (or0 fs) <= 22)%nat) by (destruct fs; cbn in *; lia).
  destruct (C86_error _ _ _ _ 0 0 [] T ends_0 ltac:(now rewrite ND) ltac:(lia) ltac:(lia)) as (v & r & E & R & B). rewrite ND in B. cbn [powerRZ] in B. rewrite !Rmult_1_r in B. rewrite or0_decimal in B.
  set (N := IZR (number 10 ds)) in *. pose proof (number_nonneg ds D) as Nn. assert (N0 : (0 <= N)%R) by now apply IZR_le.
  assert (N1 : (N + 1 <= IZR (2 ^ 54))%R) by (unfold N; rewrite <- plus_IZR; apply IZR_le; lia).
  assert (XB : (0 <= decimal ds fs <= N + 1)%R).
  { rewrite decimal_frac. fold N. pose proof (fracval_bound fs F 0) as FB. change (IZR (10 ^ Z.of_nat 0)) with 1%R in FB. rewrite Rinv_1 in FB. lra. }
  assert (U : (/ 2 ^ 51)%R = (4 * u)%R). { rewrite u_val. replace (IZR (2 ^ 53)) with (4 * 2 ^ 51)%R by (rewrite pow_IZR, <- mult_IZR; reflexivity). field. }
  rewrite U in *. pose proof u_small as Hu.
  assert (I1 : (0 <= INR (length (or0 fs) + 1) <= INR (length fs + 2))%R) by (split; [apply pos_INR|apply le_INR; lia]).
  assert (I2 : (INR (length fs + 2) <= 24)%R) by (rewrite INR_IZR_INZ; apply IZR_le; lia).
  destruct (scale_err (INR (length fs + 2) * (4 * u)) (N + 1) (sgr neg * decimal ds fs) ltac:(lra)) with (n := n) (k := O) (v := v) (r := r) as (r' & R' & B').
  - rewrite Rabs_mult, sgr_abs, (Rabs_pos_eq (decimal ds fs)) by lra. lra.
  - nra.
  - lia.
  - exact R.
  - cbn [pow INR]. rewrite !Rmult_1_r, Rmult_0_r, Rplus_0_r. apply Rle_trans with (1 := B). repeat apply Rmult_le_compat_r; lra.
  - cbn [Nat.add] in *. exists (scale_by n (f_eb false) v), r'. split; [unfold real_value; rewrite E; reflexivity|]. split; [exact R'|].
    apply Rle_trans with (1 := B'). apply Rmult_le_compat_r; [apply pow_le; lra|]. apply Rmult_le_compat_r; [lra|].
    replace (length fs + n + 2)%nat with ((length fs + 2) + n)%nat by lia. rewrite (plus_INR (length fs + 2) n). pose proof (pos_INR n). nra.
Qed.
