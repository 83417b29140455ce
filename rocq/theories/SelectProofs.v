(** Lemmas about waiting times and sets of descriptors. *)
From Coq Require Import Reals SpecFloat Psatz Lra.
From Flocq Require Import Core BinarySingleNaN Sterbenz.
From Verif Require Import Base Float FloatSpec FloatProofs FloatProofs4 Clock ClockProofs FloatFun FloatFunProofs Select.
Local Open Scope R_scope.

Lemma fraction_fmt_pos r : fmt r -> 0 <= r -> fmt (r - IZR (Ztrunc r)).
Proof.
  intros F P. rewrite Ztrunc_floor by exact P. pose proof (Zfloor_lb r) as L. pose proof (Zfloor_ub r) as U. destruct (Z_le_dec (Zfloor r) 0) as [H|H].
  - assert (Zfloor r = 0%Z) as ->. { apply Z.le_antisymm; [exact H|]. apply Zfloor_lub. exact P. } now rewrite Rminus_0_r.
  - assert (1 <= IZR (Zfloor r)) by (apply IZR_le; lia). apply sterbenz; [apply FLT_exp_valid; reflexivity|apply FLT_exp_monotone|exact F| |lra].
    rewrite <- Ztrunc_floor by exact P. now apply fmt_trunc.
Qed.
Lemma fraction_fmt r : fmt r -> fmt (r - IZR (Ztrunc r)).
Proof.
  intros F. destruct (Rle_or_lt 0 r) as [P|P]; [now apply fraction_fmt_pos|]. replace (r - IZR (Ztrunc r)) with (- (- r - IZR (Ztrunc (- r)))) by (rewrite Ztrunc_opp, opp_IZR; lra). apply fmt_neg, fraction_fmt_pos; [now apply fmt_neg|lra].
Qed.
Lemma fraction_bound f : fmt f -> 0 <= f < 1 -> f <= 1 - / 9007199254740992.
Proof.
  intros F B. destruct (Rle_or_lt f (1 / 2)) as [H|H]; [lra|]. destruct (grid f (-1) F) as (m & E). { rewrite Rabs_right by lra. change (bpow radix2 (-1)) with (/ 2). lra. }
  change (bpow radix2 (-1 - 52)) with (/ 9007199254740992) in E. assert (M : IZR m < IZR 9007199254740992) by lra. apply lt_IZR in M. assert (IZR m <= IZR 9007199254740991) by (apply IZR_le; lia). lra.
Qed.
Lemma micro_lt f : fmt f -> 0 <= f < 1 -> 0 <= rnd (f * 1000000) < 1000000.
Proof.
  intros F B. pose proof (fraction_bound f F B) as H. split; [apply rnd_pos; lra|]. destruct (Rlt_or_le (rnd (f * 1000000)) 1000000) as [Q|Q]; [exact Q|exfalso].
  set (v := 1000000 - 1000000 * / 9007199254740992). assert (V : rnd (f * 1000000) <= rnd v) by (apply rnd_mono; unfold v; lra).
  set (y := 1000000 - / 8589934592). assert (Y : fmt y). { replace y with (IZR 8589934591999999 * bpow radix2 (-33)); [apply fmt_int_exp; lia|]. unfold y. change (bpow radix2 (-33)) with (/ 8589934592). lra. }
  pose proof (rnd_nearest v y Y) as N. assert (Hv : v = 1000000 - 1000000 * / 9007199254740992) by reflexivity. assert (Hy : y = 1000000 - / 8589934592) by reflexivity. clearbody v y.
  rewrite (Rabs_right (rnd v - v)) in N by lra. assert (A : Rabs (y - v) <= / 100000000000) by (apply Rabs_le; lra). lra.
Qed.
Lemma million_real : is_real f_1e6 1000000.
Proof. apply int_real. lia. Qed.
Lemma fraction_real x r : is_real x r -> - IZR (2 ^ 63) <= r < IZR (2 ^ 63) -> is_real (fsub x (f_of_int (Ztrunc r))) (r - IZR (Ztrunc r)).
Proof.
  intros X B. pose proof (real_fmt _ _ X) as F. rewrite <- (rnd_fmt _ (fraction_fmt r F)). apply fsub_real; [exact X| |].
  - apply of_int; [now apply fmt_trunc|]. pose proof (trunc_abs r) as T. rewrite <- abs_IZR in T. apply le_IZR. eapply Rle_trans; [exact T|]. apply Rabs_le. change (IZR (2 ^ 64)) with (IZR (2 * 2 ^ 63)). rewrite mult_IZR. pose proof (IZR_lt 0 (2 ^ 63) eq_refl). lra.
  - apply small_64. pose proof (trunc_abs r) as T. assert (Rabs r <= IZR (2 ^ 63)) by (apply Rabs_le; lra). eapply Rle_trans; [apply Rabs_triang|]. rewrite Rabs_Ropp. change (IZR (2 ^ 64)) with (IZR (2 * 2 ^ 63)). rewrite mult_IZR. lra.
Qed.
Lemma trunc_frac r : Rabs (r - IZR (Ztrunc r)) < 1.
Proof.
  destruct (Rle_or_lt 0 r) as [P|P].
  - rewrite Ztrunc_floor by exact P. pose proof (Zfloor_lb r). pose proof (Zfloor_ub r). apply Rabs_lt. lra.
  - rewrite Ztrunc_ceil by lra. pose proof (Zceil_ub r). pose proof (Zceil_lb r). apply Rabs_lt. lra.
Qed.
Lemma micro_small f : Rabs f < 1 -> Rabs (rnd (f * 1000000)) <= 1000000.
Proof.
  intros B. apply Rabs_lt_inv in B. assert (F : fmt 1000000) by (apply (fmt_int 1000000); lia). pose proof (rnd_mono (f * 1000000) 1000000 ltac:(lra)) as U. pose proof (rnd_mono (- (1000000)) (f * 1000000) ltac:(lra)) as L. rewrite rnd_neg in L. rewrite (rnd_fmt 1000000 F) in L, U. apply Rabs_le. lra.
Qed.
(** the waiting time of any number that fits *)
Lemma timeval_real x r : is_real x r -> - IZR (2 ^ 63) <= r < IZR (2 ^ 63) -> timeval x = Some (Ztrunc r, Ztrunc (rnd ((r - IZR (Ztrunc r)) * 1000000))).
Proof.
  intros X B. unfold timeval. rewrite (cast_real x r X B). cbn [obind]. pose proof (fraction_real x r X B) as F. pose proof (micro_small _ (trunc_frac r)) as M.
  assert (S : small (rnd ((r - IZR (Ztrunc r)) * 1000000))). { unfold small. eapply Rle_lt_trans; [exact M|]. apply Rlt_trans with (bpow radix2 20); [change (bpow radix2 20) with 1048576; lra|apply bpow_lt; lia]. }
  pose proof (fmul_real _ _ _ _ F million_real S) as P. rewrite (cast_real _ _ P); [reflexivity|]. apply Rabs_le_inv in M. assert (1000000 < IZR (2 ^ 63)) by (apply IZR_lt; lia). lra.
Qed.

Local Open Scope Z_scope.
Lemma fd_set_in fds fd fds' : fd_set fds fd = Some fds' -> (NoDup fds -> NoDup fds') /\ forall g, In g fds' <-> g = fd \/ In g fds.
Proof.
  unfold fd_set. destruct ((0 <=? fd) && (fd <? FD_SETSIZE)); [|discriminate]. intros E. injection E as <-. destruct (in_dec Z.eq_dec fd fds) as [I|I].
  - split; [auto|]. intros g. split; [now right|intros [->|H]; assumption].
  - split; [intros N; now constructor|]. intros g. cbn. split; intros [H|H]; auto.
Qed.
Lemma multi_loop_ok l : forall max fds max' fds', multi_loop l max fds = Some (max', fds') -> (forall fd, In fd l -> fd < 1024) /\ (NoDup fds -> NoDup fds') /\ (forall g, In g fds' <-> In g fds \/ (In g l /\ 0 <= g)) /\ max <= max' /\ (forall g, In g l -> g <= max') /\ (max' = max \/ In max' l).
Proof.
  induction l as [|s l IH]; intros max fds max' fds' E; cbn [multi_loop] in E.
  - injection E as <- <-. repeat split; try tauto; try lia; try (intros ? []). intros [H|[[] _]]; exact H.
  - assert (X : exists fds1, (if -1 <? s then fd_set fds s else Some fds) = Some fds1 /\ s < 1024 /\ (NoDup fds -> NoDup fds1) /\ (forall g, In g fds1 <-> In g fds \/ (g = s /\ 0 <= g)) /\ multi_loop l (if max <? s then s else max) fds1 = Some (max', fds')).
    { destruct (-1 <? s) eqn:P.
      - destruct (fd_set fds s) as [fds1|] eqn:F; [|discriminate]. exists fds1. destruct (fd_set_in _ _ _ F) as (N & I). split; [reflexivity|]. split; [unfold fd_set, FD_SETSIZE in F; destruct (0 <=? s); [destruct (s <? 1024) eqn:K; [lia|discriminate]|discriminate]|]. split; [exact N|]. split; [|exact E].
        intros g. rewrite I. split; [intros [->|H]; [right; lia|now left]|intros [H|[-> _]]; auto].
      - exists fds. split; [reflexivity|]. split; [lia|]. split; [auto|]. split; [|exact E]. intros g. split; [now left|]. intros [H|[-> H]]; [exact H|lia]. }
    destruct X as (fds1 & _ & S & N1 & I1 & E1). apply IH in E1. destruct E1 as (A & N & I & M & Mx & O). repeat split.
    + intros fd [<-|H]; [exact S|now apply A].
    + auto.
    + intros H. apply I in H. rewrite I1 in H. cbn. destruct H as [[H|[-> H]]|[H H']]; auto.
    + intros H. apply I. rewrite I1. cbn in H. destruct H as [H|[[->|H] H']]; auto.
    + destruct (max <? s) eqn:Q; lia.
    + intros g [<-|H]; [destruct (max <? s) eqn:Q; lia|now apply Mx].
    + destruct O as [O|O]; [|right; now right]. destruct (max <? s) eqn:Q; [right; left; congruence|now left].
Qed.
Lemma multi_loop_some l : forall max fds, (forall fd, In fd l -> fd < 1024) -> exists r, multi_loop l max fds = Some r.
Proof.
  induction l as [|s l IH]; intros max fds A; cbn [multi_loop]; [eexists; reflexivity|]. assert (S : s < 1024) by (apply A; now left). assert (A' : forall fd, In fd l -> fd < 1024) by (intros fd H; apply A; now right).
  destruct (-1 <? s) eqn:P; [|cbn [obind]; now apply IH]. unfold fd_set, FD_SETSIZE. destruct (0 <=? s) eqn:Q; [|lia]. destruct (s <? 1024) eqn:K; [|lia]. cbn [andb obind]. now apply IH.
Qed.
