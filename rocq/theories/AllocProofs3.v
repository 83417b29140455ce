(** Proofs about the stack and the scratch allocator. *)
From Verif Require Import Base Bits BitsSpec BitsProofs Mem MemSpec MemProofs MemProofs2 Alloc AllocSpec AllocProofs AllocProofs2.

Local Arguments Z.mul : simpl never.
Local Arguments Z.add : simpl never.
Local Arguments Z.sub : simpl never.
Local Arguments Z.pow : simpl never.
Local Arguments Z.modulo : simpl never.
Local Arguments Z.of_nat : simpl never.
Local Arguments loadn : simpl never.
Local Arguments storen : simpl never.
Local Arguments memset : simpl never.

Section Stack.
  Set Default Proof Using "All".
  Variables start total : Z.
  Hypothesis Hstart : 0 < start.
  Hypothesis Htotal : 0 <= total.
  Hypothesis Hroom : start + total + 2^62 < 2^64.

  Fixpoint frames (m : mem) (top : Z) (live : list (block * stackm)) : Prop :=
    match live with
    | [] => True
    | ((p, size), s0) :: r =>
      0 <= size /\ 0 <= st_allocated s0 /\ start + st_allocated s0 <= p - 8 /\ p + size = start + top /\
      loadn m (p - 8) 8 = Some (st_allocated s0) /\ s0 = mkStack start total (st_allocated s0) /\
      frames m (st_allocated s0) r
    end.

  Record stack_inv (m : mem) (s : stackm) (live : list (block * stackm)) : Prop := {
    si_s : s = mkStack start total (st_allocated s);
    si_b : 0 <= st_allocated s <= total;
    si_acc : accessible m start total;
    si_frames : frames m (st_allocated s) live
  }.

  Lemma frames_le m live : forall top p size s0, frames m top live -> In ((p, size), s0) live ->
    start + 8 <= p /\ 0 <= size /\ p + size <= start + top.
  Proof.
    induction live as [|[[q sz] t] r IH]; intros top p size s0 F H; [destruct H|]. cbn in F.
    destruct F as (F1 & F2 & F3 & F4 & F5 & F6 & F7). destruct H as [E|H].
    - injection E as -> -> ->. lia.
    - specialize (IH _ _ _ _ F7 H). lia.
  Qed.

  Lemma frames_ext m1 m2 live : forall top, (forall x, x < start + top -> ~ in_some (map fst live) x -> m1 x = m2 x) ->
    frames m1 top live -> frames m2 top live.
  Proof.
    induction live as [|[[q sz] t] r IH]; intros top H F; [exact F|]. cbn in F |- *.
    destruct F as (F1 & F2 & F3 & F4 & F5 & F6 & F7). repeat split; try assumption.
    - rewrite <- F5. symmetry. apply loadn_ext. intros x Hx. change (Z.of_nat 8) with 8 in Hx. apply H; [lia|].
      intros (b & [<-|Hb] & Hb2); cbn in Hb2; [lia|]. apply in_map_iff in Hb. destruct Hb as ([[p' s'] t'] & <- & Hb).
      pose proof (frames_le _ _ _ _ _ _ F7 Hb). cbn in Hb2. lia.
    - apply IH; [|assumption]. intros x Hx N. apply H; [lia|].
      intros (b & [<-|Hb] & Hb2); [cbn in Hb2; lia|]. apply N. exists b. auto.
  Qed.

  Lemma stack_alloc_ok m s live size k : stack_inv m s live -> 0 <= size -> 0 <= k <= 62 ->
    forall curr, align_forward (start + st_allocated s) (2^k) = Some curr ->
    (start + total < curr + (size + 8) -> stack_alloc m s None size (2^k) = None) /\
    (curr + (size + 8) <= start + total -> exists m' s',
       stack_alloc m s None size (2^k) = Some (m', s', curr + 8) /\
       stack_inv m' s' (((curr + 8, size), s) :: live) /\
       (forall x, ~ (curr <= x < curr + 8) -> m' x = m x)).
  Proof.
    intros I Hs Hk curr E. destruct I.
    pose proof (align_forward_correct (start + st_allocated s) k Hk ltac:(lia)) as AF.
    assert (2^k <= 2^62) by (apply Z.pow_le_mono_r; lia).
    destruct AF as (c & Ec & (_ & L2 & _)); [lia|]. rewrite E in Ec. injection Ec as <-.
    unfold stack_alloc. rewrite si_s0. cbn [st_start st_total st_allocated]. rewrite E. cbn [obind]. split; intros Hf.
    - replace (start + total <? curr + (size + 8)) with true by (symmetry; apply Z.ltb_lt; lia). reflexivity.
    - replace (start + total <? curr + (size + 8)) with false by (symmetry; apply Z.ltb_ge; lia). cbn [obind st_start st_total st_allocated].
      destruct (storen8_ok m curr (st_allocated s)) as (m' & Em & Lm & Fm & Am).
      { lia. } { intros x Hx. apply (acc_not_none _ _ _ si_acc0). lia. }
      rewrite Em. cbn [obind]. eexists _, _. split; [reflexivity|]. split; [|exact Fm].
      constructor; cbn [st_allocated].
      + reflexivity.
      + lia.
      + apply Am. assumption.
      + cbn [frames]. replace (curr + 8 - 8) with curr by lia. cbn [st_allocated]. repeat split; try lia; try assumption.
        apply (frames_ext m); [|assumption]. intros x Hx _. symmetry. apply Fm. lia.
  Qed.

  Lemma stack_history_inv m0 : accessible m0 start total -> forall m s live,
    stack_history start total m0 m s live -> stack_inv m s live.
  Proof.
    intros A0 m s live H. induction H.
    - constructor; cbn; try assumption; try lia; try exact I. reflexivity.
    - rename IHstack_history into I.
      destruct (align_forward (start + st_allocated s) (2^k)) as [curr|] eqn:E.
      2:{ destruct I. unfold stack_alloc in H2. rewrite si_s0 in H2. cbn [st_start st_total st_allocated] in H2.
          rewrite E in H2. discriminate. }
      destruct (stack_alloc_ok m s live size k I H0 H1 curr E) as [S1 S2].
      destruct (Z_le_dec (curr + (size + 8)) (start + total)) as [L|L].
      + destruct (S2 L) as (m1 & s1 & E1 & I1 & _). rewrite E1 in H2. injection H2 as <- <- <-. exact I1.
      + rewrite S1 in H2 by lia. discriminate.
    - rename IHstack_history into I. destruct I. destruct b as [p size]. cbn in si_frames0.
      destruct si_frames0 as (F1 & F2 & F3 & F4 & F5 & F6 & F7).
      unfold stack_free in H0. cbn [fst] in H0. replace (p =? 0) with false in H0 by (symmetry; apply Z.eqb_neq; lia).
      rewrite F5 in H0. cbn [obind] in H0. injection H0 as <-. rewrite si_s0. constructor; cbn [st_start st_total st_allocated];
        try assumption; try reflexivity. lia.
    - rename IHstack_history into I. destruct I. rewrite si_s0. constructor; cbn; try assumption; try reflexivity; try lia.
    - rename IHstack_history into I. destruct I. constructor; try assumption.
      + apply acc_poke; assumption.
      + apply (frames_ext m); [|assumption]. intros y Hy N. unfold poke. destruct (Z.eqb_spec y x) as [->|]; [contradiction|reflexivity].
  Qed.

  (** freeing the newest block gives back the state before its allocation *)
  Lemma stack_free_restores m s p size s0 live : stack_inv m s (((p, size), s0) :: live) -> stack_free m s p = Some s0.
  Proof.
    intros []. cbn in si_frames0. destruct si_frames0 as (F1 & F2 & F3 & F4 & F5 & F6 & F7).
    unfold stack_free. replace (p =? 0) with false by (symmetry; apply Z.eqb_neq; lia). rewrite F5. cbn [obind].
    rewrite F6, si_s0. reflexivity.
  Qed.

  (** blocks with their headers *)
  Definition with_header (e : block * stackm) : block := (fst (fst e) - 8, snd (fst e) + 8).
  Lemma stack_blocks m s live : stack_inv m s live ->
    pairwise_apart (map with_header live) /\ Forall (inside start total) (map with_header live).
  Proof.
    intros []. split.
    - clear si_b0 si_s0 si_acc0. revert si_frames0. generalize (st_allocated s).
      induction live as [|[[p size] t] r IH]; intros top F; [exact Logic.I|]. cbn in F.
      destruct F as (F1 & F2 & F3 & F4 & F5 & F6 & F7). cbn [map pairwise_apart]. split; [|eapply IH; eassumption].
      rewrite Forall_forall. intros b Hb. apply in_map_iff in Hb. destruct Hb as ([[q sz] u] & <- & Hb).
      pose proof (frames_le _ _ _ _ _ _ F7 Hb). unfold apart, with_header. cbn. lia.
    - rewrite Forall_forall. intros b Hb. apply in_map_iff in Hb. destruct Hb as ([[q sz] u] & <- & Hb).
      pose proof (frames_le _ _ _ _ _ _ si_frames0 Hb). unfold inside, with_header. cbn. lia.
  Qed.
  Unset Default Proof Using.
End Stack.

(** The returned address, for any alignment 2^k. *)
Lemma stack_alloc_address m s resized size k m' s' p : 0 <= k ->

  stack_alloc m s resized size (2^k) = Some (m', s', p) ->
  exists x, align_forward x (2^k) = Some (p - 8).
Proof.
  intros Hk E. unfold stack_alloc in E.
  destruct (align_forward (st_start s + st_allocated s) (2^k)) as [curr|] eqn:E1; [|discriminate]. cbn [obind] in E.
  destruct (st_start s + st_total s <? curr + (size + 8)).
  - destruct resized as [[m1 start]|]; [|discriminate]. cbn [obind] in E.
    destruct (align_forward (start + st_allocated s) (2^k)) as [curr'|] eqn:E2; [|discriminate]. cbn [obind] in E.
    destruct (storen m1 curr' 8 (st_allocated s)); [|discriminate]. cbn [obind] in E. injection E as <- <- <-.
    eexists. rewrite E2. f_equal. lia.
  - cbn [obind] in E. destruct (storen m curr 8 (st_allocated s)); [|discriminate]. cbn [obind] in E. injection E as <- <- <-.
    eexists. rewrite E1. f_equal. lia.
Qed.

Lemma align_forward_mod x k r : 0 <= k <= 63 -> align_forward x (2^k) = Some r -> r mod 2^k = 0.
Proof.
  intros Hk E. unfold align_forward in E. destruct (is_power_of_two (2^k)); [|discriminate]. injection E as <-.
  apply Z.bits_inj'. intros n Hn. rewrite Z.bits_0.
  destruct (Z_lt_dec n k) as [L|L].
  - rewrite Z.mod_pow2_bits_low by lia. rewrite Z.land_spec. apply andb_false_iff. right.
    unfold u64. rewrite Z.mod_pow2_bits_low by lia. rewrite Z.lnot_spec by lia.
    replace (2^k - 1) with (Z.ones k) by (rewrite Z.ones_equiv; lia). rewrite Z.ones_spec_low by lia. reflexivity.
  - apply Z.mod_pow2_bits_high. lia.
Qed.

Lemma stack_alloc_misaligned m s resized size k m' s' p : 4 <= k <= 62 ->
  stack_alloc m s resized size (2^k) = Some (m', s', p) -> p mod 2^k = 8.
Proof.
  intros Hk E. destruct (stack_alloc_address m s resized size k m' s' p ltac:(lia) E) as (x & Ex).
  apply align_forward_mod in Ex; [|lia]. assert (2^4 <= 2^k) by (apply Z.pow_le_mono_r; lia). change (2^4) with 16 in H.
  replace p with ((p - 8) + 8) by lia. rewrite Z.add_mod, Ex by lia. rewrite Z.add_0_l, Z.mod_mod by lia. apply Z.mod_small. lia.
Qed.

Lemma stack_alloc_aligned m s resized size k m' s' p : 0 <= k <= 3 ->
  stack_alloc m s resized size (2^k) = Some (m', s', p) -> p mod 2^k = 0.
Proof.
  intros Hk E. destruct (stack_alloc_address m s resized size k m' s' p ltac:(lia) E) as (x & Ex).
  apply align_forward_mod in Ex; [|lia]. replace p with ((p - 8) + 2^(3-k) * 2^k).
  - rewrite Z.mod_add; [assumption|]. pose proof (Z.pow_pos_nonneg 2 k ltac:(lia) ltac:(lia)). lia.
  - rewrite <- Z.pow_add_r by lia. replace (3 - k + k) with 3 by lia. lia.
Qed.

(** * Scratch *)
Lemma header_fill_loop_ok fuel : forall m ptr data, data - ptr <= 8 * Z.of_nat fuel ->
  (forall x, ptr <= x < data + 7 -> m x <> None) ->
  exists m', header_fill_loop fuel m ptr data = Some m' /\
    (forall x, ~ (ptr <= x < data + 7) -> m' x = m x) /\ (forall b n, accessible m b n -> accessible m' b n).
Proof.
  induction fuel; intros m ptr data Hf H; cbn [header_fill_loop].
  - replace (ptr <? data) with false by (symmetry; apply Z.ltb_ge; lia).
    exists m. split; [reflexivity|]. auto.
  - destruct (Z.ltb_spec ptr data) as [L|L].
    + destruct (storen8_ok m ptr MINUS1) as (m1 & E & _ & F & A); [unfold MINUS1; lia|intros x Hx; apply H; lia|].
      rewrite E. cbn [obind]. destruct (IHfuel m1 (ptr + 8) data ltac:(lia)) as (m' & E' & F' & A').
      { intros x Hx. rewrite F by lia. apply H. lia. }
      exists m'. split; [exact E'|]. split.
      * intros x Hx. rewrite F' by lia. apply F. lia.
      * intros b n Hb. apply A', A. exact Hb.
    + exists m. split; [reflexivity|]. auto.
Qed.

Lemma header_fill_ok m header pt size : 0 <= size < 2^64 ->
  (forall x, header <= x < Z.max (header + 8) (pt + 7) -> m x <> None) ->
  exists m', header_fill m header pt size = Some m' /\ loadn m' header 8 = Some size /\
    (forall x, ~ (header <= x < Z.max (header + 8) (pt + 7)) -> m' x = m x) /\
    (forall b n, accessible m b n -> accessible m' b n).
Proof.
  intros Hs H. unfold header_fill. destruct (storen8_ok m header size Hs) as (m1 & E & L & F & A).
  { intros x Hx. apply H. lia. }
  rewrite E. cbn [obind].
  destruct (header_fill_loop_ok (Z.to_nat (pt - header)) m1 (header + 8) pt) as (m' & E' & F' & A').
  { lia. }
  { intros x Hx. rewrite F by lia. apply H. lia. }
  exists m'. split; [exact E'|]. split.
  - rewrite <- L. apply loadn_ext. intros x Hx. change (Z.of_nat 8) with 8 in Hx. apply F'. lia.
  - split.
    + intros x Hx. rewrite F' by lia. apply F. lia.
    + intros b n Hb. apply A', A. exact Hb.
Qed.

Lemma scratch_first m start total size k : 0 < start -> 0 <= size -> 2 <= k <= 62 ->
  size + 3 + 8 + 2^k <= total -> start + total < 2^64 -> accessible m start total ->
  exists m' s' p, scratch_alloc true m (scratch_init start total) size (2^k) = Some (m', s', p) /\
    start + 8 <= p /\ p + size <= start + total /\ p mod 2^k = 0 /\
    (forall x, p <= x < p + size -> m' x = Some 0) /\
    (forall x, ~ (start <= x < start + total) -> m' x = m x).
Proof.
  intros Hs Hsz Hk Hfit Htop Acc.
  assert (P4: 4 <= 2^k) by (change 4 with (2^2); apply Z.pow_le_mono_r; lia).
  destruct (align_forward_correct (start + 8) k ltac:(lia) ltac:(lia) ltac:(lia)) as (data & Ed & (_ & L1 & L2)).
  assert (Hd: data <= start + 8 + 2^k - 1).
  { specialize (L2 ((start + 8 + (2^k - 1)) / 2^k)).
    pose proof (Z.div_mod (start + 8 + (2^k - 1)) (2^k) ltac:(lia)).
    pose proof (Z.mod_pos_bound (start + 8 + (2^k - 1)) (2^k) ltac:(lia)). lia. }
  unfold scratch_alloc, scratch_init. cbn [sc_alloc sc_start sc_total sc_free]. rewrite Ed. cbn [obind].
  replace (Z.rem (2^k) 4) with 0.
  2:{ replace k with ((k-2) + 2) by lia. rewrite Z.pow_add_r by lia. change (2^2) with 4. symmetry. apply Z.rem_mul. lia. }
  cbn [Z.eqb negb].
  set (sz := Z.quot (size + 3) 4 * 4).
  assert (Bsz: size <= sz <= size + 3).
  { unfold sz. rewrite Z.quot_div_nonneg by lia. pose proof (Z.div_mod (size+3) 4). pose proof (Z.mod_pos_bound (size+3) 4). lia. }
  clearbody sz.
  replace (start + total <? start + sz) with false by (symmetry; apply Z.ltb_ge; lia). cbn [obind].
  unfold scratch_is_in_use. cbn [sc_alloc sc_start sc_total sc_free]. rewrite Z.eqb_refl.
  destruct (header_fill_ok m start (start + sz) (start + sz - start)) as (m1 & E1 & _ & F1 & A1).
  { lia. }
  { intros x Hx. apply (acc_not_none _ _ _ Acc). lia. }
  rewrite E1. cbn [obind].
  destruct (zero_if_ok true m1 data sz ltac:(lia) ltac:(lia)) as (m2 & E2 & _ & G).
  { apply (acc_sub _ start total); [apply A1; assumption|lia|lia]. }
  specialize (G eq_refl). destruct G as [G1 G2].
  rewrite E2. cbn [obind]. eexists _, _, _. split; [reflexivity|].
  split; [lia|]. split; [lia|]. split; [apply (align_forward_mod (start + 8) k data ltac:(lia) Ed)|]. split.
  - intros x Hx. apply G1. lia.
  - intros x Hx. rewrite G2 by lia. apply F1. lia.
Qed.
