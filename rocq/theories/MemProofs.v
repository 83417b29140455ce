From Verif Require Import Base Mem MemSpec Bits BitsSpec BitsProofs.

Local Arguments Z.of_nat : simpl never.
Local Arguments Z.mul : simpl never.
Local Arguments Z.add : simpl never.
Local Arguments Z.sub : simpl never.
Local Arguments Z.pow : simpl never.
Local Arguments Z.modulo : simpl never.

(** ** Generic facts *)

Lemma acc_load m a n x : accessible m a n -> a <= x < a + n -> exists b, load8 m x = Some b /\ byte b.
Proof. intros H Hx. apply H. exact Hx. Qed.

Lemma store8_ok m a v : m a <> None ->
  exists m', store8 m a v = Some m' /\ (forall x, m' x = if x =? a then Some (v mod 256) else m x).
Proof.
  intros H. unfold store8. destruct (m a); [|congruence]. eexists. split; [reflexivity|]. reflexivity.
Qed.

Lemma loadn_ok m k : forall a, accessible m a (Z.of_nat k) -> exists w, loadn m a k = Some w /\ 0 <= w < 2^(8 * Z.of_nat k).
Proof.
  induction k; intros a H.
  - exists 0. simpl. split; [reflexivity|lia].
  - destruct (H a) as (b & Hb & Bb); [lia|]. simpl. unfold load8. rewrite Hb. simpl.
    destruct (IHk (a+1)) as (w & Hw & Bw). { intros x Hx. apply H. lia. }
    rewrite Hw. simpl. eexists. split; [reflexivity|].
    replace (8 * Z.of_nat (S k)) with (8 + 8 * Z.of_nat k) by lia.
    rewrite Z.pow_add_r by lia. change (2^8) with 256. unfold byte in Bb. lia.
Qed.

(** Storing a loaded word copies its bytes. *)
Lemma store_loaded m k : forall a w m1 d, accessible m a (Z.of_nat k) -> loadn m a k = Some w ->
  (forall x, d <= x < d + Z.of_nat k -> m1 x <> None) ->
  exists m2, storen m1 d k w = Some m2 /\
    (forall i, 0 <= i < Z.of_nat k -> m2 (d + i) = m (a + i)) /\
    (forall x, ~ (d <= x < d + Z.of_nat k) -> m2 x = m1 x).
Proof.
  induction k; intros a w m1 d H L A.
  - exists m1. simpl. repeat split; intros; lia.
  - destruct (H a) as (b & Hb & Bb); [lia|]. simpl in L. unfold load8 in L. rewrite Hb in L. simpl in L.
    destruct (loadn m (a+1) k) as [r|] eqn:Er; [|discriminate]. simpl in L. injection L as <-.
    simpl. destruct (store8_ok m1 d (b + 256 * r)) as (m' & Hs & Hm'). { apply A. lia. }
    rewrite Hs. simpl. unfold byte in Bb.
    replace ((b + 256 * r) / 256) with r by (apply (Z.div_unique _ _ _ b); lia).
    destruct (IHk (a+1) r m' (d+1)) as (m2 & H1 & H2 & H3).
    + intros x Hx. apply H. lia.
    + exact Er.
    + intros x Hx. rewrite Hm'. destruct (x =? d); [discriminate|]. apply A. lia.
    + exists m2. split; [exact H1|]. split.
      * intros i Hi. destruct (Z.eq_dec i 0) as [->|N].
        -- rewrite !Z.add_0_r. rewrite H3 by lia. rewrite Hm', Z.eqb_refl, Hb. f_equal.
           symmetry. apply (Z.mod_unique _ _ r); lia.
        -- replace (d + i) with (d + 1 + (i-1)) by lia. rewrite H2 by lia. f_equal. lia.
      * intros x Hx. rewrite H3 by lia. rewrite Hm'. destruct (Z.eqb_spec x d); [lia|reflexivity].
Qed.

Lemma load_range_ok m n : forall a, accessible m a (Z.of_nat n) ->
  exists l, load_range m a n = Some l /\ length l = n /\ bytes l /\
    (forall i, (i < n)%nat -> m (a + Z.of_nat i) = nth_error l i).
Proof.
  induction n; intros a H.
  - exists []. simpl. repeat split; try constructor. intros i Hi; lia.
  - destruct (H a) as (b & Hb & Bb); [lia|]. simpl. unfold load8. rewrite Hb. simpl.
    destruct (IHn (a+1)) as (l & Hl & Ll & Bl & Nl). { intros x Hx; apply H; lia. }
    rewrite Hl. simpl. exists (b :: l). split; [reflexivity|]. split; [simpl; lia|]. split; [constructor; assumption|].
    intros i Hi. destruct i.
    + simpl. rewrite Z.add_0_r. assumption.
    + simpl. rewrite <- Nl by lia. f_equal. lia.
Qed.

Lemma store_range_ok : forall l m a, bytes l -> (forall x, a <= x < a + Z.of_nat (length l) -> m x <> None) ->
  exists m', store_range m a l = Some m' /\
    (forall i, (i < length l)%nat -> m' (a + Z.of_nat i) = nth_error l i) /\
    (forall x, ~ (a <= x < a + Z.of_nat (length l)) -> m' x = m x).
Proof.
  induction l as [|b l]; intros m a B H.
  - exists m. simpl. repeat split; intros; lia.
  - simpl. destruct (store8_ok m a b) as (m1 & Hs & Hm1). { apply H. simpl; lia. }
    rewrite Hs. simpl. inversion B; subst. unfold byte in *.
    destruct (IHl m1 (a+1)) as (m2 & H1' & H2' & H3'); [assumption| |].
    { intros x Hx. rewrite Hm1. destruct (x =? a); [discriminate|]. apply H. simpl length. lia. }
    exists m2. split; [exact H1'|]. split.
    + intros i Hi. destruct i.
      * simpl. rewrite H3' by lia. rewrite Hm1, Z.add_0_r, Z.eqb_refl. f_equal. apply Z.mod_small. lia.
      * simpl nth_error. rewrite <- H2' by (simpl in Hi; lia). f_equal. lia.
    + intros x Hx. rewrite H3' by (simpl length in Hx; lia). rewrite Hm1.
      destruct (Z.eqb_spec x a); [simpl length in Hx; lia|reflexivity].
Qed.

Lemma acc_some m a n x : accessible m a n -> a <= x < a + n -> m x <> None.
Proof. intros H Hx. destruct (H x Hx) as (b & Hb & _). congruence. Qed.

(** ** memcopy *)
Lemma memcopy_correct m d s n : d <> 0 -> 0 <= n -> disjoint_ranges d s n ->
  accessible m d n -> accessible m s n -> exists m', memcopy m d s n = Some (m', d) /\ is_copy m d s n m'.
Proof.
  intros Hd Hn Hdis Ad As. unfold memcopy.
  destruct (Z.eqb_spec d 0); [lia|]. destruct (Z.ltb_spec n 0); [lia|].
  replace ((n =? 0) || (s + n <=? d) || (d + n <=? s)) with true
    by (symmetry; rewrite !orb_true_iff; destruct Hdis; [right; apply Z.leb_le|left; right; apply Z.leb_le]; lia).
  destruct (load_range_ok m (Z.to_nat n) s) as (l & Hl & Ll & Bl & Nl); [rewrite Z2Nat.id by lia; assumption|].
  rewrite Hl. simpl.
  destruct (store_range_ok l m d Bl) as (m' & H1 & H2 & H3).
  { intros x Hx. apply (acc_some m d n); [assumption|]. rewrite Ll, Z2Nat.id in Hx by lia. lia. }
  rewrite H1. simpl. exists m'. split; [reflexivity|].
  rewrite Ll, Z2Nat.id in H3 by lia. split; [|exact H3].
  intros i Hi. specialize (H2 (Z.to_nat i)). specialize (Nl (Z.to_nat i)).
  rewrite Z2Nat.id in H2, Nl by lia. rewrite H2, Nl by lia. reflexivity.
Qed.

(** ** memmove *)

(** Bytes [lo, hi) of the destination already hold the source bytes. *)
Definition copied (m0 : mem) (off lo hi : Z) (m' : mem) : Prop :=
  (forall x, lo <= x < hi -> m' x = m0 (x + off)) /\
  (forall x, ~ (lo <= x < hi) -> m' x = m0 x).

Lemma copied_some m0 off lo hi m' x n : copied m0 off lo hi m' ->
  accessible m0 lo n -> accessible m0 (lo + off) n -> hi <= lo + n -> lo <= x < lo + n -> m' x <> None.
Proof.
  intros [C1 C2] A1 A2 Hh Hx. destruct (Z.lt_ge_cases x hi).
  - rewrite C1 by lia. apply (acc_some m0 (lo+off) n); [assumption|lia].
  - rewrite C2 by lia. apply (acc_some m0 lo n); [assumption|lia].
Qed.

Set Default Proof Using "All".
Section Fwd.
  Variables (m0 : mem) (D S N : Z).
  Hypothesis (DS : D < S) (HN : 0 <= N) (AD : accessible m0 D N) (AS : accessible m0 S N).
  Let off := S - D.

  Lemma fwd_byte m1 i : copied m0 off D (D+i) m1 -> 0 <= i < N ->
    exists b m2, load8 m1 (S+i) = Some b /\ store8 m1 (D+i) b = Some m2 /\ copied m0 off D (D+(i+1)) m2.
  Proof.
    intros C Hi. destruct C as [C1 C2]. unfold load8.
    destruct (AS (S+i)) as (b & Hb & Bb); [lia|]. exists b.
    rewrite C2 by lia. destruct (store8_ok m1 (D+i) b) as (m2 & Hs & Hm2).
    { rewrite C2 by lia. apply (acc_some m0 D N); [assumption|lia]. }
    exists m2. split; [assumption|]. split; [assumption|]. unfold byte in Bb. split.
    - intros x Hx. rewrite Hm2. destruct (Z.eqb_spec x (D+i)) as [->|].
      + replace (D + i + off) with (S + i) by (unfold off; lia). rewrite Hb. f_equal. apply Z.mod_small; lia.
      + apply C1. lia.
    - intros x Hx. rewrite Hm2. destruct (Z.eqb_spec x (D+i)); [lia|]. apply C2. lia.
  Qed.

  Lemma fwd_tail fuel : forall m1 i n, copied m0 off D (D+i) m1 -> 0 <= i -> i + n = N -> 0 <= n -> n < Z.of_nat fuel ->
    exists m2, mm_fwd_tail fuel m1 (D+i) (S+i) n = Some m2 /\ copied m0 off D (D+N) m2.
  Proof.
    induction fuel; intros m1 i n C Hi Hin Hn Hf; [lia|]. simpl.
    destruct (Z.eqb_spec n 0).
    - subst n. exists m1. split; [reflexivity|]. replace N with i by lia. assumption.
    - destruct (fwd_byte m1 i C ltac:(lia)) as (b & m2 & Hl & Hs & C'). rewrite Hl. simpl. rewrite Hs. simpl.
      rewrite <- !Z.add_assoc. apply IHfuel; try lia. assumption.
  Qed.

  Lemma fwd_head fuel : forall m1 i n, copied m0 off D (D+i) m1 -> 0 <= i -> i + n = N -> 0 <= n -> n < Z.of_nat fuel ->
    (exists m2, mm_fwd_head fuel m1 (D+i) (S+i) n = Some (inl m2) /\ copied m0 off D (D+N) m2) \/
    (exists m2 i' n', mm_fwd_head fuel m1 (D+i) (S+i) n = Some (inr (m2, D+i', S+i', n')) /\
        copied m0 off D (D+i') m2 /\ i <= i' /\ i' + n' = N /\ 0 <= n' /\ (D+i') mod 8 = 0).
  Proof.
    induction fuel; intros m1 i n C Hi Hin Hn Hf; [lia|]. simpl.
    destruct (Z.eqb_spec ((D+i) mod 8) 0).
    - right. exists m1, i, n. repeat split; try assumption; try lia; apply C.
    - destruct (Z.eqb_spec n 0).
      + left. exists m1. split; [reflexivity|]. replace N with i by lia. assumption.
      + destruct (fwd_byte m1 i C ltac:(lia)) as (b & m2 & Hl & Hs & C'). rewrite Hl. simpl. rewrite Hs. simpl.
        rewrite <- !Z.add_assoc.
        destruct (IHfuel m2 (i+1) (n-1) C') as [?|(m3 & i' & n' & E & ?)]; try lia; [left; assumption|].
        right. exists m3, i', n'. intuition lia.
  Qed.

  Lemma fwd_words fuel : forall m1 i n, copied m0 off D (D+i) m1 -> 0 <= i -> i + n = N -> 0 <= n -> n < Z.of_nat fuel ->
    (D+i) mod 8 = 0 -> S mod 8 = D mod 8 ->
    exists m2 i' n', mm_fwd_words fuel m1 (D+i) (S+i) n = Some (m2, D+i', S+i', n') /\
        copied m0 off D (D+i') m2 /\ i <= i' /\ i' + n' = N /\ 0 <= n'.
  Proof.
    induction fuel; intros m1 i n C Hi Hin Hn Hf H8 HSD; [lia|]. simpl.
    destruct (Z.leb_spec 8 n).
    - assert (HS8: (S+i) mod 8 = 0).
      { rewrite Z.add_mod, HSD, <- Z.add_mod by lia. assumption. }
      unfold load64a, store64a. rewrite HS8, H8, Z.eqb_refl.
      assert (A8: accessible m1 (S+i) (Z.of_nat 8)).
      { intros x Hx. destruct C as [_ C2]. rewrite C2 by lia. apply AS. lia. }
      destruct (loadn_ok m1 8 (S+i) A8) as (w & Hw & _). rewrite Hw. unfold obind at 1.
      destruct (store_loaded m1 8 (S+i) w m1 (D+i) A8 Hw) as (m2 & Hs & H1 & H2).
      { intros x Hx. apply (copied_some m0 off D (D+i) m1 x N); try assumption; try lia.
        replace (D + off) with S by (unfold off; lia). assumption. }
      rewrite Hs. unfold obind at 1.
      rewrite <- !Z.add_assoc.
      destruct (IHfuel m2 (i+8) (n-8)) as (m3 & i' & n' & E & C' & ?); try lia.
      + destruct C as [C1 C2]. split.
        * intros x Hx. destruct (Z.lt_ge_cases x (D+i)).
          -- rewrite H2 by lia. apply C1. lia.
          -- replace x with (D + i + (x - (D+i))) by lia. rewrite H1 by lia.
             rewrite C2 by lia. f_equal. unfold off. lia.
        * intros x Hx. rewrite H2 by lia. apply C2. lia.
      + replace (D + (i+8)) with (D + i + 1*8) by lia. rewrite Z.mod_add by lia. assumption.
      + exists m3, i', n'. split; [exact E|]. split; [assumption|]. lia.
    - exists m1, i, n. repeat split; try apply C; lia.
  Qed.
End Fwd.

Section Bwd.
  Variables (m0 : mem) (D S N : Z).
  Hypothesis (DS : S < D) (HN : 0 <= N) (AD : accessible m0 D N) (AS : accessible m0 S N).
  Let off := S - D.

  Lemma bwd_byte m1 i : copied m0 off (D+i) (D+N) m1 -> 0 < i <= N ->
    exists b m2, load8 m1 (S+(i-1)) = Some b /\ store8 m1 (D+(i-1)) b = Some m2 /\ copied m0 off (D+(i-1)) (D+N) m2.
  Proof.
    intros C Hi. destruct C as [C1 C2]. unfold load8.
    destruct (AS (S+(i-1))) as (b & Hb & Bb); [lia|]. exists b.
    rewrite C2 by lia. destruct (store8_ok m1 (D+(i-1)) b) as (m2 & Hs & Hm2).
    { rewrite C2 by lia. apply (acc_some m0 D N); [assumption|lia]. }
    exists m2. split; [assumption|]. split; [assumption|]. unfold byte in Bb. split.
    - intros x Hx. rewrite Hm2. destruct (Z.eqb_spec x (D+(i-1))) as [->|].
      + replace (D + (i-1) + off) with (S + (i-1)) by (unfold off; lia). rewrite Hb. f_equal. apply Z.mod_small; lia.
      + apply C1. lia.
    - intros x Hx. rewrite Hm2. destruct (Z.eqb_spec x (D+(i-1))); [lia|]. apply C2. lia.
  Qed.

  Lemma bwd_tail fuel : forall m1 n, copied m0 off (D+n) (D+N) m1 -> 0 <= n <= N -> n < Z.of_nat fuel ->
    exists m2, mm_bwd_tail fuel m1 D S n = Some m2 /\ copied m0 off D (D+N) m2.
  Proof.
    induction fuel; intros m1 n C Hn Hf; [lia|]. simpl.
    destruct (Z.eqb_spec n 0).
    - subst n. exists m1. split; [reflexivity|]. rewrite Z.add_0_r in C. assumption.
    - destruct (bwd_byte m1 n C ltac:(lia)) as (b & m2 & Hl & Hs & C'). rewrite Hl. simpl. rewrite Hs. simpl.
      apply IHfuel; try lia. assumption.
  Qed.

  Lemma bwd_head fuel : forall m1 n, copied m0 off (D+n) (D+N) m1 -> 0 <= n <= N -> n < Z.of_nat fuel ->
    (exists m2, mm_bwd_head fuel m1 D S n = Some (inl m2) /\ copied m0 off D (D+N) m2) \/
    (exists m2 n', mm_bwd_head fuel m1 D S n = Some (inr (m2, n')) /\
        copied m0 off (D+n') (D+N) m2 /\ 0 <= n' <= n /\ (D+n') mod 8 = 0).
  Proof.
    induction fuel; intros m1 n C Hn Hf; [lia|]. simpl.
    destruct (Z.eqb_spec ((D+n) mod 8) 0).
    - right. exists m1, n. repeat split; try assumption; try lia; apply C.
    - destruct (Z.eqb_spec n 0).
      + left. exists m1. split; [reflexivity|]. subst n. rewrite Z.add_0_r in C. assumption.
      + destruct (bwd_byte m1 n C ltac:(lia)) as (b & m2 & Hl & Hs & C'). rewrite Hl. simpl. rewrite Hs. simpl.
        destruct (IHfuel m2 (n-1) C') as [?|(m3 & n' & E & ?)]; try lia; [left; assumption|].
        right. exists m3, n'. intuition lia.
  Qed.

  Lemma bwd_words fuel : forall m1 n, copied m0 off (D+n) (D+N) m1 -> 0 <= n <= N -> n < Z.of_nat fuel ->
    (D+n) mod 8 = 0 -> S mod 8 = D mod 8 ->
    exists m2 n', mm_bwd_words fuel m1 D S n = Some (m2, n') /\ copied m0 off (D+n') (D+N) m2 /\ 0 <= n' <= n.
  Proof.
    induction fuel; intros m1 n C Hn Hf H8 HSD; [lia|]. simpl.
    destruct (Z.leb_spec 8 n).
    - assert (HD8: (D+(n-8)) mod 8 = 0).
      { replace (D+(n-8)) with (D+n + (-1)*8) by lia. rewrite Z.mod_add by lia. assumption. }
      assert (HS8: (S+(n-8)) mod 8 = 0).
      { rewrite Z.add_mod, HSD, <- Z.add_mod by lia. assumption. }
      unfold load64a, store64a. rewrite HS8, HD8, Z.eqb_refl.
      assert (A8: accessible m1 (S+(n-8)) (Z.of_nat 8)).
      { intros x Hx. destruct C as [_ C2]. rewrite C2 by lia. apply AS. lia. }
      destruct (loadn_ok m1 8 (S+(n-8)) A8) as (w & Hw & _). rewrite Hw. unfold obind at 1.
      destruct (store_loaded m1 8 (S+(n-8)) w m1 (D+(n-8)) A8 Hw) as (m2 & Hs & H1 & H2).
      { intros x Hx. destruct C as [_ C2]. rewrite C2 by lia. apply (acc_some m0 D N); [assumption|lia]. }
      rewrite Hs. unfold obind at 1.
      destruct (IHfuel m2 (n-8)) as (m3 & n' & E & C' & ?); try lia.
      + destruct C as [C1 C2]. split.
        * intros x Hx. destruct (Z.lt_ge_cases x (D+n)).
          -- replace x with (D + (n-8) + (x - (D+(n-8)))) by lia. rewrite H1 by lia.
             rewrite C2 by lia. f_equal. unfold off. lia.
          -- rewrite H2 by lia. apply C1. lia.
        * intros x Hx. rewrite H2 by lia. apply C2. lia.
      + exists m3, n'. split; [exact E|]. split; [assumption|]. lia.
    - exists m1, n. repeat split; try apply C; lia.
  Qed.
End Bwd.

Unset Default Proof Using.
Lemma copied_is_copy m d s n m' : copied m (s-d) d (d+n) m' -> is_copy m d s n m'.
Proof.
  intros [C1 C2]. split; [|exact C2]. intros i Hi. rewrite C1 by lia. f_equal. lia.
Qed.

Lemma copied_nil m off lo hi : hi <= lo -> copied m off lo hi m.
Proof. intros H. split; intros; [lia|reflexivity]. Qed.

Lemma memmove_correct m d s n : d <> 0 -> 0 <= n -> accessible m d n -> accessible m s n ->
  exists m', memmove m d s n = Some (m', d) /\ is_copy m d s n m'.
Proof.
  intros Hd Hn Ad As. unfold memmove.
  destruct (Z.eqb_spec d 0); [lia|]. destruct (Z.eqb_spec d s) as [->|Hds].
  { exists m. split; [reflexivity|]. split; intros; reflexivity. }
  destruct ((s + n <=? d) || (d + n <=? s)) eqn:E.
  { apply memcopy_correct; try assumption. apply orb_true_iff in E. unfold disjoint_ranges.
    destruct E as [E|E]; apply Z.leb_le in E; lia. }
  apply orb_false_iff in E. destruct E as [E1 E2]. apply Z.leb_gt in E1, E2.
  cbv zeta. set (fuel := S (Z.to_nat n)).
  assert (HF: n < Z.of_nat fuel) by (unfold fuel; lia).
  destruct (Z.ltb_spec d s).
  - destruct (Z.eqb_spec (s mod 8) (d mod 8)) as [H8|H8].
    + destruct (fwd_head m d s n ltac:(assumption) Hn Ad As fuel m 0 n) as
        [(m2 & Eh & C)|(m2 & i' & n' & Eh & C & ?)]; try lia.
      * apply copied_nil. lia.
      * rewrite !Z.add_0_r in Eh. rewrite Eh. simpl. exists m2. split; [reflexivity|]. apply copied_is_copy. assumption.
      * rewrite !Z.add_0_r in Eh. rewrite Eh. unfold obind at 1.
        destruct (fwd_words m d s n ltac:(assumption) Hn Ad As fuel m2 i' n') as (m3 & i2 & n2 & Ew & C2 & ?); try lia; [assumption|].
        rewrite Ew. unfold obind at 1.
        destruct (fwd_tail m d s n ltac:(assumption) Hn Ad As fuel m3 i2 n2) as (m4 & Et & C3); try lia; [assumption|].
        rewrite Et. simpl. exists m4. split; [reflexivity|]. apply copied_is_copy. assumption.
    + destruct (fwd_tail m d s n ltac:(assumption) Hn Ad As fuel m 0 n) as (m4 & Et & C3); try lia; [apply copied_nil; lia|].
      rewrite !Z.add_0_r in Et. rewrite Et. simpl. exists m4. split; [reflexivity|]. apply copied_is_copy. assumption.
  - destruct (Z.eqb_spec (s mod 8) (d mod 8)) as [H8|H8].
    + destruct (bwd_head m d s n ltac:(lia) Hn Ad As fuel m n) as
        [(m2 & Eh & C)|(m2 & n' & Eh & C & ?)]; try lia.
      * apply copied_nil. lia.
      * rewrite Eh. simpl. exists m2. split; [reflexivity|]. apply copied_is_copy. assumption.
      * rewrite Eh. unfold obind at 1.
        destruct (bwd_words m d s n ltac:(lia) Hn Ad As fuel m2 n') as (m3 & n2 & Ew & C2 & ?); try lia; [assumption|].
        rewrite Ew. unfold obind at 1.
        destruct (bwd_tail m d s n ltac:(lia) Hn Ad As fuel m3 n2) as (m4 & Et & C3); try lia; [assumption|].
        rewrite Et. simpl. exists m4. split; [reflexivity|]. apply copied_is_copy. assumption.
    + destruct (bwd_tail m d s n ltac:(lia) Hn Ad As fuel m n) as (m4 & Et & C3); try lia; [apply copied_nil; lia|].
      rewrite Et. simpl. exists m4. split; [reflexivity|]. apply copied_is_copy. assumption.
Qed.
