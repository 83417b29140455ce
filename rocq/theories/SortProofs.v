From Verif Require Import Base Sort SortSpec.

Section P.
  Context {T : Type} (cmp : T -> T -> Z).
  Implicit Types l : list T.

  Definition at_ l (i : Z) : option T := if 0 <=? i then nth_error l (Z.to_nat i) else None.
  Lemma rd_at l i : rd l i = match at_ l i with Some x => Ok x | None => Fault end.
  Proof. unfold rd, at_. now destruct (0 <=? i). Qed.
  Lemma at_some l i : 0 <= i < Z.of_nat (length l) -> exists x, at_ l i = Some x.
  Proof.
    intros H. unfold at_. destruct (Z.leb_spec 0 i); [|lia]. destruct (nth_error l (Z.to_nat i)) eqn:E; [eauto|].
    apply nth_error_None in E. lia.
  Qed.
  Lemma at_range l i x : at_ l i = Some x -> 0 <= i < Z.of_nat (length l).
  Proof.
    unfold at_. destruct (Z.leb_spec 0 i); [|easy]. intros E.
    assert (Z.to_nat i < length l)%nat by (apply nth_error_Some; congruence). lia.
  Qed.
  Lemma rd_ok l i x : at_ l i = Some x -> rd l i = Ok x.
  Proof. intros E. now rewrite rd_at, E. Qed.
  Lemma cmp_at_ok l i j x y : at_ l i = Some x -> at_ l j = Some y -> cmp_at cmp l i j = Ok (cmp x y).
  Proof. intros A B. unfold cmp_at. now rewrite (rd_ok _ _ _ A), (rd_ok _ _ _ B). Qed.

  Lemma put_length l i x : length (put l i x) = length l.
  Proof. revert i. induction l as [|y l IH]; intros [|i]; cbn; try easy. now rewrite IH. Qed.
  Lemma put_nth l i x k : nth_error (put l i x) k = if Nat.eqb k i && (i <? length l)%nat then Some x else nth_error l k.
  Proof.
    revert i k. induction l as [|y l IH]; intros [|i] [|k]; cbn [put nth_error]; try easy.
    - now rewrite andb_false_r.
    - rewrite IH. easy.
  Qed.

  Lemma swap_ok l i j x y : at_ l i = Some x -> at_ l j = Some y ->
    exists l', swap l i j = Ok l' /\ Permutation l l' /\
      (forall k, at_ l' k = if k =? j then Some x else if k =? i then Some y else at_ l k).
  Proof.
    intros A B. pose proof (at_range _ _ _ A) as RA. pose proof (at_range _ _ _ B) as RB.
    unfold swap. rewrite (rd_ok _ _ _ A), (rd_ok _ _ _ B). cbn [rbind].
    eexists. split; [reflexivity|].
    assert (N : forall k, nth_error (put (put l (Z.to_nat i) y) (Z.to_nat j) x) k =
              if Nat.eqb k (Z.to_nat j) then Some x else if Nat.eqb k (Z.to_nat i) then Some y else nth_error l k).
    { intros k. rewrite !put_nth, put_length.
      replace (Z.to_nat j <? length l)%nat with true by (symmetry; apply Nat.ltb_lt; lia).
      replace (Z.to_nat i <? length l)%nat with true by (symmetry; apply Nat.ltb_lt; lia).
      rewrite !andb_true_r. easy. }
    split.
    - apply Permutation_nth_error. rewrite !put_length. split; [easy|].
      exists (fun k => if Nat.eqb k (Z.to_nat j) then Z.to_nat i else if Nat.eqb k (Z.to_nat i) then Z.to_nat j else k).
      split.
      + intros a b. destruct (Nat.eqb_spec a (Z.to_nat j)), (Nat.eqb_spec b (Z.to_nat j)),
          (Nat.eqb_spec a (Z.to_nat i)), (Nat.eqb_spec b (Z.to_nat i)); lia.
      + intros k. rewrite N. unfold at_ in A, B.
        destruct (Z.leb_spec 0 i), (Z.leb_spec 0 j); try lia.
        destruct (Nat.eqb_spec k (Z.to_nat j)); [easy|]. destruct (Nat.eqb_spec k (Z.to_nat i)); easy.
    - intros k. unfold at_ at 1. destruct (Z.leb_spec 0 k).
      + rewrite N. replace (Nat.eqb (Z.to_nat k) (Z.to_nat j)) with (k =? j)
          by (apply eq_true_iff_eq; rewrite Z.eqb_eq, Nat.eqb_eq; lia).
        replace (Nat.eqb (Z.to_nat k) (Z.to_nat i)) with (k =? i)
          by (apply eq_true_iff_eq; rewrite Z.eqb_eq, Nat.eqb_eq; lia).
        unfold at_. destruct (Z.leb_spec 0 k); [easy|lia].
      + destruct (Z.eqb_spec k j); [lia|]. destruct (Z.eqb_spec k i); [lia|]. unfold at_. destruct (Z.leb_spec 0 k); [lia|easy].
  Qed.

  (** [l'] rearranges the cells [b, L) of [l] *)
  Definition seg (b L : Z) l l' : Prop :=
    Permutation l l' /\ (forall k, ~ (b <= k < L) -> at_ l' k = at_ l k) /\
    (forall k x, b <= k < L -> at_ l' k = Some x -> exists k', b <= k' < L /\ at_ l k' = Some x).
  Lemma seg_refl b L l : seg b L l l.
  Proof. split; [easy|]. split; [easy|]. eauto. Qed.
  Lemma seg_trans b L l l' l'' : seg b L l l' -> seg b L l' l'' -> seg b L l l''.
  Proof.
    intros (P & O & I) (P' & O' & I'). split; [now transitivity l'|]. split.
    - intros k H. now rewrite O', O.
    - intros k x H E. destruct (I' k x H E) as (k' & H' & E'). eauto.
  Qed.
  Lemma seg_weaken b L b' L' l l' : seg b L l l' -> b' <= b -> L <= L' -> seg b' L' l l'.
  Proof.
    intros (P & O & I) H1 H2. split; [easy|]. split.
    - intros k H. apply O. lia.
    - intros k x H E. destruct (Z.le_gt_cases b k), (Z.lt_ge_cases k L).
      + destruct (I k x) as (k' & ? & ?); [lia|easy|]. exists k'. split; [lia|easy].
      + rewrite O in E by lia. eauto.
      + rewrite O in E by lia. eauto.
      + rewrite O in E by lia. eauto.
  Qed.
  Lemma seg_length b L l l' : seg b L l l' -> length l' = length l.
  Proof. intros (P & _). symmetry. now apply Permutation_length. Qed.
  Lemma swap_seg b L l i j : b <= i < L -> b <= j < L -> 0 <= b -> L <= Z.of_nat (length l) ->
    exists l' x y, at_ l i = Some x /\ at_ l j = Some y /\ swap l i j = Ok l' /\ seg b L l l' /\
      (forall k, at_ l' k = if k =? j then Some x else if k =? i then Some y else at_ l k).
  Proof.
    intros Hi Hj Hb HL. destruct (at_some l i) as (x & Ex); [lia|]. destruct (at_some l j) as (y & Ey); [lia|].
    destruct (swap_ok l i j x y Ex Ey) as (l' & S & P & A). exists l', x, y. repeat (split; [easy|]). split; [|easy].
    split; [easy|]. split.
    - intros k H. rewrite A. destruct (Z.eqb_spec k j); [lia|]. destruct (Z.eqb_spec k i); [lia|easy].
    - intros k v H E. rewrite A in E. destruct (Z.eqb_spec k j); [exists i; split; [lia|congruence]|].
      destruct (Z.eqb_spec k i); [exists j; split; [lia|congruence]|]. eauto.
  Qed.

  Context (PO : preorder cmp).
  Definition le (a b : T) : Prop := cmp a b <= 0.
  Lemma le_trans a b c : le a b -> le b c -> le a c.
  Proof. apply PO. Qed.
  Lemma gt_le a b : 0 < cmp a b -> le b a.
  Proof. intros H. unfold le. assert (cmp b a < 0) by (apply PO; lia). lia. Qed.
  Lemma lt_le a b : cmp a b < 0 -> le a b.
  Proof. unfold le. lia. Qed.
  Lemma ge_le a b : 0 <= cmp a b -> le b a.
  Proof.
    intros H. unfold le. destruct (Z.le_gt_cases (cmp b a) 0); [easy|].
    assert (cmp a b < 0) by (apply PO; lia). lia.
  Qed.
  Lemma le_not_gt a b : le a b -> 0 <= cmp b a.
  Proof.
    unfold le. intros H. destruct (Z.lt_ge_cases (cmp b a) 0) as [E|E]; [|easy]. apply PO in E. lia.
  Qed.
  Lemma le_refl a : le a a.
  Proof. destruct (Z.lt_ge_cases (cmp a a) 0) as [H|H]; [now apply lt_le|now apply ge_le]. Qed.

  Definition sorted_on (b L : Z) l : Prop :=
    forall x y p q, b <= x -> x < y -> y < L -> at_ l x = Some p -> at_ l y = Some q -> le p q.

  (** insertion sort *)
  Lemma sift_ok b i : 0 <= b -> forall fuel l j, b <= j -> j < i -> i < Z.of_nat (length l) ->
    j - b < Z.of_nat fuel ->
    (forall x y p q, b <= x -> x < y -> y <= i -> y <> j + 1 -> at_ l x = Some p -> at_ l y = Some q -> le p q) ->
    exists l', sift cmp fuel l b j = Ok l' /\ seg b (i + 1) l l' /\ sorted_on b (i + 1) l'.
  Proof.
    intros Hb. induction fuel as [|fuel IH]; intros l j Hj Hji Hi Hf S; [lia|]. cbn [sift].
    destruct (at_some l j) as (u & Eu); [lia|]. destruct (at_some l (j + 1)) as (v & Ev); [lia|].
    rewrite (cmp_at_ok _ _ _ _ _ Eu Ev). cbn [rbind].
    destruct (Z.ltb_spec 0 (cmp u v)) as [G|G].
    - destruct (swap_seg b (i + 1) l j (j + 1)) as (l1 & u' & v' & Eu' & Ev' & Sw & Sg & A); try lia.
      rewrite Eu in Eu'. rewrite Ev in Ev'. injection Eu' as <-. injection Ev' as <-.
      rewrite Sw. cbn [rbind].
      assert (S1 : forall x y p q, b <= x -> x < y -> y <= i -> y <> j -> at_ l1 x = Some p -> at_ l1 y = Some q -> le p q).
      { intros x y p q Hx Hxy Hy Hne Ep Eq. rewrite A in Ep, Eq.
        destruct (Z.eqb_spec y (j + 1)) as [->|].
        - injection Eq as <-. destruct (Z.eqb_spec x (j + 1)); [lia|].
          destruct (Z.eqb_spec x j) as [->|]; [injection Ep as <-; now apply gt_le|].
          apply (S x j p u); try easy; lia.
        - destruct (Z.eqb_spec y j); [lia|].
          destruct (Z.eqb_spec x (j + 1)) as [->|]; [injection Ep as <-; apply (S j y u q); try easy; lia|].
          destruct (Z.eqb_spec x j) as [->|]; [injection Ep as <-; apply (S (j + 1) y v q); try easy; lia|].
          apply (S x y p q); easy. }
      pose proof (seg_length _ _ _ _ Sg) as Lg.
      destruct (Z.eqb_spec j b) as [->|Hjb].
      + exists l1. split; [easy|]. split; [easy|]. intros x y p q Hx Hxy Hy. apply S1; lia.
      + destruct (IH l1 (j - 1)) as (l2 & X & Sg2 & So); try lia.
        { intros x y p q Hx Hxy Hy Hne. apply S1; lia. }
        exists l2. split; [easy|]. split; [|easy]. now apply seg_trans with l1.
    - exists l. split; [easy|]. split; [apply seg_refl|].
      intros x y p q Hx Hxy Hy Ep Eq. destruct (Z.eq_dec y (j + 1)) as [->|]; [|apply (S x y p q); try easy; lia].
      rewrite Ev in Eq. injection Eq as <-. destruct (Z.eq_dec x j) as [->|]; [rewrite Eu in Ep; injection Ep as <-; exact G|].
      apply le_trans with u; [|exact G]. apply (S x j p u); try easy; lia.
  Qed.

  Lemma insertion_ok b L : 0 <= b -> forall fuel l i, b < i -> L <= Z.of_nat (length l) -> L - i < Z.of_nat fuel ->
    0 < Z.of_nat fuel -> sorted_on b i l ->
    exists l', insertion cmp fuel l b L (i - 1) i = Ok l' /\ seg b L l l' /\ sorted_on b L l'.
  Proof.
    intros Hb. induction fuel as [|fuel IH]; intros l i Hi HL Hf Hf0 S0; [lia|]. cbn [insertion].
    destruct (Z.ltb_spec i L) as [H|H].
    - destruct (sift_ok b i Hb (S (length l)) l (i - 1)) as (l1 & X & Sg & So); try lia.
      { intros x y p q Hx Hxy Hy Hne. apply S0; lia. }
      rewrite X. cbn [rbind]. pose proof (seg_length _ _ _ _ Sg) as Lg.
      destruct (IH l1 (i + 1)) as (l2 & Y & Sg2 & So2); try lia; [exact So|].
      replace (i + 1 - 1) with i in Y by lia. exists l2. split; [easy|]. split; [|easy].
      apply seg_trans with l1; [|easy]. apply seg_weaken with b (i + 1); [easy|lia|lia].
    - exists l. split; [easy|]. split; [apply seg_refl|]. intros x y p q Hx Hxy Hy. apply S0; lia.
  Qed.

  (** scans *)
  Lemma scan_up_ok l b p s q : at_ l b = Some p -> at_ l s = Some q -> le p q -> forall fuel i, 0 <= i < s -> s - i <= Z.of_nat fuel ->
    exists i' v, scan_up cmp fuel l b i = Ok i' /\ i < i' <= s /\ at_ l i' = Some v /\ le p v /\
      forall k w, i < k < i' -> at_ l k = Some w -> le w p.
  Proof.
    intros Ep Eq Hq. pose proof (at_range _ _ _ Eq) as Rs.
    induction fuel as [|fuel IH]; intros i Hi Hf; [lia|]. cbn [scan_up].
    destruct (at_some l (i + 1)) as (v & Ev); [lia|]. rewrite (cmp_at_ok _ _ _ _ _ Ev Ep). cbn [rbind].
    destruct (Z.ltb_spec (cmp v p) 0) as [G|G].
    - assert (i + 1 <> s). { intros E. subst s. rewrite Ev in Eq. injection Eq as ->. apply le_not_gt in Hq. lia. }
      destruct (IH (i + 1)) as (i' & v' & X & Hi' & Ev' & Hv & K); [lia|lia|].
      exists i', v'. split; [easy|]. split; [lia|]. split; [easy|]. split; [easy|].
      intros k w Hk Ew. destruct (Z.eq_dec k (i + 1)) as [->|]; [|apply (K k w); try easy; lia].
      rewrite Ev in Ew. injection Ew as <-. now apply lt_le.
    - exists (i + 1), v. split; [easy|]. split; [lia|]. split; [easy|]. split; [now apply ge_le|]. lia.
  Qed.
  Lemma scan_down_ok l b p s q : at_ l b = Some p -> at_ l s = Some q -> le q p -> forall fuel j, s < j <= Z.of_nat (length l) -> j - s <= Z.of_nat fuel ->
    exists j' v, scan_down cmp fuel l b j = Ok j' /\ s <= j' < j /\ at_ l j' = Some v /\ le v p /\
      forall k w, j' < k < j -> at_ l k = Some w -> le p w.
  Proof.
    intros Ep Eq Hq. pose proof (at_range _ _ _ Eq) as Rs.
    induction fuel as [|fuel IH]; intros j Hj Hf; [lia|]. cbn [scan_down].
    destruct (at_some l (j - 1)) as (v & Ev); [lia|]. rewrite (cmp_at_ok _ _ _ _ _ Ev Ep). cbn [rbind].
    destruct (Z.ltb_spec 0 (cmp v p)) as [G|G].
    - assert (j - 1 <> s). { intros E. subst s. rewrite Ev in Eq. injection Eq as ->. unfold le in Hq. lia. }
      destruct (IH (j - 1)) as (j' & v' & X & Hj' & Ev' & Hv & K); [lia|lia|].
      exists j', v'. split; [easy|]. split; [lia|]. split; [easy|]. split; [easy|].
      intros k w Hk Ew. destruct (Z.eq_dec k (j - 1)) as [->|]; [|apply (K k w); try easy; lia].
      rewrite Ev in Ew. injection Ew as <-. now apply gt_le.
    - exists (j - 1), v. split; [easy|]. split; [lia|]. split; [easy|]. split; [exact G|]. lia.
  Qed.

  Lemma part_loop_ok b L p : 0 <= b -> forall fuel l i j, L <= Z.of_nat (length l) -> at_ l b = Some p ->
    b + 1 <= i <= L - 2 -> b + 2 <= j <= L - 1 -> L - i <= Z.of_nat fuel ->
    (forall k w, b + 1 <= k <= i -> at_ l k = Some w -> le w p) ->
    (forall k w, j <= k <= L - 1 -> at_ l k = Some w -> le p w) ->
    exists l' i' j', part_loop cmp fuel l b i j = Ok (l', i', j') /\ seg (b + 1) L l l' /\
      b + 1 <= j' < i' /\ i' <= L - 1 /\
      (forall k w, b + 1 <= k < i' -> at_ l' k = Some w -> le w p) /\
      (forall k w, j' < k <= L - 1 -> at_ l' k = Some w -> le p w).
  Proof.
    intros Hb. induction fuel as [|fuel IH]; intros l i j HL Ep Hi Hj Hf Lo Hi'; [lia|]. cbn [part_loop].
    destruct (at_some l (L - 1)) as (s1 & Es1); [lia|]. destruct (at_some l (b + 1)) as (s2 & Es2); [lia|].
    destruct (scan_up_ok l b p (L - 1) s1 Ep Es1 ltac:(apply (Hi' (L - 1)); [lia|easy]) (S (length l)) i)
      as (i1 & v & X1 & Hi1 & Ev & Hv & K1); [lia|lia|].
    destruct (scan_down_ok l b p (b + 1) s2 Ep Es2 ltac:(apply (Lo (b + 1)); [lia|easy]) (S (length l)) j)
      as (j1 & u & X2 & Hj1 & Eu & Hu & K2); [lia|lia|].
    rewrite X1. cbn [rbind]. rewrite X2. cbn [rbind].
    destruct (Z.ltb_spec j1 i1) as [Lt|Ge].
    - exists l, i1, j1. split; [easy|]. split; [apply seg_refl|]. split; [lia|]. split; [lia|]. split.
      + intros k w Hk Ew. destruct (Z.le_gt_cases k i); [apply (Lo k); [lia|easy]|apply (K1 k); [lia|easy]].
      + intros k w Hk Ew. destruct (Z.lt_ge_cases k j); [apply (K2 k); [lia|easy]|apply (Hi' k); [lia|easy]].
    - destruct (swap_seg (b + 1) L l i1 j1) as (l1 & v' & u' & Ev' & Eu' & Sw & Sg & A); try lia.
      rewrite Ev in Ev'. rewrite Eu in Eu'. injection Ev' as <-. injection Eu' as <-. rewrite Sw. cbn [rbind].
      pose proof (seg_length _ _ _ _ Sg) as Lg.
      destruct (IH l1 i1 j1) as (l2 & i2 & j2 & Y & Sg2 & R); try lia.
      + rewrite A. destruct (Z.eqb_spec b j1); [lia|]. destruct (Z.eqb_spec b i1); [lia|easy].
      + intros k w Hk Ew. rewrite A in Ew. destruct (Z.eqb_spec k j1).
        { injection Ew as <-. (* k = j1 <= i1 so k = i1 *) assert (i1 = j1) by lia. subst. rewrite Ev in Eu. injection Eu as ->. easy. }
        destruct (Z.eqb_spec k i1); [injection Ew as <-; easy|].
        destruct (Z.le_gt_cases k i); [apply (Lo k); [lia|easy]|apply (K1 k); [lia|easy]].
      + intros k w Hk Ew. rewrite A in Ew. destruct (Z.eqb_spec k j1); [injection Ew as <-; easy|].
        destruct (Z.eqb_spec k i1); [lia|].
        destruct (Z.lt_ge_cases k j); [apply (K2 k); [lia|easy]|apply (Hi' k); [lia|easy]].
      + exists l2, i2, j2. split; [easy|]. split; [now apply seg_trans with l1|]. exact R.
  Qed.

  (** conditional swap: afterwards the two cells are in order, others unchanged *)
  Lemma swap_if_ok b L l i j : b <= i < L -> b <= j < L -> 0 <= b -> L <= Z.of_nat (length l) -> i <> j ->
    exists l' x y u v, at_ l i = Some x /\ at_ l j = Some y /\ swap_if_greater cmp l i j = Ok l' /\ seg b L l l' /\
      at_ l' i = Some u /\ at_ l' j = Some v /\ le u v /\ (forall k, k <> i -> k <> j -> at_ l' k = at_ l k) /\
      ((u = x /\ v = y) \/ (u = y /\ v = x)).
  Proof.
    intros Hi Hj Hb HL Hne. destruct (swap_seg b L l i j Hi Hj Hb HL) as (l' & x & y & Ex & Ey & Sw & Sg & A).
    unfold swap_if_greater. rewrite (cmp_at_ok _ _ _ _ _ Ex Ey). cbn [rbind].
    destruct (Z.ltb_spec 0 (cmp x y)) as [G|G].
    - exists l', x, y, y, x. repeat (split; [easy|]). split.
      { rewrite A, Z.eqb_refl. destruct (Z.eqb_spec i j); [easy|easy]. }
      split; [rewrite A, Z.eqb_refl; easy|]. split; [now apply gt_le|]. split.
      { intros k H1 H2. rewrite A. destruct (Z.eqb_spec k j); [easy|]. destruct (Z.eqb_spec k i); easy. }
      now right.
    - exists l, x, y, x, y. repeat (split; [easy|]). split; [apply seg_refl|]. repeat (split; [easy|]). now left.
  Qed.

  Lemma partition_ok l b L : 0 <= b -> 3 <= L - b -> L <= Z.of_nat (length l) ->
    exists l' i j p, partition cmp l b L = Ok (l', i, j) /\ seg b L l l' /\ b + 1 <= j < i /\ i <= L - 1 /\
      (forall k w, b <= k < i -> at_ l' k = Some w -> le w p) /\
      (forall k w, j <= k < L -> at_ l' k = Some w -> le p w).
  Proof.
    intros Hb Hn HL. unfold partition.
    rewrite Z.quot_div_nonneg by lia.
    assert (Hq : 0 <= (L - b) / 2 < L - b) by (split; [apply Z.div_pos; lia|apply Z.div_lt; lia]).
    destruct (swap_seg b L l ((L - b) / 2 + b) b) as (l0 & ? & ? & _ & _ & Sw & Sg0 & _); try lia.
    rewrite Sw. cbn [rbind]. pose proof (seg_length _ _ _ _ Sg0) as L0.
    destruct (swap_if_ok b L l0 (b + 1) (L - 1)) as (l1 & x1 & y1 & u1 & v1 & _ & _ & X1 & Sg1 & U1 & V1 & Le1 & O1 & _); try lia.
    rewrite X1. cbn [rbind]. pose proof (seg_length _ _ _ _ Sg1) as L1.
    destruct (swap_if_ok b L l1 b (L - 1)) as (l2 & x2 & y2 & u2 & v2 & Ex2 & Ey2 & X2 & Sg2 & U2 & V2 & Le2 & O2 & C2); try lia.
    rewrite X2. cbn [rbind]. pose proof (seg_length _ _ _ _ Sg2) as L2.
    assert (W1 : at_ l2 (b + 1) = Some u1) by (rewrite O2 by lia; exact U1).
    assert (Le1' : le u1 v2).
    { rewrite V1 in Ey2. injection Ey2 as <-. destruct C2 as [(-> & ->)|(-> & ->)]; [exact Le1|]. now apply le_trans with v1. }
    destruct (swap_if_ok b L l2 (b + 1) b) as (l3 & x3 & y3 & u3 & v3 & Ex3 & Ey3 & X3 & Sg3 & U3 & V3 & Le3 & O3 & C3); try lia.
    rewrite X3. cbn [rbind]. pose proof (seg_length _ _ _ _ Sg3) as L3.
    rewrite W1 in Ex3. injection Ex3 as <-. rewrite U2 in Ey3. injection Ey3 as <-.
    assert (W3 : at_ l3 (L - 1) = Some v2) by (rewrite O3 by lia; exact V2).
    assert (Le4 : le v3 v2) by (destruct C3 as [(-> & ->)|(-> & ->)]; easy).
    destruct (part_loop_ok b L v3 Hb (S (length l3)) l3 (b + 1) (L - 1)) as (l4 & i & j & Y & Sg4 & Hij & HiL & Lo & Hi); try lia; [easy|..].
    { intros k w Hk Ew. assert (k = b + 1) by lia. subst k. congruence. }
    { intros k w Hk Ew. assert (k = L - 1) by lia. subst k. congruence. }
    rewrite Y. cbn [rbind]. pose proof (seg_length _ _ _ _ Sg4) as L4.
    destruct (swap_seg b L l4 b j) as (l5 & p & u & Ep & Eu & Sw5 & Sg5 & A5); try lia.
    rewrite Sw5. cbn [rbind].
    assert (p = v3). { destruct Sg4 as (_ & O4 & _). rewrite O4 in Ep by lia. congruence. } subst p.
    exists l5, i, j, v3. split; [easy|]. split.
    { apply seg_trans with l4; [|easy]. apply seg_trans with l3; [|apply seg_weaken with (b + 1) L; [easy|lia|lia]].
      apply seg_trans with l2; [|easy]. apply seg_trans with l1; [|easy]. apply seg_trans with l0; easy. }
    split; [easy|]. split; [easy|]. split.
    - intros k w Hk Ew. rewrite A5 in Ew. destruct (Z.eqb_spec k j); [injection Ew as <-; apply le_refl|].
      destruct (Z.eqb_spec k b); [injection Ew as <-; apply (Lo j); [lia|easy]|]. apply (Lo k); [lia|easy].
    - intros k w Hk Ew. rewrite A5 in Ew. destruct (Z.eqb_spec k j); [injection Ew as <-; apply le_refl|].
      destruct (Z.eqb_spec k b); [lia|]. apply (Hi k); [lia|easy].
  Qed.

  (** what happens when a segment is finished *)
  Definition resume (fuel : nat) l (st : list (Z * Z)) : res (list T) :=
    match st with [] => Ok l | (b, L) :: st => sort_loop cmp fuel l b L st end.

  Lemma sort_loop_ok : forall n b L l st, 0 <= b -> L <= Z.of_nat (length l) -> b <= L -> L - b <= Z.of_nat n ->
    2 ^ Z.of_nat (length st) * (L - b) <= 2 ^ 35 ->
    exists c l', (forall f, sort_loop cmp (c + f) l b L st = resume f l' st) /\ seg b L l l' /\ sorted_on b L l'.
  Proof.
    induction n as [n IH] using (well_founded_induction lt_wf). intros b L l st Hb HL HbL Hn Hst.
    destruct (Z.ltb_spec threshold (L - b)) as [Big|Small]; unfold threshold in *.
    - destruct (partition_ok l b L Hb ltac:(lia) HL) as (l1 & i & j & p & X & Sg & Hij & HiL & Lo & Hi).
      pose proof (seg_length _ _ _ _ Sg) as Lg.
      assert (Push : (length st <? stack_pairs)%nat = true).
      { apply Nat.ltb_lt. unfold stack_pairs. destruct (Nat.lt_ge_cases (length st) 32) as [|H]; [easy|exfalso].
        assert (2 ^ 32 <= 2 ^ Z.of_nat (length st)) by (apply Z.pow_le_mono_r; lia).
        assert (2 ^ 32 * 9 <= 2 ^ Z.of_nat (length st) * (L - b)) by (apply Z.mul_le_mono_nonneg; lia).
        lia. }
      assert (Pos : 0 < 2 ^ Z.of_nat (length st)) by (apply Z.pow_pos_nonneg; lia).
      (* sorting both parts, in either order, sorts the whole *)
      assert (Join : forall l2 l3, (seg i L l1 l2 /\ sorted_on i L l2 /\ seg b j l2 l3 /\ sorted_on b j l3) \/
                                   (seg b j l1 l2 /\ sorted_on b j l2 /\ seg i L l2 l3 /\ sorted_on i L l3) ->
        seg b L l l3 /\ sorted_on b L l3).
      { intros l2 l3 H.
        assert (Sg' : seg b L l1 l2 /\ seg b L l2 l3).
        { destruct H as [(A & _ & B & _)|(A & _ & B & _)].
          - split; [apply seg_weaken with i L|apply seg_weaken with b j]; (easy || lia).
          - split; [apply seg_weaken with b j|apply seg_weaken with i L]; (easy || lia). }
        split; [apply seg_trans with l1; [easy|]; apply seg_trans with l2; easy|].
        assert (Lo3 : forall k w, b <= k < i -> at_ l3 k = Some w -> le w p).
        { intros k w Hk Ew.
          assert (exists k1, b <= k1 < i /\ at_ l1 k1 = Some w) as (k1 & H1 & E1).
          { destruct (Z.lt_ge_cases k j) as [Hkj|Hkj].
            - destruct H as [((_ & O1 & _) & _ & (_ & _ & I2) & _)|((_ & _ & I1) & _ & (_ & O2 & _) & _)].
              + destruct (I2 k w) as (k2 & H2 & E2); [lia|easy|]. rewrite O1 in E2 by lia. exists k2. split; [lia|easy].
              + rewrite O2 in Ew by lia. destruct (I1 k w) as (k2 & H2 & E2); [lia|easy|]. exists k2. split; [lia|easy].
            - destruct H as [((_ & O1 & _) & _ & (_ & O2 & _) & _)|((_ & O1 & _) & _ & (_ & O2 & _) & _)];
                rewrite O2, O1 in Ew by lia; eauto. }
          now apply (Lo k1). }
        assert (Hi3 : forall k w, j <= k < L -> at_ l3 k = Some w -> le p w).
        { intros k w Hk Ew.
          assert (exists k1, j <= k1 < L /\ at_ l1 k1 = Some w) as (k1 & H1 & E1).
          { destruct (Z.lt_ge_cases k i) as [Hkj|Hkj].
            - destruct H as [((_ & O1 & _) & _ & (_ & O2 & _) & _)|((_ & O1 & _) & _ & (_ & O2 & _) & _)];
                rewrite O2, O1 in Ew by lia; eauto.
            - destruct H as [((_ & _ & I1) & _ & (_ & O2 & _) & _)|((_ & O1 & _) & _ & (_ & _ & I2) & _)].
              + rewrite O2 in Ew by lia. destruct (I1 k w) as (k2 & H2 & E2); [lia|easy|]. exists k2. split; [lia|easy].
              + destruct (I2 k w) as (k2 & H2 & E2); [lia|easy|]. rewrite O1 in E2 by lia. exists k2. split; [lia|easy]. }
          now apply (Hi k1). }
        assert (SL : sorted_on b j l3).
        { destruct H as [(_ & _ & _ & S)|(_ & S & (_ & O2 & _) & _)]; [exact S|].
          intros x y u v Hx Hxy Hy Eu Ev. rewrite O2 in Eu, Ev by lia. now apply (S x y). }
        assert (SR : sorted_on i L l3).
        { destruct H as [(_ & S & (_ & O2 & _) & _)|(_ & _ & _ & S)]; [|exact S].
          intros x y u v Hx Hxy Hy Eu Ev. rewrite O2 in Eu, Ev by lia. now apply (S x y). }
        intros x y u v Hx Hxy Hy Eu Ev.
        destruct (Z.lt_ge_cases y j); [now apply (SL x y)|]. destruct (Z.le_gt_cases i x); [now apply (SR x y)|].
        apply le_trans with p; [apply (Lo3 x); [lia|easy]|apply (Hi3 y); [lia|easy]]. }
      destruct (Z.gtb_spec (j - b) (L - i)) as [Gt|Le'].
      + destruct (IH (Z.to_nat (L - i)) ltac:(lia) i L l1 ((b, j) :: st)) as (c1 & l2 & R1 & Sg1 & So1); try lia.
        { cbn [length]. rewrite Nat2Z.inj_succ, Z.pow_succ_r by lia. nia. }
        pose proof (seg_length _ _ _ _ Sg1) as Lg1.
        destruct (IH (Z.to_nat (j - b)) ltac:(lia) b j l2 st) as (c2 & l3 & R2 & Sg2 & So2); try lia; [nia|].
        exists (S (c1 + c2)), l3. split.
        * intros f. cbn [Nat.add sort_loop]. unfold threshold. destruct (Z.ltb_spec 8 (L - b)); [|lia].
          rewrite X. cbn [rbind]. destruct (Z.gtb_spec (j - b) (L - i)); [|lia].
          unfold push. rewrite Push. cbn [rbind]. rewrite <- Nat.add_assoc, R1. cbn [resume]. apply R2.
        * apply (Join l2 l3). left. easy.
      + destruct (IH (Z.to_nat (j - b)) ltac:(lia) b j l1 ((i, L) :: st)) as (c1 & l2 & R1 & Sg1 & So1); try lia.
        { cbn [length]. rewrite Nat2Z.inj_succ, Z.pow_succ_r by lia. nia. }
        pose proof (seg_length _ _ _ _ Sg1) as Lg1.
        destruct (IH (Z.to_nat (L - i)) ltac:(lia) i L l2 st) as (c2 & l3 & R2 & Sg2 & So2); try lia; [nia|].
        exists (S (c1 + c2)), l3. split.
        * intros f. cbn [Nat.add sort_loop]. unfold threshold. destruct (Z.ltb_spec 8 (L - b)); [|lia].
          rewrite X. cbn [rbind]. destruct (Z.gtb_spec (j - b) (L - i)); [lia|].
          unfold push. rewrite Push. cbn [rbind]. rewrite <- Nat.add_assoc, R1. cbn [resume]. apply R2.
        * apply (Join l2 l3). right. easy.
    - destruct (insertion_ok b L Hb (S (length l)) l (b + 1)) as (l1 & X & Sg & So); try lia.
      { intros x y p q Hx Hxy Hy. lia. }
      exists 1%nat, l1. split; [|easy]. intros f. cbn [Nat.add sort_loop]. unfold threshold.
      destruct (Z.ltb_spec 8 (L - b)); [lia|]. replace (b + 1 - 1) with b in X by lia. rewrite X. cbn [rbind].
      destruct st as [|[? ?] ?]; easy.
  Qed.

  Lemma sorted_on_all l : sorted_on 0 (Z.of_nat (length l)) l -> sorted cmp l.
  Proof.
    intros S i j a c Hij Ea Ec. assert (j < length l)%nat by (apply nth_error_Some; congruence).
    apply (S (Z.of_nat i) (Z.of_nat j)); try lia; unfold at_.
    - destruct (Z.leb_spec 0 (Z.of_nat i)); [|lia]. now rewrite Nat2Z.id.
    - destruct (Z.leb_spec 0 (Z.of_nat j)); [|lia]. now rewrite Nat2Z.id.
  Qed.
End P.
