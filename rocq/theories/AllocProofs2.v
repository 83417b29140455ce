(** Proofs about the pool and the stack allocator. *)
From Coq Require Import Permutation.
From Verif Require Import Base Bits BitsSpec BitsProofs Mem MemSpec MemProofs MemProofs2 Alloc AllocSpec AllocProofs.

Local Arguments Z.mul : simpl never.
Local Arguments Z.add : simpl never.
Local Arguments Z.sub : simpl never.
Local Arguments Z.pow : simpl never.
Local Arguments Z.modulo : simpl never.
Local Arguments Z.of_nat : simpl never.
Local Arguments memset : simpl never.

(** * Words in memory *)
Lemma loadn_ext m1 m2 k : forall a, (forall x, a <= x < a + Z.of_nat k -> m1 x = m2 x) -> loadn m1 a k = loadn m2 a k.
Proof.
  induction k; intros a H; [reflexivity|]. cbn [loadn]. unfold load8.
  rewrite (H a) by lia. destruct (m2 a); [|reflexivity]. cbn [obind].
  rewrite (IHk (a+1)); [reflexivity|]. intros x Hx. apply H. lia.
Qed.

Lemma storen_ok k : forall m a v, (forall x, a <= x < a + Z.of_nat k -> m x <> None) ->
  exists m', storen m a k v = Some m' /\ loadn m' a k = Some (v mod 2^(8 * Z.of_nat k)) /\
    (forall x, ~ (a <= x < a + Z.of_nat k) -> m' x = m x) /\
    (forall x, a <= x < a + Z.of_nat k -> exists b, m' x = Some b /\ byte b).
Proof.
  induction k; intros m a v H.
  - exists m. split; [reflexivity|]. split; [cbn; change (2^0) with 1; rewrite Z.mod_1_r; reflexivity|].
    split; [reflexivity|]. intros; lia.
  - cbn [storen]. destruct (store8_ok m a v ltac:(apply H; lia)) as (m1 & E1 & S0).
    assert (S1: m1 a = Some (v mod 256)) by (rewrite S0, Z.eqb_refl; reflexivity).
    assert (S2: forall x, x <> a -> m1 x = m x) by (intros x Hx; rewrite S0; apply Z.eqb_neq in Hx; rewrite Hx; reflexivity).
    rewrite E1. cbn [obind]. destruct (IHk m1 (a+1) (v/256)) as (m' & E & L & F & B).
    { intros x Hx. rewrite S2 by lia. apply H. lia. }
    exists m'. split; [exact E|]. split.
    + cbn [loadn]. unfold load8. rewrite F by lia. rewrite S1. cbn [obind]. rewrite L. cbn [obind]. f_equal.
      replace (8 * Z.of_nat (S k)) with (8 + 8 * Z.of_nat k) by lia. rewrite Z.pow_add_r by lia.
      change (2^8) with 256. rewrite Z.rem_mul_r; [ring|lia|apply Z.pow_pos_nonneg; lia].
    + split.
      * intros x Hx. rewrite F by lia. apply S2. lia.
      * intros x Hx. destruct (Z.eq_dec x a) as [->|N].
        -- rewrite F by lia. rewrite S1. eexists. split; [reflexivity|]. unfold byte. apply Z.mod_pos_bound. lia.
        -- apply B. lia.
Qed.

Lemma storen8_ok m a v : 0 <= v < 2^64 -> (forall x, a <= x < a + 8 -> m x <> None) ->
  exists m', storen m a 8 v = Some m' /\ loadn m' a 8 = Some v /\
    (forall x, ~ (a <= x < a + 8) -> m' x = m x) /\ (forall b n, accessible m b n -> accessible m' b n).
Proof.
  intros Hv H. destruct (storen_ok 8 m a v H) as (m' & E & L & F & B). change (Z.of_nat 8) with 8 in *.
  exists m'. split; [exact E|]. change (8*8) with 64 in L. rewrite Z.mod_small in L by lia. split; [exact L|].
  split; [exact F|]. intros b n Hb x Hx.
  destruct (Z_le_dec a x); [destruct (Z_lt_dec x (a+8))|].
  - apply B. lia.
  - rewrite F by lia. apply Hb; lia.
  - rewrite F by lia. apply Hb; lia.
Qed.

Local Arguments loadn : simpl never.
Local Arguments storen : simpl never.

(** * Pool *)
Section Pool.
  Set Default Proof Using "All".
  Variables data num bs ba : Z.
  Let w := bs + ba.
  Hypothesis Hnum : 1 <= num.
  Hypothesis Hbs : 0 <= bs.
  Hypothesis Hba : 0 <= ba.
  Hypothesis Hw : 8 <= w.
  Hypothesis Hdata : 0 < data.
  Hypothesis Htop : data + num * w < 2^64.

  Definition nth_block (i : nat) : Z := data + Z.of_nat i * w.
  Definition all_blocks : list Z := map nth_block (seq 0 (Z.to_nat num)).

  (** the free list in memory *)
  Fixpoint chain (m : mem) (f : Z) (l : list Z) : Prop :=
    match l with
    | [] => f = 0
    | a :: r => f = a /\ exists nx, loadn m a 8 = Some nx /\ chain m nx r
    end.

  Lemma chain_ext m1 m2 l : forall f, (forall a x, In a l -> a <= x < a + 8 -> m1 x = m2 x) -> chain m1 f l -> chain m2 f l.
  Proof.
    induction l; intros f H C; [exact C|]. destruct C as (-> & nx & L & C). split; [reflexivity|].
    exists nx. split.
    - rewrite <- L. symmetry. apply loadn_ext. intros x Hx. apply (H a); [left; reflexivity|]. exact Hx.
    - apply IHl; [|assumption]. intros b x Hb Hx. apply (H b); [right; assumption|assumption].
  Qed.

  Lemma in_blocks a : In a all_blocks -> exists i, (i < Z.to_nat num)%nat /\ a = nth_block i.
  Proof.
    unfold all_blocks. rewrite in_map_iff. intros (i & <- & Hi). apply in_seq in Hi. exists i. split; [lia|reflexivity].
  Qed.
  Lemma block_bounds a : In a all_blocks -> data <= a /\ a + w <= data + num * w.
  Proof. intros H. apply in_blocks in H. destruct H as (i & Hi & ->). unfold nth_block. nia. Qed.
  Lemma blocks_apart a b : In a all_blocks -> In b all_blocks -> a <> b -> a + w <= b \/ b + w <= a.
  Proof.
    intros Ha Hb N. apply in_blocks in Ha, Hb. destruct Ha as (i & Hi & ->), Hb as (j & Hj & ->).
    unfold nth_block in *. destruct (Nat.lt_trichotomy i j) as [L|[->|L]]; [|congruence|]; nia.
  Qed.
  Lemma blocks_nodup : NoDup all_blocks.
  Proof.
    unfold all_blocks. apply FinFun.Injective_map_NoDup; [|apply seq_NoDup].
    intros i j E. unfold nth_block in E. nia.
  Qed.

  Lemma pool_link_ok n : forall m i, (i + n < Z.to_nat num)%nat -> accessible m data (num * w) ->
    exists m', pool_link m (nth_block i) w n = Some m' /\
      chain m' (nth_block i) (map nth_block (seq i (S n))) /\
      (forall x, x < nth_block i -> m' x = m x) /\ accessible m' data (num * w).
  Proof.
    induction n; intros m i Hi Acc.
    - cbn [pool_link]. assert (Hb: In (nth_block i) all_blocks) by (apply in_map; apply in_seq; lia).
      apply block_bounds in Hb.
      destruct (storen8_ok m (nth_block i) 0) as (m' & E & L & F & A).
      { lia. } { intros x Hx. apply (acc_not_none _ _ _ Acc). lia. }
      exists m'. split; [exact E|]. split.
      { cbn [seq map chain]. split; [reflexivity|]. exists 0. split; [exact L|reflexivity]. }
      split; [intros x Hx; apply F; lia|]. apply A. exact Acc.
    - cbn [pool_link]. assert (Hb: In (nth_block i) all_blocks) by (apply in_map; apply in_seq; lia).
      apply block_bounds in Hb.
      assert (Hs: nth_block i + w = nth_block (S i)) by (unfold nth_block; lia).
      destruct (storen8_ok m (nth_block i) (nth_block i + w)) as (m1 & E & L & F & A).
      { lia. } { intros x Hx. apply (acc_not_none _ _ _ Acc). lia. }
      rewrite E. cbn [obind]. rewrite Hs in *.
      destruct (IHn m1 (S i) ltac:(lia) (A _ _ Acc)) as (m' & E' & C & F' & A').
      exists m'. split; [exact E'|]. split.
      { cbn [seq map]. cbn [chain]. split; [reflexivity|]. exists (nth_block (S i)). split.
        - rewrite <- L. apply loadn_ext. intros x Hx. apply F'. rewrite <- Hs. change (Z.of_nat 8) with 8 in Hx. lia.
        - exact C. }
      split; [|exact A']. intros x Hx. rewrite F' by lia. apply F. lia.
  Qed.

  Record pool_inv (m : mem) (p : pool) (live : list Z) : Prop := {
    pi_start : po_start p = data;
    pi_bs : po_block_size p = bs;
    pi_ba : po_block_align p = ba;
    pi_num : po_num p = num;
    pi_total : po_total p = bs * Z.of_nat (length live);
    pi_acc : accessible m data (num * w);
    pi_free : exists fl, chain m (po_free_list p) fl /\ Permutation (fl ++ live) all_blocks
  }.

  Lemma link_all m : accessible m data (num * w) ->
    exists m', pool_link m data w (Z.to_nat (num - 1)) = Some m' /\ chain m' data all_blocks /\ accessible m' data (num * w).
  Proof.
    intros Acc. destruct (pool_link_ok (Z.to_nat (num - 1)) m 0%nat ltac:(lia) Acc) as (m' & E & C & _ & A).
    replace (nth_block 0) with data in E, C by (unfold nth_block; lia).
    exists m'. split; [exact E|]. split; [|exact A]. unfold all_blocks.
    replace (S (Z.to_nat (num - 1))) with (Z.to_nat num) in C by lia. exact C.
  Qed.

  Lemma pool_init_ok m : accessible m data (num * w) ->
    exists m' p, pool_init_align m data num bs ba = Some (m', p) /\ pool_inv m' p [].
  Proof.
    intros Acc. destruct (link_all m Acc) as (m' & E & C & A). unfold pool_init_align. fold w.
    rewrite E. cbn [obind]. eexists _, _. split; [reflexivity|]. constructor; cbn; try reflexivity; try assumption.
    - rewrite Z.mul_0_r. reflexivity.
    - exists all_blocks. split; [assumption|]. rewrite app_nil_r. reflexivity.
  Qed.

  Lemma pool_free_all_ok m p live : pool_inv m p live ->
    exists m' p', pool_free_all m p = Some (m', p') /\ pool_inv m' p' [].
  Proof.
    intros []. destruct (link_all m pi_acc0) as (m' & E & C & A). unfold pool_free_all.
    rewrite pi_start0, pi_bs0, pi_ba0, pi_num0. fold w. rewrite E. cbn [obind].
    eexists _, _. split; [reflexivity|]. constructor; cbn; try reflexivity; try assumption.
    - rewrite Z.mul_0_r. reflexivity.
    - exists all_blocks. split; [assumption|]. rewrite app_nil_r. reflexivity.
  Qed.

  Lemma live_block m p live q : pool_inv m p live -> In q live -> In q all_blocks.
  Proof.
    intros [] H. destruct pi_free0 as (fl & _ & P). apply (Permutation_in _ P). apply in_or_app. right. assumption.
  Qed.

  Lemma pool_alloc_ok clear m p live : pool_inv m p live -> Z.of_nat (length live) < num ->
    exists m' p' q, pool_alloc clear m p bs ba = Some (m', p', q) /\ pool_inv m' p' (q :: live) /\
      (clear = true -> is_fill m q 0 bs m').
  Proof.
    intros I Hl. pose proof I as []. destruct pi_free0 as (fl & C & P).
    destruct fl as [|q fl].
    { apply Permutation_length in P. cbn in P. unfold all_blocks in P. rewrite map_length, seq_length in P. lia. }
    destruct C as (Ef & nx & L & C).
    assert (Hq: In q all_blocks) by (apply (Permutation_in _ P); left; reflexivity).
    pose proof (block_bounds _ Hq) as Bq.
    destruct (zero_if_ok clear m q bs ltac:(lia) Hbs) as (m' & E & D & G).
    { apply (acc_sub _ _ _ _ _ pi_acc0); unfold w in *; lia. }
    unfold pool_alloc. rewrite pi_bs0, pi_ba0, !Z.eqb_refl. cbn [negb]. rewrite Ef.
    replace (q =? 0) with false by (symmetry; apply Z.eqb_neq; lia). rewrite L. cbn [obind]. rewrite E. cbn [obind].
    eexists _, _, _. split; [reflexivity|]. split; [|exact G].
    constructor; cbn; try assumption; try reflexivity.
    - rewrite pi_total0. lia.
    - destruct D as [->|D]; [assumption|]. apply (acc_fill _ _ _ _ _ _ _ D); [unfold byte; lia|assumption].
    - exists fl. split; [|rewrite <- P; symmetry; apply Permutation_middle].
      destruct D as [->|D]; [assumption|]. apply (chain_ext m); [|assumption].
      intros a x Ha Hx. symmetry. apply (proj2 D).
      assert (Ha': In a all_blocks) by (apply (Permutation_in _ P); right; apply in_or_app; left; assumption).
      assert (N: a <> q).
      { intros ->. pose proof blocks_nodup as ND. apply (Permutation_NoDup (Permutation_sym P)) in ND.
        inversion ND as [|? ? N _]; subst. apply N. apply in_or_app. left. assumption. }
      pose proof (blocks_apart _ _ Ha' Hq N). unfold w in *. lia.
  Qed.

  Lemma pool_alloc_exhausted clear m p live : pool_inv m p live -> num <= Z.of_nat (length live) ->
    pool_alloc clear m p bs ba = None.
  Proof.
    intros [] Hl. destruct pi_free0 as (fl & C & P). pose proof (Permutation_length P) as PL.
    unfold all_blocks in PL. rewrite app_length, map_length, seq_length in PL.
    destruct fl; [|cbn in PL; lia]. cbn in C. unfold pool_alloc. rewrite pi_bs0, pi_ba0, !Z.eqb_refl, C. reflexivity.
  Qed.

  Lemma pool_alloc_mismatch clear m p live size al : pool_inv m p live -> size <> bs \/ al <> ba ->
    pool_alloc clear m p size al = None.
  Proof.
    intros [] H. unfold pool_alloc. rewrite pi_bs0, pi_ba0.
    destruct (Z.eqb_spec size bs); [|reflexivity]. destruct (Z.eqb_spec al ba); [|reflexivity]. lia.
  Qed.

  Lemma pool_free_ok m p l1 q l2 : pool_inv m p (l1 ++ q :: l2) ->
    exists m' p', pool_free m p q = Some (m', p') /\ pool_inv m' p' (l1 ++ l2).
  Proof.
    intros I. pose proof I as []. assert (Hq: In q all_blocks) by (apply (live_block _ _ _ _ I); apply in_or_app; right; left; reflexivity).
    pose proof (block_bounds _ Hq) as Bq. destruct pi_free0 as (fl & C & P).
    assert (Hf: 0 <= po_free_list p < 2^64).
    { destruct fl as [|a fl]; cbn in C; [lia|]. destruct C as (-> & _).
      assert (Ha: In a all_blocks) by (apply (Permutation_in _ P); left; reflexivity). apply block_bounds in Ha. lia. }
    destruct (storen8_ok m q (po_free_list p) Hf) as (m' & E & L & F & A).
    { intros x Hx. apply (acc_not_none _ _ _ pi_acc0). unfold w in *. lia. }
    unfold pool_free. replace (q =? 0) with false by (symmetry; apply Z.eqb_neq; lia). rewrite E. cbn [obind].
    eexists _, _. split; [reflexivity|]. constructor; cbn; try assumption; try reflexivity.
    - rewrite pi_total0, pi_bs0, !app_length. cbn [length]. lia.
    - apply A. assumption.
    - exists (q :: fl). split.
      + split; [reflexivity|]. exists (po_free_list p). split; [exact L|]. apply (chain_ext m); [|assumption].
        intros a x Ha Hx. symmetry. apply F.
        assert (Ha': In a all_blocks) by (apply (Permutation_in _ P); apply in_or_app; left; assumption).
        assert (N: a <> q).
        { intros ->. pose proof blocks_nodup as ND. apply (Permutation_NoDup (Permutation_sym P)) in ND.
          apply in_split in Ha. destruct Ha as (f1 & f2 & ->). rewrite <- app_assoc in ND. cbn in ND.
          apply NoDup_remove_2 in ND. apply ND. rewrite !in_app_iff. right. right. right. left. reflexivity. }
        pose proof (blocks_apart _ _ Ha' Hq N). unfold w in *. lia.
      + rewrite <- P. cbn. rewrite app_assoc. rewrite (app_assoc fl l1 (q :: l2)).
        apply Permutation_middle.
  Qed.

  Lemma pool_write_ok m p live q x v : pool_inv m p live -> In q live -> q <= x < q + bs -> byte v ->
    pool_inv (poke m x v) p live.
  Proof.
    intros I Hq Hx Hv. pose proof (live_block _ _ _ _ I Hq) as Hb. destruct I. constructor; try assumption.
    - apply acc_poke; assumption.
    - destruct pi_free0 as (fl & C & P). exists fl. split; [|assumption]. apply (chain_ext m); [|assumption].
      intros a y Ha Hy. unfold poke. destruct (Z.eqb_spec y x) as [->|]; [|reflexivity]. exfalso.
      assert (Ha': In a all_blocks) by (apply (Permutation_in _ P); apply in_or_app; left; assumption).
      assert (N: a <> q).
      { intros ->. pose proof blocks_nodup as ND. apply (Permutation_NoDup (Permutation_sym P)) in ND.
        apply in_split in Hq. destruct Hq as (f1 & f2 & ->).
        rewrite app_assoc in ND. apply NoDup_remove_2 in ND. apply ND. rewrite !in_app_iff. auto. }
      pose proof (blocks_apart _ _ Ha' Hb N). unfold w in *. lia.
  Qed.

  Lemma pool_history_inv m0 : accessible m0 data (num * w) -> forall m p live,
    pool_history data num bs ba m0 m p live -> pool_inv m p live.
  Proof.
    intros Acc m p live H. induction H.
    - destruct (pool_init_ok m0 Acc) as (m' & p' & E & I). rewrite E in H. injection H as <- <-. exact I.
    - destruct (Z_lt_dec (Z.of_nat (length live)) num) as [L|L].
      + destruct (pool_alloc_ok clear m p live IHpool_history L) as (m1 & p1 & q1 & E & I & _).
        rewrite E in H0. injection H0 as <- <- <-. exact I.
      + rewrite (pool_alloc_exhausted clear m p live) in H0 by (assumption || lia). discriminate.
    - destruct (pool_free_ok m p l1 q l2 IHpool_history) as (m1 & p1 & E & I). rewrite E in H0. injection H0 as <- <-. exact I.
    - destruct (pool_free_all_ok m p live IHpool_history) as (m1 & p1 & E & I). rewrite E in H0. injection H0 as <- <-. exact I.
    - apply (pool_write_ok m p live q x v); assumption.
  Qed.

  Lemma pool_live m p live : pool_inv m p live ->
    pairwise_apart (map (fun q => (q, bs)) live) /\ Forall (inside data (num * w)) (map (fun q => (q, bs)) live) /\
    Z.of_nat (length live) <= num /\
    Forall (fun q => exists i, 0 <= i < num /\ q = data + i * w) live.
  Proof.
    intros I. assert (B: forall q, In q live -> In q all_blocks) by (intros; eapply live_block; eassumption).
    assert (ND: NoDup live).
    { destruct I. destruct pi_free0 as (fl & C & P). pose proof blocks_nodup as ND.
      apply (Permutation_NoDup (Permutation_sym P)) in ND. clear -ND. induction fl; [assumption|]. inversion ND; auto. }
    split; [|split; [|split]].
    - clear I. induction live as [|q live IH]; [exact Logic.I|]. cbn [map pairwise_apart]. split.
      + rewrite Forall_forall. intros b Hb. apply in_map_iff in Hb. destruct Hb as (q' & <- & Hq').
        unfold apart. cbn [fst snd]. assert (N: q <> q') by (intros ->; inversion ND; auto).
        pose proof (blocks_apart _ _ (B q (or_introl eq_refl)) (B q' (or_intror Hq')) N). unfold w in *. lia.
      + apply IH; [|inversion ND; assumption]. intros; apply B; right; assumption.
    - rewrite Forall_forall. intros b Hb. apply in_map_iff in Hb. destruct Hb as (q' & <- & Hq').
      apply B, block_bounds in Hq'. unfold inside. cbn. unfold w in *. lia.
    - destruct I. destruct pi_free0 as (fl & C & P). apply Permutation_length in P.
      unfold all_blocks in P. rewrite app_length, map_length, seq_length in P. lia.
    - rewrite Forall_forall. intros q Hq. apply B, in_blocks in Hq. destruct Hq as (i & Hi & ->).
      exists (Z.of_nat i). split; [lia|reflexivity].
  Qed.
  Unset Default Proof Using.
End Pool.
