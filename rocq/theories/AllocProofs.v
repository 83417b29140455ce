(** Proofs about resize and the arena allocator. *)
From Verif Require Import Base Bits BitsSpec BitsProofs Mem MemSpec MemProofs MemProofs2 Alloc AllocSpec.

Local Arguments Z.mul : simpl never.
Local Arguments Z.add : simpl never.
Local Arguments Z.sub : simpl never.
Local Arguments Z.pow : simpl never.
Local Arguments Z.modulo : simpl never.
Local Arguments memset : simpl never.
Local Arguments memmove : simpl never.

(** * Accessibility is preserved *)
Lemma acc_sub m a n b k : accessible m a n -> a <= b -> b + k <= a + n -> accessible m b k.
Proof. intros H H1 H2 x Hx. apply H. lia. Qed.

Lemma acc_fill m p c n m' a k : is_fill m p c n m' -> byte c -> accessible m a k -> accessible m' a k.
Proof.
  intros [F1 F2] Hc H x Hx. destruct (Z_le_dec p x) as [L|L]; [destruct (Z_lt_dec x (p+n)) as [L'|L']|].
  - rewrite F1 by lia. eauto.
  - rewrite F2 by lia. apply H; lia.
  - rewrite F2 by lia. apply H; lia.
Qed.

Lemma acc_copy m d s n m' a k : is_copy m d s n m' -> accessible m s n -> accessible m a k -> accessible m' a k.
Proof.
  intros [F1 F2] Hs H x Hx. destruct (Z_le_dec d x) as [L|L]; [destruct (Z_lt_dec x (d+n)) as [L'|L']|].
  - replace x with (d + (x - d)) by lia. rewrite F1 by lia. apply Hs. lia.
  - rewrite F2 by lia. apply H; lia.
  - rewrite F2 by lia. apply H; lia.
Qed.

Lemma acc_poke m x v a k : byte v -> accessible m a k -> accessible (poke m x v) a k.
Proof.
  intros Hv H y Hy. unfold poke. destruct (y =? x); [eauto|]. apply H. assumption.
Qed.

Lemma acc_not_none m a n : accessible m a n -> forall x, a <= x < a + n -> m x <> None.
Proof. intros H x Hx E. destruct (H x Hx) as (b & Eb & _). congruence. Qed.

Lemma zero_if_ok clear m p size : p <> 0 -> 0 <= size -> accessible m p size ->
  exists m', zero_if clear m p size = Some m' /\
    (m' = m \/ is_fill m p 0 size m') /\ (clear = true -> is_fill m p 0 size m').
Proof.
  intros Hp Hs Ha. unfold zero_if. destruct clear.
  - destruct (memset_correct m p 0 size Hp ltac:(unfold byte; lia) Hs) as (m' & E & F).
    + apply (acc_not_none _ _ _ Ha).
    + rewrite E. cbn [option_map fst]. exists m'. auto.
  - exists m. split; [reflexivity|]. split; [auto|discriminate].
Qed.

(** * Resize *)
(** The outcome of one allocation request, as far as resize depends on it. *)
Lemma resize_null {St} (A : allocator St) m st old_size new_size al :
  default_resize_align A m st 0 old_size new_size al = al_alloc A m st new_size al.
Proof. reflexivity. Qed.

Lemma resize_zero {St} (A : allocator St) m st old old_size al : old <> 0 ->
  default_resize_align A m st old old_size 0 al =
  obind (al_free A m st old) (fun r => Some (fst r, snd r, 0)).
Proof.
  intros H. unfold default_resize_align, zpl_free. apply Z.eqb_neq in H. rewrite H.
  cbn. destruct (al_free A m st old) as [[m' st']|]; reflexivity.
Qed.

Lemma resize_shrink {St} (A : allocator St) m st old old_size new_size al : old <> 0 -> 0 < new_size <= old_size ->
  default_resize_align A m st old old_size new_size al = Some (m, st, old).
Proof.
  intros H Hn. unfold default_resize_align. apply Z.eqb_neq in H. rewrite H.
  replace (new_size =? 0) with false by (symmetry; apply Z.eqb_neq; lia).
  cbv zeta. destruct (Z.ltb_spec new_size old_size).
  - rewrite Z.eqb_refl. reflexivity.
  - replace new_size with old_size by lia. rewrite Z.eqb_refl. reflexivity.
Qed.

Lemma resize_grow_fail {St} (A : allocator St) m st old old_size new_size al m1 st1 :
  old <> 0 -> 0 <= old_size < new_size ->
  al_alloc A m st new_size al = Some (m1, st1, 0) ->
  default_resize_align A m st old old_size new_size al = Some (m1, st1, 0).
Proof.
  intros H Hn E. unfold default_resize_align. apply Z.eqb_neq in H. rewrite H.
  replace (new_size =? 0) with false by (symmetry; apply Z.eqb_neq; lia).
  replace (new_size <? old_size) with false by (symmetry; apply Z.ltb_ge; lia). cbv zeta.
  replace (old_size =? new_size) with false by (symmetry; apply Z.eqb_neq; lia).
  rewrite E. reflexivity.
Qed.

Lemma resize_grow {St} (A : allocator St) m st old old_size new_size al m1 st1 p :
  old <> 0 -> 0 <= old_size < new_size ->
  al_alloc A m st new_size al = Some (m1, st1, p) -> p <> 0 ->
  accessible m1 old old_size -> accessible m1 p new_size ->
  exists m2, is_copy m1 p old old_size m2 /\
    default_resize_align A m st old old_size new_size al =
      obind (al_free A m2 st1 old) (fun r => Some (fst r, snd r, p)).
Proof.
  intros H Hn E Hp A1 A2. unfold default_resize_align. apply Z.eqb_neq in H. rewrite H.
  replace (new_size =? 0) with false by (symmetry; apply Z.eqb_neq; lia).
  replace (new_size <? old_size) with false by (symmetry; apply Z.ltb_ge; lia). cbv zeta.
  replace (old_size =? new_size) with false by (symmetry; apply Z.eqb_neq; lia).
  rewrite E. cbn [obind]. rewrite (proj2 (Z.eqb_neq p 0) Hp). rewrite Z.min_r by lia.
  destruct (memmove_correct m1 p old old_size Hp ltac:(lia)) as (m2 & E2 & C2).
  { apply (acc_sub _ _ _ _ _ A2); lia. }
  { assumption. }
  exists m2. split; [assumption|]. rewrite E2. cbn [obind]. unfold zpl_free. rewrite H.
  destruct (al_free A m2 st1 old) as [[m' st']|]; reflexivity.
Qed.

(** * Arena *)
Section Arena.
  Set Default Proof Using "All".
  Variables start total k : Z.
  Let al := 2^k.
  Hypothesis Hk : 0 <= k <= 61.
  Hypothesis Hstart : 0 < start.
  Hypothesis Htotal : 0 <= total <= 2^61.
  Hypothesis Hroom : start + total + 2^61 < 2^64.
  Hypothesis Hal : start mod al = 0.

  Local Lemma al_pos : 0 < al <= 2^61.
  Proof. unfold al. split; [apply Z.pow_pos_nonneg; lia|apply Z.pow_le_mono_r; lia]. Qed.

  Definition inside_used (c : Z) (l : list block) : Prop :=
    Forall (inside start c) l /\ Forall (aligned_to al) l /\ Forall (fun b => 0 <= snd b) l /\ pairwise_apart l.

  Record arena_inv (m : mem) (a : arena) (live : list block) (snaps : list (Z * list block)) : Prop := {
    ai_start : ar_start a = start;
    ai_total : ar_total a = total;
    ai_bounds : 0 <= ar_allocated a <= total;
    ai_mod : ar_allocated a mod al = 0;
    ai_live : inside_used (ar_allocated a) live;
    ai_snaps : Forall (fun s => 0 <= fst s <= total /\ fst s mod al = 0 /\ inside_used (fst s) (snd s)) snaps;
    ai_temp : ar_temp a = Z.of_nat (length snaps);
    ai_acc : accessible m start total
  }.

  Definition up (size : Z) : Z := al * ((size + (al - 1)) / al).
  Lemma up_spec size : size <= up size < size + al /\ up size mod al = 0.
  Proof.
    pose proof al_pos. unfold up. rewrite Z.mul_comm, Z.mod_mul by lia.
    pose proof (Z.div_mod (size + (al-1)) al ltac:(lia)). pose proof (Z.mod_pos_bound (size + (al-1)) al ltac:(lia)).
    split; [|reflexivity]. lia.
  Qed.

  Lemma least_mult_self p : p mod al = 0 -> forall w, least_multiple_from al p w -> w = p.
  Proof.
    intros Hp w (_ & H1 & H3). pose proof al_pos.
    pose proof (Z.div_mod p al ltac:(lia)). specialize (H3 (p / al) ltac:(lia)). lia.
  Qed.

  (** exact behaviour of one request in a good state *)
  Lemma arena_alloc_step clear m a live snaps size : arena_inv m a live snaps -> 0 <= size <= 2^61 ->
    (total < ar_allocated a + up size -> arena_alloc clear m a size al = Some (m, a, 0)) /\
    (ar_allocated a + up size <= total -> exists m',
       arena_alloc clear m a size al =
         Some (m', mkArena start total (ar_allocated a + up size) (ar_temp a), start + ar_allocated a) /\
       (m' = m \/ is_fill m (start + ar_allocated a) 0 size m') /\
       (clear = true -> is_fill m (start + ar_allocated a) 0 size m')).
  Proof.
    intros I Hs. pose proof al_pos as P. pose proof (up_spec size) as U. destruct I.
    assert (E1: align_forward_i64 size al = Some (up size)).
    { rewrite align_forward_i64_nonneg; [reflexivity| | |]; lia. }
    assert (E2: align_forward (start + ar_allocated a) al = Some (start + ar_allocated a)).
    { destruct (align_forward_correct (start + ar_allocated a) k ltac:(lia) ltac:(lia)) as (w & Ew & Lw); [fold al; lia|].
      fold al in Ew, Lw. rewrite Ew. f_equal. apply least_mult_self; [|assumption].
      rewrite Z.add_mod, Hal, ai_mod0 by lia. reflexivity. }
    unfold arena_alloc. rewrite E1. cbn [obind].
    replace (in_i64b (ar_allocated a + up size)) with true.
    2:{ symmetry. unfold in_i64b. apply andb_true_iff. split; [apply Z.leb_le|apply Z.ltb_lt]; lia. }
    cbn [negb]. rewrite ai_total0, ai_start0. split; intros H.
    - replace (total <? ar_allocated a + up size) with true by (symmetry; apply Z.ltb_lt; lia). reflexivity.
    - replace (total <? ar_allocated a + up size) with false by (symmetry; apply Z.ltb_ge; lia).
      rewrite E2. cbn [obind].
      destruct (zero_if_ok clear m (start + ar_allocated a) size) as (m' & Em & F & G); [lia|lia| |].
      { apply (acc_sub _ _ _ _ _ ai_acc0); lia. }
      rewrite Em. cbn [obind]. exists m'. split; [reflexivity|]. split; assumption.
  Qed.

  Lemma pairwise_new c l size : inside_used c l -> 0 <= size -> c mod al = 0 -> 0 <= c ->
    inside_used (c + up size) ((start + c, size) :: l).
  Proof.
    intros (H1 & H2 & H2' & H3) Hs Hc Hc0. pose proof al_pos. pose proof (up_spec size) as U. unfold inside_used.
    split; [|split; [|split]].
    - constructor; [split; cbn; lia|].
      eapply Forall_impl; [|exact H1]. intros b [A B]. split; lia.
    - constructor; [|assumption]. unfold aligned_to. cbn [fst].
      rewrite Z.add_mod, Hal, Hc by lia. reflexivity.
    - constructor; [exact Hs|assumption].
    - split; [|assumption]. eapply Forall_impl; [|exact H1]. intros b [A B]. right. cbn. lia.
  Qed.

  Lemma arena_history_inv m0 : accessible m0 start total -> forall m a live snaps,
    arena_history start total al m0 m a live snaps ->
    arena_inv m a live snaps.
  Proof.
    intros H0 m a live snaps H. pose proof al_pos as P.
    (* any successful request *)
    assert (ALLOC: forall clear m a live snaps size m' a' p, arena_inv m a live snaps -> 0 <= size ->
              arena_alloc clear m a size al = Some (m', a', p) ->
              (p = 0 /\ m' = m /\ a' = a) \/
              (p = start + ar_allocated a /\ ar_allocated a + up size <= total /\
               a' = mkArena start total (ar_allocated a + up size) (ar_temp a) /\
               (m' = m \/ is_fill m p 0 size m'))).
    { clear - Hk Hstart Htotal Hroom Hal P. intros clear_ m a live snaps size m' a' p I Hs E.
      pose proof (up_spec size) as U.
      destruct (Z_le_dec size (2^61)) as [L|L].
      - destruct (arena_alloc_step clear_ m a live snaps size I ltac:(lia)) as [S1 S2].
        destruct (Z_le_dec (ar_allocated a + up size) total) as [F|F].
        + destruct (S2 F) as (m1 & E1 & D & _). rewrite E1 in E. injection E as <- <- <-. right. auto.
        + rewrite S1 in E by lia. injection E as <- <- <-. left. auto.
      - (* too large for the buffer: fails or overflows *)
        destruct I. unfold arena_alloc in E.
        destruct (align_forward_i64 size al) as [ts|] eqn:Ets; [|discriminate]. cbn [obind] in E.
        destruct (negb (in_i64b (ar_allocated a + ts))) eqn:N; [discriminate|].
        assert (Ht: size <= ts).
        { unfold align_forward_i64 in Ets. destruct (al =? 0) eqn:Z0; [discriminate|]. cbv zeta in Ets.
          destruct (negb _) in Ets; [discriminate|].
          destruct ((- 2 ^ 63 <=? _) && _) in Ets; [|discriminate]. injection Ets as <-.
          assert (0 <= Z.rem (al - Z.rem size al) al); [|lia].
          apply Z.rem_nonneg; [lia|]. rewrite Z.rem_mod_nonneg by lia. pose proof (Z.mod_pos_bound size al). lia. }
        rewrite ai_total0 in E. destruct (Z.ltb_spec total (ar_allocated a + ts)) as [B|B].
        + injection E as <- <- <-. left; auto.
        + exfalso. lia. }
    assert (NEW: forall m a live snaps size m' p, arena_inv m a live snaps -> 0 <= size ->
              p = start + ar_allocated a -> ar_allocated a + up size <= total ->
              accessible m' start total ->
              arena_inv m' (mkArena start total (ar_allocated a + up size) (ar_temp a)) ((p, size) :: live) snaps).
    { clear - Hk Hstart Htotal Hroom Hal P. intros m a live snaps size m' p I Hs -> Hf Acc. pose proof (up_spec size).
      destruct I. constructor; cbn; try assumption; try reflexivity; try lia.
      - rewrite Z.add_mod, ai_mod0 by lia. destruct H as [_ ->]. reflexivity.
      - apply pairwise_new; try assumption. lia. }
    induction H.
    - constructor; cbn; try reflexivity; try lia; try assumption; try constructor; try constructor.
      constructor. split; constructor.
    - destruct (ALLOC _ _ _ _ _ _ _ _ _ IHarena_history H1 H2) as [(-> & _)|(E & F & -> & D)]; [congruence|].
      refine (NEW _ _ _ _ _ _ _ IHarena_history H1 E F _). destruct IHarena_history.
      destruct D as [->|D]; [assumption|]. apply (acc_fill _ _ _ _ _ _ _ D); [unfold byte; lia|assumption].
    - destruct (ALLOC _ _ _ _ _ _ _ _ _ IHarena_history H1 H2) as [(_ & -> & ->)|(E & F & -> & D)]; [assumption|].
      destruct IHarena_history. lia.
    - rename IHarena_history into I. unfold arena_resize in H3.
      assert (Old: start <= old /\ 0 <= old_size /\ old + old_size <= start + ar_allocated a).
      { destruct I. destruct ai_live0 as (L1 & _ & L2 & _). rewrite Forall_forall in L1, L2.
        specialize (L1 _ H2). specialize (L2 _ H2). destruct L1. cbn in *. lia. }
      destruct (Z.eq_dec size 0) as [->|Hz].
      { rewrite resize_zero in H3 by lia. cbn in H3. injection H3 as <- <- <-. congruence. }
      destruct (Z_le_dec size old_size) as [Hsz|Hsz].
      { rewrite resize_shrink in H3 by lia. injection H3 as <- <- <-. congruence. }
      destruct (al_alloc arena_allocator m a size al) as [[[m1 a1] q]|] eqn:E1.
      2:{ unfold default_resize_align in H3. replace (old =? 0) with false in H3 by (symmetry; apply Z.eqb_neq; lia).
          replace (size =? 0) with false in H3 by (symmetry; apply Z.eqb_neq; lia).
          replace (size <? old_size) with false in H3 by (symmetry; apply Z.ltb_ge; lia). cbv zeta in H3.
          replace (old_size =? size) with false in H3 by (symmetry; apply Z.eqb_neq; lia). rewrite E1 in H3. discriminate. }
      destruct (Z.eq_dec q 0) as [->|Hq].
      { erewrite resize_grow_fail in H3 by (try eassumption; lia). injection H3 as <- <- <-. congruence. }
      cbn in E1. destruct (ALLOC _ _ _ _ _ _ _ _ _ I H1 E1) as [(-> & _)|(E & F & Ea & D)]; [congruence|].
      assert (A1: accessible m1 start total).
      { destruct I. destruct D as [->|D]; [assumption|]. apply (acc_fill _ _ _ _ _ _ _ D); [unfold byte; lia|assumption]. }
      pose proof (up_spec size) as U.
      assert (Ao: accessible m1 old old_size) by (apply (acc_sub _ _ _ _ _ A1); [lia|destruct I; lia]).
      assert (An: accessible m1 q size) by (apply (acc_sub _ _ _ _ _ A1); destruct I; lia).
      destruct (resize_grow arena_allocator m a old old_size size al m1 a1 q ltac:(lia) ltac:(lia) E1 Hq Ao An) as (m2 & C & R).
      rewrite R in H3. cbn in H3. injection H3 as <- <- <-. subst a1. refine (NEW _ _ _ _ _ _ _ I H1 E F _).
      exact (acc_copy _ _ _ _ _ _ _ C Ao A1).
    - injection H1 as <- <-. assumption.
    - rename IHarena_history into I. destruct I. constructor; cbn; try assumption; try lia.
      + reflexivity.
      + constructor; [constructor|]. split; [constructor|]. split; constructor.
      + clear - ai_snaps0. induction ai_snaps0; constructor; [|assumption]. cbn. destruct H as (A & B & C).
        split; [assumption|]. split; [assumption|]. constructor; [constructor|]. split; [constructor|]. split; constructor.
      + rewrite map_length. assumption.
    - rename IHarena_history into I. destruct I. injection H1 as <- <-. constructor; cbn; try assumption.
      + constructor; [|assumption]. cbn. auto.
      + lia.
    - rename IHarena_history into I. destruct I. unfold arena_snapshot_end in H1.
      destruct (negb _) in H1; [discriminate|]. destruct (negb _) in H1; [discriminate|]. injection H1 as <-.
      inversion ai_snaps0 as [|? ? (B1 & B2 & B3) R]; subst. cbn in B1, B2, B3.
      constructor; cbn; try assumption. cbn in ai_temp0. lia.
    - rename IHarena_history into I. destruct I. constructor; try assumption. apply acc_poke; assumption.
  Qed.
  Unset Default Proof Using.
End Arena.

(** * Snapshots *)
Lemma align_i64_ge v a r : 0 <= v -> 0 < a -> align_forward_i64 v a = Some r -> v <= r.
Proof.
  intros Hv Ha E. unfold align_forward_i64 in E. destruct (a =? 0); [discriminate|]. cbv zeta in E.
  destruct (negb _) in E; [discriminate|]. destruct ((- 2 ^ 63 <=? _) && _) in E; [|discriminate]. injection E as <-.
  assert (0 <= Z.rem (a - Z.rem v a) a); [|lia].
  apply Z.rem_nonneg; [lia|]. rewrite Z.rem_mod_nonneg by lia. pose proof (Z.mod_pos_bound v a). lia.
Qed.

Lemma arena_alloc_mono clear m a size al m' a' p : 0 <= size -> 0 < al ->
  arena_alloc clear m a size al = Some (m', a', p) ->
  ar_start a' = ar_start a /\ ar_total a' = ar_total a /\ ar_temp a' = ar_temp a /\ ar_allocated a <= ar_allocated a'.
Proof.
  intros Hs Ha E. unfold arena_alloc in E. destruct (align_forward_i64 size al) as [ts|] eqn:Et; [|discriminate].
  pose proof (align_i64_ge _ _ _ Hs Ha Et). cbn [obind] in E. destruct (negb _) in E; [discriminate|].
  destruct (ar_total a <? _); [injection E as <- <- <-; repeat split; lia|].
  destruct (align_forward _ al) as [q|]; [|discriminate]. cbn [obind] in E.
  destruct (zero_if clear m q size); [|discriminate]. cbn [obind] in E. injection E as <- <- <-. cbn. repeat split; lia.
Qed.

Lemma arena_ops_mono m a m' a' : arena_ops m a m' a' ->
  ar_start a' = ar_start a /\ ar_total a' = ar_total a /\ ar_temp a' = ar_temp a /\ ar_allocated a <= ar_allocated a'.
Proof.
  induction 1.
  - repeat split; lia.
  - destruct (arena_alloc_mono _ _ _ _ _ _ _ _ H0 H1 H2) as (A & B & C & D). destruct IHarena_ops as (A' & B' & C' & D').
    repeat split; congruence || lia.
  - assert (M: ar_start a2 = ar_start a1 /\ ar_total a2 = ar_total a1 /\ ar_temp a2 = ar_temp a1 /\ ar_allocated a1 <= ar_allocated a2).
    { unfold arena_resize, default_resize_align in H3. cbn [al_alloc al_free arena_allocator] in H3.
      destruct (old =? 0); [eapply arena_alloc_mono in H3; [exact H3|lia|lia]|].
      destruct (size =? 0).
      { unfold zpl_free in H3. destruct (old =? 0); cbn in H3; injection H3 as <- <- <-; repeat split; lia. }
      cbv zeta in H3. set (ns := if size <? old_size then old_size else size) in H3.
      assert (0 <= ns) by (unfold ns; destruct (size <? old_size); lia).
      destruct (old_size =? ns); [injection H3 as <- <- <-; repeat split; lia|].
      destruct (arena_alloc true m1 a1 ns al) as [[[m3 a3] q]|] eqn:E; [|discriminate]. cbn [obind] in H3.
      apply arena_alloc_mono in E; [|lia|lia].
      destruct (q =? 0); [injection H3 as <- <- <-; exact E|].
      destruct (memmove m3 q old (Z.min ns old_size)) as [[m4 r]|]; [|discriminate]. cbn [obind] in H3.
      unfold zpl_free in H3. destruct (old =? 0); cbn in H3; injection H3 as <- <- <-; exact E. }
    destruct M as (A & B & C & D). destruct IHarena_ops as (A' & B' & C' & D'). repeat split; congruence || lia.
  - injection H0 as <- <-. assumption.
  - injection H0 as <- <-. unfold arena_snapshot_end in H2. destruct (negb _) in H2; [discriminate|].
    destruct (negb _) in H2; [discriminate|]. injection H2 as <-. cbn in *.
    destruct IHarena_ops1 as (A & B & C & D), IHarena_ops2 as (A' & B' & C' & D').
    cbn in *. repeat split; congruence || lia.
  - assumption.
Qed.

Lemma snapshot_restores m a a1 c m2 a2 : 0 <= ar_temp a -> arena_snapshot_begin a = (a1, c) ->
  arena_ops m a1 m2 a2 -> arena_snapshot_end a2 c = Some a.
Proof.
  intros Ht B O. injection B as <- <-. apply arena_ops_mono in O. cbn in O. destruct O as (A & B & C & D).
  unfold arena_snapshot_end. replace (ar_allocated a <=? ar_allocated a2) with true by (symmetry; apply Z.leb_le; lia).
  replace (0 <? ar_temp a2) with true by (symmetry; apply Z.ltb_lt; lia). cbn [negb]. f_equal.
  rewrite A, B, C. destruct a; cbn. f_equal. lia.
Qed.
