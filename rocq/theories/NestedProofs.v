(** Proofs about nested arenas. *)
From Verif Require Import Base Bits BitsSpec BitsProofs Mem MemSpec MemProofs Alloc AllocSpec AllocProofs Nested NestedSpec.
From Coq Require Import Permutation.

Lemma tree_ind' (P : tree -> Prop) : (forall a live subs, Forall P subs -> P (T a live subs)) -> forall t, P t.
Proof. intros H. fix IH 1. intros [a live subs]. apply H. induction subs as [|t subs I]; constructor; [apply IH|exact I]. Qed.

Lemma apart_sym b c : apart b c -> apart c b.
Proof. unfold apart. lia. Qed.
Lemma pairwise_app l1 l2 : pairwise_apart (l1 ++ l2) <-> pairwise_apart l1 /\ pairwise_apart l2 /\ Forall (fun b => Forall (apart b) l2) l1.
Proof.
  induction l1 as [|b l1 IH]; cbn [app pairwise_apart]; [intuition constructor|]. rewrite Forall_app, IH. split.
  - intros ((A & B) & C & D & E). repeat split; try assumption. constructor; assumption.
  - intros ((A & B) & C & D). inversion D; subst. repeat split; assumption.
Qed.
Lemma pairwise_perm l1 l2 : Permutation l1 l2 -> pairwise_apart l1 -> pairwise_apart l2.
Proof.
  induction 1 as [|b l1 l2 P IH|b c l|l1 l2 l3 P IH Q IH2]; cbn [pairwise_apart]; intros H.
  - exact I.
  - destruct H as (A & B). split; [exact (Permutation_Forall P A)|now apply IH].
  - destruct H as (A & B & C). inversion A; subst. split; [constructor; [now apply apart_sym|assumption]|split; assumption].
  - auto.
Qed.
Lemma used_perm start k c l1 l2 : Permutation l1 l2 -> inside_used start k c l1 -> inside_used start k c l2.
Proof.
  intros P (A & B & C & D). unfold inside_used.
  split; [exact (Permutation_Forall P A)|]. split; [exact (Permutation_Forall P B)|]. split; [exact (Permutation_Forall P C)|]. exact (pairwise_perm _ _ P D).
Qed.

(** a tree of arenas in order, in the given place *)
Fixpoint wf (m : mem) (start total : Z) (t : tree) : Prop :=
  match t with T a live subs =>
    (0 < start /\ 0 <= total <= 2^61 /\ start + total + 2^61 < 2^64 /\ start mod 16 = 0) /\
    arena_inv start total 4 m a (live ++ map region subs) [] /\
    (fix all l := match l with [] => True | s :: l => wf m (fst (region s)) (snd (region s)) s /\ all l end) subs
  end.
Lemma wf_unfold m start total a live subs : wf m start total (T a live subs) <->
  (0 < start /\ 0 <= total <= 2^61 /\ start + total + 2^61 < 2^64 /\ start mod 16 = 0) /\
  arena_inv start total 4 m a (live ++ map region subs) [] /\ Forall (fun s => wf m (fst (region s)) (snd (region s)) s) subs.
Proof.
  cbn [wf]. assert (E : forall l, (fix all l := match l with [] => True | s :: l => wf m (fst (region s)) (snd (region s)) s /\ all l end) l <-> Forall (fun s => wf m (fst (region s)) (snd (region s)) s) l).
  { induction l as [|s l IH]; [split; [constructor|easy]|]. rewrite IH. split; [intros (A & B); now constructor|intros H; inversion H; now subst]. }
  rewrite E. reflexivity.
Qed.
Lemma wf_region m start total t : wf m start total t -> region t = (start, total).
Proof. destruct t as [a live subs]. rewrite wf_unfold. intros (_ & I & _). destruct I. cbn. congruence. Qed.

Definition more_access (m m' : mem) : Prop := forall a n, accessible m a n -> accessible m' a n.
Lemma inv_mem start total k m m' a l s : more_access m m' -> arena_inv start total k m a l s -> arena_inv start total k m' a l s.
Proof. intros H [? ? ? ? ? ? ? ?]. constructor; auto. Qed.
Lemma wf_mem m m' : more_access m m' -> forall t start total, wf m start total t -> wf m' start total t.
Proof.
  intros H. induction t as [a live subs IH] using tree_ind'. intros start total. rewrite !wf_unfold. intros (A & B & C). split; [exact A|]. split; [now apply (inv_mem _ _ _ m)|].
  rewrite Forall_forall in *. intros s I. apply IH; auto.
Qed.

Lemma inside_trans start total b c : inside (fst b) (snd b) c -> inside start total b -> inside start total c.
Proof. unfold inside. lia. Qed.
Lemma apart_inside b c d : inside (fst b) (snd b) c -> apart b d -> apart c d.
Proof. unfold inside, apart. lia. Qed.
Lemma wf_held m : forall t start total, wf m start total t ->
  Forall (inside start total) (held t) /\ Forall (aligned_to 16) (held t) /\ Forall (fun b => 0 <= snd b) (held t) /\ pairwise_apart (held t).
Proof.
  induction t as [a live subs IH] using tree_ind'. intros start total. rewrite wf_unfold. intros (A & B & C). destruct B as [B1 B2 B3 B4 (L1 & L2 & L2' & L3) _ _ _].
  apply Forall_app in L1, L2, L2'. destruct L1 as (L1 & R1), L2 as (L2 & R2), L2' as (L2' & R2'). apply pairwise_app in L3. destruct L3 as (L3 & R3 & X3).
  assert (In1 : forall b, inside start (ar_allocated a) b -> inside start total b) by (unfold inside; lia). cbn [held].
  assert (S : Forall (fun s => Forall (inside (fst (region s)) (snd (region s))) (held s) /\ Forall (aligned_to 16) (held s) /\ Forall (fun b => 0 <= snd b) (held s) /\ pairwise_apart (held s)) subs).
  { rewrite Forall_forall in *. intros s I. apply IH; auto. }
  clear IH C. rewrite !Forall_app, pairwise_app.
  assert (G : Forall (inside start total) (flat_map held subs) /\ Forall (aligned_to 16) (flat_map held subs) /\ Forall (fun b => 0 <= snd b) (flat_map held subs) /\ pairwise_apart (flat_map held subs) /\
    forall d, Forall (apart d) (map region subs) -> Forall (apart d) (flat_map held subs)).
  { clear L1 L2 L2' L3 X3. induction S as [|s subs (S1 & S2 & S2' & S3) S IH]; cbn [flat_map]; [repeat split; intros; constructor|]. cbn [map] in R1, R2, R2', R3.
    apply Forall_cons_iff in R1, R2, R2'. destruct R1 as (R1 & Q1), R2 as (R2 & Q2), R2' as (R2' & Q2'). destruct R3 as (R3 & Q3). destruct (IH Q1 Q2 Q2' Q3) as (G1 & G2 & G2' & G3 & G4).
    rewrite !Forall_app, pairwise_app. split; [split; [|exact G1]|]. { eapply Forall_impl; [|exact S1]. intros c Hc. eapply inside_trans; [exact Hc|]. now apply In1. }
    split; [now split|]. split; [now split|]. split.
    - split; [exact S3|]. split; [exact G3|]. rewrite Forall_forall in *. intros c Hc. apply Forall_forall. intros e He. specialize (G4 (region s)). rewrite !Forall_forall in G4. apply (apart_inside (region s)); auto.
    - intros d Hd. inversion Hd as [|? ? Hd1 Hd2]; subst. apply Forall_app. split; [|now apply G4]. eapply Forall_impl; [|exact S1]. intros c Hc. apply apart_sym. eapply apart_inside; [exact Hc|]. now apply apart_sym. }
  destruct G as (G1 & G2 & G2' & G3 & G4). split; [split; [|exact G1]; eapply Forall_impl; [|exact L1]; exact In1|]. split; [now split|]. split; [now split|].
  split; [exact L3|]. split; [exact G3|]. eapply Forall_impl; [|exact X3]. intros d Hd. now apply G4.
Qed.

(** any request that succeeds, in an arena in order *)
Lemma alloc_result start total (Hs : 0 < start) (Ht : 0 <= total <= 2^61) (Hr : start + total + 2^61 < 2^64) (Hal : start mod 2^4 = 0) clear m a l size m' a' p : arena_inv start total 4 m a l [] -> 0 <= size ->
  arena_alloc clear m a size 16 = Some (m', a', p) ->
  (p = 0 /\ m' = m /\ a' = a) \/
  (p = start + ar_allocated a /\ ar_allocated a + up 4 size <= total /\ a' = mkArena start total (ar_allocated a + up 4 size) (ar_temp a) /\ (m' = m \/ is_fill m p 0 size m')).
Proof.
  intros I Hz E. assert (Hk : 0 <= 4 <= 61) by lia. pose proof (up_spec start total 4 Hk Hs Ht Hr Hal size) as U.
  destruct (Z_le_dec size (2^61)) as [L|L].
  - destruct (arena_alloc_step start total 4 Hk Hs Ht Hr Hal clear m a l [] size I ltac:(lia)) as [S1 S2]. change (2^4) with 16 in S1, S2.
    destruct (Z_le_dec (ar_allocated a + up 4 size) total) as [F|F].
    + destruct (S2 F) as (m1 & E1 & D & _). rewrite E1 in E. injection E as <- <- <-. right. auto.
    + rewrite S1 in E by lia. injection E as <- <- <-. left. auto.
  - destruct I. unfold arena_alloc in E.
    destruct (align_forward_i64 size 16) as [ts|] eqn:Ets; [|discriminate]. cbn [obind] in E.
    destruct (negb (in_i64b (ar_allocated a + ts))) eqn:N; [discriminate|].
    assert (Hts: size <= ts).
    { unfold align_forward_i64 in Ets. change (16 =? 0) with false in Ets. cbv zeta in Ets.
      destruct (negb _) in Ets; [discriminate|]. destruct ((- 2 ^ 63 <=? _) && _) in Ets; [|discriminate]. assert (Et : ts = size + Z.rem (16 - Z.rem size 16) 16) by congruence.
      assert (0 <= Z.rem (16 - Z.rem size 16) 16); [|clear - Et H; lia].
      apply Z.rem_nonneg; [lia|]. rewrite Z.rem_mod_nonneg by lia. pose proof (Z.mod_pos_bound size 16). lia. }
    rewrite ai_total in E. destruct (Z.ltb_spec total (ar_allocated a + ts)) as [B|B].
    + injection E as <- <- <-. left; auto.
    + exfalso. lia.
Qed.
Lemma alloc_new start total (Hs : 0 < start) (Ht : 0 <= total <= 2^61) (Hr : start + total + 2^61 < 2^64) (Hal : start mod 2^4 = 0) m a l size m' : arena_inv start total 4 m a l [] -> 0 <= size ->
  ar_allocated a + up 4 size <= total -> more_access m m' ->
  arena_inv start total 4 m' (mkArena start total (ar_allocated a + up 4 size) (ar_temp a)) ((start + ar_allocated a, size) :: l) [].
Proof.
  intros I Hz F M. assert (Hk : 0 <= 4 <= 61) by lia. pose proof (up_spec start total 4 Hk Hs Ht Hr Hal size) as U. destruct I. constructor; cbn [ar_start ar_total ar_allocated ar_temp]; try assumption; try reflexivity; try lia; [| |now apply M].
  - rewrite Z.add_mod, ai_mod by lia. destruct U as [_ ->]. reflexivity.
  - apply (pairwise_new start total 4 Hk Hs Ht Hr Hal); try assumption. lia.
Qed.
Lemma fill_access m p n m' : m' = m \/ is_fill m p 0 n m' -> more_access m m'.
Proof. intros [->|F] a k H; [exact H|]. apply (acc_fill _ _ _ _ _ _ _ F); [unfold byte; lia|exact H]. Qed.

Lemma release_eq m a b m' a' b' : arena_release arena_allocator m a b = Some (m', a', b') -> m' = m /\ a' = a.
Proof. unfold arena_release, zpl_free. cbn [al_free arena_allocator]. unfold arena_free. destruct (ar_start b =? 0); cbn [obind]; intros E; injection E as <- <- <-; now split. Qed.

Lemma step_wf m t m' t' w : step m t m' t' w -> forall start total, wf m start total t ->
  wf m' start total t' /\ more_access m m' /\
  (m' = m \/ (exists p n, (forall b, In b (held t) -> apart (p, n) b) /\ inside start total (p, n) /\ is_fill m p 0 n m') \/ (exists x v, w = Some x /\ m' = poke m x v /\ in_some (held t) x)).
Proof.
  induction 1 as [m a live subs clear size m' a' p Hz E Np|m a live subs clear size m' a' Hz E|m a live subs size m' a' s Hz E Np|m a live subs|m a live s1 b l s s2 m' a' b' E|m a live subs x v Hx Hv|m a live s1 t s2 m' t' w H IH]; intros start total W; pose proof W as W0; apply wf_unfold in W; destruct W as ((Hs & Ht & Hr & Hal) & I & S).
  - destruct (alloc_result start total Hs Ht Hr Hal _ _ _ _ _ _ _ _ I Hz E) as [(-> & _)|(-> & F & -> & D)]; [easy|]. pose proof (fill_access _ _ _ _ D) as M.
    pose proof (alloc_new start total Hs Ht Hr Hal _ _ _ _ _ I Hz F M) as I'.
    assert (W' : wf m' start total (T (mkArena start total (ar_allocated a + up 4 size) (ar_temp a)) ((start + ar_allocated a, size) :: live) subs)).
    { apply wf_unfold. split; [tauto|]. split; [exact I'|]. eapply Forall_impl; [|exact S]. intros s. apply wf_mem, M. }
    split; [exact W'|]. split; [exact M|]. destruct D as [->|D]; [now left|]. right. left. exists (start + ar_allocated a), size. split; [|split; [|exact D]].
    + apply wf_held in W'. destruct W' as (_ & _ & _ & P). cbn [held app pairwise_apart] in P. destruct P as (P & _). rewrite Forall_forall in P. exact P.
    + apply wf_held in W'. destruct W' as (P & _). cbn [held app] in P. now apply Forall_inv in P.
  - destruct (alloc_result start total Hs Ht Hr Hal _ _ _ _ _ _ _ _ I Hz E) as [(_ & -> & ->)|(F & _)].
    + split; [exact W0|]. split; [intros ? ? X; exact X|now left].
    + exfalso. destruct I. lia.
  - unfold arena_init_sub, arena_init_from_allocator, zpl_alloc in E. cbn [al_alloc arena_allocator] in E. change DEFAULT_ALIGNMENT with 16 in E.
    destruct (arena_alloc true m a size 16) as [[[m1 a1] p]|] eqn:E1; [|discriminate]. cbn [obind] in E. injection E as <- <- <-. cbn [ar_start] in Np.
    destruct (alloc_result start total Hs Ht Hr Hal _ _ _ _ _ _ _ _ I Hz E1) as [(-> & _)|(-> & F & -> & D)]; [easy|]. pose proof (fill_access _ _ _ _ D) as M.
    pose proof (alloc_new start total Hs Ht Hr Hal _ _ _ _ _ I Hz F M) as I'. assert (Hk : 0 <= 4 <= 61) by lia. pose proof (up_spec start total 4 Hk Hs Ht Hr Hal size) as U.
    assert (I2 : arena_inv start total 4 m1 (mkArena start total (ar_allocated a + up 4 size) (ar_temp a)) (live ++ (start + ar_allocated a, size) :: map region subs) []).
    { destruct I' as [? ? ? ? L ? ? ?]. constructor; try assumption. apply (used_perm _ _ _ _ _ (Permutation_middle live (map region subs) (start + ar_allocated a, size)) L). }
    assert (W1 : wf m1 (start + ar_allocated a) size (T (mkArena (start + ar_allocated a) size 0 0) [] [])).
    { apply wf_unfold. destruct I as [I1 I2' I3 I4 _ _ _ I8]. split; [repeat split; try lia; rewrite Z.add_mod, Hal by lia; change 16 with (2^4); rewrite I4; reflexivity|]. split; [|constructor].
      constructor; cbn [ar_start ar_total ar_allocated ar_temp map app]; try reflexivity; try lia; try (constructor; fail).
      - unfold inside_used. repeat split; constructor.
      - apply M. apply (acc_sub _ _ _ _ _ I8); lia. }
    split; [|split; [exact M|]].
    + apply wf_unfold. split; [tauto|]. split; [exact I2|]. constructor; [exact W1|]. eapply Forall_impl; [|exact S]. intros s. apply wf_mem, M.
    + destruct D as [->|D]; [now left|]. right. left. exists (start + ar_allocated a), size. split; [|split; [|exact D]].
      * assert (W2 : wf m1 start total (T (mkArena start total (ar_allocated a + up 4 size) (ar_temp a)) ((start + ar_allocated a, size) :: live) subs)).
        { apply wf_unfold. split; [tauto|]. split; [exact I'|]. eapply Forall_impl; [|exact S]. intros s. apply wf_mem, M. }
        apply wf_held in W2. destruct W2 as (_ & _ & _ & P). cbn [held app pairwise_apart] in P. destruct P as (P & _). rewrite Forall_forall in P. exact P.
      * destruct I. unfold inside. cbn [fst snd]. lia.
  - split; [|split; [intros ? ? X; exact X|now left]]. apply wf_unfold. split; [tauto|]. split; [|constructor]. destruct I. constructor; cbn; try assumption; try lia; try reflexivity.
    unfold inside_used. repeat split; constructor.
  - apply release_eq in E. destruct E as (-> & ->). split; [|split; [intros ? ? X; exact X|now left]]. apply wf_unfold. split; [tauto|].
    rewrite Forall_app, Forall_cons_iff in S. destruct S as (S1 & _ & S2). split; [|apply Forall_app; now split].
    destruct I as [? ? ? ? L ? ? ?]. constructor; try assumption. rewrite map_app in *. cbn [map] in L.
    rewrite app_assoc in L |- *. destruct (used_perm _ _ _ _ _ (Permutation_sym (Permutation_middle (live ++ map region s1) (map region s2) (region (T b l s)))) L) as (A & B & C & D).
    apply Forall_cons_iff in A, B, C. unfold inside_used. destruct D as (_ & D). tauto.
  - assert (M : more_access m (poke m x v)) by (intros ? ?; now apply acc_poke). split; [now apply (wf_mem m)|]. split; [exact M|]. right. right. exists x, v. repeat split.
    destruct Hx as (b & Hb & Hx). exists b. split; [|exact Hx]. cbn [held]. apply in_or_app. now left.
  - rewrite Forall_app, Forall_cons_iff in S. destruct S as (S1 & S & S2). destruct (IH _ _ S) as (W' & M & C). pose proof (wf_region _ _ _ _ W') as R. split; [|split; [exact M|]].
    + apply wf_unfold. split; [tauto|]. split.
      * rewrite map_app in *. cbn [map] in *. rewrite R. rewrite <- surjective_pairing. now apply (inv_mem _ _ _ m).
      * rewrite Forall_app, Forall_cons_iff, R. split; [|split; [exact W'|]]; (eapply Forall_impl; [|eassumption]; intros ?; apply wf_mem, M).
    + assert (IR : inside start total (region t)).
      { destruct I as [_ _ B _ (L & _) _ _ _]. apply Forall_app in L. destruct L as (_ & L). rewrite map_app in L. apply Forall_app in L. destruct L as (_ & L). cbn [map] in L. apply Forall_inv in L. unfold inside in *. lia. }
      destruct C as [->|[(p & n & Ap & Ip & F)|(x & v & -> & -> & Hx)]]; [now left| |].
      * right. left. exists p, n. split; [|split; [exact (inside_trans _ _ _ _ Ip IR)|exact F]]. intros c Hc. cbn [held] in Hc.
        assert (Ot : In c (held t) \/ In c (live ++ flat_map held s1 ++ flat_map held s2)).
        { rewrite flat_map_app in Hc. cbn [flat_map] in Hc. rewrite !in_app_iff in *. tauto. }
        destruct Ot as [Ot|Ot]; [now apply Ap|]. apply (apart_inside (region t)); [exact Ip|].
        (* what is elsewhere is apart from all of this arena: consider the tree with the arena as one block *)
        assert (W1 : wf m start total (T a (region t :: live) (s1 ++ s2))).
        { apply wf_unfold. split; [tauto|]. split; [|apply Forall_app; now split]. destruct I as [? ? ? ? L ? ? ?]. constructor; try assumption. rewrite map_app in *. cbn [map] in L.
          apply (used_perm _ _ _ (live ++ map region s1 ++ region t :: map region s2)); [|exact L]. cbn [app]. rewrite !app_assoc. symmetry. apply Permutation_middle. }
        apply wf_held in W1. destruct W1 as (_ & _ & _ & P). cbn [held app pairwise_apart] in P. destruct P as (P & _). rewrite Forall_forall in P. apply P. rewrite flat_map_app. exact Ot.
      * right. right. exists x, v. repeat split. destruct Hx as (b & Hb & Hx). exists b. split; [|exact Hx]. cbn [held]. rewrite flat_map_app. cbn [flat_map]. rewrite !in_app_iff. tauto.
Qed.
Lemma steps_wf m t m' t' : steps m t m' t' -> forall start total, wf m start total t -> wf m' start total t'.
Proof. induction 1; intros; [assumption|]. eapply step_wf; [eassumption|]. auto. Qed.
