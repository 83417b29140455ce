(** C115: arenas within arenas, and copying allocations. *)
From Verif Require Import Base Bits BitsSpec BitsProofs Mem MemSpec MemProofs Alloc AllocSpec AllocProofs Nested NestedSpec NestedProofs PropAlloc Witness PropMem.

Definition good_place (start total : Z) : Prop := 0 < start /\ 0 <= total <= 2^61 /\ start + total + 2^61 < 2^64 /\ start mod 16 = 0.
Lemma start_wf start total m : good_place start total -> accessible m start total -> wf m start total (T (arena_init start total) [] []).
Proof.
  intros (A & B & C & D) Acc. apply wf_unfold. split; [tauto|]. split; [|constructor]. constructor; cbn; try reflexivity; try lia; try assumption; [|constructor].
  unfold inside_used. repeat split; constructor.
Qed.
(** whatever is done with an arena and the arenas made within it, the blocks that their users hold are inside the memory,
    aligned, and do not overlap *)
Theorem C115_blocks : forall start total m0 m t, good_place start total -> accessible m0 start total -> steps m0 (T (arena_init start total) [] []) m t ->
  Forall (inside start total) (held t) /\ Forall (aligned_to 16) (held t) /\ pairwise_apart (held t).
Proof. intros start total m0 m t G A S. pose proof (steps_wf _ _ _ _ S start total (start_wf _ _ _ G A)) as W. apply wf_held in W. tauto. Qed.
(** the arenas within arenas keep to their own memory *)
Inductive within : tree -> tree -> Prop :=
| W_here t : within t t
| W_sub s t a live subs : within s t -> In t subs -> within s (T a live subs).
Theorem C115_own_memory : forall start total m0 m t s, good_place start total -> accessible m0 start total -> steps m0 (T (arena_init start total) [] []) m t ->
  within s t -> inside start total (region s) /\ Forall (inside (fst (region s)) (snd (region s))) (held s).
Proof.
  intros start total m0 m t s G A S. pose proof (steps_wf _ _ _ _ S start total (start_wf _ _ _ G A)) as W. clear - W. intros H. revert start total W.
  induction H as [t|s t a live subs H IH I]; intros start total W.
  - pose proof (wf_region _ _ _ _ W) as ->. apply wf_held in W. cbn [fst snd]. split; [unfold inside; cbn; lia|tauto].
  - apply wf_unfold in W. destruct W as (_ & J & F). rewrite Forall_forall in F. destruct (IH _ _ (F _ I)) as (B & C). split; [|exact C]. eapply inside_trans; [exact B|].
    destruct J as [_ _ Bd _ (L & _) _ _ _]. apply Forall_app in L. destruct L as (_ & L). rewrite Forall_forall in L. specialize (L (region t) ltac:(now apply in_map)). unfold inside in *. lia.
Qed.
(** and nothing that is done changes a byte of a block that is held, except writing to it *)
Theorem C115_contents : forall start total m0 m t m' t' w b x, good_place start total -> accessible m0 start total -> steps m0 (T (arena_init start total) [] []) m t ->
  step m t m' t' w -> In b (held t) -> fst b <= x < fst b + snd b -> w <> Some x -> m' x = m x.
Proof.
  intros start total m0 m t m' t' w b x G A S H I Hx Nw. pose proof (steps_wf _ _ _ _ S start total (start_wf _ _ _ G A)) as W.
  destruct (step_wf _ _ _ _ _ H _ _ W) as (_ & _ & [->|[(p & n & Ap & _ & _ & F)|(y & v & -> & -> & _)]]); [reflexivity| |].
  - apply F. specialize (Ap b I). unfold apart in Ap. cbn [fst snd] in Ap. lia.
  - unfold poke. destruct (Z.eqb_spec x y); [congruence|reflexivity].
Qed.
(** no access outside the memory of the first arena, whatever is done *)
Theorem C115_rest : forall start total m0 m t x, good_place start total -> accessible m0 start total -> steps m0 (T (arena_init start total) [] []) m t ->
  ~ start <= x < start + total -> m x = m0 x.
Proof.
  intros start total m0 m t x G A S Nx. pose proof (start_wf _ _ _ G A) as W0. remember (T (arena_init start total) [] []) as t0 eqn:E0. clear E0.
  induction S as [m t|m t m1 t1 m2 t2 w S IH H]; [reflexivity|]. rewrite <- (IH A W0). pose proof (steps_wf _ _ _ _ S start total W0) as W.
  destruct (step_wf _ _ _ _ _ H _ _ W) as (_ & _ & [->|[(p & n & _ & Ip & _ & F)|(y & v & _ & -> & (b & I & Hb))]]); [reflexivity| |].
  - apply F. unfold inside in Ip. cbn [fst snd] in Ip. lia.
  - apply wf_held in W. destruct W as (Fi & _). rewrite Forall_forall in Fi. specialize (Fi b I). unfold inside in Fi. unfold poke. destruct (Z.eqb_spec x y); [lia|reflexivity].
Qed.

(** an arena is made within another exactly if the rounded size fits; otherwise there is an arena of this size at NULL *)
Theorem C115_sub_serves : forall start total m0 m a live snaps size, good_place start total -> accessible m0 start total -> arena_history start total 16 m0 m a live snaps -> 0 <= size <= 2^61 ->
  exists m' a' p r, arena_init_sub m a size = Some (m', a', mkArena p size 0 0) /\ least_multiple_from 16 size r /\
  (p <> 0 <-> ar_allocated a + r <= total) /\ (p = 0 -> a' = a /\ m' = m) /\
  (p <> 0 -> ar_allocated a' = ar_allocated a + r /\ is_fill m p 0 size m' /\ inside start total (p, size) /\ Forall (apart (p, size)) live).
Proof.
  intros start total m0 m a live snaps size (G1 & G2 & G3 & G4) A H Hz. change 16 with (2^4) in H, G4.
  destruct (C10_arena_serves start total 4 m0 m a live snaps true size ltac:(lia) G1 G2 G3 G4 A H Hz) as (m' & a' & p & r & E & L & P & Z0 & N0). change (2^4) with 16 in E, L.
  exists m', a', p, r. unfold arena_init_sub, arena_init_from_allocator, zpl_alloc. cbn [al_alloc arena_allocator]. change DEFAULT_ALIGNMENT with 16. rewrite E. cbn [obind]. split; [reflexivity|]. split; [exact L|]. split; [exact P|]. split; [exact Z0|].
  intros Np. destruct (N0 Np) as (B & F). split; [exact B|]. split; [now apply F|].
  pose proof (AH_alloc start total 16 m0 m a live snaps true size m' a' p H ltac:(lia) E Np) as H'. change 16 with (2^4) in H'.
  destruct (C10_arena_blocks start total 4 m0 m' a' _ snaps ltac:(lia) G1 G2 G3 G4 A H') as (I & _ & Pw). split; [now apply Forall_inv in I|]. exact (proj1 Pw).
Qed.
(** releasing an arena gives nothing back to the arena it lies in: the same memory is never handed out again *)
Theorem C115_release_keeps : forall m a b m' a' b', arena_release arena_allocator m a b = Some (m', a', b') -> m' = m /\ a' = a /\ ar_start b' = 0.
Proof.
  intros m a b m' a' b' E. pose proof (release_eq _ _ _ _ _ _ E) as (-> & ->). split; [reflexivity|]. split; [reflexivity|].
  revert E. unfold arena_release, zpl_free. cbn [al_free arena_allocator]. unfold arena_free. destruct (ar_start b =? 0); cbn [obind]; intros E; injection E as <-; reflexivity.
Qed.
(** with any other allocator: the block that was taken is given back, once; releasing again does nothing *)
Theorem C115_release_frees : forall (St : Type) (A : allocator St) m st size m1 st1 p, al_alloc A m st size 16 = Some (m1, st1, p) ->
  exists a, arena_init_from_allocator A m st size = Some (m1, st1, a) /\ forall m2 st2 a2, ar_start a2 = ar_start a ->
  (p = 0 -> exists a3, arena_release A m2 st2 a2 = Some (m2, st2, a3)) /\
  (p <> 0 -> forall m3 st3, al_free A m2 st2 p = Some (m3, st3) -> exists a3, arena_release A m2 st2 a2 = Some (m3, st3, a3) /\ arena_release A m3 st3 a3 = Some (m3, st3, a3)) /\
  (p <> 0 -> al_free A m2 st2 p = None -> arena_release A m2 st2 a2 = None).
Proof.
  intros St A m st size m1 st1 p H. unfold arena_init_from_allocator, zpl_alloc, DEFAULT_ALIGNMENT. rewrite H. cbn [obind]. eexists. split; [reflexivity|].
  cbn [ar_start]. intros m2 st2 a2 E. unfold arena_release, zpl_free. rewrite E. split; [|split].
  - intros ->. cbn [Z.eqb obind]. eexists. reflexivity.
  - intros N m3 st3 F. destruct (Z.eqb_spec p 0); [contradiction|]. rewrite F. cbn [obind]. eexists. split; [reflexivity|]. reflexivity.
  - intros N F. destruct (Z.eqb_spec p 0); [contradiction|]. rewrite F. reflexivity.
Qed.
(** an arena that could not be made hands out addresses that are not memory *)
Theorem C115_sub_failed_refuted : exists m a s m1 s1 m2 s2, arena_init_sub m a 64 = Some (m, a, s) /\ arena_alloc false m s 16 16 = Some (m1, s1, 0) /\ arena_alloc false m1 s1 16 16 = Some (m2, s2, 16) /\ m2 16 = None.
Proof.
  exists (mem_of 4096 (repeat 0 32)), (arena_init 4096 32). do 5 eexists. split; [known|]. split; [known|]. split; [known|]. reflexivity.
Qed.
(** the check passes exactly when all snapshots have been ended *)
Theorem C115_check : forall start total m0 m a live snaps, good_place start total -> accessible m0 start total -> arena_history start total 16 m0 m a live snaps ->
  arena_check a = Some tt <-> snaps = [].
Proof.
  intros start total m0 m a live snaps (G1 & G2 & G3 & G4) A H. change 16 with (2^4) in H, G4. destruct (arena_history_inv start total 4 ltac:(lia) G1 G2 G3 G4 m0 A m a live snaps H) as [_ _ _ _ _ _ T _].
  unfold arena_check. rewrite T. destruct snaps as [|s snaps]; [cbn; tauto|]. cbn [length]. destruct (Z.eqb_spec (Z.of_nat (Datatypes.S (length snaps))) 0); [lia|]. split; [discriminate|discriminate].
Qed.

(** copying a block into a new one: the new block is apart from all others and holds the same bytes; nothing else changes; NULL if
    there is no room *)
Theorem C115_copy : forall start total m0 m a live snaps src size n, good_place start total -> accessible m0 start total -> arena_history start total 16 m0 m a live snaps ->
  In (src, size) live -> 0 <= n <= size ->
  (exists m' a' p, alloc_copy arena_allocator m a src n = Some (m', a', p) /\ p <> 0 /\ is_copy m p src n m' /\ inside start total (p, n) /\ Forall (apart (p, n)) live) \/
  (alloc_copy arena_allocator m a src n = Some (m, a, 0) /\ total < ar_allocated a + n + 15).
Proof.
  intros start total m0 m a live snaps src size n G A H I Hn. pose proof G as (G1 & G2 & G3 & G4).
  pose proof H as H0. change 16 with (2^4) in H0, G4. destruct (C10_arena_blocks start total 4 m0 m a live snaps ltac:(lia) G1 G2 G3 G4 A H0) as (In1 & _ & _). pose proof (arena_history_inv start total 4 ltac:(lia) G1 G2 G3 G4 m0 A m a live snaps H0) as J.
  pose proof (proj1 (Forall_forall _ _) In1 _ I) as Is. unfold inside in Is. cbn [fst snd] in Is.
  destruct (C115_sub_serves start total m0 m a live snaps n G A H ltac:(lia)) as (m1 & a1 & p & r & E & L & P & Z0 & N0).
  assert (E1 : arena_alloc true m a n 16 = Some (m1, a1, p)).
  { revert E. unfold arena_init_sub, arena_init_from_allocator, zpl_alloc. cbn [al_alloc arena_allocator]. change DEFAULT_ALIGNMENT with 16. destruct (arena_alloc true m a n 16) as [[[m2 a2] q]|]; [|discriminate]. cbn [obind]. congruence. }
  unfold alloc_copy, zpl_alloc. cbn [al_alloc arena_allocator]. change DEFAULT_ALIGNMENT with 16. rewrite E1. cbn [obind]. destruct (Z.eq_dec p 0) as [->|Np].
  - right. destruct (Z0 eq_refl) as (-> & ->). split; [reflexivity|]. assert (~ ar_allocated a + r <= total) by tauto. destruct L as (_ & _ & L).
    pose proof (Z.div_mod (n + 15) 16 ltac:(lia)) as Dm. pose proof (Z.mod_pos_bound (n + 15) 16 ltac:(lia)) as Bm. specialize (L ((n + 15) / 16) ltac:(lia)). lia.
  - left. destruct (N0 Np) as (_ & F & Ip & Ap). pose proof (proj1 (Forall_forall _ _) Ap _ I) as Q. unfold apart in Q. cbn [fst snd] in Q. unfold inside in Ip. cbn [fst snd] in Ip.
    assert (Ac : accessible m1 start total) by (apply (acc_fill _ _ _ _ _ _ _ F); [unfold byte; lia|exact (ai_acc _ _ _ _ _ _ _ J)]).
    destruct (memcopy_correct m1 p src n Np ltac:(lia)) as (m' & Em & (C1 & C2)).
    { unfold disjoint_ranges. lia. }
    { apply (acc_sub _ _ _ _ _ Ac); lia. } { apply (acc_sub _ _ _ _ _ Ac); lia. }
    exists m', a1, p. rewrite Em. cbn [obind]. split; [reflexivity|]. split; [exact Np|]. destruct F as (F1 & F2). split; [|split; [exact Ip|exact Ap]]. split.
    + intros i Hi. rewrite C1 by exact Hi. apply F2. lia.
    + intros x Hx. rewrite C2 by exact Hx. apply F2. lia.
Qed.

(** with an alignment, for any allocator: the block is the one the allocator gives for this size and alignment, and holds the bytes of the
    source; nothing else changes; NULL if the allocator has none *)
Theorem C115_copy_align : forall (St : Type) (A : allocator St) m st src n al m1 st1 p, 0 <= n -> al_alloc A m st n al = Some (m1, st1, p) ->
  (p = 0 -> alloc_copy_align A m st src n al = Some (m1, st1, 0)) /\
  (p <> 0 -> disjoint_ranges p src n -> accessible m1 p n -> accessible m1 src n -> exists m', alloc_copy_align A m st src n al = Some (m', st1, p) /\ is_copy m1 p src n m').
Proof.
  intros St A m st src n al m1 st1 p Hn E. unfold alloc_copy_align. rewrite E. cbn [obind]. split.
  - intros ->. reflexivity.
  - intros Np D A1 A2. destruct (memcopy_correct m1 p src n Np Hn D A1 A2) as (m' & Em & C). exists m'. rewrite Em. split; [reflexivity|exact C].
Qed.
Example C115_copy_align_ex : exists m' a', alloc_copy_align arena_allocator (mem_of 4096 (repeat 7 256)) (mkArena 4096 256 3 0) 4096 3 32 = Some (m', a', 4128) /\ map m' [4128; 4129; 4130] = [Some 7; Some 7; Some 7] /\ ar_allocated a' = 35.
Proof. do 2 eexists. split; [known|]. split; reflexivity. Qed.
(** an arena of 256 bytes, one of 100 in it, one of 20 in that, and a block of each *)
Definition nest_mem : mem := mem_of 4096 (repeat 7 256).
Example C115_ex : good_place 4096 256 /\ exists m t, steps nest_mem (T (arena_init 4096 256) [] []) m t /\
  held t = [(4224, 8); (4096, 5); (4144, 30); (4112, 16)].
Proof.
  split; [unfold good_place; repeat split; lia|].
  eexists _, (T (mkArena 4096 256 144 0) [(4224, 8); (4096, 5)] [T (mkArena 4112 100 64 0) [(4144, 30)] [T (mkArena 4112 20 16 0) [(4112, 16)] []]]).
  split; [|reflexivity]. eapply SS_more; [eapply SS_more; [eapply SS_more; [eapply SS_more; [eapply SS_more; [eapply SS_more; [apply SS_none|]|]|]|]|]|].
  - eapply (S_alloc nest_mem (arena_init 4096 256) [] [] true 5 _ (mkArena 4096 256 16 0) 4096); [lia|known|lia].
  - eapply (S_sub _ _ _ _ 100 _ (mkArena 4096 256 128 0) (mkArena 4112 100 0 0)); [lia|known|cbn; lia].
  - apply (S_inside _ _ _ []). eapply (S_sub _ _ _ _ 20 _ (mkArena 4112 100 32 0) (mkArena 4112 20 0 0)); [lia|known|cbn; lia].
  - apply (S_inside _ _ _ []). apply (S_inside _ _ _ []). eapply (S_alloc _ _ [] [] true 16 _ (mkArena 4112 20 16 0) 4112); [lia|known|lia].
  - apply (S_inside _ _ _ []). eapply (S_alloc _ _ [] _ true 30 _ (mkArena 4112 100 64 0) 4144); [lia|known|lia].
  - eapply (S_alloc _ _ _ _ true 8 _ (mkArena 4096 256 144 0) 4224); [lia|known|lia].
Qed.
Print Assumptions C115_blocks.
Print Assumptions C115_own_memory.
Print Assumptions C115_contents.
Print Assumptions C115_rest.
Print Assumptions C115_sub_serves.
Print Assumptions C115_release_keeps.
Print Assumptions C115_release_frees.
Print Assumptions C115_sub_failed_refuted.
Print Assumptions C115_check.
Print Assumptions C115_copy.
Print Assumptions C115_copy_align.
