(** Final statements: allocators (C10-C15, C68). *)
From Verif Require Import Base Bits Mem MemSpec Alloc AllocSpec AllocProofs AllocProofs2 AllocProofs3 Witness PropMem PropBits.

(** ** C10: arena *)
(** After any history of requests with one alignment 2^k on an aligned buffer, the live
    blocks are inside the buffer, aligned and pairwise disjoint. *)
Theorem C10_arena_blocks : forall start total k m0 m a live snaps,
  0 <= k <= 61 -> 0 < start -> 0 <= total <= 2^61 -> start + total + 2^61 < 2^64 -> start mod 2^k = 0 ->
  accessible m0 start total -> arena_history start total (2^k) m0 m a live snaps ->
  Forall (inside start total) live /\ Forall (aligned_to (2^k)) live /\ pairwise_apart live.
Proof.
  intros start total k m0 m a live snaps Hk Hs Ht Hr Hal Acc H.
  destruct (arena_history_inv start total k Hk Hs Ht Hr Hal m0 Acc m a live snaps H) as [? ? B ? (L1 & L2 & _ & L3) ? ? ?].
  split; [|split; assumption]. eapply Forall_impl; [|exact L1]. intros b [X Y]. split; lia.
Qed.
(** A request is served exactly when its rounded-up size fits, and never goes wrong; a
    cleared block reads zero and nothing else changes. *)
Theorem C10_arena_serves : forall start total k m0 m a live snaps clear size,
  0 <= k <= 61 -> 0 < start -> 0 <= total <= 2^61 -> start + total + 2^61 < 2^64 -> start mod 2^k = 0 ->
  accessible m0 start total -> arena_history start total (2^k) m0 m a live snaps -> 0 <= size <= 2^61 ->
  exists m' a' p r, arena_alloc clear m a size (2^k) = Some (m', a', p) /\
    BitsSpec.least_multiple_from (2^k) size r /\
    (p <> 0 <-> ar_allocated a + r <= total) /\
    (p = 0 -> a' = a /\ m' = m) /\
    (p <> 0 -> ar_allocated a' = ar_allocated a + r /\ (clear = true -> is_fill m p 0 size m')).
Proof.
  intros start total k m0 m a live snaps clear size Hk Hs Ht Hr Hal Acc H Hsz.
  pose proof (arena_history_inv start total k Hk Hs Ht Hr Hal m0 Acc m a live snaps H) as I.
  destruct (arena_alloc_step start total k Hk Hs Ht Hr Hal clear m a live snaps size I Hsz) as [S1 S2].
  assert (P: 0 < 2^k) by (apply Z.pow_pos_nonneg; lia).
  pose proof (BitsProofs.least_multiple_up (2^k) size P) as LM.
  destruct (Z_le_dec (ar_allocated a + up k size) total) as [F|F].
  - destruct (S2 F) as (m' & E & _ & G). eexists _, _, _, _. split; [exact E|]. split; [exact LM|].
    destruct I. split; [unfold up in F; split; intros; lia|]. split; [lia|]. intros _. split; [reflexivity|exact G].
  - rewrite S1 by lia. eexists _, _, _, _. split; [reflexivity|]. split; [exact LM|].
    split; [unfold up in F; split; intros; lia|]. split; [auto|]. congruence.
Qed.
(** Requests with different alignments: two live blocks overlap ... *)
Theorem C10_mixed_overlap_refuted : exists m0 m1 a1 p1 m2 a2 p2 m3 a3 p3, 
  arena_alloc true m0 (arena_init 4096 64) 8 8 = Some (m1, a1, p1) /\
  arena_alloc true m1 a1 16 16 = Some (m2, a2, p2) /\
  arena_alloc true m2 a2 8 8 = Some (m3, a3, p3) /\
  p1 <> 0 /\ p2 <> 0 /\ p3 <> 0 /\ ~ apart (p2, 16) (p3, 8).
Proof.
  exists (mem_of 4096 (repeat 0 64)). do 9 eexists.
  split; [known|]. split; [known|]. split; [known|].
  split; [lia|]. split; [lia|]. split; [lia|]. unfold apart. cbn. lia.
Qed.
(** ... and a block can end past the buffer. *)
Theorem C10_mixed_bounds_refuted : exists m0 m1 a1 p1 m2 a2 p2,
  arena_alloc true m0 (arena_init 4096 24) 8 8 = Some (m1, a1, p1) /\
  arena_alloc true m1 a1 16 16 = Some (m2, a2, p2) /\ p2 <> 0 /\ ~ inside 4096 24 (p2, 16).
Proof.
  exists (mem_of 4096 (repeat 0 64)). do 6 eexists.
  split; [known|]. split; [known|]. split; [lia|]. unfold inside. cbn. lia.
Qed.
(** An unaligned buffer has the same effect with a single alignment. *)
Theorem C10_unaligned_start_refuted : exists m0 m1 a1 p1,
  arena_alloc true m0 (arena_init 4104 16) 16 16 = Some (m1, a1, p1) /\ p1 <> 0 /\ ~ inside 4104 16 (p1, 16).
Proof.
  exists (mem_of 4096 (repeat 0 64)). do 3 eexists. split; [known|]. split; [lia|]. unfold inside. cbn. lia.
Qed.
Definition arena_ex_mem := mem_of 4096 (repeat 7 64).
Example C10_ex : exists m1 a1 m2 a2, arena_history 4096 64 (2^4) arena_ex_mem m2 a2 [(4112, 20); (4096, 5)] [] /\
  arena_alloc true arena_ex_mem (arena_init 4096 64) 5 16 = Some (m1, a1, 4096) /\
  arena_alloc true m1 a1 20 16 = Some (m2, a2, 4112) /\ load_range m2 4096 40 =
    Some (repeat 0 5 ++ repeat 7 11 ++ repeat 0 20 ++ repeat 7 4).
Proof.
  do 4 eexists. split; [|split; [known|split; [known|vm_compute; reflexivity]]].
  eapply AH_alloc with (clear := true); [eapply AH_alloc with (clear := true); [apply AH_init|lia|known|lia]|lia|known|lia].
Qed.

(** ** C11: snapshots *)
(** Whatever happens in between (requests of any alignment, nested snapshots), ending
    the snapshot succeeds and gives back the arena as it was. *)
Theorem C11_snapshot_restores : forall m a a1 c m2 a2, 0 <= ar_temp a ->
  arena_snapshot_begin a = (a1, c) -> arena_ops m a1 m2 a2 -> arena_snapshot_end a2 c = Some a.
Proof. exact snapshot_restores. Qed.
(** A reset inside the snapshot makes the end assert (when anything was allocated before). *)
Theorem C11_reset_inside_refuted : exists m0 m a p a1 c,
  arena_alloc true m0 (arena_init 4096 64) 8 8 = Some (m, a, p) /\ arena_snapshot_begin a = (a1, c) /\
  arena_snapshot_end (arena_free_all a1) c = None.
Proof.
  exists arena_ex_mem. do 5 eexists. split; [known|]. split; reflexivity.
Qed.
Example C11_ex : exists m2 a2, arena_ops arena_ex_mem (mkArena 4096 64 8 1) m2 a2 /\ ar_allocated a2 = 40 /\
  arena_snapshot_end a2 8 = Some (mkArena 4096 64 8 0).
Proof.
  do 2 eexists. split; [|split].
  - eapply AO_alloc with (clear := false) (size := 20) (al := 16); [apply AO_nil|lia|lia|known].
  - reflexivity.
  - reflexivity.
Qed.

(** ** C12: pool *)
Theorem C12_pool_blocks : forall data num bs ba m0 m p live,
  1 <= num -> 0 <= bs -> 0 <= ba -> 8 <= bs + ba -> 0 < data -> data + num * (bs + ba) < 2^64 ->
  accessible m0 data (num * (bs + ba)) -> pool_history data num bs ba m0 m p live ->
  pairwise_apart (map (fun q => (q, bs)) live) /\
  Forall (inside data (num * (bs + ba))) (map (fun q => (q, bs)) live) /\
  Z.of_nat (length live) <= num /\ po_total p = bs * Z.of_nat (length live).
Proof.
  intros data num bs ba m0 m p live Hn Hb Ha Hw Hd Ht Acc H.
  pose proof (pool_history_inv data num bs ba Hn Hb Ha Hw Hd Ht m0 Acc m p live H) as I.
  destruct (pool_live data num bs ba Hn Hb Ha Hw Hd Ht m p live I) as (A & B & C & _). destruct I. auto.
Qed.
(** Allocation succeeds exactly while fewer than [num] blocks are live (it asserts
    otherwise); a cleared block reads zero and nothing else changes. A request for another
    size or alignment than the pool's asserts. *)
Theorem C12_pool_serves : forall data num bs ba m0 m p live clear,
  1 <= num -> 0 <= bs -> 0 <= ba -> 8 <= bs + ba -> 0 < data -> data + num * (bs + ba) < 2^64 ->
  accessible m0 data (num * (bs + ba)) -> pool_history data num bs ba m0 m p live ->
  (Z.of_nat (length live) < num -> exists m' p' q, pool_alloc clear m p bs ba = Some (m', p', q) /\ 
     (clear = true -> is_fill m q 0 bs m')) /\
  (num <= Z.of_nat (length live) -> pool_alloc clear m p bs ba = None) /\
  (forall size al, size <> bs \/ al <> ba -> pool_alloc clear m p size al = None).
Proof.
  intros data num bs ba m0 m p live clear Hn Hb Ha Hw Hd Ht Acc H.
  pose proof (pool_history_inv data num bs ba Hn Hb Ha Hw Hd Ht m0 Acc m p live H) as I. split; [|split]; intros L.
  - destruct (pool_alloc_ok data num bs ba Hn Hb Ha Hw Hd Ht clear m p live I L) as (m' & p' & q & E & _ & G).
    exists m', p', q. auto.
  - apply (pool_alloc_exhausted data num bs ba Hn Hb Ha Hw Hd Ht clear m p live I L).
  - intros al D. eapply pool_alloc_mismatch; [..|exact I|exact D]; assumption.
Qed.
(** Initialisation, freeing a live block and free_all never fail. *)
Theorem C12_pool_total : forall data num bs ba m0,
  1 <= num -> 0 <= bs -> 0 <= ba -> 8 <= bs + ba -> 0 < data -> data + num * (bs + ba) < 2^64 ->
  accessible m0 data (num * (bs + ba)) ->
  (exists m p, pool_history data num bs ba m0 m p [] /\ pool_init_align m0 data num bs ba = Some (m, p)) /\
  (forall m p l1 q l2, pool_history data num bs ba m0 m p (l1 ++ q :: l2) ->
     exists m' p', pool_free m p q = Some (m', p')) /\
  (forall m p live, pool_history data num bs ba m0 m p live -> exists m' p', pool_free_all m p = Some (m', p')).
Proof.
  intros data num bs ba m0 Hn Hb Ha Hw Hd Ht Acc. split; [|split].
  - destruct (pool_init_ok data num bs ba Hn Hb Ha Hw Hd Ht m0 Acc) as (m & p & E & _). exists m, p.
    split; [constructor; exact E|exact E].
  - intros m p l1 q l2 H.
    pose proof (pool_history_inv data num bs ba Hn Hb Ha Hw Hd Ht m0 Acc _ _ _ H) as I.
    destruct (pool_free_ok data num bs ba Hn Hb Ha Hw Hd Ht _ _ _ _ _ I) as (m' & p' & E & _). eauto.
  - intros m p live H.
    pose proof (pool_history_inv data num bs ba Hn Hb Ha Hw Hd Ht m0 Acc _ _ _ H) as I.
    destruct (pool_free_all_ok data num bs ba Hn Hb Ha Hw Hd Ht _ _ _ I) as (m' & p' & E & _). eauto.
Qed.
(** Blocks are aligned when the start is and the block size is a multiple of the
    alignment ... *)
Theorem C12_pool_aligned : forall data num bs ba m0 m p live,
  1 <= num -> 0 <= bs -> 0 < ba -> 8 <= bs + ba -> 0 < data -> data + num * (bs + ba) < 2^64 ->
  accessible m0 data (num * (bs + ba)) -> pool_history data num bs ba m0 m p live ->
  data mod ba = 0 -> bs mod ba = 0 -> Forall (fun q => q mod ba = 0) live.
Proof.
  intros data num bs ba m0 m p live Hn Hb Ha Hw Hd Ht Acc H D1 D2.
  pose proof (pool_history_inv data num bs ba Hn Hb ltac:(lia) Hw Hd Ht m0 Acc m p live H) as I.
  destruct (pool_live data num bs ba Hn Hb ltac:(lia) Hw Hd Ht m p live I) as (_ & _ & _ & D).
  eapply Forall_impl; [|exact D]. intros q (i & Hi & ->).
  apply Z.mod_divide in D1, D2; try lia. apply Z.mod_divide; [lia|].
  apply Z.divide_add_r; [assumption|]. apply Z.divide_mul_r. apply Z.divide_add_r; [assumption|apply Z.divide_refl].
Qed.
(** ... and not otherwise: 20-byte blocks with alignment 16. *)
Theorem C12_pool_misaligned_refuted : exists m0 m p live, pool_history 4096 3 20 16 m0 m p live /\
  (4096 mod 16 = 0) /\ exists q, In q live /\ q mod 16 <> 0.
Proof.
  exists (mem_of 4096 (repeat 0 108)). eexists _, _, _. split.
  - eapply PH_alloc with (clear := true); [eapply PH_alloc with (clear := true); [eapply PH_init; known|]|]; known.
  - split; [reflexivity|]. eexists. split; [left; reflexivity|]. vm_compute. discriminate.
Qed.
(** A pool of zero blocks writes a pointer into its (empty) buffer and hands out one block. *)
Theorem C12_pool_zero_refuted : exists m0 m p m' p', pool_init_align m0 4096 0 8 8 = Some (m, p) /\
  pool_alloc true m p 8 8 = Some (m', p', 4096).
Proof.
  exists (mem_of 4096 (repeat 1 8)). do 4 eexists. split; known.
Qed.
Example C12_ex : exists m p, pool_history 4096 2 16 16 (mem_of 4096 (repeat 9 64)) m p [4096].
Proof.
  eexists _, _.
  eapply (PH_free _ _ _ _ _ _ _ [] 4128 [4096]).
  - eapply PH_alloc with (clear := true); [eapply PH_alloc with (clear := true); [eapply PH_init; known|]|]; known.
  - known.
Qed.

(** ** C13: stack memory *)
Theorem C13_stack_lifo : forall start total m0 m s p size s0 live,
  0 < start -> 0 <= total -> start + total + 2^62 < 2^64 -> accessible m0 start total ->
  stack_history start total m0 m s (((p, size), s0) :: live) -> stack_free m s p = Some s0.
Proof.
  intros start total m0 m s p size s0 live Hs Ht Hr Acc H.
  pose proof (stack_history_inv start total Hs Ht Hr m0 Acc _ _ _ H) as I.
  apply (stack_free_restores start total Hs Ht Hr _ _ _ _ _ _ I).
Qed.
Theorem C13_stack_blocks : forall start total m0 m s live,
  0 < start -> 0 <= total -> start + total + 2^62 < 2^64 -> accessible m0 start total ->
  stack_history start total m0 m s live ->
  (* each block together with the 8-byte header in front of it *)
  pairwise_apart (map (fun e => (fst (fst e) - 8, snd (fst e) + 8)) live) /\
  Forall (inside start total) (map (fun e => (fst (fst e) - 8, snd (fst e) + 8)) live).
Proof.
  intros start total m0 m s live Hs Ht Hr Acc H.
  pose proof (stack_history_inv start total Hs Ht Hr m0 Acc _ _ _ H) as I.
  apply (stack_blocks start total Hs Ht Hr _ _ _ I).
Qed.
(** A request that fits is served without touching anything but its header. *)
Theorem C13_stack_serves : forall start total m0 m s live size k curr,
  0 < start -> 0 <= total -> start + total + 2^62 < 2^64 -> accessible m0 start total ->
  stack_history start total m0 m s live -> 0 <= size -> 0 <= k <= 62 ->
  BitsSpec.least_multiple_from (2^k) (start + st_allocated s) curr ->
  (curr + 8 + size <= start + total -> exists m' s', stack_alloc m s None size (2^k) = Some (m', s', curr + 8) /\
     forall x, ~ (curr <= x < curr + 8) -> m' x = m x) /\
  (start + total < curr + 8 + size -> stack_alloc m s None size (2^k) = None).
Proof.
  intros start total m0 m s live size k curr Hs Ht Hr Acc H Hsz Hk (C1 & C2 & C3).
  pose proof (stack_history_inv start total Hs Ht Hr m0 Acc _ _ _ H) as I.
  assert (P: 2^k <= 2^62) by (apply Z.pow_le_mono_r; lia).
  destruct (BitsProofs.align_forward_correct (start + st_allocated s) k Hk ltac:(destruct I; lia)) as (c & E & (D1 & D2 & D3)).
  { destruct I. lia. }
  assert (c = curr).
  { destruct C1 as [u ->], D1 as [v ->]. specialize (C3 v D2). specialize (D3 u C2). lia. }
  subst c. destruct (stack_alloc_ok start total Hs Ht Hr m s live size k I Hsz Hk curr E) as [S1 S2]. split; intros F.
  - destruct (S2 ltac:(lia)) as (m' & s' & E' & _ & F'). eauto.
  - apply S1. lia.
Qed.
(** Alignments up to 8 are honoured, larger ones never are. *)
Theorem C13_stack_small_alignment : forall m s resized size k m' s' p, 0 <= k <= 3 ->
  stack_alloc m s resized size (2^k) = Some (m', s', p) -> p mod 2^k = 0.
Proof. exact stack_alloc_aligned. Qed.
Theorem C13_stack_large_alignment_refuted : forall m s resized size k m' s' p, 4 <= k <= 62 ->
  stack_alloc m s resized size (2^k) = Some (m', s', p) -> p mod 2^k = 8.
Proof. exact stack_alloc_misaligned. Qed.
(** Growth records the distance between the old and the new buffer as the new capacity. *)
Theorem C13_stack_growth_refuted : exists m s m' s' p,
  stack_alloc m (mkStack 4096 16 0) (Some (m, 8192)) 32 8 = Some (m', s', p) /\ s = mkStack 4096 16 0 /\
  st_start s' = 8192 /\ st_total s' = 4096 (* the new buffer has 16 + 40 bytes *).
Proof.
  exists (mem_of 8192 (repeat 0 56)). do 4 eexists. split; [known|]. split; [reflexivity|]. split; reflexivity.
Qed.
Example C13_ex : exists m s s1 s2, stack_history 4096 128 (mem_of 4096 (repeat 0 128)) m s [((4136, 5), s1); ((4104, 20), s2)] /\
  stack_free m s 4136 = Some s1 /\ st_allocated s1 = 28.
Proof.
  do 4 eexists. split.
  eapply SH_alloc with (k := 4); [eapply SH_alloc with (k := 3); [apply SH_init|lia|lia|known]|lia|lia|known].
  split; [vm_compute; reflexivity|reflexivity].
Qed.

(** ** C14: scratch *)
(** One request on a fresh buffer with room for header and alignment padding. *)
Theorem C14_scratch_first : forall m start total size k, 0 < start -> 0 <= size -> 2 <= k <= 62 ->
  size + 3 + 8 + 2^k <= total -> start + total < 2^64 -> accessible m start total ->
  exists m' s' p, scratch_alloc true m (scratch_init start total) size (2^k) = Some (m', s', p) /\
    inside start total (p, size) /\ p mod 2^k = 0 /\
    (forall x, p <= x < p + size -> m' x = Some 0) /\
    (forall x, ~ (start <= x < start + total) -> m' x = m x).
Proof.
  intros m start total size k H1 H2 H3 H4 H5 H6.
  destruct (scratch_first m start total size k H1 H2 H3 H4 H5 H6) as (m' & s' & p & E & A & B & C & D & F).
  exists m', s', p. split; [exact E|]. split; [split; cbn; lia|]. auto.
Qed.
Lemma high_bit_off w : 0 <= w < 2^63 -> Z.land w HIGH_BIT = 0.
Proof.
  intros H. apply Z.bits_inj'. intros n Hn. rewrite Z.land_spec, Z.bits_0. unfold HIGH_BIT. rewrite Z.pow2_bits_eqb by lia.
  destruct (Z.eqb_spec 63 n) as [<-|]; [|apply andb_false_r]. rewrite andb_true_r.
  destruct (Z.eq_dec w 0) as [->|]; [apply Z.bits_0|]. apply Z.bits_above_log2; [lia|]. apply Z.log2_lt_pow2; lia.
Qed.
Lemma high_bit_on w : 0 <= w < 2^63 -> Z.lor w HIGH_BIT = w + 2^63 /\ Z.land (w + 2^63) HIGH_BIT = HIGH_BIT /\ Z.land (w + 2^63) (HIGH_BIT - 1) = w.
Proof.
  intros H. pose proof (high_bit_off w H) as O.
  assert (L: Z.lor w HIGH_BIT = w + 2^63) by (change (2^63) with HIGH_BIT; symmetry; rewrite Z.add_nocarry_lxor by exact O; apply Z.lxor_lor, O).
  split; [exact L|]. split.
  - rewrite <- L, Z.land_lor_distr_l, O, Z.land_diag. reflexivity.
  - change (HIGH_BIT - 1) with (Z.ones 63). rewrite Z.land_ones by lia. rewrite <- (Z.mul_1_l (2^63)) at 1.
    rewrite Z.mod_add by lia. apply Z.mod_small. lia.
Qed.
(** Releasing that block, when header and block are adjacent, makes the whole buffer
    available again; releasing it a second time asserts. *)
Theorem C14_scratch_release : forall m start total size k, 0 < start -> 0 <= size -> 2 <= k <= 3 -> start mod 8 = 0 ->
  size + 3 + 8 + 2^k <= total -> start + total < 2^62 -> accessible m start total ->
  exists m1 s1 p m2 s2, scratch_alloc true m (scratch_init start total) size (2^k) = Some (m1, s1, p) /\
    scratch_free 1 m1 s1 p = Some (m2, s2) /\ sc_free s2 = sc_alloc s2 /\
    (forall fuel, scratch_free fuel m2 s2 p = None).
Proof.
  intros m start total size k Hs Hsz Hk Al Hfit Htop Acc.
  assert (P4: 2^k = 4 \/ 2^k = 8) by (assert (D: k = 2 \/ k = 3) by lia; destruct D as [-> | ->]; [left|right]; reflexivity).
  assert (Ed: align_forward (start + 8) (2^k) = Some (start + 8)).
  { pose proof (Z.div_mod start 8 ltac:(discriminate)) as DM.
    apply (C02_aligned_fixpoint (start + 8) k (2^(3-k) * (start / 8 + 1))); [lia|lia|lia|].
    rewrite Z.mul_assoc, <- Z.pow_add_r by lia. replace (k + (3 - k)) with 3 by lia. change (2^3) with 8. lia. }
  unfold scratch_alloc, scratch_init. cbn [sc_alloc sc_start sc_total sc_free]. rewrite Ed. cbn [obind].
  replace (Z.rem (2^k) 4) with 0 by (destruct P4 as [-> | ->]; reflexivity). cbn [Z.eqb negb].
  set (sz := Z.quot (size + 3) 4 * 4).
  assert (Bsz: size <= sz <= size + 3).
  { unfold sz. rewrite Z.quot_div_nonneg by lia. pose proof (Z.div_mod (size+3) 4). pose proof (Z.mod_pos_bound (size+3) 4). lia. }
  clearbody sz.
  replace (start + total <? start + sz) with false by (symmetry; apply Z.ltb_ge; lia). cbn [obind].
  unfold scratch_is_in_use. cbn [sc_alloc sc_start sc_total sc_free]. rewrite Z.eqb_refl.
  destruct (header_fill_ok m start (start + sz) (start + sz - start)) as (m1 & E1 & W1 & F1 & A1).
  { lia. }
  { intros x Hx. apply (acc_not_none _ _ _ Acc). lia. }
  rewrite E1. cbn [obind].
  destruct (zero_if_ok true m1 (start + 8) sz ltac:(lia) ltac:(lia)) as (m2 & E2 & _ & G).
  { apply (acc_sub _ start total); [apply A1; assumption|lia|lia]. }
  specialize (G eq_refl). destruct G as [G1 G2].
  rewrite E2. cbn [obind].
  assert (W2: loadn m2 start 8 = Some sz).
  { rewrite <- (Z.add_simpl_l start sz), <- W1. apply loadn_ext. intros x Hx. change (Z.of_nat 8) with 8 in Hx. apply G2. lia. }
  assert (S8: start + 8 - 8 = start) by lia.
  destruct (high_bit_on sz ltac:(lia)) as (LB & HB1 & HB2). pose proof (high_bit_off sz ltac:(lia)) as HB0.
  assert (SM: sz =? MINUS1 = false) by (apply Z.eqb_neq; unfold MINUS1; lia).
  assert (SM': sz + 2^63 =? MINUS1 = false) by (apply Z.eqb_neq; unfold MINUS1; lia).
  destruct (storen8_ok m2 start (sz + 2^63)) as (m3 & E3 & L3 & F3 & _).
  { lia. }
  { intros x Hx. rewrite G2 by lia. destruct (A1 _ _ Acc x ltac:(lia)) as (v & V & _). rewrite V. discriminate. }
  assert (N0: start + 8 =? 0 = false) by (apply Z.eqb_neq; lia).
  assert (NB: (start + 8 <? start) || (start + total <=? start + 8) = false)
    by (apply orb_false_iff; split; [apply Z.ltb_ge|apply Z.leb_gt]; lia).
  do 3 eexists. exists m3, (mkScratch start total (start + sz) (start + sz)). split; [reflexivity|].
  split; [|split; [reflexivity|]].
  - unfold scratch_free. cbn [sc_start sc_total]. rewrite N0, NB. cbn [allocation_header]. rewrite S8, W2. cbn [obind].
    rewrite SM. cbn [obind]. rewrite W2. cbn [obind]. rewrite HB0. cbn [Z.eqb negb]. rewrite LB, E3. cbn [obind].
    rewrite L3. cbn [obind]. rewrite HB2. cbn [scratch_free_loop sc_free sc_alloc sc_start sc_total].
    destruct (Z.eqb_spec start (start + sz)) as [Z0|Z0].
    + cbn [obind]. repeat f_equal. exact Z0.
    + rewrite L3. cbn [obind]. rewrite HB1. change (HIGH_BIT =? 0) with false. cbv iota zeta.
      replace (start + sz =? start + total) with false by (symmetry; apply Z.eqb_neq; lia). rewrite Z.eqb_refl. reflexivity.
  - intros fuel. unfold scratch_free. cbn [sc_start sc_total]. rewrite N0, NB.
    assert (AH: allocation_header fuel m3 (start + 8) = Some start).
    { destruct fuel; cbn [allocation_header]; rewrite S8, L3; cbn [obind]; rewrite SM'; reflexivity. }
    rewrite AH. cbn [obind]. rewrite L3. cbn [obind]. rewrite HB1. reflexivity.
Qed.
(** A block with padding between its header and itself: the padding words are only written
    up to [header + size], so an old word is taken for the header and the release of a live
    block asserts. *)
Theorem C14_scratch_release_refuted : exists m m1 s1 p1,
  scratch_alloc true m (scratch_init 4096 64) 4 16 = Some (m1, s1, p1) /\ p1 = 4112 /\
  forall fuel, scratch_free fuel m1 s1 p1 = None.
Proof.
  exists (mem_of 4096 (repeat 128 64)). do 3 eexists. split; [known|]. split; [reflexivity|].
  intros fuel. destruct fuel; vm_compute; reflexivity.
Qed.
(** Releasing NULL does nothing; releasing a pointer outside the buffer asserts. *)
Theorem C14_scratch_foreign : forall fuel m s p,
  (p = 0 -> scratch_free fuel m s p = Some (m, s)) /\
  (p <> 0 -> ~ (sc_start s <= p < sc_start s + sc_total s) -> scratch_free fuel m s p = None).
Proof.
  intros fuel m s p. unfold scratch_free. split.
  - intros ->. reflexivity.
  - intros H O. replace (p =? 0) with false by (symmetry; apply Z.eqb_neq; exact H).
    replace ((p <? sc_start s) || (sc_start s + sc_total s <=? p)) with true; [reflexivity|].
    symmetry. apply orb_true_iff. destruct (Z_lt_dec p (sc_start s)); [left; apply Z.ltb_lt|right; apply Z.leb_le]; lia.
Qed.
(** The second block's header is written over the first block. *)
Theorem C14_scratch_overlap_refuted : exists m m1 s1 p1 m2 s2 p2 x,
  scratch_alloc true m (scratch_init 4096 256) 16 16 = Some (m1, s1, p1) /\
  scratch_alloc true m1 s1 16 16 = Some (m2, s2, p2) /\ p1 <> 0 /\ p2 <> 0 /\
  p1 <= x < p1 + 16 /\ m2 x <> m1 x.
Proof.
  exists (mem_of 4096 (repeat 0 256)). do 6 eexists. exists 4112.
  split; [known|]. split; [known|]. split; [lia|]. split; [lia|]. split; [lia|].
  vm_compute. discriminate.
Qed.
(** A request that exactly fills the buffer is answered with a block outside of it. *)
Theorem C14_scratch_bounds_refuted : exists m m1 s1 p1,
  scratch_alloc true m (scratch_init 4096 16) 16 16 = Some (m1, s1, p1) /\ p1 <> 0 /\ ~ inside 4096 16 (p1, 16) /\ 4096 + 16 <= p1.
Proof.
  exists (mem_of 4096 (repeat 0 256)). do 3 eexists. split; [known|]. split; [lia|].
  split; [unfold inside; cbn; lia|lia].
Qed.
Example C14_ex : accessible (mem_of 4096 (repeat 3 64)) 4096 64 /\ 20 + 3 + 8 + 2^4 <= 64 /\ 4096 mod 8 = 0.
Proof.
  split; [|split; [lia|reflexivity]]. intros x Hx. exists 3. split; [|unfold byte; lia]. unfold mem_of.
  replace (x <? 4096) with false by (symmetry; apply Z.ltb_ge; lia).
  assert (L: (Z.to_nat (x - 4096) < 64)%nat) by lia. revert L. generalize (Z.to_nat (x - 4096)). intros n L.
  rewrite nth_error_repeat by assumption. reflexivity.
Qed.

(** ** C68: scratch release can loop forever *)
Lemma scratch_cycle : forall f m, loadn m 4096 8 = Some (Z.lor 32 HIGH_BIT) -> loadn m 4128 8 = Some (Z.lor 32 HIGH_BIT) ->
  scratch_free_loop f m (mkScratch 4096 64 4160 4096) 32 = None /\ scratch_free_loop f m (mkScratch 4096 64 4160 4128) 32 = None.
Proof.
  induction f; intros m L1 L2; cbn [scratch_free_loop sc_free sc_alloc sc_start sc_total].
  - change (4096 =? 4160) with false. change (4128 =? 4160) with false. rewrite L1, L2. cbn [obind].
    change (Z.land (Z.lor 32 HIGH_BIT) HIGH_BIT =? 0) with false. auto.
  - change (4096 =? 4160) with false. change (4128 =? 4160) with false. rewrite L1, L2. cbn [obind].
    change (Z.land (Z.lor 32 HIGH_BIT) HIGH_BIT =? 0) with false. cbv iota zeta.
    change (4096 + 32 =? 4096 + 64) with false. change (4128 + 32 =? 4096 + 64) with true. cbv iota.
    change (4096 + 32) with 4128. destruct (IHf m L1 L2). auto.
Qed.
Lemma scratch_free_cycle m : loadn m 4096 8 = Some (Z.lor 32 HIGH_BIT) -> loadn m 4128 8 = Some 32 ->
  accessible m 4128 8 -> forall fuel, scratch_free fuel m (mkScratch 4096 64 4160 4128) 4136 = None.
Proof.
  intros L1 L2 Acc fuel. unfold scratch_free. cbn [sc_start sc_total].
  change (4136 =? 0) with false. change ((4136 <? 4096) || (4096 + 64 <=? 4136)) with false. cbv iota zeta.
  assert (A: allocation_header fuel m 4136 = Some 4128).
  { destruct fuel; cbn [allocation_header]; change (4136 - 8) with 4128; rewrite L2; reflexivity. }
  rewrite A. cbn [obind]. rewrite L2. cbn [obind]. change (negb (Z.land 32 HIGH_BIT =? 0)) with false. cbv iota.
  destruct (storen8_ok m 4128 (Z.lor 32 HIGH_BIT)) as (m4 & E & L & F & _).
  { split; [discriminate|reflexivity]. }
  { apply (acc_not_none _ _ _ Acc). }
  rewrite E. cbn [obind]. rewrite L. cbn [obind].
  change (Z.land (Z.lor 32 HIGH_BIT) (HIGH_BIT - 1)) with 32.
  rewrite (proj2 (scratch_cycle fuel m4 ltac:(rewrite <- L1; apply loadn_ext; intros x Hx; change (Z.of_nat 8) with 8 in Hx; apply F; lia) L)).
  reflexivity.
Qed.
Theorem C68_scratch_free_diverges_refuted : exists m0 m1 s1 p1 m2 s2 p2 m3 s3,
  scratch_alloc true m0 (scratch_init 4096 64) 32 8 = Some (m1, s1, p1) /\
  scratch_alloc true m1 s1 32 8 = Some (m2, s2, p2) /\
  scratch_free 10 m2 s2 p1 = Some (m3, s3) /\
  forall fuel, scratch_free fuel m3 s3 p2 = None.
Proof.
  exists (mem_of 4096 (repeat 0 128)). do 8 eexists.
  split; [known|]. split; [known|]. split; [known|].
  apply scratch_free_cycle; [vm_compute; reflexivity|vm_compute; reflexivity|].
  intros x Hx. assert (D: x = 4128 \/ x = 4129 \/ x = 4130 \/ x = 4131 \/ x = 4132 \/ x = 4133 \/ x = 4134 \/ x = 4135) by lia.
  repeat destruct D as [->|D]; [| | | | | | |rewrite D];
    (eexists; split; [vm_compute; reflexivity|unfold byte; lia]).
Qed.

(** ** C15: default resize *)
(** Growing: the new block starts with the old contents; the old block is released with
    the other bytes of memory as the allocation left them. *)
Theorem C15_resize_grow : forall St (A : allocator St) m st old old_size new_size al m1 st1 p,
  old <> 0 -> 0 <= old_size < new_size ->
  al_alloc A m st new_size al = Some (m1, st1, p) -> p <> 0 ->
  accessible m1 old old_size -> accessible m1 p new_size ->
  exists m2, is_copy m1 p old old_size m2 /\
    default_resize_align A m st old old_size new_size al =
      match al_free A m2 st1 old with Some (m3, st2) => Some (m3, st2, p) | None => None end.
Proof.
  intros St A m st old old_size new_size al m1 st1 p H1 H2 H3 H4 H5 H6.
  destruct (resize_grow A m st old old_size new_size al m1 st1 p H1 H2 H3 H4 H5 H6) as (m2 & C & E).
  exists m2. split; [exact C|]. rewrite E. destruct (al_free A m2 st1 old) as [[m3 st2]|]; reflexivity.
Qed.
Theorem C15_resize_fail : forall St (A : allocator St) m st old old_size new_size al m1 st1,
  old <> 0 -> 0 <= old_size < new_size -> al_alloc A m st new_size al = Some (m1, st1, 0) ->
  default_resize_align A m st old old_size new_size al = Some (m1, st1, 0).
Proof. intros. apply resize_grow_fail; assumption. Qed.
Theorem C15_resize_shrink : forall St (A : allocator St) m st old old_size new_size al, old <> 0 -> 0 < new_size <= old_size ->
  default_resize_align A m st old old_size new_size al = Some (m, st, old).
Proof. intros. apply resize_shrink; assumption. Qed.
Theorem C15_resize_zero : forall St (A : allocator St) m st old old_size al, old <> 0 ->
  default_resize_align A m st old old_size 0 al =
  match al_free A m st old with Some (m', st') => Some (m', st', 0) | None => None end.
Proof.
  intros. rewrite resize_zero by assumption. destruct (al_free A m st old) as [[m' st']|]; reflexivity.
Qed.
Theorem C15_resize_null : forall St (A : allocator St) m st old_size new_size al,
  default_resize_align A m st 0 old_size new_size al = al_alloc A m st new_size al.
Proof. intros. apply resize_null. Qed.
Example C15_ex : exists m a, arena_resize (mem_of 4096 (map Z.of_nat (seq 0 64))) (mkArena 4096 64 16 0) 4096 10 30 16 = Some (m, a, 4112)
  /\ load_range m 4112 32 = Some (map Z.of_nat (seq 0 10) ++ repeat 0 20 ++ [46; 47]).
Proof. do 2 eexists. split; [known|vm_compute; reflexivity]. Qed.

Print Assumptions C10_arena_blocks.
Print Assumptions C11_snapshot_restores.
Print Assumptions C12_pool_blocks.
Print Assumptions C12_pool_serves.
Print Assumptions C13_stack_lifo.
Print Assumptions C13_stack_blocks.
Print Assumptions C14_scratch_first.
Print Assumptions C15_resize_grow.
Print Assumptions C68_scratch_free_diverges_refuted.
