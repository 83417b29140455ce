(** C46, C47, C76: the pseudo-random generator. *)
From Verif Require HashProofs.
From Verif Require Import Base HashProofs Random.

(** every state a zpl_random can be in *)
Definition state (r : random) : Prop := length (offsets r) = 8%nat /\ Forall in_u32 (offsets r) /\ in_u32 (value r).

Lemma lxor_u32 a b : in_u32 a -> in_u32 b -> in_u32 (Z.lxor a b).
Proof. intros Ha Hb. now apply (lxor_bound a b 32). Qed.
Lemma u32_in x : in_u32 (u32 x).
Proof. unfold in_u32, u32. apply Z.mod_pos_bound. lia. Qed.
Lemma permute_in x o : in_u32 (permute_with_offset x o).
Proof. unfold permute_with_offset. apply lxor_u32; [apply u32_in|unfold in_u32; lia]. Qed.
(** the offsets as one number, least significant first *)
Fixpoint counter (offs : list Z) : Z := match offs with [] => 0 | o :: r => o + 2^32 * counter r end.
Lemma gen_loop_ok : forall offs x (b : bool), Forall in_u32 offs -> let '(y, offs') := gen_loop x (if b then 1 else 0) offs in
  length offs' = length offs /\ Forall in_u32 offs' /\ y = fold_left permute_with_offset offs x /\
  counter offs' = (counter offs + if b then 1 else 0) mod (2^32) ^ Z.of_nat (length offs).
Proof.
  induction offs as [|o offs IH]; intros x b H; cbn [gen_loop].
  - cbn [length]. change (Z.of_nat 0) with 0. rewrite Z.pow_0_r, Z.mod_1_r. repeat split; easy.
  - inversion H as [|? ? Ho Hs]; subst. replace (0 <? (if b then 1 else 0)) with b by now destruct b.
    set (b' := (b && (u32 (o + 1) =? 0))%bool).
    replace (if b then (if (if b then u32 (o + 1) else o) =? 0 then 1 else 0) else if b then 1 else 0) with (if b' then 1 else 0) by (subst b'; destruct b; cbn; [destruct (u32 (o + 1) =? 0); easy|easy]).
    specialize (IH (permute_with_offset x o) b' Hs). destruct (gen_loop (permute_with_offset x o) (if b' then 1 else 0) offs) as (y, offs'). destruct IH as (A & B & C & D).
    split; [cbn; lia|]. split; [constructor; [destruct b; [apply u32_in|easy]|easy]|]. split; [easy|].
    cbn [counter length]. rewrite D. rewrite Nat2Z.inj_succ, Z.pow_succ_r by lia. set (M := (2^32)^Z.of_nat (length offs)).
    assert (HM : 0 < M) by (apply Z.pow_pos_nonneg; lia). clearbody M. set (c := counter offs). unfold in_u32 in Ho. unfold u32 in *.
    rewrite Z.rem_mul_r by lia. subst b'. destruct b; cbn [andb].
    + destruct (Z.eqb_spec ((o + 1) mod 2^32) 0) as [E|E].
      * assert (o = 2^32 - 1) by (destruct (Z.eq_dec o (2^32-1)); [easy|]; rewrite Z.mod_small in E; lia). subst o. rewrite E.
        replace (2^32 - 1 + 2^32 * c + 1) with ((c + 1) * 2^32) by lia. rewrite Z.mod_mul, Z.div_mul by lia. lia.
      * assert (o + 1 < 2^32) by (destruct (Z.eq_dec o (2^32-1)) as [->|]; [easy|lia]). rewrite (Z.mod_small (o + 1)) by lia.
        replace (o + 2^32 * c + 1) with ((o + 1) + c * 2^32) by lia. rewrite Z.mod_add, Z.div_add by lia. rewrite (Z.mod_small (o + 1)), (Z.div_small (o + 1)) by lia. rewrite !Z.add_0_l, Z.add_0_r. lia.
    + replace (o + 2^32 * c + 0) with (o + c * 2^32) by lia. rewrite Z.mod_add, Z.div_add by lia. rewrite (Z.mod_small o), (Z.div_small o) by lia. rewrite !Z.add_0_l, Z.add_0_r. lia.
Qed.
Lemma gen_u32_ok r : state r -> let '(x, r') := gen_u32 r in in_u32 x /\ state r' /\ counter (offsets r') = (counter (offsets r) + 1) mod 2^256 /\ value r' = x.
Proof.
  intros (L & F & V). unfold gen_u32. pose proof (gen_loop_ok (offsets r) (value r) true F) as X. cbn match in X.
  destruct (gen_loop (value r) 1 (offsets r)) as (x, offs). destruct X as (A & B & C & D).
  assert (I : in_u32 x). { subst x. destruct (offsets r) as [|o l] using rev_ind; [easy|]. rewrite fold_left_app. apply permute_in. }
  split; [easy|]. cbn [offsets value]. split; [split; [cbn; lia|easy]|]. split; [|easy]. rewrite D, L. change ((2^32)^Z.of_nat 8) with (2^256). easy.
Qed.
Lemma lor_join hi lo : in_u32 hi -> in_u32 lo -> Z.lor (u64 (Z.shiftl hi 32)) lo = hi * 2^32 + lo.
Proof.
  unfold in_u32. intros H L. rewrite Z.shiftl_mul_pow2 by lia. unfold u64. rewrite Z.mod_small by lia.
  apply lor_low; lia.
Qed.
Lemma gen_u64_ok b r : state r -> let '(u, r') := gen_u64 b r in in_u64 u /\ state r'.
Proof.
  intros S. unfold gen_u64. pose proof (gen_u32_ok r S) as X. destruct (gen_u32 r) as (x, r1). destruct X as (I1 & S1 & _).
  pose proof (gen_u32_ok r1 S1) as X. destruct (gen_u32 r1) as (y, r2). destruct X as (I2 & S2 & _).
  destruct b; rewrite lor_join by easy; unfold in_u32, in_u64 in *; (split; [lia|easy]).
Qed.

(** the interval has at most 2^63 - 1 members, so that their number is representable *)
Theorem C46_range : forall b r lower higher, state r -> in_i64 lower -> in_i64 higher -> lower <= higher -> higher - lower < 2^63 - 1 ->
  exists i r', range_i64 b r lower higher = Some (i, r') /\ lower <= i <= higher /\ state r'.
Proof.
  intros b r lo hi S Hl Hh L W. unfold range_i64. pose proof (gen_u64_ok b r S) as X. destruct (gen_u64 b r) as (u, r'). destruct X as (I & S').
  assert (Hu : 0 <= u mod (hi - lo + 1) < hi - lo + 1) by (apply Z.mod_pos_bound; lia).
  exists (u mod (hi - lo + 1) + lo), r'. split; [|split; [lia|easy]].
  unfold range_of. assert (C : forall x, -2^63 <= x < 2^63 -> chk64 x = Some x) by (intros x Hx; unfold chk64; destruct (Z.leb_spec (-2^63) x), (Z.ltb_spec x (2^63)); cbn [andb]; try lia; easy).
  unfold in_i64 in *. rewrite C by lia. cbn [obind]. rewrite C by lia. cbn [obind].
  replace (u64 (hi - lo + 1)) with (hi - lo + 1) by (unfold u64; now rewrite Z.mod_small by lia).
  destruct (Z.eqb_spec (hi - lo + 1) 0); [lia|].
  replace (i64 (u mod (hi - lo + 1))) with (u mod (hi - lo + 1)).
  - rewrite C by lia. easy.
  - symmetry. set (w := u mod _) in *. clearbody w. clear -Hu W. unfold i64, sx. cbv zeta. rewrite Z.mod_small by lia. change (2 ^ (64 - 1)) with (2^63). destruct (Z.ltb_spec w (2^63)); lia.
Qed.
(** every member is drawn, by the numbers congruent to it *)
Theorem C46_range_onto : forall u lower higher k, in_u64 u -> in_i64 lower -> in_i64 higher -> lower <= k <= higher -> higher - lower < 2^63 - 1 ->
  (range_of u lower higher = Some k <-> exists j, 0 <= j /\ u = (k - lower) + j * (higher - lower + 1)).
Proof.
  intros u lo hi k I Hl Hh Hk W.
  assert (E : range_of u lo hi = Some (u mod (hi - lo + 1) + lo)).
  { assert (Hu : 0 <= u mod (hi - lo + 1) < hi - lo + 1) by (apply Z.mod_pos_bound; lia).
    unfold range_of. assert (C : forall x, -2^63 <= x < 2^63 -> chk64 x = Some x) by (intros x Hx; unfold chk64; destruct (Z.leb_spec (-2^63) x), (Z.ltb_spec x (2^63)); cbn [andb]; try lia; easy).
    unfold in_i64 in *. rewrite C by lia. cbn [obind]. rewrite C by lia. cbn [obind].
    replace (u64 (hi - lo + 1)) with (hi - lo + 1) by (unfold u64; now rewrite Z.mod_small by lia).
    destruct (Z.eqb_spec (hi - lo + 1) 0); [lia|].
    replace (i64 (u mod (hi - lo + 1))) with (u mod (hi - lo + 1)).
    - now rewrite C by lia.
    - symmetry. set (w := u mod _) in *. clearbody w. clear -Hu W. unfold i64, sx. cbv zeta. rewrite Z.mod_small by lia. change (2 ^ (64 - 1)) with (2^63). destruct (Z.ltb_spec w (2^63)); lia. }
  rewrite E. clear E. unfold in_u64 in I. split.
  - intros [= <-]. exists (u / (hi - lo + 1)). split; [apply Z.div_pos; lia|]. pose proof (Z.div_mod u (hi - lo + 1)). lia.
  - intros (j & Hj & ->). f_equal. rewrite Z.mod_add by lia. rewrite Z.mod_small by lia. lia.
Qed.
(** the full range, and every other interval whose size is not representable, overflows *)
Theorem C46_range_wide_refuted : forall b r lower higher, state r -> in_i64 lower -> in_i64 higher -> 2^63 - 1 <= higher - lower ->
  range_i64 b r lower higher = None.
Proof.
  intros b r lo hi S Hl Hh W. unfold range_i64. destruct (gen_u64 b r) as (u, r'). unfold range_of, chk64. unfold in_i64 in *.
  destruct (Z.ltb_spec (hi - lo) (2^63)).
  - destruct (Z.leb_spec (-2^63) (hi - lo)); [|lia]. cbn [andb obind]. destruct (Z.ltb_spec (hi - lo + 1) (2^63)); [lia|]. now rewrite andb_false_r.
  - now rewrite andb_false_r.
Qed.
Definition seed : random := Random [1; 2; 3; 4; 5; 6; 7; 8] 0.
Lemma seed_state : state seed.
Proof. split; [easy|]. split; [repeat constructor; unfold in_u32; cbn; lia|unfold in_u32; cbn; lia]. Qed.
Example C46_example : state seed /\ (exists r', range_i64 true seed (-3) 3 = Some (3, r')) /\ range_i64 true seed (-2^63) (2^63 - 1) = None.
Proof. split; [exact seed_state|]. split; [eexists; vm_compute; reflexivity|reflexivity]. Qed.

(** the "unique" generator repeats itself: distinct values of the counter below 2^31 give the same number in pairs *)
Fixpoint nth_unique (n : nat) (r : random) : Z :=
  match n with O => fst (gen_u32_unique r) | S k => nth_unique k (snd (gen_u32_unique r)) end.
Lemma qpr_pair v : 3 <= v <= 2^31 - 3 -> permute_qpr v = permute_qpr (2^31 - v).
Proof.
  intros H. unfold permute_qpr. change (prime / 2) with 2147483645. unfold prime.
  destruct (Z.leb_spec 4294967291 v); [lia|]. destruct (Z.leb_spec 4294967291 (2^31 - v)); [lia|].
  destruct (Z.leb_spec v 2147483645); [|lia]. destruct (Z.leb_spec (2^31 - v) 2147483645); [|lia].
  do 1 f_equal. unfold u32, u64. rewrite (Z.mod_small (v * v)) by nia. rewrite (Z.mod_small ((2^31 - v) * (2^31 - v))) by nia.
  replace ((2^31 - v) * (2^31 - v)) with (v * v + (2^30 - v) * 2^32) by ring. now rewrite Z.mod_add by lia.
Qed.
Lemma nth_unique_ok : forall n r, state r -> nth_unique n r = fold_left permute_with_offset (offsets r) (u32 (value r + Z.of_nat n)).
Proof.
  induction n as [|n IH]; intros r (L & F & V); cbn [nth_unique].
  - unfold gen_u32_unique. cbn [fst]. unfold u32. rewrite Z.add_0_r. rewrite Z.mod_small; easy.
  - rewrite IH by (split; [easy|]; split; [easy|]; cbn; apply u32_in). cbn [gen_u32_unique snd offsets value]. f_equal. unfold u32. rewrite Z.add_mod_idemp_l by lia. f_equal. lia.
Qed.
Theorem C47_unique_pairs_refuted : forall r n m, state r -> value r = 0 -> 3 <= Z.of_nat n <= 2^31 - 3 -> Z.of_nat m = 2^31 - Z.of_nat n ->
  nth_unique n r = nth_unique m r.
Proof.
  intros r n m S V Hn Hm. rewrite !nth_unique_ok by easy. rewrite V, !Z.add_0_l, Hm. unfold u32. rewrite !Z.mod_small by lia.
  destruct S as (L & _). destruct (offsets r) as [|o offs]; [discriminate L|]. cbn [fold_left]. f_equal. unfold permute_with_offset. now rewrite (qpr_pair (Z.of_nat n)).
Qed.
(** the very first number comes again after 65536 calls *)
Theorem C47_unique_first_refuted : forall r n, state r -> value r = 0 -> Z.of_nat n = 65536 -> nth_unique 0 r = nth_unique n r.
Proof.
  intros r n S V Hn. rewrite !nth_unique_ok by easy. rewrite V, Hn. destruct S as (L & _). destruct (offsets r) as [|o offs]; [discriminate L|]. reflexivity.
Qed.
(** what does hold: the state advances by one, the offsets stay *)
Theorem C47_unique_state : forall r, state r -> let '(x, r') := gen_u32_unique r in
  in_u32 x /\ state r' /\ offsets r' = offsets r /\ value r' = (value r + 1) mod 2^32.
Proof.
  intros r (L & F & V). cbn [gen_u32_unique]. split.
  - destruct (offsets r) as [|o l] using rev_ind; [easy|]. rewrite fold_left_app. apply permute_in.
  - split; [|easy]. split; [easy|]. split; [easy|]. apply u32_in.
Qed.
Example C47_example : state seed /\ value seed = 0 /\ fold_left permute_with_offset (offsets seed) 0 = fold_left permute_with_offset (offsets seed) 65536 /\
  fold_left permute_with_offset (offsets seed) 5 = fold_left permute_with_offset (offsets seed) (2^31 - 5).
Proof. split; [exact seed_state|]. repeat split; vm_compute; reflexivity. Qed.

(** zpl_random_gen_u32 advances a 256-bit counter, so its state comes back after no fewer than 2^256 calls *)
Fixpoint after (n : nat) (r : random) : random := match n with O => r | S k => after k (snd (gen_u32 r)) end.
Lemma after_ok : forall n r, state r -> state (after n r) /\ counter (offsets (after n r)) mod 2^256 = (counter (offsets r) + Z.of_nat n) mod 2^256.
Proof.
  induction n as [|n IH]; intros r S; cbn [after].
  - rewrite Z.add_0_r. easy.
  - pose proof (gen_u32_ok r S) as X. destruct (gen_u32 r) as (x, r'). destruct X as (_ & S' & C & _). cbn [snd].
    destruct (IH r' S') as (A & B). split; [easy|]. rewrite B, C. rewrite Z.add_mod_idemp_l by lia. f_equal. lia.
Qed.
Theorem C76_gen_u32 : forall r, state r -> let '(x, r') := gen_u32 r in
  in_u32 x /\ state r' /\ x = fold_left permute_with_offset (offsets r) (value r) /\ value r' = x /\ counter (offsets r') = (counter (offsets r) + 1) mod 2^256.
Proof.
  intros r S. pose proof (gen_u32_ok r S) as X. unfold gen_u32 in *. pose proof (gen_loop_ok (offsets r) (value r) true (proj1 (proj2 S))) as Y. cbn match in Y.
  destruct (gen_loop (value r) 1 (offsets r)) as (x, offs). easy.
Qed.
Theorem C76_period : forall r n, state r -> 0 < Z.of_nat n < 2^256 -> after n r <> r.
Proof.
  intros r n S Hn E. destruct (after_ok n r S) as (_ & C). rewrite E in C.
  assert (H : (counter (offsets r) + Z.of_nat n - counter (offsets r)) mod 2^256 = 0) by (rewrite Zminus_mod, <- C, Z.sub_diag; reflexivity).
  replace (counter (offsets r) + Z.of_nat n - counter (offsets r)) with (Z.of_nat n) in H by lia. rewrite Z.mod_small in H by lia. lia.
Qed.
Theorem C76_gen_u64 : forall b r, state r -> let '(u, r') := gen_u64 b r in in_u64 u /\ state r'.
Proof. exact gen_u64_ok. Qed.
(** the two halves are two draws in a row, and the signed variant has the same bits *)
Theorem C76_gen_u64_words : forall b r, state r ->
  let '(x, r1) := gen_u32 r in let '(y, r2) := gen_u32 r1 in
  gen_u64 b r = (if b then 2^32 * x + y else 2^32 * y + x, r2).
Proof.
  intros b r S. unfold gen_u64. pose proof (gen_u32_ok r S) as X. destruct (gen_u32 r) as (x, r1). destruct X as (X & S1 & _).
  pose proof (gen_u32_ok r1 S1) as Y. destruct (gen_u32 r1) as (y, r2). destruct Y as (Y & _).
  assert (L : forall h l, in_u32 h -> in_u32 l -> Z.lor (u64 (Z.shiftl h 32)) l = 2^32 * h + l).
  { unfold in_u32. intros h l Hh Hl. rewrite Z.shiftl_mul_pow2 by lia. unfold u64. rewrite Z.mod_small by lia.
    rewrite HashProofs.lor_low by lia. lia. }
  destruct b; now rewrite L.
Qed.
Theorem C76_gen_isize : forall b r, state r -> let '(i, r') := gen_isize b r in
  in_i64 i /\ i mod 2^64 = fst (gen_u64 b r) /\ r' = snd (gen_u64 b r).
Proof.
  intros b r S. unfold gen_isize. pose proof (gen_u64_ok b r S) as X. destruct (gen_u64 b r) as (u, r'). destruct X as (X & _).
  unfold in_u64 in X. cbn [fst snd]. split; [|split; [|easy]].
  - unfold in_i64, i64, sx. rewrite Z.mod_small by lia. change (2^(64-1)) with (2^63). destruct (Z.ltb_spec u (2^63)); lia.
  - unfold i64, sx. rewrite (Z.mod_small u) by lia. change (2^(64-1)) with (2^63). destruct (Z.ltb_spec u (2^63)).
    + apply Z.mod_small. lia.
    + replace (u - 2^64) with (u + (-1) * 2^64) by lia. rewrite Z.mod_add by lia. apply Z.mod_small. lia.
Qed.
Example C76_example : state seed /\ offsets (snd (gen_u32 (Random [2^32 - 1; 2^32 - 1; 3; 4; 5; 6; 7; 8] 0))) = [0; 0; 4; 4; 5; 6; 7; 8].
Proof. split; [exact seed_state|vm_compute; reflexivity]. Qed.

Print Assumptions C46_range.
Print Assumptions C46_range_onto.
Print Assumptions C46_range_wide_refuted.
Print Assumptions C47_unique_pairs_refuted.
Print Assumptions C47_unique_first_refuted.
Print Assumptions C47_unique_state.
Print Assumptions C76_gen_u32.
Print Assumptions C76_period.
Print Assumptions C76_gen_u64.
Print Assumptions C76_gen_u64_words.
Print Assumptions C76_gen_isize.
