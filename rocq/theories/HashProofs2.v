(** FNV and the murmur hashes. *)
From Verif Require Import Base Hash HashSpec HashProofs.

Lemma mul_inj M m inv a b : 0 < M -> (m * inv) mod M = 1 -> 0 <= a < M -> 0 <= b < M ->
  (a * m) mod M = (b * m) mod M -> a = b.
Proof.
  intros HM Hi Ha Hb E.
  assert (K : forall x, 0 <= x < M -> ((x * m) mod M * inv) mod M = x).
  { intros x Hx. rewrite Z.mul_mod_idemp_l by lia. rewrite <- Z.mul_assoc, <- Z.mul_mod_idemp_r by lia. rewrite Hi, Z.mul_1_r. now apply Z.mod_small. }
  rewrite <- (K a Ha), <- (K b Hb). now rewrite E.
Qed.
Lemma xorshift_inj s a b : 0 < s -> 0 <= a -> 0 <= b -> Z.lxor a (a / 2^s) = Z.lxor b (b / 2^s) -> a = b.
Proof.
  intros Hs Ha Hb E. rewrite <- !Z.shiftr_div_pow2 in E by lia.
  apply Z.lxor_eq. set (z := Z.lxor a b).
  assert (Hz : 0 <= z) by (apply Z.lxor_nonneg; lia).
  assert (F : z = Z.shiftr z s).
  { apply Z.lxor_eq. unfold z. rewrite Z.shiftr_lxor.
    transitivity (Z.lxor (Z.lxor a (Z.shiftr a s)) (Z.lxor b (Z.shiftr b s))).
    - rewrite !Z.lxor_assoc. f_equal. rewrite <- !Z.lxor_assoc. f_equal. apply Z.lxor_comm.
    - rewrite E. apply Z.lxor_nilpotent. }
  rewrite Z.shiftr_div_pow2 in F by lia.
  destruct (Z.eq_dec z 0); [easy|]. assert (z / 2^s < z); [|lia]. apply Z.div_lt; [lia|]. apply Z.pow_gt_1; lia.
Qed.
Lemma shr_xor_bound s a w : 0 <= s -> 0 <= w -> 0 <= a < 2^w -> 0 <= Z.lxor a (a / 2^s) < 2^w.
Proof.
  intros Hs Hw Ha. apply lxor_bound; [easy|easy|]. split; [apply Z.div_pos; lia|].
  apply Z.le_lt_trans with a; [apply Z.div_le_upper_bound; nia|lia].
Qed.

(** ** FNV *)
Section Fnv.
  Context (step : Z -> Z -> Z) (w : Z)
    (Hb : forall h c, 0 <= h < 2^w -> byte c -> 0 <= step h c < 2^w)
    (Hh : forall h h' c, 0 <= h < 2^w -> 0 <= h' < 2^w -> byte c -> step h c = step h' c -> h = h')
    (Hc : forall h c c', 0 <= h < 2^w -> byte c -> byte c' -> step h c = step h c' -> c = c').
  Lemma fold_bound : forall m h, bytes m -> 0 <= h < 2^w -> 0 <= fold_left step m h < 2^w.
  Proof. induction m as [|c m IH]; intros h B H; [easy|]. inversion B; subst. cbn. apply IH; auto. Qed.
  Lemma fold_inj : forall m h h', bytes m -> 0 <= h < 2^w -> 0 <= h' < 2^w -> fold_left step m h = fold_left step m h' -> h = h'.
  Proof. induction m as [|c m IH]; intros h h' B H H' E; [easy|]. inversion B; subst. cbn in E. apply IH in E; auto. now apply Hh in E. Qed.
  Lemma one_byte p c c' q h : bytes (p ++ c :: q) -> byte c' -> 0 <= h < 2^w -> c <> c' ->
    fold_left step (p ++ c :: q) h <> fold_left step (p ++ c' :: q) h.
  Proof.
    intros B Bc' H Hne E. apply Forall_app in B as (Bp & Bq). inversion Bq; subst.
    rewrite !fold_left_app in E. cbn [fold_left] in E. pose proof (fold_bound p h Bp H) as Hf.
    apply fold_inj in E; auto. now apply Hc in E.
  Qed.
End Fnv.
Lemma byte_wide c w : 8 <= w -> byte c -> 0 <= c < 2^w.
Proof. unfold byte. intros Hw H. assert (2^8 <= 2^w) by (apply Z.pow_le_mono_r; lia). lia. Qed.
Section Fnv2.
  Context (p inv w : Z) (Hw : 8 <= w) (Hi : (p * inv) mod 2^w = 1).
  Lemma p2 : 0 < 2^w. Proof using Hw. lia. Qed.
  Lemma fnv1_one_byte pre c c' q h : bytes (pre ++ c :: q) -> byte c' -> 0 <= h < 2^w -> c <> c' ->
    fold_left (fun h c => Z.lxor ((h * p) mod 2^w) c) (pre ++ c :: q) h <> fold_left (fun h c => Z.lxor ((h * p) mod 2^w) c) (pre ++ c' :: q) h.
  Proof.
    pose proof p2. apply one_byte with (w := w).
    - intros x y Hx Hy. apply lxor_bound; [lia|apply Z.mod_pos_bound; lia|now apply byte_wide].
    - intros x x' y Hx Hx' Hy E. apply lxor_cancel_r in E. now apply (mul_inj (2^w) p inv) in E.
    - intros x y y' Hx Hy Hy' E. now apply lxor_cancel_l in E.
  Qed.
  Lemma fnv1a_one_byte pre c c' q h : bytes (pre ++ c :: q) -> byte c' -> 0 <= h < 2^w -> c <> c' ->
    fold_left (fun h c => (Z.lxor h c * p) mod 2^w) (pre ++ c :: q) h <> fold_left (fun h c => (Z.lxor h c * p) mod 2^w) (pre ++ c' :: q) h.
  Proof.
    pose proof p2. apply one_byte with (w := w).
    - intros x y Hx Hy. apply Z.mod_pos_bound; lia.
    - intros x x' y Hx Hx' Hy E. apply (mul_inj (2^w) p inv) in E; try (apply lxor_bound; [lia|easy|now apply byte_wide]); try easy.
      now apply lxor_cancel_r in E.
    - intros x y y' Hx Hy Hy' E. apply (mul_inj (2^w) p inv) in E; try (apply lxor_bound; [lia|easy|now apply byte_wide]); try easy.
      now apply lxor_cancel_l in E.
  Qed.
End Fnv2.

(** ** MurmurHash3 *)
Lemma rot_ok r x : 0 < r < 32 -> 0 <= x < 2^32 -> rot32 r x = rotl32 r x.
Proof.
  intros Hr Hx. unfold rot32, rotl32, u32. rewrite Z.shiftl_mul_pow2, Z.shiftr_div_pow2 by lia.
  assert (E : 2^32 = 2^(32 - r) * 2^r) by (rewrite <- Z.pow_add_r by lia; f_equal; lia).
  assert (0 < 2^r /\ 0 < 2^(32 - r)) by lia.
  rewrite E, Z.mul_mod_distr_r by lia. apply lor_low; [lia|]. split; [apply Z.div_pos; lia|]. apply Z.div_lt_upper_bound; lia.
Qed.
Lemma rotl_bound r x : 0 < r < 32 -> 0 <= x < 2^32 -> 0 <= rotl32 r x < 2^32.
Proof.
  intros Hr Hx. unfold rotl32.
  assert (E : 2^32 = 2^(32 - r) * 2^r) by (rewrite <- Z.pow_add_r by lia; f_equal; lia).
  assert (0 < 2^r /\ 0 < 2^(32 - r)) by lia.
  rewrite E, Z.mul_mod_distr_r by lia.
  pose proof (Z.mod_pos_bound x (2^(32 - r)) ltac:(lia)). assert (0 <= x / 2^(32 - r) < 2^r) by (split; [apply Z.div_pos; lia|apply Z.div_lt_upper_bound; lia]).
  nia.
Qed.
Lemma rotl_inj r x y : 0 < r < 32 -> 0 <= x < 2^32 -> 0 <= y < 2^32 -> rotl32 r x = rotl32 r y -> x = y.
Proof.
  intros Hr Hx Hy. unfold rotl32.
  assert (E : 2^32 = 2^(32 - r) * 2^r) by (rewrite <- Z.pow_add_r by lia; f_equal; lia).
  assert (P : 0 < 2^r /\ 0 < 2^(32 - r)) by lia.
  rewrite E, !Z.mul_mod_distr_r by lia. intros Q.
  assert (D : forall z, 0 <= z < 2^32 -> 0 <= z / 2^(32 - r) < 2^r) by (intros z Hz; split; [apply Z.div_pos; lia|apply Z.div_lt_upper_bound; lia]).
  pose proof (D x Hx) as Dx. pose proof (D y Hy) as Dy.
  assert (x mod 2^(32 - r) = y mod 2^(32 - r) /\ x / 2^(32 - r) = y / 2^(32 - r)) as (A & B).
  { apply (Z.div_mod_unique (2^r)); [left; lia|left; lia|lia]. }
  rewrite (Z.div_mod x (2^(32 - r))), (Z.div_mod y (2^(32 - r))) by lia. now rewrite A, B.
Qed.
Lemma scramble_ok k : 0 <= k -> mm32_scramble k = mm3_k k.
Proof. intros Hk. unfold mm32_scramble, mm3_k. rewrite rot_ok; [easy|lia|]. apply Z.mod_pos_bound. lia. Qed.
Lemma mm3_k_bound k : 0 <= mm3_k k < 2^32.
Proof. apply Z.mod_pos_bound. lia. Qed.
Lemma mm3_k_inj a b : 0 <= a < 2^32 -> 0 <= b < 2^32 -> mm3_k a = mm3_k b -> a = b.
Proof.
  intros Ha Hb E. unfold mm3_k in E.
  assert (M : forall x, 0 <= (x * 0xcc9e2d51) mod 2^32 < 2^32) by (intros; apply Z.mod_pos_bound; lia).
  apply (mul_inj (2^32) _ 0x56ed309b) in E; try (apply rotl_bound; [lia|apply M]); [|lia|reflexivity].
  apply rotl_inj in E; [|lia|apply M..]. apply (mul_inj (2^32) _ 0xdee13bb1) in E; [easy|lia|reflexivity|easy|easy].
Qed.
Definition mm3_blk (h k : Z) : Z := (rotl32 13 (Z.lxor h (mm3_k k)) * 5 + 0xe6546b64) mod 2^32.
Lemma blk_bound h k : 0 <= mm3_blk h k < 2^32.
Proof. apply Z.mod_pos_bound. lia. Qed.
Lemma blk_inj h k h' k' : 0 <= h < 2^32 -> 0 <= h' < 2^32 -> mm3_blk h k = mm3_blk h' k' -> Z.lxor h (mm3_k k) = Z.lxor h' (mm3_k k').
Proof.
  intros Hh Hh' E. unfold mm3_blk in E.
  pose proof (lxor_bound _ _ 32 ltac:(lia) Hh (mm3_k_bound k)) as B. pose proof (lxor_bound _ _ 32 ltac:(lia) Hh' (mm3_k_bound k')) as B'.
  apply (rotl_inj 13); [lia|easy|easy|].
  apply (mul_inj (2^32) 5 0xcccccccd); [lia|reflexivity|apply rotl_bound; [lia|easy]..|].
  set (x := rotl32 13 _ * 5) in *. set (y := rotl32 13 (Z.lxor h' _) * 5) in *.
  clearbody x y. Z.div_mod_to_equations. lia.
Qed.
Lemma block_ok h k : 0 <= h < 2^32 -> 0 <= k -> mm32_block h k = mm3_blk h k.
Proof.
  intros Hh Hk. unfold mm32_block, mm3_blk. rewrite scramble_ok by easy. rewrite rot_ok; [|lia|apply lxor_bound; [lia|easy|apply mm3_k_bound]].
  unfold u32. now rewrite Z.add_mod_idemp_l by lia.
Qed.
Lemma final_ok h : mm32_final h = fmix32 h.
Proof. unfold mm32_final, fmix32, u32. now rewrite !Z.shiftr_div_pow2 by lia. Qed.
Lemma fmix_inj a b : 0 <= a < 2^32 -> 0 <= b < 2^32 -> fmix32 a = fmix32 b -> a = b.
Proof.
  intros Ha Hb E. unfold fmix32 in E.
  assert (M : forall x y, 0 <= (x * y) mod 2^32 < 2^32) by (intros; apply Z.mod_pos_bound; lia).
  apply xorshift_inj in E; [|lia|apply M..].
  apply (mul_inj (2^32) _ 0x7ed1b41d) in E; [|lia|reflexivity|apply shr_xor_bound; [lia|lia|apply M]..].
  apply xorshift_inj in E; [|lia|apply M..].
  apply (mul_inj (2^32) _ 0xa5cb9243) in E; [|lia|reflexivity|now apply shr_xor_bound..].
  now apply xorshift_inj in E.
Qed.

(** the published loop, without fuel *)
Lemma body_block f l h : (4 <= length l)%nat -> mm3_body (S f) l h = mm3_body f (skipn 4 l) (mm3_blk h (le_value (firstn 4 l))).
Proof. intros H. cbn [mm3_body]. destruct (Nat.leb_spec 4 (length l)); [easy|lia]. Qed.
Definition tailf (l : list Z) h := match l with [] => h | _ => Z.lxor h (mm3_k (le_value l)) end.
Lemma body_tail f l h : (length l < 4)%nat -> (length l <= f)%nat -> mm3_body f l h = tailf l h.
Proof.
  intros H Hf. destruct f as [|f]; [now destruct l; [|cbn in Hf; lia]|]. cbn [mm3_body]. destruct (Nat.leb_spec 4 (length l)); [lia|easy].
Qed.
Lemma body_fuel : forall f g l h, (length l <= f)%nat -> (length l <= g)%nat -> mm3_body f l h = mm3_body g l h.
Proof.
  induction f as [|f IH]; intros g l h Hf Hg.
  - destruct l; [|cbn in Hf; lia]. now destruct g.
  - destruct (Nat.le_gt_cases 4 (length l)) as [H|H]; [|now rewrite !body_tail by lia].
    destruct g as [|g]; [lia|]. rewrite !body_block by easy. apply IH; rewrite skipn_length; lia.
Qed.
Lemma firstn4 (u r : list Z) : length u = 4%nat -> firstn 4 (u ++ r) = u /\ skipn 4 (u ++ r) = r.
Proof.
  intros H. rewrite <- H, firstn_app, skipn_app, Nat.sub_diag, firstn_all, skipn_all, firstn_O, app_nil_r. easy.
Qed.
Lemma body_app u r f h : length u = 4%nat -> (4 + length r <= f)%nat -> mm3_body f (u ++ r) h = mm3_body f r (mm3_blk h (le_value u)).
Proof.
  intros H Hf. destruct f as [|f]; [lia|]. rewrite body_block by (rewrite app_length; lia). destruct (firstn4 u r H) as (-> & ->).
  apply body_fuel; lia.
Qed.
Lemma bytes_split n (l : list Z) : bytes l -> bytes (firstn n l) /\ bytes (skipn n l).
Proof. intros H. rewrite <- (firstn_skipn n l) in H. now apply Forall_app in H. Qed.

Lemma blocks_ok : forall n l h, length l = (4 * n)%nat \/ (4 * n <= length l)%nat -> bytes l -> 0 <= h < 2^32 ->
  exists h', mm32_blocks n l h = Some h' /\ 0 <= h' < 2^32 /\
    forall f, (length l <= f)%nat -> mm3_body f l h = mm3_body f (skipn (4 * n) l) h'.
Proof.
  induction n as [|n IH]; intros l h L B Hh; [exists h; easy|].
  assert (L' : (4 * S n <= length l)%nat) by lia. clear L.
  destruct l as [|b0 [|b1 [|b2 [|b3 r]]]]; cbn [length] in L'; try lia. cbn [mm32_blocks].
  assert (Bu : bytes ([b0; b1; b2; b3] ++ r)) by exact B. apply Forall_app in Bu as (Bu & Br).
  replace (word4 b0 b1 b2 b3) with (le_value [b0; b1; b2; b3]) by (unfold word4, le_value; cbn [fold_right]; lia).
  pose proof (le_value_bound _ Bu) as Bk. rewrite block_ok by (easy || lia).
  destruct (IH r (mm3_blk h (le_value [b0; b1; b2; b3]))) as (h' & X & Bh & R); [right; lia|easy|apply blk_bound|].
  exists h'. split; [easy|]. split; [easy|]. intros f Hf. cbn [length] in Hf.
  change (b0 :: b1 :: b2 :: b3 :: r) with ([b0; b1; b2; b3] ++ r). rewrite body_app by (easy || lia). rewrite R by lia.
  replace (4 * S n)%nat with (S (S (S (S (4 * n))))) by lia. easy.
Qed.
Lemma tail_ok left tail h : bytes tail -> Z.of_nat (length tail) = left -> left < 4 -> mm32_tail left tail h = Some (tailf tail h).
Proof.
  intros B L Hl. subst left. unfold mm32_tail.
  destruct tail as [|t0 [|t1 [|t2 [|? ?]]]]; cbn [length] in *; try lia.
  - easy.
  - cbn [Z.of_nat Pos.of_succ_nat Z.eqb Pos.eqb nth_error obind]. cbn [tailf]. do 2 f_equal. rewrite scramble_ok by (inversion B; unfold byte in *; apply Z.lxor_nonneg; lia).
    rewrite Z.lxor_0_l. f_equal. unfold le_value. cbn [fold_right]. lia.
  - inversion B as [|? ? B0 B']; subst. inversion B' as [|? ? B1 _]; subst. unfold byte in *.
    change (Z.of_nat 2 =? 3) with false. change (Z.of_nat 2 =? 2) with true. cbn [nth_error obind]. cbn [tailf]. do 2 f_equal.
    unfold u32. rewrite !Z.shiftl_mul_pow2 by lia. rewrite !Z.mod_small by lia. rewrite Z.lxor_0_l, lxor_low by lia.
    rewrite scramble_ok by lia. f_equal. unfold le_value. cbn [fold_right]. lia.
  - inversion B as [|? ? B0 B']; subst. inversion B' as [|? ? B1 B'']; subst. inversion B'' as [|? ? B2 _]; subst. unfold byte in *.
    change (Z.of_nat 3 =? 3) with true. cbn [nth_error obind]. cbn [tailf]. do 2 f_equal.
    unfold u32. rewrite !Z.shiftl_mul_pow2 by lia. rewrite !Z.mod_small by lia. rewrite Z.lxor_0_l.
    rewrite (lxor_low t2 (t1 * 2^8) 16) by lia.
    replace (t2 * 2^16 + t1 * 2^8) with ((t2 * 2^8 + t1) * 2^8) by lia. rewrite lxor_low by lia.
    rewrite scramble_ok by lia. f_equal. unfold le_value. cbn [fold_right]. lia.
Qed.
Lemma murmur32_ok m seed : bytes m -> 0 <= seed < 2^32 -> murmur32_seed m seed = Some (murmur3_spec m seed).
Proof.
  intros B Hs. unfold murmur32_seed, murmur3_spec. rewrite Z.quot_div_nonneg by lia.
  set (n := Z.to_nat (Z.of_nat (length m) / 4)).
  assert (Hn : (4 * n <= length m < 4 * n + 4)%nat) by (unfold n; Z.div_mod_to_equations; lia).
  destruct (blocks_ok n m seed) as (h & X & Bh & R); [lia|easy|easy|]. rewrite X. cbn [obind].
  replace (Z.to_nat (Z.of_nat (length m) / 4 * 4)) with (4 * n)%nat by (unfold n; Z.div_mod_to_equations; lia).
  assert (Lt : length (skipn (4 * n) m) = (length m - 4 * n)%nat) by apply skipn_length.
  rewrite (tail_ok _ (skipn (4 * n) m) h).
  - cbn [obind]. f_equal. rewrite final_ok. f_equal. f_equal. rewrite (R (length m)) by lia. symmetry. apply body_tail; lia.
  - now apply bytes_split.
  - rewrite Lt. change 3 with (Z.ones 2). rewrite Z.land_ones by lia. change (2^2) with 4. unfold n. Z.div_mod_to_equations. lia.
  - change 3 with (Z.ones 2). rewrite Z.land_ones by lia. apply Z.mod_pos_bound. lia.
Qed.

(** a change inside one aligned four-byte word is always detected *)
Lemma body_bound : forall f l h, bytes l -> 0 <= h < 2^32 -> 0 <= mm3_body f l h < 2^32.
Proof.
  induction f as [|f IH]; intros l h B H; [easy|]. cbn [mm3_body]. destruct (Nat.leb_spec 4 (length l)).
  - apply IH; [now apply bytes_split|apply blk_bound].
  - destruct l; [easy|]. apply lxor_bound; [lia|easy|apply mm3_k_bound].
Qed.
Lemma body_inj : forall n l f a b, length l = n -> bytes l -> (n <= f)%nat -> 0 <= a < 2^32 -> 0 <= b < 2^32 -> mm3_body f l a = mm3_body f l b -> a = b.
Proof.
  induction n as [n IH] using (well_founded_induction lt_wf). intros l f a b L B Hf Ha Hb E.
  destruct (Nat.lt_ge_cases (length l) 4) as [H|H].
  - rewrite !body_tail in E by lia. destruct l; [easy|]. cbn [tailf] in E. now apply lxor_cancel_r in E.
  - destruct f as [|f]; [lia|]. rewrite !body_block in E by easy.
    apply (IH (length (skipn 4 l))) in E; try (rewrite skipn_length; lia); try apply blk_bound; try easy; [|now apply bytes_split].
    apply blk_inj in E; [|easy|easy]. now apply lxor_cancel_r in E.
Qed.
Lemma body_word u u' q f h : bytes u -> bytes u' -> bytes q -> length u = length u' -> (length u <= 4)%nat ->
  (length u = 4%nat \/ q = []) -> (length (u ++ q) <= f)%nat -> 0 <= h < 2^32 -> mm3_body f (u ++ q) h = mm3_body f (u' ++ q) h -> u = u'.
Proof.
  intros Bu Bu' Bq L L4 C Hf Hh E. rewrite app_length in Hf.
  pose proof (le_value_bound u Bu) as V. pose proof (le_value_bound u' Bu') as V'. rewrite <- L in V'.
  assert (P : 2^(8 * Z.of_nat (length u)) <= 2^32) by (apply Z.pow_le_mono_r; lia).
  destruct (Nat.eq_dec (length u) 4) as [e|e].
  - rewrite !body_app in E by lia. apply (body_inj (length q)) in E; try easy; try lia; try apply blk_bound.
    apply blk_inj in E; [|easy|easy]. apply lxor_cancel_l in E. apply mm3_k_inj in E; [|lia|lia]. now apply le_value_inj.
  - destruct C as [C|C]; [lia|]; subst q. rewrite !app_nil_r in *. cbn [length] in Hf. rewrite !body_tail in E by lia.
    destruct u as [|x u], u' as [|x' u']; try easy. cbn [tailf] in E. apply lxor_cancel_l in E. apply mm3_k_inj in E; [|lia|lia]. now apply le_value_inj.
Qed.
Lemma murmur3_word : forall n p u u' q seed, length p = (4 * n)%nat -> bytes p -> bytes u -> bytes u' -> bytes q -> length u = length u' ->
  (length u <= 4)%nat -> (length u = 4%nat \/ q = []) -> 0 <= seed < 2^32 -> u <> u' ->
  murmur3_spec (p ++ u ++ q) seed <> murmur3_spec (p ++ u' ++ q) seed.
Proof.
  intros n p u u' q seed Lp Bp Bu Bu' Bq L L4 C Hs Hne E. apply Hne. unfold murmur3_spec in E.
  assert (L2 : length (p ++ u' ++ q) = length (p ++ u ++ q)) by (rewrite !app_length; lia). rewrite L2 in E.
  assert (B1 : bytes (p ++ u ++ q)) by (apply Forall_app; split; [easy|]; apply Forall_app; easy).
  assert (B2 : bytes (p ++ u' ++ q)) by (apply Forall_app; split; [easy|]; apply Forall_app; easy).
  apply fmix_inj in E; [|apply lxor_bound; [lia|now apply body_bound|apply Z.mod_pos_bound; lia]..].
  apply lxor_cancel_r in E. set (f := length (p ++ u ++ q)) in *.
  assert (Hf : (length (p ++ u ++ q) <= f)%nat) by lia. clearbody f.
  clear L2 B1 B2. revert p seed Lp Bp Hs E Hf. induction n as [|n IH]; intros p seed Lp Bp Hs E Hf.
  - destruct p; [|cbn in Lp; lia]. cbn [app] in *. now apply (body_word u u' q f seed).
  - destruct p as [|a [|b [|c [|d p]]]]; cbn [length] in Lp; try lia.
    change (a :: b :: c :: d :: p) with ([a; b; c; d] ++ p) in E, Hf. rewrite <- !app_assoc in E. rewrite !app_length in Hf. cbn [length] in Hf.
    rewrite (body_app [a; b; c; d] (p ++ u ++ q)), (body_app [a; b; c; d] (p ++ u' ++ q)) in E by (try easy; rewrite !app_length; lia).
    apply (IH p (mm3_blk seed (le_value [a; b; c; d]))); [lia| |apply blk_bound|exact E|rewrite !app_length; lia].
    change (a :: b :: c :: d :: p) with ([a; b; c; d] ++ p) in Bp. now apply Forall_app in Bp.
Qed.

(** ** MurmurHash64A *)
Lemma mm64_block_ok h k : mm64_block h k = mm2_word h k.
Proof. unfold mm64_block, mm2_word, u64, mm64_m, mm2_m. now rewrite Z.shiftr_div_pow2 by lia. Qed.
Lemma body2_block f l h : (8 <= length l)%nat -> mm2_body (S f) l h = mm2_body f (skipn 8 l) (mm2_word h (le_value (firstn 8 l))).
Proof. intros H. cbn [mm2_body]. destruct (Nat.leb_spec 8 (length l)); [easy|lia]. Qed.
Lemma word8 b0 b1 b2 b3 b4 b5 b6 b7 : word4 b0 b1 b2 b3 + 2^32 * word4 b4 b5 b6 b7 = le_value [b0; b1; b2; b3; b4; b5; b6; b7].
Proof. cbn [le_value fold_right]. unfold word4. lia. Qed.
Lemma mm64_blocks_ok : forall n l h f, length l = (8 * n)%nat -> (length l <= f)%nat -> mm64_blocks n l h = Some (mm2_body f l h).
Proof.
  induction n as [|n IH]; intros l h f L Hf.
  - destruct l; [|cbn in L; lia]. now destruct f.
  - destruct l as [|b0 [|b1 [|b2 [|b3 [|b4 [|b5 [|b6 [|b7 r]]]]]]]]; cbn [length] in L, Hf; try lia. cbn [mm64_blocks].
    destruct f as [|f]; [lia|]. rewrite body2_block by (cbn [length]; lia). cbn [firstn skipn]. rewrite word8, mm64_block_ok.
    apply IH; lia.
Qed.
(** [mm64_blocks n] looks at the first [8 n] bytes only *)
Lemma mm64_blocks_prefix : forall n l l' h, firstn (8 * n) l = firstn (8 * n) l' -> mm64_blocks n l h = mm64_blocks n l' h.
Proof.
  induction n as [|n IH]; intros l l' h E; [easy|]. replace (8 * S n)%nat with (S (S (S (S (S (S (S (S (8 * n))))))))) in E by lia.
  destruct l as [|b0 [|b1 [|b2 [|b3 [|b4 [|b5 [|b6 [|b7 r]]]]]]]], l' as [|c0 [|c1 [|c2 [|c3 [|c4 [|c5 [|c6 [|c7 r']]]]]]]]; cbn [firstn] in E; try easy.
  injection E as -> -> -> -> -> -> -> -> E. cbn [mm64_blocks]. now apply IH.
Qed.
Lemma mm64_tail_prefix : forall k l l' h, firstn k l = firstn k l' -> mm64_tail k l h = mm64_tail k l' h.
Proof.
  induction k as [|k IH]; intros l l' h E; [easy|]. cbn [mm64_tail].
  assert (N : forall (u : list Z), nth_error (firstn (S k) u) k = nth_error u k).
  { intros u. destruct (nth_error u k) as [x|] eqn:Ex.
    - rewrite <- (firstn_skipn (S k) u) in Ex. rewrite nth_error_app1 in Ex; [easy|].
      rewrite firstn_length. assert (k < length (firstn (S k) u ++ skipn (S k) u))%nat by (apply nth_error_Some; congruence).
      rewrite firstn_skipn in *. lia.
    - apply nth_error_None in Ex. apply nth_error_None. rewrite firstn_length. lia. }
  assert (Q : nth_error l k = nth_error l' k) by (rewrite <- N, E, N; easy). rewrite Q. destruct (nth_error l' k); [|easy]. cbn [obind].
  apply IH. assert (F : forall (u : list Z), firstn k u = firstn k (firstn (S k) u)) by (intros; rewrite firstn_firstn; f_equal; lia).
  rewrite F, E, <- F. easy.
Qed.
Lemma le_value_snoc u t : le_value (u ++ [t]) = le_value u + t * 2^(8 * Z.of_nat (length u)).
Proof.
  induction u as [|x u IH]; [unfold le_value; cbn; lia|]. cbn [app le_value fold_right length]. fold (le_value (u ++ [t])) (le_value u). rewrite IH.
  replace (8 * Z.of_nat (S (length u))) with (8 + 8 * Z.of_nat (length u)) by lia. rewrite Z.pow_add_r by lia. lia.
Qed.
Lemma mm64_tail_ok : forall k l h, bytes l -> (k <= length l)%nat -> (k <= 8)%nat -> mm64_tail k l h = Some (Z.lxor h (le_value (firstn k l))).
Proof.
  induction k as [|k IH]; intros l h B L K; [cbn; now rewrite Z.lxor_0_r|]. cbn [mm64_tail].
  destruct (nth_error l k) as [t|] eqn:E; [|apply nth_error_None in E; lia]. cbn [obind]. rewrite IH by (easy || lia). f_equal.
  assert (F : firstn (S k) l = firstn k l ++ [t]).
  { clear -E. revert l E. induction k as [|k IH]; intros [|x l] E; cbn in E; try easy; [now injection E as ->|]. cbn [firstn app]. f_equal. now apply IH. }
  rewrite F, le_value_snoc. rewrite firstn_length, Nat.min_l by lia.
  pose proof (le_value_bound (firstn k l) ltac:(now apply bytes_split)) as V. rewrite firstn_length, Nat.min_l in V by lia.
  assert (Bt : byte t) by (apply nth_error_In in E; unfold bytes in B; rewrite Forall_forall in B; auto). unfold byte in Bt.
  unfold u64. rewrite Z.shiftl_mul_pow2 by lia. rewrite Z.mod_small.
  - rewrite Z.lxor_assoc, lxor_low by lia. f_equal. lia.
  - split; [nia|]. apply Z.lt_le_trans with (2^8 * 2^(8 * Z.of_nat k)); [nia|]. rewrite <- Z.pow_add_r by lia. apply Z.pow_le_mono_r; lia.
Qed.
Lemma land7 x : Z.land x 7 = x mod 8.
Proof. change 7 with (Z.ones 3). now rewrite Z.land_ones by lia. Qed.
Lemma murmur64_ok m seed : bytes m -> Z.of_nat (length m) mod 8 = 0 \/ Z.of_nat (length m) < 8 -> murmur64_seed m seed = Some (mm2_spec m seed).
Proof.
  intros B C. unfold murmur64_seed. rewrite land7, Z.quot_div_nonneg by lia.
  destruct (Z.eqb_spec (Z.of_nat (length m) mod 8) 0) as [E|E].
  - rewrite (mm64_blocks_ok _ m _ (length m)); [|Z.div_mod_to_equations; lia|lia]. cbn [obind].
    unfold mm2_spec, u64, mm64_m, mm2_m. cbn zeta. now rewrite !Z.shiftr_div_pow2 by lia.
  - destruct C as [C|C]; [easy|]. rewrite Z.div_small, Z.mod_small by lia. cbn [Z.to_nat mm64_blocks obind]. rewrite Nat2Z.id.
    rewrite mm64_tail_ok by (easy || lia). cbn [obind]. rewrite firstn_all.
    unfold mm2_spec. destruct m as [|x m]; [cbn in E; lia|]. cbn [length mm2_body]. cbn [length] in C. destruct (Nat.leb_spec 8 (S (length m))); [lia|].
    unfold u64, mm64_m, mm2_m. cbn zeta. now rewrite !Z.shiftr_div_pow2 by lia.
Qed.
Lemma murmur64_tail_ignored p t t' seed : length p <> 0%nat -> Z.of_nat (length p) mod 8 = 0 -> length t = length t' -> (length t < 8)%nat ->
  murmur64_seed (p ++ t) seed = murmur64_seed (p ++ t') seed.
Proof.
  intros P0 P8 L L8. unfold murmur64_seed. rewrite !app_length, L.
  set (n := Z.of_nat (length p + length t')). rewrite land7, Z.quot_div_nonneg by lia.
  assert (Hn : (8 * Z.to_nat (n / 8))%nat = length p) by (unfold n; Z.div_mod_to_equations; lia).
  assert (F : forall k u u', (k <= length p)%nat -> firstn k (p ++ u) = firstn k (p ++ u')).
  { intros k u u' Hk. rewrite !firstn_app. replace (k - length p)%nat with 0%nat by lia. easy. }
  rewrite (mm64_blocks_prefix _ (p ++ t) (p ++ t')) by (apply F; lia).
  destruct (mm64_blocks _ (p ++ t') _) as [h|]; [|easy]. cbn [obind]. destruct (_ =? 0); [easy|].
  rewrite (mm64_tail_prefix _ (p ++ t) (p ++ t')); [easy|]. apply F.
  pose proof (Z.mod_pos_bound n 8 ltac:(lia)). Z.div_mod_to_equations; lia.
Qed.
