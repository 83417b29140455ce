From Verif Require Import Base CStr CStrSpec CStrProofs Num NumSpec.

Lemma digit_some base c d : denotes base c d -> scan_digit base c = Some d.
Proof.
  unfold denotes, scan_digit, char_is_hex_digit, hex_digit_to_int, digit_to_int, char_is_digit. intros H.
  destruct (Z.leb_spec 48 c), (Z.leb_spec c 57), (Z.leb_spec 97 c), (Z.leb_spec c 102), (Z.leb_spec 65 c), (Z.leb_spec c 70), (Z.eqb_spec base 16);
    cbn [andb orb]; try (f_equal; lia); lia.
Qed.
Lemma digit_none base c : (forall d, ~ denotes base c d) -> scan_digit base c = None.
Proof.
  unfold denotes, scan_digit, char_is_hex_digit, hex_digit_to_int, digit_to_int, char_is_digit. intros H.
  destruct (Z.leb_spec 48 c), (Z.leb_spec c 57); cbn [andb orb]; try (exfalso; apply (H (c - 48)); lia);
  destruct (Z.eqb_spec base 16); cbn [andb]; try easy;
  destruct (Z.leb_spec 97 c), (Z.leb_spec c 102); cbn [andb orb]; try (exfalso; apply (H (c - 87)); lia);
  destruct (Z.leb_spec 65 c), (Z.leb_spec c 70); cbn [andb orb]; try (exfalso; apply (H (c - 55)); lia); easy.
Qed.
Definition numfrom (base a : Z) (ds : list Z) : Z := fold_left (fun a d => a * base + d) ds a.
Lemma scan_u64_loop_ok base : forall s ds a c x n, Forall2 (denotes base) s ds -> (forall d, ~ denotes base c d) -> 
  scan_u64_loop base (s ++ c :: x) (u64 a) n = Some (u64 (numfrom base a ds), (n + length s)%nat).
Proof.
  intros s ds a c x n H Hc. revert a n. induction H as [|ch d s ds Hd Hs IH]; intros a n; cbn [app scan_u64_loop length numfrom fold_left].
  - rewrite digit_none by easy. now rewrite Nat.add_0_r.
  - rewrite (digit_some _ _ _ Hd). replace (u64 (u64 (u64 a * u64 base) + d)) with (u64 (a * base + d)).
    + rewrite IH. unfold numfrom. do 2 f_equal. lia.
    + unfold u64. rewrite <- Z.mul_mod by lia. now rewrite Z.add_mod_idemp_l by lia.
Qed.
Lemma is_0x_ok text : text <> [] -> (forall c, hd_error text = Some c -> c = 48 -> (2 <= length text)%nat) -> exists b, is_0x text = Some b /\ (b = true <-> exists r, text = 48 :: 120 :: r).
Proof.
  intros Hne H. unfold is_0x. destruct text as [|a t]; [easy|]. cbn [strncmp rd nth_error obind tl].
  cbn [strncmp]. destruct (Z.eqb_spec a 48) as [->|N].
  - specialize (H 48 eq_refl eq_refl). destruct t as [|b t]; [cbn in H; lia|]. cbn.
    destruct (Z.eqb_spec b 120) as [->|N]; cbn.
    + exists true. split; [easy|]. split; eauto.
    + exists false. split; [easy|]. split; [easy|]. intros (r & [= -> _]). easy.
  - cbn. exists false. split; [easy|]. split; [easy|]. intros (r & [= -> _]). easy.
Qed.
Lemma skip_no base s ds c x : Forall2 (denotes base) s ds -> (forall d, ~ denotes base c d) -> (base = 16 -> s = [48] -> c <> 120) ->
  skip_0x base (s ++ c :: x) = Some O.
Proof.
  intros Hs Hc H. unfold skip_0x. destruct (Z.eqb_spec base 16) as [E|E]; [|easy].
  destruct (is_0x_ok (s ++ c :: x)) as (b & Eb & Hb).
  - now destruct s.
  - intros h Eh ->. destruct s as [|a s]; cbn in Eh; [|cbn; rewrite app_length; cbn; lia]. injection Eh as ->. destruct (Hc 0). left. lia.
  - rewrite Eb. cbn [obind]. destruct b; [exfalso|easy]. destruct Hb as (Hb & _). destruct (Hb eq_refl) as (r & Er).
    destruct Hs as [|a d s ds Ha Hs]; cbn [app] in Er.
    + injection Er as -> _. apply (Hc 0). left. lia.
    + injection Er as -> Er. destruct Hs as [|a2 d2 s ds Ha2 Hs]; cbn [app] in Er.
      * injection Er as -> _. now apply (H E eq_refl).
      * injection Er as -> _. unfold denotes in Ha2. lia.
Qed.
Lemma skip_yes r : skip_0x 16 (48 :: 120 :: r) = Some 2%nat.
Proof. reflexivity. Qed.
Lemma scan_u64_ok base s ds c x : Forall2 (denotes base) s ds -> (forall d, ~ denotes base c d) -> (base = 16 -> s = [48] -> c <> 120) ->
  scan_u64 (s ++ c :: x) base = Some (u64 (number base ds), length s).
Proof.
  intros Hs Hc H. unfold scan_u64. rewrite (skip_no base s ds) by easy. cbn [obind skipn].
  exact (scan_u64_loop_ok base s ds 0 c x 0 Hs Hc).
Qed.
Lemma scan_u64_hex s ds c x : Forall2 (denotes 16) s ds -> (forall d, ~ denotes 16 c d) ->
  scan_u64 (48 :: 120 :: s ++ c :: x) 16 = Some (u64 (number 16 ds), S (S (length s))).
Proof.
  intros Hs Hc. unfold scan_u64. rewrite skip_yes. cbn [obind skipn]. exact (scan_u64_loop_ok 16 s ds 0 c x 2 Hs Hc).
Qed.
Lemma numfrom_ge base : 1 <= base -> forall ds a, Forall (fun d => 0 <= d) ds -> 0 <= a -> a <= numfrom base a ds.
Proof.
  intros Hb. induction ds as [|d ds IH]; intros a H Ha; cbn [numfrom fold_left]; [lia|]. inversion H; subst.
  assert (a <= a * base + d) by nia. etransitivity; [eassumption|]. apply IH; [easy|lia].
Qed.
Lemma chk_ok x : -2^63 <= x < 2^63 -> chk64 x = Some x.
Proof. intros. unfold chk64. destruct (Z.leb_spec (-2^63) x), (Z.ltb_spec x (2^63)); cbn [andb]; try lia; easy. Qed.
Lemma chk_big x : 2^63 <= x -> chk64 x = None.
Proof. intros. unfold chk64. destruct (Z.ltb_spec x (2^63)); [lia|]. now rewrite andb_false_r. Qed.
Lemma scan_i64_loop_ok base : 1 <= base -> forall s ds a c x n, Forall2 (denotes base) s ds -> (forall d, ~ denotes base c d) -> 0 <= a < 2^63 ->
  scan_i64_loop base (s ++ c :: x) a n = if numfrom base a ds <? 2^63 then Some (numfrom base a ds, (n + length s)%nat) else None.
Proof.
  intros Hb s ds a c x n H Hc. revert a n. induction H as [|ch d s ds Hd Hs IH]; intros a n Ha; cbn [app scan_i64_loop length numfrom fold_left].
  - rewrite digit_none by easy. destruct (Z.ltb_spec a (2^63)); [|lia]. now rewrite Nat.add_0_r.
  - rewrite (digit_some _ _ _ Hd). fold (numfrom base (a * base + d) ds).
    assert (D : 0 <= d) by (unfold denotes in Hd; lia).
    assert (F : Forall (fun d => 0 <= d) ds). { clear - Hs. induction Hs as [|? ? ? ? E]; constructor; [unfold denotes in E; lia|easy]. }
    pose proof (numfrom_ge base Hb ds (a * base + d) F ltac:(nia)) as G.
    destruct (Z.ltb_spec (a * base) (2^63)) as [L1|L1].
    + rewrite chk_ok by nia. cbn [obind]. destruct (Z.ltb_spec (a * base + d) (2^63)) as [L2|L2].
      * rewrite chk_ok by nia. cbn [obind]. rewrite IH by nia. rewrite Nat.add_succ_r. easy.
      * rewrite chk_big by easy. destruct (Z.ltb_spec (numfrom base (a * base + d) ds) (2^63)); [lia|easy].
    + rewrite chk_big by easy. destruct (Z.ltb_spec (numfrom base (a * base + d) ds) (2^63)); [lia|easy].
Qed.
Lemma number_nonneg base ds s : 1 <= base -> Forall2 (denotes base) s ds -> 0 <= number base ds.
Proof.
  intros Hb H. apply (numfrom_ge base Hb ds 0); [|lia]. clear - H. induction H as [|? ? ? ? E]; constructor; [unfold denotes in E; lia|easy].
Qed.
Lemma no_minus base d : ~ denotes base 45 d.
Proof. unfold denotes. lia. Qed.
Lemma scan_i64_pos base s ds c x : 1 <= base -> Forall2 (denotes base) s ds -> (forall d, ~ denotes base c d) -> (base = 16 -> s = [48] -> c <> 120) -> (s = [] -> c <> 45) ->
  scan_i64 (s ++ c :: x) base = if number base ds <? 2^63 then Some (number base ds, length s) else None.
Proof.
  intros Hb Hs Hc H Hm. unfold scan_i64.
  assert (exists h, rd (s ++ c :: x) 0 = Some h /\ h <> 45) as (h & -> & Hh).
  { destruct Hs as [|a d s ds Ha Hs]; cbn; eexists; (split; [reflexivity|]); [now apply Hm|]. intros ->. now apply (no_minus base d). }
  cbn [obind]. destruct (Z.eqb_spec h 45); [easy|]. cbn [skipn Nat.add]. rewrite (skip_no base s ds) by easy. cbn [obind skipn].
  rewrite (scan_i64_loop_ok base Hb s ds 0 c x 0 Hs Hc) by lia. change (numfrom base 0 ds) with (number base ds). destruct (number base ds <? 2^63); easy.
Qed.
Lemma scan_i64_neg base s ds c x : 1 <= base -> Forall2 (denotes base) s ds -> (forall d, ~ denotes base c d) -> (base = 16 -> s = [48] -> c <> 120) ->
  scan_i64 (45 :: s ++ c :: x) base = if number base ds <? 2^63 then Some (- number base ds, S (length s)) else None.
Proof.
  intros Hb Hs Hc H. unfold scan_i64. cbn [rd nth_error obind]. change (45 =? 45) with true. cbn match. cbn [skipn].
  rewrite (skip_no base s ds) by easy. cbn [obind Nat.add skipn].
  rewrite (scan_i64_loop_ok base Hb s ds 0 c x 1 Hs Hc) by lia. change (numfrom base 0 ds) with (number base ds).
  pose proof (number_nonneg base ds s Hb Hs). destruct (Z.ltb_spec (number base ds) (2^63)); [|easy]. cbn [obind]. rewrite chk_ok by lia. easy.
Qed.
Lemma scan_i64_hex s ds c x : Forall2 (denotes 16) s ds -> (forall d, ~ denotes 16 c d) ->
  scan_i64 (48 :: 120 :: s ++ c :: x) 16 = if number 16 ds <? 2^63 then Some (number 16 ds, S (S (length s))) else None.
Proof.
  intros Hs Hc. unfold scan_i64. cbn [rd nth_error obind]. change (48 =? 45) with false. cbn match. cbn [skipn]. rewrite skip_yes. cbn [obind Nat.add skipn].
  rewrite (scan_i64_loop_ok 16 ltac:(lia) s ds 0 c x 2 Hs Hc) by lia. change (numfrom 16 0 ds) with (number 16 ds). destruct (number 16 ds <? 2^63); easy.
Qed.
Lemma guess_ok t x : cstring t -> exists b, guess_base (t ++ 0 :: x) 0 = Some b /\
  ((exists r, t = 48 :: 120 :: r /\ r <> []) -> b = 16) /\ (~ (exists r, t = 48 :: 120 :: r /\ r <> []) -> b = 10).
Proof.
  intros H. unfold guess_base. cbn [Z.eqb]. rewrite strlen_ok by easy. cbn [obind]. destruct (Nat.ltb_spec 2 (length t)) as [L|L].
  - destruct (is_0x_ok (t ++ 0 :: x)) as (b & -> & Hb); [now destruct t|intros; rewrite app_length; lia|]. cbn [obind].
    exists (if b then 16 else 10). split; [easy|]. destruct b.
    + split; [easy|]. intros N. destruct N. destruct Hb as (Hb & _). destruct (Hb eq_refl) as (r & E).
      destruct t as [|a1 [|a2 [|a3 t]]]; cbn in L; try lia. injection E as -> -> _. exists (a3 :: t). easy.
    + split; [|easy]. intros (r & -> & _). destruct Hb as (_ & Hb). discriminate Hb. cbn. eauto.
  - exists 10. split; [easy|]. split; [|easy]. intros (r & -> & Hr). destruct r; [easy|cbn in L; lia].
Qed.

(** ** printing *)
Lemma table_ok d : 0 <= d < 64 -> nth_error num_to_char_table (Z.to_nat d) = Some (digit_char d).
Proof.
  intros H. assert (E : forallb (fun k => match nth_error num_to_char_table (Z.to_nat (Z.of_nat k)) with Some c => c =? digit_char (Z.of_nat k) | None => false end) (seq 0 64) = true) by (vm_compute; reflexivity).
  rewrite forallb_forall in E. specialize (E (Z.to_nat d) ltac:(apply in_seq; lia)). rewrite Z2Nat.id in E by lia.
  destruct (nth_error num_to_char_table (Z.to_nat d)); [|easy]. apply Z.eqb_eq in E. now subst.
Qed.
Lemma number_snoc base ds d : number base (ds ++ [d]) = number base ds * base + d.
Proof. unfold number. now rewrite fold_left_app. Qed.
Lemma digits_zero f base buf k : digits_loop (S f) 0 base buf k = Some (buf, k).
Proof. reflexivity. Qed.
Lemma digits_step f v base buf k : 0 < v -> 2 <= base <= 64 ->
  digits_loop (S f) v base buf k = (buf <- wr buf k (digit_char (v mod base)) ;; digits_loop f (v / base) base buf (S k)).
Proof.
  intros Hv Hb. cbn [digits_loop]. destruct (Z.ltb_spec 0 v); [|lia]. destruct (Z.eqb_spec base 0); [lia|].
  rewrite table_ok; [easy|]. pose proof (Z.mod_pos_bound v base). lia.
Qed.
Lemma digits_ok base : 2 <= base <= 64 -> forall n v, 0 < v < Z.of_nat n -> exists ds, Forall (fun d => 0 <= d < base) ds /\ (exists d r, ds = d :: r /\ 0 < d) /\ number base ds = v /\
  (forall f a old b, length old = length ds -> digits_loop (S (length ds + f)) v base (a ++ old ++ b) (length a) = Some (a ++ map digit_char (rev ds) ++ b, (length a + length ds)%nat)) /\
  (forall f d k, (k <= length d < k + length ds)%nat -> digits_loop f v base d k = None).
Proof.
  intros Hb. induction n as [|n IH]; intros v Hv; [lia|].
  pose proof (Z.mod_pos_bound v base ltac:(lia)) as Hm. pose proof (Z.div_mod v base ltac:(lia)) as Hd.
  destruct (Z.ltb_spec v base) as [L|L].
  - exists [v]. rewrite Z.mod_small in * by lia. split; [repeat constructor; lia|]. split; [exists v, []; split; [easy|lia]|]. split; [unfold number; cbn; lia|]. split.
    + intros f a [|o [|? ?]] b Lo; try easy. cbn [length Nat.add app]. rewrite digits_step by lia. rewrite wr_at. cbn [obind].
      rewrite Z.mod_small, Z.div_small by lia. rewrite digits_zero. cbn. do 2 f_equal. lia.
    + intros [|f] d k Hk; [easy|]. cbn [length] in Hk. rewrite digits_step by lia. now rewrite wr_out by lia.
  - assert (0 < v / base) by (apply Z.div_str_pos; lia). assert (v / base < v) by (apply Z.div_lt; lia).
    destruct (IH (v / base) ltac:(lia)) as (ds & F & (d0 & r & Eds & Hd0) & N & A & B).
    exists (ds ++ [v mod base]). split; [apply Forall_app; split; [easy|repeat constructor; lia]|].
    split; [exists d0, (r ++ [v mod base]); subst ds; easy|]. split; [rewrite number_snoc, N; lia|]. rewrite app_length. cbn [length]. split.
    + intros f a old b Lo. destruct old as [|o old]; [cbn in Lo; lia|].
      rewrite digits_step by lia. cbn [app]. rewrite wr_at. cbn [obind].
      rewrite rev_app_distr. cbn [rev app map].
      specialize (A f (a ++ [digit_char (v mod base)]) old b ltac:(cbn in Lo; lia)). rewrite <- !app_assoc in A. cbn [app] in A. rewrite app_length in A. cbn [length] in A.
      replace (length a + 1)%nat with (S (length a)) in A by lia. replace (length ds + 1 + f)%nat with (S (length ds + f)) by lia. rewrite A. do 2 f_equal. lia.
    + intros [|f] d k Hk; [easy|]. rewrite digits_step by lia. destruct (Nat.eq_dec k (length d)) as [->|Nk]; [now rewrite wr_out by lia|].
      destruct (wr d k (digit_char (v mod base))) as [d'|] eqn:E; [|easy]. cbn [obind]. apply B. apply wr_len in E. lia.
Qed.
Lemma digit_char_range d : 0 <= d < 64 -> 0 < digit_char d < 256.
Proof.
  intros H. unfold digit_char. destruct (Z.ltb_spec d 10), (Z.ltb_spec d 36), (Z.ltb_spec d 62), (Z.eqb_spec d 62); lia.
Qed.
Lemma chars_cs base ds : base <= 64 -> Forall (fun d => 0 <= d < base) ds -> cstring (map digit_char ds).
Proof. intros Hb H. apply Forall_map. revert H. apply Forall_impl. intros d Hd. apply digit_char_range. lia. Qed.
Lemma cs_rev s : cstring s -> cstring (rev s).
Proof. intros H. unfold cstring. apply Forall_rev, H. Qed.
Lemma u64_small x : 0 <= x < 2^64 -> u64 x = x.
Proof. intros. unfold u64. now apply Z.mod_small. Qed.
(** both printers: digits, an optional sign, the terminator, then reversal *)
Lemma print_ok base v (neg : bool) buf : 2 <= base <= 64 -> 0 <= v -> exists ds, canonical base ds /\ number base ds = v /\
  (' (b, k) <- (if v =? 0 then b <- wr buf 0 48 ;; Some (b, 1%nat) else digits_loop (S (length buf)) v base buf 0) ;;
   ' (b, k) <- (if neg then b <- wr b k 45 ;; Some (b, S k) else Some (b, k)) ;;
   b <- wr b k 0 ;; strrev b) =
  (let out := (if neg then [45] else []) ++ map digit_char ds in
   if (length out <? length buf)%nat then Some (out ++ 0 :: skipn (S (length out)) buf) else None).
Proof.
  intros Hb Hv.
  assert (G : exists ds, canonical base ds /\ number base ds = v /\
    forall q, (if v =? 0 then b <- wr buf 0 48 ;; Some (b, 1%nat) else digits_loop (S (length buf)) v base buf 0) = q ->
    if (length ds <=? length buf)%nat then q = Some (map digit_char (rev ds) ++ skipn (length ds) buf, length ds) else q = None).
  { destruct (Z.eqb_spec v 0) as [->|N].
    - exists [0]. split; [split; [repeat constructor; lia|now left]|]. split; [easy|]. intros q <-. destruct buf as [|o buf]; cbn; [easy|]. easy.
    - destruct (digits_ok base Hb (S (Z.to_nat v)) v ltac:(lia)) as (ds & F & X & E & A & B). exists ds. split; [split; [easy|now right]|]. split; [easy|].
      intros q <-. destruct (Nat.leb_spec (length ds) (length buf)) as [L|L].
      + destruct (split_at buf (length ds) L) as (u & w & -> & Lu). replace (skipn (length ds) (u ++ w)) with w by (rewrite <- Lu; now rewrite skipn_len).
        specialize (A (length w) [] u w Lu). cbn [app length Nat.add] in A. rewrite app_length, Lu. exact A.
      + apply B. lia. }
  destruct G as (ds & C & E & Q). exists ds. split; [easy|]. split; [easy|]. specialize (Q _ eq_refl).
  cbn zeta. rewrite app_length, map_length.
  pose proof (chars_cs base ds ltac:(lia) (proj1 C)) as CS.
  destruct (Nat.leb_spec (length ds) (length buf)) as [L|L]; rewrite Q; clear Q; cbn [obind].
  - destruct (split_at buf (length ds) L) as (u & w & -> & Lu). replace (skipn (length ds) (u ++ w)) with w by (rewrite <- Lu; now rewrite skipn_len).
    assert (Lm : length (map digit_char (rev ds)) = length ds) by (rewrite map_length, rev_length; easy). rewrite <- Lm.
    rewrite app_length in *. rewrite map_rev in *. destruct neg; cbn [length app Nat.add].
    + destruct w as [|o w].
      { rewrite wr_out by (rewrite app_nil_r; lia). cbn [obind]. destruct (Nat.ltb_spec (S (length ds)) (length u + 0)); [lia|]. cbn [length]. rewrite Lm. destruct (Nat.ltb_spec (S (length ds)) (length u + 0)); [lia|]. easy. }
      rewrite wr_at. cbn [obind].
      replace (S (length (rev (map digit_char ds)))) with (length (rev (map digit_char ds) ++ [45])) at 1 by (rewrite app_length; cbn; lia).
      replace (rev (map digit_char ds) ++ 45 :: w) with ((rev (map digit_char ds) ++ [45]) ++ w) by (rewrite <- app_assoc; easy).
      destruct w as [|o2 w].
      { rewrite wr_out by (rewrite app_nil_r; lia). cbn [obind length]. destruct (Nat.ltb_spec (S (length (rev (map digit_char ds)))) (length u + 1)); [lia|]. easy. }
      rewrite wr_at. cbn [obind]. rewrite strrev_ok by (apply Forall_app; split; [now apply cs_rev|repeat constructor; lia]).
      rewrite rev_app_distr, rev_involutive. cbn [rev app length].
      destruct (Nat.ltb_spec (S (length (rev (map digit_char ds)))) (length u + S (S (length w)))); [|lia].
      replace (S (S (length (rev (map digit_char ds))))) with (length (u ++ [o; o2])) by (rewrite app_length; cbn; lia).
      replace (u ++ o :: o2 :: w) with ((u ++ [o; o2]) ++ w) by (rewrite <- app_assoc; easy). now rewrite skipn_len.
    + cbn [obind]. destruct w as [|o w].
      { rewrite wr_out by (rewrite app_nil_r; lia). cbn [obind length]. destruct (Nat.ltb_spec (length (rev (map digit_char ds))) (length u + 0)); [lia|]. easy. }
      rewrite wr_at. cbn [obind]. rewrite strrev_ok by now apply cs_rev. rewrite rev_involutive. cbn [length].
      destruct (Nat.ltb_spec (length (rev (map digit_char ds))) (length u + S (length w))); [|lia].
      replace (S (length (rev (map digit_char ds)))) with (length (u ++ [o])) by (rewrite app_length; cbn; lia).
      replace (u ++ o :: w) with ((u ++ [o]) ++ w) by (rewrite <- app_assoc; easy). now rewrite skipn_len.
  - destruct (Nat.ltb_spec (length (if neg then [45] else []) + length ds) (length buf)); [lia|easy].
Qed.

(** ** uniqueness of the notation *)
Definition good (base : Z) (ds : list Z) : Prop := Forall (fun d => 0 <= d < base) ds /\ exists d r, ds = d :: r /\ 0 < d.
Lemma good_pos base ds : 2 <= base -> good base ds -> 0 < number base ds.
Proof.
  intros Hb (F & d & r & -> & Hd). inversion F; subst. unfold number. cbn [fold_left]. rewrite Z.mul_0_l, Z.add_0_l. fold (numfrom base d r).
  pose proof (numfrom_ge base ltac:(lia) r d) as G. assert (Forall (fun d => 0 <= d) r) by (eapply Forall_impl; [|eassumption]; cbn; lia). specialize (G H ltac:(lia)). lia.
Qed.
Lemma good_unique base : 2 <= base -> forall ds es, good base ds -> good base es -> number base ds = number base es -> ds = es.
Proof.
  intros Hb. induction ds as [|d ds IH] using rev_ind; intros es Gd Ge E; [destruct Gd as (_ & ? & ? & ? & _); easy|].
  induction es as [|e es _] using rev_ind; [destruct Ge as (_ & ? & ? & ? & _); easy|].
  rewrite !number_snoc in E.
  destruct Gd as (Fd & hd & rd & Ed & Pd), Ge as (Fe & he & re & Ee & Pe).
  apply Forall_app in Fd as (Fd & Fd1). apply Forall_app in Fe as (Fe & Fe1). inversion Fd1; inversion Fe1; subst.
  assert (Q : number base ds = number base es /\ d = e).
  { pose proof (Z.div_mod_unique base (number base ds) (number base es) d e) as U. assert (number base ds = number base es /\ d = e); [|easy]. apply U; lia. }
  destruct Q as (Q & ->). f_equal.
  destruct ds as [|a ds], es as [|b es]; try easy.
  - exfalso. cbn [app] in Ee. injection Ee as -> _. assert (G : good base (he :: es)) by (split; [easy|eauto]). apply good_pos in G; [|easy]. unfold number in *. cbn [fold_left] in *. lia.
  - exfalso. cbn [app] in Ed. injection Ed as -> _. assert (G : good base (hd :: ds)) by (split; [easy|eauto]). apply good_pos in G; [|easy]. unfold number in *. cbn [fold_left] in *. lia.
  - apply IH; [| |easy].
    + cbn [app] in Ed. injection Ed as -> _. split; [easy|eauto].
    + cbn [app] in Ee. injection Ee as -> _. split; [easy|eauto].
Qed.
Lemma canonical_unique base ds es : 2 <= base -> canonical base ds -> canonical base es -> number base ds = number base es -> ds = es.
Proof.
  intros Hb (Fd & Cd) (Fe & Ce) E. destruct Cd as [->|Cd], Ce as [->|Ce]; try easy.
  - exfalso. assert (G : good base es) by (split; easy). apply good_pos in G; [|easy]. unfold number in E at 1. cbn in E. lia.
  - exfalso. assert (G : good base ds) by (split; easy). apply good_pos in G; [|easy]. unfold number in E at 2. cbn in E. lia.
  - apply (good_unique base); try easy; split; easy.
Qed.
Lemma denotes_char base d : base <= 10 \/ base = 16 -> 0 <= d < base -> denotes base (digit_char d) d.
Proof.
  intros Hb H. unfold denotes, digit_char. destruct (Z.ltb_spec d 10), (Z.ltb_spec d 36); lia.
Qed.
Lemma denotes_chars base ds : base <= 10 \/ base = 16 -> Forall (fun d => 0 <= d < base) ds -> Forall2 (denotes base) (map digit_char ds) ds.
Proof. intros Hb. induction 1; cbn; constructor; [now apply denotes_char|easy]. Qed.
Lemma no_nul base d : ~ denotes base 0 d.
Proof. unfold denotes. lia. Qed.
