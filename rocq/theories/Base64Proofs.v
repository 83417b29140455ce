From Verif Require Import Base Base64 Base64Spec HashProofs.

(** ** tables *)
Lemma chars_ok d : 0 <= d < 64 -> get b64_chars d = Some (digit d).
Proof.
  assert (H : sweep 64 (fun d => match get b64_chars d with Some c => c =? digit d | None => false end) = true) by (vm_compute; reflexivity).
  intros Hd. apply (sweep_ok _ _ H) in Hd. destruct (get b64_chars d); [|easy]. apply Z.eqb_eq in Hd. now subst.
Qed.
Lemma dec_ok d : 0 <= d < 64 -> get b64_dec_table (digit d - 43) = Some d /\ digit d <> 61 /\ 0 < digit d < 256 /\ valid_char (digit d) = true.
Proof.
  assert (H : sweep 64 (fun d => match get b64_dec_table (digit d - 43) with Some c => c =? d | None => false end &&
     negb (digit d =? 61) && (0 <? digit d) && (digit d <? 256) && valid_char (digit d)) = true) by (vm_compute; reflexivity).
  intros Hd. apply (sweep_ok _ _ H) in Hd. rewrite !andb_true_iff in Hd. destruct Hd as ((((A & B) & C) & D) & E).
  destruct (get b64_dec_table _); [|easy]. apply Z.eqb_eq in A. apply negb_true_iff, Z.eqb_neq in B. apply Z.ltb_lt in C, D. subst. easy.
Qed.
Lemma digit_range d : 0 <= d < 64 -> 0 < digit d < 256.
Proof. intros H. now apply dec_ok. Qed.
Lemma alphabet_cases c : alphabet c -> (exists d, 0 <= d < 64 /\ c = digit d) \/ c = 61.
Proof. easy. Qed.
Lemma alphabet_dec c : alphabet c -> exists x, get b64_dec_table (c - 43) = Some x.
Proof. intros [(d & Hd & ->)| ->]; [exists d; now apply dec_ok|exists (-1); reflexivity]. Qed.
Lemma alphabet_nonzero c : alphabet c -> c <> 0.
Proof. intros [(d & Hd & ->)| ->]; [pose proof (digit_range d Hd); lia|easy]. Qed.
Lemma valid_iff c : byte c -> valid_char c = true <-> alphabet c.
Proof.
  intros Hc. split.
  - assert (H : sweep 256 (fun c => implb (valid_char c) ((c =? 61) ||
      match get b64_dec_table (c - 43) with Some d => (0 <=? d) && (d <? 64) && (digit d =? c) | None => false end)) = true) by (vm_compute; reflexivity).
    intros V. apply (sweep_ok _ _ H) in Hc. rewrite V in Hc. cbn [implb] in Hc. apply orb_true_iff in Hc as [Hc|Hc].
    + right. now apply Z.eqb_eq in Hc.
    + left. destruct (get b64_dec_table (c - 43)) as [d|]; [|easy]. rewrite !andb_true_iff in Hc. destruct Hc as ((A & B) & C).
      exists d. apply Z.leb_le in A. apply Z.ltb_lt in B. apply Z.eqb_eq in C. lia.
  - intros [(d & Hd & ->)| ->]; [now apply dec_ok|reflexivity].
Qed.

(** ** cells and lists *)
Lemma get_app pre suf k : get (pre ++ suf) (Z.of_nat (length pre) + Z.of_nat k) = nth_error suf k.
Proof.
  unfold get. destruct (Z.ltb_spec (Z.of_nat (length pre) + Z.of_nat k) 0); [lia|].
  replace (Z.to_nat _) with (length pre + k)%nat by lia. rewrite nth_error_app2 by lia. f_equal. lia.
Qed.
Lemma get0 pre (suf : list Z) : get (pre ++ suf) (Z.of_nat (length pre)) = nth_error suf 0.
Proof. pose proof (get_app pre suf 0) as H. now rewrite Z.add_0_r in H. Qed.
Lemma get1 pre suf : get (pre ++ suf) (Z.of_nat (length pre) + 1) = nth_error suf 1.
Proof. exact (get_app pre suf 1). Qed.
Lemma get2 pre suf : get (pre ++ suf) (Z.of_nat (length pre) + 2) = nth_error suf 2.
Proof. exact (get_app pre suf 2). Qed.
Lemma get3 pre suf : get (pre ++ suf) (Z.of_nat (length pre) + 3) = nth_error suf 3.
Proof. exact (get_app pre suf 3). Qed.
Lemma set_app d c r v : set_cell (d ++ c :: r) (length d) v = Some (d ++ Some v :: r).
Proof. induction d as [|x d IH]; [easy|]. cbn [app length set_cell]. rewrite IH. easy. Qed.
Lemma store_app d c r v : store (d ++ c :: r) (Z.of_nat (length d)) v = Some (d ++ Some v :: r).
Proof. unfold store. destruct (Z.ltb_spec (Z.of_nat (length d)) 0); [lia|]. rewrite Nat2Z.id. apply set_app. Qed.
Lemma store_at d u c r v k : Z.of_nat (length u) = k -> store (d ++ u ++ c :: r) (Z.of_nat (length d) + k) v = Some (d ++ u ++ Some v :: r).
Proof.
  intros <-. rewrite !app_assoc. rewrite <- Nat2Z.inj_add, <- app_length. apply store_app.
Qed.
Lemma set_some : forall b i v, (i < length b)%nat -> exists b', set_cell b i v = Some b' /\ length b' = length b.
Proof.
  induction b as [|c b IH]; intros [|i] v H; cbn [length] in H; try lia; cbn [set_cell]; [eauto|].
  destruct (IH i v) as (b' & -> & L); [lia|]. cbn [obind]. eexists. split; [reflexivity|]. cbn. lia.
Qed.
Lemma set_none : forall b i v, (length b <= i)%nat -> set_cell b i v = None.
Proof. induction b as [|c b IH]; intros [|i] v H; cbn [length] in H; try lia; [easy..|]. cbn [set_cell]. rewrite IH by lia. easy. Qed.
Lemma store_some b i v : 0 <= i < Z.of_nat (length b) -> exists b', store b i v = Some b' /\ length b' = length b.
Proof. intros H. unfold store. destruct (Z.ltb_spec i 0); [lia|]. apply set_some. lia. Qed.
Lemma store_none b i v : Z.of_nat (length b) <= i -> store b i v = None.
Proof. intros H. unfold store. destruct (Z.ltb_spec i 0); [easy|]. apply set_none. lia. Qed.
Lemma store_length b i v b' : store b i v = Some b' -> length b' = length b.
Proof.
  intros E. destruct (Z.lt_ge_cases i 0); [unfold store in E; destruct (Z.ltb_spec i 0); [easy|lia]|].
  destruct (Z.lt_ge_cases i (Z.of_nat (length b))).
  - destruct (store_some b i v) as (b2 & E2 & L); [lia|]. congruence.
  - now rewrite store_none in E.
Qed.

(** ** encoding *)
Lemma lor_shl v x r : 0 <= r -> 0 <= x < 2^r -> Z.lor (Z.shiftl v r) x = v * 2^r + x.
Proof. intros Hr H. rewrite Z.shiftl_mul_pow2 by lia. now apply lor_low. Qed.
Lemma land63 x : Z.land x 63 = x mod 64.
Proof. change 63 with (Z.ones 6). now rewrite Z.land_ones by lia. Qed.
Lemma land255 x : Z.land x 255 = x mod 256.
Proof. change 255 with (Z.ones 8). now rewrite Z.land_ones by lia. Qed.

Definition enc_len (n : nat) : nat := (4 * ((n + 2) / 3))%nat.
Lemma encoded_size_ok n : encoded_size (Z.of_nat n) = Z.of_nat (enc_len n).
Proof.
  unfold encoded_size, enc_len. rewrite Nat2Z.inj_mul, Nat2Z.inj_div, Nat2Z.inj_add. change (Z.of_nat 4) with 4. change (Z.of_nat 2) with 2. change (Z.of_nat 3) with 3.
  rewrite Z.rem_mod_nonneg by lia. destruct (Z.eqb_spec (Z.of_nat n mod 3) 0); rewrite Z.quot_div_nonneg by (Z.div_mod_to_equations; lia);
    Z.div_mod_to_equations; lia.
Qed.
Lemma rfc_ind : forall (P : list Z -> Prop), P [] -> (forall a, P [a]) -> (forall a b, P [a; b]) ->
  (forall a b c r, P r -> P (a :: b :: c :: r)) -> forall m, P m.
Proof.
  intros P H0 H1 H2 H3 m. remember (length m) as n eqn:L. revert m L.
  induction n as [n IH] using (well_founded_induction lt_wf). intros [|a [|b [|c r]]] L; try easy.
  apply H3. apply (IH (length r)); [cbn [length] in L; lia|easy].
Qed.
Lemma rfc_length : forall m, length (rfc_encode m) = enc_len (length m).
Proof.
  apply rfc_ind; try easy. intros a b c r IH. cbn [rfc_encode length]. rewrite IH. unfold enc_len.
  replace (S (S (S (length r))) + 2)%nat with (length r + 2 + 1 * 3)%nat by lia. rewrite Nat.div_add by lia. lia.
Qed.

Lemma encode_loop_ok : forall m pre done rest fuel, bytes m -> length rest = length (rfc_encode m) ->
  (length m < fuel)%nat ->
  forall tl, encode_loop fuel (pre ++ m) (Z.of_nat (length (pre ++ m))) (Z.of_nat (length pre)) (Z.of_nat (length done)) (done ++ rest ++ tl)
    = Some (done ++ map Some (rfc_encode m) ++ tl).
Proof.
  assert (G : forall pre suf, get (pre ++ suf) (Z.of_nat (length pre)) = nth_error suf 0).
  { intros pre suf. pose proof (get_app pre suf 0) as H. now rewrite Z.add_0_r in H. }
  refine (rfc_ind _ _ _ _ _).
  - intros pre done rest fuel _ L Hf tl. destruct rest; [|easy]. destruct fuel; [cbn in Hf; lia|]. cbn [encode_loop]. rewrite app_nil_r.
    destruct (Z.ltb_spec (Z.of_nat (length pre)) (Z.of_nat (length pre))); [lia|easy].
  - intros a pre done rest fuel B L Hf tl. inversion B as [|? ? Ba _]; subst. unfold byte in Ba. cbn [rfc_encode length] in L.
    destruct rest as [|r0 [|r1 [|r2 [|r3 [|? ?]]]]]; cbn [length] in L; try lia.
    destruct fuel as [|[|fuel]]; cbn [length] in Hf; try lia. cbn [encode_loop]. rewrite app_length. cbn [length].
    destruct (Z.ltb_spec (Z.of_nat (length pre)) (Z.of_nat (length pre + 1))); [|lia].
    unfold encode_step. rewrite G. cbn [nth_error obind].
    destruct (Z.ltb_spec (Z.of_nat (length pre) + 1) (Z.of_nat (length pre + 1))); [lia|].
    destruct (Z.ltb_spec (Z.of_nat (length pre) + 2) (Z.of_nat (length pre + 1))); [lia|]. cbn [obind].
    rewrite !Z.shiftl_mul_pow2, !Z.shiftr_div_pow2, !land63 by lia.
    replace (a * 2^8 * 2^8 / 2^18 mod 64) with (a / 4) by (Z.div_mod_to_equations; lia).
    replace (a * 2^8 * 2^8 / 2^12 mod 64) with (a mod 4 * 16) by (Z.div_mod_to_equations; lia).
    rewrite (chars_ok (a / 4)) by (Z.div_mod_to_equations; lia). cbn [obind app]. rewrite store_app. cbn [obind].
    rewrite (chars_ok (a mod 4 * 16)) by (Z.div_mod_to_equations; lia). cbn [obind].
    rewrite (store_at done [Some (digit (a / 4))] r1 (r2 :: r3 :: tl)) by easy. cbn [obind].
    rewrite (store_at done [Some (digit (a / 4)); Some (digit (a mod 4 * 16))] r2 (r3 :: tl)) by easy. cbn [obind].
    rewrite (store_at done [Some (digit (a / 4)); Some (digit (a mod 4 * 16)); Some 61] r3 tl) by easy. cbn [obind].
    destruct (Z.ltb_spec (Z.of_nat (length pre) + 3) (Z.of_nat (length pre + 1))); [lia|]. easy.
  - intros a b pre done rest fuel B L Hf tl. inversion B as [|? ? Ba B']; subst. inversion B' as [|? ? Bb _]; subst. unfold byte in *. cbn [rfc_encode length] in L.
    destruct rest as [|r0 [|r1 [|r2 [|r3 [|? ?]]]]]; cbn [length] in L; try lia.
    destruct fuel as [|[|fuel]]; cbn [length] in Hf; try lia. cbn [encode_loop]. rewrite app_length. cbn [length].
    destruct (Z.ltb_spec (Z.of_nat (length pre)) (Z.of_nat (length pre + 2))); [|lia].
    unfold encode_step. rewrite G. cbn [nth_error obind].
    destruct (Z.ltb_spec (Z.of_nat (length pre) + 1) (Z.of_nat (length pre + 2))); [|lia].
    destruct (Z.ltb_spec (Z.of_nat (length pre) + 2) (Z.of_nat (length pre + 2))); [lia|].
    rewrite get1. cbn [nth_error obind]. rewrite lor_shl by lia.
    rewrite !Z.shiftl_mul_pow2, !Z.shiftr_div_pow2, !land63 by lia.
    replace ((a * 2^8 + b) * 2^8 / 2^18 mod 64) with (a / 4) by (Z.div_mod_to_equations; lia).
    replace ((a * 2^8 + b) * 2^8 / 2^12 mod 64) with (a mod 4 * 16 + b / 16) by (Z.div_mod_to_equations; lia).
    replace ((a * 2^8 + b) * 2^8 / 2^6 mod 64) with (b mod 16 * 4) by (Z.div_mod_to_equations; lia).
    rewrite (chars_ok (a / 4)) by (Z.div_mod_to_equations; lia). cbn [obind app]. rewrite store_app. cbn [obind].
    rewrite (chars_ok (a mod 4 * 16 + b / 16)) by (Z.div_mod_to_equations; lia). cbn [obind].
    rewrite (store_at done [Some (digit (a / 4))] r1 (r2 :: r3 :: tl)) by easy. cbn [obind].
    rewrite (chars_ok (b mod 16 * 4)) by (Z.div_mod_to_equations; lia). cbn [obind].
    rewrite (store_at done [Some (digit (a / 4)); Some (digit (a mod 4 * 16 + b / 16))] r2 (r3 :: tl)) by easy. cbn [obind].
    rewrite (store_at done [Some (digit (a / 4)); Some (digit (a mod 4 * 16 + b / 16)); Some (digit (b mod 16 * 4))] r3 tl) by easy. cbn [obind].
    destruct (Z.ltb_spec (Z.of_nat (length pre) + 3) (Z.of_nat (length pre + 2))); [lia|]. easy.
  - intros a b c r IH pre done rest fuel B L Hf tl. inversion B as [|? ? Ba B']; subst. inversion B' as [|? ? Bb B'']; subst. inversion B'' as [|? ? Bc Br]; subst.
    unfold byte in *. cbn [rfc_encode length] in L.
    destruct rest as [|r0 [|r1 [|r2 [|r3 rest]]]]; cbn [length] in L; try lia.
    destruct fuel as [|fuel]; cbn [length] in Hf; try lia. cbn [encode_loop].
    assert (E : pre ++ a :: b :: c :: r = (pre ++ [a; b; c]) ++ r) by now rewrite <- app_assoc.
    set (n := Z.of_nat (length (pre ++ a :: b :: c :: r))). assert (Hn : Z.of_nat (length pre) + 3 <= n) by (unfold n; rewrite app_length; cbn [length]; lia).
    destruct (Z.ltb_spec (Z.of_nat (length pre)) n); [|lia].
    unfold encode_step. rewrite G. cbn [nth_error obind].
    destruct (Z.ltb_spec (Z.of_nat (length pre) + 1) n); [|lia].
    destruct (Z.ltb_spec (Z.of_nat (length pre) + 2) n); [|lia].
    rewrite get1, get2. cbn [nth_error obind]. rewrite !lor_shl by lia.
    rewrite !Z.shiftr_div_pow2, !land63 by lia.
    replace (((a * 2^8 + b) * 2^8 + c) / 2^18 mod 64) with (a / 4) by (Z.div_mod_to_equations; lia).
    replace (((a * 2^8 + b) * 2^8 + c) / 2^12 mod 64) with (a mod 4 * 16 + b / 16) by (Z.div_mod_to_equations; lia).
    replace (((a * 2^8 + b) * 2^8 + c) / 2^6 mod 64) with (b mod 16 * 4 + c / 64) by (Z.div_mod_to_equations; lia).
    replace (((a * 2^8 + b) * 2^8 + c) mod 64) with (c mod 64) by (Z.div_mod_to_equations; lia).
    rewrite (chars_ok (a / 4)) by (Z.div_mod_to_equations; lia). cbn [obind app]. rewrite store_app. cbn [obind].
    rewrite (chars_ok (a mod 4 * 16 + b / 16)) by (Z.div_mod_to_equations; lia). cbn [obind].
    rewrite (store_at done [Some (digit (a / 4))] r1 (r2 :: r3 :: rest ++ tl)) by easy. cbn [obind].
    rewrite (chars_ok (b mod 16 * 4 + c / 64)) by (Z.div_mod_to_equations; lia). cbn [obind].
    rewrite (store_at done [Some (digit (a / 4)); Some (digit (a mod 4 * 16 + b / 16))] r2 (r3 :: rest ++ tl)) by easy. cbn [obind].
    rewrite (chars_ok (c mod 64)) by (Z.div_mod_to_equations; lia). cbn [obind].
    rewrite (store_at done [Some (digit (a / 4)); Some (digit (a mod 4 * 16 + b / 16)); Some (digit (b mod 16 * 4 + c / 64))] r3 (rest ++ tl)) by easy. cbn [obind].
    set (g := [Some (digit (a / 4)); Some (digit (a mod 4 * 16 + b / 16)); Some (digit (b mod 16 * 4 + c / 64))] ++ [Some (digit (c mod 64))]).
    specialize (IH (pre ++ [a; b; c]) (done ++ g) rest fuel Br ltac:(lia) ltac:(lia) tl). rewrite <- E in IH. fold n in IH.
    replace (Z.of_nat (length (pre ++ [a; b; c]))) with (Z.of_nat (length pre) + 3) in IH by (rewrite app_length; cbn [length]; lia).
    replace (Z.of_nat (length (done ++ g))) with (Z.of_nat (length done) + 4) in IH by (rewrite app_length; change (length g) with 4%nat; lia).
    rewrite <- !app_assoc in IH. exact IH.
Qed.
Lemma set_last (b : cells) : set_cell (b ++ [None]) (length b) 0 = Some (b ++ [Some 0]).
Proof. apply set_app. Qed.
Lemma encode_ok m : bytes m -> m <> [] -> base64_encode m = Some (Some (map Some (rfc_encode m) ++ [Some 0])).
Proof.
  intros B H. unfold base64_encode. destruct (Z.eqb_spec (Z.of_nat (length m)) 0) as [Z0|_]; [destruct m; [easy|cbn in *; lia]|].
  rewrite encoded_size_ok. set (n := enc_len (length m)). unfold alloc. destruct (Z.ltb_spec (Z.of_nat n + 1) 0); [lia|].
  cbn [obind]. replace (Z.to_nat (Z.of_nat n + 1)) with (n + 1)%nat by lia. rewrite repeat_app. cbn [repeat].
  replace (Z.of_nat n) with (Z.of_nat (length (@repeat (option Z) None n))) by now rewrite repeat_length.
  rewrite store_app. cbn [obind].
  pose proof (encode_loop_ok m [] [] (repeat None n) (S (length m)) B) as E. cbn [app length] in E. change (Z.of_nat 0) with 0 in E.
  rewrite (E ltac:(rewrite repeat_length, rfc_length; easy) ltac:(lia) [Some 0]). easy.
Qed.

(** ** decoding *)
Lemma strlen_ok t tl : Forall (fun c => c <> 0) t -> strlen (t ++ 0 :: tl) = Some (length t).
Proof.
  induction t as [|c t IH]; intros F; [easy|]. inversion F; subst. cbn [app strlen length]. destruct (Z.eqb_spec c 0); [easy|]. now rewrite IH.
Qed.
Lemma leading_app u v : (exists c, In c u /\ c <> 61) -> leading_pads (u ++ v) = leading_pads u.
Proof.
  induction u as [|x u IH]; intros (c & I & N); [easy|]. cbn [app leading_pads]. unfold pad_char. destruct (Z.eqb_spec x 61) as [->|]; [|easy].
  f_equal. apply IH. exists c. destruct I as [<-|I]; easy.
Qed.
Lemma trail_ok t : forall tl ret, trail (t ++ tl) (length t) ret = Some (ret - Z.of_nat (padding t)).
Proof.
  induction t as [|c t IH] using rev_ind; intros tl ret; [cbn; f_equal; lia|].
  rewrite app_length. cbn [length]. rewrite Nat.add_1_r. cbn [trail].
  rewrite <- app_assoc. rewrite nth_error_app2, Nat.sub_diag by lia. cbn [app nth_error obind].
  unfold padding. rewrite rev_app_distr. cbn [rev app leading_pads]. unfold pad_char. fold (padding t).
  destruct (c =? 61); [rewrite IH; f_equal; lia|f_equal; lia].
Qed.
Lemma check_ok t tl : Forall alphabet t -> check_loop (t ++ tl) (length t) = Some true.
Proof.
  induction 1 as [|c t Hc Ht IH]; [easy|]. cbn [app length check_loop].
  assert (byte c) by (destruct Hc as [(d & Hd & ->)| ->]; [pose proof (digit_range d Hd); unfold byte; lia|unfold byte, pad_char; lia]).
  apply valid_iff in Hc; [|assumption]. rewrite Hc. exact IH.
Qed.
Lemma alphabet_digit d : 0 <= d < 64 -> alphabet (digit d).
Proof. intros H. left. eauto. Qed.
Lemma rfc_alphabet : forall m, bytes m -> Forall alphabet (rfc_encode m).
Proof.
  refine (rfc_ind _ _ _ _ _).
  - constructor.
  - intros a B. inversion B as [|? ? Ba _]; subst. unfold byte in *.
    repeat (constructor; [first [now right|apply alphabet_digit; Z.div_mod_to_equations; lia]|]). constructor.
  - intros a b B. inversion B as [|? ? Ba B']; subst. inversion B' as [|? ? Bb _]; subst. unfold byte in *.
    repeat (constructor; [first [now right|apply alphabet_digit; Z.div_mod_to_equations; lia]|]). constructor.
  - intros a b c r IH B. inversion B as [|? ? Ba B']; subst. inversion B' as [|? ? Bb B'']; subst. inversion B'' as [|? ? Bc Br]; subst. unfold byte in *.
    cbn [rfc_encode]. repeat (constructor; [first [now right|apply alphabet_digit; Z.div_mod_to_equations; lia]|]). now apply IH.
Qed.
Lemma rfc_padding : forall m, bytes m -> Z.of_nat (length (rfc_encode m)) / 4 * 3 - Z.of_nat (padding (rfc_encode m)) = Z.of_nat (length m).
Proof.
  assert (D : forall d, 0 <= d < 64 -> (digit d =? 61) = false) by (intros d H; apply Z.eqb_neq; now apply dec_ok).
  refine (rfc_ind _ _ _ _ _).
  - easy.
  - intros a B. inversion B as [|? ? Ba _]; subst. unfold byte in *. unfold padding. cbn [rfc_encode rev app leading_pads length].
    change (pad_char =? pad_char) with true. cbn match. unfold pad_char. rewrite D by (Z.div_mod_to_equations; lia). reflexivity.
  - intros a b B. inversion B as [|? ? Ba B']; subst. inversion B' as [|? ? Bb _]; subst. unfold byte in *. unfold padding. cbn [rfc_encode rev app leading_pads length].
    change (pad_char =? pad_char) with true. cbn match. unfold pad_char. rewrite D by (Z.div_mod_to_equations; lia). reflexivity.
  - intros a b c r IH B. inversion B as [|? ? Ba B']; subst. inversion B' as [|? ? Bb B'']; subst. inversion B'' as [|? ? Bc Br]; subst.
    specialize (IH Br). unfold byte in *. cbn [rfc_encode length]. rewrite !Nat2Z.inj_succ.
    assert (P : padding (digit (a / 4) :: digit (a mod 4 * 16 + b / 16) :: digit (b mod 16 * 4 + c / 64) :: digit (c mod 64) :: rfc_encode r) = padding (rfc_encode r)).
    { destruct r as [|x r].
      - unfold padding. cbn [rfc_encode rev app leading_pads]. unfold pad_char. now rewrite D by (Z.div_mod_to_equations; lia).
      - unfold padding. cbn [rev]. rewrite <- !app_assoc. apply leading_app.
        inversion Br as [|? ? Bx _]; subst. unfold byte in *.
        exists (digit (x / 4)). split; [apply in_rev; rewrite rev_involutive; destruct r as [|y [|z r]]; now left|apply dec_ok; Z.div_mod_to_equations; lia]. }
    rewrite P. Z.div_mod_to_equations; lia.
Qed.

Lemma decode_loop_ok : forall m pre done rest fuel tl, bytes m -> length rest = length m -> (length m < fuel)%nat ->
  decode_loop fuel (pre ++ rfc_encode m ++ [0]) (Z.of_nat (length (pre ++ rfc_encode m))) (Z.of_nat (length pre)) (Z.of_nat (length done)) (done ++ rest ++ tl)
    = Some (done ++ map Some m ++ tl).
Proof.
  refine (rfc_ind _ _ _ _ _).
  - intros pre done rest fuel tl _ L Hf. destruct rest; [|easy]. destruct fuel; [cbn in Hf; lia|]. cbn [decode_loop rfc_encode]. rewrite app_nil_r.
    destruct (Z.ltb_spec (Z.of_nat (length pre)) (Z.of_nat (length pre))); [lia|easy].
  - intros a pre done rest fuel tl B L Hf. inversion B as [|? ? Ba _]; subst. unfold byte in Ba.
    destruct rest as [|r0 [|? ?]]; cbn [length] in L; try lia.
    destruct fuel as [|[|fuel]]; cbn [length] in Hf; try lia. cbn [decode_loop rfc_encode]. rewrite app_length. cbn [length].
    destruct (Z.ltb_spec (Z.of_nat (length pre)) (Z.of_nat (length pre + 4))); [|lia].
    set (d0 := a / 4). set (d1 := a mod 4 * 16).
    assert (H0 : 0 <= d0 < 64) by (unfold d0; Z.div_mod_to_equations; lia). assert (H1 : 0 <= d1 < 64) by (unfold d1; Z.div_mod_to_equations; lia).
    unfold decode_step. rewrite get0, get1, get2, get3. cbn [app nth_error obind].
    rewrite (proj1 (dec_ok d0 H0)), (proj1 (dec_ok d1 H1)). cbn [obind]. rewrite lor_shl by lia. change (pad_char =? 61) with true. cbn [obind].
    rewrite !Z.shiftl_mul_pow2, !Z.shiftr_div_pow2, !land255 by lia.
    replace ((d0 * 2^6 + d1) * 2^6 * 2^6 / 2^16 mod 256) with a by (unfold d0, d1; Z.div_mod_to_equations; lia).
    rewrite store_app. cbn [obind].
    destruct (Z.ltb_spec (Z.of_nat (length pre) + 4) (Z.of_nat (length pre + 4))); [lia|]. easy.
  - intros a b pre done rest fuel tl B L Hf. inversion B as [|? ? Ba B']; subst. inversion B' as [|? ? Bb _]; subst. unfold byte in *.
    destruct rest as [|r0 [|r1 [|? ?]]]; cbn [length] in L; try lia.
    destruct fuel as [|[|fuel]]; cbn [length] in Hf; try lia. cbn [decode_loop rfc_encode]. rewrite app_length. cbn [length].
    destruct (Z.ltb_spec (Z.of_nat (length pre)) (Z.of_nat (length pre + 4))); [|lia].
    set (d0 := a / 4). set (d1 := a mod 4 * 16 + b / 16). set (d2 := b mod 16 * 4).
    assert (H0 : 0 <= d0 < 64) by (unfold d0; Z.div_mod_to_equations; lia). assert (H1 : 0 <= d1 < 64) by (unfold d1; Z.div_mod_to_equations; lia).
    assert (H2 : 0 <= d2 < 64) by (unfold d2; Z.div_mod_to_equations; lia).
    unfold decode_step. rewrite get0, get1, get2, get3. cbn [app nth_error obind].
    rewrite (proj1 (dec_ok d0 H0)), (proj1 (dec_ok d1 H1)). cbn [obind]. rewrite lor_shl by lia. change (pad_char =? 61) with true.
    destruct (Z.eqb_spec (digit d2) 61) as [E|_]; [now apply dec_ok in E|].
    rewrite (proj1 (dec_ok d2 H2)). cbn [obind]. rewrite lor_shl by lia.
    rewrite !Z.shiftl_mul_pow2, !Z.shiftr_div_pow2, !land255 by lia.
    replace (((d0 * 2^6 + d1) * 2^6 + d2) * 2^6 / 2^16 mod 256) with a by (unfold d0, d1, d2; Z.div_mod_to_equations; lia).
    replace (((d0 * 2^6 + d1) * 2^6 + d2) * 2^6 / 2^8 mod 256) with b by (unfold d0, d1, d2; Z.div_mod_to_equations; lia).
    rewrite store_app. cbn [obind]. rewrite (store_at done [Some a] r1 tl) by easy. cbn [obind].
    destruct (Z.ltb_spec (Z.of_nat (length pre) + 4) (Z.of_nat (length pre + 4))); [lia|]. easy.
  - intros a b c r IH pre done rest fuel tl B L Hf. inversion B as [|? ? Ba B']; subst. inversion B' as [|? ? Bb B'']; subst. inversion B'' as [|? ? Bc Br]; subst.
    unfold byte in *.
    destruct rest as [|r0 [|r1 [|r2 rest]]]; cbn [length] in L; try lia.
    destruct fuel as [|fuel]; cbn [length] in Hf; try lia. cbn [decode_loop rfc_encode].
    set (d0 := a / 4). set (d1 := a mod 4 * 16 + b / 16). set (d2 := b mod 16 * 4 + c / 64). set (d3 := c mod 64).
    assert (H0 : 0 <= d0 < 64) by (unfold d0; Z.div_mod_to_equations; lia). assert (H1 : 0 <= d1 < 64) by (unfold d1; Z.div_mod_to_equations; lia).
    assert (H2 : 0 <= d2 < 64) by (unfold d2; Z.div_mod_to_equations; lia). assert (H3 : 0 <= d3 < 64) by (unfold d3; Z.div_mod_to_equations; lia).
    set (n := Z.of_nat (length (pre ++ digit d0 :: digit d1 :: digit d2 :: digit d3 :: rfc_encode r))).
    assert (Hn : Z.of_nat (length pre) < n) by (unfold n; rewrite app_length; cbn [length]; lia).
    destruct (Z.ltb_spec (Z.of_nat (length pre)) n); [|lia].
    unfold decode_step. rewrite get0, get1, get2, get3. cbn [app nth_error obind].
    rewrite (proj1 (dec_ok d0 H0)), (proj1 (dec_ok d1 H1)). cbn [obind]. rewrite lor_shl by lia.
    destruct (Z.eqb_spec (digit d2) 61) as [E|_]; [now apply dec_ok in E|].
    rewrite (proj1 (dec_ok d2 H2)). cbn [obind]. rewrite lor_shl by lia.
    destruct (Z.eqb_spec (digit d3) 61) as [E|_]; [now apply dec_ok in E|].
    rewrite (proj1 (dec_ok d3 H3)). cbn [obind]. rewrite lor_shl by lia.
    rewrite !Z.shiftr_div_pow2, !land255 by lia.
    replace ((((d0 * 2^6 + d1) * 2^6 + d2) * 2^6 + d3) / 2^16 mod 256) with a by (unfold d0, d1, d2, d3; Z.div_mod_to_equations; lia).
    replace ((((d0 * 2^6 + d1) * 2^6 + d2) * 2^6 + d3) / 2^8 mod 256) with b by (unfold d0, d1, d2, d3; Z.div_mod_to_equations; lia).
    replace ((((d0 * 2^6 + d1) * 2^6 + d2) * 2^6 + d3) mod 256) with c by (unfold d0, d1, d2, d3; Z.div_mod_to_equations; lia).
    rewrite store_app. cbn [obind]. rewrite (store_at done [Some a] r1 (r2 :: rest ++ tl)) by easy. cbn [obind].
    rewrite (store_at done [Some a; Some b] r2 (rest ++ tl)) by easy. cbn [obind].
    set (g := [digit d0; digit d1; digit d2; digit d3]).
    specialize (IH (pre ++ g) (done ++ [Some a; Some b; Some c]) rest fuel tl Br ltac:(lia) ltac:(lia)).
    rewrite <- !app_assoc in IH. cbn [app g] in IH. unfold g in IH. cbn [app] in IH. fold n in IH.
    replace (Z.of_nat (length (pre ++ [digit d0; digit d1; digit d2; digit d3]))) with (Z.of_nat (length pre) + 4) in IH by (rewrite app_length; cbn [length]; lia).
    replace (Z.of_nat (length (done ++ [Some a; Some b; Some c]))) with (Z.of_nat (length done) + 3) in IH by (rewrite app_length; cbn [length]; lia).
    exact IH.
Qed.
Lemma nonzero_alphabet t : Forall alphabet t -> Forall (fun c => c <> 0) t.
Proof. apply Forall_impl. intros c. apply alphabet_nonzero. Qed.
Lemma decode_ok m : bytes m -> base64_decode (rfc_encode m ++ [0]) (Z.of_nat (length (rfc_encode m))) = Some (Some (map Some m ++ [Some 0])).
Proof.
  intros B. unfold base64_decode, decoded_size. pose proof (rfc_alphabet m B) as A.
  rewrite strlen_ok by now apply nonzero_alphabet. cbn [obind]. rewrite trail_ok. cbn [obind].
  rewrite Z.quot_div_nonneg by lia. rewrite rfc_padding by easy. unfold alloc. destruct (Z.ltb_spec (Z.of_nat (length m) + 1) 0); [lia|]. cbn [obind].
  replace (Z.to_nat (Z.of_nat (length m) + 1)) with (length m + 1)%nat by lia. rewrite repeat_app. cbn [repeat].
  replace (Z.of_nat (length m)) with (Z.of_nat (length (@repeat (option Z) None (length m)))) by now rewrite repeat_length.
  rewrite store_app. cbn [obind]. rewrite Nat2Z.id, check_ok by easy. cbn [obind].
  pose proof (decode_loop_ok m [] [] (repeat None (length m)) (S (length (rfc_encode m))) [Some 0] B) as E. cbn [app length] in E. change (Z.of_nat 0) with 0 in E.
  rewrite E; [easy|apply repeat_length|]. rewrite rfc_length. unfold enc_len.
  assert (length m <= 4 * ((length m + 2) / 3))%nat; [|lia].
  pose proof (Nat.div_mod (length m + 2) 3 ltac:(lia)). pose proof (Nat.mod_upper_bound (length m + 2) 3 ltac:(lia)). lia.
Qed.

(** ** decoding of arbitrary text *)
Lemma step_length s i j b b' : decode_step s i j b = Some b' -> length b' = length b.
Proof.
  unfold decode_step. intros E.
  destruct (get s i) as [c0|]; cbn [obind] in E; [|easy]. destruct (get b64_dec_table (c0 - 43)); cbn [obind] in E; [|easy].
  destruct (get s (i + 1)) as [c1|]; cbn [obind] in E; [|easy]. destruct (get b64_dec_table (c1 - 43)); cbn [obind] in E; [|easy].
  destruct (get s (i + 2)) as [c2|]; cbn [obind] in E; [|easy].
  destruct (if c2 =? 61 then _ else _); cbn [obind] in E; [|easy].
  destruct (get s (i + 3)) as [c3|]; cbn [obind] in E; [|easy].
  destruct (if c3 =? 61 then _ else _); cbn [obind] in E; [|easy].
  destruct (store b j _) as [b1|] eqn:E1; cbn [obind] in E; [|easy].
  destruct (if c2 =? 61 then Some b1 else _) as [b2|] eqn:E2; cbn [obind] in E; [|easy].
  apply store_length in E1. assert (length b2 = length b1) by (destruct (c2 =? 61); [congruence|now apply store_length in E2]).
  destruct (c3 =? 61); [assert (b' = b2) by congruence; subst; lia|]. apply store_length in E. lia.
Qed.
Lemma step_beyond s i j b : Z.of_nat (length b) <= j -> decode_step s i j b = None.
Proof.
  intros H. unfold decode_step.
  destruct (get s i) as [c0|]; cbn [obind]; [|easy]. destruct (get b64_dec_table (c0 - 43)); cbn [obind]; [|easy].
  destruct (get s (i + 1)) as [c1|]; cbn [obind]; [|easy]. destruct (get b64_dec_table (c1 - 43)); cbn [obind]; [|easy].
  destruct (get s (i + 2)) as [c2|]; cbn [obind]; [|easy].
  destruct (if c2 =? 61 then _ else _); cbn [obind]; [|easy].
  destruct (get s (i + 3)) as [c3|]; cbn [obind]; [|easy].
  destruct (if c3 =? 61 then _ else _); cbn [obind]; [|easy]. now rewrite store_none.
Qed.
Lemma step_safe pre c0 c1 c2 c3 suf j b : alphabet c0 -> alphabet c1 -> alphabet c2 -> alphabet c3 ->
  0 <= j < Z.of_nat (length b) -> (c2 <> 61 -> j + 1 < Z.of_nat (length b)) -> (c3 <> 61 -> j + 2 < Z.of_nat (length b)) ->
  exists b', decode_step (pre ++ c0 :: c1 :: c2 :: c3 :: suf) (Z.of_nat (length pre)) j b = Some b' /\ length b' = length b.
Proof.
  intros A0 A1 A2 A3 Hj H1 H2. unfold decode_step. rewrite get0, get1, get2, get3. cbn [nth_error obind].
  destruct (alphabet_dec c0 A0) as (x0 & ->). destruct (alphabet_dec c1 A1) as (x1 & ->). cbn [obind].
  destruct (alphabet_dec c2 A2) as (x2 & ->). destruct (alphabet_dec c3 A3) as (x3 & ->).
  destruct (Z.eqb_spec c2 61), (Z.eqb_spec c3 61); cbn [obind];
    match goal with |- context [store b j ?v] => destruct (store_some b j v Hj) as (b1 & -> & L1) end; cbn [obind].
  - eauto.
  - match goal with |- context [store b1 ?k ?v] => destruct (store_some b1 k v) as (b2 & -> & L2) end; [specialize (H2 n); lia|]. exists b2. split; [easy|lia].
  - match goal with |- context [store b1 ?k ?v] => destruct (store_some b1 k v) as (b2 & -> & L2) end; [specialize (H1 n); lia|]. exists b2. split; [easy|lia].
  - match goal with |- context [store b1 ?k ?v] => destruct (store_some b1 k v) as (b2 & -> & L2) end; [specialize (H1 n); lia|]. cbn [obind].
    match goal with |- context [store b2 ?k ?v] => destruct (store_some b2 k v) as (b3 & -> & L3) end; [specialize (H2 n0); lia|]. exists b3. split; [easy|lia].
Qed.
Lemma loop_safe t : Forall alphabet t -> (padding t <= 3)%nat -> forall n suf pre g fuel b, t = pre ++ suf -> length suf = (4 * n)%nat -> length pre = (4 * g)%nat ->
  Z.of_nat (length b) = 3 * Z.of_nat (g + n) - Z.of_nat (padding t) + 1 -> (n < fuel)%nat ->
  exists b', decode_loop fuel (t ++ [0]) (Z.of_nat (length t)) (Z.of_nat (length pre)) (3 * Z.of_nat g) b = Some b' /\ length b' = length b.
Proof.
  intros A P. induction n as [|n IH]; intros suf pre g fuel b E Ls Lp Lb Hf.
  - destruct suf; [|cbn in Ls; lia]. rewrite app_nil_r in E. subst pre. destruct fuel; [lia|]. cbn [decode_loop].
    destruct (Z.ltb_spec (Z.of_nat (length t)) (Z.of_nat (length t))); [lia|]. eauto.
  - destruct suf as [|c0 [|c1 [|c2 [|c3 suf]]]]; cbn [length] in Ls; try lia. destruct fuel as [|fuel]; [lia|]. cbn [decode_loop].
    assert (Lt : length t = (length pre + 4 + length suf)%nat) by (rewrite E, app_length; cbn [length]; lia).
    destruct (Z.ltb_spec (Z.of_nat (length pre)) (Z.of_nat (length t))); [|lia].
    assert (A' : Forall alphabet (c0 :: c1 :: c2 :: c3 :: suf)) by (rewrite E in A; now apply Forall_app in A).
    inversion A' as [|? ? A0 A'']; subst. inversion A'' as [|? ? A1 A3]; subst. inversion A3 as [|? ? A2 A4]; subst. inversion A4 as [|? ? A3' _]; subst.
    set (t := pre ++ c0 :: c1 :: c2 :: c3 :: suf) in *.
    assert (Last : n = 0%nat -> (c3 <> 61 -> padding t = 0%nat) /\ (c2 <> 61 -> (padding t <= 1)%nat)).
    { intros ->. destruct suf; [|cbn in Ls; lia]. unfold t, padding. rewrite rev_app_distr. cbn [rev app leading_pads]. unfold pad_char.
      destruct (Z.eqb_spec c3 61), (Z.eqb_spec c2 61); split; intros; try easy; lia. }
    destruct (step_safe pre c0 c1 c2 c3 (suf ++ [0]) (3 * Z.of_nat g) b) as (b1 & X & L1); try easy.
    { lia. }
    { intros Hc. destruct n; [apply Last in Hc; [lia|easy]|lia]. }
    { intros Hc. destruct n; [apply Last in Hc; [lia|easy]|lia]. }
    replace (pre ++ c0 :: c1 :: c2 :: c3 :: suf ++ [0]) with (t ++ [0]) in X by (unfold t; now rewrite <- app_assoc).
    rewrite X. cbn [obind].
    destruct (IH suf (pre ++ [c0; c1; c2; c3]) (S g) fuel b1) as (b2 & Y & L2); try lia.
    { unfold t. now rewrite <- app_assoc. }
    { rewrite app_length. cbn [length]. lia. }
    exists b2. split; [|lia]. rewrite <- Y. f_equal; [rewrite app_length; cbn [length]|]; lia.
Qed.
Lemma loop_none s len : forall n g fuel b, (0 < n)%nat -> 4 * Z.of_nat (g + n - 1) < len -> Z.of_nat (length b) <= 3 * Z.of_nat (g + n - 1) ->
  decode_loop fuel s len (4 * Z.of_nat g) (3 * Z.of_nat g) b = None.
Proof.
  induction n as [|n IH]; intros g fuel b Hn Hl Hb; [lia|]. destruct fuel as [|fuel]; [easy|]. cbn [decode_loop].
  destruct (Z.ltb_spec (4 * Z.of_nat g) len); [|lia].
  destruct (Nat.eq_dec n 0) as [->|].
  - rewrite step_beyond by lia. easy.
  - destruct (decode_step s (4 * Z.of_nat g) (3 * Z.of_nat g) b) as [b1|] eqn:E; [|easy]. cbn [obind]. apply step_length in E.
    replace (4 * Z.of_nat g + 4) with (4 * Z.of_nat (S g)) by lia. replace (3 * Z.of_nat g + 3) with (3 * Z.of_nat (S g)) by lia.
    apply IH; lia.
Qed.
(** a final group of one to three characters runs into the terminator *)
Lemma step_short pre u i j b : length u = i -> (0 < i < 4)%nat -> decode_step (pre ++ u ++ [0]) (Z.of_nat (length pre)) j b = None.
Proof.
  intros L H. unfold decode_step. rewrite get0, get1, get2, get3.
  assert (N : get b64_dec_table (0 - 43) = None) by reflexivity.
  destruct u as [|c0 [|c1 [|c2 [|? ?]]]]; cbn [length] in L; try lia; cbn [app nth_error obind].
  - destruct (get b64_dec_table (c0 - 43)); [|easy]. cbn [obind]. now rewrite N.
  - destruct (get b64_dec_table (c0 - 43)); [|easy]. cbn [obind]. destruct (get b64_dec_table (c1 - 43)); [|easy]. cbn [obind].
    change (0 =? 61) with false. cbn match. now rewrite N.
  - destruct (get b64_dec_table (c0 - 43)); [|easy]. cbn [obind]. destruct (get b64_dec_table (c1 - 43)); [|easy]. cbn [obind].
    destruct (if c2 =? 61 then _ else _); [|easy]. cbn [obind]. change (0 =? 61) with false. cbn match. now rewrite N.
Qed.
Lemma loop_short t : forall n suf pre g fuel b, t = pre ++ suf -> (4 * n < length suf < 4 * n + 4)%nat -> length pre = (4 * g)%nat ->
  decode_loop fuel (t ++ [0]) (Z.of_nat (length t)) (Z.of_nat (length pre)) (3 * Z.of_nat g) b = None.
Proof.
  induction n as [|n IH]; intros suf pre g fuel b E Ls Lp; (destruct fuel as [|fuel]; [easy|]); cbn [decode_loop];
    assert (Lt : length t = (length pre + length suf)%nat) by (rewrite E, app_length; lia);
    (destruct (Z.ltb_spec (Z.of_nat (length pre)) (Z.of_nat (length t))); [|lia]).
  - rewrite E, <- app_assoc. rewrite (step_short pre suf (length suf)) by lia. easy.
  - destruct suf as [|c0 [|c1 [|c2 [|c3 suf]]]]; cbn [length] in Ls; try lia.
    destruct (decode_step (t ++ [0]) _ _ b) as [b1|]; [|easy]. cbn [obind].
    assert (E' : t = (pre ++ [c0; c1; c2; c3]) ++ suf) by now rewrite <- app_assoc.
    specialize (IH suf (pre ++ [c0; c1; c2; c3]) (S g) fuel b1 E' ltac:(lia) ltac:(rewrite app_length; cbn [length]; lia)).
    rewrite <- IH. f_equal; [rewrite app_length; cbn [length]|]; lia.
Qed.
Lemma padding_le t : (padding t <= length t)%nat.
Proof. unfold padding. rewrite <- rev_length. generalize (rev t) as u. induction u as [|c u IH]; [easy|]. cbn [leading_pads length]. destruct (c =? pad_char); lia. Qed.

Lemma decode_safe_iff t : Forall alphabet t -> t <> [] ->
  (exists r, base64_decode (t ++ [0]) (Z.of_nat (length t)) = Some r) <-> (Z.of_nat (length t) mod 4 = 0 /\ (padding t <= 3)%nat).
Proof.
  intros A Hne. unfold base64_decode, decoded_size. rewrite strlen_ok by now apply nonzero_alphabet. cbn [obind]. rewrite trail_ok. cbn [obind].
  rewrite Z.quot_div_nonneg by lia. rewrite Nat2Z.id.
  set (alen := Z.of_nat (length t) / 4 * 3 - Z.of_nat (padding t)).
  assert (Lt : (0 < length t)%nat) by (destruct t; [easy|cbn; lia]).
  destruct (Z.eq_dec (Z.of_nat (length t) mod 4) 0) as [M|M].
  - set (n := Z.to_nat (Z.of_nat (length t) / 4)).
    assert (Ln : length t = (4 * n)%nat) by (unfold n; Z.div_mod_to_equations; lia).
    assert (An : alen = 3 * Z.of_nat n - Z.of_nat (padding t)) by (unfold alen; rewrite Ln; clear; Z.div_mod_to_equations; lia).
    clearbody n alen.
    destruct (Nat.le_gt_cases (padding t) 3) as [P|P].
    + split; [easy|]. intros _.
      assert (0 <= alen) by lia.
      unfold alloc. destruct (Z.ltb_spec (alen + 1) 0); [lia|]. cbn [obind].
      destruct (store_some (repeat None (Z.to_nat (alen + 1))) alen 0) as (b & -> & Lb); [rewrite repeat_length; lia|]. rewrite repeat_length in Lb. cbn [obind].
      rewrite check_ok by easy. cbn [obind].
      destruct (loop_safe t A P n t [] 0 (S (length t)) b) as (b' & X & _); try easy; try lia.
      cbn [length] in X. change (Z.of_nat 0) with 0 in X. change (3 * 0) with 0 in X. rewrite X. cbn [obind]. eauto.
    + split; [|lia]. intros (r & E). exfalso. unfold alloc in E. destruct (Z.ltb_spec (alen + 1) 0); [easy|]. cbn [obind] in E.
      destruct (store _ alen 0) as [b|] eqn:Eb; [|easy]. apply store_length in Eb. rewrite repeat_length in Eb. cbn [obind] in E.
      rewrite check_ok in E by easy. cbn [obind] in E.
      rewrite (loop_none _ _ n 0 (S (length t)) b) in E; [easy|lia|lia|]. cbn [Nat.add]. lia.
  - split; [|lia]. intros (r & E). exfalso. unfold alloc in E. destruct (Z.ltb_spec (alen + 1) 0); [easy|]. cbn [obind] in E.
    destruct (store _ alen 0) as [b|] eqn:Eb; [|easy]. cbn [obind] in E. rewrite check_ok in E by easy. cbn [obind] in E.
    set (n := Z.to_nat (Z.of_nat (length t) / 4)).
    assert (4 * n < length t < 4 * n + 4)%nat by (unfold n; clear - M; Z.div_mod_to_equations; lia).
    pose proof (loop_short t n t [] 0 (S (length t)) b eq_refl ltac:(easy) eq_refl) as X. cbn [length] in X. change (Z.of_nat 0) with 0 in X.
    change (3 * 0) with 0 in X. rewrite X in E. easy.
Qed.
Lemma check_bad t tl : Forall byte t -> ~ Forall alphabet t -> check_loop (t ++ tl) (length t) = Some false.
Proof.
  induction 1 as [|c t Bc Bt IH]; intros N; [destruct N; constructor|]. cbn [app length check_loop].
  destruct (valid_char c) eqn:V; [|easy]. apply IH. intros F. apply N. constructor; [now apply valid_iff|easy].
Qed.
Lemma decode_bad t : Forall byte t -> Forall (fun c => c <> 0) t -> ~ Forall alphabet t ->
  base64_decode (t ++ [0]) (Z.of_nat (length t)) =
    if Z.of_nat (padding t) <=? 3 * (Z.of_nat (length t) / 4) then Some None else None.
Proof.
  intros B Hz N. unfold base64_decode, decoded_size. rewrite strlen_ok by easy. cbn [obind]. rewrite trail_ok. cbn [obind].
  rewrite Z.quot_div_nonneg by lia. rewrite Nat2Z.id. set (q := Z.of_nat (length t) / 4) in *.
  set (alen := q * 3 - Z.of_nat (padding t)). unfold alloc.
  destruct (Z.leb_spec (Z.of_nat (padding t)) (3 * q)).
  - destruct (Z.ltb_spec (alen + 1) 0); [lia|]. cbn [obind].
    destruct (store_some (repeat None (Z.to_nat (alen + 1))) alen 0) as (b & -> & Lb); [rewrite repeat_length; lia|]. cbn [obind].
    rewrite check_bad by easy. easy.
  - destruct (Z.ltb_spec (alen + 1) 0); [easy|]. cbn [obind]. unfold store. destruct (Z.ltb_spec alen 0); [easy|lia].
Qed.
