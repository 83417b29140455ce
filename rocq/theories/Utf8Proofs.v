From Verif Require Import Base Utf8 Utf8Spec HashProofs.

(** ** bit operations as arithmetic *)
Lemma landm x k : 0 <= k -> Z.land x (2^k - 1) = x mod 2^k.
Proof. intros H. rewrite <- Z.land_ones by easy. now rewrite Z.ones_equiv. Qed.
Lemma land3f x : Z.land x 0x3f = x mod 64. Proof. exact (landm x 6 ltac:(lia)). Qed.
Lemma land1f x : Z.land x 0x1f = x mod 32. Proof. exact (landm x 5 ltac:(lia)). Qed.
Lemma land0f x : Z.land x 0x0f = x mod 16. Proof. exact (landm x 4 ltac:(lia)). Qed.
Lemma land07 x : Z.land x 0x07 = x mod 8. Proof. exact (landm x 3 ltac:(lia)). Qed.
Lemma land3ff x : Z.land 0x3ff x = x mod 1024. Proof. rewrite Z.land_comm. exact (landm x 10 ltac:(lia)). Qed.
Lemma shr x k : 0 <= k -> Z.shiftr x k = x / 2^k. Proof. apply Z.shiftr_div_pow2. Qed.
Lemma shl x k : 0 <= k -> Z.shiftl x k = x * 2^k. Proof. apply Z.shiftl_mul_pow2. Qed.
Lemma lor_sum a b r : 0 <= r -> 0 <= b < 2^r -> a mod 2^r = 0 -> Z.lor a b = a + b.
Proof.
  intros Hr Hb Ha. assert (E : a = a / 2^r * 2^r) by (rewrite (Z.div_mod a (2^r)) at 1 by lia; lia).
  transitivity (Z.lor (a / 2^r * 2^r) b); [now rewrite <- E|]. rewrite lor_low by easy. lia.
Qed.
Lemma lorc0 x : 0 <= x < 64 -> Z.lor 0xc0 x = 0xc0 + x. Proof. intros; now apply (lor_sum _ _ 6). Qed.
Lemma lor80 x : 0 <= x < 128 -> Z.lor 0x80 x = 0x80 + x. Proof. intros; now apply (lor_sum _ _ 7). Qed.
Lemma lore0 x : 0 <= x < 32 -> Z.lor 0xe0 x = 0xe0 + x. Proof. intros; now apply (lor_sum _ _ 5). Qed.
Lemma lorf0 x : 0 <= x < 16 -> Z.lor 0xf0 x = 0xf0 + x. Proof. intros; now apply (lor_sum _ _ 4). Qed.
Lemma lord800 x : 0 <= x < 1024 -> Z.lor 0xd800 x = 0xd800 + x. Proof. intros; now apply (lor_sum _ _ 10). Qed.
Lemma lordc00 x : 0 <= x < 1024 -> Z.lor 0xdc00 x = 0xdc00 + x. Proof. intros; now apply (lor_sum _ _ 10). Qed.
Lemma surr c : 0 <= c < 2^32 -> Z.land c 0xfffff800 = c / 2048 * 2048.
Proof.
  intros H. change 0xfffff800 with (Z.shiftl (Z.ones 21) 11). change 2048 with (2^11). rewrite <- Z.shiftl_mul_pow2, <- Z.shiftr_div_pow2 by lia.
  transitivity (Z.shiftl (Z.land (Z.shiftr c 11) (Z.ones 21)) 11).
  - rewrite Z.shiftl_land. apply Z.bits_inj'. intros k Hk. rewrite !Z.land_spec. destruct (Z.lt_ge_cases k 11).
    + rewrite (Z.shiftl_spec_low (Z.ones 21)) by lia. now rewrite !andb_false_r.
    + rewrite (Z.shiftl_spec (Z.shiftr c 11)), Z.shiftr_spec by lia. now rewrite Z.sub_add.
  - f_equal. rewrite Z.land_ones, Z.shiftr_div_pow2 by lia. apply Z.mod_small. Z.div_mod_to_equations; lia.
Qed.
Lemma byte_tests c : byte c ->
  (Z.land c 0x80 =? 0) = (c <? 0x80) /\ (Z.land c 0xe0 =? 0xc0) = (0xc0 <=? c) && (c <? 0xe0) /\
  (Z.land c 0xf0 =? 0xe0) = (0xe0 <=? c) && (c <? 0xf0) /\ (Z.land c 0xf8 =? 0xf0) = (0xf0 <=? c) && (c <? 0xf8) /\
  (Z.land c 0xc0 =? 0x80) = (0x80 <=? c) && (c <? 0xc0).
Proof.
  assert (H : sweep 256 (fun c => Bool.eqb (Z.land c 0x80 =? 0) (c <? 0x80) && Bool.eqb (Z.land c 0xe0 =? 0xc0) ((0xc0 <=? c) && (c <? 0xe0)) &&
    Bool.eqb (Z.land c 0xf0 =? 0xe0) ((0xe0 <=? c) && (c <? 0xf0)) && Bool.eqb (Z.land c 0xf8 =? 0xf0) ((0xf0 <=? c) && (c <? 0xf8)) &&
    Bool.eqb (Z.land c 0xc0 =? 0x80) ((0x80 <=? c) && (c <? 0xc0))) = true) by (vm_compute; reflexivity).
  intros Hc. apply (sweep_ok _ _ H) in Hc. rewrite !andb_true_iff, !eqb_true_iff in Hc. tauto.
Qed.
Lemma cont_test c : byte c -> (Z.land c 0xc0 =? 0x80) = (0x80 <=? c) && (c <? 0xc0).
Proof. intros H. now apply byte_tests. Qed.

(** deciding a comparison by arithmetic *)
Ltac yes b := replace b with true in * by (symmetry; first [apply Z.ltb_lt; lia|apply Z.leb_le; lia|apply Z.eqb_eq; lia|apply Z.gtb_lt; lia|apply Z.geb_le; lia]).
Ltac no b := replace b with false in * by (symmetry; first [apply Z.ltb_ge; lia|apply Z.leb_gt; lia|apply Z.eqb_neq; lia|rewrite Z.gtb_ltb; apply Z.ltb_ge; lia|rewrite Z.geb_leb; apply Z.leb_gt; lia]).
Ltac dec1 := match goal with
  | |- context [?a <? ?b] => first [yes (a <? b)|no (a <? b)]
  | |- context [?a <=? ?b] => first [yes (a <=? b)|no (a <=? b)]
  | |- context [?a =? ?b] => first [yes (a =? b)|no (a =? b)]
  | |- context [?a >? ?b] => first [yes (a >? b)|no (a >? b)]
  | |- context [?a >=? ?b] => first [yes (a >=? b)|no (a >=? b)]
  end.
Ltac decs := repeat (dec1; cbn [andb orb negb obind]).

(** ** lengths and bounds of the encodings *)
Lemma utf8_len r : (1 <= length (utf8 r) <= 4)%nat.
Proof. unfold utf8. destruct (r <? 0x80), (r <? 0x800), (r <? 0x10000); cbn; lia. Qed.
Lemma utf8_ne r : utf8 r <> [].
Proof. intros E. pose proof (utf8_len r) as H. rewrite E in H. cbn in H. lia. Qed.

(** ** encoding *)
Lemma encode_scalar r : scalar r -> utf8_encode_rune r = utf8 r.
Proof.
  intros S0. assert (R : 0 <= r <= 0x10FFFF) by (destruct S0; lia). unfold utf8_encode_rune, utf8, u32, u8, rune_max, between.
  rewrite (Z.mod_small r (2^32)) by lia. rewrite !land3f, !shr by lia.
  change (Z.shiftl 1 7 - 1) with 127. change (Z.shiftl 1 11 - 1) with 2047. change (Z.shiftl 1 16 - 1) with 65535.
  destruct (Z.ltb_spec r 0x80); [decs; rewrite Z.mod_small by lia; easy|].
  destruct (Z.ltb_spec r 0x800).
  { decs. rewrite lorc0 by (Z.div_mod_to_equations; lia). rewrite lor80 by (Z.div_mod_to_equations; lia).
    f_equal; [Z.div_mod_to_equations; lia|]. f_equal. Z.div_mod_to_equations; lia. }
  destruct (Z.ltb_spec r 0x10000).
  { destruct S0 as [S0|S0]; decs; (rewrite lore0 by (Z.div_mod_to_equations; lia)); rewrite !lor80 by (Z.div_mod_to_equations; lia);
    (f_equal; [Z.div_mod_to_equations; lia|]); (f_equal; [Z.div_mod_to_equations; lia|]); f_equal; Z.div_mod_to_equations; lia. }
  destruct S0 as [S0|S0]; [lia|]. decs. rewrite lorf0 by (Z.div_mod_to_equations; lia). rewrite !lor80 by (Z.div_mod_to_equations; lia).
  f_equal; [Z.div_mod_to_equations; lia|]. f_equal; [Z.div_mod_to_equations; lia|]. f_equal; [Z.div_mod_to_equations; lia|]. f_equal. Z.div_mod_to_equations; lia.
Qed.
Lemma encode_other r : in_i32 r -> ~ scalar r -> utf8_encode_rune r = utf8 0xFFFD.
Proof.
  unfold in_i32, scalar. intros R N. unfold utf8_encode_rune, u32, rune_max, between.
  assert (H : r mod 2^32 > 0x10FFFF \/ 0xd800 <= r mod 2^32 <= 0xdfff).
  { destruct (Z.lt_ge_cases r 0).
    - left. replace (r mod 2^32) with (r + 2^32); [lia|]. apply (Z.mod_unique _ _ (-1)); lia.
    - rewrite Z.mod_small by lia. lia. }
  change (Z.shiftl 1 7 - 1) with 127. change (Z.shiftl 1 11 - 1) with 2047. change (Z.shiftl 1 16 - 1) with 65535.
  destruct H as [H|H].
  - decs. reflexivity.
  - decs. reflexivity.
Qed.

(** ** decoding *)
Definition cls (s0 : Z) : Z :=
  if s0 <? 0x80 then 0xf0 else if s0 <? 0xc2 then 0xf1 else if s0 <? 0xe0 then 2 else if s0 =? 0xe0 then 0x13
  else if s0 =? 0xed then 0x23 else if s0 <? 0xf0 then 3 else if s0 =? 0xf0 then 0x34 else if s0 <? 0xf4 then 4
  else if s0 =? 0xf4 then 0x44 else 0xf1.
Lemma first_cls s0 : byte s0 -> nth_error utf8_first (Z.to_nat s0) = Some (cls s0).
Proof.
  assert (H : sweep 256 (fun c => match nth_error utf8_first (Z.to_nat c) with Some x => x =? cls c | None => false end) = true) by (vm_compute; reflexivity).
  intros Hc. apply (sweep_ok _ _ H) in Hc. destruct (nth_error utf8_first (Z.to_nat s0)); [|easy]. apply Z.eqb_eq in Hc. now subst.
Qed.
(** the size and the accepted second bytes *)
Definition lo_of (s0 : Z) : Z := if s0 =? 0xe0 then 0xa0 else if s0 =? 0xf0 then 0x90 else 0x80.
Definition hi_of (s0 : Z) : Z := if s0 =? 0xed then 0x9f else if s0 =? 0xf4 then 0x8f else 0xbf.
Definition sz_of (s0 : Z) : Z := if s0 <? 0xe0 then 2 else if s0 <? 0xf0 then 3 else 4.
Lemma multi_cls s0 : 0xc2 <= s0 <= 0xf4 ->
  (cls s0 >=? 0xf0) = false /\ Z.land (cls s0) 7 = sz_of s0 /\ nth_error accept_ranges (Z.to_nat (Z.shiftr (cls s0) 4)) = Some (lo_of s0, hi_of s0).
Proof.
  assert (H : sweep 256 (fun c => implb ((0xc2 <=? c) && (c <=? 0xf4)) (negb (cls c >=? 0xf0) && (Z.land (cls c) 7 =? sz_of c) &&
    match nth_error accept_ranges (Z.to_nat (Z.shiftr (cls c) 4)) with Some (l, h) => (l =? lo_of c) && (h =? hi_of c) | None => false end)) = true) by (vm_compute; reflexivity).
  intros Hc. assert (Hb : 0 <= s0 < Z.of_nat 256) by (change (Z.of_nat 256) with 256; lia). apply (sweep_ok _ _ H) in Hb.
  replace ((0xc2 <=? s0) && (s0 <=? 0xf4)) with true in Hb by (symmetry; apply andb_true_iff; split; apply Z.leb_le; lia). cbn [implb] in Hb.
  rewrite !andb_true_iff, negb_true_iff in Hb. destruct Hb as ((A & B) & C). apply Z.eqb_eq in B.
  destruct (nth_error accept_ranges _) as [(l, h)|]; [|easy]. apply andb_true_iff in C as (C & D). apply Z.eqb_eq in C, D. now subst.
Qed.
Lemma decode_ascii s0 r n : 0 < n -> 0 <= s0 < 0x80 -> utf8_decode (s0 :: r) n = Some (s0, 1).
Proof.
  intros Hn H. unfold utf8_decode. decs. cbn [nth_error obind]. rewrite first_cls by (unfold byte; lia). unfold cls. decs.
  change (0xf0 >=? 0xf0) with true. cbn match. change (Z.shiftr (i32 (Z.shiftl 0xf0 31)) 31) with 0. rewrite Z.land_0_r, Z.lor_0_r.
  change (Z.lnot 0) with (-1). now rewrite Z.land_m1_r.
Qed.
Lemma decode_badlead s0 r n : 0 < n -> byte s0 -> 0x80 <= s0 < 0xc2 \/ 0xf4 < s0 -> utf8_decode (s0 :: r) n = Some (rune_invalid, 1).
Proof.
  intros Hn B H. unfold utf8_decode. decs. cbn [nth_error obind]. rewrite first_cls by easy. cbn [obind].
  replace (cls s0) with 0xf1 by (unfold byte, cls in *; destruct H; decs; easy).
  change (0xf1 >=? 0xf0) with true. cbn match. change (Z.shiftr (i32 (Z.shiftl 0xf1 31)) 31) with (-1).
  change (Z.lnot (-1)) with 0. rewrite Z.land_0_r. reflexivity.
Qed.
Definition cont (b : Z) : bool := (0x80 <=? b) && (b <=? 0xbf).
(** multi-byte sequences *)
Lemma decode_multi s0 r n : 0xc2 <= s0 <= 0xf4 -> 0 < n ->
  utf8_decode (s0 :: r) n =
    if n <? sz_of s0 then Some (rune_invalid, 1)
    else
      b1 <- nth_error r 0 ;;
      if (b1 <? lo_of s0) || (hi_of s0 <? b1) then Some (rune_invalid, 1)
      else if sz_of s0 =? 2 then Some (s0 mod 32 * 64 + b1 mod 64, 2)
      else
        b2 <- nth_error r 1 ;;
        if negb (cont b2) then Some (rune_invalid, 1)
        else if sz_of s0 =? 3 then Some (s0 mod 32 * 4096 + b1 mod 64 * 64 + b2 mod 64, 3)
        else
          b3 <- nth_error r 2 ;;
          if negb (cont b3) then Some (rune_invalid, 1)
          else Some (s0 mod 8 * 262144 + b1 mod 64 * 4096 + b2 mod 64 * 64 + b3 mod 64, 4).
Proof.
  intros H Hn. unfold utf8_decode. decs. cbn [nth_error obind]. rewrite first_cls by (unfold byte; lia). cbn [obind].
  destruct (multi_cls s0 H) as (-> & -> & ->). cbn [obind]. decs.
  destruct (n <? sz_of s0); [easy|]. destruct r as [|b1 r]; [easy|]. cbn [nth_error obind].
  destruct (_ || _); [easy|]. destruct (sz_of s0 =? 2).
  { rewrite land1f, land3f, shl by lia. rewrite (lor_sum _ _ 6) by (lia || (Z.div_mod_to_equations; lia)). reflexivity. }
  destruct r as [|b2 r]; [easy|]. cbn [nth_error obind]. unfold between. fold (cont b2).
  destruct (negb (cont b2)); [easy|]. destruct (sz_of s0 =? 3).
  { rewrite land1f, !land3f, !shl by lia. rewrite (lor_sum (s0 mod 32 * 2^12) _ 12) by (lia || (Z.div_mod_to_equations; lia)).
    rewrite (lor_sum _ (b2 mod 64) 6) by (lia || (Z.div_mod_to_equations; lia)). reflexivity. }
  destruct r as [|b3 r]; [easy|]. cbn [nth_error obind]. fold (cont b3).
  destruct (negb (cont b3)); [easy|]. rewrite land07, !land3f, !shl by lia.
  rewrite (lor_sum (s0 mod 8 * 2^18) _ 18) by (lia || (Z.div_mod_to_equations; lia)).
  rewrite (lor_sum _ (b2 mod 64 * 2^6) 12) by (lia || (Z.div_mod_to_equations; lia)).
  rewrite (lor_sum _ (b3 mod 64) 6) by (lia || (Z.div_mod_to_equations; lia)). reflexivity.
Qed.
Lemma decode_utf8 r tl n : scalar r -> Z.of_nat (length (utf8 r)) <= n -> utf8_decode (utf8 r ++ tl) n = Some (r, Z.of_nat (length (utf8 r))).
Proof.
  intros S0. assert (R : 0 <= r <= 0x10FFFF) by (destruct S0; lia). unfold utf8.
  destruct (Z.ltb_spec r 0x80). { intros Hn. cbn [app length] in *. rewrite decode_ascii by lia. easy. }
  destruct (Z.ltb_spec r 0x800).
  { intros Hn. cbn [app length] in *. set (s0 := 0xC0 + r / 64). set (b1 := 0x80 + r mod 64).
    assert (G0 : 0xc2 <= s0 < 0xe0) by (unfold s0; Z.div_mod_to_equations; lia).
    assert (G1 : 0x80 <= b1 <= 0xbf) by (unfold b1; Z.div_mod_to_equations; lia).
    rewrite decode_multi by lia. unfold sz_of, lo_of, hi_of. cbn [nth_error]. decs. do 2 f_equal. unfold s0, b1. Z.div_mod_to_equations; lia. }
  destruct (Z.ltb_spec r 0x10000).
  { intros Hn. cbn [app length] in *. set (s0 := 0xE0 + r / 4096). set (b1 := 0x80 + r / 64 mod 64). set (b2 := 0x80 + r mod 64).
    assert (G0 : 0xe0 <= s0 < 0xf0) by (unfold s0; Z.div_mod_to_equations; lia).
    assert (G1 : lo_of s0 <= b1 <= hi_of s0).
    { unfold lo_of, hi_of. destruct (Z.eqb_spec s0 0xe0); decs; [unfold s0, b1 in *; Z.div_mod_to_equations; lia|].
      destruct (Z.eqb_spec s0 0xed); decs; unfold s0, b1, scalar in *; Z.div_mod_to_equations; lia. }
    assert (G2 : 0x80 <= b2 <= 0xbf) by (unfold b2; Z.div_mod_to_equations; lia).
    rewrite decode_multi by lia. unfold sz_of, cont. cbn [nth_error]. decs. do 2 f_equal.
    unfold s0, b1, b2. Z.div_mod_to_equations; lia. }
  intros Hn. cbn [app length] in *. set (s0 := 0xF0 + r / 262144). set (b1 := 0x80 + r / 4096 mod 64). set (b2 := 0x80 + r / 64 mod 64). set (b3 := 0x80 + r mod 64).
  assert (G0 : 0xf0 <= s0 <= 0xf4) by (unfold s0; Z.div_mod_to_equations; lia).
  assert (G1 : lo_of s0 <= b1 <= hi_of s0).
  { unfold lo_of, hi_of. decs. destruct (Z.eqb_spec s0 0xf0); decs; [unfold s0, b1 in *; Z.div_mod_to_equations; lia|].
    destruct (Z.eqb_spec s0 0xf4); decs; unfold s0, b1, scalar in *; Z.div_mod_to_equations; lia. }
  assert (G2 : 0x80 <= b2 <= 0xbf) by (unfold b2; Z.div_mod_to_equations; lia).
  assert (G3 : 0x80 <= b3 <= 0xbf) by (unfold b3; Z.div_mod_to_equations; lia).
  rewrite decode_multi by lia. unfold sz_of, cont. cbn [nth_error]. decs. do 2 f_equal.
  unfold s0, b1, b2, b3. Z.div_mod_to_equations; lia.
Qed.
(** the arithmetic of well-formed sequences *)
Lemma wf2 s0 b1 : 0xc2 <= s0 < 0xe0 -> 0x80 <= b1 <= 0xbf -> let r := s0 mod 32 * 64 + b1 mod 64 in scalar r /\ 0x80 <= r < 0x800 /\ utf8 r = [s0; b1].
Proof.
  intros H0 H1 r. assert (E : r = (s0 - 0xc0) * 64 + (b1 - 0x80)) by (unfold r; Z.div_mod_to_equations; lia). clearbody r.
  assert (0x80 <= r < 0x800) by lia. split; [left; lia|]. split; [easy|]. unfold utf8. decs.
  f_equal; [Z.div_mod_to_equations; lia|]. f_equal. Z.div_mod_to_equations; lia.
Qed.
Lemma wf3 s0 b1 b2 : 0xe0 <= s0 < 0xf0 -> lo_of s0 <= b1 <= hi_of s0 -> 0x80 <= b2 <= 0xbf ->
  let r := s0 mod 32 * 4096 + b1 mod 64 * 64 + b2 mod 64 in scalar r /\ 0x800 <= r < 0x10000 /\ utf8 r = [s0; b1; b2].
Proof.
  intros H0 H1 H2 r. unfold lo_of, hi_of in H1. assert (0x80 <= b1 <= 0xbf) by (destruct (s0 =? 0xe0), (s0 =? 0xf0), (s0 =? 0xed), (s0 =? 0xf4); lia).
  assert (E : r = (s0 - 0xe0) * 4096 + (b1 - 0x80) * 64 + (b2 - 0x80)) by (unfold r; Z.div_mod_to_equations; lia). clearbody r.
  assert (L : 0x800 <= r) by (destruct (Z.eqb_spec s0 0xe0); lia).
  assert (N : ~ 0xd800 <= r < 0xe000) by (destruct (Z.eqb_spec s0 0xed); lia).
  split; [unfold scalar; lia|]. split; [lia|]. unfold utf8. decs.
  f_equal; [Z.div_mod_to_equations; lia|]. f_equal; [Z.div_mod_to_equations; lia|]. f_equal. Z.div_mod_to_equations; lia.
Qed.
Lemma wf4 s0 b1 b2 b3 : 0xf0 <= s0 <= 0xf4 -> lo_of s0 <= b1 <= hi_of s0 -> 0x80 <= b2 <= 0xbf -> 0x80 <= b3 <= 0xbf ->
  let r := s0 mod 8 * 262144 + b1 mod 64 * 4096 + b2 mod 64 * 64 + b3 mod 64 in scalar r /\ 0x10000 <= r /\ utf8 r = [s0; b1; b2; b3].
Proof.
  intros H0 H1 H2 H3 r. unfold lo_of, hi_of in H1.
  assert (0x80 <= b1 <= 0xbf) by (destruct (s0 =? 0xe0), (s0 =? 0xf0), (s0 =? 0xed), (s0 =? 0xf4); lia).
  assert (E : r = (s0 - 0xf0) * 262144 + (b1 - 0x80) * 4096 + (b2 - 0x80) * 64 + (b3 - 0x80)) by (unfold r; Z.div_mod_to_equations; lia). clearbody r.
  assert (L : 0x10000 <= r) by (destruct (Z.eqb_spec s0 0xe0), (Z.eqb_spec s0 0xf0); lia).
  assert (U : r <= 0x10ffff) by (destruct (Z.eqb_spec s0 0xed), (Z.eqb_spec s0 0xf4); lia).
  split; [unfold scalar; lia|]. split; [lia|]. unfold utf8. decs.
  f_equal; [Z.div_mod_to_equations; lia|]. f_equal; [Z.div_mod_to_equations; lia|]. f_equal; [Z.div_mod_to_equations; lia|]. f_equal. Z.div_mod_to_equations; lia.
Qed.
Lemma cont_range b : cont b = true -> 0x80 <= b <= 0xbf.
Proof. unfold cont. intros H. apply andb_true_iff in H as (A & B). apply Z.leb_le in A, B. lia. Qed.
Lemma decode_sound s : bytes s -> s <> [] -> exists r w, utf8_decode s (Z.of_nat (length s)) = Some (r, w) /\
  ((scalar r /\ w = Z.of_nat (length (utf8 r)) /\ exists tl, s = utf8 r ++ tl) \/
   (r = rune_invalid /\ w = 1)).
Proof.
  intros B Hne. destruct s as [|s0 r]; [easy|]. inversion B as [|? ? B0 Br]; subst. assert (Hn : 0 < Z.of_nat (length (s0 :: r))) by (cbn [length]; lia).
  unfold byte in B0.
  destruct (Z.lt_ge_cases s0 0x80).
  { exists s0, 1. rewrite decode_ascii by lia. split; [easy|]. left. split; [left; lia|]. unfold utf8. decs. split; [easy|]. now exists r. }
  destruct (Z.lt_ge_cases s0 0xc2). { exists rune_invalid, 1. rewrite decode_badlead by (unfold byte; lia). auto. }
  destruct (Z.lt_ge_cases 0xf4 s0). { exists rune_invalid, 1. rewrite decode_badlead by (unfold byte; lia). auto. }
  rewrite decode_multi by lia. destruct (Z.ltb_spec (Z.of_nat (length (s0 :: r))) (sz_of s0)) as [|L]; [eauto 10|].
  assert (sz_of s0 >= 2) by (unfold sz_of; destruct (s0 <? 224), (s0 <? 240); lia).
  destruct r as [|b1 r]; [cbn [length] in L; lia|]. cbn [nth_error obind].
  destruct (Z.ltb_spec b1 (lo_of s0)); [cbn [orb]; eauto 10|]. destruct (Z.ltb_spec (hi_of s0) b1); [cbn [orb]; eauto 10|]. cbn [orb].
  unfold sz_of in *. destruct (Z.ltb_spec s0 224).
  { decs. destruct (wf2 s0 b1) as (S1 & _ & E); [lia|unfold lo_of, hi_of in *; revert H3 H4; decs; lia|].
    eexists _, _. split; [reflexivity|]. left. split; [exact S1|]. rewrite E. split; [easy|]. now exists r. }
  destruct (Z.ltb_spec s0 240).
  { decs. destruct r as [|b2 r]; [cbn [length] in L; lia|]. cbn [nth_error obind]. destruct (cont b2) eqn:C2; cbn [negb]; [|eauto 10].
    destruct (wf3 s0 b1 b2) as (S1 & _ & E); [lia|lia|now apply cont_range|].
    eexists _, _. split; [reflexivity|]. left. split; [exact S1|]. rewrite E. split; [easy|]. now exists r. }
  decs. destruct r as [|b2 r]; [cbn [length] in L; lia|]. cbn [nth_error obind]. destruct (cont b2) eqn:C2; cbn [negb]; [|eauto 10].
  destruct r as [|b3 r]; [cbn [length] in L; lia|]. cbn [nth_error obind]. destruct (cont b3) eqn:C3; cbn [negb]; [|eauto 10].
  destruct (wf4 s0 b1 b2 b3) as (S1 & _ & E); [lia|lia|now apply cont_range|now apply cont_range|].
  eexists _, _. split; [reflexivity|]. left. split; [exact S1|]. rewrite E. split; [easy|]. now exists r.
Qed.
