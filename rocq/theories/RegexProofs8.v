(** Proofs about regular expressions: compiling what should be refused. *)
From Verif Require Import Base CStr Regex RegexSpec RegexProofs RegexProofs2 RegexProofs3 RegexProofs4 RegexProofs6 RegexProofs7.

(** ** a closing bracket *)
Lemma bracket_loop : forall f r p len off level last bb bop, can_realloc r = true -> 0 <= off < len -> at_ p off = Some 93 -> parse_loop f r p len off level last bb bop = None.
Proof.
  induction f as [|f IH]; intros r p len off level last bb bop G L A; [reflexivity|]. cbn [parse_loop]. destruct (Z.ltb_spec off len); [|lia]. rewrite A. cbn [obind].
  change (93 =? 94) with false. change (93 =? 36) with false. change (93 =? 40) with false. change (93 =? 41) with false. change (93 =? 91) with false. change (93 =? 124) with false. change (93 =? 46) with false. change ((93 =? 42) || (93 =? 43)) with false. change (93 =? 63) with false. change (93 =? 92) with false. cbn match.
  replace (off + 1 - 1) with off by lia.
  assert (Sk : exists x, skipn (Z.to_nat off) p = 93 :: x).
  { unfold at_ in A. destruct (off <? 0); [easy|]. destruct (nth_error_split p (Z.to_nat off) A) as (a & b & -> & La). rewrite <- La. exists b. apply skipn_pre. }
  destruct Sk as (x & Sk). rewrite Sk. assert (Ll : literal_len (firstn (Z.to_nat (len - off)) (93 :: x)) = 0) by (destruct (Z.to_nat (len - off)); reflexivity). rewrite Ll.
  destruct (emit_bytes r [EXACT_MATCH; 0] G) as (r1 & E1 & _ & _ & G1). { repeat constructor; cbv; congruence. } rewrite E1. change (Z.to_nat 0) with 0%nat. cbn [firstn].
  destruct (emit_buffer_ok r1 [] G1) as (r2 & E2 & _ & _ & G2). rewrite E2. rewrite Z.add_0_r. apply IH; easy.
Qed.
Lemma bracket_hangs l t f post len : spells l t -> Z.of_nat (group_count l) <= 256 -> Z.of_nat (length t) < len <= Z.of_nat (length (t ++ 93 :: post)) -> (length t < f)%nat -> compile f (t ++ 93 :: post) len = None.
Proof.
  intros Sp G L F. unfold compile, parse. set (r0 := Re 0 [] (len + 128) true). change (buf_len r0) with 0.
  assert (A : at_ (t ++ 93 :: post) (Z.of_nat (length t)) = Some 93) by apply at_mid.
  destruct (parse_spells l t Sp f r0 (t ++ 93 :: post) [] (93 :: post) len 0 0 0 (-1)) as (f1 & r1 & last & E & F1 & B & C & D); try easy; try (cbn [length Nat.add capture_count r0]; lia).
  { right. cbn [length Nat.add]. split; [lia|]. exists 93. split; [exact A|cbn; tauto]. }
  cbn [length Nat.add] in E. change (Z.of_nat 0) with 0 in E. rewrite E. rewrite bracket_loop; [reflexivity|easy|lia|easy].
Qed.

(** ** an unfinished set *)
Lemma group_unfinished w : Forall special_free w -> forall f pre b, (length w < f)%nat -> Z.of_nat (length b + length w) <= 256 ->
  group_loop f (pre ++ w) (Z.of_nat (length (pre ++ w))) (Z.of_nat (length pre)) b = Some (b ++ w, inr ReMismatchedBlocks).
Proof.
  induction 1 as [|c w (Hc & Nc) H IH]; intros f pre b F L; (destruct f as [|f]; [cbn [length] in F; lia|]); cbn [group_loop].
  - rewrite !app_nil_r, Z.ltb_irrefl. reflexivity.
  - cbn [length] in *. rewrite app_length. cbn [length]. destruct (Z.ltb_spec (Z.of_nat (length pre)) (Z.of_nat (length pre + S (length w)))); [|lia]. rewrite at_mid. cbn [obind].
    rewrite (eqb_no c 93), (eqb_no c 92) by (intros ->; apply Nc; cbn; tauto). destruct (Z.leb_spec 256 (Z.of_nat (length b))); [lia|].
    specialize (IH f (pre ++ [c]) (b ++ [c])). rewrite <- !app_assoc, !app_length in IH. cbn [app length] in IH. replace (Z.of_nat (length pre) + 1) with (Z.of_nat (length pre + 1)) by lia. apply IH; lia.
Qed.
Lemma set_accepted w f : plain w -> Z.of_nat (length w) < 128 -> (length w + 1 < f)%nat -> exists r, compile f (91 :: w) (Z.of_nat (length (91 :: w))) = Some (r, ReNone, false) /\ buf r = code 0 [Lit w].
Proof.
  intros Pw Lw F. unfold compile, parse. set (p := 91 :: w). set (len := Z.of_nat (length p)). set (r0 := Re 0 [] (len + 128) true). change (buf_len r0) with 0. assert (El : len = Z.of_nat (1 + length w)) by reflexivity.
  pose proof (plain_length w Pw) as Pl.
  destruct f as [|f]; [lia|]. cbn [parse_loop]. destruct (Z.ltb_spec 0 len); [|lia]. change (at_ p 0) with (Some 91). cbn [obind].
  change (91 =? 94) with false. change (91 =? 36) with false. change (91 =? 40) with false. change (91 =? 41) with false. change (91 =? 91) with true. cbn match. change (0 + 1) with 1.
  assert (Pg : parse_group r0 p len 1 = Some (r0, ReMismatchedBlocks, None)).
  { unfold parse_group. destruct w as [|c w]; [easy|]. change (at_ p 1) with (Some c). cbn [obind]. destruct Pw as (_ & Fw). assert (Nc : ~ In c metas) by apply (Forall_inv Fw). rewrite (eqb_no c 94) by (intros ->; apply Nc; cbn; tauto).
    pose proof (group_unfinished (c :: w) Fw (S (Z.to_nat len)) [91] []) as G. change ([91] ++ c :: w) with p in G. fold len in G. change (Z.of_nat (length [91])) with 1 in G. rewrite G; [reflexivity|lia|cbn [length] in *; lia]. }
  rewrite Pg. cbn [obind]. destruct (Z.ltb_spec len 1); [lia|].
  destruct (parse_spells [Lit w] w (plain_spells w Pw Lw) f r0 p [91] [] len 0 0 0 (-1)) as (f1 & r1 & last & E & F1 & B & C & D);
    [now rewrite app_nil_r|cbn [length]; lia|unfold len; lia|left; rewrite El; reflexivity|lia|easy|cbn; lia|cbn; lia|lia|].
  cbn [length] in E. change (Z.of_nat 1) with 1 in E. change (buf_len r0) with 0. rewrite E. destruct f1 as [|f1]; [lia|]. cbn [parse_loop]. rewrite <- El. rewrite Z.ltb_irrefl. cbn [obind]. rewrite Z.eqb_refl. exists r1. split; [reflexivity|]. exact B.
Qed.

(** ** a group closed by an escaped bracket *)
Lemma group_accepted w f : plain w -> Z.of_nat (length w) < 128 -> (length w + 5 < f)%nat ->
  exists r, compile f (40 :: w ++ [92; 41]) (Z.of_nat (length w + 3)) = Some (r, ReNone, false) /\ buf r = code 0 [Group [Lit w; Esc (Char 41)]].
Proof.
  intros Pw Lw F. unfold compile, parse. set (p := 40 :: w ++ [92; 41]). set (len := Z.of_nat (length w + 3)). set (r0 := Re 0 [] (len + 128) true). change (buf_len r0) with 0.
  assert (Lp : Z.of_nat (length p) = len) by (unfold p, len; cbn [length]; rewrite app_length; cbn [length]; lia).
  destruct f as [|f]; [lia|]. cbn [parse_loop]. destruct (Z.ltb_spec 0 len) as [_|X]; [|unfold len in X; lia]. change (at_ p 0) with (Some 40). cbn [obind].
  change (40 =? 94) with false. change (40 =? 36) with false. change (40 =? 40) with true. cbn match. change (0 + 1) with 1.
  set (r1 := Re (capture_count r0 + 1) (buf r0) (cap r0) (can_realloc r0)).
  destruct (emit_bytes r1 [BEGIN_CAPTURE; capture_count r0] eq_refl) as (r2 & E2 & B2 & C2 & D2). { repeat constructor; cbv; congruence. } rewrite E2. cbn [r1 r0 buf app capture_count] in B2, C2.
  assert (Sp : spells [Lit w; Esc (Char 41)] (w ++ [92; 41])). { destruct Pw as (Nw & Fw). constructor; [easy|easy|easy|easy|]. constructor; [constructor; cbn; tauto|constructor]. }
  destruct (parse_spells _ _ Sp f r2 p [40] [] len (1) (buf_len r2) (buf_len r2) (-1)) as (f1 & r3 & last1 & E3 & F3 & B3 & C3 & D3);
    try easy; try (rewrite ?C2, ?app_length; cbn [length Nat.add capture_count group_count fold_right groups]; unfold len; lia).
  { now rewrite app_nil_r. } { left. rewrite app_length. cbn [length]. unfold len. lia. }
  cbn [length] in E3. change (Z.of_nat 1) with 1 in E3. rewrite E3. destruct f1 as [|f1]; [rewrite app_length in F3; cbn [length] in F3; lia|]. cbn [parse_loop].
  replace (Z.of_nat (1 + length (w ++ [92; 41]))) with len by (rewrite app_length; cbn [length]; unfold len; lia). rewrite Z.ltb_irrefl. cbn [obind].
  assert (A : at_ p (len - 1) = Some 41) by (apply (at_eq p (40 :: w ++ [92]) 41 []); [unfold p; cbn [app]; now rewrite <- app_assoc|cbn [length]; rewrite app_length; cbn [length]; unfold len; lia]).
  rewrite A. cbn [obind]. rewrite Z.ltb_irrefl. change (negb (41 =? 41)) with false. cbn [orb].
  destruct (emit_bytes r3 [END_CAPTURE; capture_count r0] D3) as (r4 & E4 & B4 & C4 & D4). { repeat constructor; cbv; congruence. } rewrite E4.
  destruct f as [|f]; [lia|]. cbn [parse_loop]. rewrite Z.ltb_irrefl. cbn [obind]. rewrite Z.eqb_refl. exists r4. split; [reflexivity|]. rewrite B4, B3, B2, C2. rewrite (code_cons 0 (Group _)), icode_group. change (code (0 + groups (Group [Lit w; Esc (Char 41)])) []) with (@nil Z). rewrite app_nil_r. reflexivity.
Qed.

(** ** a class that looks like a number *)
Lemma hex_escape h x f : char_is_hex_digit h = true -> (2 < f)%nat -> exists r, compile f [92; h; x] 3 = Some (r, ReNone, false) /\ buf r = [META_MATCH; re_hex h x].
Proof.
  intros H F. destruct f as [|[|f]]; [lia..|]. unfold compile, parse. set (r0 := Re 0 [] (3 + 128) true). remember (S f) as f' eqn:E. cbn [parse_loop]. change (0 <? 3) with true. change (at_ [92; h; x] 0) with (Some 92). cbn [obind].
  change (92 =? 94) with false. change (92 =? 36) with false. change (92 =? 40) with false. change (92 =? 41) with false. change (92 =? 91) with false. change (92 =? 124) with false. change (92 =? 46) with false. change ((92 =? 42) || (92 =? 43)) with false. change (92 =? 63) with false. change (92 =? 92) with true. cbn match.
  change (0 + 1 + 1 <? 3) with true. cbn match. change (at_ [92; h; x] (0 + 1)) with (Some h). cbn [obind]. rewrite H. change (at_ [92; h; x] (0 + 1 + 1)) with (Some x). cbn [obind].
  assert (Rh : 0 <= re_hex h x < 256).
  { unfold re_hex. set (a := Z.land (Z.shiftl _ 4) 240). set (b := Z.land _ 15). assert (A : 0 <= a <= 240) by (unfold a; split; [apply Z.land_nonneg; lia|]; apply Z.ldiff_le; [lia|]; apply Z.bits_inj'; intros n Hn; rewrite Z.ldiff_spec, Z.land_spec, Z.bits_0; destruct (Z.testbit 240 n); rewrite ?andb_false_r; try easy).
    assert (B : 0 <= b <= 15) by (unfold b; change 15 with (Z.ones 4); rewrite Z.land_ones by lia; change (2 ^ 4) with 16; pose proof (Z.mod_pos_bound (char_to_hex_digit x) 16); change (Z.ones 4) with 15; lia).
    split; [apply Z.lor_nonneg; lia|]. destruct (Z.eq_dec (Z.lor a b) 0) as [->|N0]; [lia|]. assert (0 <= Z.lor a b) by (apply Z.lor_nonneg; lia). apply Z.log2_lt_pow2 with (b := 8); [lia|]. rewrite Z.log2_lor by lia. apply Z.max_lub_lt; (destruct (Z.eq_dec a 0); destruct (Z.eq_dec b 0)); try (subst; cbn; lia); try (apply Z.log2_lt_pow2; lia); try (replace a with 0 by lia; cbn; lia); try (replace b with 0 by lia; cbn; lia). }
  rewrite emit_fits; [|cbn; lia|repeat constructor; try lia; cbv; congruence]. cbn [r0 with_buf buf app capture_count cap can_realloc]. rewrite E. cbn [parse_loop]. change (0 + 1 + 2) with 3. rewrite Z.ltb_irrefl. cbn [obind]. eexists. split; reflexivity.
Qed.

(** ** long literals *)
Lemma long_compile w f : plain w -> 128 <= Z.of_nat (length w) < 256 -> (1 < f)%nat -> exists r, compile f w (Z.of_nat (length w)) = Some (r, ReNone, false) /\ buf r = EXACT_MATCH :: Z.of_nat (length w) :: w.
Proof.
  intros Pw L F. unfold compile, parse. set (len := Z.of_nat (length w)) in *. set (r0 := Re 0 [] (len + 128) true). destruct Pw as (Nw & Fw). destruct w as [|c w]; [easy|]. set (p := c :: w) in *.
  assert (Nc : ~ In c metas) by apply (Forall_inv Fw). assert (Nm : forall m, In m metas -> (c =? m) = false) by (intros m Im; apply eqb_no; intros ->; now apply Nc).
  destruct f as [|[|f]]; [lia..|]. remember (S f) as f' eqn:E. cbn [parse_loop]. destruct (Z.ltb_spec 0 len); [|lia]. change (at_ p 0) with (Some c). cbn [obind]. rewrite !Nm by (cbn; tauto). cbn [orb]. change (0 + 1 - 1) with 0. change (Z.to_nat 0) with 0%nat. cbn [skipn].
  assert (Ll : literal_len (firstn (Z.to_nat (len - 0)) p) = len). { replace (Z.to_nat (len - 0)) with (length p) by (unfold len; lia). rewrite firstn_all. rewrite <- (app_nil_r p). rewrite literal_len_ok; [reflexivity|easy|now left]. }
  rewrite Ll. rewrite (emit_fits r0 [EXACT_MATCH; len]); [|cbn; lia|repeat constructor; try lia; cbv; congruence]. unfold len at 2. rewrite Nat2Z.id, firstn_all. rewrite emit_buffer_fits by (cbn [r0 with_buf buf app cap buf_len length]; fold p; unfold buf_len; cbn [with_buf buf length app r0]; unfold len; lia).
  rewrite E. cbn [parse_loop]. rewrite Z.add_0_l. rewrite Z.ltb_irrefl. cbn [obind]. rewrite Z.eqb_refl. eexists. split; reflexivity.
Qed.
Lemma long_fault w s after caps max : 128 <= Z.of_nat (length w) <= 253 -> s <> [] -> re_match (EXACT_MATCH :: Z.of_nat (length w) :: w) (s ++ after) (Z.of_nat (length s)) caps max = None.
Proof.
  intros L N. set (b := EXACT_MATCH :: Z.of_nat (length w) :: w). assert (Lb : length b = (2 + length w)%nat) by reflexivity.
  assert (I8 : i8 (Z.of_nat (length w)) = Z.of_nat (length w) - 256). { unfold i8, sx. change (2 ^ 8) with 256. change (2 ^ (8 - 1)) with 128. cbv zeta. rewrite Z.mod_small by lia. destruct (Z.ltb_spec (Z.of_nat (length w)) 128); lia. }
  assert (Ex : exec (exec_fuel b (Z.of_nat (length s))) b (s ++ after) (Z.of_nat (length s)) 0 0 caps max = None).
  { pose proof (fuel_ok b (Z.of_nat (length s))) as F. set (f := exec_fuel b (Z.of_nat (length s))) in *. clearbody f.
    rewrite (exec_step s after b max f 0 0 caps (2 + (Z.of_nat (length w) - 256)) (Z.of_nat (length w) - 256) caps); [|lia| |lia|lia|lia].
    - apply exec_none; [lia|]. destruct (pred (pred f)) as [|g]; [reflexivity|]. cbn [exec_single]. unfold at_ at 1. destruct (Z.ltb_spec (2 + (Z.of_nat (length w) - 256)) 0); [reflexivity|lia].
    - destruct f as [|[|f]]; [lia..|]. cbn [pred exec_single]. change (at_ b 0) with (Some EXACT_MATCH). cbn [obind]. change (EXACT_MATCH =? BEGIN_CAPTURE) with false. change (EXACT_MATCH =? END_CAPTURE) with false. change (EXACT_MATCH =? BEGINNING_OF_LINE) with false. change (EXACT_MATCH =? END_OF_LINE) with false. change (EXACT_MATCH =? BRANCH_START) with false. change (EXACT_MATCH =? BRANCH_END) with false. change (EXACT_MATCH =? ANY) with false. change (EXACT_MATCH =? ANY_OF) with false. change (EXACT_MATCH =? ANY_BUT) with false. change (EXACT_MATCH =? EXACT_MATCH) with true. cbn match.
      change (at_ b (0 + 1)) with (Some (Z.of_nat (length w))). cbn [obind]. rewrite I8. destruct (Z.ltb_spec (Z.of_nat (length s) - 0) (Z.of_nat (length w) - 256)) as [X|_]; [lia|]. destruct (Z.leb_spec (Z.of_nat (length w) - 256) 0) as [_|X]; [|lia]. cbn [obind]. change (negb (0 =? 0)) with false. cbn match. f_equal. }
  unfold re_match. unfold b at 1. cbn match. change (EXACT_MATCH =? BEGINNING_OF_LINE) with false. cbn match. rewrite Nat2Z.id. destruct s as [|d s]; [easy|]. cbn [length match_from]. cbn [length] in Ex. fold b. rewrite Ex. reflexivity.
Qed.

(** ** compiling into a buffer of the caller *)
Lemma emit_refused cc vs : vs <> [] -> emit_ops (Re cc [] 0 false) vs = (Re cc [] 0 false, ReTooLong).
Proof. intros N. unfold emit_ops, reserve. change (buf_len (Re cc [] 0 false)) with 0. cbn [cap]. destruct (Z.leb_spec (0 + Z.of_nat (length vs)) 0); [destruct vs; [easy|cbn [length] in *; lia]|]. reflexivity. Qed.
Lemma group_refused cc p len off r e o : parse_group (Re cc [] 0 false) p len off = Some (r, e, o) -> r = Re cc [] 0 false /\ o = None.
Proof.
  unfold parse_group. destruct (at_ p off) as [c|]; [|easy]. cbn [obind]. destruct (group_loop _ _ _ _ _) as [(b, [x|err])|]; [..|easy]; cbn [obind].
  - rewrite emit_refused by easy. intros E. injection E as <- _ <-. easy.
  - intros E. injection E as <- _ <-. easy.
Qed.
Lemma buffer_parse : forall f cc p len off last r e o, 0 <= off -> 0 <= last -> parse_loop f (Re cc [] 0 false) p len off 0 last 0 (-1) = Some (r, e, o) ->
  buf r = [] /\ (e = ReNone -> forall i, off <= i < len -> at_ p i = Some 91 \/ (i = len - 1 /\ at_ p i = Some 92)).
Proof.
  induction f as [|f IH]; intros cc p len off last r e o L0 L1 E; [easy|]. cbn [parse_loop] in E. destruct (Z.ltb_spec off len) as [L|L]; [|injection E as <- <- _; split; [easy|lia]].
  destruct (at_ p off) as [c|] eqn:A; [|easy]. cbn [obind] in E. rewrite !emit_refused in E by easy.
  assert (Q : forall k, 0 <= k -> quantifiable (Re cc [] 0 false) k = Some false) by (intros k Hk; unfold quantifiable; change (buf_len (Re cc [] 0 false)) with 0; destruct (Z.leb_spec 0 k); [easy|lia]).
  rewrite Q in E by easy. cbn [obind negb] in E.
  destruct (Z.eqb_spec c 94) as [->|_]; [injection E as <- <- _; easy|].
  destruct (Z.eqb_spec c 36) as [->|_]; [injection E as <- <- _; easy|].
  destruct (Z.eqb_spec c 40) as [->|_]. { cbn [capture_count buf cap can_realloc] in E. rewrite ?emit_refused in E by easy. injection E as <- <- _. easy. }
  destruct (Z.eqb_spec c 41) as [->|_]. { change (-1 =? -1) with true in E. cbn [obind] in E. change (0 =? 0) with true in E. injection E as <- <- _. easy. }
  destruct (Z.eqb_spec c 91) as [->|_].
  { destruct (parse_group _ _ _ _) as [((r1, e1), o1)|] eqn:G; [|easy]. apply group_refused in G. destruct G as (-> & ->). cbn [obind] in E. destruct (Z.ltb_spec len (off + 1)) as [X|_]; [lia|].
    apply IH in E; [|lia|easy]. destruct E as (B & H). split; [easy|]. intros N i Hi. destruct (Z.eq_dec i off) as [->|]; [now left|]. apply H; [easy|lia]. }
  destruct (Z.eqb_spec c 124) as [->|_]. { change (buf_len (Re cc [] 0 false) <=? 0) with true in E. injection E as <- <- _. easy. }
  destruct (Z.eqb_spec c 46) as [->|_]; [injection E as <- <- _; easy|].
  destruct ((c =? 42) || (c =? 43)); [injection E as <- <- _; easy|].
  destruct (Z.eqb_spec c 63) as [->|_]; [injection E as <- <- _; easy|].
  destruct (Z.eqb_spec c 92) as [->|_].
  { destruct (if off + 1 + 1 <? len then h <- at_ p (off + 1) ;; Some (char_is_hex_digit h) else Some false) as [[|]|]; [..|easy]; cbn [obind] in E.
    - destruct (at_ p (off + 1)) as [h|]; [|easy]. destruct (at_ p (off + 1 + 1)) as [d|]; [|easy]. cbn [obind] in E. rewrite ?emit_refused in E by easy. injection E as <- <- _. easy.
    - destruct (Z.ltb_spec (off + 1) len) as [L2|L2].
      + destruct (at_ p (off + 1)) as [x|]; [|easy]. cbn [obind] in E. destruct ((encode_escape x =? 0) || (255 <? encode_escape x)); rewrite ?emit_refused in E by easy; injection E as <- <- _; easy.
      + apply IH in E; [|lia|easy]. destruct E as (B & H). split; [easy|]. intros N i Hi. right. split; [lia|]. replace i with off by lia. easy. }
  rewrite ?emit_refused in E by easy. injection E as <- <- _. easy.
Qed.
