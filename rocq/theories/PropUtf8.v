(** C36-C39, C71, C72: UTF-8 and UCS-2. *)
From Verif Require Import Base Utf8 Utf8Spec Utf8Proofs Utf8Proofs2.

Theorem C36_utf8_encode : forall r, in_i32 r ->
  (scalar r -> utf8_encode_rune r = utf8 r) /\ (~ scalar r -> utf8_encode_rune r = utf8 0xFFFD).
Proof. intros r H. split; [apply encode_scalar|now apply encode_other]. Qed.
(** whatever follows in the buffer, and for any available length that covers the encoding *)
Theorem C36_utf8_round_trip : forall r tl n, scalar r -> Z.of_nat (length (utf8_encode_rune r)) <= n ->
  utf8_decode (utf8_encode_rune r ++ tl) n = Some (r, Z.of_nat (length (utf8_encode_rune r))).
Proof. intros r tl n H. rewrite encode_scalar by easy. now apply decode_utf8. Qed.
Example C36_example : scalar 0x20AC /\ utf8_encode_rune 0x20AC = [0xE2; 0x82; 0xAC] /\ utf8_decode [0xE2; 0x82; 0xAC; 65] 4 = Some (0x20AC, 3)
  /\ ~ scalar 0xD800 /\ utf8_encode_rune (-1) = [0xEF; 0xBF; 0xBD].
Proof. unfold scalar. repeat split; try reflexivity; lia. Qed.

(** the decoder never reads outside the buffer, accepts exactly the well-formed
    encodings, and otherwise consumes one byte *)
Theorem C37_utf8_decode_exact : forall s, bytes s -> s <> [] ->
  exists r w, utf8_decode s (Z.of_nat (length s)) = Some (r, w) /\
    1 <= w <= 4 /\ w <= Z.of_nat (length s) /\
    ((scalar r /\ exists tl, s = utf8 r ++ tl /\ w = Z.of_nat (length (utf8 r))) \/
     (r = 0xFFFD /\ w = 1 /\ forall u tl, scalar u -> s <> utf8 u ++ tl)).
Proof.
  intros s B Hne. destruct (decode_sound s B Hne) as (r & w & E & H). exists r, w. split; [exact E|].
  assert (1 <= Z.of_nat (length s)) by (destruct s; [easy|cbn [length]; lia]).
  destruct H as [(S0 & -> & tl & ->)|(-> & ->)].
  - pose proof (utf8_len r). rewrite app_length. split; [lia|]. split; [lia|]. left. eauto.
  - split; [lia|]. split; [easy|]. right. split; [easy|]. split; [easy|]. intros u tl Su ->.
    rewrite decode_utf8 in E by (easy || rewrite app_length; lia). injection E as -> E. discriminate.
Qed.
Theorem C37_utf8_decode_empty : forall s, utf8_decode s 0 = Some (0xFFFD, 0).
Proof. reflexivity. Qed.
(** an overlong slash, a surrogate and a truncated sequence *)
Example C37_example : utf8_decode [0xC0; 0xAF] 2 = Some (0xFFFD, 1) /\ utf8_decode [0xED; 0xA0; 0x80] 3 = Some (0xFFFD, 1)
  /\ utf8_decode [0xE2; 0x82] 2 = Some (0xFFFD, 1) /\ utf8_decode [0xF4; 0x8F; 0xBF; 0xBF] 4 = Some (0x10FFFF, 4).
Proof. repeat split; reflexivity. Qed.

Theorem C38_ucs2_round_trip : forall rs cap16 cap8, Forall character rs ->
  Z.of_nat (length (utf16s rs)) < cap16 -> Z.of_nat (length (utf8s rs)) < cap8 ->
  utf8_to_ucs2 cap16 (utf8s rs ++ [0]) = Some (Some (utf16s rs ++ [0])) /\
  ucs2_to_utf8 cap8 (utf16s rs ++ [0]) = Some (Some (utf8s rs ++ [0])).
Proof.
  intros rs c16 c8 F H16 H8. split.
  - rewrite ucs2_ok by (easy || lia). destruct (Z.leb_spec (Z.of_nat (length (utf16s rs))) (c16 - 1)); [easy|lia].
  - rewrite utf8_ok by (easy || lia). destruct (Z.leb_spec (Z.of_nat (length (utf8s rs))) (c8 - 1)); [easy|lia].
Qed.
(** buffers that are too small give NULL, without an overrun *)
Theorem C38_ucs2_small_buffer : forall rs cap, Forall character rs -> 0 < cap ->
  (cap <= Z.of_nat (length (utf16s rs)) -> utf8_to_ucs2 cap (utf8s rs ++ [0]) = Some None) /\
  (cap <= Z.of_nat (length (utf8s rs)) -> ucs2_to_utf8 cap (utf16s rs ++ [0]) = Some None).
Proof.
  intros rs cap F Hc. split; intros H.
  - rewrite ucs2_ok by easy. destruct (Z.leb_spec (Z.of_nat (length (utf16s rs))) (cap - 1)); [lia|easy].
  - rewrite utf8_ok by easy. destruct (Z.leb_spec (Z.of_nat (length (utf8s rs))) (cap - 1)); [lia|easy].
Qed.
Example C38_example : Forall character [0x41; 0xE9; 0x20AC; 0x1F600] /\ utf16s [0x41; 0xE9; 0x20AC; 0x1F600] = [0x41; 0xE9; 0x20AC; 0xD83D; 0xDE00] /\
  utf8_to_ucs2 6 [0x41; 0xC3; 0xA9; 0xE2; 0x82; 0xAC; 0xF0; 0x9F; 0x98; 0x80; 0] = Some (Some [0x41; 0xE9; 0x20AC; 0xD83D; 0xDE00; 0]) /\
  utf8_to_ucs2 5 [0x41; 0xC3; 0xA9; 0xE2; 0x82; 0xAC; 0xF0; 0x9F; 0x98; 0x80; 0] = Some None.
Proof. repeat split; try reflexivity. repeat constructor; unfold character, scalar; lia. Qed.

(** every NUL-terminated byte string: no fault; success exactly for UTF-8 that fits *)
Theorem C71_utf8_to_ucs2_exact : forall s cap, bytes s -> Forall (fun c => c <> 0) s -> 0 < cap ->
  (exists rs, Forall character rs /\ s = utf8s rs /\ Z.of_nat (length (utf16s rs)) < cap /\
     utf8_to_ucs2 cap (s ++ [0]) = Some (Some (utf16s rs ++ [0]))) \/
  ((forall rs, Forall character rs -> Z.of_nat (length (utf16s rs)) < cap -> s <> utf8s rs) /\ utf8_to_ucs2 cap (s ++ [0]) = Some None).
Proof.
  intros s cap B F Hc. destruct (split_chars s B F) as (rs & t & Frs & -> & St).
  destruct t as [|c t].
  - rewrite app_nil_r in *. rewrite ucs2_ok by easy. destruct (Z.leb_spec (Z.of_nat (length (utf16s rs))) (cap - 1)) as [L|L].
    + left. exists rs. repeat split; try easy. lia.
    + right. split; [|easy]. intros rs' F' H' E. pose proof (ucs2_ok cap rs [] Frs Hc) as X. pose proof (ucs2_ok cap rs' [] F' Hc) as Y.
      rewrite E in X. rewrite X in Y. destruct (Z.leb_spec (Z.of_nat (length (utf16s rs))) (cap - 1)); [lia|].
      destruct (Z.leb_spec (Z.of_nat (length (utf16s rs'))) (cap - 1)); [easy|lia].
  - right. apply Forall_app in B as (_ & B). apply Forall_app in F as (_ & F). rewrite <- app_assoc, ucs2_bad by easy. split; [|easy].
    intros rs' F' H' E. pose proof (ucs2_bad cap rs (c :: t) Frs Hc B F St ltac:(easy)) as X. pose proof (ucs2_ok cap rs' [] F' Hc) as Y.
    rewrite app_assoc, E in X. rewrite X in Y. destruct (Z.leb_spec (Z.of_nat (length (utf16s rs'))) (cap - 1)); [easy|lia].
Qed.
Example C71_example : utf8_to_ucs2 8 [0xE2; 0x82; 0] = Some None /\ utf8_to_ucs2 8 [0xC1; 0x81; 0] = Some None
  /\ utf8_to_ucs2 8 [0xC3; 0xA9; 0] = Some (Some [0xE9; 0]).
Proof. repeat split; reflexivity. Qed.
(** the other direction trusts its input: an unpaired high surrogate steps over the
    terminator, or combines with any unit into an ill-formed sequence *)
Theorem C71_ucs2_to_utf8_lone_surrogate_refuted : forall cap rs h, Forall character rs -> 0xd800 <= h < 0xdc00 ->
  Z.of_nat (length (utf8s rs)) + 4 < cap -> ucs2_to_utf8 cap (utf16s rs ++ [h; 0]) = None.
Proof. intros. apply utf8_lone_high; try easy. lia. Qed.
(** an unpaired low surrogate is refused *)
Theorem C71_ucs2_to_utf8_low_surrogate : forall cap rs l tl, Forall character rs -> 0xdc00 <= l < 0xe000 -> 0 < cap ->
  ucs2_to_utf8 cap (utf16s rs ++ l :: tl) = Some None.
Proof.
  intros cap rs l tl F Hl Hcap. unfold ucs2_to_utf8. pose proof (utf16s_length rs). rewrite utf8_loop_chars; try easy; try (cbn [length]; lia); [|rewrite app_length; lia].
  cbn [length app Nat.add]. destruct (Z.leb_spec (Z.of_nat (length (utf8s rs))) (cap - 1)); [|easy]. rewrite app_length. cbn [length].
  replace (S _ - length rs)%nat with (S (length (utf16s rs) + S (length tl) - length rs)) by lia.
  rewrite (utf8_loop_step _ _ _ _ l tl) by (easy || lia). unfold to_utf8_step. cbn [nth_error obind].
  destruct (Z.ltb_spec l 0x80); [lia|]. destruct (Z.ltb_spec l 0x800); [lia|]. rewrite !Z.geb_leb.
  destruct (Z.leb_spec 0xd800 l); [|lia]. destruct (Z.ltb_spec l 0xdc00); [lia|]. destruct (Z.leb_spec 0xdc00 l); [|lia]. destruct (Z.ltb_spec l 0xe000); [|lia].
  reflexivity.
Qed.
Example C71_low_ex : ucs2_to_utf8 16 [0x41; 0xDC01; 0x42; 0] = Some None.
Proof. reflexivity. Qed.
Theorem C71_ucs2_to_utf8_output_refuted : exists s out, ucs2_to_utf8 16 s = Some (Some (out ++ [0])) /\ utf8_decode out (Z.of_nat (length out)) = Some (0xFFFD, 1).
Proof. exists [0xD800; 0x41; 0], [0xF0; 0x82; 0x91; 0x81]. split; reflexivity. Qed.

Theorem C39_utf8_strlen : forall rs tl, Forall character rs -> utf8_strlen (utf8s rs ++ 0 :: tl) = Some (Z.of_nat (length rs)).
Proof. exact strlen_ok. Qed.
Theorem C39_utf8_strlen_malformed : forall rs c tl, Forall character rs -> 0x80 <= c < 0xc0 \/ 0xf8 <= c < 0x100 ->
  utf8_strlen (utf8s rs ++ c :: tl) = Some (-1).
Proof. exact strlen_bad. Qed.
Theorem C39_utf8_strnlen : forall rs tl max, Forall character rs -> utf8_strnlen (utf8s rs ++ 0 :: tl) max = Some (starting_before max rs).
Proof. intros rs tl max F. unfold utf8_strnlen. pose proof (utf8s_length rs). rewrite strnlen_ok by (easy || rewrite app_length; lia). f_equal. Qed.
(** a truncated last character: the scan steps over the terminator *)
Theorem C39_utf8_strlen_truncated_refuted : forall rs r, Forall character rs -> character r -> forall p q, utf8 r = p ++ q -> p <> [] -> q <> [] ->
  utf8_strlen (utf8s rs ++ p ++ [0]) = None.
Proof.
  intros rs r F Hr p q E Hp Hq. destruct (lead_utf8 r Hr) as (c & t & E' & Hc & Hl). destruct p as [|x p]; [easy|]. rewrite E' in E. injection E as <- E.
  apply (strlen_truncated rs c p (length (utf8 r))); try easy. rewrite E', E. cbn [length]. rewrite app_length. destruct q; [easy|cbn [length]; lia].
Qed.
(** with a limit, one byte past the limit is still read *)
Theorem C39_utf8_strnlen_overread_refuted : utf8_strnlen [65; 66] 2 = None.
Proof. reflexivity. Qed.
Example C39_example : utf8_strlen [0x41; 0xC3; 0xA9; 0xE2; 0x82; 0xAC; 0] = Some 3 /\ utf8_strnlen [0x41; 0xC3; 0xA9; 0xE2; 0x82; 0xAC; 0] 3 = Some 2
  /\ utf8_strlen [0x41; 0xE2; 0x82; 0] = None.
Proof. repeat split; reflexivity. Qed.

(** the function named for the size of a code point answers 1 for every code point *)
Theorem C72_utf8_codepoint_size_refuted : forall r tl n, character r -> 0 < n -> utf8_codepoint_size (utf8 r ++ tl) n = Some 1.
Proof.
  intros r tl n Hr Hn. unfold utf8_codepoint_size. destruct (Z.to_nat n) as [|k] eqn:Ek; [lia|]. cbn [codepoint_size_loop].
  destruct (Z.ltb_spec 0 n); [|lia]. change (Z.to_nat 0) with O.
  assert (exists c t, utf8 r = c :: t /\ c <> 0 /\ (Z.land c 0xc0 =? 0x80) = false) as (c & t & E & Hc & Hl).
  { destruct Hr as (S0 & Hz). assert (R : 0 < r <= 0x10FFFF) by (unfold scalar in S0; lia). unfold utf8.
    destruct (Z.ltb_spec r 0x80). { exists r, []. rewrite cont_test by (unfold byte; lia). decs. repeat split; easy || lia. }
    destruct (Z.ltb_spec r 0x800).
    { assert (X : 0xc0 <= 0xC0 + r / 64 < 256) by (Z.div_mod_to_equations; lia). eexists _, _. split; [reflexivity|]. split; [lia|]. rewrite cont_test by (unfold byte; lia). decs. easy. }
    destruct (Z.ltb_spec r 0x10000).
    { assert (X : 0xc0 <= 0xE0 + r / 4096 < 256) by (Z.div_mod_to_equations; lia). eexists _, _. split; [reflexivity|]. split; [lia|]. rewrite cont_test by (unfold byte; lia). decs. easy. }
    assert (X : 0xc0 <= 0xF0 + r / 262144 < 256) by (Z.div_mod_to_equations; lia). eexists _, _. split; [reflexivity|]. split; [lia|]. rewrite cont_test by (unfold byte; lia). decs. easy. }
  rewrite E. cbn [app nth_error obind]. rewrite Hl. cbn [negb]. destruct (Z.eqb_spec c 0); [easy|]. easy.
Qed.
Example C72_example : character 0x20AC /\ length (utf8 0x20AC) = 3%nat /\ utf8_codepoint_size [0xE2; 0x82; 0xAC] 3 = Some 1.
Proof. unfold character, scalar. repeat split; try reflexivity; lia. Qed.

Print Assumptions C36_utf8_encode.
Print Assumptions C36_utf8_round_trip.
Print Assumptions C37_utf8_decode_exact.
Print Assumptions C38_ucs2_round_trip.
Print Assumptions C38_ucs2_small_buffer.
Print Assumptions C71_utf8_to_ucs2_exact.
Print Assumptions C71_ucs2_to_utf8_lone_surrogate_refuted.
Print Assumptions C39_utf8_strlen.
Print Assumptions C39_utf8_strlen_malformed.
Print Assumptions C39_utf8_strnlen.
Print Assumptions C39_utf8_strlen_truncated_refuted.
Print Assumptions C72_utf8_codepoint_size_refuted.
Print Assumptions C71_ucs2_to_utf8_low_surrogate.
