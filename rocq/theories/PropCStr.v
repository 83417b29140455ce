(** C42-C44, C73, C74: C strings. *)
From Verif Require Import Base CStr CStrSpec CStrProofs CStrProofs2.

(** a NUL-terminated string inside a larger object *)
Theorem C42_strcmp : forall s t x y, cstring s -> cstring t -> exists r, strcmp (s ++ 0 :: x) (t ++ 0 :: y) = Some r /\
  (r = 0 <-> s = t) /\ (r < 0 <-> before s t) /\ (r > 0 <-> before t s).
Proof. exact strcmp_ok. Qed.
(** [p] and [q] are the addresses the two arguments happen to have *)
Theorem C42_strncmp : forall n p q s t x y, cstring s -> cstring t -> exists r, strncmp n p q (s ++ 0 :: x) (t ++ 0 :: y) = Some r /\
  (r = 0 <-> firstn n s = firstn n t) /\ (firstn n s <> firstn n t -> r = if p <? q then -1 else 1).
Proof.
  intros n p q s t x y Hs Ht. rewrite strncmp_ok by easy. destruct (list_eq_dec _ _ _) as [E|E]; [now exists 0|].
  exists (if p <? q then -1 else 1). split; [easy|]. split; [|easy]. split; [|easy]. destruct (p <? q); easy.
Qed.
(** so no sign convention relates a non-zero result to the order of the strings *)
Theorem C42_strncmp_order_refuted : ~ (exists f : Z -> Prop, forall n p q s t x y r, cstring s -> cstring t ->
  strncmp n p q (s ++ 0 :: x) (t ++ 0 :: y) = Some r -> r <> 0 -> (f r <-> before s t)).
Proof.
  intros (f & H).
  assert (A : f (-1)).
  { apply (H 1%nat 100 200 [97] [98] [] []); try easy; try (repeat constructor; lia); apply before_head; lia. }
  apply (H 1%nat 100 200 [98] [97] [] []) in A; try easy; try (repeat constructor; lia). inversion A; subst; lia.
Qed.
Example C42_example : cstring [104; 105] /\ cstring [104; 200] /\ before [104; 105] [104; 200] /\
  strcmp [104; 105; 0] [104; 200; 0; 7] = Some (-95) /\ strncmp 1 100 200 [104; 105; 0] [104; 200; 0] = Some 0 /\
  strncmp 2 100 200 [104; 200; 0] [104; 105; 0] = Some (-1).
Proof. repeat split; try reflexivity; try (repeat constructor; lia). Qed.

Theorem C43_strncpy : forall d s x len, cstring s -> 0 <= len -> let n := Z.to_nat len in
  ((n <= length d)%nat -> strncpy d (s ++ 0 :: x) len = Some (firstn n s ++ repeat 0 (n - length s) ++ skipn n d)) /\
  ((length d < n)%nat -> strncpy d (s ++ 0 :: x) len = None).
Proof.
  intros d s x len H Hl n. rewrite strncpy_ok by easy. fold n. destruct (Nat.leb_spec n (length d)) as [L|L]; split; intros L'; try lia; try easy.
  unfold padded. now rewrite <- app_assoc.
Qed.
Theorem C43_strlcpy : forall d s x len, cstring s -> 0 <= len -> let n := Z.to_nat len in
  ((n <= length d)%nat -> strlcpy d (s ++ 0 :: x) len = Some (firstn n s ++ repeat 0 (n - length s) ++ skipn n d, Z.of_nat (Nat.min (length s) n))) /\
  ((length d < n)%nat -> strlcpy d (s ++ 0 :: x) len = None).
Proof.
  intros d s x len H Hl n. rewrite strlcpy_ok by easy. fold n. destruct (Nat.leb_spec n (length d)) as [L|L]; split; intros L'; try lia; try easy.
  unfold padded. now rewrite <- app_assoc.
Qed.
(** terminated exactly when the source is shorter than the buffer *)
Theorem C43_strlcpy_terminated : forall d s x d' r, cstring s -> strlcpy d (s ++ 0 :: x) (Z.of_nat (length d)) = Some (d', r) ->
  (In 0 d' <-> (length s < length d)%nat).
Proof.
  intros d s x d' r H E. rewrite strlcpy_ok in E by easy. rewrite Nat2Z.id, Nat.leb_refl in E. injection E as <- _.
  rewrite skipn_all, app_nil_r. unfold padded. rewrite in_app_iff. split.
  - intros [I|I].
    + assert (J : In 0 s) by (rewrite <- (firstn_skipn (length d) s); apply in_or_app; now left).
      pose proof (proj1 (Forall_forall _ s) H 0 J). cbn in *. lia.
    + destruct (Nat.ltb_spec (length s) (length d)); [easy|]. replace (length d - length s)%nat with O in I by lia. destruct I.
  - intros L. right. destruct (length d - length s)%nat eqn:Q; [lia|]. now left.
Qed.
Theorem C43_strcpy : forall d s x, cstring s ->
  ((length s <= length d)%nat -> strcpy d (s ++ 0 :: x) = Some (s ++ skipn (length s) d)) /\
  ((length d < length s)%nat -> strcpy d (s ++ 0 :: x) = None).
Proof. intros d s x H. rewrite strcpy_ok by easy. destruct (Nat.leb_spec (length s) (length d)); split; intros; try lia; easy. Qed.
Theorem C43_strcat : forall u v s x, cstring u -> cstring s ->
  ((length s <= S (length v))%nat -> strcat (u ++ 0 :: v) (s ++ 0 :: x) = Some (u ++ s ++ skipn (length s) (0 :: v))) /\
  ((S (length v) < length s)%nat -> strcat (u ++ 0 :: v) (s ++ 0 :: x) = None).
Proof. intros u v s x Hu Hs. rewrite strcat_ok by easy. destruct (Nat.leb_spec (length s) (S (length v))); split; intros; try lia; easy. Qed.
(** neither writes a terminator: the result runs into the old contents *)
Theorem C43_strcpy_terminator_refuted : exists d s d', cstring s /\ (length s < length d)%nat /\ strcpy d (s ++ [0]) = Some d' /\ ~ In 0 d'.
Proof. exists [1; 1; 1; 1], [104; 105], [104; 105; 1; 1]. repeat split; try (repeat constructor; lia). cbn [In]. lia. Qed.
Theorem C43_strcat_terminator_refuted : exists u v s d', cstring u /\ cstring s /\ (length s < S (length v))%nat /\
  strcat (u ++ 0 :: v) (s ++ [0]) = Some d' /\ ~ In 0 d'.
Proof. exists [97], [1; 1; 1], [104; 105], [97; 104; 105; 1; 1]. repeat split; try (repeat constructor; lia). cbn [In]. lia. Qed.
Example C43_example : strncpy [9; 9; 9; 9] [104; 105; 0] 3 = Some [104; 105; 0; 9] /\ strlcpy [9; 9; 9] [97; 98; 99; 0] 2 = Some ([97; 98; 9], 2)
  /\ strncpy [9] [104; 105; 0] 3 = None.
Proof. repeat split; reflexivity. Qed.

Theorem C44_length : forall s x, cstring s -> strlen (s ++ 0 :: x) = Some (length s) /\
  forall n, strnlen (s ++ 0 :: x) n = Some (Nat.min (length s) n).
Proof. intros s x H. split; [now apply strlen_ok|]. intros n. now apply strnlen_ok. Qed.
(** the terminator takes part in the search *)
Theorem C44_first_occurence : forall s x ch, cstring s -> exists o, first_occurence (s ++ 0 :: x) ch = Some o /\
  match o with
  | Some k => nth_error (s ++ [0]) k = Some ch /\ ~ In ch (firstn k s)
  | None => ~ In ch (s ++ [0])
  end.
Proof. intros s x ch H. pose proof (first_ok s x ch H) as X. destruct (first_occurence (s ++ 0 :: x) ch) as [o|]; [|easy]. exists o. split; [easy|]. now destruct o. Qed.
Theorem C44_last_occurence : forall s x ch, cstring s -> exists o, last_occurence (s ++ 0 :: x) ch = Some o /\
  match o with
  | Some k => nth_error (s ++ [0]) k = Some ch /\ forall j, (k < j)%nat -> nth_error (s ++ [0]) j <> Some ch
  | None => ~ In ch (s ++ [0])
  end.
Proof.
  intros s x ch H. destruct (last_ok s x ch 0 None H) as (r & E & [(i & -> & A & B)|(-> & A)]); eexists; (split; [exact E|]); cbn; auto.
Qed.
(** every string is a longest delimiter-free prefix [t] followed by nothing or by a
    delimiter; strtok copies and terminates [t] and steps over the delimiter *)
Theorem C44_strtok : forall s x d y out, cstring s -> cstring d -> exists t r, s = t ++ r /\
  (forall c, In c t -> ~ In c d) /\ (r = [] \/ exists c r', r = c :: r' /\ In c d) /\
  ((length t < length out)%nat -> strtok out (s ++ 0 :: x) (d ++ 0 :: y) =
     Some (t ++ 0 :: skipn (S (length t)) out, match r with [] => length t | _ => S (length t) end)).
Proof.
  intros s x d y out Hs Hd. destruct (split_delim d s) as (t & r & -> & A & B). exists t, r. repeat split; try easy. intros L.
  destruct (split_at out (S (length t))) as (o & w & -> & Lo); [lia|]. rewrite <- Lo at 1. rewrite skipn_len.
  apply Forall_app in Hs as (Ht & Hr). unfold strtok. destruct B as [->|(c & r' & -> & I)].
  - rewrite app_nil_r. pose proof (tok_ok d y Hd t [] o w 0 x Ht A Lo (or_introl eq_refl)) as X. cbn [app length Nat.add Z.eqb] in X. rewrite X. do 2 f_equal. lia.
  - pose proof (tok_ok d y Hd t [] o w c (r' ++ 0 :: x) Ht A Lo (or_intror I)) as X. cbn [app length Nat.add] in X.
    rewrite <- app_assoc. cbn [app]. rewrite X. inversion Hr; subst. destruct (Z.eqb_spec c 0); [lia|]. do 2 f_equal. lia.
Qed.
Theorem C44_strntok : forall s x d y out b, cstring s -> cstring d -> out <> [] -> exists t r, s = t ++ r /\
  (forall c, In c t -> ~ In c d) /\ (r = [] \/ exists c r', r = c :: r' /\ In c d) /\
  ((length t < length out)%nat -> exists o', strntok (out ++ b) (Z.of_nat (length out)) (s ++ 0 :: x) (d ++ 0 :: y) =
     Some (t ++ 0 :: o' ++ b, match r with [] => length t | _ => S (length t) end) /\ length (t ++ 0 :: o') = length out).
Proof.
  intros s x d y out b Hs Hd Ho. destruct (split_delim d s) as (t & r & -> & A & B). exists t, r. repeat split; try easy. intros L.
  destruct (rev out) as [|z q] eqn:R; [apply (f_equal (@rev Z)) in R; rewrite rev_involutive in R; easy|].
  assert (E : out = rev q ++ [z]) by (rewrite <- (rev_involutive out), R; easy). set (u := rev q) in *. clearbody u. subst out. clear R q Ho.
  unfold strntok. destruct (Z.leb_spec (Z.of_nat (length (u ++ [z]))) 0) as [G|_]; [rewrite app_length in G; cbn in G; lia|]. rewrite Nat2Z.id.
  replace (length (u ++ [z]) - 1)%nat with (length u) by (rewrite app_length; cbn; lia). rewrite <- app_assoc. cbn [app]. rewrite wr_at. cbn [obind].
  set (out := u ++ [0]). assert (Lo : length (u ++ [z]) = length out) by (unfold out; rewrite !app_length; easy). rewrite Lo in *.
  replace (u ++ 0 :: b) with (out ++ b) by (unfold out; now rewrite <- app_assoc). clearbody out. clear Lo u z.
  exists (skipn (S (length t)) out). split.
  - apply Forall_app in Hs as (Ht & Hr). destruct B as [->|(c & r' & -> & I)].
    + rewrite app_nil_r. pose proof (ntok_ok d y Hd t [] out b 0 x Ht A (or_introl eq_refl) L) as X. cbn [app length Nat.add Z.eqb] in X. rewrite X. do 2 f_equal. lia.
    + pose proof (ntok_ok d y Hd t [] out b c (r' ++ 0 :: x) Ht A (or_intror I) L) as X. cbn [app length Nat.add] in X.
      rewrite <- app_assoc. cbn [app]. rewrite X. inversion Hr; subst. destruct (Z.eqb_spec c 0); [lia|]. do 2 f_equal. lia.
  - rewrite app_length. cbn [length]. rewrite skipn_length. lia.
Qed.
(** a token at least as long as the buffer is cut without a terminator, and the pointer
    returned has stepped over one of its characters *)
Theorem C44_strntok_long_refuted : forall t c r x d y old b, cstring (t ++ c :: r) -> cstring d -> (forall c, In c t -> ~ In c d) ->
  length old = length t -> t <> [] ->
  strntok (old ++ b) (Z.of_nat (length t)) ((t ++ c :: r) ++ 0 :: x) (d ++ 0 :: y) = Some (t ++ b, S (length t)).
Proof.
  intros t c r x d y old b Hs Hd A L Hne. unfold strntok. assert (0 < length t)%nat by (destruct t; [easy|cbn; lia]).
  destruct (Z.leb_spec (Z.of_nat (length t)) 0); [lia|]. rewrite Nat2Z.id. destruct (split_at old (length t - 1)) as (u & v & -> & Lu); [lia|].
  rewrite app_length in L. destruct v as [|z [|? ?]]; cbn [length] in L; try lia. rewrite <- Lu. rewrite <- app_assoc. cbn [app]. rewrite wr_at. cbn [obind].
  apply Forall_app in Hs as (Ht & Hr). inversion Hr; subst.
  replace ((t ++ c :: r) ++ 0 :: x) with (t ++ c :: r ++ 0 :: x) by (now rewrite <- app_assoc).
  replace (u ++ 0 :: b) with ((u ++ [0]) ++ b) by (now rewrite <- app_assoc).
  assert (Lo : length (u ++ [0]) = length t) by (rewrite app_length; cbn; lia).
  pose proof (ntok_trunc d y Hd t [] (u ++ [0]) b c (r ++ 0 :: x) Ht A ltac:(easy) Lo) as X. cbn [app length Nat.add] in X. rewrite Lo in X. exact X.
Qed.
Theorem C44_strrev : forall s x, cstring s -> strrev (s ++ 0 :: x) = Some (rev s ++ 0 :: x).
Proof. exact strrev_ok. Qed.
Theorem C44_has_prefix : forall p s x y, cstring p -> cstring s ->
  exists b, has_prefix (s ++ 0 :: x) (p ++ 0 :: y) = Some b /\ (b = true <-> exists q, s = p ++ q).
Proof. exact prefix_ok. Qed.
Theorem C44_has_suffix : forall s p x y, cstring p -> cstring s ->
  exists b, has_suffix (s ++ 0 :: x) (p ++ 0 :: y) = Some b /\ (b = true <-> exists q, s = q ++ p).
Proof. exact suffix_ok. Qed.
Theorem C44_trim : forall s x catch, cstring s -> exists n, str_trim (s ++ 0 :: x) catch = Some n /\ (n <= length s)%nat /\
  Forall (fun c => white c /\ (catch = true -> c <> 10)) (firstn n s) /\
  (forall c, nth_error s n = Some c -> ~ (white c /\ (catch = true -> c <> 10))).
Proof. exact trim_ok. Qed.
Theorem C44_skip : forall s x ch, cstring s -> exists n, str_skip (s ++ 0 :: x) ch = Some n /\ (n <= length s)%nat /\
  ~ In ch (firstn n s) /\ (forall c, nth_error s n = Some c -> c = ch).
Proof. exact skip_ok. Qed.
Theorem C44_skip_any : forall s x l y, cstring s -> cstring l -> exists n, str_skip_any (s ++ 0 :: x) (l ++ 0 :: y) = Some n /\ (n <= length s)%nat /\
  (forall c, In c l -> ~ In c (firstn n s)) /\ (forall c, nth_error s n = Some c -> In c l).
Proof. exact skip_any_ok. Qed.
(** stops at the first occurrence that is not preceded by a backslash *)
Theorem C44_skip_literal : forall s x ch, cstring s -> 0 < ch -> exists n, str_skip_literal (s ++ 0 :: x) ch = Some n /\ (n <= length s)%nat /\
  (forall j, (j < n)%nat -> nth_error s j = Some ch -> (0 < j)%nat /\ nth_error s (j - 1) = Some 92) /\
  (forall c, nth_error s n = Some c -> c = ch /\ (n = O \/ nth_error s (n - 1) <> Some 92)).
Proof.
  intros s x ch H Hch. destruct s as [|c s]; cbn [app str_skip_literal].
  - exists O. cbn. repeat split; try easy; lia.
  - inversion H as [|? ? Hc Hs]; subst. destruct (Z.eqb_spec c 0); [lia|]. cbn [orb]. destruct (Z.eqb_spec c ch) as [->|N].
    + exists O. split; [easy|]. split; [lia|]. split; [lia|]. intros z [= <-]. auto.
    + destruct (literal_loop_ok s x c ch Hs Hch) as (n1 & -> & L & A & B). cbn [obind]. exists (S n1). split; [easy|]. cbn [length]. split; [lia|]. split.
      * intros [|j] Hj E; [cbn in E; congruence|]. split; [lia|]. replace (S j - 1)%nat with j by lia. apply A; [lia|exact E].
      * intros z E. destruct (B z E) as (B1 & B2). split; [easy|]. right. replace (S n1 - 1)%nat with n1 by lia. exact B2.
Qed.
Theorem C44_concat : forall d s t x y, (length s + length t < length d)%nat ->
  str_concat d (Z.of_nat (length d)) (s ++ x) (length s) (t ++ y) (length t) = Some (s ++ t ++ 0 :: skipn (length s + length t + 1) d).
Proof. exact concat_ok. Qed.
(** the copy is terminated only if the caller asked for more than the length *)
Theorem C44_strdup : forall d s x, cstring s ->
  ((length s <= length d)%nat -> strdup d (s ++ 0 :: x) = Some (s ++ repeat 0 (length d - length s))) /\
  ((length d < length s)%nat -> strdup d (s ++ 0 :: x) = None).
Proof. intros d s x H. rewrite strdup_ok by easy. destruct (Nat.leb_spec (length s) (length d)); split; intros; try lia; easy. Qed.
Theorem C44_case : forall s x, cstring s ->
  exists lo up, str_to_lower (s ++ 0 :: x) = Some (lo ++ 0 :: x) /\ str_to_upper (s ++ 0 :: x) = Some (up ++ 0 :: x) /\
  Forall2 (fun c l => 65 <= c <= 90 /\ l = c + 32 \/ ~ 65 <= c <= 90 /\ l = c) s lo /\
  Forall2 (fun c u => 97 <= c <= 122 /\ u = c - 32 \/ ~ 97 <= c <= 122 /\ u = c) s up.
Proof.
  intros s x H. exists (map char_to_lower s), (map char_to_upper s). unfold str_to_lower, str_to_upper. rewrite !str_map_ok by easy.
  split; [easy|]. split; [easy|]. clear x H. split; induction s as [|c s IH]; constructor; try easy.
  - unfold char_to_lower. destruct (Z.leb_spec 65 c), (Z.leb_spec c 90); cbn [andb]; lia.
  - unfold char_to_upper. destruct (Z.leb_spec 97 c), (Z.leb_spec c 122); cbn [andb]; lia.
Qed.
Example C44_example : first_occurence [97; 98; 97; 0] 97 = Some (Some O) /\ last_occurence [97; 98; 97; 0] 97 = Some (Some 2%nat) /\
  strtok [9; 9; 9; 9] [97; 98; 44; 99; 0] [59; 44; 0] = Some ([97; 98; 0; 9], 3%nat) /\
  strntok [9; 9; 9; 9] 2 [97; 98; 99; 44; 0] [59; 44; 0] = Some ([97; 98; 9; 9], 3%nat) /\
  strntok [9; 9; 9; 9] 4 [97; 98; 44; 0] [59; 44; 0] = Some ([97; 98; 0; 0], 3%nat) /\
  strrev [97; 98; 99; 0] = Some [99; 98; 97; 0] /\ has_suffix [97; 98; 99; 0] [98; 99; 0] = Some true /\
  str_trim [32; 9; 10; 97; 0] true = Some 2%nat /\ str_skip_literal [97; 92; 34; 98; 34; 0] 34 = Some 4%nat.
Proof. repeat split; reflexivity. Qed.

(** every text made of newline-terminated lines, followed by anything after its NUL *)
Theorem C73_split_lines : forall strip l ls rest, Forall (Forall (fun c => c <> 0 /\ c <> 10)) (l :: ls) -> l <> [] ->
  str_split_lines (text_of (l :: ls) ++ 0 :: rest) strip = Some (flat_map chomped (l :: ls) ++ 0 :: rest, starts strip 0 (l :: ls)).
Proof. exact split_lines_ok. Qed.
(** a last line without its newline: the search leaves the object *)
Theorem C73_split_lines_unterminated_refuted : forall s strip, cstring s -> s <> [] -> ~ In 10 s ->
  str_split_lines (s ++ [0]) strip = None.
Proof.
  intros s strip H Hne N. unfold str_split_lines. destruct s as [|c s]; [easy|]. inversion H; subst.
  apply (split_overrun strip _ [] [] ((c :: s) ++ [0]) [] c); [easy|lia|]. rewrite app_nil_l. apply Forall_app. split; [|constructor; [discriminate|constructor]].
  apply Forall_forall. intros z I ->. now apply N.
Qed.
(** a text that starts with a newline: the byte before it is read *)
Theorem C73_split_lines_leading_newline_refuted : forall s strip, str_split_lines (10 :: s) strip = None.
Proof. reflexivity. Qed.
Example C73_example : str_split_lines [97; 98; 13; 10; 10; 99; 10; 0] true = Some ([97; 98; 0; 0; 0; 99; 0; 0], [0; 5]%nat) /\
  str_split_lines [97; 98; 13; 10; 10; 99; 10; 0] false = Some ([97; 98; 0; 0; 0; 99; 0; 0], [0; 4; 5]%nat) /\
  text_of [[97; 98; 13]; []; [99]] = [97; 98; 13; 10; 10; 99; 10].
Proof. repeat split; reflexivity. Qed.

(** hexadecimal digits *)
Theorem C74_hex_digit_to_int : forall c, 0 <= c < 256 ->
  (forall d, 0 <= d < 10 -> c = 48 + d -> hex_digit_to_int c = d) /\
  (forall d, 10 <= d < 16 -> c = 87 + d \/ c = 55 + d -> hex_digit_to_int c = d) /\
  (~ (48 <= c <= 57 \/ 97 <= c <= 102 \/ 65 <= c <= 70) -> hex_digit_to_int c = -1) /\
  (char_is_hex_digit c = true <-> 48 <= c <= 57 \/ 97 <= c <= 102 \/ 65 <= c <= 70).
Proof.
  intros c H. unfold hex_digit_to_int, digit_to_int, char_is_hex_digit, char_is_digit.
  destruct (Z.leb_spec 48 c), (Z.leb_spec c 57), (Z.leb_spec 97 c), (Z.leb_spec c 102), (Z.leb_spec 65 c), (Z.leb_spec c 70); cbn [andb orb]; repeat split; intros; try lia; try easy.
Qed.
(** digits and small letters count as digits up to base 36; nothing else does, except that
    the ten characters from 'W' to '`' count as 0 to 9 *)
Theorem C74_digit_to_int : forall c d, 0 <= c < 256 -> 0 <= d < 36 ->
  (digit_to_int c = d <-> (d < 10 /\ (c = 48 + d \/ c = 87 + d)) \/ (10 <= d /\ c = 87 + d)).
Proof.
  intros c d H D. unfold digit_to_int, char_is_digit. destruct (Z.leb_spec 48 c), (Z.leb_spec c 57); cbn [andb]; lia.
Qed.
(** the letters come out as 0..5 *)
Theorem C74_char_to_hex_digit_refuted : forall d, 10 <= d < 16 ->
  char_to_hex_digit (87 + d) = d - 10 /\ char_to_hex_digit (55 + d) = d - 10.
Proof.
  intros d H. assert (D : d = 10 \/ d = 11 \/ d = 12 \/ d = 13 \/ d = 14 \/ d = 15) by lia.
  destruct D as [->|[->|[->|[->|[->| ->]]]]]; split; reflexivity.
Qed.
Theorem C74_char_to_hex_digit_decimal : forall d, 0 <= d < 10 -> char_to_hex_digit (48 + d) = d.
Proof.
  intros d H. unfold char_to_hex_digit. destruct (Z.leb_spec 48 (48 + d)), (Z.leb_spec (48 + d) 57); cbn [andb]; lia.
Qed.
Example C74_example : hex_digit_to_int 70 = 15 /\ char_to_hex_digit 70 = 5 /\ hex_digit_to_int 71 = -1.
Proof. repeat split; reflexivity. Qed.

Print Assumptions C42_strcmp.
Print Assumptions C42_strncmp.
Print Assumptions C42_strncmp_order_refuted.
Print Assumptions C43_strncpy.
Print Assumptions C43_strlcpy.
Print Assumptions C43_strlcpy_terminated.
Print Assumptions C43_strcpy.
Print Assumptions C43_strcat.
Print Assumptions C43_strcpy_terminator_refuted.
Print Assumptions C43_strcat_terminator_refuted.
Print Assumptions C44_length.
Print Assumptions C44_first_occurence.
Print Assumptions C44_last_occurence.
Print Assumptions C44_strtok.
Print Assumptions C44_strntok.
Print Assumptions C44_strntok_long_refuted.
Print Assumptions C44_strrev.
Print Assumptions C44_has_prefix.
Print Assumptions C44_has_suffix.
Print Assumptions C44_trim.
Print Assumptions C44_skip.
Print Assumptions C44_skip_any.
Print Assumptions C44_skip_literal.
Print Assumptions C44_concat.
Print Assumptions C44_strdup.
Print Assumptions C44_case.
Print Assumptions C73_split_lines.
Print Assumptions C73_split_lines_unterminated_refuted.
Print Assumptions C73_split_lines_leading_newline_refuted.
Print Assumptions C74_hex_digit_to_int.
Print Assumptions C74_char_to_hex_digit_refuted.
Print Assumptions C74_char_to_hex_digit_decimal.
Print Assumptions C74_digit_to_int.
