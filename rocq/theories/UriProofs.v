(** Query strings. *)
From Coq Require Import String.
From Verif Require Import Base CStr CStrSpec CStrProofs Num NumSpec NumProofs PropNum Print PrintSpec PrintProofs PrintProofs2 PropPrint Node NodeProofs Uri UriSpec.

Lemma unres_range c : unreserved c -> 0 < c < 256.
Proof. unfold unreserved. change (asc "-._~") with [45; 46; 95; 126]. cbn [In]. lia. Qed.
Lemma unres_dec c : {unreserved c} + {~ unreserved c}.
Proof.
  unfold unreserved. change (asc "-._~") with [45; 46; 95; 126].
  destruct (Z_le_dec 65 c), (Z_le_dec c 90), (Z_le_dec 97 c), (Z_le_dec c 122), (Z_le_dec 48 c), (Z_le_dec c 57), (in_dec Z.eq_dec c [45; 46; 95; 126]);
    try (left; tauto); right; intros [H|[H|[H|H]]]; tauto || lia.
Qed.
Lemma enc_cs s e : encodes s e -> cstring s.
Proof. induction 1; constructor; auto; try lia. now apply unres_range. Qed.
Lemma enc_exists s : cstring s -> exists e, encodes s e.
Proof.
  induction 1 as [|c s H C (e & E)]; [eexists; constructor|]. destruct (unres_dec c) as [U|U]; [eexists; constructor; eauto|].
  destruct (Z.eq_dec c 32) as [->|N]; eexists; [apply enc_blank|apply enc_hex]; eauto.
Qed.
Lemma enc_fun s e e' : encodes s e -> encodes s e' -> e = e'.
Proof.
  intros H. revert e'. induction H as [|c s e U H IH|s e H IH|c s e C U N H IH]; intros e' H'; inversion H'; subst; try easy; try (f_equal; now apply IH).
  - exfalso. revert U. unfold unreserved. change (asc "-._~") with [45; 46; 95; 126]. cbn [In]. lia.
  - exfalso. match goal with U : unreserved 32 |- _ => revert U end. unfold unreserved. change (asc "-._~") with [45; 46; 95; 126]. cbn [In]. lia.
  - do 3 f_equal. now apply IH.
Qed.
(** the alphabet *)
Lemma hex_unres d : 0 <= d < 16 -> unreserved (digit_char d).
Proof.
  intros H. unfold unreserved, digit_char. destruct (Z.ltb_spec d 10); [lia|]. destruct (Z.ltb_spec d 36); lia.
Qed.
Lemma hex_parts c : 0 < c < 256 -> 0 <= c / 16 < 16 /\ 0 <= c mod 16 < 16.
Proof. intros H. split; [|apply Z.mod_pos_bound; lia]. split; [apply Z.div_pos; lia|apply Z.div_lt_upper_bound; lia]. Qed.
Lemma enc_alphabet s e : encodes s e -> forall x, In x e -> unreserved x \/ x = 43 \/ x = 37.
Proof.
  induction 1 as [|c s e U H IH|s e H IH|c s e C U N H IH]; intros x Hx; [easy| | |].
  - destruct Hx as [<-|Hx]; auto.
  - destruct Hx as [<-|Hx]; auto.
  - destruct (hex_parts c C). destruct Hx as [<-|[<-|[<-|Hx]]]; auto; left; now apply hex_unres.
Qed.
Lemma enc_len s e : encodes s e -> (List.length s <= List.length e)%nat.
Proof. induction 1; cbn [List.length]; lia. Qed.

(** ** encoding *)
Lemma print_str_ok s e : encodes s e -> uri_print_str s = Some e.
Proof.
  induction 1 as [|c s e U H IH|s e H IH|c s e C U N H IH]; [easy| | |]; cbn [uri_print_str].
  - pose proof (unres_range c U) as R.
    assert (N : c <> 32) by (intros ->; revert U; unfold unreserved; change (asc "-._~") with [45; 46; 95; 126]; cbn [In]; lia).
    destruct (Z.eqb_spec c 32); [easy|].
    assert (A : char_is_alphanumeric c || strchr (asc "-_.~") c = true).
    { unfold char_is_alphanumeric, char_is_alpha, char_is_digit, strchr. change (asc "-_.~") with [45; 95; 46; 126]. cbn [existsb].
      unfold unreserved in U. change (asc "-._~") with [45; 46; 95; 126] in U. cbn [In] in U.
      destruct U as [(A & B)|[(A & B)|[(A & B)|U]]].
      - apply Z.leb_le in A, B. rewrite A, B. reflexivity.
      - apply Z.leb_le in A, B. rewrite A, B. cbn [andb orb]. now rewrite orb_true_r.
      - apply Z.leb_le in A, B. rewrite A, B. cbn [andb orb]. now rewrite orb_true_r.
      - destruct U as [<-|[<-|[<-|[<-|[]]]]]; reflexivity. }
    rewrite A, fprintf_c by easy. cbn [obind]. rewrite IH. reflexivity.
  - change (32 =? 32) with true. cbn match. rewrite fprintf_s; [|repeat constructor; reflexivity|unfold small; cbn; unfold PRINTF_MAXLEN; lia].
    cbn [obind]. rewrite IH. reflexivity.
  - destruct (Z.eqb_spec c 32); [easy|].
    assert (A : char_is_alphanumeric c || strchr (asc "-_.~") c = false).
    { unfold char_is_alphanumeric, char_is_alpha, char_is_digit, strchr. change (asc "-_.~") with [45; 95; 46; 126]. cbn [existsb].
      unfold unreserved in U. change (asc "-._~") with [45; 46; 95; 126] in U. cbn [In] in U.
      apply not_true_iff_false. intros T. apply U. repeat rewrite ?orb_true_iff, ?andb_true_iff, ?Z.eqb_eq, ?Z.leb_le in T. lia. }
    rewrite A. destruct (hex_parts c C) as (H1 & H2).
    (* the two digits *)
    assert (D : exists z, snprintf (repeat 0 10) 10 (asc "%02X" ++ [0]) [AInt c] = Some ([digit_char (c / 16); digit_char (c mod 16)] ++ 0 :: z, 3)).
    { set (ps := [Dir false true (Digits [2]) Absent (Int Snone IX c)]).
      pose proof (C55_fits ps [[digit_char (c / 16); digit_char (c mod 16)]] (repeat 0 10) 10 [] []) as F.
      change (text_of ps ++ [0]) with (asc "%02X" ++ [0]) in F. change (args_of ps ++ []) with [AInt c] in F.
      destruct F as (z & F & _); [| | | |exists z; exact F].
      - constructor; [|constructor]. split; [split; [split; [constructor; [lia|constructor]|reflexivity]|exists 2, []; split; [easy|lia]]|]. split; [exact I|].
        assert (W : wrap (is_signed Snone IX) (bits Snone) c = c) by (cbn; apply Z.mod_small; lia).
        destruct (Z.eq_dec (c / 16) 0) as [E0|E0].
        + exists [digit_char (c mod 16)]. split.
          * split; [rewrite W; lia|]. exists [digit_char (c mod 16)]. split; [|easy]. rewrite W. exists [c mod 16].
            assert (c mod 16 = c) by (pose proof (Z.div_mod c 16 ltac:(lia)); lia).
            split; [split; [constructor; [easy|constructor]|right; exists (c mod 16), []; split; [easy|lia]]|].
            split; [unfold number; cbn; lia|]. destruct (Z.ltb_spec c 0); [lia|reflexivity].
          * rewrite E0. reflexivity.
        + exists [digit_char (c / 16); digit_char (c mod 16)]. split.
          * split; [rewrite W; lia|]. exists [digit_char (c / 16); digit_char (c mod 16)]. split; [|easy]. rewrite W. exists [c / 16; c mod 16].
            split; [split; [constructor; [easy|constructor; [easy|constructor]]|right; exists (c / 16), [c mod 16]; split; [easy|lia]]|].
            split; [unfold number; cbn [fold_left radix]; pose proof (Z.div_mod c 16 ltac:(lia)); lia|]. destruct (Z.ltb_spec c 0); [lia|reflexivity].
          * reflexivity.
      - cbn. lia.
      - cbn. lia.
      - intros _. cbn. auto. }
    destruct D as (z & D). rewrite D. cbn [obind].
    rewrite (fprintf_cs 37 [digit_char (c / 16); digit_char (c mod 16)] z); [|lia| |unfold small; cbn; unfold PRINTF_MAXLEN; lia].
    + cbn [obind]. rewrite IH. reflexivity.
    + pose proof (unres_range _ (hex_unres _ H1)). pose proof (unres_range _ (hex_unres _ H2)). constructor; [easy|constructor; [easy|constructor]].
Qed.

(** ** decoding *)
Lemma decode_loop_ok s e : encodes s e -> forall pre old post x, List.length old = List.length s ->
  decode_loop (e ++ 0 :: x) (pre ++ old ++ post) (List.length pre) = Some (pre ++ s ++ post, (List.length pre + List.length s)%nat).
Proof.
  induction 1 as [|c s e U H IH|s e H IH|c s e C U N H IH]; intros pre old post x L; destruct old as [|o old]; try discriminate L.
  - cbn. now rewrite Nat.add_0_r.
  - pose proof (unres_range c U) as R. unfold unreserved in U. change (asc "-._~") with [45; 46; 95; 126] in U. cbn [In] in U.
    cbn [app decode_loop]. destruct (Z.eqb_spec c 0); [lia|]. destruct (Z.eqb_spec c 37); [lia|]. destruct (Z.eqb_spec c 43); [lia|]. cbn [negb].
    change (pre ++ (o :: old) ++ post) with (pre ++ o :: (old ++ post)). rewrite wr_at. cbn [obind].
    specialize (IH (pre ++ [c]) old post x ltac:(cbn in L; lia)). rewrite <- !app_assoc, app_length in IH. cbn [app List.length] in IH. rewrite Nat.add_1_r in IH. rewrite IH. cbn [List.length]. do 2 f_equal. lia.
  - cbn [app decode_loop]. change (43 =? 0) with false. change (43 =? 37) with false. change (43 =? 43) with true. cbn [negb]. cbn match.
    change (pre ++ (o :: old) ++ post) with (pre ++ o :: (old ++ post)). rewrite wr_at. cbn [obind].
    specialize (IH (pre ++ [32]) old post x ltac:(cbn in L; lia)). rewrite <- !app_assoc, app_length in IH. cbn [app List.length] in IH. rewrite Nat.add_1_r in IH. rewrite IH. cbn [List.length]. do 2 f_equal. lia.
  - cbn [app decode_loop]. change (37 =? 0) with false. change (37 =? 37) with true. cbn [negb]. cbn match.
    destruct (hex_parts c C) as (H1 & H2).
    assert (F : Forall (fun d => 0 <= d < 16) [c / 16; c mod 16]) by (constructor; [easy|constructor; [easy|constructor]]).
    destruct (C41_i64_parse 16 (map digit_char [c / 16; c mod 16]) [c / 16; c mod 16] 0 [] ltac:(lia) (denotes_chars 16 _ ltac:(lia) F)) as (P & _);
      [intros; apply no_nul|easy|easy|].
    cbn [map app] in P. destruct P as (P & _); [unfold number; cbn [fold_left]; lia|]. rewrite P. cbn [obind].
    assert (E : number 16 [c / 16; c mod 16] = c) by (unfold number; cbn [fold_left]; pose proof (Z.div_mod c 16 ltac:(lia)); lia). rewrite E.
    change (pre ++ (o :: old) ++ post) with (pre ++ o :: (old ++ post)). rewrite wr_at. cbn [obind]. rewrite u8_id by lia.
    specialize (IH (pre ++ [c]) old post x ltac:(cbn in L; lia)). rewrite <- !app_assoc, app_length in IH. cbn [app List.length] in IH. rewrite Nat.add_1_r in IH. rewrite IH. cbn [List.length]. do 2 f_equal. lia.
Qed.
(** what decoding leaves in the place of [e] and its NUL *)
Definition decoded (s e : list Z) : list Z := s ++ 0 :: skipn (S (List.length s)) (e ++ [0]).
Lemma decoded_len s e : encodes s e -> List.length (decoded s e) = S (List.length e).
Proof. intros H. pose proof (enc_len s e H). unfold decoded. rewrite app_length. cbn [List.length]. rewrite skipn_length, app_length. cbn [List.length]. lia. Qed.
Lemma skipn_more {A} (u v : list A) n : (n <= List.length u)%nat -> skipn n (u ++ v) = skipn n u ++ v.
Proof. intros H. rewrite skipn_app. replace (n - List.length u)%nat with O by lia. reflexivity. Qed.
Lemma skipn1 {A} : forall n (l : list A), skipn 1 (skipn n l) = skipn (S n) l.
Proof. induction n as [|n IH]; intros [|a l]; try reflexivity. exact (IH l). Qed.
Lemma decode_with_ok m s e pre post : encodes s e -> (List.length s < m)%nat ->
  (' (buf, p) <- decode_loop (skipn (List.length pre) (pre ++ e ++ 0 :: post)) (repeat 0 m) 0 ;;
   d <- strcpy (skipn (List.length pre) (pre ++ e ++ 0 :: post)) buf ;;
   d <- wr d p 0 ;;
   Some (firstn (List.length pre) (pre ++ e ++ 0 :: post) ++ d)) = Some (pre ++ decoded s e ++ post).
Proof.
  intros H L. pose proof (enc_len s e H) as LE. pose proof (enc_cs s e H) as C. rewrite skipn_len, firstn_len.
  assert (Em : (m = List.length s + S (m - S (List.length s)))%nat) by lia.
  rewrite Em, repeat_app. cbn [repeat]. pose proof (decode_loop_ok s e H [] (repeat 0 (List.length s)) (repeat 0 (S (m - S (List.length s)))) post (repeat_length _ _)) as D.
  cbn [app List.length Nat.add repeat] in D. rewrite D. cbn [obind]. rewrite strcpy_ok by easy.
  destruct (Nat.leb_spec (List.length s) (List.length (e ++ 0 :: post))) as [_|B]; [|rewrite app_length in B; cbn [List.length] in B; lia]. cbn [obind].
  destruct (skipn (List.length s) (e ++ 0 :: post)) as [|y q] eqn:Eq.
  { apply (f_equal (@List.length Z)) in Eq. rewrite skipn_length, app_length in Eq. cbn [List.length] in Eq. lia. }
  rewrite wr_at. cbn [obind]. do 2 f_equal. unfold decoded. rewrite <- app_assoc. cbn [app]. do 2 f_equal.
  replace (e ++ 0 :: post) with ((e ++ [0]) ++ post) in Eq by now rewrite <- app_assoc.
  assert (Q : q = skipn 1 (skipn (List.length s) ((e ++ [0]) ++ post))) by now rewrite Eq.
  rewrite Q, skipn1. apply skipn_more. rewrite app_length. cbn [List.length]. lia.
Qed.
Lemma lt_to_nat n z : Z.of_nat n < z -> (n < Z.to_nat z)%nat.
Proof. lia. Qed.
Lemma decode_str_ok s e pre post : encodes s e -> Z.of_nat (List.length s) < buffer ->
  decode_str (pre ++ e ++ 0 :: post) (List.length pre) = Some (pre ++ decoded s e ++ post).
Proof. intros H L. unfold decode_str. apply decode_with_ok; [easy|]. apply lt_to_nat. exact L. Qed.

(** ** one parameter *)
Lemma scan_ok stop : forall s c x, Forall (fun a => a <> 0 /\ stop a = false) s -> c = 0 \/ stop c = true -> scan stop (s ++ c :: x) = Some (List.length s).
Proof.
  induction s as [|a s IH]; intros c x F Hc; cbn [app scan].
  - destruct (Z.eqb_spec c 0); [easy|]. destruct Hc as [|Hc]; [easy|]. rewrite Hc. reflexivity.
  - inversion F as [|? ? (N & E) F']; subst. destruct (Z.eqb_spec a 0); [easy|]. rewrite E. cbn [orb]. rewrite IH by easy. reflexivity.
Qed.
Lemma until_ok : forall s x, cstring s -> until_nul (s ++ 0 :: x) = Some s.
Proof. induction s as [|c s IH]; intros x C; [easy|]. inversion C; subst. cbn [app until_nul]. destruct (Z.eqb_spec c 0); [lia|]. rewrite IH by easy. reflexivity. Qed.
Definition safe (c : Z) : Prop := unreserved c \/ c = 43 \/ c = 37.
Lemma safe_name c : safe c -> c <> 0 /\ ends_name c = false.
Proof.
  unfold safe, unreserved. change (asc "-._~") with [45; 46; 95; 126]. cbn [In]. unfold ends_name, char_is_space. intros H.
  repeat match goal with |- context[?a =? ?b] => destruct (Z.eqb_spec a b) end; try lia; split; try easy; lia.
Qed.
Lemma safe_value c : safe c -> c <> 0 /\ ends_value c = false.
Proof. intros H. apply safe_name in H. unfold ends_name, ends_value in *. destruct H as (N & H). split; [easy|]. destruct (c =? 38), (c =? 63), (c =? 61); easy. Qed.
Lemma enc_safe s e : encodes s e -> Forall safe e.
Proof. intros H. apply Forall_forall. exact (enc_alphabet s e H). Qed.
Lemma numeral_unres v t : numeral 10 v t -> Forall unreserved t.
Proof.
  intros (ds & (F & _) & _ & ->). apply Forall_app. split; [destruct (v <? 0); [constructor; [right; right; right; now left|constructor]|constructor]|].
  apply Forall_forall. intros x Hx. apply in_map_iff in Hx. destruct Hx as (d & <- & Hd). rewrite Forall_forall in F. apply hex_unres. apply F in Hd. lia.
Qed.
Lemma plain_enc t : Forall unreserved t -> encodes t t.
Proof. induction 1; constructor; easy. Qed.
Lemma is_number_char c : strchr (asc "eE.+-") c || char_is_hex_digit c = true -> c = 0 \/ number_char c.
Proof.
  unfold strchr, char_is_hex_digit, char_is_digit, number_char. change (asc "eE.+-") with [101; 69; 46; 43; 45]. change (asc ".+-") with [46; 43; 45]. cbn [existsb In].
  intros H. repeat rewrite ?orb_true_iff, ?andb_true_iff, ?Z.eqb_eq, ?Z.leb_le in H. lia.
Qed.
Lemma anc_false : forall s x, cstring s -> (exists c, In c s /\ ~ number_char c) -> all_number_chars (s ++ 0 :: x) = Some false.
Proof.
  induction s as [|a s IH]; intros x C (c & I & N); [easy|]. inversion C; subst. cbn [app all_number_chars]. destruct (Z.eqb_spec a 0); [lia|].
  destruct (_ || _) eqn:E; [|easy]. apply IH; [easy|]. exists c. split; [|easy]. destruct I as [->|I]; [|easy]. apply is_number_char in E. destruct E; [lia|easy].
Qed.
Lemma anc_true : forall t x, cstring t -> Forall (fun c => strchr (asc "eE.+-") c || char_is_hex_digit c = true) t -> all_number_chars (t ++ 0 :: x) = Some true.
Proof. induction t as [|a t IH]; intros x C F; [easy|]. inversion C; inversion F; subst. cbn [app all_number_chars]. destruct (Z.eqb_spec a 0); [lia|]. rewrite H5. now apply IH. Qed.
Lemma numeral_chars v t : numeral 10 v t -> Forall (fun c => strchr (asc "eE.+-") c || char_is_hex_digit c = true) t.
Proof.
  intros (ds & (F & _) & _ & ->). apply Forall_app. split; [destruct (v <? 0); [constructor; [reflexivity|constructor]|constructor]|].
  apply Forall_forall. intros x Hx. apply in_map_iff in Hx. destruct Hx as (d & <- & Hd). rewrite Forall_forall in F. apply F in Hd. rewrite digit_char_small by lia.
  unfold char_is_hex_digit, char_is_digit. destruct (Z.leb_spec 48 (48 + d)), (Z.leb_spec (48 + d) 57); try lia; cbn [andb orb]; now rewrite orb_true_r.
Qed.
Lemma nul_after : after_int 0.
Proof. split; [reflexivity|lia]. Qed.

Lemma rd_app a c b : rd (a ++ c :: b) (List.length a) = Some c.
Proof. apply rd_at. Qed.
Lemma string_here pre s x y : cstring s -> string_at (pre ++ (s ++ 0 :: x) ++ y) (At (List.length pre)) = Some s.
Proof. intros C. unfold string_at. rewrite skipn_len, <- app_assoc. now apply until_ok. Qed.
Lemma params_step p e : good_param p -> written p e -> forall f pre c post nodes, c = 0 \/ c = 38 -> exists full node,
  List.length full = S (List.length e) /\
  params (S f) (pre ++ e ++ c :: post) (List.length pre) nodes =
    (if c =? 0 then Some (pre ++ full ++ post, nodes ++ [node]) else params f (pre ++ full ++ post) (List.length (pre ++ full)) (nodes ++ [node])) /\
  (forall pre' post', List.length pre' = List.length pre -> view (pre' ++ full ++ post') node = Some (node_of p)).
Proof.
  intros G W f pre c post nodes Hc.
  (* the name *)
  assert (N : forall n en d rest, encodes n en -> (en = [] -> d = 61) -> d = 0 \/ ends_name d = true -> Z.of_nat (List.length n) < buffer ->
    (exists ch, rd (pre ++ en ++ d :: rest) (List.length pre) = Some ch /\ (ch =? 0) || char_is_space ch = false) /\
    scan ends_name (skipn (List.length pre) (pre ++ en ++ d :: rest)) = Some (List.length en) /\
    rd (pre ++ en ++ d :: rest) (List.length pre + List.length en) = Some d /\
    (text <- wr (pre ++ en ++ d :: rest) (List.length pre + List.length en) 0 ;; decode_str text (List.length pre)) = Some (pre ++ decoded n en ++ rest)).
  { intros n en d rest En Ne Hd Ln. split; [|split; [|split]].
    - destruct en as [|ch en]; cbn [app]; rewrite rd_at; eexists; (split; [reflexivity|]); [rewrite (Ne eq_refl); reflexivity|].
      pose proof (enc_safe _ _ En) as S. inversion S as [|? ? S1 _]; subst. apply safe_name in S1. destruct S1 as (S1 & S2). unfold ends_name in S2.
      destruct (Z.eqb_spec ch 0); [easy|]. cbn [orb]. destruct (char_is_space ch); [rewrite orb_true_r in S2; easy|easy].
    - rewrite skipn_len. apply scan_ok; [|easy]. apply (Forall_impl _ safe_name). eapply enc_safe; eauto.
    - replace (pre ++ en ++ d :: rest) with ((pre ++ en) ++ d :: rest) by now rewrite <- app_assoc. rewrite <- app_length. apply rd_at.
    - replace (pre ++ en ++ d :: rest) with ((pre ++ en) ++ d :: rest) by now rewrite <- app_assoc. rewrite <- app_length, wr_at. cbn [obind]. rewrite <- app_assoc. now apply decode_str_ok. }
  assert (Hc1 : c = 0 \/ ends_name c = true) by (destruct Hc as [->| ->]; auto).
  assert (Hc2 : c = 0 \/ ends_value c = true) by (destruct Hc as [->| ->]; auto).
  (* the value *)
  assert (V : forall pre2 v ev, encodes v ev -> Z.of_nat (List.length v) < buffer ->
    scan ends_value (skipn (List.length pre2) (pre2 ++ ev ++ c :: post)) = Some (List.length ev) /\
    rd (pre2 ++ ev ++ c :: post) (List.length pre2 + List.length ev) = Some c /\
    (text <- wr (pre2 ++ ev ++ c :: post) (List.length pre2 + List.length ev) 0 ;; decode_str text (List.length pre2)) = Some (pre2 ++ decoded v ev ++ post)).
  { intros pre2 v ev Ev Lv. split; [|split].
    - rewrite skipn_len. apply scan_ok; [|easy]. apply (Forall_impl _ safe_value). eapply enc_safe; eauto.
    - replace (pre2 ++ ev ++ c :: post) with ((pre2 ++ ev) ++ c :: post) by now rewrite <- app_assoc. rewrite <- app_length. apply rd_at.
    - replace (pre2 ++ ev ++ c :: post) with ((pre2 ++ ev) ++ c :: post) by now rewrite <- app_assoc. rewrite <- app_length, wr_at. cbn [obind]. rewrite <- app_assoc. now apply decode_str_ok. }
  (* a parameter with a value *)
  assert (VV : forall n v en ev nd nd', encodes n en -> encodes v ev -> Z.of_nat (List.length n) < buffer -> Z.of_nat (List.length v) < buffer ->
    (forall text, (exists y, skipn (List.length (pre ++ decoded n en)) text = v ++ 0 :: y) ->
       str_to_number true text (str_node (At (List.length pre)) (At (List.length (pre ++ decoded n en)))) = Some nd) ->
    (forall pre' post', List.length pre' = List.length pre -> view (pre' ++ (decoded n en ++ decoded v ev) ++ post') nd = Some nd') ->
    exists full node, List.length full = S (List.length (en ++ 61 :: ev)) /\
      params (S f) (pre ++ (en ++ 61 :: ev) ++ c :: post) (List.length pre) nodes =
        (if c =? 0 then Some (pre ++ full ++ post, nodes ++ [node]) else params f (pre ++ full ++ post) (List.length (pre ++ full)) (nodes ++ [node])) /\
      (forall pre' post', List.length pre' = List.length pre -> view (pre' ++ full ++ post') node = Some nd')).
  { intros n v en ev nd nd' En Ev Ln Lv Hn Hv. exists (decoded n en ++ decoded v ev), nd.
    pose proof (decoded_len _ _ En) as L1. pose proof (decoded_len _ _ Ev) as L2.
    split; [rewrite !app_length; cbn [List.length]; lia|]. split; [|exact Hv].
    destruct (N n en 61 (ev ++ c :: post) En ltac:(easy) ltac:(now right) Ln) as ((ch & N1 & N1') & N2 & N3 & N4).
    rewrite <- app_assoc. cbn [app]. cbn [params]. rewrite N1. cbn [obind]. rewrite N1', N2. cbn [obind]. rewrite N3. cbn [obind].
    destruct (wr (pre ++ en ++ 61 :: ev ++ c :: post) (List.length pre + List.length en) 0) as [t1|] eqn:W1; [|discriminate N4]. cbn [obind] in N4 |- *. rewrite N4. cbn [obind].
    change (61 =? 61) with true. cbn match.
    assert (Ep : S (List.length pre + List.length en) = List.length (pre ++ decoded n en)) by (rewrite app_length; lia).
    destruct (V (pre ++ decoded n en) v ev Ev Lv) as (V1 & V2 & V3). rewrite <- app_assoc in V1, V2, V3. rewrite Ep, V1. cbn [obind]. rewrite V2. cbn [obind].
    destruct (wr (pre ++ decoded n en ++ ev ++ c :: post) (List.length (pre ++ decoded n en) + List.length ev) 0) as [t2|] eqn:W2; [|discriminate V3]. cbn [obind] in V3 |- *. rewrite V3. cbn [obind].
    rewrite Hn.
    2:{ eexists. replace ((pre ++ decoded n en) ++ decoded v ev ++ post) with ((pre ++ decoded n en) ++ (decoded v ev ++ post)) by now rewrite <- app_assoc.
        rewrite skipn_len. unfold decoded at 1. rewrite <- app_assoc. reflexivity. }
    cbn [obind]. replace (S (List.length (pre ++ decoded n en) + List.length ev)) with (List.length (pre ++ decoded n en ++ decoded v ev)) by (rewrite !app_length in *; lia).
    rewrite <- !app_assoc. reflexivity. }
  destruct G as ((Gc & Gl) & G). inversion W; subst; cbn [param_name] in *.
  - (* text *)
    destruct G as ((Gc2 & Gl2) & T). apply (VV n v en ev (str_node (At (List.length pre)) (At (List.length (pre ++ decoded n en))))); try easy.
    + intros text (y & Ey). unfold str_to_number, str_node. rewrite Ey. cbn [obind]. unfold parse_number_strict. destruct T as [->|T].
      * reflexivity.
      * rewrite anc_false by easy. reflexivity.
    + intros pre' post' Lp. unfold view, str_node. unfold string_opt. rewrite app_length, <- Lp, <- app_length. unfold decoded at 1. rewrite <- app_assoc. rewrite (string_here pre' n) by easy. cbn [obind].
      replace (pre' ++ (decoded n en ++ decoded v ev) ++ post') with ((pre' ++ decoded n en) ++ decoded v ev ++ post') by now rewrite <- !app_assoc.
      change (decoded v ev) with (v ++ 0 :: skipn (S (List.length v)) (ev ++ [0])). rewrite (string_here (pre' ++ decoded n en) v) by easy. reflexivity.
  - (* number *)
    pose proof (plain_enc _ (numeral_unres _ _ H0)) as Et. pose proof (numeral_len _ _ G H0) as Lt.
    assert (Ct : cstring t) by (eapply numeral_cs; [|eassumption]; lia).
    apply (VV n t en t (Tree (Some (At (List.length pre))) 0 zero_style (VInt v zero_analysis))); try easy; [unfold buffer; lia| |].
    + intros text (y & Ey). unfold str_to_number, str_node. rewrite Ey. cbn [obind]. unfold parse_number_strict. rewrite anc_true by (try easy; eapply numeral_chars; eauto).
      cbn [obind]. rewrite (parse_number_int v) by (try easy; apply nul_after). reflexivity.
    + intros pre' post' Lp. unfold view. unfold string_opt. rewrite <- Lp. unfold decoded at 1. rewrite <- app_assoc. rewrite (string_here pre' n) by easy. reflexivity.
  - (* flag *)
    exists (decoded n e), (flag_node (At (List.length pre))). split; [now apply decoded_len|]. split.
    + destruct (N n e c post H ltac:(intros ->; inversion H; subst; easy) Hc1 Gl) as ((ch & N1 & N1') & N2 & N3 & N4).
      cbn [params]. rewrite N1. cbn [obind]. rewrite N1', N2. cbn [obind]. rewrite N3. cbn [obind].
      destruct (wr (pre ++ e ++ c :: post) (List.length pre + List.length e) 0) as [t1|] eqn:W1; [|discriminate N4]. cbn [obind] in N4 |- *. rewrite N4. cbn [obind].
      destruct (Z.eqb_spec c 61) as [->|]; [lia|]. cbn [obind].
      replace (S (List.length pre + List.length e)) with (List.length (pre ++ decoded n e)) by (rewrite app_length, (decoded_len _ _ H); lia). reflexivity.
    + intros pre' post' Lp. unfold view, flag_node, string_opt. rewrite <- Lp. unfold decoded. rewrite (string_here pre' n) by easy. reflexivity.
Qed.

(** ** a whole query *)
Lemma params_ok : forall ps e, query ps e -> Forall good_param ps -> ps <> [] -> forall f pre post nodes, (List.length ps <= f)%nat -> exists full new,
  List.length full = S (List.length e) /\ params f (pre ++ e ++ 0 :: post) (List.length pre) nodes = Some (pre ++ full ++ post, nodes ++ new) /\
  (forall pre' post', List.length pre' = List.length pre -> views (pre' ++ full ++ post') new = Some (map node_of ps)).
Proof.
  induction 1 as [|p e W|p q ps e es W Q IH]; intros F Ne f pre post nodes Hf; [easy| |]; (destruct f as [|f]; [cbn in Hf; lia|]); inversion F as [|? ? G F']; subst.
  - destruct (params_step p e G W f pre 0 post nodes) as (full & node & L & P & V); [now left|]. exists full, [node]. split; [easy|]. split; [exact P|].
    intros pre' post' Lp. rewrite views_cons, V by easy. reflexivity.
  - rewrite <- app_assoc. cbn [app].
    destruct (params_step p e G W f pre 38 (es ++ 0 :: post) nodes) as (full & node & L & P & V); [now right|].
    destruct (IH F' ltac:(discriminate) f (pre ++ full) post (nodes ++ [node])) as (full2 & new & L2 & P2 & V2); [cbn in *; lia|].
    exists (full ++ full2), (node :: new). split; [rewrite !app_length; cbn [List.length]; lia|]. split.
    + rewrite P. change (38 =? 0) with false. cbn match. replace (pre ++ full ++ es ++ 0 :: post) with ((pre ++ full) ++ es ++ 0 :: post) by now rewrite <- app_assoc.
      rewrite P2. rewrite <- !app_assoc. reflexivity.
    + intros pre' post' Lp. rewrite views_cons, <- app_assoc, V by easy. cbn [obind].
      replace (pre' ++ full ++ full2 ++ post') with ((pre' ++ full) ++ full2 ++ post') by now rewrite <- app_assoc. rewrite V2 by (rewrite !app_length; lia). reflexivity.
Qed.
Lemma query_len : forall ps e, query ps e -> (List.length ps <= S (List.length e))%nat.
Proof. induction 1; cbn [List.length] in *; rewrite ?app_length; cbn [List.length]; lia. Qed.
Lemma uri_parse_query ps e post : query ps e -> Forall good_param ps -> exists text' root, uri_parse (63 :: e ++ 0 :: post) = Some (text', root) /\
  view text' root = Some (uri_root (map node_of ps)).
Proof.
  intros Q F. unfold uri_parse. cbn [str_trim]. change (negb (63 =? 0) && char_is_space 63 && (negb false || (false && negb (63 =? 10)))) with false. cbn match. cbn [obind].
  change (rd (63 :: e ++ 0 :: post) 0) with (Some 63). cbn [obind]. change (63 =? 0) with false. change (negb (63 =? 63)) with false. cbn match. cbn [obind].
  destruct ps as [|p ps].
  - inversion Q; subst. do 2 eexists. split; [reflexivity|]. reflexivity.
  - destruct (params_ok _ _ Q F ltac:(discriminate) (S (List.length (63 :: e ++ 0 :: post))) [63] post []) as (full & new & L & P & V).
    { pose proof (query_len _ _ Q). cbn [List.length] in *. rewrite app_length. cbn [List.length]. lia. }
    cbn [app List.length] in P. cbn [List.length]. rewrite P. cbn [obind]. do 2 eexists. split; [reflexivity|]. unfold uri_root. rewrite view_branch.
    change (63 :: full ++ post) with ([63] ++ full ++ post). rewrite V by easy. reflexivity.
Qed.
Lemma origin_char c : 0 < c < 256 -> c <> 63 -> ~ white c -> c <> 0 /\ ends_origin c = false.
Proof.
  unfold white, ends_origin, char_is_space. intros R N W. split; [lia|]. cbn [In] in W.
  repeat match goal with |- context[?a =? ?b] => destruct (Z.eqb_spec a b) end; try lia; easy.
Qed.
Lemma uri_parse_origin o ps e post : good_origin o -> query ps e -> Forall good_param ps -> exists text' root, uri_parse (o ++ 63 :: e ++ 0 :: post) = Some (text', root) /\
  view text' root = Some (uri_root (origin_node (Some o) ++ map node_of ps)).
Proof.
  intros (Ne & Co & Oc & _) Q F.
  assert (Fo : Forall (fun a => a <> 0 /\ ends_origin a = false) o).
  { apply Forall_forall. intros c I. destruct (Oc c I) as (_ & N & W). apply origin_char; try easy. unfold cstring in Co. rewrite Forall_forall in Co. now apply Co. }
  unfold uri_parse.
  assert (T : str_trim (o ++ 63 :: e ++ 0 :: post) false = Some O /\ exists c, rd (o ++ 63 :: e ++ 0 :: post) 0 = Some c /\ c <> 0 /\ c <> 63).
  { destruct o as [|c o]; [easy|]. inversion Fo as [|? ? (N0 & E) _]; subst. unfold ends_origin in E. apply orb_false_iff in E. destruct E as (E1 & E2). cbn [app str_trim rd nth_error]. rewrite E2, andb_false_r. cbn [andb]. split; [easy|]. exists c. split; [easy|]. split; [easy|]. now apply Z.eqb_neq. }
  destruct T as (-> & c & Rc & N0 & N63). cbn [obind]. rewrite Rc. cbn [obind]. destruct (Z.eqb_spec c 0); [easy|]. destruct (Z.eqb_spec c 63); [easy|]. cbn [negb]. cbn match.
  cbn [skipn]. rewrite scan_ok by (try easy; now right). cbn [obind Nat.add]. rewrite rd_at. cbn [obind]. rewrite wr_at. cbn [obind]. change (63 =? 0) with false. cbn match.
  destruct ps as [|p ps].
  - inversion Q; subst. cbn [app]. cbn [params].
    replace (o ++ 0 :: 0 :: post) with ((o ++ [0]) ++ 0 :: post) by now rewrite <- app_assoc. replace (S (List.length o)) with (List.length (o ++ [0])) by (rewrite app_length; cbn; lia).
    rewrite rd_at. cbn [obind]. do 2 eexists. split; [reflexivity|]. unfold uri_root. rewrite view_branch. rewrite views_cons. cbn [view str_node string_opt string_at obind skipn origin_node map app].
    rewrite <- app_assoc. cbn [app]. rewrite until_ok by easy. reflexivity.
  - replace (o ++ 0 :: e ++ 0 :: post) with ((o ++ [0]) ++ e ++ 0 :: post) by now rewrite <- app_assoc. replace (S (List.length o)) with (List.length (o ++ [0])) by (rewrite app_length; cbn; lia).
    destruct (params_ok _ _ Q F ltac:(discriminate) (S (List.length ((o ++ [0]) ++ e ++ 0 :: post))) (o ++ [0]) post [str_node (Const ORIGIN) (At 0)]) as (full & new & L & P & V).
    { pose proof (query_len _ _ Q). cbn [List.length] in *. rewrite !app_length. cbn [List.length]. lia. }
    rewrite P. cbn [obind]. do 2 eexists. split; [reflexivity|]. unfold uri_root. rewrite view_branch. rewrite (views_app _ _ _ (origin_node (Some o)) (map node_of (p :: ps))); [reflexivity| |now apply V].
    rewrite views_cons. cbn [view str_node string_opt string_at obind skipn origin_node]. rewrite <- app_assoc. cbn [app]. rewrite until_ok by easy. reflexivity.
Qed.

(** ** writing *)
Lemma find_name_no nm : cstring nm -> forall nodes i, (forall t, In t nodes -> exists n, t_name t = Some n /\ cstring n /\ n <> nm) -> find_name nm nodes i = Some None.
Proof.
  intros Cn. induction nodes as [|t nodes IH]; intros i H; [easy|]. cbn [find_name]. destruct (H t (or_introl eq_refl)) as (n & E & C & N). rewrite E. cbn [obind].
  destruct (strcmp_ok n nm [] [] C Cn) as (r & -> & Er & _). cbn [obind]. destruct (Z.eqb_spec r 0) as [->|]; [exfalso; apply N; now apply Er|]. apply IH. intros t' I. apply H. now right.
Qed.
Lemma find_name_first nm t nodes : cstring nm -> t_name t = Some nm -> find_name nm (t :: nodes) 0 = Some (Some O).
Proof.
  intros C E. cbn [find_name]. rewrite E. cbn [obind]. destruct (strcmp_ok nm nm [] [] C C) as (r & -> & Er & _). cbn [obind]. rewrite (proj2 Er eq_refl). reflexivity.
Qed.
Lemma good_name p : good_param p -> t_name (node_of p) = Some (param_name p) /\ cstring (param_name p).
Proof. intros ((C & _) & _). destruct p; easy. Qed.
Lemma fprintf_eq : fprintf (asc "%c") [AInt 61] = Some [61].
Proof. apply fprintf_c. lia. Qed.
Lemma fprintf_amp : fprintf (asc "%s") [AS (asc "&")] = Some [38].
Proof. apply (fprintf_s [38]); [repeat constructor; lia|unfold small, PRINTF_MAXLEN; cbn; lia]. Qed.
Lemma fprintf_q : fprintf (asc "%s") [AS (asc "?")] = Some [63].
Proof. apply (fprintf_s [63]); [repeat constructor; lia|unfold small, PRINTF_MAXLEN; cbn; lia]. Qed.
Lemma skip_no origin i : (match origin with Some k => (k < i)%nat | None => True end) -> (match origin with Some k => (k =? i)%nat | None => false end) = false.
Proof. destruct origin; [|easy]. intros H. apply Nat.eqb_neq. lia. Qed.
Lemma write_one p e : good_param p -> written p e -> forall origin count i nodes rest, (match origin with Some k => (k < i)%nat | None => True end) ->
  write_params origin count (S i) nodes = Some rest ->
  write_params origin count i (node_of p :: nodes) = Some (e ++ (if (S i <? count)%nat then [38] else []) ++ rest).
Proof.
  intros (G1 & G) W origin count i nodes rest Ho R. cbn [write_params]. rewrite skip_no by easy.
  assert (A : (if (S i <? count)%nat then fprintf (asc "%s") [AS (asc "&")] else Some []) = Some (if (S i <? count)%nat then [38] else [])) by (destruct (S i <? count)%nat; [apply fprintf_amp|easy]).
  rewrite A, R. inversion W; subst; cbn [node_of t_name t_value t_props]; erewrite print_str_ok by eassumption; cbn [obind].
  - rewrite fprintf_eq. cbn [obind]. erewrite print_str_ok by eassumption. cbn [obind app]. rewrite <- !app_assoc. reflexivity.
  - change (PROPS_NONE =? PROPS_TRUE) with false. cbn [negb]. rewrite fprintf_eq. cbn [obind]. unfold print_number. cbn [t_value t_props neg_zero zero_analysis]. cbn [obind].
    change (PROPS_NONE =? PROPS_IS_HEX) with false. cbn match. rewrite (fprintf_lld v t) by easy. cbn [obind app]. rewrite <- !app_assoc. reflexivity.
  - change (negb (PROPS_TRUE =? PROPS_TRUE)) with false. cbn match. cbn [obind app]. reflexivity.
Qed.
Lemma write_params_ok : forall ps e, query ps e -> Forall good_param ps -> forall origin count i, (match origin with Some k => (k < i)%nat | None => True end) ->
  count = (i + List.length ps)%nat -> write_params origin count i (map node_of ps) = Some e.
Proof.
  induction 1 as [|p e W|p q ps e es W Q IH]; intros F origin count i Ho ->; [easy| |]; inversion F as [|? ? G F']; subst; cbn [map].
  - rewrite (write_one p e G W origin _ i [] []) by easy. cbn [List.length]. replace (S i <? i + 1)%nat with false by (symmetry; apply Nat.ltb_ge; lia). cbn [app]. now rewrite !app_nil_r.
  - cbn [map] in IH. rewrite (write_one p e G W origin _ i _ es); [|easy|].
    + cbn [List.length]. replace (S i <? i + S (S (List.length ps)))%nat with true by (symmetry; apply Nat.ltb_lt; lia). reflexivity.
    + apply IH; [easy|destruct origin; lia|cbn [List.length]; lia].
Qed.
Lemma uri_write_query ps e : query ps e -> Forall good_param ps -> (forall p, In p ps -> param_name p <> origin_name) ->
  uri_write (map node_of ps) = Some (match ps with [] => [] | _ => 63 :: e end).
Proof.
  intros Q F N. unfold uri_write. rewrite find_name_no.
  - cbn [obind]. destruct ps as [|p ps]; [reflexivity|]. cbn [map]. rewrite fprintf_q. cbn [obind]. change (node_of p :: map node_of ps) with (map node_of (p :: ps)).
    rewrite (write_params_ok _ _ Q F) by (try easy; now rewrite map_length). reflexivity.
  - repeat constructor; lia.
  - intros t I. apply in_map_iff in I. destruct I as (p & <- & I). rewrite Forall_forall in F. destruct (good_name p (F p I)) as (E & C). exists (param_name p). split; [easy|]. split; [easy|]. now apply N.
Qed.
Lemma uri_write_origin o ps e : good_origin o -> query ps e -> Forall good_param ps -> uri_write (origin_node (Some o) ++ map node_of ps) = Some (o ++ 63 :: e).
Proof.
  intros (Ne & Co & Oc & Lo) Q F. unfold uri_write. cbn [origin_node app]. rewrite find_name_first; [|repeat constructor; lia|reflexivity]. cbn [obind nth_error t_value].
  rewrite fprintf_lit; [|easy|intros I; destruct (Oc _ I); easy|easy]. cbn [obind]. rewrite fprintf_q. cbn [obind write_params Nat.eqb].
  rewrite (write_params_ok _ _ Q F) by (try lia; cbn [List.length]; now rewrite map_length). reflexivity.
Qed.
Lemma query_exists : forall ps, Forall good_param ps -> exists e, query ps e.
Proof.
  assert (W : forall p, good_param p -> exists e, written p e).
  { intros p ((C & _) & G). destruct p as [n v|n v|n]; cbn [param_name] in C; destruct (enc_exists n C) as (en & En).
    - destruct G as ((Cv & _) & _). destruct (enc_exists v Cv) as (ev & Ev). eexists. constructor; eassumption.
    - destruct (numeral_exists v G) as (t & Nt). eexists. constructor; eassumption.
    - eexists. constructor. eassumption. }
  induction ps as [|p ps IH]; intros F; [exists []; constructor|]. inversion F as [|? ? G F']; subst. destruct (W p G) as (e & We). destruct (IH F') as (es & Q).
  destruct ps as [|q ps]; [exists e; now constructor|]. eexists. constructor; eassumption.
Qed.

(** ** texts too long for the buffer *)
Lemma wr_end (a : list Z) v : wr a (List.length a) v = None.
Proof. now apply wr_out. Qed.
Lemma decode_loop_long s e : encodes s e -> forall pre old x, (List.length old < List.length s)%nat -> decode_loop (e ++ 0 :: x) (pre ++ old) (List.length pre) = None.
Proof.
  induction 1 as [|c s e U H IH|s e H IH|c s e C U N H IH]; intros pre old x L; [cbn in L; lia| | |].
  - pose proof (unres_range c U) as R. unfold unreserved in U. change (asc "-._~") with [45; 46; 95; 126] in U. cbn [In] in U.
    cbn [app decode_loop]. destruct (Z.eqb_spec c 0); [lia|]. destruct (Z.eqb_spec c 37); [lia|]. destruct (Z.eqb_spec c 43); [lia|]. cbn [negb].
    destruct old as [|o old]; [rewrite app_nil_r, wr_end; easy|]. rewrite wr_at. cbn [obind].
    specialize (IH (pre ++ [c]) old x ltac:(cbn in L; lia)). rewrite <- !app_assoc, app_length in IH. cbn [app List.length] in IH. now rewrite Nat.add_1_r in IH.
  - cbn [app decode_loop]. change (43 =? 0) with false. change (43 =? 37) with false. change (43 =? 43) with true. cbn [negb]. cbn match.
    destruct old as [|o old]; [rewrite app_nil_r, wr_end; easy|]. rewrite wr_at. cbn [obind].
    specialize (IH (pre ++ [32]) old x ltac:(cbn in L; lia)). rewrite <- !app_assoc, app_length in IH. cbn [app List.length] in IH. now rewrite Nat.add_1_r in IH.
  - cbn [app decode_loop]. change (37 =? 0) with false. change (37 =? 37) with true. cbn [negb]. cbn match.
    destruct (hex_parts c C) as (H1 & H2).
    assert (F : Forall (fun d => 0 <= d < 16) [c / 16; c mod 16]) by (constructor; [easy|constructor; [easy|constructor]]).
    destruct (C41_i64_parse 16 (map digit_char [c / 16; c mod 16]) [c / 16; c mod 16] 0 [] ltac:(lia) (denotes_chars 16 _ ltac:(lia) F)) as (P & _);
      [intros; apply no_nul|easy|easy|].
    cbn [map app] in P. destruct P as (P & _); [unfold number; cbn [fold_left]; lia|]. rewrite P. cbn [obind].
    assert (E : number 16 [c / 16; c mod 16] = c) by (unfold number; cbn [fold_left]; pose proof (Z.div_mod c 16 ltac:(lia)); lia). rewrite E.
    destruct old as [|o old]; [rewrite app_nil_r, wr_end; easy|]. rewrite wr_at. cbn [obind]. rewrite u8_id by lia.
    specialize (IH (pre ++ [c]) old x ltac:(cbn in L; lia)). rewrite <- !app_assoc, app_length in IH. cbn [app List.length] in IH. now rewrite Nat.add_1_r in IH.
Qed.
Lemma copy_loop_unterminated : forall s d k, cstring s -> copy_loop d k s = None.
Proof.
  induction s as [|c s IH]; intros d k C; [easy|]. inversion C; subst. cbn [copy_loop]. destruct (Z.eqb_spec c 0); [lia|]. destruct (wr d k c); cbn [obind]; [now apply IH|easy].
Qed.
Lemma decode_with_long s e m pre post : encodes s e -> (m <= List.length s)%nat ->
  (' (buf, p) <- decode_loop (skipn (List.length pre) (pre ++ e ++ 0 :: post)) (repeat 0 m) 0 ;;
   d <- strcpy (skipn (List.length pre) (pre ++ e ++ 0 :: post)) buf ;; d <- wr d p 0 ;; Some (firstn (List.length pre) (pre ++ e ++ 0 :: post) ++ d)) = None.
Proof.
  intros E L. rewrite skipn_len. destruct (Nat.eq_dec m (List.length s)) as [->|N].
  - pose proof (decode_loop_ok s e E [] (repeat 0 (List.length s)) [] post ltac:(now rewrite repeat_length)) as D. cbn [app List.length] in D. rewrite !app_nil_r in D. rewrite D. cbn [obind].
    unfold strcpy. rewrite copy_loop_unterminated by (eapply enc_cs; eauto). reflexivity.
  - pose proof (decode_loop_long s e E [] (repeat 0 m) post ltac:(rewrite repeat_length; lia)) as D. cbn [app List.length] in D. rewrite D. reflexivity.
Qed.
Lemma to_nat_le n z : z <= Z.of_nat n -> (Z.to_nat z <= n)%nat.
Proof. lia. Qed.
Lemma decode_str_long s e pre post : encodes s e -> buffer <= Z.of_nat (List.length s) -> decode_str (pre ++ e ++ 0 :: post) (List.length pre) = None.
Proof. intros E L. unfold decode_str. apply (decode_with_long s e); [easy|]. now apply to_nat_le. Qed.
