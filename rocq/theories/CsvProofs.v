(** Reading cells. *)
From Coq Require Import String.
From Verif Require Import Base CStr CStrSpec CStrProofs Num NumSpec NumProofs Print PrintSpec Node NodeProofs UriSpec UriProofs Csv CsvSpec.

Lemma not_white c : ~ white c -> char_is_space c = false.
Proof. intros H. destruct (char_is_space c) eqn:E; [|easy]. apply space_white in E. easy. Qed.
(** ** quoted cells *)
Lemma str_skip_step c r ch : c <> 0 -> c <> ch -> str_skip (c :: r) ch = (n <- str_skip r ch ;; Some (S n)).
Proof. intros H0 H1. cbn [str_skip]. destruct (Z.eqb_spec c 0); [easy|]. destruct (Z.eqb_spec c ch); [easy|]. reflexivity. Qed.
Lemma quote_end_step f pre c r : c <> 0 -> c <> 34 -> quote_end f (pre ++ c :: r) (List.length pre) = quote_end f (pre ++ c :: r) (S (List.length pre)).
Proof.
  intros H0 H1. destruct f as [|f]; [easy|]. cbn [quote_end]. rewrite skipn_len. rewrite str_skip_step by easy.
  replace (skipn (S (List.length pre)) (pre ++ c :: r)) with r by (replace (pre ++ c :: r) with ((pre ++ [c]) ++ r) by (now rewrite <- app_assoc); replace (S (List.length pre)) with (List.length (pre ++ [c])) by (rewrite app_length; cbn; lia); now rewrite skipn_len).
  destruct (str_skip r 34) as [n|]; [|easy]. cbn [obind]. replace (List.length pre + S n)%nat with (S (List.length pre) + n)%nat by lia. reflexivity.
Qed.
Lemma doubled_head s : s <> [] -> cstring s -> exists c r, doubled s = c :: r /\ c <> 0.
Proof. intros N C. destruct s as [|c s]; [easy|]. inversion C; subst. cbn [doubled]. destruct (c =? 34); cbn [app]; do 2 eexists; (split; [reflexivity|lia]). Qed.
Lemma quote_end_ok c x : c <> 34 -> forall s f pre, (List.length s < f)%nat -> cstring s ->
  quote_end f (pre ++ doubled s ++ 34 :: c :: x) (List.length pre) = Some (List.length pre + List.length (doubled s))%nat.
Proof.
  intros Nc. induction s as [|a s IH]; intros f pre Hf C; cbn [List.length] in Hf.
  - destruct f as [|f]; [lia|]. cbn [doubled app List.length]. cbn [quote_end]. rewrite skipn_len. cbn [str_skip]. change (negb (34 =? 0) && negb (34 =? 34)) with false. cbn match. cbn [obind]. rewrite Nat.add_0_r, rd_at. cbn [obind].
    change (34 =? 0) with false. cbn match. replace (pre ++ 34 :: c :: x) with ((pre ++ [34]) ++ c :: x) by now rewrite <- app_assoc. replace (S (List.length pre)) with (List.length (pre ++ [34])) by (rewrite app_length; cbn; lia). rewrite rd_at. cbn [obind].
    destruct (Z.eqb_spec c 34); [easy|]. reflexivity.
  - inversion C as [|? ? Ca C']; subst. cbn [doubled]. destruct (Z.eqb_spec a 34) as [->|Na].
    + destruct f as [|f]; [lia|]. cbn [app List.length]. cbn [quote_end]. rewrite skipn_len. cbn [str_skip]. change (negb (34 =? 0) && negb (34 =? 34)) with false. cbn match. cbn [obind]. rewrite Nat.add_0_r, rd_at. cbn [obind].
      change (34 =? 0) with false. cbn match.
      assert (E1 : pre ++ 34 :: 34 :: doubled s ++ 34 :: c :: x = (pre ++ [34]) ++ 34 :: doubled s ++ 34 :: c :: x) by now rewrite <- app_assoc.
      assert (E2 : pre ++ 34 :: 34 :: doubled s ++ 34 :: c :: x = (pre ++ [34; 34]) ++ doubled s ++ 34 :: c :: x) by now rewrite <- app_assoc.
      replace (rd (pre ++ 34 :: 34 :: doubled s ++ 34 :: c :: x) (S (List.length pre))) with (Some 34) by (rewrite E1; replace (S (List.length pre)) with (List.length (pre ++ [34])) by (rewrite app_length; cbn; lia); now rewrite rd_at).
      cbn [obind]. change (34 =? 34) with true. cbn match. replace (S (S (List.length pre))) with (List.length (pre ++ [34; 34])) by (rewrite app_length; cbn; lia). rewrite E2.
      assert (R : exists ch, rd ((pre ++ [34; 34]) ++ doubled s ++ 34 :: c :: x) (List.length (pre ++ [34; 34])) = Some ch /\ ch <> 0).
      { destruct s as [|b s]; [cbn [doubled app]; rewrite rd_at; eauto; exists 34; easy|]. destruct (doubled_head (b :: s) ltac:(discriminate) C') as (ch & r & -> & N0). cbn [app]. rewrite rd_at. eauto. }
      destruct R as (ch & -> & N0). cbn [obind]. destruct (Z.eqb_spec ch 0); [easy|]. rewrite IH by (try easy; lia). f_equal. rewrite app_length. cbn. lia.
    + cbn [app]. rewrite quote_end_step by (try easy; lia). replace (pre ++ a :: doubled s ++ 34 :: c :: x) with ((pre ++ [a]) ++ doubled s ++ 34 :: c :: x) by now rewrite <- app_assoc.
      replace (S (List.length pre)) with (List.length (pre ++ [a])) by (rewrite app_length; cbn; lia). rewrite IH by (try easy; lia). f_equal. rewrite app_length. cbn. lia.
Qed.
Lemma doubled_cs s : cstring s -> cstring (doubled s).
Proof. induction 1; cbn [doubled]; [constructor|]. destruct (x =? 34); cbn [app]; repeat (constructor; try lia); easy. Qed.
Lemma unescape_ok : forall s f x, s <> [] -> cstring s -> (List.length s <= f)%nat -> exists z, unescape f (doubled s ++ 0 :: x) = Some (s ++ 0 :: z ++ x) /\ (List.length s + List.length z = List.length (doubled s))%nat.
Proof.
  induction s as [|a s IH]; intros f x N C Hf; [easy|]. inversion C as [|? ? Ca C']; subst. destruct f as [|f]; [cbn in Hf; lia|]. cbn [List.length] in Hf.
  assert (Go : forall x', exists z, (d <- rd (doubled s ++ 0 :: x') 0 ;; if d =? 0 then Some (a :: doubled s ++ 0 :: x') else r <- unescape f (doubled s ++ 0 :: x') ;; Some (a :: r)) = Some (a :: s ++ 0 :: z ++ x') /\ (List.length s + List.length z = List.length (doubled s))%nat).
  { intros x'. destruct s as [|b s]; [exists []; split; reflexivity|]. destruct (IH f x' ltac:(discriminate) C' ltac:(lia)) as (z & E & L). exists z. split; [|easy].
    destruct (doubled_head (b :: s) ltac:(discriminate) C') as (ch & r & Ed & N0). rewrite Ed in E |- *. cbn [app rd nth_error obind] in E |- *. destruct (Z.eqb_spec ch 0); [easy|]. rewrite E. reflexivity. }
  cbn [doubled]. destruct (Z.eqb_spec a 34) as [->|Na].
  - cbn [app]. cbn [unescape rd nth_error obind]. change (34 =? 34) with true. cbn match.
    change (34 :: 34 :: doubled s ++ 0 :: x) with ((34 :: 34 :: doubled s) ++ 0 :: x) at 1. rewrite strlen_ok by (constructor; [lia|constructor; [lia|now apply doubled_cs]]). cbn [obind tl].
    assert (E : firstn (List.length (34 :: 34 :: doubled s)) (34 :: doubled s ++ 0 :: x) ++ skipn (List.length (34 :: 34 :: doubled s)) (34 :: 34 :: doubled s ++ 0 :: x) = 34 :: doubled s ++ 0 :: 0 :: x).
    { assert (E1 : firstn (List.length (34 :: 34 :: doubled s)) (34 :: doubled s ++ 0 :: x) = 34 :: doubled s ++ [0]).
      { replace (List.length (34 :: 34 :: doubled s)) with (List.length (34 :: doubled s ++ [0])) by (cbn [List.length]; rewrite app_length; cbn; lia).
        replace (34 :: doubled s ++ 0 :: x) with ((34 :: doubled s ++ [0]) ++ x) by (cbn [app]; now rewrite <- app_assoc). apply firstn_len. }
      assert (E2 : skipn (List.length (34 :: 34 :: doubled s)) (34 :: 34 :: doubled s ++ 0 :: x) = 0 :: x) by exact (skipn_len (34 :: 34 :: doubled s) (0 :: x)).
      rewrite E1, E2. cbn [app]. now rewrite <- app_assoc. }
    rewrite E. destruct (Go (0 :: x)) as (z & G & L). exists (z ++ [0]). split; [|rewrite app_length; cbn [List.length]; lia]. rewrite <- app_assoc. exact G.
  - cbn [app unescape rd nth_error obind]. destruct (Z.eqb_spec a 34); [easy|]. cbn [obind]. destruct (Go x) as (z & G & L). exists z. split; [exact G|]. cbn [List.length]. lia.
Qed.
(** ** plain cells *)
Lemma cell_end_ok d : forall s c x, Forall (fun a => ends_cell d a = false) s -> ends_cell d c = true -> cell_end d (s ++ c :: x) = Some (List.length s).
Proof. induction s as [|a s IH]; intros c x F H; cbn [app cell_end]; [now rewrite H|]. inversion F; subst. rewrite H2, IH by easy. reflexivity. Qed.
Lemma back_ok pre c x : char_is_space c = false -> back (pre ++ c :: x) (S (List.length pre)) = Some (S (List.length pre)).
Proof. intros H. cbn [back]. rewrite rd_at. cbn [obind]. now rewrite H. Qed.
Lemma cell_char c : negb (char_is_hex_digit c) && negb (strchr (asc "+-.eExX") c) = false -> c = 0 \/ cell_number_char c.
Proof.
  unfold cell_number_char, number_char, char_is_hex_digit, char_is_digit, strchr. change (asc "+-.eExX") with [43; 45; 46; 101; 69; 120; 88]. change (asc ".+-") with [46; 43; 45]. cbn [existsb In].
  rewrite andb_false_iff, !negb_false_iff. repeat rewrite ?orb_true_iff, ?andb_true_iff, ?Z.eqb_eq, ?Z.leb_le. lia.
Qed.
Lemma number_cell_no : forall s x, cstring s -> (exists a, In a s /\ ~ cell_number_char a) -> number_cell (s ++ 0 :: x) = Some false.
Proof.
  induction s as [|c s IH]; intros x C (a & I & N); [easy|]. inversion C; subst. cbn [app number_cell]. destruct (negb (char_is_hex_digit c) && negb (strchr (asc "+-.eExX") c)) eqn:E; [easy|].
  destruct (Z.eqb_spec c 0); [lia|]. apply IH; [easy|]. exists a. split; [|easy]. destruct I as [->|I]; [|easy]. apply cell_char in E. destruct E; [lia|easy].
Qed.
Lemma numeral_cell v t : numeral 10 v t -> forall c, In c t -> number_char c /\ (char_is_hex_digit c || strchr (asc "+-.eExX") c = true) /\ 0 < c < 256 /\ ~ white c /\ c <> 34.
Proof.
  intros (ds & (F & _) & _ & ->) c I. apply in_app_or in I. destruct I as [I|I].
  - destruct (v <? 0); [|easy]. destruct I as [<-|[]]. unfold number_char, white. change (asc ".+-") with [46; 43; 45]. cbn [In]. split; [lia|]. split; [reflexivity|]. lia.
  - apply in_map_iff in I. destruct I as (d & <- & Hd). rewrite Forall_forall in F. apply F in Hd. rewrite digit_char_small by lia. unfold number_char, white. cbn [In]. split; [lia|]. split; [|lia].
    unfold char_is_hex_digit, char_is_digit. apply orb_true_iff. left. repeat rewrite ?orb_true_iff, ?andb_true_iff, ?Z.leb_le. lia.
Qed.
Lemma number_cell_yes : forall t x, (forall c, In c t -> (char_is_hex_digit c || strchr (asc "+-.eExX") c = true) /\ 0 < c < 256) -> number_cell (t ++ 0 :: x) = Some true.
Proof.
  induction t as [|c t IH]; intros x H; [reflexivity|]. cbn [app number_cell]. destruct (H c (or_introl eq_refl)) as (E & R). rewrite <- negb_orb, E. cbn [negb]. destruct (Z.eqb_spec c 0); [lia|].
  apply IH. intros c' I. apply H. now right.
Qed.
Lemma numeral_nonempty v t : numeral 10 v t -> exists a r, t = a :: r.
Proof.
  intros (ds & (_ & Cn) & _ & ->). destruct (v <? 0); [cbn [app]; eauto|]. destruct Cn as [->|(d & r & -> & _)]; cbn [map app]; eauto.
Qed.

(** what a text that needs no closing quote leaves behind *)
Lemma parse_regular d t sep : good_delim d -> cstring t -> ~ In d t -> ~ In 10 t -> (exists a r, t = a :: r /\ a <> 34 /\ ~ white a) -> (exists r a, t = r ++ [a] /\ ~ white a) ->
  sep = d \/ sep = 10 -> forall pre rest num node, number_cell (t ++ 0 :: rest) = Some num ->
  (if num then str_to_number false (pre ++ (t ++ [0]) ++ rest) (str_cell NoQuotes (At (List.length pre))) else Some (str_cell NoQuotes (At (List.length pre)))) = Some node ->
  exists ch, rd (pre ++ t ++ sep :: rest) (List.length pre) = Some ch /\ ch <> 0 /\ char_is_space ch = false /\
    parse_cell d (pre ++ t ++ sep :: rest) (List.length pre) ch = Some (Some (pre ++ (t ++ [0]) ++ rest, (List.length pre + List.length t)%nat, sep, node)).
Proof.
  intros (Gd1 & Gd2 & Gd3 & Gd4) C Nd Nn (a & r & Et & Na & Wa) (r' & a' & Et' & Wa') Hs pre rest num node Hn Hnode.
  assert (Ia : In a t) by (subst t; now left). pose proof C as C'. unfold cstring in C'. rewrite Forall_forall in C'. pose proof (C' a Ia) as Ra.
  exists a. split; [rewrite Et; cbn [app]; apply rd_at|]. split; [lia|]. split; [now apply not_white|].
  unfold parse_cell. destruct (Z.eqb_spec a 34); [easy|]. destruct (Z.eqb_spec a d) as [->|]; [easy|].
  assert (Sk : skipn (S (List.length pre)) (pre ++ t ++ sep :: rest) = r ++ sep :: rest).
  { rewrite Et. cbn [app]. replace (pre ++ a :: r ++ sep :: rest) with ((pre ++ [a]) ++ r ++ sep :: rest) by now rewrite <- app_assoc. replace (S (List.length pre)) with (List.length (pre ++ [a])) by (rewrite app_length; cbn; lia). apply skipn_len. }
  rewrite Sk. assert (Fr : Forall (fun c => ends_cell d c = false) r).
  { apply Forall_forall. intros c I. assert (Ic : In c t) by (rewrite Et; now right). pose proof (C' c Ic). unfold ends_cell. destruct (Z.eqb_spec c 0); [lia|]. destruct (Z.eqb_spec c d) as [->|]; [easy|]. destruct (Z.eqb_spec c 10) as [->|]; [easy|]. reflexivity. }
  assert (Hsep : ends_cell d sep = true) by (unfold ends_cell; destruct Hs as [->| ->]; rewrite ?Z.eqb_refl, ?orb_true_r; reflexivity).
  rewrite cell_end_ok by easy. cbn [obind]. assert (Lt : (S (List.length pre) + List.length r = List.length pre + List.length t)%nat) by (rewrite Et; cbn; lia). rewrite Lt.
  replace (pre ++ t ++ sep :: rest) with ((pre ++ t) ++ sep :: rest) by now rewrite <- app_assoc. rewrite <- app_length. rewrite rd_at. cbn [obind].
  assert (S0 : sep <> 0) by (destruct Hs; lia). destruct (Z.eqb_spec sep 0); [easy|]. cbn [negb]. rewrite skipn_len.
  assert (Tr : str_trim (sep :: rest) true = Some O).
  { cbn [str_trim]. destruct Hs as [->| ->]; [rewrite (not_white d) by easy; rewrite andb_false_r; reflexivity|reflexivity]. }
  rewrite Tr. cbn [obind]. rewrite Nat.add_0_r.
  assert (Bk : back ((pre ++ t) ++ sep :: rest) (List.length (pre ++ t)) = Some (List.length (pre ++ t))).
  { rewrite Et'. replace ((pre ++ r' ++ [a']) ++ sep :: rest) with ((pre ++ r') ++ a' :: sep :: rest) by (now rewrite <- !app_assoc). replace (List.length (pre ++ r' ++ [a'])) with (S (List.length (pre ++ r'))) by (rewrite !app_length; cbn; lia). apply back_ok. now apply not_white. }
  rewrite Bk. cbn [obind]. rewrite rd_at. cbn [obind]. rewrite wr_at. cbn [obind].
  replace ((pre ++ t) ++ 0 :: rest) with (pre ++ (t ++ [0]) ++ rest) by (now rewrite <- !app_assoc). rewrite skipn_len.
  replace ((t ++ [0]) ++ rest) with (t ++ 0 :: rest) at 1 by now rewrite <- app_assoc. rewrite Hn. cbn [obind]. rewrite Hnode. reflexivity.
Qed.

Lemma parse_cell_ok d l c t : good_delim d -> cell_ok d l c -> cell_text c t -> forall sep, sep = d \/ (sep = 10 /\ c <> Blank) -> forall pre rest,
  exists full node ch, List.length full = S (List.length t) /\ rd (pre ++ t ++ sep :: rest) (List.length pre) = Some ch /\ ch <> 0 /\ char_is_space ch = false /\
    parse_cell d (pre ++ t ++ sep :: rest) (List.length pre) ch = Some (Some (pre ++ full ++ rest, (List.length pre + List.length t)%nat, sep, node)) /\
    (forall pre' post', List.length pre' = List.length pre -> view (pre' ++ full ++ post') node = Some (cell_node c)).
Proof.
  intros Gd Ok T sep Hsep pre rest. pose proof Gd as (Gd1 & Gd2 & Gd3 & Gd4).
  assert (Hs : sep = d \/ sep = 10) by tauto.
  inversion T; subst.
  - (* quoted *)
    destruct Ok as (Ne & C & L). destruct (unescape_ok s (List.length (pre ++ 34 :: doubled s ++ 0 :: sep :: rest)) (sep :: rest) Ne C) as (z & U & Lz).
    { assert (List.length s <= List.length (doubled s))%nat; [|rewrite app_length; cbn [List.length]; rewrite app_length; lia]. clear. induction s as [|a s IH]; [easy|]. cbn [doubled List.length]. rewrite app_length. destruct (a =? 34); cbn [List.length]; lia. }
    exists (34 :: (s ++ 0 :: z) ++ [sep]), (str_cell DoubleQuote (At (S (List.length pre)))), 34. split; [cbn [List.length]; rewrite !app_length; cbn [List.length]; lia|].
    cbn [app]. rewrite rd_at. split; [easy|]. split; [easy|]. split; [easy|]. split.
    + unfold parse_cell. change (34 =? 34) with true. cbn match.
      assert (Eq : pre ++ 34 :: (doubled s ++ [34]) ++ sep :: rest = (pre ++ [34]) ++ doubled s ++ 34 :: sep :: rest) by now rewrite <- !app_assoc.
      rewrite Eq. assert (Lp : S (List.length pre) = List.length (pre ++ [34])) by (rewrite app_length; cbn; lia). rewrite Lp.
      rewrite quote_end_ok; [|destruct Hs as [->| ->]; [easy|lia]| |easy].
      2:{ rewrite !app_length. cbn [List.length]. assert (List.length s <= List.length (doubled s))%nat; [|lia]. clear. induction s as [|a s IH]; [easy|]. cbn [doubled List.length]. rewrite app_length. destruct (a =? 34); cbn [List.length]; lia. }
      cbn [obind]. replace ((pre ++ [34]) ++ doubled s ++ 34 :: sep :: rest) with (((pre ++ [34]) ++ doubled s) ++ 34 :: sep :: rest) by now rewrite <- app_assoc. rewrite <- app_length, rd_at. cbn [obind].
      change (34 =? 0) with false. cbn match. rewrite wr_at. cbn [obind].
      replace (((pre ++ [34]) ++ doubled s) ++ 0 :: sep :: rest) with ((((pre ++ [34]) ++ doubled s) ++ [0]) ++ sep :: rest) by now rewrite <- app_assoc.
      replace (S (List.length ((pre ++ [34]) ++ doubled s))) with (List.length (((pre ++ [34]) ++ doubled s) ++ [0])) by (rewrite (app_length _ [0]); cbn; lia). rewrite skipn_len.
      assert (Tr : str_trim (sep :: rest) true = Some O).
      { cbn [str_trim]. destruct Hs as [->| ->]; [rewrite (not_white d) by easy; rewrite andb_false_r; reflexivity|reflexivity]. }
      rewrite Tr. cbn [obind]. rewrite Nat.add_0_r, rd_at. cbn [obind].
      replace ((((pre ++ [34]) ++ doubled s) ++ [0]) ++ sep :: rest) with ((pre ++ [34]) ++ doubled s ++ 0 :: sep :: rest) by now rewrite <- !app_assoc. rewrite skipn_len, firstn_len.
      replace (List.length ((pre ++ [34]) ++ doubled s ++ 0 :: sep :: rest)) with (List.length (pre ++ 34 :: doubled s ++ 0 :: sep :: rest)) by (now rewrite <- app_assoc). rewrite U. cbn [obind].
      do 2 f_equal. rewrite <- Lp.
      assert (E1 : (pre ++ [34]) ++ s ++ 0 :: z ++ sep :: rest = pre ++ (34 :: (s ++ 0 :: z) ++ [sep]) ++ rest) by (repeat (rewrite <- !app_assoc; cbn [app]); reflexivity).
      rewrite E1. assert (E2 : List.length (((pre ++ [34]) ++ doubled s) ++ [0]) = (List.length pre + List.length (34%Z :: doubled s ++ [34%Z]))%nat) by (rewrite !app_length; cbn [List.length]; rewrite !app_length; cbn [List.length]; lia).
      rewrite E2. reflexivity.
    + intros pre' post' Lp. unfold view, str_cell, string_opt. rewrite <- Lp. cbn [obind]. cbn [app]. replace (pre' ++ 34 :: ((s ++ 0 :: z) ++ [sep]) ++ post') with ((pre' ++ [34]) ++ (s ++ 0 :: z) ++ [sep] ++ post') by (repeat (rewrite <- !app_assoc; cbn [app]); reflexivity).
      replace (S (List.length pre')) with (List.length (pre' ++ [34])) by (rewrite app_length; cbn; lia). rewrite string_here by easy. reflexivity.
  - (* plain *)
    destruct Ok as (C & L & Nd & Nn & Hd & Tl & Nu).
    destruct (parse_regular d t sep Gd C Nd Nn Hd Tl Hs pre rest false (str_cell NoQuotes (At (List.length pre))) (number_cell_no _ _ C Nu) eq_refl) as (ch & R & N0 & Sp & P).
    exists (t ++ [0]), (str_cell NoQuotes (At (List.length pre))), ch. split; [rewrite app_length; cbn; lia|]. repeat (split; [easy|]).
    intros pre' post' Lp. unfold view, str_cell, string_opt. rewrite <- Lp. cbn [obind]. rewrite string_here by easy. reflexivity.
  - (* a number *)
    pose proof (numeral_cell v t H) as Nc. destruct (numeral_nonempty v t H) as (a & r & Et).
    assert (C : cstring t) by (apply Forall_forall; intros c I; now apply Nc).
    assert (Nd : ~ In d t) by (intros I; apply Nc in I; tauto).
    assert (Nn : ~ In 10 t) by (intros I; apply Nc in I; unfold white in I; cbn [In] in I; tauto).
    assert (Hd : exists a r, t = a :: r /\ a <> 34 /\ ~ white a) by (exists a, r; split; [easy|]; assert (I : In a t) by (subst t; now left); apply Nc in I; tauto).
    assert (Tl : exists r a, t = r ++ [a] /\ ~ white a).
    { destruct (exists_last (l := t)) as (r2 & a2 & E2); [subst t; discriminate|]. exists r2, a2. split; [easy|]. assert (I : In a2 t) by (rewrite E2; apply in_or_app; right; now left). apply Nc in I; tauto. }
    assert (Nu : number_cell (t ++ 0 :: rest) = Some true) by (apply number_cell_yes; intros c I; apply Nc in I; tauto).
    set (nd := Tree None 0 (cell_style NoQuotes) (VInt v zero_analysis) : tree ptr).
    assert (St : str_to_number false (pre ++ (t ++ [0]) ++ rest) (str_cell NoQuotes (At (List.length pre))) = Some nd).
    { unfold str_to_number, str_cell. rewrite skipn_len. cbn [obind]. rewrite <- app_assoc. cbn [app]. rewrite (parse_number_int v) by (try easy; apply nul_after). reflexivity. }
    destruct (parse_regular d t sep Gd C Nd Nn Hd Tl Hs pre rest true nd Nu St) as (ch & R & N0 & Sp & P).
    exists (t ++ [0]), nd, ch. split; [rewrite app_length; cbn; lia|]. repeat (split; [easy|]). intros; reflexivity.
  - (* nothing *)
    assert (sep = d) as -> by (destruct Hsep as [|(_ & X)]; easy).
    exists [d], (str_cell NoQuotes (Const [])), d. split; [easy|]. cbn [app]. rewrite rd_at. split; [easy|]. split; [lia|]. split; [now apply not_white|]. split.
    + unfold parse_cell. destruct (Z.eqb_spec d 34); [easy|]. rewrite Z.eqb_refl. cbn [List.length]. rewrite Nat.add_0_r. reflexivity.
    + intros; reflexivity.
Qed.

(** ** rows *)
Fixpoint ext {A} (cols : list (list A)) (xs : list A) : list (list A) :=
  match cols, xs with
  | [], _ => map (fun x => [x]) xs
  | _, [] => cols
  | c :: r, x :: xs => (c ++ [x]) :: ext r xs
  end.
Lemma add_at_app {A} (a : list (list A)) b r x : add_at (a ++ b :: r) (List.length a) x = Some (a ++ (b ++ [x]) :: r).
Proof. induction a as [|c a IH]; [easy|]. cbn [app List.length add_at]. rewrite IH. reflexivity. Qed.
Lemma add_cell_new {A} (a : list (list A)) x : add_cell a (List.length a) x = Some (a ++ [[x]]).
Proof. unfold add_cell. rewrite Nat.leb_refl. now rewrite add_at_app. Qed.
Lemma add_cell_old {A} (a : list (list A)) b r x : add_cell (a ++ b :: r) (List.length a) x = Some (a ++ (b ++ [x]) :: r).
Proof. unfold add_cell. replace (List.length (a ++ b :: r) <=? List.length a)%nat with false by (symmetry; apply Nat.leb_gt; rewrite app_length; cbn; lia). apply add_at_app. Qed.
Definition next (d : Z) (f : nat) (text : list Z) (p : nat) cols colc total :=
  c <- rd text p ;; if c =? 0 then Some (CsvOk, text, cols) else csv_loop f d text p cols colc total.
Lemma loop_cell d l c t : good_delim d -> cell_ok d l c -> cell_text c t -> forall sep, sep = d \/ (sep = 10 /\ c <> Blank) -> forall pre rest, exists full node,
  List.length full = S (List.length t) /\ (forall pre' post', List.length pre' = List.length pre -> view (pre' ++ full ++ post') node = Some (cell_node c)) /\
  (exists ch, rd (pre ++ t ++ sep :: rest) (List.length pre) = Some ch /\ ch <> 0) /\
  (forall f cols colc total, csv_loop (S f) d (pre ++ t ++ sep :: rest) (List.length pre) cols colc total =
    (cols <- add_cell cols colc node ;;
     if sep =? d then next d f (pre ++ full ++ rest) (List.length (pre ++ full)) cols (S colc) total
     else if (total <? colc)%nat then next d f (pre ++ full ++ rest) (List.length (pre ++ full)) cols 0 colc
     else if negb (total =? colc)%nat then Some (CsvMismatchedRows, pre ++ full ++ rest, cols)
     else next d f (pre ++ full ++ rest) (List.length (pre ++ full)) cols 0 total)).
Proof.
  intros Gd Ok T sep Hsep pre rest. destruct (parse_cell_ok d l c t Gd Ok T sep Hsep pre rest) as (full & node & ch & Lf & R & N0 & Sp & P & V).
  exists full, node. split; [easy|]. split; [easy|]. split; [eauto|]. intros f cols colc total. cbn [csv_loop].
  assert (Tr : str_trim (skipn (List.length pre) (pre ++ t ++ sep :: rest)) false = Some O).
  { rewrite skipn_len. unfold rd in R. rewrite nth_error_app2, Nat.sub_diag in R by lia. destruct (t ++ sep :: rest) as [|a r]; [discriminate R|]. injection R as ->. cbn [str_trim]. rewrite Sp, andb_false_r. reflexivity. }
  rewrite Tr. cbn [obind]. rewrite Nat.add_0_r, R. cbn [obind]. destruct (Z.eqb_spec ch 0); [easy|]. rewrite P. cbn [obind].
  destruct (add_cell cols colc node) as [cols'|]; [|easy]. cbn [obind]. unfold next. replace (S (List.length pre + List.length t)) with (List.length (pre ++ full)) by (rewrite app_length; lia).
  destruct (Z.eqb_spec sep d); [reflexivity|]. assert (sep = 10) as -> by tauto. change (10 =? 10) with true. cbn [orb]. change (10 =? 0) with false. cbn match. reflexivity.
Qed.
Lemma loop_row d : good_delim d -> forall cells t, row_text d cells t -> row_ok d cells -> forall pre rest (A B : list (list (tree ptr))) total, 
  B = [] \/ List.length B = List.length cells -> (total = 0 \/ total = List.length A + List.length cells - 1)%nat -> exists full nodes,
  List.length full = List.length t /\ List.length nodes = List.length cells /\
  (forall pre' post', List.length pre' = List.length pre -> Forall2 (fun x y => view (pre' ++ full ++ post') x = Some y) nodes (map cell_node cells)) /\
  (exists ch, rd (pre ++ t ++ rest) (List.length pre) = Some ch /\ ch <> 0) /\
  (forall f, csv_loop (List.length cells + f) d (pre ++ t ++ rest) (List.length pre) (A ++ B) (List.length A) total =
    next d f (pre ++ full ++ rest) (List.length (pre ++ full)) (A ++ ext B nodes) 0 (List.length A + List.length cells - 1)).
Proof.
  intros Gd. induction 1 as [c t T|c c' r t t' T R IH]; intros Ok pre rest A B total HB Ht; cbn [row_ok] in Ok; destruct Ok as (Oc & Or).
  - destruct (loop_cell d true c t Gd Oc T 10) with (pre := pre) (rest := rest) as (full & node & Lf & V & Rd & P).
    { right. split; [easy|]. intros ->. discriminate Oc. }
    exists full, [node]. split; [rewrite app_length; cbn [List.length]; lia|]. split; [easy|]. split.
    { intros pre' post' Lp. constructor; [now apply V|constructor]. }
    rewrite <- app_assoc. cbn [app]. split; [exact Rd|]. intros f. cbn [List.length Nat.add]. rewrite P. cbn [List.length] in Ht.
    assert (Ad : add_cell (A ++ B) (List.length A) node = Some (A ++ ext B [node])).
    { destruct B as [|b [|b2 B]]; [rewrite app_nil_r; apply add_cell_new|rewrite add_cell_old; reflexivity|]. destruct HB as [|HB]; [easy|]. cbn in HB. lia. }
    rewrite Ad. cbn [obind]. assert (N : (10 =? d) = false) by (apply Z.eqb_neq; intros <-; destruct Gd as (_ & W & _); apply W; unfold white; cbn [In]; lia). rewrite N.
    replace (List.length A + 1 - 1)%nat with (List.length A) in * by lia. destruct (Nat.ltb_spec total (List.length A)); [reflexivity|].
    assert (total = List.length A) as -> by lia. rewrite Nat.eqb_refl. reflexivity.
  - destruct (loop_cell d false c t Gd Oc T d) with (pre := pre) (rest := t' ++ rest) as (full & node & Lf & V & Rd & P); [now left|].
    set (b1 := match B with [] => [node] | b :: _ => b ++ [node] end). set (B1 := match B with [] => [] | _ :: B => B end).
    assert (Ad : add_cell (A ++ B) (List.length A) node = Some ((A ++ [b1]) ++ B1)).
    { subst b1 B1. destruct B as [|b B]; [rewrite !app_nil_r; apply add_cell_new|rewrite add_cell_old, <- app_assoc; reflexivity]. }
    destruct (IH Or (pre ++ full) rest (A ++ [b1]) B1 total) as (full2 & nodes & Lf2 & Ln & V2 & Rd2 & P2).
    { subst B1. destruct B as [|b B]; [now left|]. right. destruct HB as [|HB]; [easy|]. cbn in HB |- *. lia. }
    { rewrite app_length. cbn [List.length] in *. lia. }
    exists (full ++ full2), (node :: nodes). split; [rewrite !app_length; cbn [List.length]; lia|]. split; [cbn [List.length] in *; lia|]. split.
    { intros pre' post' Lp. cbn [map]. constructor; [rewrite <- app_assoc; now apply V|]. specialize (V2 (pre' ++ full) post' ltac:(rewrite !app_length; lia)).
      replace (pre' ++ (full ++ full2) ++ post') with ((pre' ++ full) ++ full2 ++ post') by now rewrite <- !app_assoc. exact V2. }
    rewrite <- app_assoc. cbn [app]. split; [exact Rd|]. intros f. cbn [List.length Nat.add]. rewrite P, Ad. cbn [obind]. rewrite Z.eqb_refl. unfold next at 1.
    replace (pre ++ full ++ t' ++ rest) with ((pre ++ full) ++ t' ++ rest) by now rewrite <- app_assoc. destruct Rd2 as (ch & -> & N0). cbn [obind]. destruct (Z.eqb_spec ch 0); [easy|].
    specialize (P2 f). cbn [List.length Nat.add] in P2. replace (List.length (A ++ [b1])) with (S (List.length A)) in P2 by (rewrite app_length; cbn; lia). rewrite P2.
    replace ((A ++ [b1]) ++ ext B1 nodes) with (A ++ ext B (node :: nodes)).
    2:{ rewrite <- app_assoc. f_equal. subst b1 B1. destruct B as [|b B]; reflexivity. }
    replace ((pre ++ full) ++ full2 ++ rest) with (pre ++ (full ++ full2) ++ rest) by now rewrite <- !app_assoc. replace ((pre ++ full) ++ full2) with (pre ++ full ++ full2) by now rewrite <- app_assoc.
    replace (S (List.length A) + S (List.length r) - 1)%nat with (List.length A + S (S (List.length r)) - 1)%nat by lia. reflexivity.
Qed.
Lemma ext_len {A} (xs : list A) cols : cols = [] \/ List.length cols = List.length xs -> List.length (ext cols xs) = List.length xs.
Proof.
  revert xs. induction cols as [|c cols IH]; intros xs H; cbn [ext]; [now rewrite map_length|]. destruct H as [|H]; [easy|]. destruct xs as [|x xs]; [easy|]. cbn [List.length] in *. f_equal. apply IH. right. lia.
Qed.
Lemma loop_rows d n : good_delim d -> (0 < n)%nat -> forall rows ts, rows_text d rows ts -> Forall (fun r => List.length r = n /\ row_ok d r) rows -> forall pre post cols total,
  (cols = [] /\ total = 0%nat) \/ (List.length cols = n /\ total = (n - 1)%nat) -> exists full nodes,
  List.length full = List.length ts /\
  (forall pre' post', List.length pre' = List.length pre -> Forall2 (Forall2 (fun x y => view (pre' ++ full ++ post') x = Some y)) nodes (map (map cell_node) rows)) /\
  (forall f, (n * List.length rows <= f)%nat -> next d f (pre ++ ts ++ 0 :: post) (List.length pre) cols 0 total = Some (CsvOk, pre ++ full ++ 0 :: post, fold_left ext nodes cols)).
Proof.
  intros Gd Hn. induction 1 as [|r rs t ts R Rs IH]; intros F pre post cols total Hc.
  - exists [], []. split; [easy|]. split; [intros; constructor|]. intros f _. unfold next. cbn [app]. rewrite rd_at. reflexivity.
  - inversion F as [|? ? (Lr & Or) F']; subst. rewrite <- app_assoc.
    destruct (loop_row d Gd r t R Or pre (ts ++ 0 :: post) [] cols total) as (full & nodes & Lf & Ln & V & (ch & Rd & N0) & P).
    { destruct Hc as [(-> & _)|(Hc & _)]; [now left|now right]. }
    { cbn [List.length]. lia. }
    cbn [app List.length Nat.add] in P.
    destruct (IH F' (pre ++ full) post (ext cols nodes) (List.length r - 1)%nat) as (full2 & nodes2 & Lf2 & V2 & P2).
    { right. split; [|easy]. rewrite ext_len; [easy|]. destruct Hc as [(-> & _)|(Hc & _)]; [now left|right; congruence]. }
    exists (full ++ full2), (nodes :: nodes2). split; [rewrite !app_length; lia|]. split.
    + intros pre' post' Lp. cbn [map]. constructor; [rewrite <- app_assoc; now apply V|]. specialize (V2 (pre' ++ full) post' ltac:(rewrite !app_length; lia)).
      replace (pre' ++ (full ++ full2) ++ post') with ((pre' ++ full) ++ full2 ++ post') by now rewrite <- !app_assoc. exact V2.
    + intros f Hf. cbn [List.length] in Hf. rewrite Nat.mul_succ_r in Hf. unfold next at 1. rewrite Rd. cbn [obind]. destruct (Z.eqb_spec ch 0); [easy|].
      replace f with (List.length r + (f - List.length r))%nat by lia. rewrite P.
      replace (pre ++ full ++ ts ++ 0 :: post) with ((pre ++ full) ++ ts ++ 0 :: post) by now rewrite <- app_assoc. rewrite P2 by lia.
      cbn [fold_left]. do 2 f_equal. now rewrite <- !app_assoc.
Qed.

(** ** columns *)
Section Columns.
  Context {A B : Type} (R : A -> B -> Prop).
  Lemma ext_rel : forall cols xs cols' xs', Forall2 (Forall2 R) cols cols' -> Forall2 R xs xs' -> Forall2 (Forall2 R) (ext cols xs) (ext cols' xs').
  Proof.
    induction cols as [|c cols IH]; intros xs cols' xs' Hc Hx; inversion Hc; subst; cbn [ext].
    - clear - Hx. induction Hx; cbn [map]; constructor; [constructor; [easy|constructor]|easy].
    - inversion Hx; subst; [easy|]. constructor; [apply Forall2_app; [easy|constructor; [easy|constructor]]|now apply IH].
  Qed.
  Lemma fold_ext_rel : forall rows rows', Forall2 (Forall2 R) rows rows' -> forall cols cols', Forall2 (Forall2 R) cols cols' -> Forall2 (Forall2 R) (fold_left ext rows cols) (fold_left ext rows' cols').
  Proof. induction 1; intros cols cols' Hc; [easy|]. cbn [fold_left]. apply IHForall2. now apply ext_rel. Qed.
End Columns.
Lemma ext_nth {A} (d : A) n : forall cols xs j, List.length cols = n -> List.length xs = n -> (j < n)%nat -> nth_error (ext cols xs) j = (c <- nth_error cols j ;; Some (c ++ [nth j xs d])).
Proof.
  induction n as [|n IH]; intros cols xs j Lc Lx Hj; [lia|]. destruct cols as [|c cols]; [discriminate|]. destruct xs as [|x xs]; [discriminate|]. cbn [ext].
  destruct j as [|j]; [reflexivity|]. cbn [nth_error nth]. apply IH; cbn in *; lia.
Qed.
Lemma fold_ext_nth {A} (d : A) n : forall rows cols j, Forall (fun r => List.length r = n) rows -> List.length cols = n -> (j < n)%nat ->
  nth_error (fold_left ext rows cols) j = (c <- nth_error cols j ;; Some (c ++ map (fun r => nth j r d) rows)) /\ List.length (fold_left ext rows cols) = n.
Proof.
  induction rows as [|r rows IH]; intros cols j F Lc Hj; cbn [fold_left map].
  - split; [|easy]. destruct (nth_error cols j) as [c|]; cbn [obind]; [now rewrite app_nil_r|easy].
  - inversion F; subst. destruct (IH (ext cols r) j H2) as (E & L); [rewrite ext_len by (right; congruence); congruence|easy|]. split; [|easy]. rewrite E, (ext_nth d (List.length cols)) by congruence.
    destruct (nth_error cols j) as [c|]; cbn [obind]; [|easy]. rewrite <- app_assoc. reflexivity.
Qed.
Lemma nth_error_map_seq {A} (f : nat -> A) n j : (j < n)%nat -> nth_error (map f (seq 0 n)) j = Some (f j).
Proof. intros H. rewrite nth_error_map. rewrite (nth_error_nth' (seq 0 n) O) by (now rewrite seq_length). rewrite seq_nth by easy. reflexivity. Qed.
Lemma transposed {A} (d : A) n rows : rows <> [] -> Forall (fun r => List.length r = n) rows -> fold_left ext rows [] = map (fun j => map (fun r => nth j r d) rows) (seq 0 n).
Proof.
  intros Ne F. destruct rows as [|r rows]; [easy|]. inversion F; subst. cbn [fold_left ext].
  apply (nth_ext _ _ [] []).
  - rewrite map_length, seq_length. destruct r as [|x r]; [|apply (fold_ext_nth d (List.length (x :: r)) rows _ 0); [easy|now rewrite map_length|cbn; lia]].
    cbn [map List.length]. clear -H2. induction rows as [|r rows IH]; [easy|]. inversion H2; subst. cbn [fold_left ext]. destruct r; [|discriminate]. now apply IH.
  - intros j Hj. assert (Hj' : (j < List.length r)%nat).
    { destruct r as [|x r]; [exfalso|]. { revert Hj. cbn [map List.length]. clear -H2. induction rows as [|r rows IH]; [cbn; lia|]. inversion H2; subst. cbn [fold_left ext]. destruct r; [|discriminate]. now apply IH. }
      destruct (fold_ext_nth d (List.length (x :: r)) rows (map (fun x => [x]) (x :: r)) 0) as (_ & L); [easy|now rewrite map_length|cbn; lia|]. congruence. }
    destruct (fold_ext_nth d (List.length r) rows (map (fun x => [x]) r) j) as (E & _); [easy|now rewrite map_length|easy|].

    assert (E2 : nth_error (map (fun x => [x]) r) j = Some [nth j r d]).
    { rewrite nth_error_map. rewrite (nth_error_nth' r d Hj'). reflexivity. }
    rewrite E2 in E. cbn [obind app] in E. rewrite (nth_error_nth _ _ _ E). symmetry. apply nth_error_nth. now rewrite nth_error_map_seq.
Qed.

(** ** whole tables *)
Lemma row_len d cells t : row_text d cells t -> (List.length cells <= List.length t)%nat.
Proof. induction 1; rewrite app_length; cbn [List.length] in *; lia. Qed.
Lemma rows_len d n : forall rows ts, rows_text d rows ts -> Forall (fun r => List.length r = n /\ row_ok d r) rows -> (n * List.length rows <= List.length ts)%nat.
Proof.
  induction 1 as [|r rs t ts R Rs IH]; intros F; [cbn; lia|]. inversion F as [|? ? (L & _) F']; subst. apply row_len in R. specialize (IH F'). rewrite app_length. cbn [List.length]. lia.
Qed.
Lemma views_of text l xs : Forall2 (fun x y => view text x = Some y) l xs -> views text l = Some xs.
Proof. induction 1; [reflexivity|]. rewrite views_cons, H. cbn [obind]. rewrite IHForall2. reflexivity. Qed.
Lemma view_named text n p st arr l : view text (Tree n p st (VBranch arr l)) = (n <- string_opt text n ;; l <- views text l ;; Some (Tree n p st (VBranch arr l))).
Proof.
  assert (E : view text (Tree n p st (VBranch arr l)) = (n <- string_opt text n ;; v <- (l <- views text l ;; Some (VBranch arr l)) ;; Some (Tree n p st v))) by reflexivity.
  rewrite E. destruct (string_opt text n); [|easy]. cbn [obind]. destruct (views text l); reflexivity.
Qed.
Lemma view_str text t p st m s : view text t = Some (Tree None p st (VStr m (Some s))) -> exists q, t = Tree None p st (VStr m (Some q)) /\ string_at text q = Some s.
Proof.
  destruct t as [n p0 st0 v]. intros H. destruct v as [|m0 x|i a|r a|arr kids].
  5:{ rewrite view_named in H. destruct (string_opt text n); [|discriminate H]. cbn [obind] in H. destruct (views text kids); discriminate H. }
  all: cbn [view] in H; destruct n as [n|]; cbn [string_opt] in H; [destruct (string_at text n); [|discriminate H]|]; cbn [obind] in H; try discriminate H.
  - destruct x as [x|]; cbn [string_opt] in H; [destruct (string_at text x); discriminate H|discriminate H].
  - destruct x as [x|]; cbn [string_opt] in H; [|discriminate H]. destruct (string_at text x) as [s'|] eqn:E; [|discriminate H]. cbn [obind] in H. injection H as -> -> -> ->. eauto.
Qed.
Lemma csv_loop_ok d n rows ts post : good_delim d -> table_ok d n rows -> rows_text d rows ts -> exists text' cols,
  csv_loop (S (List.length (ts ++ 0 :: post))) d (ts ++ 0 :: post) 0 [] 0 0 = Some (CsvOk, text', cols) /\
  Forall2 (Forall2 (fun x y => view text' x = Some y)) cols (map (column rows) (seq 0 n)).
Proof.
  intros Gd (Ne & Hn & F) T. destruct (loop_rows d n Gd Hn rows ts T F [] post [] 0%nat (or_introl (conj eq_refl eq_refl))) as (full & nodes & Lf & V & P).
  cbn [app List.length] in P. specialize (V [] (0 :: post) eq_refl). cbn [app] in V. exists (full ++ 0 :: post), (fold_left ext nodes []).
  pose proof (fold_ext_rel _ _ _ V [] [] ltac:(constructor)) as C.
  assert (E : fold_left ext (map (map cell_node) rows) [] = map (column rows) (seq 0 n)).
  { rewrite (transposed (cell_node Blank) n); [|destruct rows; easy|].
    - apply map_ext. intros j. unfold column. rewrite map_map. apply map_ext. intros r. apply map_nth.
    - apply Forall_map. eapply Forall_impl; [|exact F]. cbn. intros r (L & _). now rewrite map_length. }
  rewrite E in C. split; [|exact C]. pose proof (rows_len d n rows ts T F) as Lr.
  specialize (P (S (List.length (ts ++ 0 :: post))) ltac:(rewrite app_length; lia)). unfold next in P.
  destruct (rd (ts ++ 0 :: post) 0) as [ch|]; [|discriminate P]. cbn [obind] in P. destruct (Z.eqb_spec ch 0); [|exact P].
  exfalso. injection P as _ P. rewrite <- P in C. destruct n; [lia|]. cbn [seq map] in C. inversion C.
Qed.
Lemma csv_parse_plain d n rows ts post : good_delim d -> table_ok d n rows -> rows_text d rows ts -> exists text' root,
  csv_parse (ts ++ 0 :: post) false d = Some (CsvOk, text', root) /\ view text' root = Some (csv_root false (columns None n rows)).
Proof.
  intros Gd Ok T. destruct (csv_loop_ok d n rows ts post Gd Ok T) as (text' & cols & P & C). unfold csv_parse. rewrite P. cbn [obind].
  destruct cols as [|c cols]; [destruct Ok as (_ & Hn & _); destruct n; [lia|]; cbn [seq map] in C; inversion C|].
  do 2 eexists. split; [reflexivity|]. unfold csv_root. rewrite view_branch.
  assert (E : views text' (map (col_node None) (c :: cols)) = Some (columns None n rows)).
  { apply views_of. unfold columns. rewrite <- (map_map (column rows) (column_node None)). clear P. induction C as [|x y l l' Hx Hl IH]; cbn [map]; [constructor|]. constructor; [|exact IH].
    unfold col_node. rewrite view_branch, (views_of text' x y) by easy. reflexivity. }
  rewrite E. reflexivity.
Qed.
Lemma Forall2_seq {A B} (R : A -> B -> Prop) (f : nat -> B) : forall n s l, Forall2 R l (map f (seq s n)) -> List.length l = n /\ forall j x, nth_error l j = Some x -> R x (f (s + j)%nat).
Proof.
  induction n as [|n IH]; intros s l H; cbn [seq map] in H; inversion H as [|? ? ? ? H1 H2]; subst.
  - split; [easy|]. intros [|]; easy.
  - destruct (IH _ _ H2) as (L & E). split; [cbn; lia|]. intros [|j] y Ey; cbn [nth_error] in Ey; [injection Ey as <-; now rewrite Nat.add_0_r|]. replace (s + S j)%nat with (S s + j)%nat by lia. now apply E.
Qed.
Lemma csv_parse_header d n names rows ts post : good_delim d -> table_ok d n rows -> header_ok n names -> rows_text d (map Quoted names :: rows) ts -> exists text' root,
  csv_parse (ts ++ 0 :: post) true d = Some (CsvOk, text', root) /\ view text' root = Some (csv_root true (columns (Some names) n rows)).
Proof.
  intros Gd (Ne & Hn & F) (Ln & Hh) T.
  assert (Ok : table_ok d n (map Quoted names :: rows)).
  { split; [easy|]. split; [easy|]. constructor; [|easy]. split; [now rewrite map_length|]. clear -Hh. induction Hh as [|s l Hs Hl IH]; [easy|]. cbn [map row_ok]. split; [|exact IH]. destruct (map Quoted l); exact Hs. }
  destruct (csv_loop_ok d n _ ts post Gd Ok T) as (text' & cols & P & C). unfold csv_parse. rewrite P. cbn [obind].
  assert (E : exists nodes, map_opt head_col cols = Some nodes /\ views text' nodes = Some (columns (Some names) n rows)).
  { unfold columns. assert (Hj : forall j, In j (seq 0 n) -> exists s, nth_error names j = Some s /\ nth j (map Quoted names) Blank = Quoted s).
    { intros j I. apply in_seq in I. destruct (nth_error names j) as [s|] eqn:Es; [|apply nth_error_None in Es; lia]. exists s. split; [easy|]. rewrite (nth_indep _ Blank (Quoted [])) by (rewrite map_length; lia). rewrite map_nth. f_equal. now apply nth_error_nth. }
    clear P Ok T Ne F Hn Hh. revert cols C. induction (seq 0 n) as [|j js IH]; intros cols C; cbn [map] in C; inversion C as [|x ? l ? Hx Hl]; subst.
    - exists []. split; reflexivity.
    - destruct (IH (fun j I => Hj j (or_intror I)) _ Hl) as (nodes & M & V). destruct (Hj j (or_introl eq_refl)) as (s & Es & En).
      unfold column in Hx. cbn [map] in Hx. rewrite En in Hx. inversion Hx as [|t0 ? ts0 ? Ht Hts]; subst. cbn [cell_node] in Ht. apply view_str in Ht. destruct Ht as (q & -> & Sq).
      exists (col_node (Some q) ts0 :: nodes). split; [cbn [map_opt head_col obind]; rewrite M; reflexivity|].
      cbn [map]. rewrite views_cons. unfold col_node at 1. rewrite view_named. cbn [string_opt]. rewrite Sq. cbn [obind]. rewrite (views_of text' ts0 _ Hts). cbn [obind]. rewrite V. cbn [obind]. rewrite Es. reflexivity. }
  destruct E as (nodes & M & V). destruct cols as [|c cols]; [destruct n; [lia|]; cbn [seq map] in C; inversion C|].
  rewrite M. cbn [obind]. do 2 eexists. split; [reflexivity|]. unfold csv_root. rewrite view_branch, V. reflexivity.
Qed.

(** ** writing *)
Lemma escape_doubled s : escape [34] [34] s = doubled s.
Proof. induction s as [|c s IH]; [easy|]. change (escape [34] [34] (c :: s)) with ((if existsb (Z.eqb c) [34] then [34] ++ [c] else [c]) ++ escape [34] [34] s). rewrite IH. cbn [existsb doubled]. rewrite orb_false_r. destruct (Z.eqb_spec c 34) as [->|]; reflexivity. Qed.
Lemma fprintf_one c : 0 < c < 256 -> c <> 37 -> fprintf [c] [] = Some [c].
Proof. intros H N. apply fprintf_lit; [constructor; [easy|constructor]|intros [E|[]]; easy|unfold small, PRINTF_MAXLEN; cbn; lia]. Qed.
Lemma write_quoted s : cstring s -> Z.of_nat (List.length s) + 1 < buffer -> write_string DoubleQuote (Some s) = Some (34 :: doubled s ++ [34]).
Proof.
  intros C L. unfold write_string. rewrite fprintf_one by lia. cbn [obind]. rewrite print_string_ok; [|constructor; [lia|constructor]|constructor; [lia|constructor]|unfold small, PRINTF_MAXLEN; cbn; lia|easy|exact L].
  cbn [obind]. now rewrite escape_doubled.
Qed.
Lemma write_cell d l c t : cell_ok d l c -> cell_text c t -> write_record (cell_node c) = Some t.
Proof.
  intros Ok T. inversion T; subst; unfold write_record; cbn [cell_node t_value t_style quote_style name_style].
  - destruct Ok as (_ & C & L). now apply write_quoted.
  - destruct Ok as (C & L & _). cbn [write_string]. now apply fprintf_s.
  - unfold print_number. cbn [t_value t_props neg_zero zero_analysis obind]. change (PROPS_NONE =? PROPS_IS_HEX) with false. cbn match. rewrite (fprintf_lld v t) by easy. reflexivity.
  - cbn [write_string]. apply (fprintf_s []); [constructor|unfold small, PRINTF_MAXLEN; cbn; lia].
Qed.
Lemma write_row_cons f d t t' r : write_row f d (t :: t' :: r) = (a <- f t ;; b <- fprintf (asc "%c") [AInt d] ;; c <- write_row f d (t' :: r) ;; Some (a ++ b ++ c)).
Proof. reflexivity. Qed.
Lemma write_row_ok d f (g : cell -> tree (list Z)) : good_delim d -> forall cells t, row_text d cells t -> row_ok d cells ->
  (forall c l t, In c cells -> cell_ok d l c -> cell_text c t -> f (g c) = Some t) -> write_row f d (map g cells) = Some t.
Proof.
  intros (Gd & _). induction 1 as [c t T|c c' r t t' T R IH]; intros (Oc & Or) Hf.
  - cbn [map write_row]. rewrite (Hf c _ t (or_introl eq_refl) Oc T). cbn [obind]. rewrite fprintf_one by lia. reflexivity.
  - cbn [map] in *. rewrite write_row_cons, (Hf c _ t (or_introl eq_refl) Oc T). cbn [obind]. rewrite fprintf_c by easy. cbn [obind]. rewrite IH; [reflexivity|easy|]. intros. eapply Hf; [right|..]; eassumption.
Qed.
Lemma map_opt_map {A B C} (f : B -> option C) (g : A -> B) (h : A -> C) l : (forall x, In x l -> f (g x) = Some (h x)) -> map_opt f (map g l) = Some (map h l).
Proof. induction l as [|x l IH]; intros H; [easy|]. cbn [map map_opt]. rewrite (H x (or_introl eq_refl)). cbn [obind]. rewrite IH; [reflexivity|]. intros y I. apply H. now right. Qed.
Lemma map_nth_seq {A} (d : A) l : map (fun j => nth j l d) (seq 0 (List.length l)) = l.
Proof. induction l as [|x l IH]; [easy|]. cbn [List.length seq map nth]. f_equal. rewrite <- seq_shift, map_map. exact IH. Qed.
Lemma write_rows_ok d header n : good_delim d -> forall rows0 ts, rows_text d rows0 ts -> forall rows before, rows = before ++ rows0 -> Forall (fun r => List.length r = n /\ row_ok d r) rows ->
  write_rows d (columns header n rows) (List.length before) (List.length rows0) = Some ts.
Proof.
  intros Gd. induction 1 as [|r rs t ts R Rs IH]; intros rows before E F; [reflexivity|]. cbn [List.length write_rows]. unfold columns at 1.
  assert (Fr : List.length r = n /\ row_ok d r) by (rewrite Forall_forall in F; apply F; rewrite E; apply in_or_app; right; now left). destruct Fr as (Lr & Or).
  rewrite (map_opt_map _ _ (fun j => cell_node (nth j r Blank))).
  2:{ intros j _. unfold column_node. cbn [cells_of t_value obind]. unfold column. rewrite E, map_app. cbn [map]. rewrite nth_error_app2, map_length, Nat.sub_diag by (rewrite map_length; lia). reflexivity. }
  cbn [obind]. rewrite <- Lr, <- (map_map (fun j => nth j r Blank) cell_node), map_nth_seq.
  rewrite (write_row_ok d write_record cell_node Gd r t R Or) by (intros; eapply write_cell; eassumption). cbn [obind].
  specialize (IH rows (before ++ [r]) ltac:(rewrite <- app_assoc; exact E) F). rewrite app_length in IH. cbn [List.length] in IH. rewrite Nat.add_1_r, <- Lr in IH. rewrite IH. reflexivity.
Qed.
Lemma csv_write_plain d n rows ts : good_delim d -> table_ok d n rows -> rows_text d rows ts -> csv_write (columns None n rows) d = Some ts.
Proof.
  intros Gd (Ne & Hn & F) T. pose proof (write_rows_ok d None n Gd rows ts T rows [] eq_refl F) as W. cbn [List.length] in W. unfold csv_write.
  set (cols := columns None n rows) in *.
  assert (E : exists r, cols = column_node None (column rows 0) :: r) by (subst cols; destruct n; [lia|]; unfold columns; cbn [seq map]; eauto). destruct E as (cr & E).
  rewrite E at 1. cbn [cells_of column_node t_value obind t_name].
  assert (Lc : List.length (column rows 0) = List.length rows) by (unfold column; apply map_length). destruct (column rows 0) as [|c0 cl] eqn:Ec; [destruct rows; [easy|discriminate Lc]|].
  cbn [obind]. rewrite Lc, W. reflexivity.
Qed.
Lemma csv_write_header d n names rows ts : good_delim d -> table_ok d n rows -> header_ok n names -> rows_text d (map Quoted names :: rows) ts -> csv_write (columns (Some names) n rows) d = Some ts.
Proof.
  intros Gd (Ne & Hn & F) (Ln & Hh) T. inversion T as [|? ? t1 t2 R1 R2]; subst.
  assert (Or : row_ok d (map Quoted names)) by (clear -Hh; induction Hh as [|s l Hs Hl IH]; [easy|]; cbn [map row_ok]; split; [destruct (map Quoted l); exact Hs|exact IH]).
  pose proof (write_rows_ok d (Some names) (List.length names) Gd rows t2 R2 rows [] eq_refl F) as W. cbn [List.length] in W.
  assert (H : write_row write_header d (columns (Some names) (List.length names) rows) = Some t1).
  { set (g := fun c : cell => match c with Quoted s => column_node (Some s) [] | _ => column_node None [] end).
    pose proof (write_row_ok d write_header g Gd _ _ R1 Or) as H. 
    rewrite <- H.
    - unfold columns. clear. revert d.
      assert (G : forall (cs : nat -> list (tree (list Z))) s, forall d, write_row write_header d (map (fun j => column_node (nth_error names (j - s)) (cs j)) (seq s (List.length names))) = write_row write_header d (map g (map Quoted names))).
      { induction names as [|a names IH]; intros cs s d; [easy|]. cbn [List.length seq map]. cbn [write_row]. rewrite Nat.sub_diag. cbn [nth_error].
        assert (E : map (fun j => column_node (nth_error (a :: names) (j - s)) (cs j)) (seq (S s) (List.length names)) = map (fun j => column_node (nth_error names (j - S s)) (cs j)) (seq (S s) (List.length names))).
        { apply map_ext_in. intros j I. apply in_seq in I. replace (j - s)%nat with (S (j - S s)) by lia. reflexivity. }
        rewrite E. rewrite (IH cs (S s) d). unfold g at 1. unfold write_header at 1 3. cbn [column_node t_style t_name]. destruct (write_string _ _); [|easy]. cbn [obind].
        destruct names as [|b names]; [reflexivity|]. cbn [List.length seq map]. reflexivity. }
      intros d. rewrite <- (G (column rows) 0%nat d). f_equal. apply map_ext. intros j. now rewrite Nat.sub_0_r.
    - intros c l t I Ok Tc. apply in_map_iff in I. destruct I as (s & <- & _). cbn [g]. inversion Tc; subst. destruct Ok as (_ & C & L). unfold write_header. cbn [column_node t_style t_name zero_style name_style]. now apply write_quoted. }
  unfold csv_write. destruct names as [|nm names]; [cbn in Hn; lia|]. set (cols := columns (Some (nm :: names)) (List.length (nm :: names)) rows) in *.
  assert (E : exists r, cols = column_node (Some nm) (column rows 0) :: r) by (subst cols; unfold columns; cbn [List.length seq map nth_error]; eauto). destruct E as (cr & E).
  rewrite E at 1. cbn [cells_of column_node t_value obind t_name].
  assert (Lc : List.length (column rows 0) = List.length rows) by (unfold column; apply map_length). destruct (column rows 0) as [|c0 cl] eqn:Ec; [destruct rows; [easy|discriminate Lc]|].
  rewrite H. cbn [obind]. rewrite Lc, W. reflexivity.
Qed.
Lemma row_text_exists d cells : cells <> [] -> row_ok d cells -> exists t, row_text d cells t.
Proof.
  assert (C : forall l c, cell_ok d l c -> exists t, cell_text c t).
  { intros l [s|s|v|] Ok; [eexists; constructor..| |eexists; constructor]. destruct (numeral_exists v Ok) as (t & Nt). exists t. now constructor. }
  induction cells as [|c [|c' r] IH]; intros Ne O; [easy|destruct O as (Oc & Or)..].
  - destruct (C _ _ Oc) as (t & T). eexists. constructor. exact T.
  - destruct (C _ _ Oc) as (t & T). destruct (IH ltac:(discriminate) Or) as (t' & T'). eexists. constructor; eassumption.
Qed.
Lemma rows_text_exists d n rows : (0 < n)%nat -> Forall (fun r => List.length r = n /\ row_ok d r) rows -> exists ts, rows_text d rows ts.
Proof.
  intros Hn. induction 1 as [|r rs (L & O) Hl IH]; [exists []; constructor|]. destruct IH as (ts & T). destruct (row_text_exists d r) as (t & Tr); [destruct r; [cbn in L; lia|discriminate]|easy|]. eexists. constructor; eassumption.
Qed.
