(** Printing and reading the parts common to the text formats. *)
From Coq Require Import String.
From Verif Require Import Base CStr CStrSpec CStrProofs Num NumSpec NumProofs PropNum Print PrintSpec PrintProofs PrintProofs2 PropPrint Node.

Lemma fprintf_ok ps texts : Forall2 rendered ps texts -> Z.of_nat (List.length (concat texts)) + 1 < PRINTF_MAXLEN ->
  fprintf (text_of ps) (args_of ps) = Some (concat texts).
Proof.
  intros H L. unfold fprintf. unfold PRINTF_MAXLEN in L.
  destruct (C55_fits ps texts (repeat 0 (Z.to_nat PRINTF_MAXLEN)) PRINTF_MAXLEN [] [] H) as (r & E & _).
  - rewrite repeat_length. unfold PRINTF_MAXLEN. lia.
  - unfold PRINTF_MAXLEN. lia.
  - intros _. assert (R : forall n k, (k < n)%nat -> In 0 (skipn k (repeat 0 n))).
    { induction n as [|n IH]; intros k K; [lia|]. destruct k; [now left|]. cbn. apply IH. lia. }
    apply R. unfold PRINTF_MAXLEN. lia.
  - rewrite app_nil_r in E. rewrite E. cbn [obind]. unfold PRINTF_MAXLEN.
    destruct (Z.leb_spec 65536 (Z.of_nat (List.length (concat texts)) + 1)); [lia|].
    destruct (Z.ltb_spec (Z.of_nat (List.length (concat texts)) + 1) 1); [lia|].
    f_equal. replace (Z.to_nat _) with (List.length (concat texts)) by lia. apply firstn_len.
Qed.
Lemma rd_lit s : cstring s -> ~ In 37 s -> rendered (Lit s) s.
Proof. easy. Qed.
Lemma rd_str s x : cstring s -> rendered (Dir false false Absent Absent (Str s x)) s.
Proof. intros H. split; [easy|]. split; [exact I|]. exists s. split; [easy|]. unfold apply_width. cbn. now rewrite Nat.sub_0_l || (destruct (Datatypes.length s); reflexivity). Qed.
Lemma rd_chr c : 0 < c < 256 -> rendered (Dir false false Absent Absent (Chr c)) [c].
Proof. intros H. split; [easy|]. split; [exact I|]. exists [c]. split; [easy|]. reflexivity. Qed.
Definition small (n : nat) : Prop := Z.of_nat n + 1 < PRINTF_MAXLEN.

(** constants *)
Lemma fprintf_lit s : cstring s -> ~ In 37 s -> small (List.length s) -> fprintf s [] = Some s.
Proof.
  intros C N L. pose proof (fprintf_ok [Lit s] [s]) as H. cbn [text_of args_of map concat piece_text piece_args app] in H. rewrite !app_nil_r in H.
  apply H; [|easy]. constructor; [now apply rd_lit|constructor].
Qed.
Lemma fprintf_s s : cstring s -> small (List.length s) -> fprintf (asc "%s") [AS s] = Some s.
Proof.
  intros C L. pose proof (fprintf_ok [Dir false false Absent Absent (Str s [])] [s]) as H.
  cbn [concat] in H. rewrite !app_nil_r in H. apply H; [|easy]. constructor; [now apply rd_str|constructor].
Qed.
Lemma fprintf_c c : 0 < c < 256 -> fprintf (asc "%c") [AInt c] = Some [c].
Proof.
  intros C. apply (fprintf_ok [Dir false false Absent Absent (Chr c)] [[c]]); [|cbn; unfold PRINTF_MAXLEN; lia].
  constructor; [now apply rd_chr|constructor].
Qed.
Lemma fprintf_cs c s x : 0 < c < 256 -> cstring s -> small (S (List.length s)) -> fprintf (asc "%c%s") [AInt c; AStr (Some (s ++ 0 :: x))] = Some (c :: s).
Proof.
  intros Hc C L. pose proof (fprintf_ok [Dir false false Absent Absent (Chr c); Dir false false Absent Absent (Str s x)] [[c]; s]) as H.
  cbn [concat app] in H. rewrite !app_nil_r in H. apply H; [|easy]. constructor; [now apply rd_chr|]. constructor; [now apply rd_str|constructor].
Qed.
Lemma fprintf_sc c s : 0 < c < 256 -> cstring s -> small (S (List.length s)) -> fprintf (asc "%s%c") [AS s; AInt c] = Some (s ++ [c]).
Proof.
  intros Hc C L. pose proof (fprintf_ok [Dir false false Absent Absent (Str s []); Dir false false Absent Absent (Chr c)] [s; [c]]) as H.
  cbn [concat app] in H. apply H; [|rewrite app_length; cbn [List.length]; unfold small in L; lia].
  constructor; [now apply rd_str|]. constructor; [now apply rd_chr|constructor].
Qed.
(** "%.*s": the first [n] characters *)
Lemma fprintf_prec s n x : cstring s -> (n <= List.length s)%nat -> small n ->
  fprintf (asc "%.*s") [AInt (Z.of_nat n); AStr (Some (s ++ 0 :: x))] = Some (firstn n s).
Proof.
  intros C Hn L. unfold small, PRINTF_MAXLEN in L. pose proof (fprintf_ok [Dir false false Absent (Star (Z.of_nat n)) (Str s x)] [firstn n s]) as H.
  cbn [concat] in H. rewrite !app_nil_r in H. apply H; [|rewrite firstn_length_le by easy; unfold PRINTF_MAXLEN; lia].
  constructor; [|constructor]. split; [easy|]. split; [cbn; lia|]. exists s. split; [easy|].
  unfold apply_precision. cbn [PrintSpec.value]. destruct (Z.ltb_spec (Z.of_nat n) 0); [lia|]. rewrite Nat2Z.id. unfold apply_width. cbn. destruct (List.length (firstn n s)); reflexivity.
Qed.
(** integers *)
Lemma numeral_len v t : - 2^63 < v < 2^63 -> numeral 10 v t -> (List.length t <= 20)%nat.
Proof.
  intros Hv (ds & (F & C) & N & ->). rewrite app_length, map_length.
  assert (L : (List.length ds <= 19)%nat).
  { destruct C as [->|(d & r & -> & D)]; [cbn; lia|]. cbn [List.length].
    assert (F' : Forall (fun d => 0 <= d) r) by (inversion F; subst; eapply Forall_impl; [|eassumption]; cbn; lia).
    pose proof (numfrom_pow 10 ltac:(lia) r d F' ltac:(lia)) as P. change (number 10 (d :: r)) with (numfrom 10 d r) in N.
    destruct (Nat.leb_spec (List.length r) 18) as [|G]; [lia|]. exfalso.
    assert (10 ^ 19 <= 10 ^ Z.of_nat (List.length r)) by (apply Z.pow_le_mono_r; lia).
    assert (2^63 < 10^19) by reflexivity. nia. }
  destruct (v <? 0); cbn [List.length]; lia.
Qed.
Lemma sx_id w x : 0 < w -> - 2^(w-1) <= x < 2^(w-1) -> sx w x = x.
Proof.
  intros Hw H. unfold sx. assert (E : 2^w = 2 * 2^(w-1)) by (rewrite <- Z.pow_succ_r by lia; f_equal; lia).
  destruct (Z.ltb_spec (x mod 2^w) (2^(w-1))) as [L|L]; destruct (Z.ltb_spec x 0) as [N|N].
  - rewrite <- (Z_mod_plus_full x 1) in L. rewrite Z.mod_small in L by lia. lia.
  - apply Z.mod_small. lia.
  - rewrite <- (Z_mod_plus_full x 1), Z.mod_small by lia. lia.
  - rewrite Z.mod_small in L by lia. lia.
Qed.
Lemma fprintf_lld v t : - 2^63 < v < 2^63 -> numeral 10 v t -> fprintf (asc "%lld") [AInt v] = Some t.
Proof.
  intros Hv Nt. pose proof (fprintf_ok [Dir false false Absent Absent (Int Sll Id v)] [t]) as H. cbn [concat] in H. rewrite !app_nil_r in H.
  apply H.
  - constructor; [|constructor]. split; [easy|]. split; [exact I|]. exists t. split.
    + cbn. rewrite (sx_id 64 v) by lia. split; [lia|]. now exists t.
    + unfold apply_width. cbn. destruct (Datatypes.length t); reflexivity.
  - pose proof (numeral_len _ _ Hv Nt). unfold PRINTF_MAXLEN. lia.
Qed.
Lemma numeral_exists v : - 2^63 < v < 2^63 -> exists t, numeral 10 v t.
Proof.
  intros Hv. destruct (C41_i64_print 10 v [] ltac:(lia) Hv) as (ds & C & N & _). eexists. exists ds. easy.
Qed.

(** ** reading numbers *)
Lemma copy_while_ok more : forall s pre old post c x, Forall (fun a => more a = true) s -> more c = false -> List.length old = List.length s ->
  copy_while more (s ++ c :: x) (pre ++ old ++ post) (List.length pre) = Some (c :: x, pre ++ s ++ post, (List.length pre + List.length s)%nat).
Proof.
  induction s as [|a s IH]; intros pre old post c x H Hc L; destruct old as [|o old]; try discriminate L; cbn [app copy_while].
  - rewrite Hc. cbn [List.length]. now rewrite Nat.add_0_r.
  - inversion H; subst. rewrite H2. change (pre ++ (o :: old) ++ post) with (pre ++ o :: (old ++ post)). rewrite wr_at. cbn [obind].
    specialize (IH (pre ++ [a]) old post c x H3 Hc ltac:(cbn in L; lia)). rewrite <- !app_assoc in IH. rewrite app_length in IH. cbn [List.length app] in IH.
    rewrite Nat.add_comm in IH. cbn [Nat.add] in IH. rewrite IH. cbn [List.length]. do 2 f_equal. lia.
Qed.
Definition after_int (c : Z) : Prop := is_hexish c = false /\ c <> 46.
Lemma char_lower_x c : char_to_lower c =? 120 = true -> c = 120 \/ c = 88.
Proof. unfold char_to_lower. destruct (Z.leb_spec 65 c), (Z.leb_spec c 90); cbn [andb]; intros H'; apply Z.eqb_eq in H'; lia. Qed.
Lemma digit_hexish d : 0 <= d < 10 -> is_hexish (digit_char d) = true.
Proof. intros H. unfold is_hexish, char_is_hex_digit, char_is_digit, digit_char. destruct (Z.ltb_spec d 10); [|lia]. cbn [andb orb]; destruct (Z.leb_spec 48 (48 + d)), (Z.leb_spec (48 + d) 57); try lia; reflexivity. Qed.
Lemma digits_hexish ds : Forall (fun d => 0 <= d < 10) ds -> Forall (fun a => is_hexish a = true) (map digit_char ds).
Proof. induction 1; constructor; [now apply digit_hexish|easy]. Qed.
Lemma is_0X_ok text : text <> [] -> (forall c, hd_error text = Some c -> c = 48 -> (2 <= List.length text)%nat) -> exists b, is_0X text = Some b /\ (b = true <-> exists r, text = 48 :: 88 :: r).
Proof.
  intros Hne H. unfold is_0X. destruct text as [|a t]; [easy|]. cbn [strncmp rd nth_error obind tl].
  cbn [strncmp]. destruct (Z.eqb_spec a 48) as [->|N].
  - specialize (H 48 eq_refl eq_refl). destruct t as [|b t]; [cbn in H; lia|]. cbn.
    destruct (Z.eqb_spec b 88) as [->|N]; cbn.
    + exists true. split; [easy|]. split; eauto.
    + exists false. split; [easy|]. split; [easy|]. intros (r & [= -> _]). easy.
  - cbn. exists false. split; [easy|]. split; [easy|]. intros (r & [= -> _]). easy.
Qed.

Lemma parse_exp_none c x : after_int c -> parse_exp (c :: x) = Some (c :: x, 0, false).
Proof.
  intros (H & _). unfold parse_exp. cbn [rd nth_error obind]. destruct (Z.eqb_spec c 0) as [->|N]; [reflexivity|]. cbn [negb andb].
  unfold strchr. destruct (Z.eqb_spec c 0); [easy|]. change (asc "eE") with [101; 69]. cbn [orb existsb].
  destruct (Z.eqb_spec c 101) as [->|]; [discriminate H|]. destruct (Z.eqb_spec c 69) as [->|]; [discriminate H|].
  reflexivity.
Qed.
Lemma digit_char_small d : 0 <= d < 10 -> digit_char d = 48 + d.
Proof. intros. unfold digit_char. destruct (Z.ltb_spec d 10); [easy|lia]. Qed.
(** a decimal integer followed by something else *)
Lemma parse_number_int {A} v t c x : - 2^63 < v < 2^63 -> numeral 10 v t -> after_int c ->
  parse_number (A := A) (t ++ c :: x) = Some (Some (0, VInt v zero_analysis), List.length t).
Proof.
  intros Hv Nt Hc. pose proof (numeral_len _ _ Hv Nt) as L20. destruct Nt as (ds & (F & C) & N & ->).
  assert (exists d r, ds = d :: r) as (d & r & Eds) by (destruct C as [->|(d & r & -> & _)]; eauto).
  assert (Hd : 0 <= d < 10) by (subst ds; now inversion F).
  set (body := map digit_char ds ++ c :: x).
  (* the part after the sign *)
  assert (X0 : is_0x body = Some false /\ is_0X body = Some false).
  { assert (NE : body <> []) by (subst body; destruct (map digit_char ds); discriminate).
    assert (LB : forall c0, hd_error body = Some c0 -> c0 = 48 -> (2 <= List.length body)%nat) by (intros; subst body ds; cbn [map app List.length]; rewrite app_length; cbn [List.length]; lia).
    assert (G : forall y, y = 120 \/ y = 88 -> ~ exists r', body = 48 :: y :: r').
    { intros y Hy (r' & E). subst body. destruct C as [->|(d' & r2 & -> & D')].
      - cbn in E. injection E as Ec _. destruct Hc as (Hc & _). subst c. destruct Hy; subst y; discriminate Hc.
      - cbn [map app] in E. injection E as E _. inversion F; subst. rewrite digit_char_small in E by easy. lia. }
    destruct (is_0x_ok body NE LB) as ([|] & -> & B); [|destruct (is_0X_ok body NE LB) as ([|] & -> & B'); [|easy]].
    - exfalso. apply (G 120); [now left|]. now apply B.
    - exfalso. apply (G 88); [now right|]. now apply B'. }
  destruct X0 as (X0 & X1).
  assert (R0 : nth_error body 0 = Some (48 + d)) by (subst body ds; cbn [map app nth_error]; now rewrite digit_char_small).
  assert (Bd : exists q, body = (48 + d) :: q) by (subst body ds; cbn [map app]; rewrite digit_char_small by easy; eauto).
  assert (Hx : char_is_hex_digit (48 + d) = true) by (unfold char_is_hex_digit, char_is_digit; destruct (Z.leb_spec 48 (48 + d)), (Z.leb_spec (48 + d) 57); try lia; reflexivity).
  assert (Hl : (char_to_lower (48 + d) =? 120) = false).
  { destruct (char_to_lower (48 + d) =? 120) eqn:E; [|easy]. apply char_lower_x in E. lia. }
  assert (Hs : forall l, Forall (fun a => a < 48) l -> strchr l (48 + d) = false).
  { intros l Fl. unfold strchr. destruct (Z.eqb_spec (48 + d) 0); [lia|]. cbn [orb]. induction Fl as [|a l Ha Fl IH]; [easy|]. cbn [existsb]. destruct (Z.eqb_spec (48 + d) a); [lia|]. easy. }
  destruct Hc as (Hc & Hdot). pose proof (digits_hexish ds F) as HX.
  assert (DEN : Forall2 (denotes 10) (map digit_char ds) ds) by (apply denotes_chars; [lia|easy]).
  pose proof (numfrom_ge 10 ltac:(lia) ds 0 ltac:(eapply Forall_impl; [|exact F]; cbn; lia) ltac:(lia)) as Npos. change (numfrom 10 0 ds) with (number 10 ds) in Npos.
  assert (SE : strchr (asc "eE") (48 + d) = false).
  { unfold strchr. change (asc "eE") with [101; 69]. cbn [existsb].
    destruct (Z.eqb_spec (48 + d) 0), (Z.eqb_spec (48 + d) 101), (Z.eqb_spec (48 + d) 69); try lia; reflexivity. }
  assert (SD : strchr (asc ".+-") (48 + d) = false).
  { apply Hs. cbn [asc]. repeat constructor; reflexivity. }
  assert (CS : cstring (map digit_char ds)) by (apply (chars_cs 10); [lia|easy]).
  assert (Cnm : forall s z, (forall r', s <> 48 :: 120 :: r') -> cstring s -> guess_base (s ++ 0 :: z) 0 = Some 10).
  { intros s z Hs' Cs. destruct (guess_ok s z Cs) as (b & -> & _ & B2). f_equal. apply B2. intros (r' & E & _). now apply (Hs' r'). }
  destruct (Z.ltb_spec v 0) as [Neg|Pos].
  - (* negative *)
    cbn [app]. fold body. destruct Bd as (q & Bd). unfold parse_number, rd. cbn [nth_error obind].
    change (strchr (asc "eE") 45) with false. change (strchr (asc ".+-") 45) with true. cbn match.
    rewrite Bd at 1. cbn [nth_error obind]. rewrite Hx. cbn [negb andb obind].
    change (45 =? 43) with false. change (45 =? 45) with true. cbn match.
    change (wr (repeat 0 48) 0 45) with (Some (45 :: repeat 0 47)). cbn [obind tl]. change (match body with [] => None | x0 :: _ => Some x0 end) with (nth_error body 0). rewrite R0. cbn [obind].
    destruct (Z.eqb_spec (48 + d) 46); [lia|]. rewrite X0, X1. cbn [obind orb]. rewrite Hl. cbn [andb].
    assert (L19 : (List.length ds <= 46)%nat) by (rewrite app_length, map_length in L20; cbn [List.length] in L20; lia).
    replace (repeat 0 47) with (repeat 0 (List.length (map digit_char ds)) ++ repeat 0 (47 - List.length ds)) by (rewrite <- repeat_app, map_length; f_equal; lia).
    pose proof (copy_while_ok is_hexish (map digit_char ds) [45] (repeat 0 (List.length (map digit_char ds))) (repeat 0 (47 - List.length ds)) c x HX Hc (repeat_length _ _)) as CW.
    cbn [app List.length] in CW. fold body in CW. rewrite CW. cbn [obind rd nth_error]. destruct (Z.eqb_spec c 46); [easy|]. cbn [obind].
    destruct (Z.eqb_spec c 46); [easy|]. rewrite parse_exp_none by easy. cbn [obind]. change (45 =? 45) with true.
    replace (47 - List.length ds)%nat with (S (46 - List.length ds)) by lia. cbn [repeat].
    unfold str_to_i64. change (45 :: map digit_char ds ++ 0 :: repeat 0 (46 - List.length ds)) with ((45 :: map digit_char ds) ++ 0 :: repeat 0 (46 - List.length ds)) at 1.
    rewrite Cnm; [|intros r' E; discriminate E|constructor; [lia|easy]]. cbn [obind].
    rewrite (scan_i64_neg 10 _ ds) by (try easy; try lia; intros; apply no_nul). destruct (Z.ltb_spec (number 10 ds) (2^63)); [|lia]. cbn [obind].
    change (mul_times (Z.to_nat 0) (- number 10 ds) 10) with (Some (- number 10 ds)). cbn [obind].
    replace (- number 10 ds) with v by lia. destruct (Z.eqb_spec v 0); [lia|]. cbn [andb]. do 3 f_equal. subst body. cbn [List.length]. rewrite app_length. cbn [List.length]. lia.
  - cbn [app]. fold body. destruct Bd as (q & Bd). unfold parse_number, rd. rewrite R0. cbn [obind]. rewrite SE, SD. cbn [obind].
    destruct (Z.eqb_spec (48 + d) 43); [lia|]. destruct (Z.eqb_spec (48 + d) 45); [lia|]. cbn [obind]. rewrite R0. cbn [obind].
    destruct (Z.eqb_spec (48 + d) 46); [lia|]. rewrite X0, X1. cbn [obind orb]. rewrite Hl. cbn [andb].
    assert (L19 : (List.length ds <= 46)%nat) by (rewrite app_length, map_length in L20; cbn [List.length] in L20; lia).
    replace (repeat 0 48) with (repeat 0 (List.length (map digit_char ds)) ++ repeat 0 (48 - List.length ds)) by (rewrite <- repeat_app, map_length; f_equal; lia).
    pose proof (copy_while_ok is_hexish (map digit_char ds) [] (repeat 0 (List.length (map digit_char ds))) (repeat 0 (48 - List.length ds)) c x HX Hc (repeat_length _ _)) as CW.
    cbn [app List.length] in CW. fold body in CW. rewrite CW. cbn [obind rd nth_error]. destruct (Z.eqb_spec c 46); [easy|]. cbn [obind].
    destruct (Z.eqb_spec c 46); [easy|]. rewrite parse_exp_none by easy. cbn [obind].
    replace (nth_error (map digit_char ds ++ repeat 0 (48 - List.length ds)) 0) with (Some (48 + d)) by (subst ds; cbn [map app nth_error]; now rewrite digit_char_small). cbn [obind].
    destruct (Z.eqb_spec (48 + d) 45); [lia|].
    replace (48 - List.length ds)%nat with (S (47 - List.length ds)) by lia. cbn [repeat].
    unfold str_to_i64.
    rewrite Cnm; [| |easy].
    2:{ intros r' E. rewrite Eds in E. cbn [map] in E. rewrite digit_char_small in E by easy. pose proof (f_equal (hd 0) E) as E9. cbn [hd] in E9. assert (d = 0) by lia. destruct C as [->|(d' & r2 & -> & D')]; [injection Eds as <- <-; discriminate E|injection Eds as -> ->; lia]. }
    cbn [obind]. rewrite (scan_i64_pos 10 _ ds) by (try easy; try lia; intros; apply no_nul). destruct (Z.ltb_spec (number 10 ds) (2^63)); [|lia]. cbn [obind].
    change (mul_times (Z.to_nat 0) (number 10 ds) 10) with (Some (number 10 ds)). cbn [obind].
    replace (number 10 ds) with v by lia. rewrite Eds at 1. cbn [map app obind]. rewrite digit_char_small by easy. destruct (Z.eqb_spec (48 + d) 45); [lia|]. rewrite andb_false_r. do 3 f_equal. subst body. rewrite app_length. cbn [List.length]. lia.
Qed.

(** the children of a branch, seen through the text *)
Definition views (text : list Z) : list (tree ptr) -> option (list (tree (list Z))) :=
  fix go l := match l with [] => Some [] | x :: r => x <- view text x ;; r <- go r ;; Some (x :: r) end.
Lemma views_nil text : views text [] = Some [].
Proof. reflexivity. Qed.
Lemma views_cons text x r : views text (x :: r) = (x <- view text x ;; r <- views text r ;; Some (x :: r)).
Proof. reflexivity. Qed.
Lemma view_branch text p st arr l : view text (Tree None p st (VBranch arr l)) = (l <- views text l ;; Some (Tree None p st (VBranch arr l))).
Proof.
  assert (E : view text (Tree None p st (VBranch arr l)) = (v <- (l <- views text l ;; Some (VBranch arr l)) ;; Some (Tree None p st v))) by reflexivity.
  rewrite E. destruct (views text l); reflexivity.
Qed.
Lemma views_app text : forall l1 l2 x1 x2, views text l1 = Some x1 -> views text l2 = Some x2 -> views text (l1 ++ l2) = Some (x1 ++ x2).
Proof.
  induction l1 as [|t l1 IH]; intros l2 x1 x2 H1 H2; cbn [app] in *; [injection H1 as <-; easy|]. rewrite views_cons in H1 |- *.
  destruct (view text t) as [y|]; [|discriminate]. cbn [obind] in *. destruct (views text l1) as [ys|] eqn:E; [|discriminate]. injection H1 as <-.
  rewrite (IH l2 ys x2) by easy. reflexivity.
Qed.

(** ** strings with characters escaped *)
Definition escape (escaped symbol s : list Z) : list Z := flat_map (fun c => if existsb (Z.eqb c) escaped then symbol ++ [c] else [c]) s.
Lemma escape_none escaped symbol : forall s, (forall c, In c s -> ~ In c escaped) -> escape escaped symbol s = s.
Proof.
  induction s as [|c s IH]; intros H; [easy|]. unfold escape in *. cbn [flat_map]. destruct (existsb (Z.eqb c) escaped) eqn:E.
  - exfalso. apply existsb_exists in E. destruct E as (c' & I & E). apply Z.eqb_eq in E. subst c'. apply (H c); [now left|easy].
  - cbn [app]. rewrite IH; [easy|]. intros c' I. apply H. now right.
Qed.
Lemma escape_app escaped symbol s t : escape escaped symbol (s ++ t) = escape escaped symbol s ++ escape escaped symbol t.
Proof. unfold escape. apply flat_map_app. Qed.
Lemma print_string_loop_ok escaped symbol : cstring escaped -> cstring symbol -> small (S (List.length symbol)) -> forall f s, (List.length s < f)%nat -> cstring s -> small (List.length s) ->
  print_string_loop f (s ++ [0]) escaped symbol = Some (escape escaped symbol s).
Proof.
  intros Ce Cs Ls. induction f as [|f IH]; intros s Hf C L; [lia|]. cbn [print_string_loop].
  destruct (skip_any_ok s [] escaped [] C Ce) as (n & -> & Hn & Hno & Hyes). cbn [obind].
  rewrite (fprintf_prec s n []) by (try easy; unfold small in *; lia). cbn [obind].
  assert (E1 : escape escaped symbol (firstn n s) = firstn n s).
  { apply escape_none. intros c I Ie. exact (Hno c Ie I). }
  destruct (Nat.eq_dec n (List.length s)) as [->|Nn].
  - replace (rd (s ++ [0]) (List.length s)) with (Some 0) by (symmetry; apply rd_at). cbn [obind]. change (negb (0 =? 0)) with false. cbn [andb obind]. rewrite skipn_len. cbn [rd nth_error obind]. change (0 =? 0) with true. cbn match.
    rewrite firstn_all in E1 |- *. now rewrite E1.
  - assert (exists a c b, s = a ++ c :: b /\ List.length a = n) as (a & c & b & -> & La).
    { destruct (nth_error s n) as [c|] eqn:En; [|apply nth_error_None in En; lia]. apply nth_error_split in En. destruct En as (a & b & -> & La). eauto. }
    subst n. rewrite <- app_assoc. cbn [app]. rewrite rd_at. cbn [obind].
    apply Forall_app in C. destruct C as (Ca & Cb). inversion Cb as [|? ? Cc Cb']; subst.
    assert (I : In c escaped).
    { apply Hyes. rewrite nth_error_app2, Nat.sub_diag by lia. reflexivity. }
    destruct (Z.eqb_spec c 0); [lia|]. cbn [negb andb]. assert (Ec : existsb (Z.eqb c) escaped = true) by (apply existsb_exists; exists c; split; [easy|apply Z.eqb_refl]).
    unfold strchr. rewrite Ec, orb_true_r. rewrite fprintf_sc by easy. cbn [obind].
    replace (skipn (S (List.length a)) (a ++ c :: b ++ [0])) with (b ++ [0]) by (replace (a ++ c :: b ++ [0]) with ((a ++ [c]) ++ b ++ [0]) by (now rewrite <- app_assoc); replace (S (List.length a)) with (List.length (a ++ [c])) by (rewrite app_length; cbn; lia); now rewrite skipn_len).
    rewrite firstn_len in *. rewrite escape_app, E1. unfold escape at 1. cbn [flat_map]. rewrite Ec. fold (escape escaped symbol b).
    rewrite app_length in Hf, L. cbn [List.length] in Hf, L.
    destruct b as [|c2 b2] eqn:Eb; cbn [app rd nth_error obind].
    + change (0 =? 0) with true. cbn match. cbn [escape flat_map]. now rewrite app_nil_r.
    + inversion Cb'; subst. destruct (Z.eqb_spec c2 0); [lia|]. change (c2 :: b2 ++ [0]) with ((c2 :: b2) ++ [0]). rewrite IH by (try easy; unfold small in *; lia). cbn [obind]. rewrite <- !app_assoc. reflexivity.
Qed.
Lemma print_string_ok escaped symbol s : cstring escaped -> cstring symbol -> small (S (List.length symbol)) -> cstring s -> small (List.length s) ->
  print_string (Some s) escaped symbol = Some (escape escaped symbol s).
Proof. intros. unfold print_string. apply print_string_loop_ok; try easy. lia. Qed.
